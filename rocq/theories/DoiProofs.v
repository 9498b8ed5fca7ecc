(** Exactly which DOIs are tagged in a line (tag.py 1442-1471, regexs.py 822-836). *)
From Coq Require Import List Arith NArith Bool String Lia.
From Verif Require Import PyStr ListFacts Regex RegexParse Patterns RegexMeta RegexLang RegexWords Numeration DocText Tag WashProofs BookProofs UrlProofs CaptureLang FoundProofs TaggerProofs.
Import ListNotations.
Local Open Scope nat_scope.
Local Notation length := List.length.
Local Notation concat := List.concat.
Local Notation lits := CaptureLang.lits.

(** ** The grammar *)
Definition may (c : ch) (w : str) : Prop := w = [] \/ w = [c].
Definition spaces (w : str) : Prop := forallb is_space w = true.
(** [caseless word w]: [w] is [word] in capital or small letters *)
Definition caseless (word w : str) : Prop := letters true word w.
Definition lead_word (w : str) : Prop := exists p d s q col t, w = p ++ d ++ s ++ q ++ col ++ t /\ may 40%N p /\ caseless (py "doi") d /\ spaces s /\ may 41%N q /\ may 58%N col /\ spaces t.
Definition lead_address (w : str) : Prop := exists h s c dx o, w = h ++ s ++ c ++ dx ++ o /\ caseless (py "http") h /\ (s = [] \/ caseless (py "s") s) /\ caseless (py "://") c
  /\ (dx = [] \/ caseless (py "dx.") dx) /\ caseless (py "doi.org/") o.
Definition lead_of_doi (w : str) : Prop := w = [] \/ lead_word w \/ lead_address w.
Definition registrant (w : str) : Prop := exists ds subs sl, w = py "10." ++ ds ++ concat (map (cons 46%N) subs) ++ sl /\ 3 <= length ds <= 7 /\ forallb is_digit ds = true
  /\ Forall (fun v => v <> [] /\ forallb is_word v = true) subs /\ (sl = [47%N] \/ caseless (py "%2f") sl).
Definition doi_suffix (t : str) : Prop := exists u d, t = u ++ [d] /\ u <> [] /\ forallb doi_char u = true /\ doi_end d = true.
(** the lead, the DOI *)
Definition doi_form (w body : str) : Prop := exists lead pre t, w = lead ++ body /\ body = pre ++ t /\ lead_of_doi lead /\ registrant pre /\ doi_suffix t.

(** ** The pattern *)
Definition ci1 (c : ch) : re := Cls (mkcls false true [CRange c c]).
Definition both (c d : ch) : cls := mkcls false true [CRange c c; CRange d d].
Definition lead1 : re := Cat (Rep true 0 (Some 1) (ci1 40%N)) (Cat (Cls (both 68%N 100%N)) (Cat (Cls (both 79%N 111%N)) (Cat (Cls (both 73%N 105%N))
  (Cat (Rep true 0 None (Grp 3 (Cls spc))) (Cat (Rep true 0 (Some 1) (ci1 41%N)) (Cat (Rep true 0 (Some 1) (ci1 58%N)) (Rep true 0 None (Grp 4 (Cls spc))))))))).
Definition lead2 : re := lits true (py "http") (Cat (Rep true 0 (Some 1) (ci1 115%N)) (lits true (py "://") (Cat (Rep true 0 (Some 1) (Grp 6 (word_re true (py "dx.")))) (word_re true (py "doi.org/"))))).
Definition lead_re : re := Rep true 0 (Some 1) (Grp 1 (Alt (Grp 2 lead1) (Grp 5 lead2))).
Definition dig : cls := mkcls false false [CDigit true].
Definition wrd : cls := mkcls false false [CWord true].
Definition sub_re : re := Grp 8 (Cat (ci1 46%N) (Rep true 1 None (Cls wrd))).
Definition slash_re : re := Grp 9 (Alt (ci1 47%N) (word_re true (py "%2f"))).
Definition tail_re : re := Cat (Rep true 1 None (Cls doi_cls1)) (Cls doi_cls2).
Definition body_re : re := lits true (py "10.") (Cat (Rep true 3 (Some 7) (Cls dig)) (Cat (Rep true 0 None sub_re) (Cat slash_re tail_re))).
Lemma doi_is : rx_re re_doi = Cat lead_re (Grp 7 body_re). Proof. reflexivity. Qed.
Lemma doi_fair : fair (rx_re re_doi) = true. Proof. reflexivity. Qed.
Lemma doi_min : 1 <= minlen (rx_re re_doi). Proof. vm_compute. lia. Qed.

(** ** Classes *)
Lemma dig_mem c : cls_mem dig c = is_digit c. Proof. unfold cls_mem, dig. cbn [c_neg c_ci c_items existsb item_mem]. destruct (is_digit c); reflexivity. Qed.
Lemma wrd_mem c : cls_mem wrd c = is_word c. Proof. unfold cls_mem, wrd. cbn [c_neg c_ci c_items existsb item_mem]. destruct (is_word c); reflexivity. Qed.
Lemma only_itself c d : simple c = true -> in_range 97%N 122%N c = false -> cls_mem (mkcls false true [CRange c c]) d = true <-> d = c.
Proof.
  intros S N. change (mkcls false true [CRange c c]) with (ci_cls c). rewrite (simple_letter c d S). unfold same_letter. split; [|auto]. intros [->|(L & _)]; auto. exfalso. unfold in_range in N. apply andb_false_iff in N as [N|N]; apply N.leb_gt in N; lia.
Qed.
Lemma members_in c d : In d (members c) -> cls_mem c d = true.
Proof. unfold members. generalize candidates. intros l H. apply filter_In in H as [_ H]. exact H. Qed.
Lemma both_mem c d x : small (both c d) = true -> small (ci_cls d) = true -> members (both c d) = members (ci_cls d) -> cls_mem (both c d) x = true <-> cls_mem (ci_cls d) x = true.
Proof.
  intros S1 S2 E. split; intros M.
  - apply (small_members _ _ S1) in M. rewrite E in M. exact (members_in _ _ M).
  - apply (small_members _ _ S2) in M. rewrite <- E in M. exact (members_in _ _ M).
Qed.
Lemma both_d x : cls_mem (both 68%N 100%N) x = true <-> cls_mem (ci_cls 100%N) x = true. Proof. apply both_mem; vm_compute; reflexivity. Qed.
Lemma both_o x : cls_mem (both 79%N 111%N) x = true <-> cls_mem (ci_cls 111%N) x = true. Proof. apply both_mem; vm_compute; reflexivity. Qed.
Lemma both_i x : cls_mem (both 73%N 105%N) x = true <-> cls_mem (ci_cls 105%N) x = true. Proof. apply both_mem; vm_compute; reflexivity. Qed.
Lemma range_char c x : simple c = true -> in_range 97%N 122%N c = false -> item_mem true x (CRange c c) = true <-> x = c.
Proof. intros S N. rewrite <- (only_itself c x S N). unfold cls_mem. cbn [c_neg c_ci c_items existsb]. now rewrite orb_false_r, xorb_false_l. Qed.
Lemma class_chars s : forallb (fun c => simple c && negb (in_range 97%N 122%N c)) s = true -> forall x, existsb (item_mem true x) (map (fun c => CRange c c) s) = mem_ch x s.
Proof.
  intros H x. apply eq_true_iff_eq. unfold mem_ch. rewrite !existsb_exists. rewrite forallb_forall in H. split.
  - intros (i & I & M). apply in_map_iff in I as (c & <- & I). specialize (H c I). apply andb_true_iff in H as [H1 H2]. apply negb_true_iff in H2. apply range_char in M; auto. exists c. split; auto. apply N.eqb_eq. auto.
  - intros (c & I & M). apply N.eqb_eq in M. subst c. exists (CRange x x). split; [apply (in_map (fun c => CRange c c)); auto|]. specialize (H x I). apply andb_true_iff in H as [H1 H2]. apply negb_true_iff in H2. now apply range_char.
Qed.
Lemma char_mem x : cls_mem doi_cls1 x = doi_char x.
Proof.
  unfold doi_char. change (cls_mem doi_cls1 x) with (xorb false (existsb (item_mem true x) (CWord true :: map (fun c => CRange c c) (py "-_:;()/.<>")))). rewrite xorb_false_l. cbn [existsb item_mem]. rewrite class_chars by reflexivity. now destruct (is_word x).
Qed.
Lemma end_mem x : cls_mem doi_cls2 x = doi_end x.
Proof.
  unfold doi_end. change (cls_mem doi_cls2 x) with (xorb false (existsb (item_mem true x) (CWord true :: map (fun c => CRange c c) (py "-_:;()/<>")))). rewrite xorb_false_l. cbn [existsb item_mem]. rewrite class_chars by reflexivity. now destruct (is_word x).
Qed.

(** ** Reading *)
Lemma rd_many i k a w b : (exists c, rd (Rep true 0 None (Grp i (Cls k))) a w b c) <-> forallb (cls_mem k) w = true.
Proof.
  split.
  - intros (c & H). change (reps (rd (Grp i (Cls k))) 0 None a w b c) in H. remember 0 as mn. remember (@None nat) as mx. induction H as [|mn mx a u v b c1 c2 N P R IH]; [reflexivity|].
    apply rd_grp in P as (c' & -> & P). apply rd_cls in P as (d & -> & D & ->). cbn [app forallb]. rewrite D. subst. now apply IH.
  - revert a. induction w as [|d w IH]; intros a H; [exists []; constructor|]. cbn [forallb] in H. apply andb_true_iff in H as [D H]. destruct (IH (a ++ [d]) H) as (c & R). exists (c ++ [(i, [d])]).
    change (reps (rd (Grp i (Cls k))) 0 None a ([d] ++ w) b (c ++ [(i, [d])])). constructor; [discriminate| |exact R]. apply rd_grp. exists []. split; auto. apply rd_cls. eauto.
Qed.
Lemma rd_may c a w b : simple c = true -> in_range 97%N 122%N c = false -> (exists k, rd (Rep true 0 (Some 1) (ci1 c)) a w b k) <-> may c w.
Proof.
  intros S N. unfold may. split.
  - intros (k & H). apply rd_opt in H as [[-> _]|H]; auto. apply rd_cls in H as (d & -> & D & _). apply only_itself in D; auto. subst. auto.
  - intros [->| ->]; [exists []; apply rd_opt; auto|]. exists []. apply rd_opt. right. apply rd_cls. exists c. split; auto. split; auto. now apply only_itself.
Qed.
Lemma rd_then r1 r2 a w b : (exists c, rd (Cat r1 r2) a w b c) <-> exists u v, w = u ++ v /\ (exists c, rd r1 a u (v ++ b) c) /\ exists c, rd r2 (a ++ u) v b c.
Proof.
  split.
  - intros (c & H). apply rd_cat in H as (u & v & c1 & c2 & -> & _ & H1 & H2). exists u, v. eauto.
  - intros (u & v & -> & (c1 & H1) & c2 & H2). exists (c2 ++ c1). apply rd_cat. exists u, v, c1, c2. auto.
Qed.
Lemma rd_letter c d a w b : (forall x, cls_mem (both c d) x = true <-> cls_mem (ci_cls d) x = true) -> (exists k, rd (Cls (both c d)) a w b k) <-> caseless [d] w.
Proof.
  intros E. unfold caseless. rewrite letters_one. split.
  - intros (k & H). apply rd_cls in H as (x & -> & H & _). exists x. split; auto. now apply E.
  - intros (x & -> & H). exists []. apply rd_cls. exists x. split; auto. split; auto. now apply E.
Qed.
Lemma all_spaces w : forallb (cls_mem spc) w = true <-> spaces w. Proof. unfold spaces. rewrite (class_all spc is_space) by apply space_mem. reflexivity. Qed.
Lemma rd_lead1 a w b : (exists c, rd lead1 a w b c) <-> lead_word w.
Proof.
  unfold lead1, lead_word. change (py "doi") with ([100] ++ [111] ++ [105])%N. split.
  - intros H. apply rd_then in H as (p & w1 & -> & P & H). apply rd_may in P; auto. apply rd_then in H as (d1 & w2 & -> & D1 & H). apply rd_letter in D1; [|exact both_d]. apply rd_then in H as (d2 & w3 & -> & D2 & H). apply rd_letter in D2; [|exact both_o].
    apply rd_then in H as (d3 & w4 & -> & D3 & H). apply rd_letter in D3; [|exact both_i]. apply rd_then in H as (s & w5 & -> & S & H). apply rd_many in S. apply rd_then in H as (q & w6 & -> & Q & H). apply rd_may in Q; auto.
    apply rd_then in H as (col & t & -> & C & H). apply rd_may in C; auto. apply rd_many in H. exists p, (d1 ++ d2 ++ d3), s, q, col, t. rewrite <- !app_assoc. split; auto. split; auto.
    split; [apply letters_app; exists d1, (d2 ++ d3); split; auto; split; auto; apply letters_app; exists d2, d3; auto|]. split; [now apply all_spaces|]. split; auto. split; auto. now apply all_spaces.
  - intros (p & d & s & q & col & t & -> & P & D & S & Q & C & T). unfold caseless in D. apply (letters_app true [100%N]) in D as (d1 & d' & -> & D1 & D). apply (letters_app true [111%N]) in D as (d2 & d3 & -> & D2 & D3). rewrite <- !app_assoc.
    apply rd_then. exists p. eexists. split; [reflexivity|]. split; [now apply rd_may|]. apply rd_then. exists d1. eexists. split; [reflexivity|]. split; [apply rd_letter; [exact both_d|assumption]|]. apply rd_then. exists d2. eexists. split; [reflexivity|]. split; [apply rd_letter; [exact both_o|assumption]|].
    apply rd_then. exists d3. eexists. split; [reflexivity|]. split; [apply rd_letter; [exact both_i|assumption]|]. apply rd_then. exists s. eexists. split; [reflexivity|]. split; [apply rd_many; now apply all_spaces|]. apply rd_then. exists q. eexists. split; [reflexivity|]. split; [now apply rd_may|].
    apply rd_then. exists col. eexists. split; [reflexivity|]. split; [now apply rd_may|]. apply rd_many. now apply all_spaces.
Qed.
Lemma rd_lits_ex word r a w b : (exists c, rd (lits true word r) a w b c) <-> exists u v, w = u ++ v /\ caseless word u /\ exists c, rd r (a ++ u) v b c.
Proof.
  split.
  - intros (c & H). apply rd_lits in H as (u & v & -> & U & H). exists u, v. eauto.
  - intros (u & v & -> & U & c & H). exists c. apply rd_lits. exists u, v. auto.
Qed.
Lemma rd_word_ex word a w b : word <> [] -> (exists c, rd (word_re true word) a w b c) <-> caseless word w.
Proof. intros N. split; [intros (c & H); apply rd_word in H as (H & _); auto|]. intros H. exists []. apply rd_word; auto. Qed.
Lemma rd_grp_ex i r a w b : (exists c, rd (Grp i r) a w b c) <-> exists c, rd r a w b c.
Proof. split; [intros (c & H); apply rd_grp in H as (c' & _ & H); eauto|]. intros (c & H). exists ((i, w) :: c). apply rd_grp. eauto. Qed.
Lemma rd_opt_ex r a w b : (exists c, rd (Rep true 0 (Some 1) r) a w b c) <-> w = [] \/ exists c, rd r a w b c.
Proof. split; [intros (c & H); apply rd_opt in H as [[H _]|H]; eauto|]. intros [->|(c & H)]; [exists []|exists c]; apply rd_opt; auto. Qed.
Lemma rd_alt_ex r1 r2 a w b : (exists c, rd (Alt r1 r2) a w b c) <-> (exists c, rd r1 a w b c) \/ exists c, rd r2 a w b c.
Proof. split; [intros (c & [H|H]); eauto|]. intros [(c & H)|(c & H)]; exists c; [now left|now right]. Qed.
Lemma rd_one_ex c a w b : (exists k, rd (ci1 c) a w b k) <-> caseless [c] w.
Proof. unfold caseless. rewrite letters_one. split; [intros (k & H); apply rd_cls in H as (d & -> & H & _); eauto|]. intros (d & -> & H). exists []. apply rd_cls. eauto. Qed.
Lemma rd_lead2 a w b : (exists c, rd lead2 a w b c) <-> lead_address w.
Proof.
  unfold lead2, lead_address. rewrite rd_lits_ex. split.
  - intros (h & w1 & -> & H & K). apply rd_then in K as (s & w2 & -> & S & K). apply rd_opt_ex in S. rewrite rd_one_ex in S. apply rd_lits_ex in K as (c & w3 & -> & C & K). apply rd_then in K as (dx & o & -> & D & K). apply rd_opt_ex in D. rewrite rd_grp_ex, rd_word_ex in D by discriminate. apply rd_word_ex in K; [|discriminate].
    exists h, s, c, dx, o. auto 10.
  - intros (h & s & c & dx & o & -> & H & S & C & D & O). exists h. eexists. split; [reflexivity|]. split; auto. apply rd_then. exists s. eexists. split; [reflexivity|]. split; [apply rd_opt_ex; rewrite rd_one_ex; auto|]. apply rd_lits_ex. exists c. eexists. split; [reflexivity|]. split; auto.
    apply rd_then. exists dx, o. split; auto. split; [apply rd_opt_ex; rewrite rd_grp_ex, rd_word_ex by discriminate; auto|]. now apply rd_word_ex.
Qed.
Lemma rd_lead a w b : (exists c, rd lead_re a w b c) <-> lead_of_doi w.
Proof. unfold lead_re, lead_of_doi. rewrite rd_opt_ex, rd_grp_ex, rd_alt_ex, !rd_grp_ex, rd_lead1, rd_lead2. reflexivity. Qed.
Lemma rd_sub a w b : (exists c, rd sub_re a w b c) <-> exists v, w = 46%N :: v /\ v <> [] /\ forallb is_word v = true.
Proof.
  unfold sub_re. rewrite rd_grp_ex, rd_then. split.
  - intros (u & v & -> & U & c & V). rewrite rd_one_ex in U. unfold caseless in U; apply letters_one in U as (d & -> & D). apply only_itself in D; auto. subst d. apply rd_rep_cls in V as (V & L & _ & _). rewrite (class_all wrd is_word) in V by apply wrd_mem. exists v. split; auto. split; auto. destruct v; [cbn in L; lia|discriminate].
  - intros (v & -> & N & V). exists [46%N], v. split; auto. split; [apply rd_one_ex, letters_one; exists 46%N; split; auto|]. exists []. apply rd_rep_cls. rewrite (class_all wrd is_word) by apply wrd_mem. split; auto. split; [destruct v; [congruence|cbn; lia]|]. cbn. auto.
Qed.
Lemma rd_subs a w b : (exists c, rd (Rep true 0 None sub_re) a w b c) <-> exists subs, w = concat (map (cons 46%N) subs) /\ Forall (fun v => v <> [] /\ forallb is_word v = true) subs.
Proof.
  split.
  - intros (c & H). change (reps (rd sub_re) 0 None a w b c) in H. remember 0 as mn. remember (@None nat) as mx. induction H as [|mn mx a u v b c1 c2 N P R IH]; [exists []; auto|].
    subst. destruct (IH eq_refl eq_refl) as (subs & -> & F). destruct (proj1 (rd_sub _ _ _) (ex_intro _ _ P)) as (x & -> & X). exists (x :: subs). split; auto.
  - intros (subs & -> & F). revert a. induction F as [|x subs X F IH]; intros a; [exists []; constructor|]. destruct (IH (a ++ 46%N :: x)) as (c & R). cbn [map concat].
    destruct (proj2 (rd_sub a (46%N :: x) (concat (map (cons 46%N) subs) ++ b)) (ex_intro _ x (conj eq_refl X))) as (c1 & P). exists (c ++ c1). change (reps (rd sub_re) 0 None a ((46%N :: x) ++ concat (map (cons 46%N) subs)) b (c ++ c1)). constructor; [discriminate|exact P|exact R].
Qed.
Lemma rd_slash a w b : (exists c, rd slash_re a w b c) <-> w = [47%N] \/ caseless (py "%2f") w.
Proof.
  unfold slash_re. rewrite rd_grp_ex, rd_alt_ex, rd_one_ex, rd_word_ex by discriminate. unfold caseless at 1. rewrite letters_one. split.
  - intros [(d & -> & D)|H]; auto. apply only_itself in D; auto. subst. auto.
  - intros [->|H]; auto. left. exists 47%N. split; auto.
Qed.
Lemma ten w : caseless (py "10.") w <-> w = py "10.".
Proof.
  unfold caseless. change (py "10.") with ([49] ++ [48] ++ [46])%N. rewrite letters_app. split.
  - intros (x & y & -> & X & Y). apply letters_app in Y as (y1 & y2 & -> & Y1 & Y2). apply letters_one in X as (d & -> & D), Y1 as (e & -> & E), Y2 as (f & -> & F). apply only_itself in D, E, F; auto. now subst.
  - intros ->. exists [49]%N, [48; 46]%N. split; auto. split; [apply letters_one; eexists; split; reflexivity|]. apply letters_app. exists [48]%N, [46]%N. split; auto. split; apply letters_one; eexists; split; reflexivity.
Qed.
Lemma rd_tail a w b : (exists c, rd tail_re a w b c) <-> doi_suffix w.
Proof.
  unfold tail_re, doi_suffix. rewrite rd_then. split.
  - intros (u & v & -> & (c & U) & (c' & V)). apply rd_rep_cls in U as (U & L & _). apply rd_cls in V as (d & -> & D & _). rewrite (class_all doi_cls1 doi_char) in U by apply char_mem. rewrite end_mem in D. exists u, d. split; auto. split; auto. destruct u; [cbn in L; lia|discriminate].
  - intros (u & d & -> & N & U & D). exists u, [d]. split; auto. split; exists [].
    + apply rd_rep_cls. rewrite (class_all doi_cls1 doi_char) by apply char_mem. split; auto. split; [destruct u; [congruence|cbn; lia]|cbn; auto].
    + apply rd_cls. exists d. rewrite end_mem. auto.
Qed.
Lemma rd_body a w b : (exists c, rd body_re a w b c) <-> exists pre t, w = pre ++ t /\ registrant pre /\ doi_suffix t.
Proof.
  unfold body_re, registrant. rewrite rd_lits_ex. split.
  - intros (u & w1 & -> & U & H). apply ten in U as ->. apply rd_then in H as (ds & w2 & -> & (c & D) & H). apply rd_rep_cls in D as (D & L1 & L2 & _). rewrite (class_all dig is_digit) in D by apply dig_mem. cbn [le_max] in L2.
    apply rd_then in H as (ss & w3 & -> & S & H). apply rd_subs in S as (subs & -> & S). apply rd_then in H as (sl & t & -> & K & H). apply rd_slash in K. apply rd_tail in H.
    exists (py "10." ++ ds ++ concat (map (cons 46%N) subs) ++ sl), t. rewrite <- !app_assoc. split; auto. split; auto. exists ds, subs, sl. auto 10.
  - intros (pre & t & -> & (ds & subs & sl & -> & L & D & S & K) & T). rewrite <- !app_assoc. exists (py "10."). eexists. split; [reflexivity|]. split; [now apply ten|]. apply rd_then. exists ds. eexists. split; [reflexivity|].
    split; [exists []; apply rd_rep_cls; rewrite (class_all dig is_digit) by apply dig_mem; cbn [le_max]; split; [exact D|]; split; [exact (proj1 L)|]; split; [exact (proj2 L)|reflexivity]|]. apply rd_then. eexists. eexists. split; [reflexivity|]. split; [apply rd_subs; eauto|]. apply rd_then. exists sl, t. split; auto. split; [now apply rd_slash|]. now apply rd_tail.
Qed.
Lemma rd_doi a w b : (exists c, rd (rx_re re_doi) a w b c) <-> exists body, doi_form w body.
Proof.
  rewrite doi_is, rd_then. unfold doi_form. split.
  - intros (u & v & -> & U & V). apply rd_lead in U. rewrite rd_grp_ex in V. apply rd_body in V as (pre & t & -> & P & T). exists (pre ++ t), u, pre, t. auto 8.
  - intros (body & lead & pre & t & -> & -> & L & P & T). exists lead, (pre ++ t). split; auto. split; [now apply rd_lead|]. rewrite rd_grp_ex. apply rd_body. eauto.
Qed.

(** ** The match preferred *)
Lemma loop_longest mn c (K : cont) : forall fuel n a s g res, length s + (mn - n) < fuel -> rep_loop true mn None (Cls c) K fuel n (here a s) g = Some res ->
  exists w b, s = w ++ b /\ forallb (cls_mem c) w = true /\ mn <= n + length w /\ K (here (a ++ w) b) g = Some res
    /\ forall u v, b = u ++ v -> u <> [] -> forallb (cls_mem c) u = true -> K (here (a ++ w ++ u) v) g = None.
Proof.
  assert (forall fuel n a s g, length s + (mn - n) < fuel -> rep_loop true mn None (Cls c) K fuel n (here a s) g = None -> forall u v, s = u ++ v -> forallb (cls_mem c) u = true -> mn <= n + length u -> K (here (a ++ u) v) g = None) as No.
  { induction fuel as [|f IH]; intros n a s g Hf H u v E U L; [lia|]. cbn [rep_loop] in H. change (below n None) with true in H. cbv iota in H. cbn [m] in H. unfold step in H. unfold here at 1 in H. cbn [suf pos pre] in H. destruct u as [|d u].
    - cbn in E. subst v. rewrite app_nil_r. assert (mn <=? n = true) as Q by (apply Nat.leb_le; cbn in L; lia). rewrite Q in H. unfold orelse in H. match type of H with match ?q with Some _ => _ | None => _ end = None => destruct q end; [discriminate|exact H].
    - cbn [app] in E. subst s. cbn [forallb] in U. apply andb_true_iff in U as [D U]. rewrite D in H.
      match type of H with context [rep_loop _ _ _ _ _ _ _ ?y g] => replace y with (here (a ++ [d]) (u ++ v)) in H by (unfold here; cbn [pos pre]; rewrite rev_app_distr, app_length; cbn; f_equal; lia) end.
      assert (pos (here a (d :: u ++ v)) <? pos (here (a ++ [d]) (u ++ v)) = true) as Lt by (apply Nat.ltb_lt; cbn; rewrite app_length; cbn; lia). rewrite Lt, orb_true_r in H.
      destruct (rep_loop true mn None (Cls c) K f (S n) (here (a ++ [d]) (u ++ v)) g) as [r|] eqn:Q; [discriminate|].
      change (d :: u) with ([d] ++ u). rewrite app_assoc. eapply IH; [|exact Q|reflexivity|exact U|]; cbn in *; lia. }
  induction fuel as [|f IH]; intros n a s g res Hf H; [lia|]. cbn [rep_loop] in H. change (below n None) with true in H. cbv iota in H. cbn [m] in H. unfold step in H. unfold here at 1 in H. cbn [suf pos pre] in H. destruct s as [|d t].
  - cbn [orelse] in H. destruct (Nat.leb_spec mn n); [|discriminate]. exists [], []. cbn [app length forallb]. rewrite Nat.add_0_r, (app_nil_r a). repeat split; auto. intros u v E N. destruct u; [congruence|discriminate].
  - destruct (cls_mem c d) eqn:D.
    + match type of H with context [rep_loop _ _ _ _ _ _ _ ?y g] => replace y with (here (a ++ [d]) t) in H by (unfold here; cbn [pos pre]; rewrite rev_app_distr, app_length; cbn; f_equal; lia) end.
      assert (pos (here a (d :: t)) <? pos (here (a ++ [d]) t) = true) as Lt by (apply Nat.ltb_lt; cbn; rewrite app_length; cbn; lia). rewrite Lt, orb_true_r in H.
      destruct (rep_loop true mn None (Cls c) K f (S n) (here (a ++ [d]) t) g) as [r|] eqn:Q.
      * cbn [orelse] in H. injection H as ->. apply IH in Q as (w & b & -> & A & L & E & M); [|cbn in Hf; lia]. exists (d :: w), b. cbn [app forallb length]. rewrite D, A. rewrite <- app_assoc in E. split; auto. split; auto. split; [lia|]. split; auto.
        intros u v Eu N U. specialize (M u v Eu N U). now rewrite <- app_assoc in M.
      * cbn [orelse] in H. destruct (Nat.leb_spec mn n) as [Ln|]; [|discriminate]. exists [], (d :: t). cbn [app length forallb]. rewrite Nat.add_0_r, (app_nil_r a). split; auto. split; auto. split; auto. split; auto.
        intros u v E N U. destruct u as [|d' u]; [congruence|]. cbn [app] in E. injection E as <- ->. cbn [forallb] in U. apply andb_true_iff in U as [_ U]. change (d :: u) with ([d] ++ u). rewrite app_assoc.
        eapply (No f (S n)); [|exact Q|reflexivity|exact U|]; cbn in *; lia.
    + cbn [orelse] in H. destruct (Nat.leb_spec mn n); [|discriminate]. exists [], (d :: t). cbn [app length forallb]. rewrite Nat.add_0_r, (app_nil_r a). split; auto. split; auto. split; auto. split; auto.
      intros u v E N U. destruct u as [|d' u]; [congruence|]. cbn [app] in E. injection E as <- ->. cbn [forallb] in U. rewrite D in U. discriminate.
Qed.
(** what follows the DOI: full stops only, and then no character of a DOI *)
Definition ends_here (b : str) : Prop := exists stops rest, b = stops ++ rest /\ forallb (N.eqb 46) stops = true /\ no_more doi_char rest.
Lemma span_chars (p : ch -> bool) (b : str) : exists u v, b = u ++ v /\ forallb p u = true /\ no_more p v.
Proof.
  induction b as [|c b (u & v & -> & U & V)]; [exists [], []; repeat split|]. destruct (p c) eqn:E; [exists (c :: u), v; cbn; rewrite E, U; auto|exists [], (c :: u ++ v); cbn; auto].
Qed.
Lemma tail_run a s g (k : cont) res : (forall x g, k x g <> None) -> m tail_re (here a s) g k = Some res -> exists t b, s = t ++ b /\ doi_suffix t /\ ends_here b /\ k (here (a ++ t) b) g = Some res.
Proof.
  intros T H. unfold tail_re in H. rewrite m_seq in H. set (K := fun x' g' => m (Cls doi_cls2) x' g' k) in H.
  change (rep_loop true 1 None (Cls doi_cls1) K (S (1 + length s)) 0 (here a s) g = Some res) in H. apply loop_longest in H as (w & b & -> & W & L & E & M); [|cbn; lia].
  assert (forall p q h, match q with d :: q' => cls_mem doi_cls2 d = true -> K (here p q) h = k (here (p ++ [d]) q') h | [] => K (here p q) h = None end) as HK.
  { intros p q h. destruct q as [|d q']; [reflexivity|]. intros D. unfold K. cbn [m]. unfold step, here at 1. cbn [suf pos pre]. rewrite D. unfold here. rewrite app_length, rev_app_distr. cbn [length rev app]. now rewrite Nat.add_1_r. }
  destruct b as [|d b]; [rewrite (HK (a ++ w) [] g) in E; discriminate|]. destruct (cls_mem doi_cls2 d) eqn:D.
  - rewrite (HK (a ++ w) (d :: b) g D) in E. exists (w ++ [d]), b. rewrite <- !app_assoc in *. split; auto. split.
    + exists w, d. rewrite (class_all doi_cls1 doi_char) in W by apply char_mem. rewrite end_mem in D. repeat split; auto. destruct w; [cbn in L; lia|discriminate].
    + split; [|exact E]. destruct (span_chars doi_char b) as (u & v & -> & U & V). exists u, v. split; auto. split; auto. apply forallb_forall. intros x I. destruct (N.eqb_spec 46 x) as [|Nx]; auto. exfalso.
      apply in_split in I as (u1 & u2 & ->). assert (doi_char x = true) as Cx by (rewrite forallb_forall in U; apply U, in_or_app; right; now left).
      assert (cls_mem doi_cls2 x = true) as Dx.
      { rewrite end_mem. unfold doi_char in Cx. unfold doi_end. destruct (is_word x); auto. cbn [orb] in *. apply mem_ch_inv in Cx. repeat (destruct Cx as [<-|Cx]; [first [reflexivity|exfalso; apply Nx; reflexivity]|]). destruct Cx. }
      assert (K (here (a ++ w ++ d :: u1) (x :: u2 ++ v)) g = None) as Q.
      { apply (M (d :: u1) (x :: u2 ++ v)); [cbn; now rewrite <- app_assoc|discriminate|]. cbn [forallb]. rewrite !char_mem. rewrite (class_all doi_cls1 doi_char) by apply char_mem. rewrite forallb_app in U. apply andb_true_iff in U as [U _]. apply andb_true_iff. split; [|exact U].
        rewrite end_mem in D. unfold doi_end in D. unfold doi_char. destruct (is_word d); auto. cbn [orb] in *. apply mem_ch_inv in D. repeat (destruct D as [<-|D]; [reflexivity|]). destruct D. }
      rewrite (HK _ (x :: u2 ++ v) g Dx) in Q. now apply T in Q.
  - unfold K in E. cbn [m] in E. unfold step, here in E. cbn [suf] in E. rewrite D in E. discriminate.
Qed.
Lemma slice_at (a l p b : str) : slice (length (a ++ l)) (length (a ++ l ++ p)) (a ++ l ++ p ++ b) = p.
Proof. rewrite (app_assoc a l (p ++ b)), (app_assoc a l p), (app_length (a ++ l) p). apply slice_mid. Qed.
Lemma doi_run a s o : run (rx_re re_doi) false (here a s) = Some o -> exists lead pre t b, s = lead ++ pre ++ t ++ b /\ lead_of_doi lead /\ registrant pre /\ doi_suffix t /\ ends_here b
  /\ m_start o = length a /\ m_end o = length a + length (lead ++ pre ++ t) /\ g_text (a ++ s) o 7 = Some (pre ++ t).
Proof.
  intros H. apply run_m in H as (z & g & H & ->). rewrite doi_is in H. apply peel in H as (lead & s1 & c1 & g1 & -> & L & _ & H); [|reflexivity]. rewrite m_group in H.
  set (k := fun x' g' => accept x' ((7, (pos (here (a ++ lead) s1), pos x')) :: g')) in H. unfold body_re in H. apply peel_lits in H as (u & s2 & -> & U & H). apply ten in U as ->.
  apply peel in H as (ds & s3 & c3 & g3 & -> & D & _ & H); [|reflexivity]. apply rd_rep_cls in D as (D & L1 & L2 & _). rewrite (class_all dig is_digit) in D by apply dig_mem.
  apply peel in H as (ss & s4 & c4 & g4 & -> & S & _ & H); [|reflexivity]. destruct (proj1 (rd_subs _ _ _) (ex_intro _ _ S)) as (subs & -> & F).
  apply peel in H as (sl & s5 & c5 & g5 & -> & K & _ & H); [|reflexivity]. apply (ex_intro (fun c => rd slash_re _ _ _ c)) in K. apply rd_slash in K.
  apply tail_run in H as (t & b & -> & T & B & H); [|discriminate]. unfold k, accept in H. injection H as <- <-.
  exists lead, (py "10." ++ ds ++ concat (map (cons 46%N) subs) ++ sl), t, b. rewrite <- !app_assoc. split; auto. split; [apply (rd_lead a lead (py "10." ++ ds ++ concat (map (cons 46%N) subs) ++ sl ++ t ++ b)); exists c1; exact L|].
  split; [exists ds, subs, sl; auto 10|]. split; auto. split; auto. cbn [m_start m_end]. split; auto. split; [unfold here; cbn [pos]; unfold str, ch in *; rewrite !app_length; lia|].
  unfold g_text, g_span. cbn [Nat.eqb m_groups lookup_group]. unfold here. cbn [pos].
  f_equal. pose proof (slice_at a lead (py "10." ++ ds ++ concat (map (cons 46%N) subs) ++ sl ++ t) b) as Q. rewrite <- !app_assoc in Q. exact Q.
Qed.

(** ** The line *)
Definition doi_there (w : str) : Prop := exists body, doi_form w body.
(** the line s, the line with tags, the DOIs: what is kept holds no beginning of a DOI; a DOI goes on as far as it can *)
Inductive doi_scan (E : env) : str -> str -> list str -> Prop :=
| scan_end s : (forall p w q, s = p ++ w ++ q -> ~ doi_there w) -> doi_scan E s s []
| scan_doi k lead pre t b out ds : (forall p q w b', k = p ++ q -> q <> [] -> q ++ lead ++ pre ++ t ++ b = w ++ b' -> ~ doi_there w) ->
    lead_of_doi lead -> registrant pre -> doi_suffix t -> ends_here b -> doi_scan E b out ds ->
    doi_scan E (k ++ lead ++ pre ++ t ++ b) (k ++ py "<cds.DOI />" ++ out) ((if contains (py "%2f") (lower (pre ++ t)) then unquote E (pre ++ t) else pre ++ t) :: ds).
Definition doi_hit (a w b : str) (o : mobj) : Prop := exists lead pre t, w = lead ++ pre ++ t /\ lead_of_doi lead /\ registrant pre /\ doi_suffix t /\ ends_here b
  /\ m_start o = length a /\ m_end o = length a + length w /\ g_text (a ++ w ++ b) o 7 = Some (pre ++ t).
Lemma doi_found line : found (fun _ w _ => doi_there w) doi_hit [] line (re_finditer (rx_re re_doi) line).
Proof.
  apply finditer_found; [exact doi_fair|exact doi_min| |].
  - intros a w b H. apply rd_doi. exact H.
  - intros a w b o E R S F. apply doi_run in R as (lead & pre & t & b' & Es & L & P & T & B & S' & F' & G).
    assert (w ++ b = (lead ++ pre ++ t) ++ b') as Es' by (rewrite Es, <- !app_assoc; reflexivity). clear Es. apply app_inj_len in Es' as (-> & ->); [|unfold str, ch in *; lia]. exists lead, pre, t. rewrite <- !app_assoc in *. auto 10.
Qed.
Theorem doi_exact E line : doi_scan E line (fst (identify_and_tag_DOI E line)) (snd (identify_and_tag_DOI E line)).
Proof.
  unfold identify_and_tag_DOI. cbv zeta. cbn [fst snd].
  enough (forall a s ms, found (fun _ w _ => doi_there w) doi_hit a s ms -> a ++ s = line -> exists out, fold_left insert_doi (rev ms) line = a ++ out /\ doi_scan E s out (map (doi_of E line) ms)) as H.
  { destruct (H _ _ _ (doi_found line) eq_refl) as (out & -> & S). exact S. }
  intros a s ms F. induction F as [a s N|a k w b o t N R F IH]; intros El.
  - exists s. split; [symmetry; exact El|constructor; exact N].
  - destruct IH as (out & Eo & S); [rewrite <- El, <- !app_assoc; reflexivity|]. destruct R as (lead & pre & u & -> & L & P & T & B & S1 & S2 & G).
    exists (k ++ py "<cds.DOI />" ++ out). split.
    + cbn [rev]. rewrite fold_left_app. cbn [fold_left]. rewrite Eo. unfold insert_doi. rewrite S1, S2.
      replace ((a ++ k ++ lead ++ pre ++ u) ++ out) with ((a ++ k) ++ (lead ++ pre ++ u) ++ out) by (rewrite <- !app_assoc; reflexivity).
      rewrite firstn_app, Nat.sub_diag, firstn_all, firstn_O, app_nil_r. rewrite skipn_app, skipn_all2 by lia. replace (length (a ++ k) + length (lead ++ pre ++ u) - length (a ++ k)) with (length (lead ++ pre ++ u)) by lia.
      rewrite skipn_app, skipn_all, Nat.sub_diag. cbn [skipn app]. rewrite <- !app_assoc. reflexivity.
    + cbn [map]. replace (doi_of E line o) with (if contains (py "%2f") (lower (pre ++ u)) then unquote E (pre ++ u) else pre ++ u).
      * replace ((lead ++ pre ++ u) ++ b) with (lead ++ pre ++ u ++ b) in N |- * by (rewrite <- !app_assoc; reflexivity). constructor; auto.
      * unfold doi_of. cbv zeta. assert (tgrp re_doi line o "doi" = pre ++ u) as Q; [|now rewrite Q]. unfold tgrp, g_str. change (assoc_str (py "doi") (rx_names re_doi)) with (Some 7). cbv iota beta. rewrite <- El, app_assoc, G. reflexivity.
Qed.

(** ** Only one reading of a line is possible *)
Lemma first_stop (p : ch -> bool) : forall (u v : str) c d (x y : str), forallb p u = true -> forallb p v = true -> p c = false -> p d = false -> u ++ c :: x = v ++ d :: y -> u = v /\ c = d /\ x = y.
Proof.
  induction u as [|e u IH]; intros [|f v] c d x y U V C D E; cbn [app forallb] in *.
  - injection E as -> ->. auto.
  - injection E as -> _. rewrite C in V. discriminate.
  - injection E as -> _. rewrite D in U. discriminate.
  - apply andb_true_iff in U as [_ U], V as [_ V]. injection E as -> E. destruct (IH v c d x y U V C D E) as (-> & -> & ->). auto.
Qed.
Definition not_one (c : ch) : bool := negb (N.eqb 49 c).
Lemma caseless_one word w : forallb not_one word = true -> caseless word w -> forallb not_one w = true.
Proof.
  unfold caseless, letters. intros N H. induction H as [|c d word w I H IH]; auto. cbn [forallb] in *. apply andb_true_iff in N as [N N']. rewrite (IH N'), andb_true_r.
  unfold not_one in *. destruct (N.eqb_spec 49 d) as [<-|]; auto. vm_compute in I. destruct I as [<-|[]]; discriminate.
Qed.
Lemma may_one c w : not_one c = true -> may c w -> forallb not_one w = true.
Proof. intros N [-> | ->]; cbn; [|rewrite N]; auto. Qed.
Lemma spaces_one w : spaces w -> forallb not_one w = true.
Proof.
  unfold spaces. rewrite !forallb_forall. intros H x I. apply H in I. unfold not_one. destruct (N.eqb_spec 49 x) as [<-|]; [vm_compute in I; discriminate|reflexivity].
Qed.
Lemma lead_one w : lead_of_doi w -> forallb not_one w = true.
Proof.
  intros [->|[(p & d & s & q & col & t & -> & P & D & S & Q & C & T)|(h & s & c & dx & o & -> & H & S & C & D & O)]]; auto; rewrite !forallb_app, !andb_true_iff.
  - split; [apply (may_one 40%N); auto|]. split; [apply (caseless_one (py "doi")); auto|]. split; [now apply spaces_one|]. split; [apply (may_one 41%N); auto|]. split; [apply (may_one 58%N); auto|now apply spaces_one].
  - split; [apply (caseless_one (py "http")); auto|]. split; [destruct S as [->|S]; auto; apply (caseless_one (py "s")); auto|]. split; [apply (caseless_one (py "://")); auto|].
    split; [destruct D as [->|D]; auto; apply (caseless_one (py "dx.")); auto|]. apply (caseless_one (py "doi.org/")); auto.
Qed.
Lemma all_app (p : ch -> bool) u v : forallb p u = true -> forallb p v = true -> forallb p (u ++ v) = true.
Proof. intros U V. rewrite forallb_app, U. exact V. Qed.
Definition not_slash (c : ch) : bool := negb (N.eqb 47 c || N.eqb 37 c).
Lemma word_slash v : forallb is_word v = true -> forallb not_slash v = true.
Proof.
  rewrite !forallb_forall. intros H x I. apply H in I. unfold not_slash. destruct (N.eqb_spec 47 x) as [<-|]; [vm_compute in I; discriminate|]. destruct (N.eqb_spec 37 x) as [<-|]; [vm_compute in I; discriminate|reflexivity].
Qed.
Lemma digit_slash v : forallb is_digit v = true -> forallb not_slash v = true.
Proof.
  rewrite !forallb_forall. intros H x I. apply H in I. unfold not_slash. destruct (N.eqb_spec 47 x) as [<-|]; [vm_compute in I; discriminate|]. destruct (N.eqb_spec 37 x) as [<-|]; [vm_compute in I; discriminate|reflexivity].
Qed.
Lemma subs_slash subs : Forall (fun v : str => v <> [] /\ forallb is_word v = true) subs -> forallb not_slash (concat (map (cons 46%N) subs)) = true.
Proof. induction 1 as [|v subs (_ & V) F IH]; auto. cbn [map concat app forallb]. apply andb_true_iff. split; [reflexivity|]. apply all_app; [exact (word_slash v V)|exact IH]. Qed.
Definition slash_text (sl : str) : Prop := sl = [47%N] \/ exists c d, sl = [37%N; c; d].
Lemma one_percent d : In 37%N (case_variants d) -> d = 37%N.
Proof.
  intros H. assert (cls_mem (mkcls false true [CRange 37 37]%N) d = true) as M by (apply (one_char true); exact H). apply only_itself in M; auto.
Qed.
Lemma slash_form sl : sl = [47%N] \/ caseless (py "%2f") sl -> slash_text sl.
Proof.
  intros [->|H]; [now left|]. right. unfold caseless, letters in H. change (py "%2f") with [37; 50; 102]%N in H. inversion H as [|? a ? ? A H1]; subst. inversion H1 as [|? b ? ? B H2]; subst. inversion H2 as [|? c ? ? C H3]; subst. inversion H3; subst.
  exists b, c. f_equal. apply one_percent. exact A.
Qed.

Lemma pre_unique pre pre' x y : registrant pre -> registrant pre' -> pre ++ x = pre' ++ y -> pre = pre' /\ x = y.
Proof.
  intros (ds & subs & sl & -> & _ & D & S & L) (ds' & subs' & sl' & -> & _ & D' & S' & L') E. apply slash_form in L, L'.
  assert (forall ds subs, forallb is_digit ds = true -> Forall (fun v : str => v <> [] /\ forallb is_word v = true) subs -> forallb not_slash (py "10." ++ ds ++ concat (map (cons 46%N) subs)) = true) as N.
  { intros e f A B. apply all_app; [reflexivity|]. apply all_app; [exact (digit_slash e A)|exact (subs_slash f B)]. }
  assert (forall s, slash_text s -> exists c r, s = c :: r /\ not_slash c = false /\ (c = 47%N /\ r = [] \/ c = 37%N /\ length r = 2)) as Q.
  { intros s [->|(c & d & ->)]; [exists 47%N, []|exists 37%N, [c; d]]; cbn; auto 10. }
  destruct (Q sl L) as (c & r & -> & C & R), (Q sl' L') as (c' & r' & -> & C' & R').
  assert ((py "10." ++ ds ++ concat (map (cons 46%N) subs)) ++ c :: (r ++ x) = (py "10." ++ ds' ++ concat (map (cons 46%N) subs')) ++ c' :: (r' ++ y)) as E' by (rewrite <- !app_assoc in *; exact E).
  apply (first_stop not_slash) in E' as (A & -> & B); auto. assert (length r = length r') as Lr by (destruct R as [(-> & ->)|(-> & R)], R' as [(K & ->)|(K & R')]; try discriminate; auto; lia).
  apply app_inj_len in B as (-> & ->); auto. split; auto. apply app_inv_tail in E. exact E.
Qed.
Lemma tail_not_shorter t q b b' : doi_suffix (t ++ q) -> q <> [] -> b = q ++ b' -> ends_here b -> False.
Proof.
  intros (u & d & E & _ & U & D) N -> (stops & rest & Eb & S & R). destruct (exists_last N) as (q' & d' & ->). rewrite app_assoc in E. apply app_inj_tail in E as (<- & <-).
  rewrite forallb_app in U. apply andb_true_iff in U as [_ U]. clear N. revert q' Eb U. induction stops as [|s stops IH]; intros q' Eb U.
  - cbn [app] in Eb. rewrite <- Eb in R. destruct q' as [|c q']; cbn [app no_more] in R.
    + assert (doi_char d' = true) as K; [|congruence]. unfold doi_end in D. unfold doi_char. destruct (is_word d'); auto. cbn [orb] in *. apply mem_ch_inv in D. repeat (destruct D as [<-|D]; [reflexivity|]). destruct D.
    + cbn [forallb] in U. apply andb_true_iff in U as [U _]. congruence.
  - cbn [forallb] in S. apply andb_true_iff in S as [S1 S]. apply N.eqb_eq in S1 as <-. destruct q' as [|c q']; cbn [app] in Eb.
    + injection Eb as -> _. vm_compute in D. discriminate.
    + injection Eb as -> Eb. cbn [forallb] in U. apply andb_true_iff in U as [_ U]. apply (IH S q' Eb U).
Qed.
Lemma app_split (a b c d : str) : a ++ b = c ++ d -> (exists q, q <> [] /\ c = a ++ q /\ b = q ++ d) \/ (exists q, q <> [] /\ a = c ++ q /\ d = q ++ b) \/ (a = c /\ b = d).
Proof.
  revert c. induction a as [|x a IH]; intros [|y c] E; cbn [app] in *.
  - auto.
  - left. exists (y :: c). subst. split; [discriminate|auto].
  - right; left. exists (x :: a). subst. split; [discriminate|auto].
  - injection E as -> E. apply IH in E as [(q & N & -> & ->)|[(q & N & -> & ->)|(-> & ->)]]; [left|right; left|right; right]; eauto.
Qed.
Theorem scan_one E s out ds : doi_scan E s out ds -> forall out' ds', doi_scan E s out' ds' -> out = out' /\ ds = ds'.
Proof.
  assert (forall lead pre t : str, lead_of_doi lead -> registrant pre -> doi_suffix t -> doi_there (lead ++ pre ++ t)) as There by (intros lead pre t A B C; exists (pre ++ t), lead, pre, t; auto).
  induction 1 as [s N|k lead pre t b out ds N L P T B S IH]; intros out' ds' S'.
  - inversion S' as [|k lead pre t b out ds N' L P T B S]; subst; auto. exfalso. eapply (N k (lead ++ pre ++ t) b); [rewrite <- !app_assoc; reflexivity|auto].
  - remember (k ++ lead ++ pre ++ t ++ b) as whole eqn:W. destruct S' as [s N'|k' lead' pre' t' b' out' ds' N' L' P' T' B' S'].
    + exfalso. eapply (N' k (lead ++ pre ++ t) b); [rewrite <- !app_assoc; exact W|auto].
    + apply app_split in W as [(q & Nq & -> & Eq)|[(q & Nq & -> & Eq)|(-> & W)]].
      * exfalso. eapply (N k' q (lead' ++ pre' ++ t') b'); auto. rewrite <- !app_assoc. symmetry. exact Eq.
      * exfalso. eapply (N' k q (lead ++ pre ++ t) b); auto. rewrite <- !app_assoc. symmetry. exact Eq.
      * assert (forall p, registrant p -> exists r, p = 49%N :: r) as H1 by (intros p (e & f & g & -> & _); eexists; reflexivity).
        destruct (H1 pre P) as (r & Er), (H1 pre' P') as (r' & Er'). assert (lead' ++ 49%N :: r' ++ t' ++ b' = lead ++ 49%N :: r ++ t ++ b) as W1 by (rewrite Er, Er' in W; exact W).
        apply (first_stop not_one) in W1 as (-> & _ & W2); auto using lead_one. apply app_inv_head in W. apply pre_unique in W as (-> & W); auto.
        apply app_split in W as [(q & Nq & -> & Eq)|[(q & Nq & -> & Eq)|(-> & ->)]].
        -- exfalso. eapply (tail_not_shorter t' q b'); eauto.
        -- exfalso. eapply (tail_not_shorter t q b); eauto.
        -- destruct (IH _ _ S') as (-> & ->). auto.
Qed.
Theorem doi_only E line l ds : identify_and_tag_DOI E line = (l, ds) <-> doi_scan E line l ds.
Proof.
  pose proof (doi_exact E line) as H. split; [intros Q; rewrite Q in H; exact H|]. intros S. destruct (scan_one _ _ _ _ H _ _ S) as (A & B). rewrite <- A, <- B. apply surjective_pairing.
Qed.
