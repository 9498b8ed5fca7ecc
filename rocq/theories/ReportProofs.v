(** Which report numbers are found and how their numbers are written (C59). *)
From Coq Require Import List Arith NArith Bool String Lia Sorting.Sorted.
From Verif Require Import PyStr ListFacts Regex RegexMeta RegexLang RegexParse Patterns Tag Kbs SpanProofs WashProofs SpaceProofs ScanProofs.
Import ListNotations.
Local Open Scope nat_scope.
Local Notation length := List.length.

(** ** The number *)
Definition dash_or_blank (c : ch) : bool := N.eqb c 32 || N.eqb c 45.
(** every run of blanks and hyphens is one hyphen *)
Fixpoint hyphened (w : str) : str :=
  match w with
  | [] => []
  | c :: t => if dash_or_blank c
              then match t with d :: _ => if dash_or_blank d then hyphened t else 45%N :: hyphened t | [] => [45%N] end
              else c :: hyphened t
  end.
Definition blank_out (c : ch) : ch := if N.eqb c 32 then 45%N else c.
Lemma replace_blank s : replace (py " ") (py "-") s = map blank_out s.
Proof.
  unfold replace. induction s as [|c s IH]; auto. cbn [replace_aux map]. unfold blank_out at 1. change (py " ") with [32%N] in *. cbn [prefixb]. rewrite andb_true_r, N.eqb_sym.
  destruct (N.eqb c 32); cbn [length Nat.sub]; rewrite IH; reflexivity.
Qed.
Fixpoint leading (q : ch -> bool) (s : str) : nat := match s with c :: t => if q c then S (leading q t) else 0 | [] => 0 end.
Lemma leading_split q s : exists a b, s = a ++ b /\ forallb q a = true /\ leading q s = length a /\ match b with c :: _ => q c = false | [] => True end.
Proof.
  induction s as [|c t (a & b & -> & A & L & B)]; [exists [], []; cbn; auto|]. cbn [leading]. destruct (q c) eqn:C.
  - exists (c :: a), b. cbn [forallb app length]. rewrite C, A, L. auto.
  - exists [], (c :: a ++ b). cbn [app length forallb]. auto.
Qed.
Lemma leading_run q a b : forallb q a = true -> leading q (a ++ b) = length a + leading q b.
Proof. induction a as [|c a IH]; cbn [forallb app leading length]; auto. intros H. apply andb_true_iff in H as (-> & H). now rewrite IH. Qed.
Definition is_hyphen (c : ch) : bool := N.eqb c 45.
Definition hyphens_ahead (s : str) : option nat := let n := leading is_hyphen s in if 2 <=? n then Some n else None.
Lemma chr_all w : forallb (cls_mem (chr 45%N)) w = forallb is_hyphen w.
Proof. induction w as [|c w IH]; cbn [forallb]; auto. now rewrite chr_eqb, IH. Qed.
Lemma scans_hyphens : scans (rx_re re_multiple_hyphens) hyphens_ahead.
Proof.
  intros whole x At. change (rx_re re_multiple_hyphens) with (Rep true 2 None (Cls (chr 45%N))). unfold run. cbn [andb]. unfold hyphens_ahead.
  destruct (m _ x [] _) as [[z g]|] eqn:Q.
  - pose proof Q as Q0. apply m_sound in Q0 as (z' & h' & M & E0). injection E0 as E1 E2. subst z' h'.
    change (rep_loop true 2 None (Cls (chr 45%N)) (fun y h => Some (y, h)) (S (2 + length (suf x))) 0 x [] = Some (z, g)) in Q.
    apply rep_greedy_some in Q as (x' & E0 & St); [|discriminate|lia]. injection E0 as E1. subst x'.
    apply mt_rep_cls in M as (w & F & W & L & _). rewrite chr_all in W. cbn [m_start m_end]. destruct F as (F1 & _ & F3). rewrite F1, leading_run by auto.
    assert (leading is_hyphen (suf z) = 0) as ->. { unfold stops in St. destruct (suf z) as [|c t]; auto. cbn [leading]. rewrite chr_eqb in St. unfold is_hyphen. now rewrite St. }
    rewrite Nat.add_0_r. assert (2 <=? length w = true) as -> by (apply Nat.leb_le; lia). split; auto. exists (length w). rewrite app_length. split; auto. lia.
  - destruct (2 <=? leading is_hyphen (suf x)) eqn:E; auto. exfalso. apply Nat.leb_le in E. destruct (leading_split is_hyphen (suf x)) as (a & b & Ea & A & L & _).
    assert (mt (Rep true 2 None (Cls (chr 45%N))) x [] (after x a) []) as M.
    { apply mt_rep_cls. exists a. split; [apply (fwd_after x a b); auto|]. split; [now rewrite chr_all|]. split; [lia|]. cbn. auto. }
    exact (m_complete _ _ _ _ _ _ M At eq_refl (fun y h => Some (y, h)) ltac:(discriminate) Q).
Qed.
Lemma hyphened_run a b : forallb dash_or_blank a = true -> a <> [] -> match b with c :: _ => dash_or_blank c = false | [] => True end -> hyphened (a ++ b) = 45%N :: hyphened b.
Proof.
  induction a as [|c a IH]; [congruence|]. cbn [forallb]. intros H _ B. apply andb_true_iff in H as (C & H). cbn [app hyphened]. rewrite C. destruct a as [|d a].
  - cbn [app]. destruct b as [|d b]; auto. now rewrite B.
  - cbn [app]. pose proof H as H'. cbn [forallb] in H'. apply andb_true_iff in H' as (D & _). rewrite D. apply IH; auto. discriminate.
Qed.
Lemma dash_out c : is_hyphen (blank_out c) = dash_or_blank c.
Proof. unfold is_hyphen, blank_out, dash_or_blank. destruct (N.eqb_spec c 32) as [->|]; reflexivity. Qed.
Lemma scan_hyphened n : forall s, length s <= n -> scan hyphens_ahead (fun _ => py "-") 0 (map blank_out s) = hyphened s.
Proof.
  induction n as [|n IH]; intros s L; [destruct s; [reflexivity|cbn in L; lia]|]. destruct s as [|c t]; [reflexivity|]. destruct (leading_split dash_or_blank (c :: t)) as (a & b & E & A & _ & B).
  assert (leading is_hyphen (map blank_out (c :: t)) = length a) as La.
  { rewrite E, map_app, leading_run, map_length. { destruct b as [|d b]; cbn [map leading]; [lia|]. rewrite dash_out, B. lia. } clear - A. induction a as [|x a IH]; auto. cbn [forallb map] in *. apply andb_true_iff in A as (X & A). rewrite dash_out, X. now apply IH. }
  change (map blank_out (c :: t)) with (blank_out c :: map blank_out t) in *. cbn [scan]. unfold hyphens_ahead. cbn zeta. rewrite La. destruct (Nat.leb_spec 2 (length a)) as [G|G].
  - rewrite E. rewrite hyphened_run; auto; [|intros ->; cbn in G; lia]. change (py "-") with [45%N]. cbn [app]. f_equal. rewrite scan_skip, skipn_map. assert (skipn (length a - 1) t = b) as ->.
    { destruct a as [|x a]; [cbn in G; lia|]. injection E as -> ->. cbn [length]. replace (S (length a) - 1) with (length a) by lia. rewrite skipn_app, skipn_all, Nat.sub_diag. reflexivity. }
    apply IH. rewrite E, app_length in L. lia.
  - rewrite IH by (cbn in L; lia). destruct a as [|x a].
    + cbn [app] in E. subst b. cbn [hyphened]. rewrite B. f_equal. unfold blank_out. unfold dash_or_blank in B. now destruct (N.eqb c 32).
    + destruct a as [|y a]; [|cbn in G; lia]. cbn [app] in E. injection E as -> ->. cbn [forallb] in A. rewrite andb_true_r in A. cbn [hyphened]. rewrite A.
      assert (blank_out x = 45%N) as ->. { unfold blank_out, dash_or_blank in *. destruct (N.eqb_spec x 32); auto. now apply N.eqb_eq in A. } destruct b as [|d b]; auto. now rewrite B.
Qed.
Lemma replace_absent x old new s : In x old -> ~ In x s -> replace old new s = s.
Proof.
  intros I. unfold replace. induction s as [|c s IH]; intros N; [reflexivity|]. cbn [replace_aux]. destruct (prefixb old (c :: s)) eqn:P.
  - exfalso. apply prefixb_app in P as (t & E). apply N. rewrite E. apply in_app_iff. now left.
  - f_equal. apply IH. intros J. apply N. now right.
Qed.
Lemma hyphened_in x s : In x (hyphened s) -> x = 45%N \/ In x s.
Proof.
  induction s as [|c t IH]; cbn [hyphened]; [intros []|]. destruct (dash_or_blank c).
  - destruct t as [|d t]; [intros [<-|[]]; auto|]. destruct (dash_or_blank d); [intros I; apply IH in I as [I|I]; auto; right; now right|]. intros [<-|I]; auto. apply IH in I as [I|I]; auto. right. now right.
  - intros [<-|I]; [right; now left|]. apply IH in I as [I|I]; auto. right. now right.
Qed.
Lemma clean_hyphened s : ~ In 47%N s -> clean_numeration s = hyphened s.
Proof.
  intros N. unfold clean_numeration. rewrite replace_blank. unfold DocText.sub_text. rewrite (sub_scan _ _ (py "-") _ scans_hyphens). rewrite (scan_hyphened (length s)) by auto.
  assert (~ In 47%N (hyphened s)) as H by (intros I; apply hyphened_in in I as [I|I]; [discriminate|contradiction]).
  rewrite (replace_absent 47%N (py "/-") _ (hyphened s)) by (auto; now left). rewrite (replace_absent 47%N (py "-/") _ (hyphened s)) by (auto; right; now left). apply (replace_absent 47%N); auto. right. now left.
Qed.

(** ** The order of the categories *)
(** [a] comes before [b] in a dictionary *)
Definition lex (a b : str) : Prop := exists p, (exists d u, a = p /\ b = p ++ d :: u) \/ exists c d t u, a = p ++ c :: t /\ b = p ++ d :: u /\ (c < d)%N.
(** [x] is tried before [y]: the longer name; if they are equally long, the later number and the later name *)
Definition goes_first (x y : repkey) : Prop :=
  length (snd y) < length (snd x) \/ (length (snd y) = length (snd x) /\ (fst y < fst x \/ (fst y = fst x /\ lex (snd y) (snd x)))).
Lemma ltb_lex a : forall b, str_ltb a b = true <-> lex a b.
Proof.
  induction a as [|x a IH]; intros b.
  - destruct b as [|y b]; cbn [str_ltb]; split; auto; try discriminate.
    + intros (p & [(d & u & <- & E)|(c & d & t & u & E & _)]); [discriminate|destruct p; discriminate].
    + intros _. exists []. left. exists y, b. auto.
  - destruct b as [|y b]; cbn [str_ltb].
    + split; [discriminate|]. intros (p & [(d & u & _ & E)|(c & d & t & u & _ & E & _)]); destruct p; discriminate.
    + split.
      * intros H. apply orb_true_iff in H as [H|H].
        -- apply N.ltb_lt in H. exists []. right. exists x, y, a, b. auto.
        -- apply andb_true_iff in H as (H1 & H2). apply N.eqb_eq in H1 as ->. apply IH in H2 as (p & H). exists (y :: p). destruct H as [(d & u & -> & ->)|(c & d & t & u & -> & -> & L)]; [left; exists d, u; auto|right; exists c, d, t, u; auto].
      * intros (p & H). apply orb_true_iff. destruct p as [|z p].
        -- destruct H as [(d & u & E & _)|(c & d & t & u & E & E' & L)]; [discriminate|]. injection E as -> ->. injection E' as -> ->. left. now apply N.ltb_lt.
        -- right. assert (x = y /\ lex a b) as (-> & H').
           { destruct H as [(d & u & E & E')|(c & d & t & u & E & E' & L)]; injection E as -> ->; injection E' as -> ->; (split; auto); exists p; [left; exists d, u; auto|right; exists c, d, t, u; auto]. }
           rewrite N.eqb_refl. now apply IH.
Qed.
Lemma ltb_first x y : repkey_ltb x y = true <-> goes_first y x.
Proof.
  unfold repkey_ltb, goes_first. cbn zeta. rewrite orb_true_iff, andb_true_iff, orb_true_iff, andb_true_iff, !Nat.ltb_lt, !Nat.eqb_eq, ltb_lex. reflexivity.
Qed.
Lemma str_ltb_total a : forall b, a <> b -> str_ltb a b = false -> str_ltb b a = true.
Proof.
  induction a as [|x a IH]; intros [|y b] N H; cbn [str_ltb] in *; auto; try congruence. apply orb_false_iff in H as (H1 & H2). apply N.ltb_ge in H1. apply orb_true_iff.
  destruct (N.eqb_spec x y) as [->|Ne]; [|left; apply N.ltb_lt; lia]. right. rewrite N.eqb_refl. cbn [andb] in *. apply IH; congruence.
Qed.
Lemma str_ltb_trans a : forall b c, str_ltb a b = true -> str_ltb b c = true -> str_ltb a c = true.
Proof.
  induction a as [|x a IH]; intros [|y b] [|z c] H1 H2; cbn [str_ltb] in *; auto; try discriminate. apply orb_true_iff in H1, H2. apply orb_true_iff.
  destruct H1 as [H1|H1], H2 as [H2|H2].
  - left. apply N.ltb_lt in H1, H2. apply N.ltb_lt. lia.
  - apply andb_true_iff in H2 as (E & _). apply N.eqb_eq in E as <-. auto.
  - apply andb_true_iff in H1 as (E & _). apply N.eqb_eq in E as ->. auto.
  - apply andb_true_iff in H1 as (E1 & H1). apply andb_true_iff in H2 as (E2 & H2). apply N.eqb_eq in E1 as ->. apply N.eqb_eq in E2 as ->. right. rewrite N.eqb_refl. cbn [andb]. eauto.
Qed.
Lemma str_ltb_irrefl a : str_ltb a a = false.
Proof. induction a as [|x a IH]; auto. cbn [str_ltb]. now rewrite N.ltb_irrefl, N.eqb_refl, IH. Qed.
Lemma key_total x y : x <> y -> repkey_ltb x y = false -> repkey_ltb y x = true.
Proof.
  destruct x as [i a], y as [j b]. unfold repkey_ltb. cbn [fst snd]. intros N H. apply orb_false_iff in H as (H1 & H2). apply Nat.ltb_ge in H1. apply orb_true_iff.
  destruct (Nat.eqb_spec (length a) (length b)) as [E|E]; [|left; apply Nat.ltb_lt; lia]. right. rewrite E, Nat.eqb_refl. cbn [andb] in *. apply orb_false_iff in H2 as (H2 & H3). apply Nat.ltb_ge in H2. apply orb_true_iff.
  destruct (Nat.eqb_spec i j) as [->|E']; [|left; apply Nat.ltb_lt; lia]. right. rewrite Nat.eqb_refl. cbn [andb] in *. apply str_ltb_total; congruence.
Qed.
Lemma key_trans x y z : repkey_ltb x y = true -> repkey_ltb y z = true -> repkey_ltb x z = true.
Proof.
  destruct x as [i a], y as [j b], z as [k c]. unfold repkey_ltb. cbn [fst snd]. rewrite !orb_true_iff, !andb_true_iff, !orb_true_iff, !andb_true_iff, !Nat.ltb_lt, !Nat.eqb_eq. intros H1 H2.
  destruct H1 as [H1|(E1 & H1)], H2 as [H2|(E2 & H2)]; [left; lia|left; lia|left; lia|]. right. split; [lia|].
  destruct H1 as [H1|(F1 & H1)], H2 as [H2|(F2 & H2)]; [left; lia|left; lia|left; lia|]. right. split; [lia|]. eapply str_ltb_trans; eauto.
Qed.
Lemma key_irrefl x : repkey_ltb x x = false.
Proof. unfold repkey_ltb. now rewrite !Nat.ltb_irrefl, !Nat.eqb_refl, str_ltb_irrefl. Qed.
Definition desc (x y : repkey) : Prop := repkey_ltb y x = true.
Lemma insert_sorted x l : ~ In x l -> StronglySorted desc l -> StronglySorted desc (insert_desc x l).
Proof.
  induction l as [|y l IH]; intros N S; cbn [insert_desc]; [repeat constructor|]. inversion S as [|? ? S' F]; subst. destruct (repkey_ltb y x) eqn:L.
  - constructor; auto. constructor; auto. eapply Forall_impl; [|exact F]. intros z Z. unfold desc in *. eapply key_trans; eauto.
  - constructor; [apply IH; auto; intros I; apply N; now right|]. apply Forall_forall. intros z I. apply insert_desc_in in I as [->|I]; [|rewrite Forall_forall in F; auto]. apply key_total; auto. intros ->. apply N. now left.
Qed.
Lemma sort_sorted l : NoDup l -> StronglySorted desc (sort_desc l).
Proof. unfold sort_desc. induction 1 as [|x l N D IH]; cbn [fold_right]; [constructor|]. apply insert_sorted; auto. intros I. apply N. now apply sort_desc_in. Qed.
Lemma sorted_prefix k1 key k2 x : StronglySorted desc (k1 ++ key :: k2) -> In x k1 <-> In x (k1 ++ key :: k2) /\ repkey_ltb key x = true.
Proof.
  induction k1 as [|y k1 IH]; cbn [app]; intros S; inversion S as [|? ? S' F]; subst; rewrite Forall_forall in F.
  - split; [intros []|]. intros ([->|I] & L); [rewrite key_irrefl in L; discriminate|]. specialize (F _ I). unfold desc in F. pose proof (key_trans _ _ _ L F) as C. rewrite key_irrefl in C. discriminate.
  - specialize (IH S'). cbn [In]. rewrite IH. split.
    + intros [->|(I & L)]; [|auto]. split; auto. apply F. apply in_app_iff. right. now left.
    + intros ([->|I] & L); auto.
Qed.

(** ** What is found *)
Definition entry := (nat * nat * str)%type.
(** the report numbers of one pattern in a text: where the first group stands, its length, and the category with the number *)
Definition hit (p : rx) (std l : str) (e : entry) : Prop :=
  exists o a b n, In o (re_finditer (rx_re p) l) /\ g_span o 1 = Some (a, b) /\ group_named p l o (py "numn") = Ok (Some n) /\ e = (a, b - a, std ++ hyphened n).
Definition covers_place (e : entry) (q : nat) : Prop := fst (fst e) <= q < fst (fst e) + snd (fst e).
(** the text with underscores at the places [P] *)
Definition blanked (P : nat -> Prop) (l0 l : str) : Prop :=
  length l = length l0 /\ forall q c, nth_error l0 q = Some c -> (P q -> nth_error l q = Some 95%N) /\ (~ P q -> nth_error l q = Some c).
Record winv (kb : repnum_kb) (l0 : str) (ks : list repkey) (es : repkey -> list entry) (s : rst) : Prop := mkwinv {
  wi_rinv : rinv kb l0 s;
  wi_slash : ~ In 47%N (r_line s);
  wi_hits : forall k1 key k2 p std, ks = k1 ++ key :: k2 -> assoc_rep key (rk_search kb) = Some p -> assoc_rep key (rk_std kb) = Some std ->
    exists l, blanked (fun q => exists k e, In k k1 /\ In e (es k) /\ covers_place e q) l0 l /\ forall e, In e (es key) <-> hit p std l e;
  wi_all : forall i n v, (In (i, n) (r_len s) /\ In (i, v) (r_repl s)) <-> exists key, In key ks /\ In (i, n, v) (es key);
  wi_len : forall i n, In (i, n) (r_len s) -> exists v, In (i, v) (r_repl s) }.
Lemma blanked_line kb l0 ks es s : winv kb l0 ks es s -> blanked (fun q => exists k e, In k ks /\ In e (es k) /\ covers_place e q) l0 (r_line s).
Proof.
  intros [R _ _ A L]. pose proof (ri_marked _ _ _ R) as M. split; [apply (mk_length _ _ _ _ M)|]. intros q c E. apply (mk_chars _ _ _ _ M) in E. rewrite E. split; intros P.
  - assert (inside (fun n => n) (r_len s) q = true) as ->; auto. destruct P as (k & ((i & n) & v) & Ik & Ie & C). apply inside_spec. exists i, n. split; [|exact C]. apply (A i n v). eauto.
  - destruct (inside (fun n => n) (r_len s) q) eqn:I; auto. elim P. apply inside_spec in I as (i & n & I & C). destruct (L _ _ I) as (v & J). destruct (proj1 (A i n v) (conj I J)) as (k & Ik & Ie). exists k, (i, n, v). auto.
Qed.
Lemma keyed {A} (l : list (nat * A)) a b c : NoDup (map fst l) -> In (a, b) l -> In (a, c) l -> b = c.
Proof.
  induction l as [|(k, v) l IH]; [intros _ []|]. cbn [map fst]. intros D. inversion D as [|? ? N D']; subst. intros [E|I] [E'|J]; auto.
  - congruence.
  - injection E as -> ->. elim N. apply in_map_iff. exists (a, c). auto.
  - injection E' as -> ->. elim N. apply in_map_iff. exists (a, b). auto.
Qed.
Lemma key_eqb_eq x y : repkey_eqb x y = true <-> x = y.
Proof. destruct x as [i a], y as [j b]. unfold repkey_eqb. cbn [fst snd]. rewrite andb_true_iff, Nat.eqb_eq, eqs_eq. split; [intros (-> & ->); auto|intros E; injection E; auto]. Qed.
Lemma slice_incl (x : ch) a b (l : str) : In x (slice a b l) -> In x l.
Proof. unfold slice. intros I. rewrite <- (firstn_skipn a l). apply in_app_iff. right. rewrite <- (firstn_skipn (b - a) (skipn a l)). apply in_app_iff. now left. Qed.
Definition hits_of (p : rx) (std l : str) : list entry := map (fun o => (rstart o, m_end o - rstart o, std ++ clean_numeration (rnum p l o))) (re_finditer (rx_re p) l).
Lemma hits_of_iff p std l e : rep_ok p = true -> ~ In 47%N l -> In e (hits_of p std l) <-> hit p std l e.
Proof.
  intros R N. unfold hits_of, hit. rewrite in_map_iff. split.
  - intros (o & <- & I). destruct (rep_match p l o R I) as (a & u & v & G & _ & _ & _ & _ & B & _). exists o, a, (m_end o), (slice u v l). split; auto. split; auto. split; auto. unfold rstart, rnum. rewrite G, B. f_equal. f_equal. apply clean_hyphened. intros J. apply N. eapply slice_incl; eauto.
  - intros (o & a & b & n & I & G & B & ->). exists o. split; auto. destruct (rep_match p l o R I) as (a' & u & v & G' & _ & _ & _ & _ & B' & _). rewrite G in G'. injection G' as <- ->. rewrite B in B'. injection B' as ->. unfold rstart, rnum. rewrite G, B. f_equal. f_equal. apply clean_hyphened. intros J. apply N. eapply slice_incl; eauto.
Qed.
Lemma winv_step kb l0 ks es s c p std : ~ In 47%N l0 -> winv kb l0 ks es s -> ~ In c ks -> rep_ok p = true -> assoc_rep c (rk_search kb) = Some p -> assoc_rep c (rk_std kb) = Some std ->
  exists s', repnum_hits p std (r_line s) (re_finditer (rx_re p) (r_line s)) s = Ok s' /\ winv kb l0 (ks ++ [c]) (fun k => if repkey_eqb k c then hits_of p std (r_line s) else es k) s'.
Proof.
  intros N0 W Nc R E1 E2. pose proof (blanked_line _ _ _ _ _ W) as Bl. destruct W as [RI Sl H A L]. destruct (repnum_step kb c p std l0 s RI R E1 E2) as (s' & E & RI' & Q1 & Q2). exists s'. split; auto.
  set (es' := fun k => if repkey_eqb k c then hits_of p std (r_line s) else es k). assert (forall k, In k ks -> es' k = es k) as Old.
  { intros k I. unfold es'. destruct (repkey_eqb k c) eqn:Q; auto. apply key_eqb_eq in Q as ->. contradiction. }
  assert (es' c = hits_of p std (r_line s)) as New by (unfold es'; now rewrite (proj2 (key_eqb_eq c c) eq_refl)).
  pose proof (mk_keys _ _ _ _ (ri_marked _ _ _ RI')) as D1. assert (NoDup (map fst (r_repl s'))) as D2 by now rewrite (ri_keys _ _ _ RI').
  assert (forall i v, In (i, v) (r_repl s) -> exists n, In (i, n) (r_len s)) as L'.
  { intros i v I. assert (In i (map fst (r_len s))) as J by (rewrite <- (ri_keys _ _ _ RI); apply in_map_iff; exists (i, v); auto). apply in_map_iff in J as ((j & n) & <- & J). eauto. }
  split; auto.
  - intros I. apply In_nth_error in I as (q & I). assert (q < length (r_line s')) as Lq by (apply nth_error_Some; unfold str, ch in *; rewrite I; discriminate). rewrite (mk_length _ _ _ _ (ri_marked _ _ _ RI')) in Lq.
    destruct (nth_some l0 q Lq) as (x & Ex). pose proof (mk_chars _ _ _ _ (ri_marked _ _ _ RI') _ _ Ex) as Ch. unfold str, ch in *. rewrite I in Ch. destruct (inside _ _ _); [discriminate|]. injection Ch as <-. apply N0. eapply nth_error_In; eauto.
  - intros k1 key k2 p' std' Ek Ep Es. destruct k2 as [|y k2] using rev_ind; [|clear IHk2].
    + apply app_inj_tail in Ek as (<- & <-). rewrite E1 in Ep. rewrite E2 in Es. injection Ep as <-. injection Es as <-. exists (r_line s). rewrite New. split; [|intros e; now apply hits_of_iff].
      destruct Bl as (B1 & B2). split; auto. intros q x Ex. destruct (B2 q x Ex) as (B3 & B4). split; intros P; [apply B3|apply B4; intros P'; apply P]; [destruct P as (k & e & Ik & Ie & C)|destruct P' as (k & e & Ik & Ie & C)]; exists k, e; [rewrite Old in Ie by auto|rewrite Old by auto]; auto.
    + change (k1 ++ key :: k2 ++ [y]) with (k1 ++ (key :: k2) ++ [y]) in Ek. rewrite app_assoc in Ek. apply app_inj_tail in Ek as (Ek & _). destruct (H k1 key k2 p' std' Ek Ep Es) as (l & (B1 & B2) & He). exists l.
      assert (forall k, In k k1 -> In k ks) as Sub by (intros k I; rewrite Ek; apply in_app_iff; auto). rewrite Old by (rewrite Ek; apply in_app_iff; right; now left). split; auto. split; auto.
      intros q x Ex. destruct (B2 q x Ex) as (B3 & B4). split; intros P; [apply B3|apply B4; intros P'; apply P]; [destruct P as (k & e & Ik & Ie & C)|destruct P' as (k & e & Ik & Ie & C)]; exists k, e; [rewrite Old in Ie by auto|rewrite Old by auto]; auto.
  - intros i n v. split.
    + intros (I & J). assert (In (i, n) (r_len s) /\ In (i, v) (r_repl s) \/ In (i, n, v) (hits_of p std (r_line s))) as [K|K].
      { pose proof I as I'. pose proof J as J'. apply Q1 in I. apply Q2 in J. destruct I as [I|I].
        - destruct (L _ _ I) as (v' & J2). assert (v = v') as -> by (eapply keyed; [exact D2|exact J'|]; apply Q2; now left). auto.
        - destruct J as [J|J].
          + destruct (L' _ _ J) as (n' & I2). assert (n = n') as -> by (eapply keyed; [exact D1|exact I'|]; apply Q1; now left). auto.
          + right. apply in_map_iff in J as (o & Eo & J). injection Eo as <- <-. assert (n = m_end o - rstart o) as ->.
            { eapply keyed; [exact D1|exact I'|]. apply Q1. right. apply in_map_iff. exists o. auto. }
            apply in_map_iff. exists o. auto. }
      * apply A in K as (key & Ik & Ie). exists key. split; [apply in_app_iff; auto|]. now rewrite Old.
      * exists c. split; [apply in_app_iff; right; now left|]. now rewrite New.
    + intros (key & Ik & Ie). apply in_app_iff in Ik as [Ik|[<-|[]]].
      * rewrite Old in Ie by auto. destruct (proj2 (A i n v)) as (I & J); [eauto|]. split; [apply Q1|apply Q2]; auto.
      * rewrite New in Ie. apply in_map_iff in Ie as (o & Eo & I). injection Eo as <- <- <-. split; [apply Q1|apply Q2]; right; apply in_map_iff; exists o; auto.
  - intros i n I. assert (In i (map fst (r_repl s'))) as J by (rewrite (ri_keys _ _ _ RI'); apply in_map_iff; exists (i, n); auto). apply in_map_iff in J as ((j & v) & <- & J). eauto.
Qed.
Lemma winv_categs kb l0 : ~ In 47%N l0 -> forall cs ks es s, winv kb l0 ks es s -> NoDup (ks ++ cs) ->
  (forall c, In c cs -> exists p std, assoc_rep c (rk_search kb) = Some p /\ assoc_rep c (rk_std kb) = Some std /\ rep_ok p = true) ->
  exists es' s', repnum_categs kb cs s = Ok s' /\ winv kb l0 (ks ++ cs) es' s'.
Proof.
  intros N0. induction cs as [|c cs IH]; intros ks es s W D H; [exists es, s; rewrite app_nil_r; auto|]. cbn [repnum_categs]. destruct (H c ltac:(now left)) as (p & std & E1 & E2 & R). rewrite E1, E2.
  destruct (winv_step kb l0 ks es s c p std N0 W) as (s1 & -> & W1); auto. { apply NoDup_remove_2 in D. intros I. apply D. apply in_app_iff. auto. }
  cbn [bind]. replace (ks ++ c :: cs) with ((ks ++ [c]) ++ cs) in * by now rewrite <- app_assoc. eapply IH; eauto. intros; apply H; now right.
Qed.
Lemma sort_nodup l : NoDup l -> NoDup (sort_desc l).
Proof.
  intros D. pose proof (sort_sorted l D) as S. induction S as [|x l' S IH F]; constructor; auto. intros I. rewrite Forall_forall in F. specialize (F _ I). unfold desc in F. rewrite key_irrefl in F. discriminate.
Qed.
Definition no_slash (line : str) : str := map (fun c => if N.eqb c 47 then 32%N else c) line.
(** what the categories tried before [key] have found is hidden from its pattern *)
Lemma reports_exact kb line : reports_fine kb -> NoDup (map fst (rk_std kb)) -> exists es s, identify_report_numbers line kb = Ok s
  /\ (forall key p std, In key (map fst (rk_std kb)) -> assoc_rep key (rk_search kb) = Some p -> assoc_rep key (rk_std kb) = Some std -> exists l,
        blanked (fun q => exists k e, In k (map fst (rk_std kb)) /\ goes_first k key /\ In e (es k) /\ covers_place e q) (no_slash line) l
        /\ forall e, In e (es key) <-> hit p std l e)
  /\ (forall i n v, (In (i, n) (r_len s) /\ In (i, v) (r_repl s)) <-> exists key, In key (map fst (rk_std kb)) /\ In (i, n, v) (es key))
  /\ blanked (fun q => exists k e, In k (map fst (rk_std kb)) /\ In e (es k) /\ covers_place e q) (no_slash line) (r_line s).
Proof.
  intros F D. unfold identify_report_numbers. rewrite replace_slash. set (keys := map fst (rk_std kb)) in *. change (map slash_out line) with (no_slash line).
  assert (~ In 47%N (no_slash line)) as N0. { intros I. apply in_map_iff in I as (c & E & _). destruct (N.eqb_spec c 47) as [|Ne]; [discriminate|contradiction]. }
  destruct (winv_categs kb (no_slash line) N0 (sort_desc keys) [] (fun _ => []) (mkrst [] [] (no_slash line))) as (es & s & E & W).
  - split; cbn [r_len r_repl r_line]; auto.
    + split; cbn [r_len r_repl r_line]; [apply marked_start|intros ? ? []|reflexivity|intros ? ? ? []].
    + intros [|? k1] key k2 p std Ek; discriminate.
    + intros i n v. split; [intros ([] & _)|intros (k & [] & _)].
    + intros i n [].
  - cbn [app]. now apply sort_nodup.
  - intros c I. apply F. now apply sort_desc_in.
  - exists es, s. cbn [app] in W. pose proof (blanked_line _ _ _ _ _ W) as (B1 & B2). destruct W as [_ _ H A _]. assert (forall k, In k (sort_desc keys) <-> In k keys) as Same by (intros; apply sort_desc_in). split; auto. split; [|split].
    + intros key p std I Ep Es. apply Same in I. apply in_split in I as (k1 & k2 & Ek). destruct (H k1 key k2 p std Ek Ep Es) as (l & (C1 & C2) & He). exists l. split; auto. split; auto.
      assert (forall k, In k k1 <-> In k keys /\ goes_first k key) as Pre. { intros k. pose proof (sort_sorted keys D) as S. rewrite Ek in S. rewrite (sorted_prefix _ _ _ k S), <- Ek, Same, ltb_first. reflexivity. }
      intros q x Ex. destruct (C2 q x Ex) as (C3 & C4). split; intros P; [apply C3|apply C4; intros P'; apply P]; [destruct P as (k & e & Ik & G & Ie & C)|destruct P' as (k & e & Ik & Ie & C)]; exists k, e; [split; [apply Pre; auto|auto]|apply Pre in Ik as (Ik & G); auto].
    + intros i n v. rewrite A. split; intros (k & Ik & Ie); exists k; split; auto; now apply Same.
    + split; auto. intros q x Ex. destruct (B2 q x Ex) as (B3 & B4). split; intros P; [apply B3|apply B4; intros P'; apply P]; [destruct P as (k & e & Ik & Ie & C)|destruct P' as (k & e & Ik & Ie & C)]; exists k, e; split; auto; now apply Same.
Qed.
Lemma blanked_none P l0 l : blanked P l0 l -> (forall q, ~ P q) -> l = l0.
Proof.
  intros (L & H) N. revert l L H. assert (forall l l0 : str, length l = length l0 -> (forall q c, nth_error l0 q = Some c -> nth_error l q = Some c) -> l = l0) as X.
  { induction l as [|x l IH]; intros [|y l'] L H; try discriminate; auto. pose proof (H 0 y eq_refl) as E. injection E as ->. f_equal. apply IH; [cbn in L; lia|]. intros q c. apply (H (S q) c). }
  intros l L H. apply X; auto. intros q c E. apply (H q c E). apply N.
Qed.
Lemma reports_none kb line : reports_fine kb -> NoDup (map fst (rk_std kb)) -> exists s, identify_report_numbers line kb = Ok s
  /\ (r_len s = [] <-> forall key p, In key (map fst (rk_std kb)) -> assoc_rep key (rk_search kb) = Some p -> re_finditer (rx_re p) (no_slash line) = []).
Proof.
  intros F D. destruct (reports_exact kb line F D) as (es & s & E & H & A & _). exists s. split; auto.
  assert (forall i n, In (i, n) (r_len s) -> exists v, In (i, v) (r_repl s)) as L.
  { destruct (reports_spec kb line F) as (s' & E' & R). rewrite E in E'. injection E' as <-. intros i n I. assert (In i (map fst (r_repl s))) as J by (rewrite (ri_keys _ _ _ R); apply in_map_iff; exists (i, n); auto). apply in_map_iff in J as ((j & v) & <- & J). eauto. }
  assert (forall key, In key (map fst (rk_std kb)) -> es key = [] \/ r_len s <> []) as Em.
  { intros key I. destruct (es key) as [|((i & n) & v) t] eqn:Ee; auto. right. destruct (proj2 (A i n v)) as (J & _); [exists key; split; auto; rewrite Ee; now left|]. intros Z. rewrite Z in J. destruct J. }
  split.
  - intros Z key p I Ep. destruct (F key I) as (p' & std & Ep' & Es & R). rewrite Ep in Ep'. injection Ep' as <-. destruct (H key p std I Ep Es) as (l & B & He). apply blanked_none in B as ->.
    + destruct (re_finditer (rx_re p) (no_slash line)) as [|o t] eqn:Fi; auto. exfalso. destruct (rep_match p (no_slash line) o R ltac:(rewrite Fi; now left)) as (a & u & v & G & _ & _ & _ & _ & Bn & _).
      assert (In (a, m_end o - a, std ++ hyphened (slice u v (no_slash line))) (es key)) as J. { apply He. exists o, a, (m_end o), (slice u v (no_slash line)). rewrite Fi. split; [now left|]. auto. }
      destruct (Em key I) as [Q|Q]; [rewrite Q in J; destruct J|congruence].
    + intros q (k & e & Ik & _ & Ie & _). destruct (Em k Ik) as [Q|Q]; [rewrite Q in Ie; destruct Ie|congruence].
  - intros Z. assert (forall key, In key (map fst (rk_std kb)) -> es key = []) as All.
    { assert (forall ks, StronglySorted desc ks -> (forall k, In k ks <-> In k (map fst (rk_std kb))) -> forall k1 k2, ks = k1 ++ k2 -> forall k, In k k1 -> es k = []) as X.
      { intros ks S Same. induction k1 as [|key k1 IH] using rev_ind; intros k2 Ek k Ik; [destruct Ik|]. rewrite <- app_assoc in Ek. cbn [app] in Ek. apply in_app_iff in Ik as [Ik|[<-|[]]]; [eapply IH; eauto|].
        assert (In key (map fst (rk_std kb))) as I by (apply Same; rewrite Ek; apply in_app_iff; right; now left). destruct (F key I) as (p & std & Ep & Es & R). destruct (H key p std I Ep Es) as (l & B & He). apply blanked_none in B as ->.
        - destruct (es key) as [|e t] eqn:Ee; auto. exfalso. destruct (proj1 (He e) ltac:(now left)) as (o & a & b & n & Io & _). rewrite (Z key p I Ep) in Io. destruct Io.
        - intros q (k & e & Ik & G & Ie & _). rewrite (IH (key :: k2) Ek k) in Ie; [destruct Ie|]. rewrite Ek in S. apply (sorted_prefix _ _ _ k S). rewrite <- Ek, Same, ltb_first. auto. }
      intros key I. apply (X (sort_desc (map fst (rk_std kb))) (sort_sorted _ D) (fun k => sort_desc_in k _) (sort_desc (map fst (rk_std kb))) []); [now rewrite app_nil_r|]. now apply sort_desc_in. }
    destruct (r_len s) as [|(i, n) t] eqn:Er; auto. exfalso. destruct (L i n ltac:(now left)) as (v & J). destruct (proj1 (A i n v)) as (key & I & Ie); [split; [now left|auto]|]. rewrite (All key I) in Ie. destruct Ie.
Qed.

(** ** The keys of a knowledge base that has been built are distinct *)
Lemma put_rep_keys {A} k (v : A) l : NoDup (map fst l) -> NoDup (map fst (put_rep k v l)) /\ forall x, In x (map fst (put_rep k v l)) -> x = k \/ In x (map fst l).
Proof.
  induction l as [|(k', v') l IH]; cbn [put_rep map fst]; intros D; [split; [repeat constructor; auto|intros x [<-|[]]; auto]|]. inversion D as [|? ? N D']; subst. destruct (repkey_eqb k k') eqn:E.
  - cbn [map fst]. split; auto.
  - destruct (IH D') as (D2 & S). cbn [map fst]. split.
    + constructor; auto. intros I. apply S in I as [->|I]; [|contradiction]. rewrite (proj2 (key_eqb_eq k k) eq_refl) in E. discriminate.
    + intros x [<-|I]; [right; now left|]. apply S in I as [I|I]; auto. right. now right.
Qed.
Lemma categs_nodup num ns cs : forall kb kb', add_categs num ns cs kb = Ok kb' -> NoDup (map fst (rk_std kb)) -> NoDup (map fst (rk_std kb')).
Proof.
  induction cs as [|(c, std) cs IH]; intros kb kb' E D; cbn [add_categs] in E; [congruence|]. destruct (compile _ _) as [p|]; cbn [bind] in E; [|discriminate]. eapply IH; [exact E|]. cbn [rk_std]. now apply put_rep_keys.
Qed.
Lemma institute_nodup num cs ns kb kb' : add_institute num cs ns kb = Ok kb' -> NoDup (map fst (rk_std kb)) -> NoDup (map fst (rk_std kb')).
Proof. unfold add_institute. destruct cs, ns; try congruence. apply categs_nodup. Qed.
Lemma built_nodup lines kb : build_reportnum_kb lines = Ok kb -> NoDup (map fst (rk_std kb)).
Proof.
  unfold build_reportnum_kb. assert (forall lines s s', foldM repnum_line s lines = Ok s' -> NoDup (map fst (rk_std (q_kb s))) -> NoDup (map fst (rk_std (q_kb s')))) as X.
  { clear. induction lines as [|l lines IH]; intros s s' E D; cbn [foldM] in E; [congruence|]. destruct (repnum_line s l) as [s1|] eqn:E1; cbn [bind] in E; [|discriminate]. eapply IH; [exact E|]. unfold repnum_line in E1.
    destruct (is_comment l); [congruence|]. destruct (re_search _ l).
    - destruct (add_institute _ _ _ _) as [kb|] eqn:Ei; cbn [bind] in E1; [|discriminate]. injection E1 as <-. cbn [q_kb]. eapply institute_nodup; eauto.
    - destruct (re_search _ l); [injection E1 as <-; auto|]. destruct (re_search _ l); injection E1 as <-; auto. }
  destruct (foldM _ _ lines) as [s|] eqn:E; cbn [bind]; [|discriminate]. intros Ei. eapply institute_nodup; [exact Ei|]. eapply X; [exact E|]. constructor.
Qed.
Lemma report_numbers_exact rows kb line : build_reportnum_kb rows = Ok kb -> reports_fine kb -> exists es s, identify_report_numbers line kb = Ok s
  /\ (forall key p std, In key (map fst (rk_std kb)) -> assoc_rep key (rk_search kb) = Some p -> assoc_rep key (rk_std kb) = Some std -> exists l,
        blanked (fun q => exists k e, In k (map fst (rk_std kb)) /\ goes_first k key /\ In e (es k) /\ covers_place e q) (no_slash line) l
        /\ forall e, In e (es key) <-> hit p std l e)
  /\ (forall i n v, (In (i, n) (r_len s) /\ In (i, v) (r_repl s)) <-> exists key, In key (map fst (rk_std kb)) /\ In (i, n, v) (es key))
  /\ blanked (fun q => exists k e, In k (map fst (rk_std kb)) /\ In e (es k) /\ covers_place e q) (no_slash line) (r_line s).
Proof. intros B F. apply reports_exact; auto. eapply built_nodup; eauto. Qed.
Lemma report_numbers_none rows kb line : build_reportnum_kb rows = Ok kb -> reports_fine kb -> exists s, identify_report_numbers line kb = Ok s
  /\ (r_len s = [] <-> forall key p, In key (map fst (rk_std kb)) -> assoc_rep key (rk_search kb) = Some p -> re_finditer (rx_re p) (no_slash line) = []).
Proof. intros B F. apply reports_none; auto. eapply built_nodup; eauto. Qed.
