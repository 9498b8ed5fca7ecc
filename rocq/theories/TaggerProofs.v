(** Exactly which texts the simple taggers replace, and by what (C54). *)
From Coq Require Import List Arith NArith Bool String Lia.
From Verif Require Import PyStr ListFacts Regex RegexMeta RegexLang RegexParse Patterns Numeration Tag TransformProofs CaptureLang.
Import ListNotations.
Local Open Scope nat_scope.
Local Notation length := List.length.

Lemma accept_total x g : accept x g <> None. Proof. discriminate. Qed.
Lemma same_text (w b w' b' : str) : w ++ b = w' ++ b' -> length w = length w' -> w = w' /\ b = b'.
Proof. revert w'. induction w as [|c w IH]; destruct w' as [|c' w']; cbn; intros E L; try discriminate; auto. injection E as -> E. destruct (IH w') as [-> ->]; auto. Qed.
Lemma class_all (c : cls) (p : ch -> bool) w : (forall d, cls_mem c d = p d) -> forallb (cls_mem c) w = forallb p w.
Proof. intros H. induction w; cbn; auto. now rewrite H, IHw. Qed.
Ltac one H := let d := fresh "d" in destruct H as (d & -> & H & ->).

Lemma run_caps r a w b o whole : fair r = true -> whole = a ++ w ++ b -> run r false (here a (w ++ b)) = Some o -> m_end o = length a + length w ->
  exists c, rd r a w b c /\ forall i, i <> 0 -> g_text whole o i = cap i c.
Proof. intros F -> R T. apply run_rd in R as (w' & b' & c & E & R & _ & T' & G); auto. destruct (same_text w b w' b' E) as [-> ->]; [lia|]. eauto. Qed.
Lemma tgrp_cap p i n whole o (c : caps) : assoc_str (py n) (rx_names p) = Some i -> i <> 0 -> (forall i, i <> 0 -> g_text whole o i = cap i c) ->
  tgrp p whole o n = match cap i c with Some t => t | None => [] end.
Proof. intros A N G. unfold tgrp, g_str. now rewrite A, G. Qed.

(** ** Quoted text *)
Definition quoted (a w b t : str) : Prop := w = [34%N] ++ t ++ [34%N] /\ t <> [] /\ ~ In 34%N t.
Lemma not_quote t : forallb (cls_mem (mkcls true false [CRange 34 34])) t = true <-> ~ In 34%N t.
Proof.
  rewrite forallb_forall. split; intros H.
  - intros I. apply H in I. discriminate.
  - intros d I. unfold cls_mem. cbn [c_neg c_ci c_items existsb item_mem]. rewrite range_one, orb_false_r. destruct (N.eqb_spec d 34); auto. now subst.
Qed.
Lemma rd_quoted a w b c : rd (rx_re re_quoted) a w b c <-> exists t, quoted a w b t /\ c = [(1, t)].
Proof.
  split.
  - intros H. cbn [rd rx_re re_quoted] in H. destruct H as (u & v & c1 & c2 & -> & -> & H1 & (u2 & v2 & c3 & c4 & -> & -> & (c' & -> & H2) & H3)).
    one H1. one H3. apply rd_class in H2 as (N & L & _ & ->). apply (one_char false) in H1, H3. apply not_quote in N. subst. exists u2. split; auto. split; auto. split; auto. destruct u2; [cbn in L; lia|discriminate].
  - intros (t & (-> & N & I) & ->). cbn [rd rx_re re_quoted]. exists [34%N], (t ++ [34%N]), [], [(1, t)]. split; auto. split; auto. split; [exists 34%N; auto|].
    exists t, [34%N], [(1, t)], []. split; auto. split; auto. split; [|exists 34%N; auto]. exists []. split; auto. apply rd_class. split; [now apply not_quote|]. split; [destruct t; [congruence|cbn; lia]|]. cbn. auto.
Qed.
Lemma tag_quoted_exact line : tagged (fun a w b => exists t, quoted a w b t) (fun a w b v => exists t, quoted a w b t /\ v = wrap "QUOTED" t) [] line (tag_quoted_text line).
Proof.
  apply sub_tagged; [reflexivity|vm_compute; lia| |].
  - intros a w b (t & Q). exists [(1, t)]. apply rd_quoted. eauto.
  - intros a w b o W R S T. destruct (run_caps _ _ _ _ _ _ (eq_refl : fair (rx_re re_quoted) = true) W R T) as (c & Rd & G). apply rd_quoted in Rd as (t & Q & ->). exists t. split; auto.
    now rewrite (tgrp_cap re_quoted 1 "title" _ _ _ eq_refl ltac:(discriminate) G).
Qed.

(** ** ISBN *)
(** a dash, a long dash, a digit or an x *)
Definition isbn_char (c : ch) : bool := mem_ch c [45; 8211; 88; 120]%N || in_range 48 57 c.
Definition isbn_gap (c : ch) : bool := N.eqb c 58 || is_space c.
Definition isbn_lead (t : str) : Prop :=
  (exists d n g, t = py "ISBN" ++ d ++ n ++ g /\ forallb (fun c => mem_ch c [45; 8211; 32]%N) d = true /\ In n [[]; py "10"; py "13"] /\ forallb isbn_gap g = true)
  \/ exists g, t = py "InternationalStandardBookNumber" ++ g /\ forallb isbn_gap g = true.
Definition isbn (w code : str) : Prop := exists t, w = t ++ code /\ isbn_lead t /\ forallb isbn_char code = true /\ 10 <= length code <= 25.
Definition no_more (p : ch -> bool) (b : str) : Prop := match b with c :: _ => p c = false | [] => True end.
Definition isbn_dash_cls : cls := mkcls false false [CRange 45 45; CRange 8211 8211; CRange 32 32].
Definition isbn_first : re := Alt
  (lits false (py "ISBN") (Cat (Rep true 0 None (Cls isbn_dash_cls)) (Alt Eps (Alt (word_re false (py "10")) (word_re false (py "13"))))))
  (word_re false (py "InternationalStandardBookNumber")).
Definition isbn_gap_cls : cls := mkcls false false [CRange 58 58; CSpace true].
Definition isbn_code_cls : cls := mkcls false false [CRange 45 45; CRange 45 45; CRange 8211 8211; CRange 48 57; CRange 88 88; CRange 120 120].
Lemma isbn_shape : rx_re re_isbn = Cat isbn_first (Cat (Rep true 0 None (Cls isbn_gap_cls)) (Grp 1 (Rep true 10 (Some 25) (Cls isbn_code_cls)))).
Proof. reflexivity. Qed.
Lemma isbn_code_mem d : cls_mem isbn_code_cls d = isbn_char d.
Proof. unfold cls_mem, isbn_char, isbn_code_cls. cbn [c_neg c_ci c_items existsb item_mem mem_ch]. rewrite !range_one, xorb_false_l. repeat match goal with |- context [N.eqb ?a ?b] => destruct (N.eqb a b) end; rewrite ?orb_true_r, ?orb_false_r; auto. Qed.
Lemma isbn_gap_mem d : cls_mem isbn_gap_cls d = isbn_gap d.
Proof. unfold cls_mem, isbn_gap, isbn_gap_cls. cbn [c_neg c_ci c_items existsb item_mem]. rewrite range_one, xorb_false_l, orb_false_r. f_equal. now destruct (is_space d). Qed.
Definition isbn_start (t : str) : Prop :=
  (exists d n, t = py "ISBN" ++ d ++ n /\ forallb (fun c => mem_ch c [45; 8211; 32]%N) d = true /\ In n [[]; py "10"; py "13"]) \/ t = py "InternationalStandardBookNumber".
Lemma rd_isbn_first a t b c : rd isbn_first a t b c <-> isbn_start t /\ c = [].
Proof.
  assert (forall d, cls_mem isbn_dash_cls d = mem_ch d [45; 8211; 32]%N) as M.
  { intros d. unfold cls_mem, isbn_dash_cls. cbn [c_neg c_ci c_items existsb item_mem mem_ch]. rewrite !range_one, xorb_false_l. reflexivity. }
  assert (forall n a b c, rd (Alt Eps (Alt (word_re false (py "10")) (word_re false (py "13")))) a n b c <-> In n [[]; py "10"; py "13"] /\ c = []) as K.
  { intros n a' b' c'. rewrite !rd_alt, rd_eps, !rd_word by discriminate. unfold letters. cbn [In]. split; [intros [(-> & ->)|[(-> & ->)|(-> & ->)]]; auto|intros ([<-|[<-|[<-|[]]]] & ->); auto]. }
  unfold isbn_first. rewrite rd_alt, rd_lits, rd_word by discriminate. unfold letters. split.
  - intros [(u & v & -> & -> & H)|(-> & ->)]; [|split; [right|]; reflexivity]. apply rd_cat in H as (u2 & v2 & c1 & c2 & -> & -> & H1 & H2).
    apply rd_rep_cls in H1 as (D & _ & _ & ->). rewrite (class_all _ _ _ M) in D. apply K in H2 as (N & ->). split; auto. left. eauto.
  - intros ([(d & n & -> & D & N)| ->] & ->); [left|right; auto]. exists (py "ISBN"), (d ++ n). split; auto. split; [reflexivity|]. apply rd_cat. exists d, n, [], []. split; auto. split; auto. split; [apply rd_rep_cls; rewrite (class_all _ _ _ M); cbn; auto with arith|].
    apply K. auto.
Qed.
Lemma isbn_lead_start t g : isbn_start t -> forallb isbn_gap g = true -> isbn_lead (t ++ g).
Proof. intros [(d & n & -> & D & N)| ->] G; [left|right; eauto]. exists d, n, g. rewrite <- !app_assoc. auto. Qed.
Lemma isbn_lead_split t : isbn_lead t -> exists u g, t = u ++ g /\ isbn_start u /\ forallb isbn_gap g = true.
Proof.
  intros [(d & n & g & -> & D & N & G)|(g & -> & G)].
  - exists (py "ISBN" ++ d ++ n), g. rewrite <- !app_assoc. split; auto. split; auto. left. eauto.
  - eexists _, g. split; [reflexivity|]. split; auto. now right.
Qed.
Lemma tag_isbn_exact line : tagged (fun a w b => exists code, isbn w code)
  (fun a w b v => exists code, isbn w code /\ (length code = 25 \/ no_more isbn_char b) /\ v = wrap "ISBN" code) [] line (tag_isbn line).
Proof.
  unfold tag_isbn, sub_with. apply sub_tagged; [reflexivity|vm_compute; lia| |].
  - intros a w b (code & t & -> & L & C & Len). apply isbn_lead_split in L as (u & g & -> & U & G). rewrite isbn_shape. exists [(1, code)]. apply rd_cat. exists u, (g ++ code), [], [(1, code)]. rewrite <- app_assoc. split; auto. split; auto. split; [now apply rd_isbn_first|].
    apply rd_cat. exists g, code, [], [(1, code)]. split; auto. split; auto. split; [apply rd_rep_cls; rewrite (class_all _ _ _ isbn_gap_mem); cbn; auto with arith|]. apply rd_grp. exists []. split; auto. apply rd_rep_cls. rewrite (class_all _ _ _ isbn_code_mem). cbn. intuition.
  - intros a w b o W R S T. apply run_m in R as (z & gs & R & ->). rewrite isbn_shape in R. apply peel in R as (u & s1 & c1 & g1 & E1 & R1 & L1 & R); [|reflexivity]. apply rd_isbn_first in R1 as (U & ->). inversion L1; subst g1. clear L1.
    apply peel in R as (g & s2 & c2 & g2 & E2 & R2 & L2 & R); [|reflexivity]. apply rd_rep_cls in R2 as (G & _ & _ & ->). inversion L2; subst g2. clear L2. rewrite (class_all _ _ _ isbn_gap_mem) in G. cbn [app] in R.
    rewrite m_group in R. apply (peel_most 10 (Some 25) isbn_code_cls) in R as (code & b' & E3 & C & Mn & Mx & More & R); [|discriminate]. rewrite (class_all _ _ _ isbn_code_mem) in C. cbn in Mx.
    injection R as <- <-. cbn [m_end pos here] in T. subst s1 s2. rewrite !app_assoc in E1. destruct (same_text w b ((u ++ g) ++ code) b') as [-> ->]; auto. { rewrite !app_length in *. lia. }
    exists code. split; [|split]; [exists (u ++ g); repeat split; auto; now apply isbn_lead_start| |].
    + destruct More as [More|More]; [left; congruence|right]. destruct b'; cbn; auto. now rewrite <- isbn_code_mem.
    + f_equal. unfold tgrp. change (assoc_str (py "code") (rx_names re_isbn)) with (Some 1). unfold g_str, g_text. cbn [g_span lookup_group m_groups Nat.eqb]. subst line. cbn [here pos].
      pose proof (slice_mid ((a ++ u) ++ g) code b') as Q. rewrite <- !app_assoc in *. rewrite !app_length, !Nat.add_assoc in *. exact Q.
Qed.

(** ** Classes without letters *)
Lemma variants d v : In v (case_variants d) -> v = d \/ (65 <= v <= 90)%N \/ (97 <= v <= 122)%N \/ (128 <= v)%N.
Proof.
  intros H. destruct (N.ltb_spec d 128) as [Ld|Ld]; [|destruct (special_fold d) eqn:F].
  - assert (forallb (fun d => forallb (fun v => N.eqb v d || in_range 65 90 v || in_range 97 122 v || (128 <=? v))%N (case_variants d)) (map N.of_nat (seq 0 128)) = true) as C by (vm_compute; reflexivity).
    rewrite forallb_forall in C. specialize (C d ltac:(apply in_map_iff; exists (N.to_nat d); split; [apply N2Nat.id|apply in_seq; lia])). rewrite forallb_forall in C. specialize (C v H). unfold in_range in C.
    rewrite !orb_true_iff, !andb_true_iff, !N.leb_le, N.eqb_eq in C. intuition lia.
  - unfold special_fold in F. rewrite !orb_true_iff, !N.eqb_eq in F. destruct F as [[[->| ->]| ->]| ->]; vm_compute in H; intuition lia.
  - pose proof (case_variants_high d Ld F) as Q. rewrite Forall_forall in Q. specialize (Q v H). lia.
Qed.
Definition plain (lo hi : N) : bool := (hi <? 65)%N || (90 <? lo)%N && (hi <? 97)%N || (122 <? lo)%N && (hi <? 128)%N.
Lemma plain_out lo hi v : plain lo hi = true -> in_range lo hi v = true -> ~ ((65 <= v <= 90)%N \/ (97 <= v <= 122)%N \/ (128 <= v)%N).
Proof. unfold plain, in_range. rewrite !orb_true_iff, !andb_true_iff, !N.ltb_lt, !N.leb_le. lia. Qed.
Lemma case_self d : In d (case_variants d) \/ ((65 <= d <= 90)%N \/ (97 <= d <= 122)%N \/ (128 <= d)%N).
Proof.
  unfold case_variants, is_lower_ascii, is_upper_ascii, in_range. destruct ((97 <=? d)%N && _) eqn:A. { rewrite andb_true_iff, !N.leb_le in A. lia. }
  destruct ((65 <=? d)%N && _) eqn:B. { rewrite andb_true_iff, !N.leb_le in B. lia. } destruct (N.ltb_spec d 128); [left; now left|lia].
Qed.
Lemma item_plain ci lo hi d : plain lo hi = true -> item_mem ci d (CRange lo hi) = in_range lo hi d.
Proof.
  intros P. cbn [item_mem]. destruct ci; auto. destruct (in_range lo hi d) eqn:E.
  - apply existsb_exists. exists d. split; auto. destruct (case_self d) as [|C]; auto. now apply (plain_out _ _ _ P) in C.
  - destruct (existsb _ _) eqn:X; auto. apply existsb_exists in X as (v & V & X). apply variants in V as [->|V]; [congruence|]. now apply (plain_out _ _ _ P) in V.
Qed.
Lemma class_items ci its d : cls_mem (mkcls false ci its) d = existsb (item_mem ci d) its. Proof. apply xorb_false_l. Qed.
Lemma eqb_true b : Bool.eqb true b = b. Proof. now destruct b. Qed.
Ltac classes := unfold cls_mem; cbn [c_neg c_ci c_items existsb]; rewrite ?xorb_false_l, ?item_plain by reflexivity; cbn [item_mem]; rewrite ?range_one, ?eqb_true, ?orb_false_r; auto.
Lemma letters_plain ci word w : forallb (fun c => plain c c) word = true -> letters ci word w <-> w = word.
Proof.
  intros P. unfold letters. destruct ci; [|reflexivity]. split.
  - intros H. revert P. induction H as [|c d word w D W IH]; intros P; auto. cbn [forallb] in P. apply andb_true_iff in P as [P Q]. rewrite IH by auto. f_equal.
    apply variants in D as [->|D]; auto. exfalso. revert D. apply (plain_out _ _ _ P). rewrite range_one. apply N.eqb_refl.
  - intros ->. induction word as [|c word IH]; cbn [forallb] in P; constructor; apply andb_true_iff in P as [P Q]; auto. destruct (case_self c) as [|C]; auto. exfalso. revert C. apply (plain_out _ _ _ P). rewrite range_one. apply N.eqb_refl.
Qed.

(** ** Volumes *)
Definition loose_volume (w : str) (l : ch) (n : str) : Prop := w = py "<cds.VOL>" ++ [l; 32%N] ++ n ++ py "</cds.VOL>" /\ is_word l = true /\ forallb is_digit n = true /\ n <> [].
Definition word_cls : cls := mkcls false false [CWord true].
Definition digit_cls : cls := mkcls false false [CDigit true].
Lemma digit_mem d : cls_mem digit_cls d = is_digit d. Proof. unfold digit_cls. classes. Qed.
Lemma word_mem d : cls_mem word_cls d = is_word d. Proof. unfold word_cls. classes. Qed.
Lemma volume_shape : rx_re re_wash_volume_tag = lits false (py "<cds.VOL>") (Cat (Grp 1 (Cls word_cls)) (lits false [32%N] (Cat (Grp 2 (Rep true 1 None (Cls digit_cls))) (word_re false (py "</cds.VOL>"))))).
Proof. reflexivity. Qed.
Lemma rd_volume a w b c : rd (rx_re re_wash_volume_tag) a w b c <-> exists l n, loose_volume w l n /\ c = [(2, n); (1, [l])].
Proof.
  rewrite volume_shape, rd_lits. split.
  - intros (u & v & -> & U & H). apply rd_cat in H as (u1 & v1 & c1 & c2 & -> & -> & H1 & H2). apply rd_grp in H1 as (c' & -> & H1). apply rd_cls in H1 as (l & -> & L & ->).
    apply rd_lits in H2 as (x & y & -> & X & H2). apply rd_cat in H2 as (n & e & c3 & c4 & -> & -> & H2 & H3). apply rd_grp in H2 as (c' & -> & H2). apply rd_rep_cls in H2 as (N & Ln & _ & ->). apply rd_word in H3 as (E & ->); [|discriminate].
    unfold letters in *. subst. rewrite word_mem in L. rewrite (class_all _ _ _ digit_mem) in N. exists l, n. split; auto. split; auto. split; auto. split; auto. destruct n; [cbn in Ln; lia|discriminate].
  - intros (l & n & (-> & L & N & Nn) & ->). exists (py "<cds.VOL>"), ([l; 32%N] ++ n ++ py "</cds.VOL>"). split; auto. split; [reflexivity|]. apply rd_cat. exists [l], ([32%N] ++ n ++ py "</cds.VOL>"), [(1, [l])], [(2, n)]. split; auto. split; auto. split.
    + apply rd_grp. exists []. split; auto. apply rd_cls. exists l. rewrite word_mem. auto.
    + apply rd_lits. exists [32%N], (n ++ py "</cds.VOL>"). split; auto. split; [reflexivity|]. apply rd_cat. exists n, (py "</cds.VOL>"), [(2, n)], []. split; auto. split; auto. split.
      * apply rd_grp. exists []. split; auto. apply rd_rep_cls. rewrite (class_all _ _ _ digit_mem). split; auto. split; [destruct n; [congruence|cbn; lia]|cbn; auto].
      * apply rd_word; [discriminate|]. split; reflexivity.
Qed.
Lemma wash_volume_exact line : tagged (fun a w b => exists l n, loose_volume w l n) (fun a w b v => exists l n, loose_volume w l n /\ v = wrap "VOL" (l :: n)) [] line (wash_volume_tag line).
Proof.
  unfold wash_volume_tag, sub_with. apply sub_tagged; [reflexivity|vm_compute; lia| |].
  - intros a w b (l & n & H). eexists. apply rd_volume. eauto.
  - intros a w b o W R S T. destruct (run_caps _ _ _ _ _ _ (eq_refl : fair (rx_re re_wash_volume_tag) = true) W R T) as (c & Rd & G). apply rd_volume in Rd as (l & n & H & ->). exists l, n. split; auto.
    unfold g_str. rewrite !G by discriminate. reflexivity.
Qed.

(** ** ATLAS conference notes *)
Definition after_tag (a : str) : Prop := exists p c, a = p ++ [c; 58%N] /\ is_word c = true.
Definition note_end (b : str) : Prop := no_more (fun c => is_word c || is_digit c) b.
Definition old_note (code : str) : Prop := exists y n, code = y ++ [45%N] ++ n /\ (y = py "99" \/ exists d, y = py "200" ++ [d] /\ is_digit d = true) /\ length n = 3 /\ forallb is_digit n = true.
Definition new_note (code : str) : Prop := exists d e n, code = py "20" ++ [d; e; 45%N] ++ n /\ in_range 49 57 d = true /\ is_digit e = true /\ length n = 3 /\ forallb is_digit n = true.
Definition atlas (note : str -> Prop) (a w b code : str) : Prop := exists x, w = py "ATL" ++ x ++ py "-CONF-" ++ code /\ (x = [] \/ x = py "AS") /\ note code /\ ~ after_tag a /\ note_end b.
Definition atlas_re (code : re) : re :=
  Cat (Look false true 2 (Cat (Cls word_cls) (Cls (mkcls false false [CRange 58 58])))) (lits false (py "ATL") (Cat (Rep true 0 (Some 1) (Grp 1 (word_re false (py "AS"))))
    (lits false (py "-CONF-") (Cat (Grp 2 code) (Look true true 0 (Cls (mkcls false false [CWord true; CDigit true]))))))).
Definition three : re := Rep true 3 (Some 3) (Cls digit_cls).
Definition old_note_re : re := Cat (Alt (lits false (py "200") (Cls digit_cls)) (word_re false (py "99"))) (lits false [45%N] three).
Definition new_note_re : re := lits false (py "20") (Cat (Cls (mkcls false false [CRange 49 57])) (Cat (Cls digit_cls) (lits false [45%N] three))).
Lemma atlas_pre_shape : rx_re re_atlas_pre = atlas_re old_note_re. Proof. reflexivity. Qed.
Lemma atlas_post_shape : rx_re re_atlas_post = atlas_re new_note_re. Proof. reflexivity. Qed.
Lemma rd_digits k a n b c : rd (Rep true k (Some k) (Cls digit_cls)) a n b c <-> length n = k /\ forallb is_digit n = true /\ c = [].
Proof. rewrite rd_rep_cls, (class_all _ _ _ digit_mem). cbn [le_max]. intuition lia. Qed.
Lemma rd_no_more n k p a w b c : (forall d, cls_mem k d = p d) -> rd (Look true true n (Cls k)) a w b c <-> w = [] /\ c = [] /\ no_more p b.
Proof.
  intros K. rewrite rd_not_ahead. assert ((~ exists u t c', b = u ++ t /\ rd (Cls k) a u t c') <-> no_more p b) as ->; [|reflexivity]. split.
  - intros H. destruct b as [|d b]; cbn; auto. destruct (p d) eqn:E; auto. exfalso. apply H. exists [d], b, []. split; auto. apply rd_cls. exists d. rewrite K. auto.
  - intros H (u & t & c' & -> & R). apply rd_cls in R as (d & -> & D & _). cbn in H. rewrite K in D. congruence.
Qed.
Lemma rd_behind a' w' b' c' : rd (Look false true 2 (Cat (Cls word_cls) (Cls (mkcls false false [CRange 58 58])))) a' w' b' c' <-> w' = [] /\ c' = [] /\ ~ after_tag a'.
Proof.
  rewrite rd_not_behind. assert ((exists p u c', a' = p ++ u /\ length u = 2 /\ rd (Cat (Cls word_cls) (Cls (mkcls false false [CRange 58 58]))) p u b' c') <-> after_tag a') as ->; [|reflexivity]. split.
    - intros (p & u & c2 & -> & _ & R). apply rd_cat in R as (u1 & v1 & c3 & c4 & -> & _ & R1 & R2). apply rd_cls in R1 as (d & -> & D & _). apply rd_cls in R2 as (e & -> & E & _). apply (one_char false) in E. rewrite word_mem in D. subst. exists p, d. auto.
    - intros (p & d & -> & D). exists p, [d; 58%N], []. split; auto. split; auto. apply rd_cat. exists [d], [58%N], [], []. split; auto. split; auto. split; apply rd_cls; [exists d; rewrite word_mem; auto|exists 58%N; auto].
Qed.
Lemma end_mem d : cls_mem (mkcls false false [CWord true; CDigit true]) d = is_word d || is_digit d. Proof. classes. Qed.
Lemma rd_as a' w' b' c' : rd (Grp 1 (word_re false (py "AS"))) a' w' b' c' <-> w' = py "AS" /\ c' = [(1, w')].
Proof.
  rewrite rd_grp. split; [intros (c2 & -> & R); apply rd_word in R as (R & ->); [auto|discriminate]|intros (-> & ->); eexists; split; [reflexivity|]; apply rd_word; [discriminate|]; split; reflexivity].
Qed.
Lemma rd_atlas code (note : str -> Prop) a w b c : (forall a n b c, rd code a n b c <-> note n /\ c = []) ->
  rd (atlas_re code) a w b c -> exists n, atlas note a w b n /\ exists c', c = (2, n) :: c'.
Proof.
  intros K. unfold atlas_re. rewrite rd_cat.
  intros (u & v & c1 & c2 & -> & -> & H1 & H2). apply rd_behind in H1 as (-> & -> & A). rewrite app_nil_r in *. apply rd_lits in H2 as (x & y & -> & X & H2). apply rd_cat in H2 as (s & y2 & c3 & c4 & -> & -> & H2 & H3).
    apply rd_lits in H3 as (x2 & y3 & -> & X2 & H3). apply rd_cat in H3 as (n & e & c5 & c6 & -> & -> & H3 & H4). apply rd_grp in H3 as (c' & -> & H3). apply K in H3 as (N & ->). apply (rd_no_more _ _ _ _ _ _ _ end_mem) in H4 as (-> & -> & E).
    unfold letters in *. subst. rewrite app_nil_r. exists n. split; [|cbn; eauto]. exists s. split; auto. split; [|auto]. apply rd_opt in H2 as [(-> & _)|H2]; auto. apply rd_as in H2 as (-> & _). auto.
Qed.
Lemma atlas_rd code (note : str -> Prop) a w b n : (forall a n b c, rd code a n b c <-> note n /\ c = []) -> atlas note a w b n -> exists c, rd (atlas_re code) a w b c.
Proof.
  intros K (x & -> & X & N & A & E). unfold atlas_re. eexists. apply rd_cat. exists [], (py "ATL" ++ x ++ py "-CONF-" ++ n). do 2 eexists. split; [reflexivity|]. split; [reflexivity|]. split; [apply rd_behind; auto|].
  apply rd_lits. exists (py "ATL"), (x ++ py "-CONF-" ++ n). split; [reflexivity|]. split; [reflexivity|]. apply rd_cat. exists x, (py "-CONF-" ++ n), (if nonempty x then [(1, x)] else []). eexists. split; [reflexivity|]. split; [reflexivity|]. split.
  - apply rd_opt. destruct X as [->| ->]; [left; auto|right]. apply rd_as. auto.
  - apply rd_lits. exists (py "-CONF-"), n. split; [reflexivity|]. split; [reflexivity|]. apply rd_cat. exists n, []. do 2 eexists. rewrite app_nil_r. split; [reflexivity|]. split; [reflexivity|]. split; [apply rd_grp; exists []; split; [reflexivity|]; now apply K|].
    apply (rd_no_more _ _ _ _ _ _ _ end_mem). auto.
Qed.
Lemma rd_old_note a n b c : rd old_note_re a n b c <-> old_note n /\ c = [].
Proof.
  unfold old_note_re. rewrite rd_cat. split.
  - intros (y & v & c1 & c2 & -> & -> & H1 & H2). apply rd_lits in H2 as (x & n & -> & X & H2). apply rd_digits in H2 as (L & D & ->). unfold letters in X. subst. apply rd_alt in H1 as [H1|H1].
    + apply rd_lits in H1 as (z & e & -> & Z & H1). apply rd_cls in H1 as (d & -> & H1 & ->). rewrite digit_mem in H1. unfold letters in Z. subst. split; auto. eexists _, n. split; [reflexivity|]. split; [|auto]. right. eauto.
    + apply rd_word in H1 as (Z & ->); [|discriminate]. unfold letters in Z. subst. split; auto. eexists _, n. split; [reflexivity|]. auto.
  - intros ((y & m & -> & Y & L & D) & ->). exists y, ([45%N] ++ m), [], []. split; [reflexivity|]. split; [reflexivity|]. split.
    + apply rd_alt. destruct Y as [->|(d & -> & Y)]; [right; apply rd_word; [discriminate|]; split; reflexivity|left]. apply rd_lits. exists (py "200"), [d]. split; [reflexivity|]. split; [reflexivity|]. apply rd_cls. exists d. rewrite digit_mem. auto.
    + apply rd_lits. exists [45%N], m. split; [reflexivity|]. split; [reflexivity|]. apply rd_digits. auto.
Qed.
Lemma rd_new_note a n b c : rd new_note_re a n b c <-> new_note n /\ c = [].
Proof.
  unfold new_note_re. rewrite rd_lits. split.
  - intros (x & v & -> & X & H). apply rd_cat in H as (y & v1 & c1 & c2 & -> & -> & H1 & H2). apply rd_cls in H1 as (d & -> & H1 & ->). apply rd_cat in H2 as (y & v2 & c1 & c3 & -> & -> & H3 & H2). apply rd_cls in H3 as (e & -> & H3 & ->).
    apply rd_lits in H2 as (z & m & -> & Z & H2). apply rd_digits in H2 as (L & D & ->). unfold letters in *. subst. rewrite digit_mem in H3. rewrite class_items in H1. cbn [existsb item_mem] in H1. rewrite orb_false_r in H1. split; auto. exists d, e, m. auto.
  - intros ((d & e & m & -> & D & E & L & M) & ->). exists (py "20"), ([d; e; 45%N] ++ m). split; [reflexivity|]. split; [reflexivity|]. apply rd_cat. exists [d], ([e; 45%N] ++ m), [], []. split; [reflexivity|]. split; [reflexivity|]. split.
    { apply rd_cls. exists d. rewrite class_items. cbn [existsb item_mem]. rewrite D. auto. }
    apply rd_cat. exists [e], ([45%N] ++ m), [], []. split; [reflexivity|]. split; [reflexivity|]. split; [apply rd_cls; exists e; rewrite digit_mem; auto|].
    apply rd_lits. exists [45%N], m. split; [reflexivity|]. split; [reflexivity|]. apply rd_digits. auto.
Qed.
Definition atlas_step (note : str -> Prop) (name : str) : str -> str -> Prop :=
  tagged (fun a w b => exists n, atlas note a w b n) (fun a w b v => exists n, atlas note a w b n /\ v = wrap "REPORTNUMBER" (name ++ n)) [].
Lemma atlas_pass p code note name line : rx_re p = atlas_re code -> fair (rx_re p) = true -> 1 <= minlen (rx_re p) -> assoc_str (py "code") (rx_names p) = Some 2 ->
  (forall a n b c, rd code a n b c <-> note n /\ c = []) -> atlas_step note name line (sub_with p (fun s o => wrap "REPORTNUMBER" (name ++ tgrp p s o "code")) line).
Proof.
  intros Sh F Mn As K. unfold sub_with. apply sub_tagged; auto.
  - intros a w b (n & H). rewrite Sh. eapply atlas_rd; eauto.
  - intros a w b o W R S T. destruct (run_caps _ _ _ _ _ _ F W R T) as (c & Rd & G). rewrite Sh in Rd. apply (rd_atlas _ _ _ _ _ _ K) in Rd as (n & H & c' & ->). exists n. split; auto.
    now rewrite (tgrp_cap p 2 "code" _ _ _ As ltac:(discriminate) G).
Qed.
Lemma tag_atlas_exact line : exists mid, atlas_step old_note (py "ATL-CONF-") line mid /\ atlas_step new_note (py "ATLAS-CONF-") mid (tag_atlas_conf line).
Proof.
  eexists. split; [apply (atlas_pass re_atlas_pre old_note_re); [reflexivity|reflexivity|vm_compute; lia|reflexivity|apply rd_old_note]|].
  apply (atlas_pass re_atlas_post new_note_re); [reflexivity|reflexivity|vm_compute; lia|reflexivity|apply rd_new_note].
Qed.
