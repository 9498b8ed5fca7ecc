(** Which numbers become arXiv numbers (C54). *)
From Coq Require Import List Arith NArith Bool String Lia.
From Verif Require Import PyStr ListFacts Regex RegexMeta RegexLang RegexParse Patterns Numeration Tag UrlProofs CaptureLang TaggerProofs.
Import ListNotations.
Local Open Scope nat_scope.
Local Notation length := List.length.

(** ** One pattern after another *)
Fixpoint thn (r k : re) : re := match r with Cat a b => thn a (thn b k) | _ => Cat r k end.
Lemma rd_thn r : forall k a w b c, rd (thn r k) a w b c <-> rd (Cat r k) a w b c.
Proof.
  induction r as [| | |r1 IHr1 r2 IHr2| | | | | | | |]; intros k0 x0 w0 y0 c0; try reflexivity. cbn [thn]. rewrite IHr1, !rd_cat. split.
  - intros (u & v & c1 & c2 & -> & -> & H1 & H2). apply IHr2, rd_cat in H2 as (u2 & v2 & c3 & c4 & -> & -> & H2 & H3). exists (u ++ u2), v2, (c3 ++ c1), c4. rewrite <- !app_assoc in *. split; auto. split; auto. split; auto. apply rd_cat. exists u, u2, c1, c3. auto.
  - intros (u & v & c1 & c2 & -> & -> & H1 & H2). apply rd_cat in H1 as (u2 & v2 & c3 & c4 & -> & -> & H1 & H3). exists u2, (v2 ++ v), c3, (c2 ++ c4). rewrite <- !app_assoc in *. split; auto. split; auto. split; auto. apply IHr2, rd_cat. exists v2, v, c4, c2. rewrite <- (app_assoc x0). auto.
Qed.
Lemma located_more s g1 c1 g2 c2 : located s g1 c1 -> located s g2 c2 -> located s (g1 ++ g2) (c1 ++ c2).
Proof. intros A B. now apply located_app. Qed.

(** ** The number *)
(** white space, a colon or a dash *)
Definition sep1 (c : ch) : bool := is_space c || N.eqb c 58 || N.eqb c 45.
(** white space, a dot or a dash *)
Definition sep2 (c : ch) : bool := is_space c || N.eqb c 46 || N.eqb c 45.
(** white space or a dash *)
Definition sep3 (c : ch) : bool := is_space c || N.eqb c 45.
Definition digits (n : nat) (w : str) : Prop := length w = n /\ forallb is_digit w = true.
Definition number (year month : str -> Prop) (n : nat) (w yy mm nn : str) : Prop := exists x g1 h g2,
  w = x ++ g1 ++ yy ++ h ++ mm ++ g2 ++ nn /\ letters true (py "ARXIV") x /\ forallb sep1 g1 = true /\ year yy /\ (h = [] \/ h = py "-") /\ month mm /\ forallb sep2 g2 = true /\ digits n nn.
Definition sep1_cls : cls := mkcls false true [CSpace true; CRange 58 58; CRange 45 45].
Definition sep2_cls : cls := mkcls false true [CSpace true; CRange 46 46; CRange 45 45].
Definition sep3_cls : cls := mkcls false true [CSpace true; CRange 45 45].
Lemma sep1_mem d : cls_mem sep1_cls d = sep1 d. Proof. unfold sep1_cls, sep1. classes. now rewrite orb_assoc. Qed.
Lemma sep2_mem d : cls_mem sep2_cls d = sep2 d. Proof. unfold sep2_cls, sep2. classes. now rewrite orb_assoc. Qed.
Lemma sep3_mem d : cls_mem sep3_cls d = sep3 d. Proof. unfold sep3_cls, sep3. classes. Qed.
Definition core_re (Y M : re) (i n : nat) : re :=
  lits true (py "ARXIV") (Cat (Rep true 0 None (Cls sep1_cls)) (Cat Y (Cat (Rep true 0 (Some 1) (Cls (mkcls false true [CRange 45 45]))) (Cat M (Cat (Rep true 0 None (Cls sep2_cls)) (Grp i (Rep true n (Some n) (Cls digit_cls)))))))).
Lemma rd_many k p a w b c : (forall d, cls_mem k d = p d) -> rd (Rep true 0 None (Cls k)) a w b c <-> forallb p w = true /\ c = [].
Proof. intros H. rewrite rd_rep_cls, (class_all _ _ _ H). cbn. intuition auto with arith. Qed.
Lemma rd_dash a w b c : rd (Rep true 0 (Some 1) (Cls (mkcls false true [CRange 45 45]))) a w b c <-> (w = [] \/ w = py "-") /\ c = [].
Proof.
  rewrite rd_opt, rd_cls. assert (forall d, cls_mem (mkcls false true [CRange 45 45]) d = N.eqb d 45) as M by (intros; classes). split.
  - intros [(-> & ->)|(d & -> & D & ->)]; auto. rewrite M in D. apply N.eqb_eq in D as ->. auto.
  - intros ([->| ->] & ->); auto. right. exists 45%N. auto.
Qed.
Lemma rd_core Y M i n (year month : str -> Prop) cy cm : (forall a w b c, rd Y a w b c <-> year w /\ c = cy w) -> (forall a w b c, rd M a w b c <-> month w /\ c = cm w) ->
  forall a w b c, rd (core_re Y M i n) a w b c <-> exists yy mm nn, number year month n w yy mm nn /\ c = (i, nn) :: cm mm ++ cy yy.
Proof.
  intros KY KM a w b c. unfold core_re. rewrite rd_lits. split.
  - intros (x & v & -> & X & H). apply rd_cat in H as (g1 & v1 & c1 & c2 & -> & -> & H1 & H). apply (rd_many _ _ _ _ _ _ sep1_mem) in H1 as (G1 & ->). apply rd_cat in H as (yy & v2 & c1 & c3 & -> & -> & H1 & H). apply KY in H1 as (Yy & ->).
    apply rd_cat in H as (h & v3 & c1 & c2 & -> & -> & H1 & H). apply rd_dash in H1 as (Hh & ->). apply rd_cat in H as (mm & v4 & c1 & c3 & -> & -> & H1 & H). apply KM in H1 as (Mm & ->).
    apply rd_cat in H as (g2 & nn & c1 & c4 & -> & -> & H1 & H). apply (rd_many _ _ _ _ _ _ sep2_mem) in H1 as (G2 & ->). apply rd_grp in H as (c' & -> & H). apply rd_digits in H as (L & D & ->).
    exists yy, mm, nn. rewrite !app_nil_r. split; auto. exists x, g1, h, g2. repeat split; auto.
  - intros (yy & mm & nn & (x & g1 & h & g2 & -> & X & G1 & Yy & Hh & Mm & G2 & L & D) & ->). exists x, (g1 ++ yy ++ h ++ mm ++ g2 ++ nn). split; auto. split; auto.
    apply rd_cat. exists g1, (yy ++ h ++ mm ++ g2 ++ nn), [], ((i, nn) :: cm mm ++ cy yy). rewrite app_nil_r. split; auto. split; auto. split; [now apply (rd_many _ _ _ _ _ _ sep1_mem)|].
    apply rd_cat. exists yy, (h ++ mm ++ g2 ++ nn), (cy yy), ((i, nn) :: cm mm). split; auto. split; auto. split; [now apply KY|].
    apply rd_cat. exists h, (mm ++ g2 ++ nn), [], ((i, nn) :: cm mm). rewrite app_nil_r. split; auto. split; auto. split; [now apply rd_dash|].
    apply rd_cat. exists mm, (g2 ++ nn), (cm mm), [(i, nn)]. split; auto. split; auto. split; [now apply KM|].
    apply rd_cat. exists g2, nn, [], [(i, nn)]. split; auto. split; auto. split; [now apply (rd_many _ _ _ _ _ _ sep2_mem)|]. apply rd_grp. exists []. split; auto. now apply rd_digits.
Qed.

(** ** What may follow it *)
Definition version (w : str) : Prop := exists g l d, w = g ++ [l; d] /\ forallb sep3 g = true /\ (l = 86 \/ l = 118)%N /\ is_digit d = true.
Definition version_re (i : nat) : re := Cat (Rep true 0 None (Cls sep3_cls)) (lits true (py "V") (Grp i (Cls digit_cls))).
Lemma letter_v w : letters true (py "V") w <-> exists l, w = [l] /\ (l = 86 \/ l = 118)%N.
Proof.
  change (py "V") with [86%N]. rewrite letters_one. split; intros (l & -> & L); exists l; split; auto.
  - apply small_members in L; [|reflexivity]. vm_compute in L. destruct L as [<-|[<-|[]]]; auto.
  - destruct L as [->| ->]; reflexivity.
Qed.
Lemma rd_version i a w b c : rd (version_re i) a w b c <-> version w /\ exists d, c = [(i, [d])] /\ exists p, w = p ++ [d].
Proof.
  unfold version_re. rewrite rd_cat. split.
  - intros (g & v & c1 & c2 & -> & -> & H1 & H2). apply (rd_many _ _ _ _ _ _ sep3_mem) in H1 as (G & ->). apply rd_lits in H2 as (x & y & -> & X & H2). apply letter_v in X as (l & -> & L). apply rd_grp in H2 as (c' & -> & H2). apply rd_cls in H2 as (d & -> & D & ->). rewrite digit_mem in D.
    split; [exists g, l, d; auto|]. exists d. split; auto. exists (g ++ [l]). now rewrite <- app_assoc.
  - intros ((g & l & d & -> & G & L & D) & d' & -> & p & E). change [l; d] with ([l] ++ [d]) in E. rewrite app_assoc in E. apply app_inj_tail in E as (_ & <-). exists g, [l; d], [], [(i, [d])]. split; auto. split; auto. split; [now apply (rd_many _ _ _ _ _ _ sep3_mem)|].
    apply rd_lits. exists [l], [d]. split; auto. split; [apply letter_v; eauto|]. apply rd_grp. exists []. split; auto. apply rd_cls. exists d. rewrite digit_mem. auto.
Qed.
(** a letter in any case, a dot or a dash *)
Definition cat_char (c : ch) : bool := existsb (in_range 65 90) (case_variants c) || N.eqb c 46 || N.eqb c 45.
Definition bracket (w : str) : Prop := exists t, w = py "[" ++ t ++ py "]" /\ t <> [] /\ forallb cat_char t = true.
Definition cat_cls : cls := mkcls false true [CRange 65 90; CRange 46 46; CRange 45 45].
Lemma cat_mem d : cls_mem cat_cls d = cat_char d.
Proof. unfold cat_cls, cat_char, cls_mem. cbn [c_neg c_ci c_items existsb]. rewrite !(item_plain true 46 46), !(item_plain true 45 45) by reflexivity. rewrite xorb_false_l, !range_one, orb_false_r. cbn [item_mem]. now rewrite orb_assoc. Qed.
Definition bracket_re : re := lits true (py "[") (Cat (Rep true 1 None (Cls cat_cls)) (word_re true (py "]"))).
Lemma rd_bracket a w b c : rd bracket_re a w b c <-> bracket w /\ c = [].
Proof.
  unfold bracket_re. rewrite rd_lits. split.
  - intros (x & v & -> & X & H). apply letters_plain in X; [|reflexivity]. subst x. apply rd_cat in H as (t & e & c1 & c2 & -> & -> & H1 & H2). apply rd_rep_cls in H1 as (T & L & _ & ->). rewrite (class_all _ _ _ cat_mem) in T.
    apply rd_word in H2 as (E & ->); [|discriminate]. apply letters_plain in E; [|reflexivity]. subst e. split; auto. exists t. split; auto. split; auto. destruct t; [cbn in L; lia|discriminate].
  - intros ((t & -> & N & T) & ->). exists (py "["), (t ++ py "]"). split; auto. split; [now apply letters_plain|]. apply rd_cat. exists t, (py "]"), [], []. split; auto. split; auto. split.
    + apply rd_rep_cls. rewrite (class_all _ _ _ cat_mem). split; auto. split; [destruct t; [congruence|cbn; lia]|cbn; auto].
    + apply rd_word; [discriminate|]. split; auto. now apply letters_plain.
Qed.
Definition suffix_of (sfx b : str) : Prop := bracket sfx \/ sfx = [] /\ ~ exists v r, b = v ++ r /\ bracket v.
(** white space and the suffix *)
Definition arxiv_end (e b sfx : str) : Prop := exists sp, e = sp ++ sfx /\ forallb is_space sp = true /\ no_more is_space (sfx ++ b) /\ suffix_of sfx b.
Definition space_cls : cls := mkcls false false [CSpace true].
Lemma space_mem d : cls_mem space_cls d = is_space d. Proof. unfold space_cls. classes. Qed.
Definition end_re (i : nat) : re := Cat (Rep true 0 None (Cls space_cls)) (Rep true 0 (Some 1) (Grp i bracket_re)).
Lemma end_total i x g : m (end_re i) x g accept <> None.
Proof. unfold end_re. rewrite m_seq. apply many_total. intros. apply opt_total. discriminate. Qed.
Definition sfx_caps (i : nat) (sfx : str) : caps := if nonempty sfx then [(i, sfx)] else [].
Lemma peel_end i a s g z gs : m (end_re i) (here a s) g accept = Some (z, gs) -> exists e sfx b gc, s = e ++ b /\ arxiv_end e b sfx /\ z = here (a ++ e) b /\ gs = gc ++ g /\ located (a ++ s) gc (sfx_caps i sfx).
Proof.
  unfold end_re. intros H. rewrite m_seq in H. apply peel_most in H as (sp & s1 & -> & Sp & _ & _ & [More|More] & H); [discriminate| |intros; apply opt_total; discriminate]. rewrite (class_all _ _ _ space_mem) in Sp.
  assert (no_more is_space s1) as Nm by (destruct s1; [exact I|unfold no_more; now rewrite <- space_mem]). clear More.
  apply peel_option in H as [(sfx & b & c & gc & -> & R & L & H)|(H & N)]; [| |discriminate|reflexivity|vm_compute; lia].
  - apply rd_grp in R as (c' & -> & R). apply rd_bracket in R as (R & ->). injection H as <- <-. exists (sp ++ sfx), sfx, b, gc. rewrite <- !app_assoc in *. split; auto. split.
    + exists sp. split; auto. split; auto. split; auto. now left.
    + split; auto. split; auto. unfold sfx_caps. destruct R as (t & -> & _). exact L.
  - injection H as <- <-. exists sp, [], s1, []. split; auto. split.
    + exists sp. rewrite app_nil_r. split; auto. split; auto. split; auto. right. split; auto. intros (v & r & -> & B). apply (N v r [(i, v)] eq_refl). apply rd_grp. exists []. split; auto. now apply rd_bracket.
    + split; auto. split; auto. constructor.
Qed.

(** ** Numbers with the name of the archive *)
Definition arxiv_name (yy mm nn sfx : str) : str := py "arXiv:" ++ yy ++ mm ++ py "." ++ nn ++ (if nonempty sfx then 32%N :: sfx else []).
Definition arxiv_pass (year month : str -> Prop) (n : nat) : str -> str -> Prop :=
  tagged (fun a w b => (exists yy mm nn, number year month n w yy mm nn) /\ no_more is_digit b)
    (fun a w b v => exists core yy mm nn ver e sfx, w = core ++ ver ++ e /\ number year month n core yy mm nn /\ no_more is_digit (ver ++ e ++ b)
       /\ (version ver \/ ver = [] /\ ~ exists x r, e ++ b = x ++ r /\ version x) /\ arxiv_end e b sfx /\ v = wrap "ARXIV" (arxiv_name yy mm nn sfx)) [].
Definition no_digit : re := Look true true 0 (Cls digit_cls).
Definition tail1 (vi si : nat) : re := Cat no_digit (Cat (Rep true 0 (Some 1) (version_re vi)) (end_re si)).
Lemma end_empty i a w b : w = [] -> rd (end_re i) a w b [].
Proof. intros ->. apply rd_cat. exists [], [], [], []. split; auto. split; auto. split; [now apply (rd_many _ _ _ _ _ _ space_mem)|]. apply rd_opt. auto. Qed.
Definition reads_name (p : rx) (i vi si : nat) (cy cm : str -> caps) : Prop := forall whole o (yy mm nn : str) (vc : caps) (sfx : str), (vc = [] \/ exists d, vc = [(vi, [d])]) ->
  (forall j, j <> 0 -> g_text whole o j = cap j (sfx_caps si sfx ++ vc ++ (i, nn) :: cm mm ++ cy yy)) -> arxiv_tagger p whole o = wrap "ARXIV" (arxiv_name yy mm nn sfx).
Lemma arxiv_pass_exact p Y M i n vi si (year month : str -> Prop) cy cm line : rx_re p = thn (core_re Y M i n) (tail1 vi si) ->
  (forall x g k, m (rx_re p) x g k = m (Cat (core_re Y M i n) (tail1 vi si)) x g k) -> fair (rx_re p) = true -> fair (core_re Y M i n) = true -> 1 <= minlen (rx_re p) ->
  (forall a w b c, rd Y a w b c <-> year w /\ c = cy w) -> (forall a w b c, rd M a w b c <-> month w /\ c = cm w) -> reads_name p i vi si cy cm ->
  arxiv_pass year month n line (sub_with p (arxiv_tagger p) line).
Proof.
  intros Sh Mm F Fc Mn KY KM Nm. unfold sub_with. apply sub_tagged; auto.
  - intros a w b ((yy & mm & nn & N) & D). eexists. rewrite Sh. apply rd_thn, rd_cat. exists w, []. do 2 eexists. rewrite app_nil_r. split; [reflexivity|]. split; [reflexivity|]. split; [apply (rd_core _ _ _ _ _ _ _ _ KY KM); eauto 6|].
    apply rd_cat. exists [], [], [], []. split; auto. split; auto. split; [apply (rd_no_more _ _ _ _ _ _ _ digit_mem); auto|]. apply rd_cat. exists [], [], [], []. split; auto. split; auto. split; [apply rd_opt; auto|now apply end_empty].
  - intros a w b o W R S T. apply run_m in R as (z & gs & R & ->). rewrite Mm in R. apply peel in R as (core & s1 & c1 & g1 & E1 & R1 & L1 & R); auto. apply (rd_core _ _ _ _ _ _ _ _ KY KM) in R1 as (yy & mm & nn & N & ->).
    apply peel in R as (u & s2 & c2 & g2 & E2 & R2 & L2 & R); [|reflexivity]. apply (rd_no_more _ _ _ _ _ _ _ digit_mem) in R2 as (-> & -> & D). inversion L2; subst g2. clear L2. cbn [app] in E2. subst s2. rewrite app_nil_r in R. cbn [app] in R. rewrite app_nil_r in R.
    assert (exists ver s3 vc gv, s1 = ver ++ s3 /\ (version ver \/ ver = [] /\ ~ exists x r, s3 = x ++ r /\ version x) /\ (vc = [] \/ exists d, vc = [(vi, [d])]) /\ located ((a ++ core) ++ s1) gv vc /\ m (end_re si) (here ((a ++ core) ++ ver) s3) (gv ++ g1) accept = Some (z, gs)) as (ver & s3 & vc & gv & -> & V & Vc & Lv & R').
    { rewrite m_seq in R. apply peel_option in R as [(ver & s3 & c & gv & -> & Rv & Lv & R')|(R' & Nv)]; [| |intros; apply end_total|reflexivity|vm_compute; lia].
      - apply rd_version in Rv as (V & d & -> & _). exists ver, s3, [(vi, [d])], gv. split; auto. split; auto. split; eauto.
      - exists [], s1, [], []. rewrite app_nil_r. split; auto. split; [|split; [auto|split; [constructor|exact R']]]. right. split; auto. intros (x & r & -> & V). pose proof V as (g & l & d & -> & _). apply (Nv (g ++ [l; d]) r [(vi, [d])] eq_refl). apply rd_version. split; auto. exists d. split; auto. exists (g ++ [l]). now rewrite <- app_assoc. }
    apply peel_end in R' as (e & sfx & b' & gc & -> & En & -> & -> & Le). cbn [m_end here pos] in T. rewrite !app_assoc in E1. destruct (same_text w b ((core ++ ver) ++ e) b') as [-> ->]; auto. { rewrite !app_length in *. lia. }
    rewrite <- !app_assoc in *. exists core, yy, mm, nn, ver, e, sfx. split; auto. split; auto. split; auto. split; auto. split; auto.
    apply Nm with (vc := vc); auto. intros j Hj. rewrite W. unfold g_text. replace (g_span _ j) with (lookup_group j (gc ++ gv ++ g1)) by (destruct j; [congruence|reflexivity]).
    apply located_cap. apply located_more; [exact Le|]. apply located_more; [exact Lv|exact L1].
Qed.

(** ** The two patterns with the name *)
Definition pair_re (x lo hi : N) : re := lits true [x] (Cls (mkcls false true [CRange lo hi])).
Lemma rd_pair x lo hi a w b c : plain x x = true -> plain lo hi = true -> rd (pair_re x lo hi) a w b c <-> (exists d, w = [x; d] /\ in_range lo hi d = true) /\ c = [].
Proof.
  intros X P. unfold pair_re. rewrite rd_lits. split.
  - intros (u & v & -> & U & H). apply letters_plain in U; [|cbn; now rewrite X]. apply rd_cls in H as (d & -> & D & ->). rewrite class_items in D. cbn [existsb] in D. rewrite orb_false_r, item_plain in D by auto. subst. split; auto. exists d. auto.
  - intros ((d & -> & D) & ->). exists [x], [d]. split; auto. split; [apply letters_plain; auto; cbn; now rewrite X|]. apply rd_cls. exists d. rewrite class_items. cbn [existsb]. rewrite item_plain, D by auto. auto.
Qed.
(** 01 to 12 *)
Definition month12 (w : str) : Prop := exists d, w = [48%N; d] /\ in_range 49 57 d = true \/ w = [49%N; d] /\ in_range 48 50 d = true.
Definition month_re : re := Alt (pair_re 48 49 57) (pair_re 49 48 50).
Lemma rd_month a w b c : rd month_re a w b c <-> month12 w /\ c = [].
Proof. unfold month_re, month12. rewrite rd_alt, !rd_pair by reflexivity. split; [intros [((d & A) & B)|((d & A) & B)]; eauto|intros ((d & [A|A]) & B); eauto 6]. Qed.
(** 13 to 89 *)
Definition year5 (w : str) : Prop := exists c d, w = [c; d] /\ (c = 49%N /\ in_range 51 57 d = true \/ in_range 50 56 c = true /\ in_range 48 57 d = true).
Definition year5_re : re := Alt (pair_re 49 51 57) (Cat (Cls (mkcls false true [CRange 50 56])) (Cls (mkcls false true [CRange 48 57]))).
Lemma rd_year5 a w b c : rd year5_re a w b c <-> year5 w /\ c = [].
Proof.
  assert (forall lo hi d, plain lo hi = true -> cls_mem (mkcls false true [CRange lo hi]) d = in_range lo hi d) as Q.
  { intros lo hi d P. rewrite class_items. cbn [existsb]. now rewrite orb_false_r, item_plain. }
  unfold year5_re, year5. rewrite rd_alt, rd_pair by reflexivity. rewrite rd_cat. split.
  - intros [((d & -> & A) & ->)|(u & v & c1 & c2 & -> & -> & H1 & H2)]; [split; auto; exists 49%N, d; auto|]. apply rd_cls in H1 as (x & -> & X & ->). apply rd_cls in H2 as (y & -> & Y & ->). rewrite Q in X, Y by reflexivity. split; auto. exists x, y. auto.
  - intros ((x & y & -> & [(-> & A)|(A & B)]) & ->); [eauto|right]. exists [x], [y], [], []. split; auto. split; auto. split; apply rd_cls; [exists x|exists y]; rewrite Q by reflexivity; auto.
Qed.
Definition group1 (i : nat) (w : str) : caps := [(i, w)].
Definition group2 (i j : nat) (w : str) : caps := [(i, w); (j, w)].
Lemma rd_group1 i r (P : str -> Prop) : (forall a w b c, rd r a w b c <-> P w /\ c = []) -> forall a w b c, rd (Grp i r) a w b c <-> P w /\ c = group1 i w.
Proof. intros K a w b c. rewrite rd_grp. split; [intros (c' & -> & H); apply K in H as (H & ->); auto|intros (H & ->); exists []; split; auto; now apply K]. Qed.
Lemma rd_group2 i j r (P : str -> Prop) : (forall a w b c, rd r a w b c <-> P w /\ c = []) -> forall a w b c, rd (Grp i (Grp j r)) a w b c <-> P w /\ c = group2 i j w.
Proof. intros K a w b c. rewrite rd_grp. split; [intros (c' & -> & H); apply (rd_group1 j r P K) in H as (H & ->); auto|intros (H & ->); eexists; split; [reflexivity|]; now apply (rd_group1 j r P K)]. Qed.
Definition digits_re (n : nat) : re := Rep true n (Some n) (Cls digit_cls).
Lemma rd_digits_re n a w b c : rd (digits_re n) a w b c <-> digits n w /\ c = [].
Proof. unfold digits_re, digits. rewrite rd_digits. tauto. Qed.
Lemma reads_name_by p i vi si (cy cm : str -> caps) : (forall (yy mm nn : str) (vc : caps) (sfx : str), (vc = [] \/ exists d, vc = [(vi, [d])]) -> let c : caps := sfx_caps si sfx ++ vc ++ (i, nn) :: cm mm ++ cy yy in
    exists iy im is, assoc_str (py "year") (rx_names p) = Some iy /\ assoc_str (py "month") (rx_names p) = Some im /\ assoc_str (py "num") (rx_names p) = Some i /\ assoc_str (py "suffix") (rx_names p) = Some is
      /\ iy <> 0 /\ im <> 0 /\ i <> 0 /\ is <> 0 /\ cap iy c = Some yy /\ cap im c = Some mm /\ cap i c = Some nn /\ cap is c = if nonempty sfx then Some sfx else None) -> reads_name p i vi si cy cm.
Proof.
  intros H whole o yy mm nn vc sfx Vc G. destruct (H yy mm nn vc sfx Vc) as (iy & im & is & A1 & A2 & A3 & A4 & N1 & N2 & N3 & N4 & C1 & C2 & C3 & C4). unfold arxiv_tagger, gd_get. rewrite A1, A2, A3, A4. rewrite (eq_trans (G _ N1) C1), (eq_trans (G _ N2) C2), (eq_trans (G _ N3) C3), (eq_trans (G _ N4) C4). unfold arxiv_name. destruct sfx; reflexivity.
Qed.
Ltac by_caps := apply reads_name_by; intros yy mm nn vc sfx [->|(d & ->)]; destruct sfx; cbn; do 3 eexists; repeat (split; [first [reflexivity|discriminate]|]); reflexivity.
Definition year_dd : re := Grp 1 (digits_re 2).
Lemma arxiv4_shape : rx_re re_arxiv = thn (core_re (Grp 1 (digits_re 2)) (Grp 2 (digits_re 2)) 3 4) (tail1 4 5). Proof. reflexivity. Qed.
Lemma arxiv5_shape : rx_re re_arxiv_5digits = thn (core_re (Grp 1 (Grp 2 year5_re)) (Grp 3 (Grp 4 month_re)) 5 5) (tail1 6 7). Proof. reflexivity. Qed.
Lemma arxiv4_exact line : arxiv_pass (digits 2) (digits 2) 4 line (sub_with re_arxiv (arxiv_tagger re_arxiv) line).
Proof.
  apply (arxiv_pass_exact re_arxiv _ _ _ _ _ _ _ _ (group1 1) (group1 2) line arxiv4_shape); [reflexivity|reflexivity|reflexivity|vm_compute; lia| | |by_caps].
  - apply rd_group1. apply rd_digits_re.
  - apply rd_group1. apply rd_digits_re.
Qed.
Lemma arxiv5_exact line : arxiv_pass year5 month12 5 line (sub_with re_arxiv_5digits (arxiv_tagger re_arxiv_5digits) line).
Proof.
  apply (arxiv_pass_exact re_arxiv_5digits _ _ _ _ _ _ _ _ (group2 1 2) (group2 3 4) line arxiv5_shape); [reflexivity|reflexivity|reflexivity|vm_compute; lia| | |by_caps].
  - apply rd_group2. apply rd_year5.
  - apply rd_group2. apply rd_month.
Qed.
