(** Numbers without the name of the archive, and old numbers (C54). *)
From Coq Require Import List Arith NArith Bool String Lia.
From Verif Require Import PyStr ListFacts Regex RegexMeta RegexLang RegexParse Patterns Numeration Tag UrlProofs CaptureLang TaggerProofs ArxivProofs.
Import ListNotations.
Local Open Scope nat_scope.
Local Notation length := List.length.

Lemma Forall2_len {A B} (R : A -> B -> Prop) a b : Forall2 R a b -> length a = length b. Proof. induction 1; cbn; auto. Qed.
(** ** Numbers without the name *)
Definition after_name (a : str) : Prop := exists p u, a = p ++ u /\ letters true (py "ARXIV:") u.
Definition after_char (q : ch -> bool) (a : str) : Prop := exists p c, a = p ++ [c] /\ q c = true.
Definition bare (year : str -> Prop) (n : nat) (a w yy mm nn : str) : Prop :=
  w = yy ++ mm ++ py "." ++ nn /\ year yy /\ month12 mm /\ digits n nn /\ ~ after_name a /\ ~ after_char is_digit a.
Fixpoint alts (l : list str) : re := match l with [] => Eps | [w] => word_re true w | w :: t => Alt (word_re true w) (alts t) end.
Lemma rd_alts l : l <> [] -> Forall (fun w => w <> [] /\ forallb (fun c => plain c c) w = true) l -> forall a w b c, rd (alts l) a w b c <-> In w l /\ c = [].
Proof.
  intros N F. induction F as [|x l (X & Px) F IH]; [congruence|]. intros a w b c.
  assert (rd (word_re true x) a w b c <-> w = x /\ c = []) as Kx by (rewrite rd_word, letters_plain by auto; reflexivity).
  destruct l as [|y l].
  - cbn [alts In]. rewrite Kx. intuition.
  - cbn [alts]. rewrite rd_alt, Kx. fold (alts (y :: l)). rewrite IH by discriminate. cbn [In]. intuition.
Qed.
Definition bare_core (Y : re) (n : nat) : re :=
  Cat (Look false true 6 (word_re true (py "ARXIV:"))) (Cat (Look false true 1 (Cls digit_cls)) (Cat (Grp 1 Y) (Cat (Grp 2 (Grp 3 month_re)) (lits true (py ".") (Grp 4 (digits_re n)))))).
Lemma rd_not_name a w b c : rd (Look false true 6 (word_re true (py "ARXIV:"))) a w b c <-> w = [] /\ c = [] /\ ~ after_name a.
Proof.
  rewrite rd_not_behind. assert ((exists p u c', a = p ++ u /\ length u = 6 /\ rd (word_re true (py "ARXIV:")) p u b c') <-> after_name a) as ->; [|reflexivity]. split.
  - intros (p & u & c' & -> & _ & R). apply rd_word in R as (R & _); [|discriminate]. exists p, u. auto.
  - intros (p & u & -> & U). exists p, u, []. split; auto. split; [|apply rd_word; [discriminate|auto]]. unfold letters in U. apply Forall2_len in U. now symmetry.
Qed.
Lemma rd_not_after k q a w b c : (forall d, cls_mem k d = q d) -> rd (Look false true 1 (Cls k)) a w b c <-> w = [] /\ c = [] /\ ~ after_char q a.
Proof.
  intros K. rewrite rd_not_behind. assert ((exists p u c', a = p ++ u /\ length u = 1 /\ rd (Cls k) p u b c') <-> after_char q a) as ->; [|reflexivity]. split.
  - intros (p & u & c' & -> & _ & R). apply rd_cls in R as (d & -> & D & _). rewrite K in D. exists p, d. auto.
  - intros (p & d & -> & D). exists p, [d], []. split; auto. split; auto. apply rd_cls. exists d. rewrite K. auto.
Qed.
Lemma rd_bare Y (year : str -> Prop) n : (forall a w b c, rd Y a w b c <-> year w /\ c = []) -> forall a w b c, rd (bare_core Y n) a w b c <-> exists yy mm nn, bare year n a w yy mm nn /\ c = [(4, nn); (2, mm); (3, mm); (1, yy)].
Proof.
  intros KY a w b c. unfold bare_core. rewrite rd_cat. split.
  - intros (u & v & c1 & c2 & -> & -> & H1 & H). apply rd_not_name in H1 as (-> & -> & A1). apply rd_cat in H as (u & v1 & c1 & c3 & -> & -> & H1 & H). apply (rd_not_after _ _ _ _ _ _ digit_mem) in H1 as (-> & -> & A2). rewrite app_nil_r in A2.
    apply rd_cat in H as (yy & v2 & c1 & c2 & -> & -> & H1 & H). apply (rd_group1 _ _ _ KY) in H1 as (Yy & ->). apply rd_cat in H as (mm & v3 & c1 & c3 & -> & -> & H1 & H). apply (rd_group2 _ _ _ _ rd_month) in H1 as (Mm & ->).
    apply rd_lits in H as (x & nn & -> & X & H). apply letters_plain in X; [|reflexivity]. subst x. apply (rd_group1 _ _ _ (rd_digits_re n)) in H as (Nn & ->). exists yy, mm, nn. split; [|reflexivity]. repeat split; auto; apply Nn.
  - intros (yy & mm & nn & (-> & Yy & Mm & Nn & A1 & A2) & ->). exists [], (yy ++ mm ++ py "." ++ nn), [], [(4, nn); (2, mm); (3, mm); (1, yy)]. split; auto. split; auto. split; [now apply rd_not_name|].
    apply rd_cat. exists [], (yy ++ mm ++ py "." ++ nn), [], [(4, nn); (2, mm); (3, mm); (1, yy)]. split; auto. split; auto. split; [apply (rd_not_after _ _ _ _ _ _ digit_mem); now rewrite app_nil_r|].
    apply rd_cat. exists yy, (mm ++ py "." ++ nn), [(1, yy)], [(4, nn); (2, mm); (3, mm)]. split; auto. split; auto. split; [now apply (rd_group1 _ _ _ KY)|].
    apply rd_cat. exists mm, (py "." ++ nn), [(2, mm); (3, mm)], [(4, nn)]. split; auto. split; auto. split; [now apply (rd_group2 _ _ _ _ rd_month)|].
    apply rd_lits. exists (py "."), nn. split; auto. split; [now apply letters_plain|]. now apply (rd_group1 _ _ _ (rd_digits_re n)).
Qed.
Definition bare_pass (year : str -> Prop) (n : nat) : str -> str -> Prop :=
  tagged (fun a w b => (exists yy mm nn, bare year n a w yy mm nn) /\ no_more is_digit b)
    (fun a w b v => exists core yy mm nn ver e sfx, w = core ++ ver ++ e /\ bare year n a core yy mm nn /\ no_more is_digit (e ++ b)
       /\ (version ver \/ ver = [] /\ forall x r, e ++ b = x ++ r -> version x -> ~ no_more is_digit r) /\ arxiv_end e b sfx /\ v = wrap "ARXIV" (arxiv_name yy mm nn sfx)) [].
Definition tail2 : re := Cat (Rep true 0 (Some 1) (version_re 5)) (Cat no_digit (end_re 6)).
Lemma look_digit x g k : m no_digit x g k = match suf x with c :: _ => if is_digit c then None else k x g | [] => k x g end.
Proof. unfold no_digit. cbn [m]. unfold step. destruct (suf x) as [|c t]; cbn [xorb]; auto. rewrite digit_mem. destruct (is_digit c); reflexivity. Qed.
Definition new_names := Eval vm_compute in rx_names (re_new_arxiv 2013).
Lemma bare_pass_exact p Y n (year : str -> Prop) line : rx_re p = thn (bare_core Y n) tail2 -> (forall x g k, m (rx_re p) x g k = m (Cat (bare_core Y n) tail2) x g k) -> fair Y = true ->
  rx_names p = new_names -> (forall a w b c, rd Y a w b c <-> year w /\ c = []) -> bare_pass year n line (sub_with p (arxiv_tagger p) line).
Proof.
  intros Sh Mm Fy Nms KY.
  assert (fair (bare_core Y n) = true) as Fc by (cbn; now rewrite Fy).
  assert (fair (rx_re p) = true) as F by (rewrite Sh; cbn; now rewrite Fy).
  assert (1 <= minlen (rx_re p)) as Mn by (rewrite Sh; cbn; lia).
  assert (reads_name p 4 5 6 (group1 1) (group2 2 3)) as Nm.
  { apply reads_name_by. rewrite Nms. intros yy mm nn vc sfx [->|(d & ->)]; destruct sfx; cbn; do 3 eexists; repeat (split; [first [reflexivity|discriminate]|]); reflexivity. }
  unfold sub_with. apply sub_tagged; auto.
  - intros a w b ((yy & mm & nn & N) & D). eexists. rewrite Sh. apply rd_thn, rd_cat. exists w, []. do 2 eexists. rewrite app_nil_r. split; [reflexivity|]. split; [reflexivity|]. split; [apply (rd_bare _ _ _ KY); eauto 6|].
    apply rd_cat. exists [], [], [], []. split; auto. split; auto. split; [apply rd_opt; auto|]. apply rd_cat. exists [], [], [], []. split; auto. split; auto. split; [apply (rd_no_more _ _ _ _ _ _ _ digit_mem); auto|now apply end_empty].
  - intros a w b o W R S T. apply run_m in R as (z & gs & R & ->). rewrite Mm in R. apply peel in R as (core & s1 & c1 & g1 & E1 & R1 & L1 & R); auto. apply (rd_bare _ _ _ KY) in R1 as (yy & mm & nn & N & ->). rewrite app_nil_r in R.
    assert (exists ver s3 vc gv, s1 = ver ++ s3 /\ no_more is_digit s3 /\ (version ver \/ ver = [] /\ forall x r, s3 = x ++ r -> version x -> ~ no_more is_digit r) /\ (vc = [] \/ exists d, vc = [(5, [d])]) /\ located ((a ++ core) ++ s1) gv vc /\ m (end_re 6) (here ((a ++ core) ++ ver) s3) (gv ++ g1) accept = Some (z, gs)) as (ver & s3 & vc & gv & -> & D & V & Vc & Lv & R').
    { assert (forall a s g, m (Cat no_digit (end_re 6)) (here a s) g accept = Some (z, gs) -> no_more is_digit s /\ m (end_re 6) (here a s) g accept = Some (z, gs)) as Lk.
      { intros a' s' g' H. rewrite m_seq, look_digit in H. unfold here at 1 in H. cbn [suf] in H. destruct s' as [|c s']; [split; [exact I|exact H]|]. unfold no_more. destruct (is_digit c); [discriminate|auto]. }
      unfold tail2 in R. rewrite m_seq in R. apply peel_maybe in R as [(ver & s3 & c & gv & -> & Rv & Lv & R')|(R' & Nv)]; [| |reflexivity|vm_compute; lia].
      - apply Lk in R' as (D & R'). apply rd_version in Rv as (V & d & -> & _). exists ver, s3, [(5, [d])], gv. split; auto. split; auto. split; auto. split; eauto.
      - apply Lk in R' as (D & R'). exists [], s1, [], []. rewrite app_nil_r. split; auto. split; auto. split; [|split; [auto|split; [constructor|exact R']]]. right. split; auto. intros x r -> V Dr. pose proof V as (g & l & d & -> & _). destruct (Nv (g ++ [l; d]) r [(5, [d])] eq_refl) as (gc & Q).
        { apply rd_version. split; auto. exists d. split; auto. exists (g ++ [l]). now rewrite <- app_assoc. }
        rewrite m_seq, look_digit in Q. unfold here at 1 in Q. cbn [suf] in Q. destruct r as [|c r]; [now apply end_total in Q|]. unfold no_more in Dr. rewrite Dr in Q. now apply end_total in Q. }
    apply peel_end in R' as (e & sfx & b' & gc & -> & En & -> & -> & Le). cbn [m_end here pos] in T. rewrite !app_assoc in E1. destruct (same_text w b ((core ++ ver) ++ e) b') as [-> ->]; auto. { rewrite !app_length in *. lia. }
    rewrite <- !app_assoc in *. exists core, yy, mm, nn, ver, e, sfx. split; auto. split; auto. split; auto. split; auto. split; auto.
    apply Nm with (vc := vc); auto. intros j Hj. rewrite W. unfold g_text. replace (g_span _ j) with (lookup_group j (gc ++ gv ++ g1)) by (destruct j; [congruence|reflexivity]).
    apply located_cap. apply located_more; [exact Le|]. apply located_more; [exact Lv|exact L1].
Qed.
(** the two last digits of a year from [first] to [last] *)
Definition year_of (first last : N) (w : str) : Prop := exists y, (first <= y <= last)%N /\ w = two_digits y.
Definition year_list (first last : N) : list str := map (fun i => two_digits (first + N.of_nat i)%N) (seq 0 (N.to_nat (last + 1 - first))).
Lemma new_shapes : map (fun i => (re_new_arxiv (2013 + N.of_nat i), re_new_arxiv_5digits (2013 + N.of_nat i))) (seq 0 88)
  = map (fun i => (mkrx (thn (bare_core (alts (year_list 1991 (2013 + N.of_nat i))) 4) tail2) new_names, mkrx (thn (bare_core (alts (year_list 2013 (2013 + N.of_nat i))) 5) tail2) new_names)) (seq 0 88).
Proof. vm_cast_no_check (eq_refl (map (fun i => (re_new_arxiv (2013 + N.of_nat i), re_new_arxiv_5digits (2013 + N.of_nat i))) (seq 0 88))). Qed.
Lemma new_at y : (2013 <= y <= 2100)%N -> re_new_arxiv y = mkrx (thn (bare_core (alts (year_list 1991 y)) 4) tail2) new_names /\ re_new_arxiv_5digits y = mkrx (thn (bare_core (alts (year_list 2013 y)) 5) tail2) new_names.
Proof.
  intros Y. pose proof (ext_in_map new_shapes (N.to_nat (y - 2013))) as H. specialize (H ltac:(apply in_seq; lia)). cbv beta in H. replace (2013 + N.of_nat (N.to_nat (y - 2013)))%N with y in H by lia.
  apply pair_equal_spec in H. exact H.
Qed.
Lemma years_in first last w : In w (year_list first last) <-> year_of first last w.
Proof.
  unfold year_list, year_of. rewrite in_map_iff. split.
  - intros (i & <- & I). apply in_seq in I. exists (first + N.of_nat i)%N. split; [lia|reflexivity].
  - intros (y & Y & ->). exists (N.to_nat (y - first)). split; [f_equal; lia|apply in_seq; lia].
Qed.
Lemma two_plain : forallb (fun i => nonempty (two_digits (1991 + N.of_nat i)) && forallb (fun c => plain c c) (two_digits (1991 + N.of_nat i))) (seq 0 110) = true.
Proof. vm_cast_no_check (eq_refl true). Qed.
Lemma years_plain first last : (1991 <= first)%N -> (last <= 2100)%N -> Forall (fun w => w <> [] /\ forallb (fun c => plain c c) w = true) (year_list first last).
Proof.
  intros A B. apply Forall_forall. intros w H. apply years_in in H as (y & Y & ->). pose proof two_plain as T. rewrite forallb_forall in T. specialize (T (N.to_nat (y - 1991)) ltac:(apply in_seq; lia)). replace (1991 + N.of_nat (N.to_nat (y - 1991)))%N with y in T by lia.
  apply andb_true_iff in T as [T1 T2]. split; auto. destruct (two_digits y); discriminate.
Qed.
Lemma fair_alts l : fair (alts l) = true.
Proof.
  induction l as [|w l IH]; auto. assert (fair (word_re true w) = true) as Fw. { unfold word_re. destruct (rev w); auto. now rewrite lits_fair. }
  destruct l; auto. cbn [alts fair]. rewrite Fw. exact IH.
Qed.
Lemma bare_exact p first last n line : p = mkrx (thn (bare_core (alts (year_list first last)) n) tail2) new_names -> (1991 <= first <= last)%N -> (last <= 2100)%N -> bare_pass (year_of first last) n line (sub_with p (arxiv_tagger p) line).
Proof.
  intros Sh A B.
  assert (forall a w b c, rd (alts (year_list first last)) a w b c <-> year_of first last w /\ c = []) as KY.
  { intros a w b c. rewrite rd_alts, years_in; [reflexivity| |apply years_plain; lia]. intros E. assert (In (two_digits first) (year_list first last)) as I by (apply years_in; exists first; split; [lia|reflexivity]). rewrite E in I. destruct I. }
  pose proof (fair_alts (year_list first last)) as Fy. set (Y := alts (year_list first last)) in *. clearbody Y.
  apply (bare_pass_exact p Y n); subst p; auto.
Qed.
Lemma tag_arxiv_exact E line : (2013 <= now_year E <= 2100)%N -> exists l1 l2 l3, arxiv_pass year5 month12 5 line l1 /\ arxiv_pass (digits 2) (digits 2) 4 l1 l2
  /\ bare_pass (year_of 2013 (now_year E)) 5 l2 l3 /\ bare_pass (year_of 1991 (now_year E)) 4 l3 (tag_arxiv E line).
Proof.
  intros Y. destruct (new_at _ Y) as (S4 & S5). unfold tag_arxiv. generalize dependent (re_new_arxiv (now_year E)). generalize dependent (re_new_arxiv_5digits (now_year E)). intros p5 S5 p4 S4.
  do 3 eexists. split; [apply arxiv5_exact|]. split; [apply arxiv4_exact|]. split; [apply (bare_exact p5); [exact S5|lia|lia]|apply (bare_exact p4); [exact S4|lia|lia]].
Qed.

(** ** Numbers of three digits with their archive: the old form *)
Definition full_old (w t yy mm nn : str) : Prop := exists core sp, w = core ++ sp ++ py "[" ++ t ++ py "]" /\ number (digits 2) (digits 2) 3 core yy mm nn /\ forallb is_space sp = true /\ t <> [] /\ forallb cat_char t = true.
Definition catchup_tail : re := Cat (Rep true 0 None (Cls space_cls)) (lits true (py "[") (Cat (Grp 4 (Rep true 1 None (Cls cat_cls))) (word_re true (py "]")))).
Lemma catchup_shape : rx_re re_arxiv_catchup = thn (core_re (Grp 1 (digits_re 2)) (Grp 2 (digits_re 2)) 3 3) catchup_tail. Proof. reflexivity. Qed.
Lemma rd_catchup a w b c : rd (rx_re re_arxiv_catchup) a w b c <-> exists t yy mm nn, full_old w t yy mm nn /\ c = [(4, t); (3, nn); (2, mm); (1, yy)].
Proof.
  rewrite catchup_shape, rd_thn, rd_cat. pose proof (rd_core _ _ 3 3 _ _ _ _ (rd_group1 1 _ _ (rd_digits_re 2)) (rd_group1 2 _ _ (rd_digits_re 2))) as K. split.
  - intros (core & v & c1 & c2 & -> & -> & H1 & H). apply K in H1 as (yy & mm & nn & N & ->). apply rd_cat in H as (sp & v1 & c1 & c3 & -> & -> & H1 & H). apply (rd_many _ _ _ _ _ _ space_mem) in H1 as (Sp & ->).
    apply rd_lits in H as (x & v2 & -> & X & H). apply letters_plain in X; [|reflexivity]. subst x. apply rd_cat in H as (t & e & c1 & c2 & -> & -> & H1 & H). apply rd_grp in H1 as (c' & -> & H1). apply rd_rep_cls in H1 as (T & L & _ & ->). rewrite (class_all _ _ _ cat_mem) in T.
    apply rd_word in H as (X & ->); [|discriminate]. apply letters_plain in X; [|reflexivity]. subst e. exists t, yy, mm, nn. split; [|reflexivity]. exists core, sp. split; auto. split; auto. split; auto. split; auto. destruct t; [cbn in L; lia|discriminate].
  - intros (t & yy & mm & nn & (core & sp & -> & N & Sp & Nt & T) & ->). exists core, (sp ++ py "[" ++ t ++ py "]"), [(3, nn); (2, mm); (1, yy)], [(4, t)]. split; auto. split; auto. split; [apply K; exists yy, mm, nn; auto|].
    apply rd_cat. exists sp, (py "[" ++ t ++ py "]"), [], [(4, t)]. split; auto. split; auto. split; [now apply (rd_many _ _ _ _ _ _ space_mem)|]. apply rd_lits. exists (py "["), (t ++ py "]"). split; auto. split; [now apply letters_plain|].
    apply rd_cat. exists t, (py "]"), [(4, t)], []. split; auto. split; auto. split.
    + apply rd_grp. exists []. split; auto. apply rd_rep_cls. rewrite (class_all _ _ _ cat_mem). split; auto. split; [destruct t; [congruence|cbn; lia]|cbn; auto].
    + apply rd_word; [discriminate|]. split; auto. now apply letters_plain.
Qed.
Definition catchup_pass : str -> str -> Prop :=
  tagged (fun a w b => exists t yy mm nn, full_old w t yy mm nn) (fun a w b v => exists t yy mm nn, full_old w t yy mm nn /\ v = t ++ py "/" ++ yy ++ mm ++ nn) [].
Lemma catchup_exact line : catchup_pass line (sub_with re_arxiv_catchup (fun s o =>
    tgrp re_arxiv_catchup s o "suffix" ++ py "/" ++ tgrp re_arxiv_catchup s o "year" ++ tgrp re_arxiv_catchup s o "month" ++ tgrp re_arxiv_catchup s o "num") line).
Proof.
  unfold sub_with. apply sub_tagged; [reflexivity|vm_compute; lia| |].
  - intros a w b (t & yy & mm & nn & H). eexists. apply rd_catchup. eauto 8.
  - intros a w b o W R S T. destruct (run_caps _ _ _ _ _ _ (eq_refl : fair (rx_re re_arxiv_catchup) = true) W R T) as (c & Rd & G). apply rd_catchup in Rd as (t & yy & mm & nn & H & ->). exists t, yy, mm, nn. split; auto.
    rewrite (tgrp_cap re_arxiv_catchup 4 "suffix" _ _ _ eq_refl ltac:(discriminate) G), (tgrp_cap re_arxiv_catchup 1 "year" _ _ _ eq_refl ltac:(discriminate) G),
      (tgrp_cap re_arxiv_catchup 2 "month" _ _ _ eq_refl ltac:(discriminate) G), (tgrp_cap re_arxiv_catchup 3 "num" _ _ _ eq_refl ltac:(discriminate) G). reflexivity.
Qed.

(** ** Numbers of the archives before 2007 *)
(** the name of the archive, and whether two letters follow it *)
Definition archive_name (s : string) : str * bool :=
  let t := filter (fun c => negb (N.eqb c 92)) (py s) in
  if endswith t (py "[a-z]{2}") then (firstn (length t - 8) t, true) else (t, false).
Definition letter (c : ch) : bool := existsb (in_range 97 122) (case_variants c).
Definition archive (e : str * bool) (w : str) : Prop := if snd e then exists u x y, w = u ++ [x; y] /\ letters true (fst e) u /\ letter x = true /\ letter y = true else letters true (fst e) w.
Definition old_sep (c : ch) : bool := mem_ch c [124; 47; 58; 45]%N || is_space c.
(** 91 to 07, 01 to 12, and three digits *)
Definition old_number (w : str) : Prop := exists c d mm nn, w = [c; d] ++ mm ++ nn /\ (c = 57%N /\ in_range 49 57 d = true \/ c = 48%N /\ in_range 48 55 d = true) /\ month12 mm /\ digits 3 nn.
Definition old_version (w : str) : Prop := w = [] \/ exists l n, w = l :: n /\ (l = 86 \/ l = 118)%N /\ forallb is_digit n = true /\ 1 <= length n <= 3.
Definition after_report (a : str) : Prop := exists p u, a = p ++ u /\ letters true (py "<cds.REPORTNUMBER>") u.
Definition old_arxiv_text (e : str * bool) (a w b name num : str) : Prop := exists sep ver, w = name ++ sep ++ num ++ ver /\ archive e name /\ (sep = [] \/ exists c, sep = [c] /\ old_sep c = true) /\ old_number num /\ old_version ver
  /\ ~ after_report a /\ ~ after_char is_word a /\ note_end b.
Definition name_re (e : str * bool) : re := if snd e then lits true (fst e) (Rep true 2 (Some 2) (Cls (mkcls false true [CRange 97 122]))) else word_re true (fst e).
Definition old_re (e : str * bool) : re :=
  Cat (Look false true 18 (word_re true (py "<cds.REPORTNUMBER>"))) (Cat (Look false true 1 (Cls word_cls)) (Cat (Grp 1 (name_re e)) (Cat (Rep true 0 (Some 1) (Cls (mkcls false true [CRange 124 124; CRange 47 47; CRange 58 58; CSpace true; CRange 45 45])))
   (Cat (Grp 2 (Cat (Alt (pair_re 57 49 57) (pair_re 48 48 55)) (Cat month_re (digits_re 3)))) (Cat (Rep true 0 (Some 1) (lits true (py "v") (Rep true 1 (Some 3) (Cls digit_cls)))) (Look true false 0 (Alt (Cls (mkcls true true [CWord true; CDigit true])) Eos))))))).
Lemma old_shapes : re_old_arxiv = map (fun e => (mkrx (old_re (archive_name (fst e))) [(py "num", 2); (py "name", 1)], option_map py (snd e))) old_arxiv.
Proof. vm_cast_no_check (eq_refl re_old_arxiv). Qed.
Lemma rd_name (e : str * bool) : fst e <> [] -> forall a w b c, rd (name_re e) a w b c <-> archive e w /\ c = [].
Proof.
  intros N a w b c. unfold name_re, archive. destruct e as [base []]; cbn [fst snd] in *; [|now apply rd_word].
  assert (forall d, cls_mem (mkcls false true [CRange 97 122]) d = letter d) as M by (intros d; rewrite class_items; cbn [existsb item_mem]; now rewrite orb_false_r).
  rewrite rd_lits. split.
  - intros (u & v & -> & U & H). apply rd_rep_cls in H as (V & L1 & L2 & ->). cbn in L2. destruct v as [|x [|y [|]]]; cbn in L1, L2; try lia. cbn [forallb] in V. rewrite !M in V. apply andb_true_iff in V as [X V]. rewrite andb_true_r in V. split; auto. exists u, x, y. auto.
  - intros ((u & x & y & -> & U & X & Y) & ->). exists u, [x; y]. split; auto. split; auto. apply rd_rep_cls. cbn [forallb length le_max]. rewrite !M, X, Y. auto.
Qed.
Lemma rd_old_number a w b c : rd (Cat (Alt (pair_re 57 49 57) (pair_re 48 48 55)) (Cat month_re (digits_re 3))) a w b c <-> old_number w /\ c = [].
Proof.
  unfold old_number. rewrite rd_cat. split.
  - intros (u & v & c1 & c2 & -> & -> & H1 & H). apply rd_cat in H as (mm & nn & c3 & c4 & -> & -> & H2 & H). apply rd_month in H2 as (Mm & ->). apply rd_digits_re in H as (Nn & ->).
    rewrite rd_alt, !rd_pair in H1 by reflexivity. destruct H1 as [((d & -> & D) & ->)|((d & -> & D) & ->)]; (split; [|reflexivity]).
    + exists 57%N, d, mm, nn. auto.
    + exists 48%N, d, mm, nn. auto.
  - intros ((x & d & mm & nn & -> & X & Mm & Nn) & ->). exists [x; d], (mm ++ nn), [], []. split; auto. split; auto. split.
    + rewrite rd_alt, !rd_pair by reflexivity. destruct X as [(-> & D)|(-> & D)]; [left|right]; split; eauto.
    + apply rd_cat. exists mm, nn, [], []. split; auto. split; auto. split; [now apply rd_month|now apply rd_digits_re].
Qed.
Lemma letter_low_v w : letters true (py "v") w <-> exists l, w = [l] /\ (l = 86 \/ l = 118)%N.
Proof.
  change (py "v") with [118%N]. rewrite letters_one. split; intros (l & -> & L); exists l; split; auto.
  - apply small_members in L; [|reflexivity]. vm_compute in L. destruct L as [<-|[<-|[]]]; auto.
  - destruct L as [->| ->]; reflexivity.
Qed.
Lemma rd_old_version a w b c : rd (Rep true 0 (Some 1) (lits true (py "v") (Rep true 1 (Some 3) (Cls digit_cls)))) a w b c <-> old_version w /\ c = [].
Proof.
  rewrite rd_opt, rd_lits. unfold old_version. split.
  - intros [(-> & ->)|(x & n & -> & X & H)]; auto. apply letter_low_v in X as (l & -> & L). apply rd_rep_cls in H as (D & L1 & L2 & ->). cbn in L2. rewrite (class_all _ _ _ digit_mem) in D. split; auto. right. exists l, n. auto.
  - intros ([->|(l & n & -> & L & D & L1)] & ->); auto. right. exists [l], n. split; auto. split; [apply letter_low_v; eauto|]. apply rd_rep_cls. rewrite (class_all _ _ _ digit_mem). cbn [le_max]. intuition.
Qed.
Lemma rd_old_end a w b c : rd (Look true false 0 (Alt (Cls (mkcls true true [CWord true; CDigit true])) Eos)) a w b c <-> w = [] /\ c = [] /\ note_end b.
Proof.
  assert (forall d, cls_mem (mkcls true true [CWord true; CDigit true]) d = negb (is_word d || is_digit d)) as M.
  { intros d. unfold cls_mem. cbn [c_neg c_ci c_items existsb item_mem]. rewrite !eqb_true, orb_false_r. apply xorb_true_l. }
  rewrite rd_ahead. assert ((exists u t c', b = u ++ t /\ rd (Alt (Cls (mkcls true true [CWord true; CDigit true])) Eos) a u t c') <-> note_end b) as ->; [|reflexivity]. unfold note_end, no_more. split.
  - intros (u & t & c' & -> & H). apply rd_alt in H as [H|H].
    + apply rd_cls in H as (d & -> & D & _). rewrite M in D. now apply negb_true_iff in D.
    + destruct H as (-> & _ & [->| ->]); [exact I|reflexivity].
  - intros H. destruct b as [|d b].
    + exists [], [], []. split; auto. apply rd_alt. right. split; auto.
    + exists [d], b, []. split; auto. apply rd_alt. left. apply rd_cls. exists d. rewrite M, H. auto.
Qed.
Lemma rd_not_report a w b c : rd (Look false true 18 (word_re true (py "<cds.REPORTNUMBER>"))) a w b c <-> w = [] /\ c = [] /\ ~ after_report a.
Proof.
  rewrite rd_not_behind. assert ((exists p u c', a = p ++ u /\ length u = 18 /\ rd (word_re true (py "<cds.REPORTNUMBER>")) p u b c') <-> after_report a) as ->; [|reflexivity]. split.
  - intros (p & u & c' & -> & _ & R). apply rd_word in R as (R & _); [|discriminate]. exists p, u. auto.
  - intros (p & u & -> & U). exists p, u, []. split; auto. split; [|apply rd_word; [discriminate|auto]]. unfold letters in U. apply Forall2_len in U. now symmetry.
Qed.
Lemma rd_old (e : str * bool) : fst e <> [] -> forall a w b c, rd (old_re e) a w b c <-> exists name num, old_arxiv_text e a w b name num /\ c = [(2, num); (1, name)].
Proof.
  intros N a w b c. unfold old_re.
  assert (forall d, cls_mem (mkcls false true [CRange 124 124; CRange 47 47; CRange 58 58; CSpace true; CRange 45 45]) d = old_sep d) as Ms.
  { intros d. rewrite class_items. cbn [existsb]. rewrite !item_plain by reflexivity. rewrite !range_one. unfold old_sep. cbn [mem_ch existsb item_mem]. rewrite eqb_true. repeat match goal with |- context [N.eqb d ?k] => destruct (N.eqb d k) end; destruct (is_space d); reflexivity. }
  rewrite rd_cat. split.
  - intros (u & v & c1 & c2 & -> & -> & H1 & H). apply rd_not_report in H1 as (-> & -> & A1). apply rd_cat in H as (u & v1 & c1 & c3 & -> & -> & H1 & H). apply (rd_not_after _ _ _ _ _ _ word_mem) in H1 as (-> & -> & A2). rewrite app_nil_r in A2.
    apply rd_cat in H as (name & v2 & c1 & c2 & -> & -> & H1 & H). apply (rd_group1 _ _ _ (rd_name e N)) in H1 as (Nm & ->). apply rd_cat in H as (sep & v3 & c1 & c3 & -> & -> & H1 & H). apply rd_cat in H as (num & v4 & c4 & c5 & -> & -> & H2 & H). apply (rd_group1 _ _ _ rd_old_number) in H2 as (Nu & ->).
    apply rd_cat in H as (ver & v5 & c6 & c7 & -> & -> & H3 & H). apply rd_old_version in H3 as (V & ->). apply rd_old_end in H as (-> & -> & En). cbn [app] in En.
    assert ((sep = [] \/ exists d, sep = [d] /\ old_sep d = true) /\ c1 = []) as (Sp & ->). { apply rd_opt in H1 as [(-> & ->)|H1]; auto. apply rd_cls in H1 as (d & -> & D & ->). rewrite Ms in D. split; eauto. }
    exists name, num. split; [|reflexivity]. exists sep, ver. rewrite app_nil_r. cbn [app]. auto 12.
  - intros (name & num & (sep & ver & -> & Nm & Sp & Nu & V & A1 & A2 & En) & ->). exists [], (name ++ sep ++ num ++ ver), [], [(2, num); (1, name)]. split; auto. split; auto. split; [now apply rd_not_report|].
    apply rd_cat. exists [], (name ++ sep ++ num ++ ver), [], [(2, num); (1, name)]. split; auto. split; auto. split; [apply (rd_not_after _ _ _ _ _ _ word_mem); now rewrite app_nil_r|].
    apply rd_cat. exists name, (sep ++ num ++ ver), [(1, name)], [(2, num)]. split; auto. split; auto. split; [now apply (rd_group1 _ _ _ (rd_name e N))|].
    apply rd_cat. exists sep, (num ++ ver), [], [(2, num)]. split; auto. split; auto. split; [apply rd_opt; destruct Sp as [->|(d & -> & D)]; auto; right; apply rd_cls; exists d; rewrite Ms; auto|].
    apply rd_cat. exists num, ver, [(2, num)], []. split; auto. split; auto. split; [now apply (rd_group1 _ _ _ rd_old_number)|].
    apply rd_cat. exists ver, [], [], []. rewrite app_nil_r. split; auto. split; auto. split; [now apply rd_old_version|]. now apply rd_old_end.
Qed.
Definition old_pass (e : string * option string) : str -> str -> Prop :=
  tagged (fun a w b => exists name num, old_arxiv_text (archive_name (fst e)) a w b name num)
    (fun a w b v => exists name num, old_arxiv_text (archive_name (fst e)) a w b name num /\ v = wrap "ARXIV" (match snd e with Some r => py r | None => name end ++ py "/" ++ num)) [].
Fixpoint old_passes (l : list (string * option string)) (line out : str) : Prop :=
  match l with [] => out = line | e :: t => exists mid, old_pass e line mid /\ old_passes t mid out end.
Lemma fair_name (e : str * bool) : fair (name_re e) = true.
Proof. unfold name_re, word_re. destruct (snd e); [now rewrite lits_fair|]. destruct (rev (fst e)); auto. now rewrite lits_fair. Qed.
Lemma old_pass_exact e line : fst (archive_name (fst e)) <> [] -> let p := mkrx (old_re (archive_name (fst e))) [(py "num", 2); (py "name", 1)] in
  old_pass e line (sub_with p (old_arxiv_repl p (option_map py (snd e))) line).
Proof.
  intros N p. unfold sub_with. assert (fair (old_re (archive_name (fst e))) = true) as F. { unfold old_re. cbn [fair]. rewrite fair_name. reflexivity. }
  apply sub_tagged; [exact F| | |].
  - unfold p, old_re. cbn. lia.
  - intros a w b (name & num & H). eexists. cbn [rx_re p]. apply (rd_old _ N). eauto.
  - intros a w b o W R S T. destruct (run_caps _ _ _ _ _ _ (F : fair (rx_re p) = true) W R T) as (c & Rd & G). apply (rd_old _ N) in Rd as (name & num & H & ->). exists name, num. split; auto.
    unfold old_arxiv_repl. rewrite (tgrp_cap p 2 "num" _ _ _ eq_refl ltac:(discriminate) G), (tgrp_cap p 1 "name" _ _ _ eq_refl ltac:(discriminate) G). destruct (snd e); reflexivity.
Qed.
Lemma names_there : forallb (fun e => nonempty (fst (archive_name (fst e)))) old_arxiv = true. Proof. vm_compute. reflexivity. Qed.
Lemma tag_arxiv_more_exact line : exists mid, catchup_pass line mid /\ old_passes old_arxiv mid (tag_arxiv_more line).
Proof.
  eexists. split; [apply catchup_exact|]. unfold tag_arxiv_more. rewrite old_shapes. match goal with |- old_passes _ ?x _ => set (mid := x) end. cbv zeta. fold mid. generalize mid. clear mid.
  pose proof names_there as N. induction old_arxiv as [|e t IH]; intros mid; [reflexivity|]. cbn [forallb] in N. apply andb_true_iff in N as [N1 N2]. cbn [map fold_left old_passes fst snd]. eexists. split; [apply old_pass_exact|now apply IH].
  intros E. rewrite E in N1. discriminate.
Qed.
