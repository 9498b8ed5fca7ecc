(** Proofs about remove_year (C46). *)
From Coq Require Import List Arith NArith Bool String Lia.
From Verif Require Import PyStr ListFacts Regex RegexParse RegexMeta RegexLang RegexWords Elements Post WashProofs UrlProofs SpaceProofs RecordProofs PostProofs SplitProofs YearProofs.
Import ListNotations.
Local Open Scope nat_scope.
Local Notation length := List.length.
Local Notation concat := List.concat.

Ltac flat := repeat (rewrite <- app_assoc || cbn [app]).
Ltac flat_in H := repeat (rewrite <- app_assoc in H || cbn [app] in H).

(** ** Dropping the matches of a pattern *)
(** t is s without some pieces with P, each followed by a piece with [next]; in s every piece with P begins inside one of them *)
Definition dropped (P next : str -> Prop) (s t : str) : Prop := exists kept taken,
  length kept = S (length taken) /\ s = weave kept taken /\ t = concat kept /\ Forall P taken /\ Forall next (tl kept)
  /\ forall a w b, s = a ++ w ++ b -> P w -> replaced_at kept taken (length a).
Lemma sub_from_kept s : forall ms p, sub_from s (fun _ => []) p ms = concat (kept s p (map mspan ms)).
Proof. induction ms as [|o ms IH]; intros p; cbn; [now rewrite app_nil_r|]. now rewrite IH. Qed.
Lemma kept_next s (next : str -> Prop) : forall ms p, (forall o k r, In o ms -> skipn (m_end o) s = k ++ r -> next k) -> Forall next (tl (kept s p (map mspan ms))).
Proof.
  induction ms as [|o ms IH]; intros p H; cbn [map kept tl mspan]; [constructor|]. unfold mspan at 1. cbn [kept tl].
  destruct ms as [|o2 ms]; cbn [map kept].
  - constructor; [|constructor]. apply (H o _ []); [now left|now rewrite app_nil_r].
  - constructor; [apply (H o _ (skipn (m_start o2 - m_end o) (skipn (m_end o) s))); [now left|symmetry; apply firstn_skipn]|].
    apply (IH (m_end o)). intros o' k r I. apply H. now right.
Qed.
Lemma sub_dropped r (P next : str -> Prop) s : productive r = true -> 1 <= minlen r ->
  (forall x g x' g', mt r x g x' g' <-> exists w, fwd x w x' /\ P w /\ g' = g) ->
  (forall o k t, In o (re_finditer r s) -> skipn (m_end o) s = k ++ t -> next k) -> dropped P next s (re_sub r (fun _ => []) s).
Proof.
  intros Pr Mn Mt Nx. unfold re_sub. set (ms := re_finditer r s). destruct (finditer_ok r s) as (_ & Ch). fold ms in Ch. pose proof (mspans _ _ _ Ch) as Sp.
  exists (kept s 0 (map mspan ms)), (taken s (map mspan ms)). rewrite kept_length. unfold taken at 1. rewrite !map_length. split; auto.
  split; [symmetry; apply (weave_back s _ 0 Sp)|]. split; [apply sub_from_kept|]. split.
  - unfold taken. rewrite map_map. apply Forall_forall. intros w I. apply in_map_iff in I as (o & <- & I). cbn [mspan fst snd].
    apply finditer_in in I as (a & w & b & x' & E & F & M & S1 & S2). apply Mt in M as (w' & F' & Q & _). rewrite <- (fwd_fun _ _ _ _ F F') in Q.
    replace (slice (m_start o) (m_end o) s) with w; auto. rewrite S1, S2, E.
    unfold slice. rewrite skipn_app, Nat.sub_diag, skipn_all. cbn [app skipn]. rewrite firstn_app. replace (length a + length w - length a) with (length w) by lia.
    rewrite Nat.sub_diag, firstn_O, app_nil_r. symmetry. apply firstn_all.
  - split; [now apply kept_next|]. intros a w b E Q. assert (mt r (here a (w ++ b)) [] (here (a ++ w) b) []) as M by (apply Mt; exists w; split; [apply fwd_here|auto]).
    destruct (finditer_complete r s a _ _ _ Pr E M) as (o & I & C). replace (length a) with (length a - 0) by lia.
    apply (replaced_in _ _ (m_start o) (m_end o) (length a) 0 Sp); [apply in_map_iff; exists o; split; [reflexivity|exact I]|].
    pose proof (finditer_in _ _ _ I) as (a' & w' & b' & y & E1 & F & M2 & S1 & S2). assert (m_start o < m_end o) as Lt; [|unfold covers in C; lia].
    pose proof (mt_minlen (a' ++ w' ++ b') _ _ _ _ _ M2 (at_here _ _)) as ML. destruct F as (_ & _ & F). rewrite F in ML. lia.
Qed.

(** ** The three patterns *)
Definition one (c : option N) : str := match c with Some c => [c] | None => [] end.
(** a year with white space around it, in brackets *)
Definition year_piece (a b : option N) (y w : str) : Prop := exists s1 s2, blanks s1 /\ blanks s2 /\ w = one a ++ s1 ++ y ++ s2 ++ one b.
Lemma mt_cat_any a b x g x' g' : mt (cat a b) x g x' g' <-> exists z h, mt a x g z h /\ mt b z h x' g'.
Proof.
  assert (forall r x g x' g', mt r x g x' g' <-> exists z h, mt Eps x g z h /\ mt r z h x' g') as L.
  { intros. split; [intros M; exists x0, g0; split; auto; constructor|intros (z & h & M & M'); inversion M; now subst]. }
  assert (forall r x g x' g', mt r x g x' g' <-> exists z h, mt r x g z h /\ mt Eps z h x' g') as R.
  { intros. split; [intros M; exists x'0, g'0; split; auto; constructor|intros (z & h & M & M'); inversion M'; now subst]. }
  unfold cat. destruct a; try (apply L); destruct b; try apply R; apply mt_cat_iff.
Qed.
Lemma mt_one c x g x' g' : mt (match c with Some c => lit noflags c | None => Eps end) x g x' g' <-> fwd x (one c) x' /\ g' = g.
Proof.
  destruct c as [c|]; cbn [one].
  - unfold lit. rewrite mt_cls_fwd. split.
    + intros (d & F & M & ->). apply (lit_cls_mem c d) in M. now subst.
    + intros (F & ->). exists c. split; auto. split; auto. now apply (lit_cls_mem c c).
  - split; [intros M; inversion M; subst; split; auto; apply fwd_refl|]. intros (F & ->). apply fwd_nil in F. subst. constructor.
Qed.
Lemma mt_lits y x g x' g' : y <> [] -> mt (re_lits noflags y) x g x' g' <-> fwd x y x' /\ g' = g.
Proof.
  revert x g. induction y as [|c y IH]; intros x g N; [congruence|]. destruct y as [|d y].
  - exact (mt_one (Some c) x g x' g').
  - change (re_lits noflags (c :: d :: y)) with (Cat (lit noflags c) (re_lits noflags (d :: y))). rewrite mt_cat_iff. split.
    + intros (z & h & M & M'). apply (mt_one (Some c)) in M as (F & ->). apply IH in M' as (F' & ->); [|congruence]. split; auto. exact (fwd_app _ _ _ _ _ F F').
    + intros (F & ->). destruct (suf x) as [|e t] eqn:Sx; [destruct F as (F & _); rewrite Sx in F; discriminate|].
      exists (after x [c]), g. pose proof F as (F0 & _). rewrite Sx in F0. cbn in F0. injection F0 as -> F0.
      assert (fwd x [c] (after x [c])) as F1 by (apply fwd_after with (t := t); now rewrite Sx). split; [now apply (mt_one (Some c))|]. apply IH; [congruence|]. split; auto.
      destruct F1 as (G1 & G2 & G3), F as (H1 & H2 & H3). unfold fwd. cbn [after suf pre pos] in *. rewrite Sx in *. cbn in *. repeat split; auto.
      * rewrite H2. now rewrite <- app_assoc.
      * lia.
Qed.

Lemma mt_spaces x g x' g' : mt spaces_re x g x' g' <-> exists w, fwd x w x' /\ blanks w /\ g' = g.
Proof.
  unfold spaces_re, cls1. rewrite mt_rep_cls. split.
  - intros (w & F & A & _ & _ & G). exists w. split; auto. split; auto. unfold blanks. rewrite <- space_cls_all. exact A.
  - intros (w & F & A & G). exists w. split; auto. unfold blanks in A. rewrite <- space_cls_all in A. repeat split; auto. lia.
Qed.
Lemma fwd_split x u v x' : fwd x (u ++ v) x' -> exists z, fwd x u z /\ fwd z v x'.
Proof.
  intros (A & B & C). exists (after x u). assert (suf x = u ++ v ++ suf x') as A' by now rewrite A, app_assoc.
  pose proof (fwd_after x u _ A') as F. split; auto. destruct F as (F & _ & _). unfold fwd. rewrite A' in F. apply app_inv_head in F. split; auto.
  unfold after. cbn [pre pos]. rewrite B, C, rev_app_distr, app_length, app_assoc. split; auto. lia.
Qed.
Lemma delim_mt a b y x g x' g' : y <> [] -> mt (delim_year a b y) x g x' g' <-> exists w, fwd x w x' /\ year_piece a b y w /\ g' = g.
Proof.
  intros N. unfold delim_year, year_re. destruct y as [|c t] eqn:Y; [congruence|]. rewrite <- Y in *. clear Y c t. split.
  - intros M. rewrite mt_cat_any in M. destruct M as (x1 & g1 & M1 & M). apply mt_one in M1 as (F1 & ->).
    rewrite mt_cat_any in M. destruct M as (x2 & g2 & M2 & M). apply mt_spaces in M2 as (s1 & F2 & B1 & ->).
    rewrite mt_cat_any in M. destruct M as (x3 & g3 & M3 & M). apply mt_lits in M3 as (F3 & ->); auto.
    rewrite mt_cat_any in M. destruct M as (x4 & g4 & M4 & M). apply mt_spaces in M4 as (s2 & F4 & B2 & ->). apply mt_one in M as (F5 & ->).
    exists (one a ++ s1 ++ y ++ s2 ++ one b). split; [|split; auto; exists s1, s2; auto]. eauto using fwd_app.
  - intros (w & F & (s1 & s2 & B1 & B2 & ->) & ->). apply fwd_split in F as (x1 & F1 & F). apply fwd_split in F as (x2 & F2 & F). apply fwd_split in F as (x3 & F3 & F).
    apply fwd_split in F as (x4 & F4 & F).
    rewrite mt_cat_any. exists x1, g. split; [now apply mt_one|]. rewrite mt_cat_any. exists x2, g. split; [apply mt_spaces; eauto|].
    rewrite mt_cat_any. exists x3, g. split; [now apply mt_lits|]. rewrite mt_cat_any. exists x4, g. split; [apply mt_spaces; eauto|]. now apply mt_one.
Qed.
Lemma lits_shape y : y <> [] -> productive (re_lits noflags y) = true /\ 1 <= minlen (re_lits noflags y).
Proof.
  induction y as [|c [|d y] IH]; intros N; [congruence|cbn; auto|].
  change (re_lits noflags (c :: d :: y)) with (Cat (lit noflags c) (re_lits noflags (d :: y))). destruct IH as (A & B); [congruence|]. cbn [productive minlen]. rewrite A. cbn. lia.
Qed.
Lemma cat_shape a b : productive (cat a b) = productive a && productive b /\ minlen (cat a b) = minlen a + minlen b.
Proof. destruct a; cbn [cat]; auto; destruct b; cbn [cat productive minlen]; rewrite ?andb_true_r, ?Nat.add_0_r; auto. Qed.
Lemma delim_shape a b y : y <> [] -> productive (delim_year a b y) = true /\ 1 <= minlen (delim_year a b y).
Proof.
  intros N. unfold delim_year, year_re. destruct y as [|c t] eqn:Y; [congruence|]. rewrite <- Y in *. clear Y c t. destruct (lits_shape y N) as (A & B).
  rewrite !(proj1 (cat_shape _ _)), !(proj2 (cat_shape _ _)), A. split; [destruct a, b; reflexivity|lia].
Qed.
Lemma bare_end y s o d : y <> [] -> In o (re_finditer (delim_year None None y) s) -> nth_error s (m_end o) = Some d -> is_space d = false.
Proof.
  intros Ny I N. apply finditer_run in I as (x & A & R); [|now apply delim_shape].
  unfold run in R. destruct (m (delim_year None None y) x [] _) as [[z g]|] eqn:Q; [|discriminate]. injection R as R. subst o. cbn [m_end] in *. cbn [andb] in Q.
  pose proof Q as Q0. apply m_sound in Q0 as (y0 & h & M & E). injection E as -> ->. destruct (mt_at s _ _ _ _ _ M A) as [Az _].
  assert (delim_year None None y = Cat spaces_re (Cat (re_lits noflags y) spaces_re)) as Sh.
  { unfold delim_year, year_re. destruct y as [|c [|e t]]; [congruence|reflexivity|reflexivity]. }
  rewrite Sh in Q.
  change (m spaces_re x [] (fun x1 g1 => m (re_lits noflags y) x1 g1 (fun x2 g2 => m spaces_re x2 g2 (fun x3 g3 => Some (x3, g3)))) = Some (z, g)) in Q.
  apply m_sound in Q as (x1 & g1 & _ & Q). apply m_sound in Q as (x2 & g2 & _ & Q).
  change (rep_loop true 0 None (Cls space_cls) (fun (x' : st) (g' : groups) => Some (x', g')) (S (0 + length (suf x2))) 0 x2 g2 = Some (z, g)) in Q.
  apply rep_greedy_some in Q as (x' & E & St); [|discriminate|lia]. injection E as -> _.
  unfold stops in St. rewrite (at_suf s z Az) in St. rewrite <- (firstn_skipn (pos z) s) in N. rewrite nth_error_app2 in N by apply firstn_le_length.
  rewrite firstn_length_le, Nat.sub_diag in N by (now apply at_pos_le). destruct (skipn (pos z) s) as [|e t]; [discriminate|]. injection N as ->.
  pose proof (space_cls_all [d]) as K. cbn [forallb] in K. rewrite !andb_true_r in K. now rewrite K in St.
Qed.
Definition any_text (k : str) : Prop := True.
Definition no_blank_first (k : str) : Prop := match k with c :: _ => is_space c = false | [] => True end.
Lemma brackets_dropped a b y s : y <> [] -> dropped (year_piece a b y) any_text s (re_sub (delim_year a b y) (fun _ => []) s).
Proof. intros N. destruct (delim_shape a b y N). apply sub_dropped; auto; [intros; now apply delim_mt|constructor]. Qed.
Lemma bare_dropped y s : y <> [] -> dropped (year_piece None None y) no_blank_first s (re_sub (delim_year None None y) (fun _ => []) s).
Proof.
  intros N. destruct (delim_shape None None y N). apply sub_dropped; auto; [intros; now apply delim_mt|]. intros o [|c k] t I E; [exact Logic.I|]. apply (bare_end y s o c N I).
  rewrite <- (firstn_skipn (m_end o) s), E. pose proof (proj1 (finditer_ok (delim_year None None y) s)) as F. rewrite Forall_forall in F. pose proof (F _ I) as K. apply obj_bounds in K.
  rewrite nth_error_app2 by apply firstn_le_length. rewrite firstn_length_le, Nat.sub_diag by lia. reflexivity.
Qed.
Lemma remove_year_ok s y : y <> [] -> exists s1 s2,
  dropped (year_piece (Some 91%N) (Some 93%N) y) any_text s s1 /\ dropped (year_piece (Some 40%N) (Some 41%N) y) any_text s1 s2
  /\ dropped (year_piece None None y) no_blank_first s2 (remove_year s y).
Proof. intros N. exists (re_sub (delim_year (Some 91%N) (Some 93%N) y) (fun _ => []) s). eexists. split; [now apply brackets_dropped|]. split; [now apply brackets_dropped|now apply bare_dropped]. Qed.

(** ** A year that occurs once *)
Definition occurs (y s : str) : Prop := exists p q, s = p ++ y ++ q.
Definition once (y a b : str) : Prop := forall p q, a ++ y ++ b = p ++ y ++ q -> p = a.
Lemma piece_year a b y w : year_piece a b y w -> occurs y w.
Proof. intros (s1 & s2 & _ & _ & ->). exists (one a ++ s1), (s2 ++ one b). now rewrite <- !app_assoc. Qed.
Lemma dropped_none P nx y s t : dropped P nx s t -> (forall w, P w -> occurs y w) -> ~ occurs y s -> t = s.
Proof.
  intros (ks & ts & L & -> & -> & F & _ & _) H N. destruct ts as [|w ts].
  - destruct ks as [|k [|k' ks]]; try discriminate. cbn. apply app_nil_r.
  - exfalso. destruct ks as [|k ks]; [discriminate|]. inversion F; subst. apply H in H2 as (p & q & ->). apply N. cbn. exists (k ++ p), (q ++ weave ks ts). now rewrite <- !app_assoc.
Qed.
Lemma dropped_once P nx y a b t : y <> [] -> dropped P nx (a ++ y ++ b) t -> (forall w, P w -> occurs y w) -> once y a b ->
  (t = a ++ y ++ b /\ forall p w q, a ++ y ++ b = p ++ w ++ q -> ~ P w)
  \/ exists k w k', a ++ y ++ b = k ++ w ++ k' /\ P w /\ nx k' /\ t = k ++ k' /\ forall p v q, a ++ y ++ b = p ++ v ++ q -> P v -> length k <= length p < length k + length w.
Proof.
  intros Ny (ks & ts & L & E & -> & F & Fn & C) H O. destruct ts as [|w ts].
  - left. destruct ks as [|k [|k' ks]]; try discriminate. cbn in E. split; [cbn; rewrite app_nil_r; auto|]. intros p v q E' Q. apply C in E'; auto.
  - right. destruct ks as [|k ks]; [discriminate|]. inversion F as [|w0 ts0 Pw Fs]; subst w0 ts0. destruct ts as [|v ts].
    + destruct ks as [|k' [|k2 ks]]; try discriminate. exists k, w, k'. cbn in E. split; auto. split; auto. split; [inversion Fn; auto|]. split; [cbn; now rewrite app_nil_r|].
      intros p v q E' Q. apply C in E'; auto. cbn in E'. destruct E' as [E'|[_ []]]. lia.
    + exfalso. destruct ks as [|k' ks]; [discriminate|]. inversion Fs as [|v0 ts0 Pv Fs']; subst v0 ts0. apply H in Pw as (p0 & q0 & ->). apply H in Pv as (p1 & q1 & ->). cbn [weave] in E.
      assert (k ++ p0 = a) as A by (apply (O _ (q0 ++ k' ++ (p1 ++ y ++ q1) ++ weave ks ts)); rewrite E, <- !app_assoc; reflexivity).
      assert (k ++ (p0 ++ y ++ q0) ++ k' ++ p1 = a) as B by (apply (O _ (q1 ++ weave ks ts)); rewrite E, <- !app_assoc; reflexivity).
      apply (f_equal (@length ch)) in A, B. destruct y as [|c y]; [congruence|]. clear - A B. unfold str, ch in *. repeat rewrite app_length in A. repeat rewrite app_length in B. cbn [List.length] in *. lia.
Qed.
Lemma blank_cut c s1 s2 x1 x2 : blanks s1 -> blanks s2 -> is_space c = false -> x1 ++ c :: s1 = x2 ++ c :: s2 -> x1 = x2 /\ s1 = s2.
Proof.
  intros B1 B2 Nc E. apply (f_equal (@rev ch)) in E. rewrite !rev_app_distr in E. cbn [rev] in E. rewrite <- !app_assoc in E. cbn in E.
  assert (forall u v p q, blanks u -> blanks v -> u ++ c :: p = v ++ c :: q -> u = v /\ p = q) as K.
  { clear - Nc. induction u as [|d u IH]; intros [|e v] p q Bu Bv E; cbn in E.
    - injection E as ->. auto.
    - injection E as <- E. unfold blanks in Bv. cbn [forallb] in Bv. rewrite Nc in Bv. discriminate.
    - injection E as -> E. unfold blanks in Bu. cbn [forallb] in Bu. rewrite Nc in Bu. discriminate.
    - injection E as <- E. unfold blanks in Bu, Bv. cbn [forallb] in Bu, Bv. apply andb_true_iff in Bu as [_ Bu], Bv as [_ Bv]. destruct (IH v p q Bu Bv E) as (-> & ->). auto. }
  apply K in E as (E1 & E2).
  - apply (f_equal (@rev ch)) in E1, E2. rewrite !rev_involutive in E1, E2. auto.
  - unfold blanks in *. rewrite forallb_forall in *. intros d I. apply B1. now apply in_rev.
  - unfold blanks in *. rewrite forallb_forall in *. intros d I. apply B2. now apply in_rev.
Qed.
Lemma blank_cut' c s1 s2 x1 x2 : blanks s1 -> blanks s2 -> is_space c = false -> s1 ++ c :: x1 = s2 ++ c :: x2 -> s1 = s2 /\ x1 = x2.
Proof.
  intros B1 B2 Nc. revert s2 B2. induction s1 as [|d u IH]; intros [|e v] Bv E; cbn in E.
  - injection E as ->. auto.
  - injection E as <- E. unfold blanks in Bv. cbn [forallb] in Bv. rewrite Nc in Bv. discriminate.
  - injection E as -> E. unfold blanks in B1. cbn [forallb] in B1. rewrite Nc in B1. discriminate.
  - injection E as <- E. unfold blanks in B1, Bv. cbn [forallb] in B1, Bv. apply andb_true_iff in B1 as [_ Bu], Bv as [_ Bv]. destruct (IH Bu v Bv E) as (-> & ->). auto.
Qed.
(** a bracketed piece at a year that occurs once *)
Lemma bracket_piece o c y a b t : y <> [] -> is_space o = false -> is_space c = false -> dropped (year_piece (Some o) (Some c) y) any_text (a ++ y ++ b) t -> once y a b ->
  (t = a ++ y ++ b /\ forall a' s1 s2 b', blanks s1 -> blanks s2 -> a = a' ++ o :: s1 -> b <> s2 ++ c :: b')
  \/ exists a' s1 s2 b', blanks s1 /\ blanks s2 /\ a = a' ++ o :: s1 /\ b = s2 ++ c :: b' /\ t = a' ++ b'.
Proof.
  intros Ny So Sc D O. apply (dropped_once _ _ y) in D as [(-> & D)|(k & w & k' & E & (s1 & s2 & B1 & B2 & ->) & _ & -> & _)]; eauto using piece_year.
  - left. split; auto. intros a' s1 s2 b' B1 B2 -> ->. apply (D a' (o :: s1 ++ y ++ s2 ++ [c]) b'); [flat; reflexivity|].
    exists s1, s2. auto.
  - right. cbn [one app] in E. assert (k ++ o :: s1 = a) as A.
    { apply (O _ (s2 ++ c :: k')). rewrite E. flat. reflexivity. }
    exists k, s1, s2, k'. split; auto. split; auto. split; auto. split; auto. rewrite <- A in E. flat_in E.
    apply app_inv_head in E. injection E as E. apply app_inv_head in E. apply app_inv_head in E. exact E.
Qed.

(** the ends of the text around the year *)
Lemma blank_run (s : str) : exists u v, s = u ++ v /\ blanks u /\ lstrip s = v /\ no_blank_first v.
Proof.
  induction s as [|c s IH]; [exists [], []; repeat split|]. destruct IH as (u & v & E & B & L & N). change (lstrip (c :: s)) with (if is_space c then lstrip s else c :: s).
  destruct (is_space c) eqn:C.
  - exists (c :: u), v. rewrite E at 1. repeat split; auto. unfold blanks in *. cbn [forallb]. now rewrite C.
  - exists [], (c :: s). repeat split; auto.
Qed.
Lemma blanks_rev u : blanks u -> blanks (rev u).
Proof. unfold blanks. rewrite !forallb_forall. intros H c I. apply H. now apply in_rev. Qed.
Lemma blank_run_end (s : str) : exists u v, s = u ++ v /\ blanks v /\ rstrip s = u /\ no_blank_first (rev u).
Proof.
  destruct (blank_run (rev s)) as (u & v & E & B & L & N). exists (rev v), (rev u). split; [apply (f_equal (@rev ch)) in E; now rewrite rev_involutive, rev_app_distr in E|].
  split; [now apply blanks_rev|]. split; [|now rewrite rev_involutive]. unfold rstrip, rstrip_by. change (rev (lstrip (rev s)) = rev v). now rewrite L.
Qed.
Lemma cut_blank u : forall v u' v', u ++ v = u' ++ v' -> blanks u -> blanks u' -> no_blank_first v -> no_blank_first v' -> v = v'.
Proof.
  induction u as [|c u IH]; intros v [|c' u'] v' E B B' N N'; cbn in E; auto.
  - subst v. unfold blanks in B'. cbn [forallb no_blank_first] in B', N. rewrite N in B'. discriminate.
  - subst v'. unfold blanks in B. cbn [forallb no_blank_first] in B, N'. rewrite N' in B. discriminate.
  - injection E as <- E. unfold blanks in B, B'. cbn [forallb] in B, B'. apply andb_true_iff in B as [_ B], B' as [_ B']. now apply (IH v u').
Qed.
Lemma bare_once y a b t : y <> [] -> dropped (year_piece None None y) no_blank_first (a ++ y ++ b) t -> once y a b -> t = rstrip a ++ lstrip b.
Proof.
  intros Ny D O. apply (dropped_once _ _ y) in D as [(-> & D)|(k & w & k' & E & (s1 & s2 & B1 & B2 & ->) & Nx & -> & C)]; eauto using piece_year.
  - exfalso. apply (D a y b); auto. exists [], []. repeat split. now rewrite !app_nil_r.
  - cbn [one app] in E, C. rewrite app_nil_r in E, C. assert (k ++ s1 = a) as A by (apply (O _ (s2 ++ k')); rewrite E, <- !app_assoc; reflexivity).
    subst a. rewrite <- !app_assoc in E. apply app_inv_head in E. apply app_inv_head in E. apply app_inv_head in E. subst b. f_equal.
    + destruct (blank_run_end (k ++ s1)) as (u & v & E & B & -> & N). apply (f_equal (@rev ch)) in E. rewrite !rev_app_distr in E.
      apply (f_equal (@rev ch)) in E. rewrite !rev_app_distr, !rev_involutive in E. apply (f_equal (@rev ch)) in E. rewrite !rev_app_distr in E.
      apply cut_blank in E; auto using blanks_rev; [apply (f_equal (@rev ch)) in E; now rewrite !rev_involutive in E|].
      destruct (rev k) as [|c r] eqn:K; [exact Logic.I|]. cbn [no_blank_first]. apply (f_equal (@rev ch)) in K. rewrite rev_involutive in K. cbn [rev] in K. destruct (is_space c) eqn:Sc; auto.
      exfalso. specialize (C (rev r) (c :: s1 ++ y ++ s2) k'). destruct C as (C & _); [subst k; flat; reflexivity| |].
      * exists (c :: s1), s2. cbn [one app]. rewrite app_nil_r. repeat split; auto. unfold blanks in *. cbn [forallb]. now rewrite Sc.
      * subst k. rewrite app_length, rev_length in C. cbn in C. lia.
    + destruct (blank_run (s2 ++ k')) as (u & v & E & B & -> & N). now apply cut_blank in E.
Qed.
(** the result, for a year that occurs once *)
Lemma remove_once y a b : y <> [] -> once y a b -> (forall a' s1 s2 b', blanks s1 -> blanks s2 ->
    (a = a' ++ 91%N :: s1 -> b <> s2 ++ 93%N :: b') /\ (a = a' ++ 40%N :: s1 -> b <> s2 ++ 41%N :: b')) ->
  remove_year (a ++ y ++ b) y = rstrip a ++ lstrip b.
Proof.
  intros Ny O Nb. destruct (remove_year_ok (a ++ y ++ b) y Ny) as (t1 & t2 & D1 & D2 & D3).
  apply bracket_piece in D1 as [(-> & _)|(a' & s1 & s2 & b' & B1 & B2 & Ea & Eb & _)]; auto; [|destruct (Nb a' s1 s2 b' B1 B2) as (K & _); now apply K in Ea].
  apply bracket_piece in D2 as [(-> & _)|(a' & s1 & s2 & b' & B1 & B2 & Ea & Eb & _)]; auto; [|destruct (Nb a' s1 s2 b' B1 B2) as (_ & K); now apply K in Ea].
  now apply (bare_once y).
Qed.
Lemma remove_none y s : y <> [] -> ~ occurs y s -> remove_year s y = s.
Proof.
  intros Ny N. destruct (remove_year_ok s y Ny) as (t1 & t2 & D1 & D2 & D3). apply (dropped_none _ _ y) in D1; eauto using piece_year. subst t1.
  apply (dropped_none _ _ y) in D2; eauto using piece_year. subst t2. apply (dropped_none _ _ y) in D3; eauto using piece_year.
Qed.
Lemma remove_bracketed y a b o c s1 s2 : y <> [] -> In (o, c) [(91, 93); (40, 41)]%N -> blanks s1 -> blanks s2 -> once y (a ++ o :: s1) (s2 ++ c :: b) -> ~ occurs y (a ++ b) ->
  remove_year (a ++ o :: s1 ++ y ++ s2 ++ c :: b) y = a ++ b.
Proof.
  intros Ny I B1 B2 O No. replace (a ++ o :: s1 ++ y ++ s2 ++ c :: b) with ((a ++ o :: s1) ++ y ++ s2 ++ c :: b) by (rewrite <- app_assoc; reflexivity).
  destruct (remove_year_ok ((a ++ o :: s1) ++ y ++ s2 ++ c :: b) y Ny) as (t1 & t2 & D1 & D2 & D3).
  destruct I as [I|[I|[]]]; injection I as <- <-.
  - apply bracket_piece in D1 as [(_ & K)|(a' & v1 & v2 & b' & V1 & V2 & Ea & Eb & ->)]; auto; [exfalso; exact (K a s1 s2 b B1 B2 eq_refl eq_refl)|].
    apply blank_cut in Ea as (<- & _); auto. apply blank_cut' in Eb as (_ & <-); auto.
    apply (dropped_none _ _ y) in D2; eauto using piece_year. subst t2. apply (dropped_none _ _ y) in D3; eauto using piece_year.
  - apply bracket_piece in D1 as [(-> & _)|(a' & v1 & v2 & b' & V1 & V2 & Ea & Eb & _)]; auto.
    + apply bracket_piece in D2 as [(_ & K)|(a' & v1 & v2 & b' & V1 & V2 & Ea & Eb & ->)]; auto; [exfalso; exact (K a s1 s2 b B1 B2 eq_refl eq_refl)|].
      apply blank_cut in Ea as (<- & _); auto. apply blank_cut' in Eb as (_ & <-); auto. apply (dropped_none _ _ y) in D3; eauto using piece_year.
    + exfalso. clear - Ea B1 V1. apply (f_equal (@rev ch)) in Ea. rewrite !rev_app_distr in Ea. cbn [rev] in Ea. rewrite <- !app_assoc in Ea. cbn [app] in Ea.
      apply blanks_rev in B1, V1. apply cut_blank in Ea; auto; try discriminate; reflexivity.
Qed.

(** ** The year of a citation is taken out of its texts *)
Lemma drop_year_misc y e : y <> [] -> drop_year y e = set_misc (remove_year (e_misc e) y) e.
Proof.
  intros N. unfold drop_year, contains. destruct (find_sub y (e_misc e)) eqn:F; auto. rewrite (remove_none y (e_misc e)); [now destruct e|auto|].
  intros (p & q & E). eapply find_sub_none; eauto.
Qed.
Lemma fold_drop_in y : forall c h a, NoDup c -> closed h c -> In a c -> deref (fold_left (fun h a => store h a (drop_year y)) c h) a = drop_year y (deref h a).
Proof.
  induction c as [|b c IH]; intros h a N C I; [destruct I|]. inversion N; subst. inversion C; subst. cbn [fold_left]. destruct I as [->|I].
  - rewrite fold_drop_other by auto. now apply deref_store_same.
  - rewrite IH; auto; [|unfold closed in *; rewrite Forall_forall in *; intros x X; rewrite store_length; auto]. rewrite deref_store_other; auto. intros ->. tauto.
Qed.
Lemma year_taken_out h c h' c' : closed h c -> NoDup c -> add_year_one h c = Ok (h', c') ->
  exists ys, chosen_year (map (deref h) c) ys
  /\ map (deref h') c' = map (fun e => match ys with y :: _ => set_misc (remove_year (e_misc e) y) e | [] => e end) (map (deref h) c) ++ map (fun y => year_el y) ys.
Proof.
  intros C N H. unfold add_year_one in H. inv_ok H. apply find_year_spec in E.
  destruct a as [[|y0 y]|]; cbn in H; inversion H; subst; clear H.
  1, 3: exists []; cbn; rewrite app_nil_r, map_id; auto.
  exists [y0 :: y]. split; [exact E|]. rewrite fold_left_app. cbn [fold_left]. rewrite map_app, map_map. cbn [map].
  assert (closed (h ++ [year_el (y0 :: y)]) c) as C' by (unfold closed in *; rewrite Forall_forall in *; intros x X; rewrite app_length; specialize (C x X); lia). f_equal.
  - apply map_ext_in. intros a I. pose proof C as K. unfold closed in K. rewrite Forall_forall in K. specialize (K a I).
    rewrite deref_store_other by lia. rewrite fold_drop_in by auto. rewrite deref_alloc_old by auto. now apply drop_year_misc.
  - rewrite deref_store_same by (rewrite fold_drop_length, app_length; cbn; lia). rewrite fold_drop_other by (unfold closed in C; rewrite Forall_forall in C; intros I; apply C in I; lia).
    rewrite deref_alloc_new. reflexivity.
Qed.
