(** Reading matches of concrete patterns as splittings of the subject. *)
From Coq Require Import List Arith NArith Bool Lia.
From Verif Require Import PyStr ListFacts Regex RegexMeta.
Import ListNotations.
Local Open Scope nat_scope.

(** from [x] the text [w] leads to [x'] *)
Definition fwd (x : st) (w : str) (x' : st) : Prop :=
  suf x = w ++ suf x' /\ pre x' = rev w ++ pre x /\ pos x' = pos x + length w.
Lemma fwd_nil x x' : fwd x [] x' -> x' = x.
Proof. intros (A & B & C). destruct x, x'; cbn in *. subst. f_equal. lia. Qed.
Lemma fwd_refl x : fwd x [] x. Proof. repeat split; cbn; auto. Qed.
Lemma fwd_app x u y v z : fwd x u y -> fwd y v z -> fwd x (u ++ v) z.
Proof.
  intros (A & B & C) (A' & B' & C'). unfold fwd. rewrite A, A', B', B, C', C, rev_app_distr, app_length, !app_assoc. repeat split; auto. lia.
Qed.
Lemma fwd_step x d x' : step x = Some (d, x') <-> fwd x [d] x'.
Proof.
  unfold step, fwd. destruct x as [p pr su], x' as [p' pr' su']; cbn. destruct su as [|c t]; cbn.
  - split; [discriminate|]. intros (A & _); discriminate.
  - split.
    + intros H; inversion H; subst. repeat split; auto. lia.
    + intros (A & B & C). inversion A; subst. f_equal. f_equal. f_equal. lia.
Qed.
Definition after (x : st) (w : str) : st := mkst (pos x + length w) (rev w ++ pre x) (skipn (length w) (suf x)).
Lemma fwd_after x w t : suf x = w ++ t -> fwd x w (after x w).
Proof.
  intros H. unfold fwd, after. cbn. split; [|auto]. rewrite H. rewrite skipn_app, skipn_all, Nat.sub_diag. cbn. auto.
Qed.
Lemma fwd_between s x w x' : at_ s x -> fwd x w x' -> between s x x' = w.
Proof.
  intros A (B & C & D). unfold between, slice. rewrite D, <- (at_suf _ _ A), B.
  replace (pos x + length w - pos x) with (length w) by lia. rewrite firstn_app, Nat.sub_diag, firstn_all. cbn. apply app_nil_r.
Qed.
Lemma mt_fwd r x g x' g' : mt r x g x' g' -> exists w, fwd x w x'.
Proof.
  induction 1; try (exists []; apply fwd_refl); try (now eauto).
  - exists [d]. now apply fwd_step.
  - exists [d]. now apply fwd_step.
  - destruct IHmt1 as [u U], IHmt2 as [v V]. exists (u ++ v). eapply fwd_app; eauto.
  - destruct IHmt1 as [u U], IHmt2 as [v V]. exists (u ++ v). eapply fwd_app; eauto.
Qed.
Lemma fwd_fun x w x' w' : fwd x w x' -> fwd x w' x' -> w = w'.
Proof. intros (A & _) (B & _). rewrite A in B. now apply app_inv_tail in B. Qed.

(** ** Pieces *)
Definition le_max (n : nat) (mx : option nat) : Prop := match mx with Some k => n <= k | None => True end.
Lemma mt_cls_fwd c x g x' g' : mt (Cls c) x g x' g' <-> exists d, fwd x [d] x' /\ cls_mem c d = true /\ g' = g.
Proof.
  split.
  - intros H; inversion H; subst. exists d. rewrite <- fwd_step. auto.
  - intros (d & F & M & ->). rewrite <- fwd_step in F. econstructor; eauto.
Qed.
Lemma mt_rep_cls gr c : forall mn mx x g x' g', mt (Rep gr mn mx (Cls c)) x g x' g' <->
  exists w, fwd x w x' /\ forallb (cls_mem c) w = true /\ mn <= length w /\ le_max (length w) mx /\ g' = g.
Proof.
  intros mn mx x g x' g'. split.
  - intros H. remember (Rep gr mn mx (Cls c)) as q eqn:Q. revert mn mx Q.
    induction H; intros mn' mx' Q; inversion Q; subst.
    + exists []. split; [apply fwd_refl|]. cbn. repeat split; auto. destruct mx'; cbn; auto. lia.
    + apply mt_cls_fwd in H0 as (d & F & M & ->). destruct (IHmt2 _ _ eq_refl) as (w & W & A & B & C & ->).
      exists (d :: w). split; [change (d :: w) with ([d] ++ w); eapply fwd_app; eauto|]. cbn. rewrite M. repeat split; auto; [lia|].
      destruct mx'; cbn in *; auto. destruct n; [congruence|]. cbn in C. lia.
  - intros (w & W & A & B & C & ->). revert mn mx x W A B C. induction w as [|d w IH]; intros mn mx x W A B C.
    + apply fwd_nil in W as ->. cbn in B. replace mn with 0 by lia. constructor.
    + cbn in A. apply andb_true_iff in A as [A1 A2]. destruct W as (W1 & W2 & W3).
      eapply mt_more with (x1 := after x [d]).
      * destruct mx; cbn in C; [|discriminate]. intros E. inversion E; subst. cbn in C. lia.
      * apply mt_cls_fwd. exists d. split; auto. eapply fwd_after. cbn. rewrite W1. reflexivity.
      * apply IH; auto.
        -- unfold fwd, after. cbn. rewrite W1, W2, W3. cbn. rewrite <- app_assoc. repeat split; auto. lia.
        -- cbn in B. lia.
        -- destruct mx; cbn in *; auto. lia.
Qed.
Lemma mt_eos x g x' g' : mt Eos x g x' g' <-> x' = x /\ g' = g /\ (suf x = [] \/ suf x = [10%N]).
Proof.
  split; [intros H; inversion H; auto|]. intros (-> & -> & [H|H]); [now apply mt_eos0|now apply mt_eos1].
Qed.
Lemma mt_cat_iff a b x g x' g' : mt (Cat a b) x g x' g' <-> exists y h, mt a x g y h /\ mt b y h x' g'.
Proof. split; [intros H; inversion H; subst; eauto|]. intros (y & h & A & B). econstructor; eauto. Qed.
Lemma mt_grp_iff i a x g x' g' : mt (Grp i a) x g x' g' <-> exists h, mt a x g x' h /\ g' = (i, (pos x, pos x')) :: h.
Proof. split; [intros H; inversion H; subst; eauto|]. intros (h & A & ->). now constructor. Qed.
Lemma mt_alt_iff a b x g x' g' : mt (Alt a b) x g x' g' <-> mt a x g x' g' \/ mt b x g x' g'.
Proof. split; [intros H; inversion H; subst; auto|]. intros [H|H]; [now apply mt_altl|now apply mt_altr]. Qed.

(** ** match *)
Lemma re_match_some r s o : re_match r s = Some o ->
  exists w x' , fwd (init s) w x' /\ mt r (init s) [] x' (m_groups o) /\ m_start o = 0 /\ m_end o = length w
    /\ firstn (m_end o) s = w /\ skipn (m_end o) s = suf x'.
Proof.
  unfold re_match. intros H. apply (run_sound s) in H as (x' & M & A & S & E & _); [|apply at_init].
  destruct (mt_fwd _ _ _ _ _ M) as (w & F). exists w, x'. pose proof F as (F1 & F2 & F3). cbn in F1, F3.
  split; auto. split; auto. split; auto. rewrite E, F3. split; auto. rewrite F1.
  rewrite firstn_app, skipn_app, firstn_all, skipn_all, Nat.sub_diag. cbn. rewrite app_nil_r. auto.
Qed.
Lemma re_match_none r s : re_match r s = None -> productive r = true -> forall x' g', ~ mt r (init s) [] x' g'.
Proof.
  intros H P x' g' M. apply (run_complete s r (init s) x' g') in P; auto. apply at_init.
Qed.
Lemma re_match_iff r s : productive r = true ->
  (exists o, re_match r s = Some o) <-> exists x' g', mt r (init s) [] x' g'.
Proof.
  intros P. split.
  - intros (o & H). apply re_match_some in H as (w & x' & _ & M & _). eauto.
  - intros (x' & g' & M). destruct (re_match r s) eqn:E; eauto. exfalso. eapply re_match_none; eauto.
Qed.

(** ** search and finditer *)
Definition here (a b : str) : st := mkst (length a) (rev a) b.
Lemma at_here a b : at_ (a ++ b) (here a b).
Proof. split; cbn; [now rewrite rev_length|now rewrite rev_involutive]. Qed.
Lemma at_is_here s x : at_ s x -> exists a b, s = a ++ b /\ x = here a b /\ pos x = length a.
Proof.
  intros H. exists (firstn (pos x) s), (skipn (pos x) s). rewrite firstn_skipn. split; auto.
  assert (length (firstn (pos x) s) = pos x) as L by (apply firstn_length_le; now apply at_pos_le).
  split; auto. unfold here. rewrite L, <- (at_pre _ _ H), rev_involutive, <- (at_suf _ _ H). now destruct x.
Qed.
Lemma fwd_here a w b : fwd (here a (w ++ b)) w (here (a ++ w) b).
Proof. unfold fwd, here; cbn. rewrite rev_app_distr, app_length. auto. Qed.
Lemma fwd_here_iff a b w x' : fwd (here a b) w x' <-> exists t, b = w ++ t /\ x' = here (a ++ w) t.
Proof.
  split.
  - intros (A & B & C). cbn in A, B, C. exists (suf x'). split; auto. unfold here. rewrite rev_app_distr, app_length, <- C, <- B. now destruct x'.
  - intros (t & -> & ->). apply fwd_here.
Qed.
Lemma re_search_some r s o : re_search r s = Some o -> exists a w b x', s = a ++ w ++ b /\ fwd (here a (w ++ b)) w x' /\
  mt r (here a (w ++ b)) [] x' (m_groups o) /\ m_start o = length a /\ m_end o = length a + length w.
Proof.
  intros H. apply re_search_ok in H as (x & x' & A & A' & M & S & E & L1 & L2).
  destruct (at_is_here _ _ A) as (a & b & -> & -> & P). destruct (mt_fwd _ _ _ _ _ M) as (w & F).
  pose proof F as F0. apply fwd_here_iff in F0 as (t & -> & ->). exists a, w, t, (here (a ++ w) t). repeat (split; auto).
  rewrite E. cbn. apply app_length.
Qed.
Lemma re_search_iff r s : productive r = true ->
  (exists o, re_search r s = Some o) <-> exists a b x' g', s = a ++ b /\ mt r (here a b) [] x' g'.
Proof.
  intros P. split.
  - intros (o & H). apply re_search_some in H as (a & w & b & x' & E & _ & M & _). exists a, (w ++ b), x', (m_groups o). auto.
  - intros (a & b & x' & g' & -> & M).
    destruct (search_complete (a ++ b) r P (a ++ b) 0 [] (here a b) x' g') as (o & O & _); eauto using at_init, at_here; cbn; lia.
Qed.
(** the leftmost match is found *)
Lemma re_search_first r s o : re_search r s = Some o -> productive r = true ->
  forall a b x' g', s = a ++ b -> length a < m_start o -> ~ mt r (here a b) [] x' g'.
Proof.
  intros H P a b x' g' -> L M.
  destruct (search_complete (a ++ b) r P (a ++ b) 0 [] (here a b) x' g') as (o' & O & Q); eauto using at_init, at_here; [cbn; lia|].
  unfold re_search in H. rewrite H in O. inversion O; subst. cbn in Q. lia.
Qed.
Lemma re_search_none r s : re_search r s = None -> productive r = true -> forall a b x' g', s = a ++ b -> ~ mt r (here a b) [] x' g'.
Proof.
  intros H P a b x' g' E M. assert (exists o, re_search r s = Some o) as (o & O) by (apply re_search_iff; eauto 8). congruence.
Qed.
(** every place where the pattern matches is covered by a match found by finditer *)
Definition covers (o : mobj) (p : nat) : Prop := m_start o <= p /\ (p < m_end o \/ p = m_start o).
Lemma iter_covers r s : forall su p pr k y,
  at_ s (mkst p pr su) -> k <= length su -> at_ s y -> p + k <= pos y -> run r false y <> None ->
  exists o, In o (iter_at r p pr su k) /\ covers o (pos y).
Proof.
  unfold covers. induction su as [|c t IH]; intros p pr k y Hx Hk Hy L M.
  - cbn in Hk. assert (k = 0) by lia. subst k.
    assert (pos y = p) by (apply at_len in Hx; apply at_pos_le in Hy; cbn in Hx; lia).
    assert (y = mkst p pr []) by (eapply at_unique; eauto). subst y. cbn.
    destruct (run r false (mkst p pr [])) as [o|] eqn:E.
    + exists o. apply run_sound with (s := s) in E as (z & ? & ? & S & ?); auto. cbn in S.
      destruct (m_end o =? p); cbn; split; auto; lia.
    + congruence.
  - destruct k as [|k].
    + cbn [iter_at]. set (x := mkst p pr (c :: t)) in *. pose proof (at_len _ _ Hx) as Ln. cbn in Ln.
      assert (Hn : forall j, j <= length t -> S p + j <= pos y -> exists o, In o (iter_at r (S p) (c :: pr) t j) /\ m_start o <= pos y /\ (pos y < m_end o \/ pos y = m_start o)).
      { intros. eapply IH; eauto. now apply at_cons. }
      destruct (run r false x) as [o|] eqn:E.
      * pose proof E as E0. apply run_sound with (s := s) in E0 as (z & ? & ? & S0 & E1 & ? & Q & _); auto. cbn [pos x] in S0.
        destruct (Nat.eqb_spec (m_end o) p) as [Ee|Ee].
        -- destruct (run r true x) as [o2|] eqn:E2.
           ++ apply run_sound with (s := s) in E2 as (y' & ? & ? & S2 & E3 & ? & ? & L2); auto. specialize (L2 eq_refl). cbn [pos x] in S2, L2.
              destruct (Nat.eq_dec (pos y) p) as [D|D]; [exists o; split; [now left|lia]|].
              destruct (Nat.lt_ge_cases (pos y) (m_end o2)) as [D2|D2]; [exists o2; split; [right; now left|lia]|].
              destruct (Hn (m_end o2 - p - 1)) as (q & I & Q2); [cbn [x pos] in *; lia|lia|]. exists q. split; [right; now right|auto].
           ++ destruct (Nat.eq_dec (pos y) p) as [D|D]; [exists o; split; [now left|lia]|].
              destruct (Hn 0) as (q & I & Q2); [lia|lia|]. exists q. split; [now right|auto].
        -- destruct (Nat.lt_ge_cases (pos y) (m_end o)) as [D2|D2]; [exists o; split; [now left|lia]|].
           destruct (Hn (m_end o - p - 1)) as (q & I & Q2); [cbn [x pos] in *; lia|cbn [x pos] in *; lia|]. exists q. split; [now right|auto].
      * destruct (Nat.eq_dec (pos y) p) as [D|D].
        -- exfalso. assert (y = x) by (eapply at_unique; eauto). subst y. congruence.
        -- apply Hn; lia.
    + cbn [iter_at]. cbn in Hk. eapply IH; eauto; [now apply at_cons|lia|lia].
Qed.
Lemma iter_complete r s : productive r = true -> forall su p pr k y x' g',
  at_ s (mkst p pr su) -> k <= length su -> at_ s y -> p + k <= pos y -> mt r y [] x' g' ->
  exists o, In o (iter_at r p pr su k) /\ covers o (pos y).
Proof. intros Hp su p pr k y x' g' Hx Hk Hy L M. apply (iter_covers r s); auto. eapply run_complete; eauto. Qed.
Lemma finditer_covers r s a b : s = a ++ b -> run r false (here a b) <> None -> exists o, In o (re_finditer r s) /\ covers o (length a).
Proof. intros -> M. apply (iter_covers r (a ++ b) (a ++ b) 0 [] 0 (here a b)); auto using at_init, at_here; cbn; lia. Qed.
Lemma finditer_complete r s a b x' g' : productive r = true -> s = a ++ b -> mt r (here a b) [] x' g' ->
  exists o, In o (re_finditer r s) /\ covers o (length a).
Proof.
  intros P -> M. apply (iter_complete r (a ++ b) P (a ++ b) 0 [] 0 (here a b) x' g'); auto using at_init, at_here; cbn; lia.
Qed.
Lemma finditer_in r s o : In o (re_finditer r s) -> exists a w b x', s = a ++ w ++ b /\ fwd (here a (w ++ b)) w x' /\
  mt r (here a (w ++ b)) [] x' (m_groups o) /\ m_start o = length a /\ m_end o = length a + length w.
Proof.
  intros H. pose proof (proj1 (finditer_ok r s)) as F. rewrite Forall_forall in F. apply F in H as (x & x' & A & A' & M & S & E & L1 & L2).
  destruct (at_is_here _ _ A) as (a & b & -> & -> & P). destruct (mt_fwd _ _ _ _ _ M) as (w & G).
  pose proof G as F0. apply fwd_here_iff in F0 as (t & -> & ->). exists a, w, t, (here (a ++ w) t). repeat (split; auto).
  rewrite E. cbn. apply app_length.
Qed.
(** ** one-character look-behind, literals, boundaries *)
Lemma mt_nb_cls s c x g x' g' : at_ s x -> mt (Look false true 1 (Cls c)) x g x' g' <->
  x' = x /\ g' = g /\ match pre x with [] => True | d :: _ => cls_mem c d = false end.
Proof.
  intros A. split.
  - intros H; inversion H as [| | | | | | | | | | | |w a x0 g0 Q| | | | |]; subst. split; auto. split; auto. destruct x' as [p [|d t] su]; cbn; auto.
    destruct A as [A _]. cbn in A. subst p. cbn in Q. specialize (Q _ eq_refl). cbn in Q. rewrite Nat.sub_0_r in Q. destruct (cls_mem c d); auto.
    unfold accept_at in Q. cbn in Q. rewrite Nat.eqb_refl in Q. discriminate.
  - intros (-> & -> & Q). constructor. intros y B. destruct x as [p [|d t] su]; cbn in B; [discriminate|]. inversion B; subst. cbn in *. now rewrite Q.
Qed.
Lemma mt_wordb_iff x g x' g' : mt Wordb x g x' g' <-> x' = x /\ g' = g /\ at_boundary x = true.
Proof. split; [intros H; inversion H; auto|]. intros (-> & -> & Q). now constructor. Qed.
