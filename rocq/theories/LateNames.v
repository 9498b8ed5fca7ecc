(** Which patterns cannot read a "<cds.UR" or "<cds.DO": the states of the automaton of LateTags after any text of the pattern. *)
From Coq Require Import List Arith NArith Bool String Lia.
From Verif Require Import PyStr ListFacts Regex RegexMeta RegexLang Numeration DocText Tag HitProofs TagCount LateTags.
Import ListNotations.
Local Open Scope nat_scope.
Local Notation length := List.length.

Section Reach.
Variables x y : N.
Definition lmem (q : late) (S : list late) : bool := existsb (late_eqb q) S.
Lemma lmem_in q S : lmem q S = true <-> In q S.
Proof. unfold lmem. rewrite existsb_exists. split; [intros (p & I & E); apply late_eqb_eq in E; now subst|intros I; exists q; split; auto; now apply late_eqb_eq]. Qed.
Definition tidy (S : list late) : list late := filter (fun q => lmem q S) lates.
Lemma tidy_in q S : In q (tidy S) <-> In q S.
Proof. unfold tidy. rewrite filter_In, lmem_in. split; [tauto|]. intros I. split; auto. apply lates_all. Qed.
Definition keys : list N := [10; 60; 99; 100; 115; 46]%N ++ [x].
Definition after (mem : N -> bool) (S : list late) : option (list late) :=
  if lmem L6 S && mem y then None
  else Some (tidy (L0 :: flat_map (fun q => map (lnext x q) (filter mem keys)) S)).
Fixpoint close (n : nat) (go : list late -> option (list late)) (S : list late) : option (list late) :=
  match go S with
  | None => None
  | Some T => if forallb (fun q => lmem q S) T then Some S else match n with O => None | Datatypes.S n => close n go (tidy (S ++ T)) end
  end.
Fixpoint reach (r : re) (S : list late) : option (list late) :=
  match r with
  | Cls k => after (cls_mem k) S
  | Any => after (fun c => negb (N.eqb c 10)) S
  | Cat a b => match reach a S with Some T => reach b T | None => None end
  | Alt a b => match reach a S, reach b S with Some T, Some U => Some (tidy (T ++ U)) | _, _ => None end
  | Rep _ O (Some 1) a => match reach a S with Some T => Some (tidy (S ++ T)) | None => None end
  | Rep _ O _ a => close 7 (reach a) S
  | Rep _ _ _ a => match reach a S with Some T => close 7 (reach a) T | None => None end
  | Grp _ a => reach a S
  | _ => Some S
  end.
Lemma lnext_other q c : ~ In c keys -> lnext x q c = L0.
Proof.
  unfold keys. cbn [app]. intros N. unfold lnext.
  repeat match goal with |- context [N.eqb c ?k] => destruct (N.eqb_spec c k) as [->|]; [exfalso; apply N; cbn; tauto|] end. destruct q; reflexivity.
Qed.
Lemma after_ok mem S T c q : after mem S = Some T -> mem c = true -> In q S -> lhit false y q c = 0 /\ In (lnext x q c) T.
Proof.
  unfold after. intros H M I. destruct (lmem L6 S && mem y) eqn:G; [discriminate|]. injection H as <-. split.
  - unfold lhit. cbn [andb]. rewrite orb_false_r. destruct (late_eqb q L6) eqn:E; cbn [andb]; auto. destruct (N.eqb_spec c y) as [->|]; auto.
    apply late_eqb_eq in E. subst q. apply lmem_in in I. rewrite I, M in G. discriminate.
  - apply (proj2 (tidy_in _ _)). destruct (in_dec N.eq_dec c keys) as [J|J]; [apply in_cons|rewrite (lnext_other q c J); apply in_eq].
    apply in_flat_map. exists q. split; auto. exact (in_map (lnext x q) _ _ (proj2 (filter_In _ _ _) (conj J M))).
Qed.
Lemma close_ok go n : forall S T, close n go S = Some T -> incl S T /\ exists U, go T = Some U /\ incl U T.
Proof.
  induction n as [|n IH]; intros S T; cbn [close]; destruct (go S) as [U|] eqn:G; try discriminate; destruct (forallb _ U) eqn:F; try discriminate.
  - intros [= <-]. split; [apply incl_refl|]. exists U. split; auto. rewrite forallb_forall in F. intros q I. apply lmem_in, F, I.
  - intros [= <-]. split; [apply incl_refl|]. exists U. split; auto. rewrite forallb_forall in F. intros q I. apply lmem_in, F, I.
  - intros H. apply IH in H as (A & B). split; auto. intros q I. apply A, tidy_in, in_or_app. now left.
Qed.
Lemma reach_ok r : forall st g st' g' w q S T, mt r st g st' g' -> fwd st w st' -> In q S -> reach r S = Some T -> lhits false x y q w = 0 /\ In (lends x q w) T.
Proof.
  assert (forall st w q S, fwd st w st -> In q S -> lhits false x y q w = 0 /\ In (lends x q w) S) as Nil.
  { intros st w q S F I. rewrite (fwd_fun _ _ _ _ F (fwd_refl st)). cbn. auto. }
  induction r as [| k | | a IHa b IHb | a IHa b IHb | gr mn mx a IHa | j a IHa | ah ng wd a IHa | | | | ]; intros st g st' g' w q S T M F I R; cbn [reach] in R;
    try (injection R as <-; inversion M; subst; now apply (Nil st')).
  - apply mt_cls_fwd in M as (d & F' & C & _). rewrite (fwd_fun _ _ _ _ F F'). cbn [lhits lends]. destruct (after_ok _ _ _ d q R C I) as (-> & B). auto.
  - inversion M; subst. match goal with X : step _ = Some (?d, _) |- _ => apply fwd_step in X; rewrite (fwd_fun _ _ _ _ F X); cbn [lhits lends]; destruct (after_ok _ _ _ d q R ltac:(apply negb_true_iff, N.eqb_neq; assumption) I) as (-> & B); auto end.
  - apply mt_cat_iff in M as (z & h & M1 & M2). destruct (reach a S) as [U|] eqn:Ra; [|discriminate]. destruct (mt_fwd _ _ _ _ _ M1) as (u & F1). destruct (mt_fwd _ _ _ _ _ M2) as (v & F2).
    rewrite (fwd_fun _ _ _ _ F (fwd_app _ _ _ _ _ F1 F2)). destruct (IHa _ _ _ _ _ _ _ _ M1 F1 I Ra) as (A & B). destruct (IHb _ _ _ _ _ _ _ _ M2 F2 B R) as (C & D). rewrite lhits_app, lends_app, A, C. auto.
  - destruct (reach a S) as [U|] eqn:Ra; [|discriminate]. destruct (reach b S) as [V|] eqn:Rb; [|discriminate]. injection R as <-.
    apply mt_alt_iff in M as [M|M]; [destruct (IHa _ _ _ _ _ _ _ _ M F I Ra)|destruct (IHb _ _ _ _ _ _ _ _ M F I Rb)]; split; auto; apply tidy_in, in_or_app; auto.
  - assert (forall T U, reach a T = Some U -> incl U T -> forall e st g st' g', mt e st g st' g' -> forall gr mn mx, e = Rep gr mn mx a -> forall w q, fwd st w st' -> In q T ->
      lhits false x y q w = 0 /\ In (lends x q w) T) as Clos.
    { clear - IHa Nil. intros T U Ra Clo e st g st' g' M. induction M; intros gr' mn' mx' E ww p F I; inversion E; subst; [eapply Nil; eauto|].
      destruct (mt_fwd _ _ _ _ _ M1) as (u & F1). destruct (mt_fwd _ _ _ _ _ M2) as (v & F2). rewrite (fwd_fun _ _ _ _ F (fwd_app _ _ _ _ _ F1 F2)).
      destruct (IHa _ _ _ _ _ _ _ _ M1 F1 I Ra) as (A & B). destruct (IHM2 _ _ _ eq_refl _ _ F2 (Clo _ B)) as (C & D). rewrite lhits_app, lends_app, A, C. auto. }
    destruct mn as [|mn].
    + destruct (match mx with Some 1 => true | _ => false end) eqn:M1.
      { destruct mx as [[|[|?]]|]; try discriminate. destruct (reach a S) as [V|] eqn:Rs; [|discriminate]. injection R as <-. inversion M; subst.
        - destruct (Nil _ _ q S F I) as (A & B). split; auto. apply tidy_in, in_or_app. now left.
        - match goal with H1 : mt a st g ?z ?h, H2 : mt (Rep _ _ _ _) ?z ?h st' g' |- _ => inversion H2; subst; [destruct (IHa _ _ _ _ _ _ _ _ H1 F I Rs) as (A & B)|cbn in *; congruence] end.
          split; auto. apply tidy_in, in_or_app. now right. }
      assert (close 7 (reach a) S = Some T) as R' by (destruct mx as [[|[|?]]|]; auto; discriminate). clear R M1. rename R' into R. apply close_ok in R as (Inc & U & Ra & Clo). eapply Clos; eauto.
    + destruct (reach a S) as [V|] eqn:Rs; [|discriminate]. apply close_ok in R as (Inc & U & Ra & Clo). inversion M; subst.
      match goal with M1 : mt a st g ?z _, M2 : mt (Rep _ _ _ _) ?z _ st' g' |- _ =>
        destruct (mt_fwd _ _ _ _ _ M1) as (u & F1); destruct (mt_fwd _ _ _ _ _ M2) as (v & F2); rewrite (fwd_fun _ _ _ _ F (fwd_app _ _ _ _ _ F1 F2));
        destruct (IHa _ _ _ _ _ _ _ _ M1 F1 I Rs) as (A & B); destruct (Clos T U Ra Clo _ _ _ _ _ M2 _ _ _ eq_refl _ _ F2 (Inc _ B)) as (C & D) end.
      rewrite lhits_app, lends_app, A, C. auto.
  - apply mt_grp_iff in M as (h & M & _). eauto.
Qed.
Definition g_late (i : nat) (r : re) : bool := forallb (fun e => negb (fst e =? i) || match reach (snd e) [L0] with Some _ => true | None => false end) (sub_grps r).
End Reach.
Definition name_late (x y : N) (p : rx) (n : string) : bool :=
  plain (rx_re p) && match assoc_str (py n) (rx_names p) with Some i => negb (i =? 0) && g_late x y i (rx_re p) | None => true end.
(** no text of the group of this name contains a part of a tag *)
Lemma name_late_get x y p s o n t : letters x y -> name_late x y p n = true -> obj_ok s (rx_re p) o -> gd_get p s o n = Some t -> lhits false x y L0 t = 0.
Proof.
  intros Le H O G. unfold name_late in H. apply andb_true_iff in H as [Pl H]. unfold gd_get in G. destruct (assoc_str (py n) (rx_names p)) as [i|]; [|discriminate].
  apply andb_true_iff in H as [Z H]. apply negb_true_iff, Nat.eqb_neq in Z. unfold g_text in G. destruct (g_span o i) as [(a, b)|] eqn:S; [|discriminate]. injection G as <-.
  destruct (obj_group s _ o i a b O Pl Z S) as (q & u & gu & v & gv & Iq & M & A & A' & -> & -> & _).
  unfold g_late in H. rewrite forallb_forall in H. specialize (H _ Iq). cbn [fst snd] in H. rewrite Nat.eqb_refl in H. cbn [negb orb] in H. destruct (reach x y q [L0]) as [T|] eqn:R; [|discriminate].
  destruct (mt_fwd _ _ _ _ _ M) as (w & F). destruct (reach_ok x y q _ _ _ _ _ _ _ _ M F (or_introl eq_refl : In L0 [L0]) R) as (E & _).
  change (slice (pos u) (pos v) s) with (between s u v). now rewrite (fwd_between s u w v A F).
Qed.
