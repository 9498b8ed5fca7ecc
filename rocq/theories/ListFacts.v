(** Facts about lists and strings used in several proofs. *)
From Coq Require Import List Arith NArith Bool Lia.
From Verif Require Import PyStr.
Import ListNotations.
Open Scope nat_scope.

Lemma skipn_skipn {A} x : forall y (l : list A), skipn x (skipn y l) = skipn (x + y) l.
Proof.
  intros y; revert x; induction y as [|y IH]; intros x l.
  - now rewrite Nat.add_0_r.
  - destruct l as [|a l]; [now rewrite !skipn_nil|].
    rewrite Nat.add_succ_r. cbn [skipn]. apply IH.
Qed.

Lemma eqs_refl s : eqs s s = true.
Proof. induction s; cbn; auto. now rewrite N.eqb_refl. Qed.
Lemma eqs_eq a : forall b, eqs a b = true <-> a = b.
Proof.
  induction a as [|x a IH]; intros [|y b]; cbn; split; intros H; try discriminate; auto.
  - apply andb_true_iff in H as [H1 H2]. apply N.eqb_eq in H1. apply IH in H2. now subst.
  - inversion H; subst. now rewrite N.eqb_refl, (proj2 (IH b) eq_refl).
Qed.
Lemma eqs_neq a b : eqs a b = false <-> a <> b.
Proof.
  rewrite <- eqs_eq. destruct (eqs a b); split; intros; try discriminate; try congruence; auto.
Qed.
Lemma eqs_spec a b : reflect (a = b) (eqs a b).
Proof. destruct (eqs a b) eqn:E; constructor; [now apply eqs_eq|now apply eqs_neq]. Qed.
Lemma eqs_sym a b : eqs a b = eqs b a.
Proof. destruct (eqs_spec a b), (eqs_spec b a); congruence. Qed.

Lemma str_eq_dec (a b : str) : {a = b} + {a <> b}.
Proof. destruct (eqs_spec a b); auto. Qed.

Lemma mem_ch_in c s : mem_ch c s = true <-> In c s.
Proof.
  unfold mem_ch. rewrite existsb_exists. split.
  - intros (x & H & E). apply N.eqb_eq in E. now subst.
  - intros H. exists c. now rewrite N.eqb_refl.
Qed.
Lemma mem_str_in x l : mem_str x l = true <-> In x l.
Proof.
  unfold mem_str. rewrite existsb_exists. split.
  - intros (y & H & E). apply eqs_eq in E. now subst.
  - intros H. exists x. now rewrite eqs_refl.
Qed.

(** ** stripping *)
Lemma drop_while_split {A} f (s : list A) : exists p, s = p ++ drop_while f s /\ forallb f p = true.
Proof.
  induction s as [|c t (p & E & F)]; [exists []; auto|]. cbn. destruct (f c) eqn:Ef.
  - exists (c :: p). cbn. rewrite Ef, F, <- E. auto.
  - exists []. auto.
Qed.
Lemma drop_while_hd {A} f (s : list A) c t : drop_while f s = c :: t -> f c = false.
Proof.
  induction s as [|d s IH]; cbn; [discriminate|]. destruct (f d) eqn:E; auto.
  intros H; inversion H; subst; auto.
Qed.
Lemma drop_while_nil {A} f (s : list A) : drop_while f s = [] <-> forallb f s = true.
Proof.
  induction s as [|c t IH]; cbn; [tauto|]. destruct (f c) eqn:E; cbn; [auto|].
  split; discriminate.
Qed.
Lemma lstrip_by_split f s : exists p, s = p ++ lstrip_by f s /\ forallb f p = true.
Proof. apply drop_while_split. Qed.
Lemma rstrip_by_split f s : exists q, s = rstrip_by f s ++ q /\ forallb f q = true.
Proof.
  destruct (drop_while_split f (rev s)) as (p & E & F). exists (rev p). unfold rstrip_by.
  split.
  - rewrite <- rev_app_distr, <- E. now rewrite rev_involutive.
  - rewrite forallb_forall in *. intros x Hx. apply F. now apply in_rev.
Qed.
Lemma strip_by_split f s : exists p q, s = p ++ strip_by f s ++ q /\ forallb f p = true /\ forallb f q = true.
Proof.
  destruct (lstrip_by_split f s) as (p & E & F).
  destruct (rstrip_by_split f (lstrip_by f s)) as (q & E2 & F2).
  exists p, q. unfold strip_by. repeat split; auto. congruence.
Qed.
Lemma rstrip_by_nil f s : rstrip_by f s = [] <-> forallb f s = true.
Proof.
  unfold rstrip_by. split; intros H.
  - assert (drop_while f (rev s) = []) as H0 by (destruct (drop_while f (rev s)); auto; cbn in H; now apply app_eq_nil in H as [_ H]).
    apply drop_while_nil in H0. rewrite forallb_forall in *. intros; apply H0; now apply -> in_rev.
  - replace (drop_while f (rev s)) with (@nil N); auto. symmetry. apply drop_while_nil.
    rewrite forallb_forall in *. intros; apply H; now apply in_rev.
Qed.
Lemma strip_by_nil f s : strip_by f s = [] <-> forallb f s = true.
Proof.
  unfold strip_by. rewrite rstrip_by_nil.
  destruct (lstrip_by_split f s) as (p & E & F). rewrite E at 2. rewrite forallb_app, F. tauto.
Qed.
Lemma lstrip_hd f s c t : lstrip_by f s = c :: t -> f c = false.
Proof. apply drop_while_hd. Qed.
Lemma rstrip_last f s c t : rstrip_by f s = t ++ [c] -> f c = false.
Proof.
  unfold rstrip_by. intros H. apply (f_equal (@rev N)) in H. rewrite rev_involutive, rev_app_distr in H.
  now apply drop_while_hd in H.
Qed.
Lemma rstrip_by_hd f s c t : rstrip_by f s = c :: t -> exists t', s = c :: t'.
Proof.
  intros H. destruct (rstrip_by_split f s) as (q & E & _). rewrite H in E. cbn in E. eauto.
Qed.

(** ** prefixes, find, split1 *)
Lemma prefixb_app p : forall s, prefixb p s = true <-> exists t, s = p ++ t.
Proof.
  induction p as [|x p IH]; intros s; cbn.
  - split; eauto.
  - destruct s as [|y s]; [split; [discriminate|intros (t & E); discriminate]|].
    rewrite andb_true_iff, N.eqb_eq, IH. split.
    + intros [-> (t & ->)]. eauto.
    + intros (t & E). inversion E; subst. eauto.
Qed.
Lemma find_sub_some p : forall s i, find_sub p s = Some i ->
  i + length p <= length s /\ firstn (length p) (skipn i s) = p.
Proof.
  induction s as [|c s IH]; intros i H; cbn in H.
  - destruct (prefixb p []) eqn:E; inversion H; subst. apply prefixb_app in E as (t & E).
    destruct p; cbn in *; [auto|discriminate].
  - destruct (prefixb p (c :: s)) eqn:E.
    + inversion H; subst. apply prefixb_app in E as (t & E). rewrite E, app_length. cbn. split; [lia|].
      rewrite firstn_app, firstn_all, Nat.sub_diag. cbn. now rewrite app_nil_r.
    + destruct (find_sub p s) as [j|] eqn:Ej; inversion H; subst. destruct (IH j eq_refl). cbn. split; auto; lia.
Qed.
Lemma find_sub_none p : forall s, find_sub p s = None -> forall u v, s <> u ++ p ++ v.
Proof.
  induction s as [|c s IH]; intros H u v E; cbn in H.
  - destruct (prefixb p []) eqn:Ep; try discriminate. symmetry in E. apply app_eq_nil in E as [_ E].
    apply app_eq_nil in E as [-> _]. discriminate.
  - destruct (prefixb p (c :: s)) eqn:Ep; try discriminate.
    destruct (find_sub p s) eqn:Ej; try discriminate.
    destruct u as [|d u].
    + cbn in E. assert (prefixb p (c :: s) = true) by (apply prefixb_app; eauto). congruence.
    + inversion E; subst. eapply IH; eauto.
Qed.
Lemma split1_some c : forall s a b, split1 c s = Some (a, b) -> s = a ++ c :: b /\ ~ In c a.
Proof.
  induction s as [|x s IH]; intros a b H; cbn in H; [discriminate|].
  destruct (N.eqb_spec x c).
  - inversion H; subst. auto.
  - destruct (split1 c s) as [[a' b']|] eqn:E; inversion H; subst.
    destruct (IH _ _ eq_refl) as [-> N]. split; auto. cbn. intros [?|?]; auto.
Qed.
Lemma split1_none c : forall s, split1 c s = None <-> ~ In c s.
Proof.
  induction s as [|x s IH]; cbn; [tauto|]. destruct (N.eqb_spec x c); [split; [discriminate|tauto]|].
  destruct (split1 c s) as [[a b]|]; split; intros H; try discriminate; try tauto.
  - exfalso. assert (Some (a, b) = None) by tauto. discriminate.
Qed.
Lemma split1_in c s : In c s -> exists a b, split1 c s = Some (a, b).
Proof.
  intros H. destruct (split1 c s) as [[a b]|] eqn:E; eauto. apply split1_none in E. tauto.
Qed.
