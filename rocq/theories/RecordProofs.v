(** Proofs about the building of output references (Record.v). *)
From Coq Require Import List Arith NArith Bool Lia String.
From Verif Require Import PyStr ListFacts Elements Record.
Import ListNotations.
Local Open Scope string_scope.
Local Open Scope list_scope.
Local Open Scope nat_scope.

(** ** the result monad *)
Lemma bind_ok {A B} (r : res A) (f : A -> res B) b :
  bind r f = Ok b -> exists a, r = Ok a /\ f a = Ok b.
Proof. destruct r; cbn; [eauto|discriminate]. Qed.
Ltac inv_ok H :=
  let a := fresh "a" in let E := fresh "E" in
  apply bind_ok in H as (a & E & H).
Lemma mapM_ok {A B} (f : A -> res B) : forall l bs, mapM f l = Ok bs <-> Forall2 (fun a b => f a = Ok b) l bs.
Proof.
  induction l as [|a l IH]; intros bs; cbn; split; intros H.
  - inversion H; constructor.
  - inversion H; auto.
  - inv_ok H. inv_ok H. inversion H; subst. constructor; auto. now apply IH.
  - inversion H; subst. rewrite H2. cbn. apply IH in H4. now rewrite H4.
Qed.
Lemma mapM_app {A B} (f : A -> res B) : forall l1 l2,
  mapM f (l1 ++ l2) = (let* a := mapM f l1 in let* b := mapM f l2 in Ok (a ++ b)).
Proof.
  induction l1 as [|x l1 IH]; intros l2; cbn.
  - destruct (mapM f l2); auto.
  - destruct (f x); cbn; auto. rewrite IH. destruct (mapM f l1); cbn; auto. destruct (mapM f l2); auto.
Qed.

(** ** dictionaries of fields *)
Lemma fkey_eqb_spec a b : reflect (a = b) (fkey_eqb a b).
Proof.
  unfold fkey_eqb. destruct (Nat.eqb_spec (fkey_code a) (fkey_code b)) as [E|E]; constructor.
  - destruct a, b; cbn in E; congruence.
  - intros ->; auto.
Qed.
Lemma fget_fset k k' v r : fget k (fset k' v r) = if fkey_eqb k k' then Some v else fget k r.
Proof.
  induction r as [|[k2 v2] r IH]; cbn.
  - destruct (fkey_eqb k k'); auto.
  - destruct (fkey_eqb_spec k' k2); subst; cbn.
    + destruct (fkey_eqb k k2); auto.
    + destruct (fkey_eqb_spec k k2); subst.
      * destruct (fkey_eqb_spec k2 k'); subst; congruence.
      * apply IH.
Qed.
Lemma fset_in k v r e : In e (fset k v r) -> e = (k, v) \/ In e r.
Proof.
  induction r as [|[k2 v2] r IH]; cbn; [intuition|].
  destruct (fkey_eqb_spec k k2); subst; cbn; intuition.
Qed.
Lemma fset_keys k v r : forall x, In x (map fst (fset k v r)) <-> x = k \/ In x (map fst r).
Proof.
  intros x. induction r as [|[k2 v2] r IH]; cbn; [intuition|].
  destruct (fkey_eqb_spec k k2); subst; cbn; intuition.
Qed.
Lemma fset_nodup k v r : NoDup (map fst r) -> NoDup (map fst (fset k v r)).
Proof.
  induction r as [|[k2 v2] r IH]; cbn; intros H.
  - constructor; auto.
  - inversion H; subst. destruct (fkey_eqb_spec k k2); subst; cbn; constructor; auto.
    rewrite fset_keys. intros [->|?]; auto.
Qed.
Lemma fget_in k r v : fget k r = Some v -> In (k, v) r.
Proof.
  induction r as [|[k2 v2] r IH]; cbn; [discriminate|].
  destruct (fkey_eqb_spec k k2); subst; intros H; [inversion H; auto|auto].
Qed.
Lemma in_fget k r v : NoDup (map fst r) -> In (k, v) r -> fget k r = Some v.
Proof.
  induction r as [|[k2 v2] r IH]; cbn; intros H I; [easy|]. inversion H; subst.
  destruct I as [I|I].
  - inversion I; subst. destruct (fkey_eqb_spec k k); congruence.
  - destruct (fkey_eqb_spec k k2); subst; auto.
    exfalso. apply H2. now apply (in_map fst) in I.
Qed.
Lemma fget_add_subfield k k' v r :
  fget k (add_subfield r k' v) =
  if fkey_eqb k k' && nonempty v then Some (match fget k r with Some l => l | None => [] end ++ [v]) else fget k r.
Proof.
  unfold add_subfield. destruct (nonempty v).
  - rewrite fget_fset, andb_true_r. destruct (fkey_eqb_spec k k'); subst; auto.
  - now rewrite andb_false_r.
Qed.

(** ** Cleanliness of the fields *)
Definition starts_in (set : str) (s : str) := exists c t, s = c :: t /\ In c set.
Definition ends_in (set : str) (s : str) := exists c t, s = t ++ [c] /\ In c set.
Definition clean_field (k : fkey) (l : list str) : Prop :=
  l <> [] /\ Forall (fun v => v <> []) l
  /\ (k = Fmisc -> Forall (fun v => ~ starts_in (py "])} ,.") v /\ ~ ends_in (py "[({ ,.") v) l)
  /\ (k = Flinemarker -> exists v, l = [v] /\ ~ starts_in (py "[](){}. ") v /\ ~ ends_in (py "[](){}. ") v).
Definition clean_ref (r : ref) : Prop :=
  NoDup (map fst r) /\ forall k l, In (k, l) r -> k <> Fraw_ref -> clean_field k l.

Lemma in_set_false cs c : in_set cs c = false -> ~ In c cs.
Proof. unfold in_set. intros H I. apply mem_ch_in in I. congruence. Qed.
Lemma lstrip_starts cs s : ~ starts_in cs (lstrip_chars cs s).
Proof.
  intros (c & t & E & I). apply drop_while_hd in E. now apply in_set_false in E.
Qed.
Lemma rstrip_ends cs s : ~ ends_in cs (rstrip_chars cs s).
Proof.
  intros (c & t & E & I). apply rstrip_last in E. now apply in_set_false in E.
Qed.
Lemma rstrip_starts cs s x : ~ starts_in x s -> ~ starts_in x (rstrip_chars cs s).
Proof.
  intros H (c & t & E & I). apply rstrip_by_hd in E as (t' & E). apply H. exists c, t'. auto.
Qed.

Lemma add_subfield_clean r k v :
  k <> Fraw_ref -> k <> Flinemarker ->
  (k = Fmisc -> ~ starts_in (py "])} ,.") v /\ ~ ends_in (py "[({ ,.") v) ->
  clean_ref r -> clean_ref (add_subfield r k v).
Proof.
  intros K1 K2 Km [N C]. unfold add_subfield. destruct v as [|c v]; cbn [nonempty]; [split; auto|].
  split; [now apply fset_nodup|]. intros k' l I Hk. apply fset_in in I as [E|I]; [|now apply C].
  inversion E; subst; clear E.
  assert (forall l, fget k r = Some l -> clean_field k l) as Hg by (intros l Hl; apply C; auto; now apply fget_in).
  destruct (fget k r) as [l|] eqn:G.
  - destruct (Hg _ eq_refl) as (A1 & A2 & A3 & _). repeat split.
    + destruct l; discriminate.
    + apply Forall_app; split; auto. constructor; [discriminate|auto].
    + intros M. apply Forall_app; split; auto.
    + intros; congruence.
  - repeat split; cbn; try discriminate.
    + constructor; [discriminate|auto].
    + intros M. constructor; auto.
    + intros; congruence.
Qed.
Lemma add_subfield_opt_clean r k v :
  k <> Fraw_ref -> k <> Flinemarker -> k <> Fmisc -> clean_ref r -> clean_ref (add_subfield_opt r k v).
Proof.
  intros. destruct v as [[]|]; cbn; auto. apply add_subfield_clean; auto; intros; congruence.
Qed.
Lemma add_element_clean f r e r' : add_element f r e = Ok r' -> clean_ref r -> clean_ref r'.
Proof.
  unfold add_element. intros H C.
  set (r1 := if nonempty _ then _ else r) in H.
  assert (clean_ref r1) as C1.
  { unfold r1. destruct (nonempty _); auto. apply add_subfield_clean; auto; try discriminate.
    intros _. split; [apply rstrip_starts, lstrip_starts|apply rstrip_ends]. }
  clearbody r1. clear C r.
  destruct (e_type e); unfold add_journal_subfield in H; repeat (inv_ok H);
    repeat match goal with H : (if ?b then _ else _) = Ok _ |- _ => destruct b end;
    try (destruct (get Krecid e); [inv_ok H|discriminate]);
    inversion H; subst; auto;
    repeat (apply add_subfield_clean || apply add_subfield_opt_clean); auto; try discriminate.
Qed.
Lemma add_elements_clean f : forall l r r', add_elements f r l = Ok r' -> clean_ref r -> clean_ref r'.
Proof.
  induction l as [|e l IH]; cbn; intros r r' H C; [inversion H; subst; auto|].
  inv_ok H. eapply IH; eauto. eapply add_element_clean; eauto.
Qed.
Lemma create_reference_field_clean m : clean_ref (create_reference_field m).
Proof.
  assert (clean_ref []) as C0 by (split; [constructor|intros k l []]).
  unfold create_reference_field. destruct (nonempty _); auto.
  unfold add_subfield. destruct (format_marker m) as [|c t] eqn:E; auto. cbn. split.
  - constructor; auto. constructor.
  - intros k l [I|[]] _. inversion I; subst. repeat split; try discriminate.
    + constructor; [discriminate|auto].
    + intros _. exists (c :: t). rewrite <- E. unfold format_marker. repeat split.
      * apply rstrip_starts, lstrip_starts.
      * apply rstrip_ends.
Qed.
Lemma build_reference_fields_clean l m raw f rs :
  build_reference_fields l m raw f = Ok rs -> Forall clean_ref rs.
Proof.
  unfold build_reference_fields. intros H. inv_ok H. inversion H; subst; clear H. constructor; auto.
  eapply add_elements_clean; eauto.
  destruct (create_reference_field_clean m) as [N C]. split; [now apply fset_nodup|].
  intros k v I Hk. apply fset_in in I as [I|I]; auto. congruence.
Qed.

(** ** raw_ref *)
Lemma fget_raw_add r k v : k <> Fraw_ref -> fget Fraw_ref (add_subfield r k v) = fget Fraw_ref r.
Proof.
  intros H. rewrite fget_add_subfield. destruct (fkey_eqb_spec Fraw_ref k); subst; [congruence|auto].
Qed.
Lemma fget_raw_add_opt r k v : k <> Fraw_ref -> fget Fraw_ref (add_subfield_opt r k v) = fget Fraw_ref r.
Proof. intros H. destruct v as [[]|]; cbn; auto. now apply fget_raw_add. Qed.
Lemma add_element_raw f r e r' : add_element f r e = Ok r' -> fget Fraw_ref r' = fget Fraw_ref r.
Proof.
  unfold add_element. intros H.
  set (r1 := if nonempty _ then _ else r) in H.
  assert (fget Fraw_ref r1 = fget Fraw_ref r) as C1.
  { unfold r1. destruct (nonempty _); auto. apply fget_raw_add; discriminate. }
  rewrite <- C1. clearbody r1. clear C1 r.
  destruct (e_type e); unfold add_journal_subfield in H; repeat (inv_ok H);
    repeat match goal with H : (if ?b then _ else _) = Ok _ |- _ => destruct b end;
    try (destruct (get Krecid e); [inv_ok H|discriminate]);
    inversion H; subst; auto;
    repeat first [rewrite fget_raw_add by discriminate | rewrite fget_raw_add_opt by discriminate]; auto.
Qed.
Lemma add_elements_raw f : forall l r r', add_elements f r l = Ok r' -> fget Fraw_ref r' = fget Fraw_ref r.
Proof.
  induction l as [|e l IH]; cbn; intros r r' H; [inversion H; subst; auto|].
  inv_ok H. apply IH in H. apply add_element_raw in E. congruence.
Qed.
Lemma build_reference_fields_raw l m raw f rs :
  build_reference_fields l m raw f = Ok rs -> exists r, rs = [r] /\ fget Fraw_ref r = Some [raw].
Proof.
  unfold build_reference_fields. intros H. inv_ok H. inversion H; subst; clear H.
  exists a. split; auto. apply add_elements_raw in E. now rewrite E, fget_fset.
Qed.

(** ** lines and citations *)
Lemma build_line_spec f c rs : build_line f c = Ok rs ->
  List.length rs = List.length (p_elements c) /\ Forall clean_ref rs /\ Forall (fun r => fget Fraw_ref r = Some [p_raw c]) rs.
Proof.
  unfold build_line. intros H. inv_ok H. inversion H; subst; clear H. apply mapM_ok in E.
  induction E as [|els rs l a H F IH]; cbn; auto.
  destruct IH as (I1 & I2 & I3).
  pose proof (build_reference_fields_clean _ _ _ _ _ H) as Hc.
  destruct (build_reference_fields_raw _ _ _ _ _ H) as (r & -> & Hr). cbn in *.
  inversion Hc; subst. repeat split; auto.
Qed.
Lemma build_references_spec f cs rs : build_references cs f = Ok rs ->
  exists blocks, rs = List.concat blocks
  /\ Forall2 (fun c b => build_line f c = Ok b) cs blocks.
Proof.
  unfold build_references. intros H. inv_ok H. inversion H; subst. exists a. split; auto. now apply mapM_ok.
Qed.
