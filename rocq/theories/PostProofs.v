(** Proofs about the clean-up of the citations of a line (Post.v). *)
From Coq Require Import List Arith NArith Bool Lia String Permutation.
From Verif Require Import PyStr ListFacts Elements Regex Record RecordProofs Numeration Transform Split SplitProofs Post.
Import ListNotations.
Local Open Scope list_scope.
Local Open Scope nat_scope.
Notation length := List.length.
Local Arguments key_eqb : simpl never.
Local Arguments Nat.ltb : simpl never.
Local Arguments ety_eqb : simpl never.
Local Arguments el_eqb : simpl never.

(** ** Equality of elements *)
Lemma key_eqb_spec a b : reflect (a = b) (key_eqb a b).
Proof.
  unfold key_eqb. destruct (Nat.eqb_spec (key_code a) (key_code b)) as [E|E]; constructor.
  - destruct a, b; cbn in E; congruence.
  - intros ->; auto.
Qed.
Lemma list_eqb_spec {A} (f : A -> A -> bool) : (forall x y, reflect (x = y) (f x y)) ->
  forall a b, reflect (a = b) (list_eqb f a b).
Proof.
  intros H. induction a as [|x a IH]; intros [|y b]; cbn; try (constructor; congruence).
  destruct (H x y); cbn; [|constructor; congruence]. destruct (IH b); constructor; congruence.
Qed.
Lemma ibid_eqb_spec a b : reflect (a = b) (ibid_eqb a b).
Proof.
  destruct a as [[[a1 a2] a3] a4], b as [[[b1 b2] b3] b4]. cbn.
  destruct (eqs_spec a1 b1), (eqs_spec a2 b2), (eqs_spec a3 b3), (eqs_spec a4 b4); cbn; constructor; congruence.
Qed.
Lemma val_eqb_spec a b : reflect (a = b) (val_eqb a b).
Proof.
  destruct a, b; cbn; try (constructor; congruence).
  - destruct (eqs_spec s s0); constructor; congruence.
  - destruct b0, b; cbn; constructor; congruence.
  - destruct (list_eqb_spec _ ibid_eqb_spec l l0); constructor; congruence.
  - destruct truthy, truthy0; cbn; try (constructor; congruence);
      destruct (eqs_spec text text0); constructor; congruence.
Qed.
Lemma entry_eqb_spec a b : reflect (a = b) (entry_eqb a b).
Proof.
  destruct a as [k v], b as [k' v']. unfold entry_eqb. cbn.
  destruct (key_eqb_spec k k'), (val_eqb_spec v v'); cbn; constructor; congruence.
Qed.
Lemma el_eqb_spec a b : reflect (a = b) (el_eqb a b).
Proof.
  destruct a as [t m d], b as [t' m' d']. unfold el_eqb. cbn.
  destruct (ety_eqb_spec t t'), (eqs_spec m m'), (list_eqb_spec _ entry_eqb_spec d d'); cbn; constructor; congruence.
Qed.

(** ** Dictionaries of an element *)
Lemma dget_dset k k' v d : dget k (dset k' v d) = if key_eqb k k' then Some v else dget k d.
Proof.
  induction d as [|[k2 v2] d IH]; cbn.
  - destruct (key_eqb k k'); auto.
  - destruct (key_eqb_spec k' k2); subst; cbn.
    + destruct (key_eqb k k2); auto.
    + destruct (key_code k' <? key_code k2); cbn.
      * destruct (key_eqb k k'); auto.
      * destruct (key_eqb_spec k k2); subst.
        -- destruct (key_eqb_spec k2 k'); subst; congruence.
        -- apply IH.
Qed.
Lemma get_set k k' v e : get k (set k' v e) = if key_eqb k k' then Some v else get k e.
Proof. apply dget_dset. Qed.
Lemma get_set_same k v e : get k (set k v e) = Some v.
Proof. rewrite get_set. destruct (key_eqb_spec k k); congruence. Qed.
Lemma get_set_misc k m e : get k (set_misc m e) = get k e. Proof. reflexivity. Qed.
Lemma get_set_type k t e : get k (set_type t e) = get k e. Proof. reflexivity. Qed.

(** ** Extension of the heap *)
(** An object may change, but not its type; new objects may appear. *)
Definition ext (h h' : heap) : Prop :=
  length h <= length h' /\ forall a, a < length h -> e_type (deref h' a) = e_type (deref h a).
Lemma ext_refl h : ext h h. Proof. split; auto. Qed.
Lemma ext_trans h1 h2 h3 : ext h1 h2 -> ext h2 h3 -> ext h1 h3.
Proof. intros [L1 E1] [L2 E2]. split; [lia|]. intros a H. rewrite E2 by lia. auto. Qed.
Lemma ext_alloc h e : ext h (h ++ [e]).
Proof. split; [rewrite app_length; cbn; lia|]. intros a H. now rewrite deref_alloc_old. Qed.
Lemma ext_store h a f : (forall e, e_type (f e) = e_type e) -> ext h (store h a f).
Proof.
  intros F. split; [now rewrite store_length|]. intros b Hb. destruct (Nat.eq_dec a b) as [->|N].
  - rewrite deref_store_same by auto. apply F.
  - now rewrite deref_store_other.
Qed.
Definition tys (h : heap) (c : citation) : list ety := map (fun a => e_type (deref h a)) c.
Definition closed (h : heap) (c : citation) : Prop := Forall (fun a => a < length h) c.
Lemma closed_ext h h' c : ext h h' -> closed h c -> closed h' c.
Proof. intros [L _] C. eapply Forall_impl; [|exact C]. cbn. lia. Qed.
Lemma tys_ext h h' c : ext h h' -> closed h c -> tys h' c = tys h c.
Proof.
  intros [_ E] C. unfold tys. apply map_ext_in. intros a Ha. apply E.
  unfold closed in C. rewrite Forall_forall in C. auto.
Qed.
Lemma tys_app h a b : tys h (a ++ b) = tys h a ++ tys h b. Proof. apply map_app. Qed.
Lemma closed_app h a b : closed h (a ++ b) <-> closed h a /\ closed h b. Proof. apply Forall_app. Qed.
Lemma closed_new h e : closed (h ++ [e]) [length h].
Proof. constructor; auto. rewrite app_length. cbn. lia. Qed.

(** A loop over the citations whose body only extends the heap *)
Section Each.
Context (f : heap -> citation -> res (heap * citation)) (P : list ety -> list ety -> Prop).
Context (body : forall h c h' c', closed h c -> f h c = Ok (h', c') ->
                ext h h' /\ closed h' c' /\ P (tys h c) (tys h' c')).
Lemma each_spec : forall cs h h' cs', Forall (closed h) cs -> each f h cs = Ok (h', cs') ->
  ext h h' /\ Forall (closed h') cs' /\ Forall2 (fun c c' => P (tys h c) (tys h' c')) cs cs'.
Proof.
  induction cs as [|c cs IH]; cbn; intros h h' cs' C H.
  - inversion H; subst. repeat split; auto.
  - inv_ok H. destruct a as [h1 c1]. cbn in H. inv_ok H. destruct a as [h2 t2]. cbn in H. inversion H; subst; clear H.
    inversion C; subst. destruct (body _ _ _ _ H1 E) as (B1 & B2 & B3).
    assert (Forall (closed h1) cs) as C1 by (eapply Forall_impl; [|eassumption]; intros; eapply closed_ext; eauto).
    destruct (IH _ _ _ C1 E0) as (I1 & I2 & I3). split; [eapply ext_trans; eauto|split].
    + constructor; auto. eapply closed_ext; eauto.
    + constructor.
      * rewrite (tys_ext h1 h') by auto. auto.
      * clear - I3 H2 B1. induction I3; constructor; inversion H2; subst; auto.
        rewrite <- (tys_ext h h1); auto.
Qed.
End Each.

(** ** The phases: what they do to the types of the elements *)

Lemma drop_year_type y e : e_type (drop_year y e) = e_type e.
Proof. unfold drop_year. destruct (contains y (e_misc e)); auto. Qed.
Lemma fold_store_ext f : (forall e, e_type (f e) = e_type e) ->
  forall c h, ext h (fold_left (fun h a => store h a f) c h).
Proof.
  intros F. induction c as [|a c IH]; cbn; intros h; [apply ext_refl|].
  eapply ext_trans; [apply (ext_store h a f F)|apply IH].
Qed.
Definition may_add (t : ety) (l l' : list ety) : Prop := l' = l \/ l' = l ++ [t].
Lemma add_year_one_spec h c h' c' : closed h c -> add_year_one h c = Ok (h', c') ->
  ext h h' /\ closed h' c' /\ may_add YEAR (tys h c) (tys h' c').
Proof.
  intros C H. unfold add_year_one in H. inv_ok H. clear E.
  destruct a as [[|y0 y]|]; cbn in H; inversion H; subst; clear H;
    try (split; [apply ext_refl|split; [auto|left; auto]]).
  set (h1 := h ++ [year_el (y0 :: y)]).
  assert (ext h1 (store (fold_left (fun h a => store h a (drop_year (y0 :: y))) c h1) (length h) (drop_year (y0 :: y)))) as X.
  { eapply ext_trans; [apply fold_store_ext|apply ext_store]; intros; apply drop_year_type. }
  rewrite fold_left_app. cbn [fold_left].
  assert (closed h1 (c ++ [length h])) as C1.
  { apply closed_app. split; [eapply closed_ext; [apply ext_alloc|auto]|apply closed_new]. }
  split; [eapply ext_trans; [apply ext_alloc|exact X]|]. split; [eapply closed_ext; eauto|].
  right. rewrite (tys_ext h1) by auto. rewrite tys_app. f_equal.
  - apply tys_ext; auto. apply ext_alloc.
  - cbn. unfold h1. now rewrite deref_alloc_new.
Qed.

Lemma implied_loop_spec j : forall todo h c h' c', closed h c -> implied_loop j h c todo = Ok (h', c') ->
  ext h h' /\ closed h' c' /\ exists n, tys h' c' = tys h c ++ repeat JOURNAL n.
Proof.
  induction todo as [|a todo IH]; cbn [implied_loop]; intros h c h' c' C H.
  - inversion H; subst. split; [apply ext_refl|split; auto]. exists 0. now rewrite app_nil_r.
  - destruct (is_type MISC (deref h a)); [|now apply IH]. inv_ok H.
    destruct a0 as [i|]; [|now apply IH]. inv_ok H. inv_ok H.
    destruct (get Ktitle (deref h j)); [|discriminate].
    destruct (truthy_str (n_page i)); [|discriminate]. cbn [alloc] in H.
    set (h1 := h ++ [_]) in H. set (h2 := store h1 a _) in H.
    assert (ext h1 h2) as X by (apply ext_store; auto).
    assert (closed h1 (c ++ [length h])) as C1.
    { apply closed_app. split; [eapply closed_ext; [apply ext_alloc|auto]|apply closed_new]. }
    apply IH in H as (I1 & I2 & n & I3); [|eapply closed_ext; eauto].
    split; [eapply ext_trans; [apply ext_alloc|eapply ext_trans; eauto]|]. split; auto.
    exists (S n). rewrite I3, (tys_ext h1 h2) by auto. rewrite tys_app, <- app_assoc. f_equal.
    + apply tys_ext; auto. apply ext_alloc.
    + cbn. unfold h1. now rewrite deref_alloc_new.
Qed.
Lemma implied_ibids_spec : forall cs j h h' cs', Forall (closed h) cs -> implied_ibids j h cs = Ok (h', cs') ->
  ext h h' /\ Forall (closed h') cs' /\ Forall2 (fun c c' => exists n, tys h' c' = tys h c ++ repeat JOURNAL n) cs cs'.
Proof.
  induction cs as [|c cs IH]; cbn; intros j h h' cs' C H.
  - inversion H; subst. repeat split; auto.
  - inv_ok H. destruct a as [h1 c1]. cbn in H. inv_ok H. destruct a as [h2 t2]. cbn in H. inversion H; subst; clear H.
    inversion C; subst.
    assert (ext h h1 /\ closed h1 c1 /\ exists n, tys h1 c1 = tys h c ++ repeat JOURNAL n) as (B1 & B2 & B3).
    { destruct j as [ja|]; [destruct (existsb _ c)|].
      - inversion E; subst. split; [apply ext_refl|split; auto]. exists 0. now rewrite app_nil_r.
      - now apply implied_loop_spec in E.
      - inversion E; subst. split; [apply ext_refl|split; auto]. exists 0. now rewrite app_nil_r. }
    assert (Forall (closed h1) cs) as C1 by (eapply Forall_impl; [|eassumption]; intros; eapply closed_ext; eauto).
    destruct (IH _ _ _ _ C1 E0) as (I1 & I2 & I3). split; [eapply ext_trans; eauto|split].
    + constructor; auto. eapply closed_ext; eauto.
    + constructor.
      * rewrite (tys_ext h1 h') by auto. auto.
      * clear - I3 H2 B1. induction I3; constructor; inversion H2; subst; auto.
        rewrite <- (tys_ext h h1); auto.
Qed.

Lemma search_elements_spec books year : forall todo h c h' c', closed h c ->
  search_elements books year h c todo = Ok (h', c') ->
  ext h h' /\ closed h' c' /\ may_add BOOK (tys h c) (tys h' c').
Proof.
  induction todo as [|a todo IH]; cbn [search_elements]; intros h c h' c' C H.
  - inversion H; subst. split; [apply ext_refl|split; auto]. now left.
  - inv_ok H. destruct a0 as [[line m']|]; [|now apply IH]. cbn [alloc] in H. inversion H; subst; clear H.
    assert (ext (h ++ [book_el line]) (store (h ++ [book_el line]) a (set_misc m'))) as X by (apply ext_store; auto).
    assert (closed (h ++ [book_el line]) (c ++ [length h])) as C1.
    { apply closed_app. split; [eapply closed_ext; [apply ext_alloc|auto]|apply closed_new]. }
    split; [eapply ext_trans; [apply ext_alloc|exact X]|]. split; [eapply closed_ext; eauto|].
    right. rewrite (tys_ext (h ++ [book_el line])) by auto. rewrite tys_app. f_equal.
    + apply tys_ext; auto. apply ext_alloc.
    + cbn. now rewrite deref_alloc_new.
Qed.

Lemma add_recid_one_spec h c h' c' : closed h c -> add_recid_one h c = Ok (h', c') ->
  ext h h' /\ closed h' c' /\ may_add RECID (tys h c) (tys h' c').
Proof.
  intros C H. unfold add_recid_one in H.
  assert (ext h h /\ closed h c /\ may_add RECID (tys h c) (tys h c)) as Id by (split; [apply ext_refl|split; [auto|now left]]).
  destruct (find _ c) as [a|]; [|inversion H; subst; auto].
  destruct (get Krecid (deref h a)) as [v|]; [|inversion H; subst; auto]. cbn [alloc] in H. inversion H; subst.
  assert (closed (h ++ [recid_el v]) (c ++ [length h])) as C1.
  { apply closed_app. split; [eapply closed_ext; [apply ext_alloc|auto]|apply closed_new]. }
  split; [apply ext_alloc|split; auto]. right. rewrite tys_app. f_equal.
  - apply tys_ext; auto. apply ext_alloc.
  - cbn. now rewrite deref_alloc_new.
Qed.

Lemma associate_one_type cb n e e' : associate_one cb n e = Ok e' -> e_type e' = e_type e.
Proof.
  unfold associate_one. destruct (cb n e) as [v|[]]; intros H; inversion H; subst; auto.
Qed.
Lemma store_const_ext h a e : e_type e = e_type (deref h a) -> ext h (store h a (fun _ => e)).
Proof.
  intros T. split; [now rewrite store_length|]. intros b Hb. destruct (Nat.eq_dec a b) as [->|N].
  - now rewrite deref_store_same by auto.
  - now rewrite deref_store_other.
Qed.
Lemma associate_heap_ext cb : forall c n h h' n', associate_heap cb n h c = Ok (h', n') -> ext h h'.
Proof.
  induction c as [|a c IH]; cbn; intros n h h' n' H; [inversion H; subst; apply ext_refl|].
  inv_ok H. apply associate_one_type in E. apply IH in H. eapply ext_trans; [|exact H].
  now apply store_const_ext.
Qed.
Lemma associate_citations_ext cb : forall cs n h h' n', associate_citations cb n h cs = Ok (h', n') -> ext h h'.
Proof.
  induction cs as [|c cs IH]; cbn; intros n h h' n' H; [inversion H; subst; apply ext_refl|].
  inv_ok H. destruct a as [h1 n1]. cbn in H. apply associate_heap_ext in E. apply IH in H. eapply ext_trans; eauto.
Qed.

(** *** Duplicated authors *)
Definition count_ty (t : ety) (l : list ety) : nat := count_occ (fun a b => Bool.reflect_dec _ _ (ety_eqb_spec a b)) l t.
Lemma count_ty_hd t x l : count_ty t (x :: l) = (if ety_eqb x t then 1 else 0) + count_ty t l.
Proof.
  unfold count_ty. cbn. destruct (Bool.reflect_dec _ _ _), (ety_eqb_spec x t); auto; congruence.
Qed.
Local Arguments count_ty : simpl never.
Definition demoted (t t' : ety) : Prop := t' = t \/ (t = AUTH /\ t' = MISC).
Definition ext_auth (h h' : heap) : Prop :=
  length h = length h' /\ forall a, demoted (e_type (deref h a)) (e_type (deref h' a)).
Lemma ext_auth_refl h : ext_auth h h. Proof. split; auto. intros; now left. Qed.
Lemma ext_auth_trans h1 h2 h3 : ext_auth h1 h2 -> ext_auth h2 h3 -> ext_auth h1 h3.
Proof.
  intros [L1 E1] [L2 E2]. split; [lia|]. intros a. destruct (E1 a) as [X|[X Y]], (E2 a) as [X'|[X' Y']]; unfold demoted; rewrite ?X', ?X, ?Y'; auto; try (right; split; congruence).
Qed.
Definition surplus (txt : str) (e : el) : el := set_misc (e_misc e ++ py " " ++ txt) (set_type MISC e).
Lemma demote_ext h a f : is_type AUTH (deref h a) = true -> (forall e, e_type (f e) = MISC) -> ext_auth h (store h a f).
Proof.
  intros T F. split; [now rewrite store_length|]. intros b. destruct (Nat.eq_dec a b) as [->|N].
  - apply is_type_true in T. destruct (Nat.lt_ge_cases b (length h)).
    + rewrite deref_store_same by auto. right. auto.
    + unfold deref in T. rewrite nth_overflow in T by auto. discriminate.
  - rewrite deref_store_other by auto. now left.
Qed.
Lemma tys_cons h a c : tys h (a :: c) = e_type (deref h a) :: tys h c. Proof. reflexivity. Qed.
Lemma dup_authors_spec : forall c found h h', dup_authors found h c = Ok h' ->
  ext_auth h h' /\ count_ty AUTH (tys h' c) <= (if found then 0 else 1).
Proof.
  induction c as [|a c IH]; cbn [dup_authors]; intros found h h' H.
  - inversion H; subst. split; [apply ext_auth_refl|destruct found; auto].
  - rewrite tys_cons, count_ty_hd. destruct (is_type AUTH (deref h a)) eqn:T.
    + destruct found.
      * inv_ok H. apply IH in H as [X Y].
        assert (a < length h) as La.
        { destruct (Nat.lt_ge_cases a (length h)); auto. unfold deref in T. rewrite nth_overflow in T by auto. discriminate. }
        split; [eapply ext_auth_trans; [apply demote_ext|exact X]; auto|].
        destruct (ety_eqb_spec (e_type (deref h' a)) AUTH) as [Q|Q]; [|exact Y].
        destruct X as [_ X]. specialize (X a). rewrite deref_store_same in X by auto. cbn in X.
        destruct X as [X|[X _]]; congruence.
      * apply IH in H as [X Y]. split; auto. destruct (ety_eqb _ _); lia.
    + apply IH in H as [X Y]. split; auto. destruct (ety_eqb_spec (e_type (deref h' a)) AUTH) as [Q|Q]; auto.
      destruct X as [_ X]. specialize (X a). rewrite is_type_false in T. destruct X as [X|[X _]]; congruence.
Qed.
Lemma demote_count h h' c t : t <> MISC -> ext_auth h h' -> count_ty t (tys h' c) <= count_ty t (tys h c).
Proof.
  intros Ht [_ X]. induction c as [|a c IH]; auto. rewrite !tys_cons, !count_ty_hd. specialize (X a).
  destruct X as [X|[X Y]]; [rewrite X; lia|]. rewrite X, Y. destruct (ety_eqb_spec MISC t); [congruence|]. lia.
Qed.
Lemma dup_authors_all : forall cs h h' cs',
  each (fun h c => let* h' := dup_authors false h c in Ok (h', c)) h cs = Ok (h', cs') ->
  cs' = cs /\ ext_auth h h' /\ Forall (fun c => count_ty AUTH (tys h' c) <= 1) cs.
Proof.
  induction cs as [|c cs IH]; cbn; intros h h' cs' H.
  - inversion H; subst. split; auto. split; [apply ext_auth_refl|constructor].
  - inv_ok H. destruct a as [h1 c1]. cbn in H. inv_ok H. destruct a as [h2 t2]. cbn in H. inversion H; subst; clear H.
    inv_ok E. inversion E; subst; clear E. apply dup_authors_spec in E1 as [X Y].
    apply IH in E0 as (-> & X2 & Y2). split; auto. split; [eapply ext_auth_trans; eauto|].
    constructor; auto. pose proof (demote_count _ _ c1 AUTH ltac:(discriminate) X2). lia.
Qed.

(** *** Removal of equal elements *)
Lemma remove_addr_perm h e : forall c, In e (map (deref h) c) ->
  Permutation (map (deref h) c) (e :: map (deref h) (remove_addr h e c)).
Proof.
  induction c as [|a c IH]; cbn; intros H; [easy|].
  destruct (el_eqb_spec e (deref h a)) as [->|N]; [auto|].
  destruct H as [H|H]; [congruence|]. cbn. rewrite (IH H). apply perm_swap.
Qed.
Lemma remove_addr_in h e c x : In x (remove_addr h e c) -> In x c.
Proof.
  induction c as [|a c IH]; cbn; auto. destruct (el_eqb e (deref h a)); cbn; intuition.
Qed.
Fixpoint kept_dois (found : bool) (l : list el) : list el :=
  match l with
  | [] => []
  | e :: t => if is_type DOI e then (if found then kept_dois true t else e :: kept_dois true t)
              else e :: kept_dois found t
  end.
Lemma perm_drop {A} (x : A) k r c : Permutation (x :: c) (k ++ x :: r) -> Permutation c (k ++ r).
Proof. intros H. eapply Permutation_cons_inv. rewrite H. symmetry. apply Permutation_middle. Qed.
Lemma dup_dois_perm h : forall snap found c k,
  Permutation (map (deref h) c) (k ++ map (deref h) snap) ->
  Permutation (map (deref h) (dup_dois found h snap c)) (k ++ kept_dois found (map (deref h) snap)).
Proof.
  induction snap as [|a snap IH]; cbn [dup_dois kept_dois map]; intros found c k P; auto.
  destruct (is_type DOI (deref h a)); [destruct found|].
  - apply IH. eapply perm_drop. rewrite <- P.
    symmetry. apply remove_addr_perm. rewrite P, in_app_iff. cbn. auto.
  - change (deref h a :: kept_dois true (map (deref h) snap)) with ([deref h a] ++ kept_dois true (map (deref h) snap)).
    rewrite app_assoc. apply IH. now rewrite <- app_assoc.
  - change (deref h a :: kept_dois found (map (deref h) snap)) with ([deref h a] ++ kept_dois found (map (deref h) snap)).
    rewrite app_assoc. apply IH. now rewrite <- app_assoc.
Qed.
Fixpoint kept_collabs (seen : list str) (l : list el) : list el :=
  match l with
  | [] => []
  | e :: t =>
    if is_type COLLABORATION e then
      match get_str Kcollaboration e with
      | Ok name => if mem_str name seen then kept_collabs seen t else e :: kept_collabs (seen ++ [name]) t
      | Err _ => e :: kept_collabs seen t
      end
    else e :: kept_collabs seen t
  end.
Lemma dup_collabs_perm h : forall snap seen c c' k, dup_collabs seen h snap c = Ok c' ->
  Permutation (map (deref h) c) (k ++ map (deref h) snap) ->
  Permutation (map (deref h) c') (k ++ kept_collabs seen (map (deref h) snap)).
Proof.
  induction snap as [|a snap IH]; cbn [dup_collabs kept_collabs map]; intros seen c c' k H P; [inversion H; subst; auto|].
  destruct (is_type COLLABORATION (deref h a)).
  - inv_ok H. rewrite E. destruct (mem_str a0 seen).
    + eapply IH; [exact H|]. eapply perm_drop. rewrite <- P.
      symmetry. apply remove_addr_perm. rewrite P, in_app_iff. cbn. auto.
    + change (deref h a :: kept_collabs (seen ++ [a0]) (map (deref h) snap)) with ([deref h a] ++ kept_collabs (seen ++ [a0]) (map (deref h) snap)).
      rewrite app_assoc. eapply IH; [exact H|]. now rewrite <- app_assoc.
  - change (deref h a :: kept_collabs seen (map (deref h) snap)) with ([deref h a] ++ kept_collabs seen (map (deref h) snap)).
    rewrite app_assoc. eapply IH; [exact H|]. now rewrite <- app_assoc.
Qed.
Lemma dup_dois_in h : forall snap found c x, In x (dup_dois found h snap c) -> In x c.
Proof.
  induction snap as [|a snap IH]; cbn; intros found c x H; auto.
  destruct (is_type DOI _); [destruct found|]; try now apply IH in H.
  apply IH in H. eapply remove_addr_in; eauto.
Qed.
Lemma dup_collabs_in h : forall snap seen c c' x, dup_collabs seen h snap c = Ok c' -> In x c' -> In x c.
Proof.
  induction snap as [|a snap IH]; cbn; intros seen c c' x H I; [inversion H; subst; auto|].
  destruct (is_type COLLABORATION _); [|eapply IH; eauto]. inv_ok H.
  destruct (mem_str a0 seen); [|eapply IH; eauto]. eapply remove_addr_in. eapply IH; eauto.
Qed.

(** *** counting *)
Definition ty_of (l : list el) : list ety := map e_type l.
Lemma tys_ty_of h c : tys h c = ty_of (map (deref h) c).
Proof. unfold tys, ty_of. now rewrite map_map. Qed.
Lemma count_ty_app t a b : count_ty t (a ++ b) = count_ty t a + count_ty t b.
Proof. apply count_occ_app. Qed.
Lemma count_ty_perm t a b : Permutation a b -> count_ty t (ty_of a) = count_ty t (ty_of b).
Proof.
  intros P. unfold count_ty, ty_of. apply (Permutation_map e_type) in P.
  rewrite (Permutation_count_occ (fun a b => Bool.reflect_dec _ _ (ety_eqb_spec a b))) in P. auto.
Qed.
Lemma count_ty_cons t e l : count_ty t (ty_of (e :: l)) = (if ety_eqb (e_type e) t then 1 else 0) + count_ty t (ty_of l).
Proof.
  apply count_ty_hd.
Qed.
Lemma kept_dois_count l : forall found, count_ty DOI (ty_of (kept_dois found l)) <= (if found then 0 else 1).
Proof.
  induction l as [|e l IH]; intros found; cbn [kept_dois]; [destruct found; auto|].
  destruct (is_type DOI e) eqn:T.
  - destruct found; [apply (IH true)|]. rewrite count_ty_cons. unfold is_type in T. rewrite T.
    specialize (IH true). cbn in IH. lia.
  - rewrite count_ty_cons. unfold is_type in T. rewrite T. apply IH.
Qed.
Lemma kept_dois_other l t : t <> DOI -> forall found, count_ty t (ty_of (kept_dois found l)) = count_ty t (ty_of l).
Proof.
  intros Ht. induction l as [|e l IH]; intros found; cbn [kept_dois]; auto.
  destruct (is_type DOI e) eqn:T.
  - apply is_type_true in T. destruct found; rewrite ?count_ty_cons, IH; auto.
    rewrite T. destruct (ety_eqb_spec DOI t); [congruence|auto].
  - now rewrite !count_ty_cons, IH.
Qed.
Lemma kept_collabs_count l t : forall seen, count_ty t (ty_of (kept_collabs seen l)) <= count_ty t (ty_of l).
Proof.
  induction l as [|e l IH]; intros seen; cbn [kept_collabs]; auto.
  destruct (is_type COLLABORATION e); [destruct (get_str Kcollaboration e) as [nm|]; [destruct (mem_str nm seen)|]|];
    rewrite ?count_ty_cons; try (specialize (IH seen); lia). specialize (IH (seen ++ [nm])). lia.
Qed.
Definition collab_names (l : list el) : list str :=
  flat_map (fun e => if is_type COLLABORATION e then match get_str Kcollaboration e with Ok s => [s] | Err _ => [] end else []) l.
Lemma kept_collabs_names l : forall seen, NoDup seen -> NoDup (seen ++ collab_names (kept_collabs seen l)).
Proof.
  induction l as [|e l IH]; intros seen N; cbn [kept_collabs]; [cbn; now rewrite app_nil_r|].
  destruct (is_type COLLABORATION e) eqn:T; [destruct (get_str Kcollaboration e) as [nm|] eqn:G; [destruct (mem_str nm seen) eqn:M|]|].
  - auto.
  - cbn [collab_names flat_map]. rewrite T, G. rewrite app_assoc. apply IH.
    assert (~ In nm seen) as Hn by (intros X; apply mem_str_in in X; congruence).
    clear - N Hn. induction seen as [|x seen IH]; cbn; [constructor; auto; constructor|].
    inversion N; subst. constructor.
    + rewrite in_app_iff. cbn in *. intuition.
    + apply IH; auto. cbn in Hn. tauto.
  - cbn [collab_names flat_map]. rewrite T, G. cbn. now apply IH.
  - cbn [collab_names flat_map]. rewrite T. cbn. now apply IH.
Qed.
Lemma collab_names_perm a b : Permutation a b -> Permutation (collab_names a) (collab_names b).
Proof. intros P. unfold collab_names. now apply Permutation_flat_map. Qed.

(** ** Everything after the split *)
Definition tidy (c : list el) : Prop :=
  count_ty YEAR (ty_of c) <= 1 /\ count_ty RECID (ty_of c) <= 1 /\ count_ty AUTH (ty_of c) <= 1
  /\ count_ty DOI (ty_of c) <= 1 /\ NoDup (collab_names c).
Lemma Forall2_length {A B} (R : A -> B -> Prop) a b : Forall2 R a b -> length a = length b.
Proof. induction 1; cbn; auto. Qed.
Lemma Forall2_trans3 {A} (P Q R : A -> A -> Prop) : (forall x y z, P x y -> Q y z -> R x z) ->
  forall a b c, Forall2 P a b -> Forall2 Q b c -> Forall2 R a c.
Proof.
  intros H a b c F. revert c. induction F; intros c G; inversion G; subst; constructor; eauto.
Qed.
Definition no_ty (t : ety) (l : list ety) : Prop := count_ty t l = 0.
Lemma may_add_count t u l l' : may_add u l l' -> count_ty t l' <= count_ty t l + (if ety_eqb u t then 1 else 0).
Proof.
  intros [->| ->]; [lia|]. rewrite count_ty_app, count_ty_hd. change (count_ty t []) with 0. lia.
Qed.
Lemma repeat_count t u n : u <> t -> count_ty t (repeat u n) = 0.
Proof.
  intros H. induction n; auto. cbn [repeat]. rewrite count_ty_hd. destruct (ety_eqb_spec u t); [congruence|auto].
Qed.

Lemma Forall2_impl {A B} (P Q : A -> B -> Prop) : (forall a b, P a b -> Q a b) ->
  forall l l', Forall2 P l l' -> Forall2 Q l l'.
Proof. intros H l l' F. induction F; constructor; auto. Qed.

Lemma dup_dois_all h cs :
  Forall2 (fun c c' => Permutation (map (deref h) c') (kept_dois false (map (deref h) c)) /\ (closed h c -> closed h c'))
    cs (map (fun c => dup_dois false h c c) cs).
Proof.
  induction cs as [|c cs IH]; cbn; constructor; auto. split.
  - apply (dup_dois_perm h c false c []). auto.
  - unfold closed. rewrite !Forall_forall. intros C x Hx. apply C. eapply dup_dois_in; eauto.
Qed.
Lemma dup_collabs_all : forall cs h h' cs',
  each (fun h c => let* c' := dup_collabs [] h c c in Ok (h, c')) h cs = Ok (h', cs') ->
  h' = h /\ Forall2 (fun c c' => Permutation (map (deref h) c') (kept_collabs [] (map (deref h) c)) /\ (closed h c -> closed h c')) cs cs'.
Proof.
  induction cs as [|c cs IH]; cbn; intros h h' cs' H.
  - inversion H; subst. auto.
  - inv_ok H. destruct a as [h1 c1]. cbn in H. inv_ok H. destruct a as [h2 t2]. cbn in H. inversion H; subst; clear H.
    inv_ok E. inversion E; subst; clear E. apply IH in E0 as [-> F]. split; auto. constructor; auto. split.
    + apply (dup_collabs_perm h1 c [] c c1 []); auto.
    + unfold closed. rewrite !Forall_forall. intros C x Hx. apply C. eapply dup_collabs_in; eauto.
Qed.

(** The names of collaborations only depend on the elements, not on RECID elements *)
Lemma collab_names_app a b : collab_names (a ++ b) = collab_names a ++ collab_names b.
Proof. apply flat_map_app. Qed.

Lemma Forall_Forall2 {A B} (P : A -> Prop) (R : A -> B -> Prop) l l' :
  Forall P l -> Forall2 R l l' -> Forall2 (fun a b => P a /\ R a b) l l'.
Proof. intros F G. induction G; inversion F; subst; constructor; auto. Qed.
Lemma Forall2_Forall_r {A B} (P : B -> Prop) (R : A -> B -> Prop) l l' :
  (forall a b, R a b -> P b) -> Forall2 R l l' -> Forall P l'.
Proof. intros H F. induction F; constructor; eauto. Qed.

(** add_recid_elements keeps the other elements as they are *)
Lemma add_recid_values : forall cs h h' cs', Forall (closed h) cs -> each add_recid_one h cs = Ok (h', cs') ->
  length h <= length h' /\ (forall a, a < length h -> deref h' a = deref h a) /\
  Forall2 (fun c c' =>
    match find (fun e => truthy_opt (get Krecid e)) (map (deref h) c) with
    | Some e => exists v, get Krecid e = Some v /\ map (deref h') c' = map (deref h) c ++ [recid_el v]
    | None => map (deref h') c' = map (deref h) c
    end) cs cs'.
Proof.
  induction cs as [|c cs IH]; cbn; intros h h' cs' C H.
  - inversion H; subst. repeat split; auto.
  - inv_ok H. destruct a as [h1 c1]. cbn in H. inv_ok H. destruct a as [h2 t2]. cbn in H. inversion H; subst; clear H.
    inversion C; subst.
    assert (length h <= length h1 /\ (forall a, a < length h -> deref h1 a = deref h a) /\ closed h1 c1 /\
       match find (fun e => truthy_opt (get Krecid e)) (map (deref h) c) with
       | Some e => exists v, get Krecid e = Some v /\ map (deref h1) c1 = map (deref h) c ++ [recid_el v]
       | None => map (deref h1) c1 = map (deref h) c
       end) as (B1 & B2 & B3 & B4).
    { pose proof (add_recid_one_spec _ _ _ _ H1 E) as (_ & C1 & _).
      unfold add_recid_one in E.
      assert (find (fun e => truthy_opt (get Krecid e)) (map (deref h) c)
              = option_map (deref h) (find (fun a => truthy_opt (get Krecid (deref h a))) c)) as Hf.
      { clear. induction c as [|a c IH]; cbn; auto. destruct (truthy_opt _); auto. }
      rewrite Hf. destruct (find _ c) as [a|] eqn:Ef; cbn [option_map].
      2: { inversion E; subst. repeat split; auto. }
      apply find_some in Ef as [Ha Ht].
      destruct (get Krecid (deref h a)) as [v|] eqn:G; [|cbn in Ht; discriminate]. cbn [alloc] in E. inversion E; subst.
      assert (forall b, b < length h -> deref (h ++ [recid_el v]) b = deref h b) as Old by (intros; now apply deref_alloc_old).
      split; [rewrite app_length; cbn; lia|]. split; auto. split; auto.
      exists v. split; auto. rewrite map_app. cbn [map]. rewrite deref_alloc_new. f_equal.
      apply map_ext_in. intros b Hb. apply Old. unfold closed in H1. rewrite Forall_forall in H1. auto. }
    assert (Forall (closed h1) cs) as C1.
    { eapply Forall_impl; [|eassumption]. unfold closed. intros c0 F. eapply Forall_impl; [|exact F]. cbn. lia. }
    destruct (IH _ _ _ C1 E0) as (I1 & I2 & I3). split; [lia|]. split; [intros; rewrite I2 by lia; auto|].
    assert (forall l, closed h1 l -> map (deref h') l = map (deref h1) l) as Same.
    { intros l Cl. apply map_ext_in. intros b Hb. apply I2. unfold closed in Cl. rewrite Forall_forall in Cl. auto. }
    assert (forall l, closed h l -> map (deref h1) l = map (deref h) l) as Same1.
    { intros l Cl. apply map_ext_in. intros b Hb. apply B2. unfold closed in Cl. rewrite Forall_forall in Cl. auto. }
    constructor.
    + rewrite (Same c1 B3). auto.
    + clear - I3 H2 Same1. induction I3 as [|x y l l' R I3 IH]; constructor; inversion H2; subst; auto.
      rewrite (Same1 x) in R by auto. auto.
Qed.
Lemma recid_el_names v : collab_names [recid_el v] = []. Proof. reflexivity. Qed.

Section PostSplit.
Context (books : books_kb) (cb : option callback).
Lemma post_split_tidy n st st' n' :
  Forall (closed (fst st)) (snd st) ->
  Forall (fun c => no_ty YEAR (tys (fst st) c) /\ no_ty RECID (tys (fst st) c)) (snd st) ->
  post_split books cb n st = Ok (st', n') ->
  length (values st') = length (snd st) /\ Forall tidy (values st').
Proof.
  destruct st as [h0 cs0]. cbn [fst snd]. intros C0 N0 H. unfold post_split in H.
  inv_ok H. destruct a as [h1 cs1]. unfold look_for_implied_ibids in E. cbn [fst snd] in E.
  apply implied_ibids_spec in E as (X1 & C1 & F1); auto.
  inv_ok H. destruct a as [h2 cs2]. unfold add_year_elements in E. cbn [fst snd] in E.
  apply (each_spec _ _ add_year_one_spec) in E as (X2 & C2 & F2); auto.
  inv_ok H. destruct a as [h3 cs3]. unfold look_for_undetected_books in E. cbn [fst snd] in E.
  apply (each_spec _ (may_add BOOK)) in E as (X3 & C3 & F3); auto.
  2: { intros h c h' c' Cl Ho. destruct (is_unknown_citation _).
       - unfold search_for_book_in_misc in Ho. eapply search_elements_spec; eauto.
       - inversion Ho; subst. split; [apply ext_refl|split; [auto|now left]]. }
  inv_ok H. destruct a as [[h4 cs4] n4].
  assert (ext h3 h4 /\ cs4 = cs3) as [X4 ->].
  { destruct cb as [f|]; cbn [fst snd] in E.
    - inv_ok E. destruct a as [h n0]. cbn in E. inversion E; subst. split; auto. eapply associate_citations_ext; eauto.
    - inversion E; subst. split; [apply ext_refl|auto]. }
  clear E. inv_ok H. destruct a as [h5 cs5]. unfold remove_duplicated_authors in E. cbn [fst snd] in E.
  apply dup_authors_all in E as (-> & X5 & A5).
  unfold remove_duplicated_dois in H. cbn [fst snd] in H.
  pose proof (dup_dois_all h5 cs3) as F6. set (cs6 := map (fun c : list addr => dup_dois false h5 c c) cs3) in *.
  inv_ok H. destruct a as [h7 cs7]. unfold remove_duplicated_collaborations in E. cbn [fst snd] in E.
  apply dup_collabs_all in E as [-> F7].
  inv_ok H. destruct a as [h8 cs8]. inversion H; subst; clear H.
  unfold add_recid_elements in E. cbn [fst snd] in E.
  assert (Forall (closed h5) cs3) as C5.
  { eapply Forall_impl; [|exact C3]. intros c Hc. apply (closed_ext h3 h4) in Hc; auto.
    unfold closed in *. destruct X5 as [L5 _]. now rewrite <- L5. }
  assert (Forall (closed h5) cs6) as C6.
  { clear - F6 C5. induction F6; inversion C5; subst; constructor; tauto. }
  assert (Forall (closed h5) cs7) as C7.
  { clear - F7 C6. induction F7; inversion C6; subst; constructor; tauto. }
  pose proof (add_recid_values _ _ _ _ C7 E) as (_ & _ & V8).
  apply (each_spec _ _ add_recid_one_spec) in E as (X8 & C8 & F8); auto.
  unfold values. cbn [fst snd]. rewrite map_length.
  assert (length cs8 = length cs0) as Len.
  { apply Forall2_length in F1, F2, F3, F6, F7, F8. symmetry. exact (eq_trans F1 (eq_trans F2 (eq_trans F3 (eq_trans F6 (eq_trans F7 F8))))). }
  split; auto.
  (* counts after each phase *)
  set (ok t b h c := count_ty t (tys h c) <= b).
  assert (forall t b, (t = YEAR -> b = 1) -> (t = RECID -> b = 0) -> (t = YEAR \/ t = RECID) -> Forall (ok t b h3) cs3) as Q3.
  { intros t b Hy Hr Ht.
    assert (Forall (ok t 0 h0) cs0) as Q0.
    { eapply Forall_impl; [|exact N0]. unfold ok, no_ty. cbn. intros c [Y R]. destruct Ht as [->| ->]; lia. }
    assert (Forall (ok t 0 h1) cs1) as Q1.
    { clear - Q0 F1 Ht. induction F1 as [|x y l l' (k & R) F IH]; inversion Q0; subst; constructor; auto.
      unfold ok in *. rewrite R, count_ty_app, repeat_count; [lia|]. destruct Ht; subst; discriminate. }
    assert (Forall (ok t b h2) cs2) as Q2.
    { clear - Q1 F2 Ht Hy Hr. induction F2 as [|x y l l' R F IH]; inversion Q1; subst; constructor; auto.
      unfold ok in *. apply (may_add_count t) in R. destruct Ht as [->| ->]; unfold ety_eqb in R; cbn in R; [rewrite Hy|rewrite Hr]; auto; lia. }
    clear - Q2 F3 Ht. induction F3 as [|x y l l' R F IH]; inversion Q2; subst; constructor; auto.
    unfold ok in *. apply (may_add_count t) in R. destruct Ht as [->| ->]; unfold ety_eqb in R; cbn in R; lia. }
  assert (forall t b, t <> MISC -> Forall (ok t b h3) cs3 -> Forall (ok t b h5) cs3) as Q5.
  { intros t b Ht. assert (forall l, Forall (closed h3) l -> Forall (ok t b h3) l -> Forall (ok t b h5) l) as G.
    { intros l. induction l as [|x l IH]; intros Fc Fo; inversion Fc; inversion Fo; subst; constructor; auto. unfold ok in *.
      pose proof (demote_count h4 h5 x t Ht X5). rewrite (tys_ext h3 h4) in H by auto. lia. }
    apply G; auto. }
  assert (forall t b, Forall (ok t b h5) cs3 -> Forall (ok t b h5) cs6) as Q6.
  { intros t b. clear - F6. intros Q. induction F6 as [|x y l l' [R _] F IH]; inversion Q; subst; constructor; auto.
    unfold ok in *. rewrite tys_ty_of, (count_ty_perm _ _ _ R). destruct (ety_eqb_spec t DOI) as [->|N].
    - rewrite tys_ty_of in H1. clear - H1. revert H1. generalize (map (deref h5) x). intros l0 Hl.
      assert (forall l found, count_ty DOI (ty_of (kept_dois found l)) <= count_ty DOI (ty_of l)) as G.
      { induction l as [|e l IH]; intros found; cbn [kept_dois]; auto.
        destruct (is_type DOI e); [destruct found|]; rewrite ?count_ty_cons;
          first [specialize (IH true); lia | specialize (IH found); lia]. }
      specialize (G l0 false). lia.
    - rewrite kept_dois_other by auto. now rewrite <- tys_ty_of. }
  assert (forall t b, Forall (ok t b h5) cs6 -> Forall (ok t b h5) cs7) as Q7.
  { intros t b. clear - F7. intros Q. induction F7 as [|x y l l' [R _] F IH]; inversion Q; subst; constructor; auto.
    unfold ok in *. rewrite tys_ty_of, (count_ty_perm _ _ _ R).
    pose proof (kept_collabs_count (map (deref h5) x) t []). rewrite tys_ty_of in H1. lia. }
  assert (forall t b b', b' = b + (if ety_eqb RECID t then 1 else 0) -> Forall (ok t b h5) cs7 -> Forall (ok t b' h8) cs8) as Q8.
  { intros t b b' ->. clear - F8. intros Q. induction F8 as [|x y l l' R F IH]; inversion Q; subst; constructor; auto.
    unfold ok in *. apply (may_add_count t) in R. lia. }
  assert (Forall (ok YEAR 1 h8) cs8) as RY.
  { apply (Q8 YEAR 1); auto. apply Q7, Q6, Q5; [discriminate|]. apply Q3; auto; discriminate. }
  assert (Forall (ok RECID 1 h8) cs8) as RR.
  { apply (Q8 RECID 0); auto. apply Q7, Q6, Q5; [discriminate|]. apply Q3; auto; discriminate. }
  assert (Forall (ok AUTH 1 h8) cs8) as RA.
  { apply (Q8 AUTH 1); auto. }
  assert (Forall (ok DOI 1 h8) cs8) as RD.
  { apply (Q8 DOI 1); auto. apply Q7. clear - F6. clearbody cs6. induction F6 as [|x y l l' [R _] F IH]; constructor; auto.
    unfold ok. rewrite tys_ty_of, (count_ty_perm _ _ _ R). apply (kept_dois_count _ false). }
  assert (Forall (fun c => NoDup (collab_names (map (deref h8) c))) cs8) as RC.
  { assert (Forall (fun c => NoDup (collab_names (map (deref h5) c))) cs7) as G.
    { clear - F7. induction F7 as [|x y l l' [R _] F IH]; constructor; auto.
      eapply Permutation_NoDup; [symmetry; apply collab_names_perm; exact R|].
      apply (kept_collabs_names (map (deref h5) x) []). constructor. }
    clear - V8 G. induction V8 as [|x y l l' R F IH]; inversion G; subst; constructor; auto.
    destruct (find _ _).
    - destruct R as (v & _ & R). rewrite R, collab_names_app, recid_el_names, app_nil_r. auto.
    - now rewrite R. }
  unfold ok in *. clear - RY RR RA RD RC.
  induction cs8 as [|c cs8 IH]; cbn [map]; constructor.
  - inversion RY; inversion RR; inversion RA; inversion RD; inversion RC; subst. unfold tidy. rewrite <- !tys_ty_of. auto 6.
  - inversion RY; inversion RR; inversion RA; inversion RD; inversion RC; subst. auto.
Qed.
End PostSplit.
