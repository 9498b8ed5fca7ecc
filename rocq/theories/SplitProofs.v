(** Proofs about the splitting of a line into citations (Split.v). *)
From Coq Require Import List Arith NArith Bool Lia.
From Verif Require Import PyStr ListFacts Elements Split.
Import ListNotations.
Open Scope nat_scope.

(** ** Elements *)
Lemma ety_eqb_spec a b : reflect (a = b) (ety_eqb a b).
Proof.
  unfold ety_eqb. destruct (Nat.eqb_spec (ety_code a) (ety_code b)) as [E|E]; constructor.
  - destruct a, b; cbn in E; congruence.
  - intros ->; auto.
Qed.
Lemma ctype_eqb_spec a b : reflect (a = b) (ctype_eqb a b).
Proof.
  destruct a, b; cbn; try (constructor; congruence).
  destruct (ety_eqb_spec t t0); constructor; congruence.
Qed.
Lemma is_type_true t e : is_type t e = true <-> e_type e = t.
Proof. unfold is_type. destruct (ety_eqb_spec (e_type e) t); split; congruence. Qed.
Lemma is_type_false t e : is_type t e = false <-> e_type e <> t.
Proof. unfold is_type. destruct (ety_eqb_spec (e_type e) t); split; congruence. Qed.

(** ** Heap *)
Lemma update_at_length {A} (f : A -> A) : forall l i, length (update_at i f l) = length l.
Proof. induction l; intros [|i]; cbn; auto. Qed.
Lemma deref_store_same h a f : a < length h -> deref (store h a f) a = f (deref h a).
Proof.
  unfold deref, store. revert a. induction h as [|x h IH]; intros [|a] H; cbn in *; try lia; auto.
  apply IH. lia.
Qed.
Lemma deref_store_other h a b f : a <> b -> deref (store h a f) b = deref h b.
Proof.
  unfold deref, store. revert a b. induction h as [|x h IH]; intros [|a] [|b] H; cbn; auto; try lia.
Qed.
Lemma store_length h a f : length (store h a f) = length h.
Proof. apply update_at_length. Qed.
Lemma deref_alloc_old h e a : a < length h -> deref (h ++ [e]) a = deref h a.
Proof. intros H. unfold deref. now apply app_nth1. Qed.
Lemma deref_alloc_new h e : deref (h ++ [e]) (length h) = e.
Proof. unfold deref. rewrite app_nth2, Nat.sub_diag; auto. Qed.
Lemma map_deref_ext h h' l : (forall a, In a l -> deref h' a = deref h a) -> map (deref h') l = map (deref h) l.
Proof. intros H. apply map_ext_in. auto. Qed.

Lemma firstn_snoc {A} (x : A) : forall l k, nth_error l k = Some x -> firstn (S k) l = firstn k l ++ [x].
Proof.
  induction l as [|y l IH]; intros [|k] H; cbn in *; try discriminate.
  - inversion H; auto.
  - f_equal. auto.
Qed.

(** ** Specification of the cut at a semicolon *)
(** An element whose text contains a semicolon is cut at the first one: the text before
    becomes a separate MISC element. *)
Inductive cut_semicolon : el -> list el -> Prop :=
| cut_none e : ~ In 59%N (e_misc e) -> cut_semicolon e [e]
| cut_at e before after : e_misc e = before ++ 59%N :: after -> ~ In 59%N before ->
    cut_semicolon e [mkel MISC before []; set_misc after e].
Definition cut_of (e : el) : list el :=
  match split1 59%N (e_misc e) with
  | Some (a, b) => [mkel MISC a []; set_misc b e]
  | None => [e]
  end.
Lemma cut_of_spec e : cut_semicolon e (cut_of e).
Proof.
  unfold cut_of. destruct (split1 59%N (e_misc e)) as [[a b]|] eqn:E.
  - apply split1_some in E as [E N]. now constructor.
  - constructor. now apply split1_none.
Qed.

Definition non_author (e : el) : bool := negb (is_type AUTH e).
Lemma set_misc_type m e : e_type (set_misc m e) = e_type e. Proof. reflexivity. Qed.

Definition fauth (h : heap) (l : list addr) : list el := filter non_author (map (deref h) l).
Lemma fauth_app h a b : fauth h (a ++ b) = fauth h a ++ fauth h b.
Proof. unfold fauth. now rewrite map_app, filter_app. Qed.

Lemma take_last_auth_spec h c a c' : take_last_auth h c = Some (a, c') ->
  is_type AUTH (deref h a) = true /\ exists l r, c = l ++ a :: r /\ c' = l ++ r
  /\ Forall (fun x => is_type AUTH (deref h x) = false) r.
Proof.
  revert a c'. induction c as [|x c IH]; cbn; intros a c' H; [discriminate|].
  destruct (take_last_auth h c) as [[y t]|] eqn:E.
  - inversion H; subst. destruct (IH _ _ eq_refl) as (A & l & r & -> & -> & F).
    split; auto. exists (x :: l), r. auto.
  - destruct (is_type AUTH (deref h x)) eqn:T; inversion H; subst. split; auto.
    exists [], c'. repeat split; auto. clear - E.
    induction c' as [|y c IH]; auto. cbn in E. destruct (take_last_auth h c) as [[]|] eqn:E2; [discriminate|].
    destruct (is_type AUTH (deref h y)) eqn:T; [discriminate|]. constructor; auto.
Qed.
Lemma postpone_spec h c n p c' : postpone_last_auth h c n = (p, c') ->
  fauth h c' = fauth h c /\ (forall x, In x c' -> In x c)
  /\ (forall x, p = Some x -> In x c /\ is_type AUTH (deref h x) = true)
  /\ (forall x, In x c -> In x c' \/ p = Some x)
  /\ (exists l r, c = l ++ r /\ (c' = l ++ r \/ exists x, c = l ++ x :: tl r /\ c' = l ++ tl r)).
Proof.
  unfold postpone_last_auth. destruct (n =? 0).
  { intros H; inversion H; subst. repeat split; auto; try discriminate. exists c', []. rewrite app_nil_r; auto. }
  destruct (take_last_auth h c) as [[a t]|] eqn:E.
  2: { intros H; inversion H; subst. repeat split; auto; try discriminate. exists c', []. rewrite app_nil_r; auto. }
  apply take_last_auth_spec in E as (A & l & r & -> & -> & F).
  destruct (n =? 1); intros H; inversion H; subst; clear H.
  - repeat split; auto; try (inversion H; subst; auto; rewrite in_app_iff; cbn; auto).
    exists (l ++ a :: r), []. rewrite app_nil_r; auto.
  - repeat split.
    + rewrite !fauth_app. f_equal. unfold fauth. cbn. unfold non_author at 2. now rewrite A.
    + intros x. rewrite !in_app_iff. cbn. tauto.
    + inversion H; subst. rewrite in_app_iff. cbn. auto.
    + inversion H; subst. auto.
    + intros x. rewrite !in_app_iff. cbn. intros [?|[->|?]]; auto.
    + exists l, (a :: r). split; auto. right. exists a. auto.
Qed.

(** ** Invariant *)
(** Two elements of a citation that may not be together *)
Definition counts_for_split (e : el) : bool :=
  match e_type e with MISC | AUTH => false | _ => true end.
Definition pure_citation (c : list el) : Prop :=
  forall i j x y, i < j -> nth_error c i = Some x -> nth_error c j = Some y ->
  counts_for_split x = true -> counts_for_split y = true ->
  ctype_of x = ctype_of y -> repeatable (ctype_of x) = true.

Definition pure_b (c : list el) : Prop :=
  forall l x m y r, c = l ++ x :: m ++ y :: r ->
  counts_for_split x = true -> counts_for_split y = true ->
  ctype_of x = ctype_of y -> repeatable (ctype_of x) = true.
Lemma pure_b_pure c : pure_b c <-> pure_citation c.
Proof.
  split; intros H.
  - intros i j x y L Hi Hj. apply nth_error_split in Hi as (l & t & -> & <-).
    rewrite nth_error_app2 in Hj by lia. destruct (j - length l) as [|k] eqn:E; [lia|]. cbn in Hj.
    apply nth_error_split in Hj as (m & r & -> & _). now apply (H l x m y r).
  - intros l x m y r ->. apply (H (length l) (length l + S (length m))); [lia| |].
    + now rewrite nth_error_app2, Nat.sub_diag by lia.
    + rewrite nth_error_app2 by lia. replace (length l + _ - _) with (S (length m)) by lia. cbn.
      now rewrite nth_error_app2, Nat.sub_diag by lia.
Qed.

(** removal of an element keeps purity *)
Lemma pure_remove l x r : pure_b (l ++ x :: r) -> pure_b (l ++ r).
Proof.
  rewrite !pure_b_pure. intros H i j a b L Hi Hj.
  set (f k := if k <? length l then k else S k).
  assert (forall k, nth_error (l ++ r) k = nth_error (l ++ x :: r) (f k)) as Hf.
  { intros k. unfold f. destruct (Nat.ltb_spec k (length l)).
    - now rewrite !nth_error_app1 by lia.
    - rewrite !nth_error_app2 by lia. replace (S k - length l) with (S (k - length l)) by lia. auto. }
  rewrite Hf in Hi, Hj. apply (H (f i) (f j)); auto.
  unfold f. destruct (Nat.ltb_spec i (length l)), (Nat.ltb_spec j (length l)); lia.
Qed.
Lemma pure_cons_weak x c : counts_for_split x = false -> pure_b c -> pure_b (x :: c).
Proof.
  intros Hx H l a m b r E Ha Hb. destruct l as [|z l]; cbn in E; inversion E; subst; [congruence|].
  eapply H; eauto.
Qed.
Lemma pure_snoc c x : pure_b c ->
  (counts_for_split x = true -> repeatable (ctype_of x) = false ->
   forall y, In y c -> counts_for_split y = true -> ctype_of y <> ctype_of x) -> pure_b (c ++ [x]).
Proof.
  intros H Hx. apply pure_b_pure. apply pure_b_pure in H. intros i j a b L Hi Hj Ha Hb E.
  assert (j < length (c ++ [x])) as Lj by (apply nth_error_Some; congruence). rewrite app_length in Lj. cbn in Lj.
  rewrite nth_error_app1 in Hi by lia.
  destruct (Nat.eq_dec j (length c)) as [->|Nj].
  - rewrite nth_error_app2, Nat.sub_diag in Hj by lia. inversion Hj; subst.
    destruct (repeatable (ctype_of a)) eqn:R; auto. exfalso. rewrite E in R.
    apply (Hx Hb R a); auto. eapply nth_error_In; eauto.
  - rewrite nth_error_app1 in Hj by lia. exact (H i j a b L Hi Hj Ha Hb E).
Qed.
Lemma counts_misc m d : counts_for_split (mkel MISC m d) = false. Proof. reflexivity. Qed.
Lemma counts_auth e : is_type AUTH e = true -> counts_for_split e = false.
Proof. rewrite is_type_true. unfold counts_for_split. now intros ->. Qed.

Section Inv.
Context (els : list el).
Let n := length els.

Definition olist (o : option addr) : list addr := match o with Some a => [a] | None => [] end.
Definition okaddr (k : nat) (h : heap) (a : addr) : Prop := a < length h /\ (a < k \/ n <= a).
Record inv (k : nat) (s : sst) : Prop := {
  i_len : n <= length (s_heap s);
  i_rest : forall i, k <= i < n -> deref (s_heap s) i = nth i els null_el;
  i_addr : forall a, In a (concat (s_out s) ++ s_cur s ++ olist (s_postponed s)) -> okaddr k (s_heap s) a;
  i_elts : fauth (s_heap s) (concat (s_out s) ++ s_cur s) = filter non_author (flat_map cut_of (firstn k els));
  i_post : forall a, s_postponed s = Some a -> is_type AUTH (deref (s_heap s) a) = true;
  i_pure_out : forall c, In c (s_out s) -> pure_b (map (deref (s_heap s)) c);
  i_pure : pure_b (map (deref (s_heap s)) (s_cur s));
  i_types : forall a, In a (s_cur s) -> counts_for_split (deref (s_heap s) a) = true ->
            In (ctype_of (deref (s_heap s) a)) (s_types s) }.

Lemma inv_init : inv 0 (s_init els).
Proof.
  split; cbn; try easy; auto. 
  - intros l x m y r E. destruct l; discriminate.
Qed.

Lemma insert_postponed_spec k s cur m : inv k s -> insert_postponed s = (cur, m) ->
  fauth (s_heap s) cur = fauth (s_heap s) (s_cur s)
  /\ (forall a, In a cur -> In a (s_cur s ++ olist (s_postponed s)))
  /\ pure_b (map (deref (s_heap s)) cur)
  /\ (forall a, In a (s_cur s) -> In a cur).
Proof.
  intros I. unfold insert_postponed. destruct (s_postponed s) as [p|] eqn:P.
  2: { intros H; inversion H; subst. split; [auto|split; [|split; [apply (i_pure _ _ I)|auto]]]. intros; apply in_app_iff; auto. }
  destruct (_ || _); intros H; inversion H; subst; clear H.
  - pose proof (i_post _ _ I p P) as A. split; [|split; [|split]].
    + unfold fauth. cbn. unfold non_author at 1. now rewrite A.
    + intros a [->|?]; apply in_app_iff; cbn; auto.
    + cbn. apply pure_cons_weak; [now apply counts_auth|apply (i_pure _ _ I)].
    + intros; now right.
  - split; [auto|split; [|split; [apply (i_pure _ _ I)|auto]]]. intros; apply in_app_iff; auto.
Qed.

(** the end of a citation *)
Definition close (s : sst) (r : reason) : sst :=
  let (cur, m) := insert_postponed s in
  let (p, cur') := postpone_last_auth (s_heap s) cur m in
  mksst (s_heap s) [] [] None 0 p (Some r) (s_out s ++ [cur']).
Lemma close_inv k s r : inv k s -> inv k (close s r).
Proof.
  intros I. unfold close. destruct (insert_postponed s) as [cur m] eqn:Ei.
  destruct (postpone_last_auth (s_heap s) cur m) as [p cur'] eqn:Ep.
  destruct (insert_postponed_spec _ _ _ _ I Ei) as (A1 & A2 & A3 & A4).
  destruct (postpone_spec _ _ _ _ _ Ep) as (B1 & B2 & B3 & B4 & (l & r0 & B5 & B6)).
  split; cbn [s_heap s_cur s_types s_out s_postponed].
  - apply I.
  - apply I.
  - intros a. rewrite concat_app, !in_app_iff. cbn [concat]. rewrite app_nil_r. intros H. apply (i_addr _ _ I).
    rewrite in_app_iff. destruct H as [[H|H]|[[]|H]]; auto; right; apply A2; auto.
    destruct p; cbn in H; [|easy]. destruct H as [->|[]]. apply (proj1 (B3 _ eq_refl)).
  - rewrite concat_app. cbn [concat]. rewrite !app_nil_r, fauth_app, B1, A1, <- fauth_app. apply I.
  - intros a Ha. apply (B3 a Ha).
  - intros c. rewrite in_app_iff. intros [H|[<-|[]]]; [now apply I|].
    destruct B6 as [->|(x & E1 & ->)]; [now rewrite <- B5|].
    rewrite map_app. rewrite E1, map_app in A3. cbn in A3. eapply pure_remove; eauto.
  - intros l0 x m0 y r1 E. destruct l0; discriminate.
  - easy.
Qed.

(** changing the heap at [k] (not yet treated) *)
Lemma fauth_ext h h' l : (forall a, In a l -> deref h' a = deref h a) -> fauth h' l = fauth h l.
Proof. intros H. unfold fauth. now rewrite (map_deref_ext h h'). Qed.

Lemma push_fields s a : s_heap (push s a) = s_heap s /\ s_cur (push s a) = s_cur s ++ [a]
  /\ s_out (push s a) = s_out s /\ s_postponed (push s a) = s_postponed s /\ s_prev (push s a) = s_prev s
  /\ (forall c, In c (s_types s) -> In c (s_types (push s a)))
  /\ (counts_for_split (deref (s_heap s) a) = true -> In (ctype_of (deref (s_heap s) a)) (s_types (push s a))).
Proof.
  unfold push, counts_for_split. destruct (e_type (deref (s_heap s) a)); cbn; repeat split; auto; discriminate.
Qed.

(** the element being treated enters the current citation *)
Lemma step_inv k s : k < n -> inv k s -> inv (S k) (split_step s k).
Proof.
  intros L I.
  set (e := nth k els null_el).
  assert (deref (s_heap s) k = e) as De by (apply I; lia).
  assert (nth_error els k = Some e) as Hk by (apply nth_error_nth'; auto).
  assert (firstn (S k) els = firstn k els ++ [e]) as Hf.
  { now apply firstn_snoc. }
  assert (k < length (s_heap s)) as Lk by (pose proof (i_len _ _ I); lia).
  unfold split_step. rewrite De.
  (* common end: push onto a state that satisfies the invariant and agrees at [k] *)
  assert (forall s1, n <= length (s_heap s1) ->
     (forall i, S k <= i < n -> deref (s_heap s1) i = nth i els null_el) ->
     (forall a, In a (concat (s_out s1) ++ s_cur s1 ++ olist (s_postponed s1)) -> okaddr k (s_heap s1) a) ->
     fauth (s_heap s1) (concat (s_out s1) ++ s_cur s1 ++ [k]) = filter non_author (flat_map cut_of (firstn (S k) els)) ->
     (forall a, s_postponed s1 = Some a -> is_type AUTH (deref (s_heap s1) a) = true) ->
     (forall c, In c (s_out s1) -> pure_b (map (deref (s_heap s1)) c)) ->
     pure_b (map (deref (s_heap s1)) (s_cur s1)) ->
     (forall a, In a (s_cur s1) -> counts_for_split (deref (s_heap s1) a) = true ->
            In (ctype_of (deref (s_heap s1) a)) (s_types s1)) ->
     (counts_for_split (deref (s_heap s1) k) = true -> repeatable (ctype_of (deref (s_heap s1) k)) = false ->
        ~ In (ctype_of (deref (s_heap s1) k)) (s_types s1)) ->
     inv (S k) (push s1 k)) as Push.
  { intros s1 H1 H2 H3 H4 H5 H6 H7 H8 H9.
    destruct (push_fields s1 k) as (F1 & F2 & F3 & F4 & F5 & F6 & F7).
    split; rewrite ?F1, ?F2, ?F3, ?F4.
    - auto.
    - auto.
    - intros a Ha. rewrite !in_app_iff in Ha.
      assert (a = k \/ okaddr k (s_heap s1) a) as [->|[O1 O2]].
      { destruct Ha as [Ha|[[Ha|[Ha|[]]]|Ha]]; auto; right; apply H3; rewrite !in_app_iff; auto. }
      + split; [lia|left; lia].
      + split; auto. lia.
    - auto.
    - auto.
    - auto.
    - rewrite map_app. cbn. apply pure_snoc; auto. intros C R y Hy Cy E.
      apply in_map_iff in Hy as (b & <- & Hb). apply (H9 C R). rewrite <- E. auto.
    - intros a Ha C. apply in_app_iff in Ha as [Ha|[<-|[]]]; auto. }
  destruct (split_needed e (s_types s) (s_last s)) as [r|] eqn:Sn.
  2: { (* no split *)
    unfold split_needed in Sn. destruct (mem_ch 59%N (e_misc e)) eqn:M; [discriminate|].
    destruct (_ || _) eqn:T; [discriminate|]. apply orb_false_iff in T as [T1 _].
    apply Push; [apply (i_len _ _ I)| |apply (i_addr _ _ I)| |apply (i_post _ _ I)|apply (i_pure_out _ _ I)|apply (i_pure _ _ I)|apply (i_types _ _ I)|].
    - intros i Hi. apply I. lia.
    - rewrite app_assoc, fauth_app, (i_elts _ _ I), Hf, flat_map_app, filter_app. f_equal.
      unfold fauth. cbn. rewrite De, app_nil_r. unfold cut_of.
      replace (split1 59%N (e_misc e)) with (@None (str * str)); auto.
      symmetry. apply split1_none. intros X. apply mem_ch_in in X. congruence.
    - rewrite De. intros C R X. apply andb_false_iff in T1 as [T1|T1].
      + assert (existsb (ctype_eqb (ctype_of e)) (s_types s) = true); [|congruence].
        apply existsb_exists. exists (ctype_of e). split; auto. destruct (ctype_eqb_spec (ctype_of e) (ctype_of e)); auto.
      + apply negb_false_iff in T1. congruence. }
  (* a split *)
  assert (forall s0, inv k s0 -> s_types (close s0 r) = [] /\ s_cur (close s0 r) = [] /\ s_heap (close s0 r) = s_heap s0) as Cl.
  { intros s0 _. unfold close. destruct (insert_postponed s0) as [c1 m1].
    destruct (postpone_last_auth _ c1 m1). auto. }
  destruct r.
  - (* semicolon *)
    assert (exists before after, split1 59%N (e_misc e) = Some (before, after)) as (before & after & Es).
    { apply split1_in. unfold split_needed in Sn. apply mem_ch_in.
      destruct (mem_ch 59%N (e_misc e)); auto. destruct (_ || _); discriminate. }
    unfold split_at. rewrite De, Es. cbn [alloc].
    set (h1 := store (s_heap s) k (set_misc after)).
    set (x := length h1).
    set (s1 := mksst (h1 ++ [mkel MISC before []]) (s_cur s ++ [x]) (s_types s) (s_last s) (s_nauth s) (s_postponed s) (s_prev s) (s_out s)).
    assert (length h1 = length (s_heap s)) as Lh by apply store_length.
    assert (forall a, okaddr k (s_heap s) a -> deref (s_heap s1) a = deref (s_heap s) a) as Same.
    { intros a [O1 O2]. change (s_heap s1) with (h1 ++ [mkel MISC before []]). rewrite deref_alloc_old by lia. apply deref_store_other. unfold n in *. lia. }
    assert (deref (s_heap s1) x = mkel MISC before []) as Dx by apply deref_alloc_new.
    assert (deref (s_heap s1) k = set_misc after e) as Dk.
    { change (s_heap s1) with (h1 ++ [mkel MISC before []]). rewrite deref_alloc_old by lia. unfold h1. rewrite deref_store_same by lia. now rewrite De. }
    assert (length (s_heap s1) = S (length (s_heap s))) as L1.
    { cbn. rewrite app_length. cbn. lia. }
    assert (forall c, In c (s_out s) -> forall a, In a c -> okaddr k (s_heap s) a) as Oout.
    { intros c Hc a Ha. apply I. rewrite in_app_iff. left. apply in_concat. eauto. }
    assert (forall a, In a (s_cur s) -> okaddr k (s_heap s) a) as Ocur.
    { intros a Ha. apply I. rewrite !in_app_iff. auto. }
    (* an invariant for s1 as if [k] were still to come: elements without k *)
    assert (
      (forall a, In a (concat (s_out s1) ++ s_cur s1 ++ olist (s_postponed s1)) -> okaddr k (s_heap s1) a)
      /\ fauth (s_heap s1) (concat (s_out s1) ++ s_cur s1) = filter non_author (flat_map cut_of (firstn k els)) ++ [mkel MISC before []]
      /\ (forall a, s_postponed s1 = Some a -> is_type AUTH (deref (s_heap s1) a) = true)
      /\ (forall c, In c (s_out s1) -> pure_b (map (deref (s_heap s1)) c))
      /\ pure_b (map (deref (s_heap s1)) (s_cur s1))) as (J1 & J2 & J3 & J4 & J5).
    { split; [|split; [|split; [|split]]].
      - intros a Ha. unfold s1 in Ha; cbn [s_out s_cur s_postponed] in Ha. rewrite !in_app_iff in Ha.
        assert (a = x \/ okaddr k (s_heap s) a) as [->|[O1 O2]].
        { destruct Ha as [Ha|[[Ha|[Ha|[]]]|Ha]]; auto; right; apply (i_addr _ _ I); rewrite !in_app_iff; auto. }
        + unfold okaddr. pose proof (i_len _ _ I). fold n. unfold x. lia.
        + unfold okaddr. lia.
      - unfold s1 at 2 3; cbn [s_out s_cur]. rewrite app_assoc, fauth_app.
        rewrite (fauth_ext (s_heap s)), (i_elts _ _ I).
        + f_equal. unfold fauth. cbn [map]. rewrite Dx. reflexivity.
        + intros a Ha. apply Same. apply (i_addr _ _ I). rewrite app_assoc, in_app_iff. auto.
      - intros a Ha. unfold s1 in Ha; cbn in Ha. rewrite Same; [now apply I|]. apply I. rewrite !in_app_iff, Ha. cbn. auto.
      - intros c Hc. rewrite (map_deref_ext (s_heap s)); [now apply I|]. intros a Ha. apply Same. eapply Oout; eauto.
      - unfold s1 at 2; cbn [s_cur]. rewrite map_app. cbn [map]. rewrite Dx. apply pure_snoc; [|discriminate].
        rewrite (map_deref_ext (s_heap s)); [apply (i_pure _ _ I)|]. intros a Ha. apply Same. auto. }
    change (inv (S k) (push (close s1 Semicolon) k)). unfold close.
    destruct (insert_postponed s1) as [cur m] eqn:Ei.
    destruct (postpone_last_auth (s_heap s1) cur m) as [p cur'] eqn:Ep.
    assert (fauth (s_heap s1) cur = fauth (s_heap s1) (s_cur s1)
      /\ (forall a, In a cur -> In a (s_cur s1 ++ olist (s_postponed s1)))
      /\ pure_b (map (deref (s_heap s1)) cur)) as (A1 & A2 & A3).
    { unfold insert_postponed in Ei. destruct (s_postponed s1) as [p0|] eqn:P.
      2: { inversion Ei; subst. split; [auto|split; [|auto]]. intros; apply in_app_iff; auto. }
      destruct (_ || _); inversion Ei; subst; clear Ei.
      - pose proof (J3 p0 eq_refl) as A. split; [|split].
        + unfold fauth at 1. cbn [map filter]. unfold non_author at 1. now rewrite A.
        + intros a [->|?]; apply in_app_iff; cbn; auto.
        + cbn [map]. apply pure_cons_weak; [now apply counts_auth|auto].
      - split; [auto|split; [|auto]]. intros; apply in_app_iff; auto. }
    destruct (postpone_spec _ _ _ _ _ Ep) as (B1 & B2 & B3 & B4 & (l & r0 & B5 & B6)).
    apply Push; cbn [s_heap s_out s_cur s_postponed s_types].
    + pose proof (i_len _ _ I). lia.
    + intros i Hi. change (s_heap s1) with (h1 ++ [mkel MISC before []]). rewrite deref_alloc_old by (pose proof (i_len _ _ I); lia).
      unfold h1. rewrite deref_store_other by lia. apply I. lia.
    + intros a. rewrite concat_app, !in_app_iff. cbn [concat]. rewrite app_nil_r. intros H0. apply J1.
      rewrite in_app_iff. destruct H0 as [[H0|H0]|[[]|H0]]; auto; right; apply A2; auto.
      destruct p; cbn in H0; [|easy]. destruct H0 as [->|[]]. apply (proj1 (B3 _ eq_refl)).
    + rewrite concat_app. cbn [concat app]. rewrite !app_nil_r, !fauth_app, B1, A1, <- fauth_app, J2.
      rewrite Hf, flat_map_app, filter_app, <- app_assoc. f_equal. cbn [flat_map]. unfold cut_of. rewrite Es, app_nil_r.
      unfold fauth. cbn [map]. rewrite Dk. reflexivity.
    + intros a Ha. apply (B3 a Ha).
    + intros c. rewrite in_app_iff. intros [H0|[<-|[]]]; [now apply J4|].
      destruct B6 as [->|(y & E1 & ->)]; [now rewrite <- B5|].
      rewrite map_app. rewrite E1, map_app in A3. cbn [map] in A3. eapply pure_remove; eauto.
    + intros l0 y m0 z r1 E. destruct l0; discriminate.
    + easy.
    + easy.
  - (* repeated *)
    assert (split_at s k Repeated = close s Repeated) as -> by reflexivity.
    pose proof (close_inv k s Repeated I) as I'. destruct (Cl s I) as (C1 & C2 & C3).
    apply Push; [apply (i_len _ _ I')| |apply (i_addr _ _ I')| |apply (i_post _ _ I')|apply (i_pure_out _ _ I')|apply (i_pure _ _ I')|apply (i_types _ _ I')|].
    + intros i Hi. apply I'. lia.
    + assert (~ In 59%N (e_misc e)) as M.
      { unfold split_needed in Sn. intros M. apply mem_ch_in in M. rewrite M in Sn. discriminate. }
      rewrite app_assoc, fauth_app, (i_elts _ _ I'), Hf, flat_map_app, filter_app. f_equal.
      unfold fauth. cbn [map flat_map]. rewrite C3, De, app_nil_r. unfold cut_of.
      replace (split1 59%N (e_misc e)) with (@None (str * str)); auto.
      symmetry. now apply split1_none.
    + rewrite C1. easy.
Qed.

Lemma steps_inv : forall m k s, k + m = n -> inv k s -> inv n (fold_left split_step (seq k m) s).
Proof.
  induction m as [|m IH]; intros k s E I; cbn.
  - now replace n with k by lia.
  - apply IH; [lia|]. apply step_inv; [lia|auto].
Qed.
Lemma all_inv : inv n (fold_left split_step (seq 0 n) (s_init els)).
Proof. apply steps_inv; [lia|apply inv_init]. Qed.
End Inv.

(** the citations as lists of elements *)
Definition citations (els : list el) : list (list el) :=
  let (h, cs) := split_citations els in map (map (deref h)) cs.

Lemma concat_map_map {A B} (f : A -> B) l : concat (map (map f) l) = map f (concat l).
Proof. now rewrite concat_map. Qed.

Lemma citations_keep els :
  filter non_author (concat (citations els)) = filter non_author (flat_map cut_of els).
Proof.
  unfold citations, split_citations. pose proof (all_inv els) as I.
  set (s := fold_left _ _ _) in *. rewrite concat_map_map.
  pose proof (i_elts _ _ _ I) as E. rewrite firstn_all in E. rewrite <- E.
  destruct (insert_postponed s) as [cur m] eqn:Ei.
  destruct (insert_postponed_spec _ _ _ _ _ I Ei) as (A1 & _).
  cbn [fst]. rewrite concat_app. cbn [concat]. rewrite app_nil_r.
  change (fauth (s_heap s) (concat (s_out s) ++ cur) = fauth (s_heap s) (concat (s_out s) ++ s_cur s)).
  now rewrite !fauth_app, A1.
Qed.
Lemma citations_pure els c : In c (citations els) -> pure_citation c.
Proof.
  unfold citations, split_citations. pose proof (all_inv els) as I.
  set (s := fold_left _ _ _) in *. destruct (insert_postponed s) as [cur m] eqn:Ei.
  destruct (insert_postponed_spec _ _ _ _ _ I Ei) as (_ & _ & A3 & _).
  cbn [fst]. rewrite in_map_iff. intros (l & <- & Hl). apply pure_b_pure.
  apply in_app_iff in Hl as [Hl|[<-|[]]]; auto. now apply I.
Qed.
Lemma citations_nonempty els : citations els <> [].
Proof. unfold citations, split_citations. set (s := fold_left _ _ _). rewrite map_app. destruct (map (map (deref (s_heap s))) (s_out s)); discriminate. Qed.
(** every address of the result is allocated *)
Lemma split_closed els h cs : split_citations els = (h, cs) -> cs <> [] /\ forall c a, In c cs -> In a c -> a < length h.
Proof.
  unfold split_citations. pose proof (all_inv els) as I. set (s := fold_left _ _ _) in *.
  intros H; inversion H; subst; clear H. split; [destruct (s_out s); discriminate|].
  intros c a Hc Ha. destruct (insert_postponed s) as [cur m] eqn:Ei.
  destruct (insert_postponed_spec _ _ _ _ _ I Ei) as (_ & A2 & _). cbn [fst] in Hc.
  apply in_app_iff in Hc as [Hc|[<-|[]]].
  - apply (i_addr _ _ _ I). rewrite in_app_iff. left. apply in_concat. eauto.
  - apply (i_addr _ _ _ I). rewrite in_app_iff. right. auto.
Qed.

(** ** Authors *)
(** Without semicolons no author is lost. *)
Section Authors.
Context (els : list el) (nosemi : forall e, In e els -> ~ In 59%N (e_misc e)).
Record ainv (k : nat) (s : sst) : Prop := {
  a_heap : s_heap s = els;
  a_prev : s_postponed s <> None -> s_prev s = Some Repeated;
  a_keep : forall i, i < k -> is_type AUTH (deref els i) = true ->
           In i (concat (s_out s) ++ s_cur s ++ olist (s_postponed s)) }.
Lemma ainv_step k s : k < length els -> ainv k s -> ainv (S k) (split_step s k).
Proof.
  intros L [H P K]. unfold split_step. rewrite H.
  assert (In (deref els k) els) as Ik by (apply nth_In; auto).
  assert (forall s1, s_heap s1 = els -> (s_postponed s1 <> None -> s_prev s1 = Some Repeated) ->
    (forall i, i < k -> is_type AUTH (deref els i) = true -> In i (concat (s_out s1) ++ s_cur s1 ++ olist (s_postponed s1))) ->
    ainv (S k) (push s1 k)) as Push.
  { intros s1 H1 H2 H3. destruct (push_fields s1 k) as (F1 & F2 & F3 & F4 & F5 & _).
    split; rewrite ?F1, ?F2, ?F3, ?F4, ?F5; auto.
    intros i Li Ti. rewrite !in_app_iff. destruct (Nat.eq_dec i k) as [->|Ni]; [cbn; auto|].
    assert (i < k) as Hlt by lia. specialize (H3 i Hlt Ti). rewrite !in_app_iff in H3. tauto. }
  destruct (split_needed (deref els k) (s_types s) (s_last s)) as [[]|] eqn:Sn.
  - exfalso. apply (nosemi _ Ik). unfold split_needed in Sn. apply mem_ch_in.
    destruct (mem_ch 59%N (e_misc (deref els k))); auto. destruct (_ || _); discriminate.
  - change (ainv (S k) (push (close s Repeated) k)). unfold close.
    destruct (insert_postponed s) as [cur m] eqn:Ei.
    destruct (postpone_last_auth (s_heap s) cur m) as [p cur'] eqn:Ep.
    destruct (postpone_spec _ _ _ _ _ Ep) as (_ & _ & _ & B4 & _).
    apply Push; cbn [s_heap s_postponed s_prev s_out s_cur]; auto.
    intros i Li Ti. specialize (K i Li Ti). rewrite !in_app_iff in K.
    rewrite concat_app, !in_app_iff. cbn [concat]. rewrite app_nil_r.
    assert (In i (concat (s_out s)) \/ In i cur) as [C|C].
    { destruct K as [?|K]; auto. right. unfold insert_postponed in Ei.
      destruct (s_postponed s) as [q|].
      - rewrite (P ltac:(discriminate)) in Ei. cbn [is_repeated] in Ei. rewrite orb_true_r in Ei.
        inversion Ei; subst. cbn in K. cbn. tauto.
      - inversion Ei; subst. cbn in K. tauto. }
    + auto.
    + destruct (B4 _ C) as [?| ->]; cbn; auto.
  - apply Push; auto.
Qed.
Lemma ainv_steps : forall m k s, k + m = length els -> ainv k s -> ainv (length els) (fold_left split_step (seq k m) s).
Proof.
  induction m as [|m IH]; intros k s E I; cbn.
  - now replace (length els) with k by lia.
  - apply IH; [lia|]. apply ainv_step; [lia|auto].
Qed.
Lemma authors_kept a : In a els -> e_type a = AUTH -> exists c, In c (citations els) /\ In a c.
Proof.
  intros Ha T. apply In_nth with (d := null_el) in Ha as (i & Li & Ei).
  unfold citations, split_citations.
  assert (ainv (length els) (fold_left split_step (seq 0 (length els)) (s_init els))) as [H P K].
  { apply ainv_steps; [lia|]. split; cbn; auto; try easy; lia. }
  set (s := fold_left _ _ _) in *.
  assert (is_type AUTH (deref els i) = true) as Ti by (apply is_type_true; unfold deref; congruence).
  specialize (K i Li Ti). rewrite !in_app_iff in K.
  assert (In i (concat (s_out s ++ [fst (insert_postponed s)]))) as C.
  { rewrite concat_app, in_app_iff. cbn [concat]. rewrite app_nil_r. destruct K as [?|K]; auto. right.
    unfold insert_postponed. destruct (s_postponed s) as [q|].
    - rewrite (P ltac:(discriminate)). cbn [is_repeated]. rewrite orb_true_r. cbn in *. tauto.
    - cbn in *. tauto. }
  apply in_concat in C as (c & C1 & C2). exists (map (deref (s_heap s)) c). split; [now apply in_map|].
  rewrite H. apply in_map_iff. exists i. auto.
Qed.
End Authors.

(** Every author of a citation is an author of the line (possibly cut at a semicolon). *)
Section NoNewAuthors.
Context (els : list el).
Definition from_line (e : el) : Prop := exists e0, In e0 els /\ In e (cut_of e0).
Record ninv (k : nat) (s : sst) : Prop := {
  n_inv : inv els k s;
  n_from : forall a, In a (concat (s_out s) ++ s_cur s ++ olist (s_postponed s)) -> from_line (deref (s_heap s) a) }.
Lemma close_addr s r : forall a, In a (concat (s_out (close s r)) ++ s_cur (close s r) ++ olist (s_postponed (close s r))) ->
  In a (concat (s_out s) ++ s_cur s ++ olist (s_postponed s)).
Proof.
  unfold close. intros a. destruct (insert_postponed s) as [cur m] eqn:Ei.
  destruct (postpone_last_auth (s_heap s) cur m) as [p cur'] eqn:Ep.
  destruct (postpone_spec _ _ _ _ _ Ep) as (_ & B2 & B3 & _ & _).
  cbn [s_heap s_postponed s_prev s_out s_cur]. rewrite concat_app, !in_app_iff. cbn [concat]. rewrite app_nil_r.
  assert (In a cur -> In a (s_cur s) \/ In a (olist (s_postponed s))) as C.
  { unfold insert_postponed in Ei. destruct (s_postponed s) as [q|].
    - destruct (_ || _); inversion Ei; subst; cbn; tauto.
    - inversion Ei; subst; auto. }
  intros [[?|?]|[[]|H]]; auto. destruct p; [|easy]. destruct H as [->|[]].
  destruct (B3 _ eq_refl). auto.
Qed.
Lemma close_heap s r : s_heap (close s r) = s_heap s.
Proof. unfold close. destruct (insert_postponed s). destruct (postpone_last_auth _ _ _). auto. Qed.
Lemma ninv_step k s : k < length els -> ninv k s -> ninv (S k) (split_step s k).
Proof.
  intros L [I F]. split; [now apply step_inv|].
  assert (deref (s_heap s) k = nth k els null_el) as De by (apply I; lia).
  assert (k < length (s_heap s)) as Lk by (pose proof (i_len _ _ _ I); lia).
  set (e := nth k els null_el) in *. assert (In e els) as Ie by (apply nth_In; auto).
  unfold split_step. rewrite De.
  destruct (split_needed e (s_types s) (s_last s)) as [[]|] eqn:Sn.
  - assert (exists before after, split1 59%N (e_misc e) = Some (before, after)) as (before & after & Es).
    { apply split1_in. unfold split_needed in Sn. apply mem_ch_in.
      destruct (mem_ch 59%N (e_misc e)); auto. destruct (_ || _); discriminate. }
    unfold split_at. rewrite De, Es. cbn [alloc].
    set (h1 := store (s_heap s) k (set_misc after)).
    set (s1 := mksst (h1 ++ [mkel MISC before []]) (s_cur s ++ [length h1]) (s_types s) (s_last s) (s_nauth s) (s_postponed s) (s_prev s) (s_out s)).
    change (forall a, In a (concat (s_out (push (close s1 Semicolon) k)) ++ s_cur (push (close s1 Semicolon) k) ++
      olist (s_postponed (push (close s1 Semicolon) k))) -> from_line (deref (s_heap (push (close s1 Semicolon) k)) a)).
    destruct (push_fields (close s1 Semicolon) k) as (F1 & F2 & F3 & F4 & _). rewrite F1, F2, F3, F4, close_heap.
    assert (length h1 = length (s_heap s)) as Lh by apply store_length.
    intros a Ha. rewrite <- !app_assoc, !in_app_iff in Ha. cbn [In] in Ha.
    assert (a = k \/ In a (concat (s_out s1) ++ s_cur s1 ++ olist (s_postponed s1))) as [->|Hs].
    { assert (k = a \/ In a (concat (s_out (close s1 Semicolon)) ++ s_cur (close s1 Semicolon) ++ olist (s_postponed (close s1 Semicolon)))) as [->|X];
        [rewrite !in_app_iff; tauto|auto|]. right. now apply close_addr in X. }
    + exists e. split; auto. change (s_heap s1) with (h1 ++ [mkel MISC before []]).
      rewrite deref_alloc_old by lia. unfold h1. rewrite deref_store_same by lia. rewrite De.
      unfold cut_of. rewrite Es. cbn. auto.
    + unfold s1 in Hs; cbn [s_out s_cur s_postponed] in Hs. rewrite <- !app_assoc, !in_app_iff in Hs. cbn [In] in Hs.
      assert (a = length h1 \/ In a (concat (s_out s) ++ s_cur s ++ olist (s_postponed s))) as [->|Hs'].
      { rewrite !in_app_iff. destruct Hs as [?|[?|[[?|[]]|?]]]; auto. }
      * change (s_heap s1) with (h1 ++ [mkel MISC before []]). rewrite deref_alloc_new. exists e. split; auto.
        unfold cut_of. rewrite Es. cbn. auto.
      * destruct (i_addr _ _ _ I a Hs') as [O1 O2].
        change (s_heap s1) with (h1 ++ [mkel MISC before []]). rewrite deref_alloc_old by lia.
        unfold h1. rewrite deref_store_other by lia. auto.
  - change (split_at s k Repeated) with (close s Repeated).
    destruct (push_fields (close s Repeated) k) as (F1 & F2 & F3 & F4 & _). rewrite F1, F2, F3, F4, close_heap.
    intros a Ha. rewrite <- !app_assoc, !in_app_iff in Ha. cbn [In] in Ha.
    assert (k = a \/ In a (concat (s_out (close s Repeated)) ++ s_cur (close s Repeated) ++ olist (s_postponed (close s Repeated)))) as [->|X];
        [rewrite !in_app_iff; tauto| |].
    + rewrite De. exists e. split; auto. unfold cut_of.
      destruct (split1 59%N (e_misc e)) as [[]|] eqn:Es; [|cbn; auto].
      apply split1_some in Es as [Es _]. exfalso. unfold split_needed in Sn.
      assert (mem_ch 59%N (e_misc e) = true) as M by (apply mem_ch_in; rewrite Es, in_app_iff; cbn; auto).
      rewrite M in Sn. discriminate.
    + apply close_addr in X. auto.
  - destruct (push_fields s k) as (F1 & F2 & F3 & F4 & _). rewrite F1, F2, F3, F4.
    intros a Ha. rewrite <- !app_assoc, !in_app_iff in Ha. cbn [In] in Ha.
    assert (k = a \/ In a (concat (s_out s) ++ s_cur s ++ olist (s_postponed s))) as [->|X];
        [rewrite !in_app_iff; tauto| |auto].
    rewrite De. exists e. split; auto. unfold cut_of.
    destruct (split1 59%N (e_misc e)) as [[]|] eqn:Es; [|cbn; auto].
    apply split1_some in Es as [Es _]. exfalso. unfold split_needed in Sn.
    assert (mem_ch 59%N (e_misc e) = true) as M by (apply mem_ch_in; rewrite Es, in_app_iff; cbn; auto).
    rewrite M in Sn. discriminate.
Qed.
Lemma ninv_steps : forall m k s, k + m = length els -> ninv k s -> ninv (length els) (fold_left split_step (seq k m) s).
Proof.
  induction m as [|m IH]; intros k s E I; cbn.
  - now replace (length els) with k by lia.
  - apply IH; [lia|]. apply ninv_step; [lia|auto].
Qed.
Lemma citations_from_line c e : In c (citations els) -> In e c -> exists e0, In e0 els /\ In e (cut_of e0).
Proof.
  unfold citations, split_citations.
  assert (ninv (length els) (fold_left split_step (seq 0 (length els)) (s_init els))) as [I F].
  { apply ninv_steps; [lia|]. split; [apply inv_init|easy]. }
  set (s := fold_left _ _ _) in *. rewrite in_map_iff. intros (l & <- & Hl) He.
  apply in_map_iff in He as (a & <- & Ha). apply F.
  destruct (insert_postponed s) as [cur m] eqn:Ei.
  destruct (insert_postponed_spec _ _ _ _ _ I Ei) as (_ & A2 & _). cbn [fst] in Hl.
  apply in_app_iff in Hl as [Hl|[<-|[]]]; rewrite in_app_iff.
  - left. apply in_concat. eauto.
  - right. auto.
Qed.
End NoNewAuthors.
