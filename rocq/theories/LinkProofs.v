(** The linker callback and the recid of a citation (Post.v, Engine.v). *)
From Coq Require Import List Arith NArith Bool Lia Permutation.
From Verif Require Import PyStr ListFacts Elements Record Regex RegexParse Patterns Numeration Transform Split Post ParseTagged
  Tag Engine RecordProofs SplitProofs PostProofs EngineProofs YearProofs.
Import ListNotations.
Local Open Scope nat_scope.
Local Arguments key_eqb : simpl never.
Local Arguments ety_eqb : simpl never.

(** the m-th call, on the element [e], has the outcome [v] *)
Definition answered (f : callback) (m : nat) (e : el) (v : val) : Prop :=
  f m e = Ok v \/ ((f m e = Err IndexError \/ f m e = Err KeyError) /\ v = VNone).
(** exceptions that are not swallowed *)
Definition escapes (x : exn) : Prop := x <> IndexError /\ x <> KeyError.
Lemma associate_one_ok f n e e' : associate_one f n e = Ok e' <-> exists v, answered f n e v /\ e' = set Krecid v e.
Proof.
  unfold associate_one, answered. split.
  - destruct (f n e) as [v|[]]; intros H; inversion H; subst; eauto 8.
  - intros (v & [H|[[H|H] ->]] & ->); rewrite H; auto.
Qed.
Lemma associate_one_err f n e x : associate_one f n e = Err x <-> f n e = Err x /\ escapes x.
Proof.
  unfold associate_one, escapes. split.
  - destruct (f n e) as [v|[]]; intros H; inversion H; subst; repeat split; auto; discriminate.
  - intros [-> [A B]]. destruct x; congruence.
Qed.
(** every element of the line is given to the callback once, in order *)
Lemma associate_ok f : forall l n l' n', associate_recids f n l = Ok (l', n') <->
  n' = n + length l /\ length l' = length l /\
  forall i e e', nth_error l i = Some e -> nth_error l' i = Some e' -> exists v, answered f (n + i) e v /\ e' = set Krecid v e.
Proof.
  induction l as [|e l IH]; cbn [associate_recids length]; intros n l' n'.
  - split.
    + intros H. inversion H; subst. split; [lia|]. split; auto. intros [|i]; discriminate.
    + intros (-> & L & _). destruct l'; [|discriminate]. now rewrite Nat.add_0_r.
  - split.
    + intros H. inv_ok H. inv_ok H. destruct a0 as [t n1]. inversion H; subst. apply IH in E0 as (-> & L & A).
      split; [lia|]. split; [cbn; lia|]. intros [|i] e0 e1; cbn; intros H1 H2.
      * injection H1 as <-. injection H2 as <-. rewrite Nat.add_0_r. now apply associate_one_ok.
      * rewrite Nat.add_succ_r. eapply (A i); eauto.
    + intros (-> & L & A). destruct l' as [|e' l']; [discriminate|].
      destruct (A 0 e e' eq_refl eq_refl) as (v & Q & ->). rewrite Nat.add_0_r in Q.
      assert (associate_one f n e = Ok (set Krecid v e)) as -> by (apply associate_one_ok; eauto). cbn [bind].
      assert (associate_recids f (S n) l = Ok (l', S n + length l)) as ->.
      { apply IH. split; auto. split; [cbn in L; lia|]. intros i e0 e1 H1 H2. specialize (A (S i) e0 e1 H1 H2). now rewrite Nat.add_succ_r in A. }
      cbn. now rewrite Nat.add_succ_r.
Qed.
Lemma associate_err f : forall l n x, associate_recids f n l = Err x <->
  exists i e, nth_error l i = Some e /\ f (n + i) e = Err x /\ escapes x /\
    forall j d, j < i -> nth_error l j = Some d -> exists v, answered f (n + j) d v.
Proof.
  induction l as [|e l IH]; cbn [associate_recids]; intros n x.
  - split; [discriminate|]. intros ([|i] & e & H & _); discriminate.
  - destruct (associate_one f n e) as [e1|y] eqn:E; cbn [bind].
    + apply associate_one_ok in E as (v & Q & ->).
      destruct (associate_recids f (S n) l) as [[t n1]|y] eqn:E2; cbn.
      * split; [discriminate|]. intros ([|i] & e0 & H & F & X & A).
        -- cbn in H. injection H as <-. rewrite Nat.add_0_r in F. destruct X as [X1 X2].
           destruct Q as [Q|[[Q|Q] _]]; rewrite Q in F; inversion F; subst; contradiction.
        -- exfalso. assert (associate_recids f (S n) l = Err x) as Z; [|rewrite E2 in Z; discriminate].
           apply IH. exists i, e0. rewrite Nat.add_succ_r in F. split; auto. split; auto. split; auto.
           intros j d Hj Hd. specialize (A (S j) d ltac:(lia) Hd). now rewrite Nat.add_succ_r in A.
      * rewrite <- E2. rewrite IH. split.
        -- intros (i & e0 & H & F & X & A). exists (S i), e0. rewrite Nat.add_succ_r. split; auto. split; auto. split; auto.
           intros [|j] d Hj Hd; [|rewrite Nat.add_succ_r; apply A; auto; lia]. cbn in Hd. injection Hd as <-.
           rewrite Nat.add_0_r. eauto.
        -- intros ([|i] & e0 & H & F & X & A).
           ++ cbn in H. injection H as <-. rewrite Nat.add_0_r in F. destruct X as [X1 X2].
              destruct Q as [Q|[[Q|Q] _]]; rewrite Q in F; inversion F; subst; contradiction.
           ++ exists i, e0. rewrite Nat.add_succ_r in F. split; auto. split; auto. split; auto.
              intros j d Hj Hd. specialize (A (S j) d ltac:(lia) Hd). now rewrite Nat.add_succ_r in A.
    + split.
      * intros Z. inversion Z; subst. apply associate_one_err in E as [F X]. exists 0, e. rewrite Nat.add_0_r. split; auto. split; auto.
        split; auto. intros j d Hj. lia.
      * intros ([|i] & e0 & H & F & X & A).
        -- cbn in H. injection H as <-. rewrite Nat.add_0_r in F. f_equal.
           assert (associate_one f n e = Err x) as Z by (apply associate_one_err; auto). congruence.
        -- destruct (A 0 e ltac:(lia) eq_refl) as (v & Q). rewrite Nat.add_0_r in Q.
           assert (associate_one f n e = Ok (set Krecid v e)) as Z by (apply associate_one_ok; eauto). congruence.
Qed.

(** ** After the split: all elements of all citations are given to the callback again *)
Definition linked (f : callback) (n n' : nat) (e : el) : Prop :=
  exists m e0 v, n <= m < n' /\ answered f m e0 v /\ e = set Krecid v e0.
Lemma linked_wider f n n' k k' e : k <= n -> n' <= k' -> linked f n n' e -> linked f k k' e.
Proof. intros A B (m & e0 & v & M & Q & E). exists m, e0, v. split; [lia|auto]. Qed.
Lemma associate_heap_linked f : forall c n h h' n', closed h c -> associate_heap f n h c = Ok (h', n') ->
  n' = n + length c /\ length h' = length h /\
  (forall a, In a c -> linked f n n' (deref h' a)) /\ (forall a, deref h' a = deref h a \/ linked f n n' (deref h' a)).
Proof.
  induction c as [|a c IH]; cbn [associate_heap length In]; intros n h h' n' C H.
  - inversion H; subst. split; [lia|]. split; auto. split; [intros ? []|auto].
  - inv_ok H. apply associate_one_ok in E as (v & Q & ->). inversion C; subst.
    apply IH in H as (-> & L & A & B).
    2: { unfold closed in *. eapply Forall_impl; [|eassumption]. cbn. rewrite store_length. auto. }
    rewrite store_length in L.
    assert (forall b, deref h' b = deref h b \/ linked f n (S n + length c) (deref h' b)) as G.
    { intros b. destruct (B b) as [Hb|Hb]; [|right; eapply linked_wider; [| |exact Hb]; lia].
      rewrite Hb. destruct (Nat.eq_dec a b) as [<-|N]; [|left; now apply deref_store_other].
      right. rewrite deref_store_same by auto. exists n, (deref h a), v. split; [lia|auto]. }
    rewrite Nat.add_succ_r. split; auto. split; auto. split; auto.
    intros b [<-|Hb]; [|eapply linked_wider; [| |apply A; auto]; lia].
    destruct (B a) as [Hb|Hb]; [|eapply linked_wider; [| |exact Hb]; lia].
    rewrite Hb, deref_store_same by auto. exists n, (deref h a), v. split; [lia|auto].
Qed.
Lemma associate_citations_linked f : forall cs n h h' n', Forall (closed h) cs -> associate_citations f n h cs = Ok (h', n') ->
  n' = n + length (concat cs) /\ length h' = length h /\
  (forall a, In a (concat cs) -> linked f n n' (deref h' a)) /\ (forall a, deref h' a = deref h a \/ linked f n n' (deref h' a)).
Proof.
  induction cs as [|c cs IH]; cbn [associate_citations concat]; intros n h h' n' C H.
  - inversion H; subst. split; [cbn; lia|]. split; auto. split; [intros ? []|auto].
  - inv_ok H. destruct a as [h1 n1]. cbn in H. inversion C; subst. apply associate_heap_linked in E as (-> & L & A & B); auto.
    apply IH in H as (-> & L' & A' & B').
    2: { eapply Forall_impl; [|eassumption]. unfold closed. intros ? F. eapply Forall_impl; [|exact F]. cbn. rewrite L. auto. }
    rewrite app_length. split; [lia|]. split; [lia|]. split.
    + intros a Ha. rewrite in_app_iff in Ha. destruct (in_dec Nat.eq_dec a (concat cs)) as [I|N].
      * eapply linked_wider; [| |apply A'; auto]; lia.
      * destruct Ha as [Ha|]; [|contradiction]. destruct (B' a) as [Hb|Hb]; [|eapply linked_wider; [| |exact Hb]; lia].
        rewrite Hb. eapply linked_wider; [| |apply A; auto]; lia.
    + intros a. destruct (B' a) as [Hb|Hb]; [|right; eapply linked_wider; [| |exact Hb]; lia].
      rewrite Hb. destruct (B a) as [Hc|Hc]; [auto|]. right. eapply linked_wider; [| |exact Hc]; lia.
Qed.

(** The dictionary of an element is not changed when a surplus author becomes misc text *)
Lemma dup_authors_dict : forall c found h h', dup_authors found h c = Ok h' ->
  length h' = length h /\ forall a, e_dict (deref h' a) = e_dict (deref h a).
Proof.
  induction c as [|a c IH]; cbn [dup_authors]; intros found h h' H; [inversion H; subst; auto|].
  destruct (is_type AUTH (deref h a)); [|eauto]. destruct found; [|eauto]. inv_ok H.
  apply IH in H as [L D]. rewrite store_length in L. split; auto. intros b. rewrite D.
  destruct (Nat.eq_dec a b) as [<-|N]; [|now rewrite deref_store_other].
  destruct (Nat.lt_ge_cases a (length h)).
  - now rewrite deref_store_same.
  - unfold deref. rewrite !nth_overflow; auto. now rewrite store_length.
Qed.
Lemma dup_authors_each_dict : forall cs h h' cs',
  each (fun h c => let* h' := dup_authors false h c in Ok (h', c)) h cs = Ok (h', cs') ->
  length h' = length h /\ forall a, e_dict (deref h' a) = e_dict (deref h a).
Proof.
  induction cs as [|c cs IH]; cbn [each]; intros h h' cs' H; [inversion H; subst; auto|].
  inv_ok H. destruct a as [h1 c1]. inv_ok E. inversion E; subst. cbn in H. inv_ok H. destruct a as [h2 t2]. cbn in H. inversion H; subst; clear H.
  apply dup_authors_dict in E0 as [L D]. apply IH in E1 as [L' D']. split; [lia|]. intros a. now rewrite D'.
Qed.

Lemma no_ty_Forall t h c : no_ty t (tys h c) -> Forall (fun a => e_type (deref h a) <> t) c.
Proof.
  unfold no_ty. induction c as [|a c IH]; intros H; constructor; rewrite tys_cons, count_ty_hd in H;
    destruct (ety_eqb_spec (e_type (deref h a)) t); try lia; auto.
Qed.
(** an element has the answer of one of the calls n, ..., n'-1, about itself *)
Definition asked (f : callback) (n n' : nat) (e : el) : Prop :=
  exists m e0 v, n <= m < n' /\ answered f m e0 v /\ get Krecid e = Some v /\ forall k, k <> Krecid -> get k e = get k e0.
Lemma linked_asked f n n' e e' : linked f n n' e -> e_dict e' = e_dict e -> asked f n n' e'.
Proof.
  intros (m & e0 & v & M & Q & ->) D. exists m, e0, v. split; auto. split; auto. unfold get. rewrite D.
  split; [apply get_set_same|]. intros k Hk. change (get k (set Krecid v e0) = get k e0). rewrite get_set.
  destruct (key_eqb_spec k Krecid); [contradiction|auto].
Qed.
Theorem post_split_recid books cb n h0 cs0 st' n' :
  Forall (closed h0) cs0 -> Forall (fun c => no_ty RECID (tys h0 c)) cs0 ->
  post_split books cb n (h0, cs0) = Ok (st', n') ->
  Forall (fun cit => exists body, Forall (fun e => e_type e <> RECID) body
    /\ match cb with Some f => Forall (asked f n n') body | None => True end
    /\ match find (fun e => truthy_opt (get Krecid e)) body with
       | Some e => exists v, get Krecid e = Some v /\ cit = body ++ [recid_el v]
       | None => cit = body
       end) (values st').
Proof.
  intros C0 N0 H. unfold post_split in H.
  inv_ok H. destruct a as [h1 cs1]. unfold look_for_implied_ibids in E. cbn [fst snd] in E.
  apply implied_ibids_spec in E as (X1 & C1 & F1); auto.
  assert (Forall (fun c => no_ty RECID (tys h1 c)) cs1) as N1.
  { clear - F1 N0. induction F1 as [|x y l l' (k & R) F IH]; inversion N0; subst; constructor; auto.
    unfold no_ty in *. rewrite R, count_ty_app, repeat_count by discriminate. lia. }
  inv_ok H. destruct a as [h2 cs2]. unfold add_year_elements in E. cbn [fst snd] in E.
  apply (each_spec _ _ add_year_one_spec) in E as (X2 & C2 & F2); auto.
  assert (Forall (fun c => no_ty RECID (tys h2 c)) cs2) as N2.
  { clear - F2 N1. induction F2 as [|x y l l' R F IH]; inversion N1; subst; constructor; auto.
    unfold no_ty in *. apply (may_add_count RECID) in R. unfold ety_eqb in R; cbn in R; lia. }
  inv_ok H. destruct a as [h3 cs3]. unfold look_for_undetected_books in E. cbn [fst snd] in E.
  apply (each_spec _ (may_add BOOK)) in E as (X3 & C3 & F3); auto.
  2: { intros h c h' c' Cl Ho. destruct (is_unknown_citation _).
       - unfold search_for_book_in_misc in Ho. eapply search_elements_spec; eauto.
       - inversion Ho; subst. split; [apply ext_refl|split; [auto|now left]]. }
  assert (Forall (fun c => no_ty RECID (tys h3 c)) cs3) as N3.
  { clear - F3 N2. induction F3 as [|x y l l' R F IH]; inversion N2; subst; constructor; auto.
    unfold no_ty in *. apply (may_add_count RECID) in R. unfold ety_eqb in R; cbn in R; lia. }
  inv_ok H. destruct a as [[h4 cs4] n4].
  assert (ext h3 h4 /\ cs4 = cs3 /\ match cb with Some f => forall a, In a (concat cs3) -> linked f n n4 (deref h4 a) | None => True end) as (X4 & -> & K4).
  { destruct cb as [f|]; cbn [fst snd] in E.
    - inv_ok E. destruct a as [h k]. cbn in E. inversion E; subst.
      split; [eapply associate_citations_ext; eauto|]. split; auto. apply associate_citations_linked in E0; auto. tauto.
    - inversion E; subst. split; [apply ext_refl|auto]. }
  clear E. inv_ok H. destruct a as [h5 cs5]. unfold remove_duplicated_authors in E. cbn [fst snd] in E.
  pose proof (dup_authors_each_dict _ _ _ _ E) as (L5 & D5).
  apply dup_authors_all in E as (-> & X5 & _).
  unfold remove_duplicated_dois in H. cbn [fst snd] in H.
  pose proof (dup_dois_all h5 cs3) as F6. set (cs6 := map (fun c : list addr => dup_dois false h5 c c) cs3) in *.
  inv_ok H. destruct a as [h7 cs7]. unfold remove_duplicated_collaborations in E. cbn [fst snd] in E.
  pose proof (dup_collabs_all _ _ _ _ E) as [-> F7].
  inv_ok H. destruct a as [h8 cs8]. inversion H; subst; clear H.
  unfold add_recid_elements in E0. cbn [fst snd] in E0.
  assert (Forall (closed h5) cs3) as C5.
  { eapply Forall_impl; [|exact C3]. intros c Hc. apply (closed_ext h3 h4) in Hc; auto. unfold closed in *. now rewrite L5. }
  assert (Forall (closed h5) cs6) as C6 by (clear - F6 C5; induction F6; inversion C5; subst; constructor; tauto).
  assert (Forall (closed h5) cs7) as C7 by (clear - F7 C6; induction F7; inversion C6; subst; constructor; tauto).
  apply add_recid_values in E0 as (_ & _ & V8); auto.
  (* the elements of the citations before the recids are added *)
  assert (Forall (fun c => incl c (concat cs3) /\ Forall (fun a => e_type (deref h5 a) <> RECID) c) cs7) as I7.
  { assert (Forall (fun c => incl c (concat cs3) /\ Forall (fun a => e_type (deref h5 a) <> RECID) c) cs3) as I3.
    { apply Forall_forall. intros c Hc. split; [intros a Ha; apply in_concat; eauto|].
      rewrite Forall_forall in N3, C3. specialize (N3 c Hc). specialize (C3 c Hc). rewrite <- (tys_ext h3 h4) in N3 by auto.
      apply no_ty_Forall in N3. eapply Forall_impl; [|exact N3]. cbn. intros a T. destruct X5 as [_ X5]. destruct (X5 a) as [->|[_ ->]]; auto. discriminate. }
    assert (Forall (fun c => incl c (concat cs3) /\ Forall (fun a => e_type (deref h5 a) <> RECID) c) cs6) as I6.
    { unfold cs6. apply Forall_forall. intros c Hc. apply in_map_iff in Hc as (c0 & <- & Hc). rewrite Forall_forall in I3.
      destruct (I3 _ Hc) as [I T]. split.
      - intros a Ha. apply I. eapply dup_dois_in; eauto.
      - apply Forall_forall. intros a Ha. rewrite Forall_forall in T. apply T. eapply dup_dois_in; eauto. }
    clear - E I6. revert E I6. generalize (concat cs3). clearbody cs6. intros U. revert cs7. induction cs6 as [|c cs6 IH]; cbn [each]; intros cs7 H I6.
    - inversion H; subst. constructor.
    - inv_ok H. destruct a as [h1 c1]. inv_ok E. inversion E; subst. cbn in H. inv_ok H. destruct a as [h2 t2]. cbn in H. inversion H; subst; clear H.
      inversion I6; subst. constructor; [|eapply IH; eauto]. destruct H1 as [I T]. split.
      + intros x Hx. apply I. eapply dup_collabs_in; eauto.
      + apply Forall_forall. intros x Hx. rewrite Forall_forall in T. apply T. eapply dup_collabs_in; eauto. }
  unfold values. cbn [fst snd]. apply Forall_forall. intros cit Hcit. apply in_map_iff in Hcit as (c8 & <- & H8).
  assert (exists c7, In c7 cs7 /\ match find (fun e => truthy_opt (get Krecid e)) (map (deref h5) c7) with
    | Some e => exists v, get Krecid e = Some v /\ map (deref h8) c8 = map (deref h5) c7 ++ [recid_el v]
    | None => map (deref h8) c8 = map (deref h5) c7
    end) as (c7 & H7 & R).
  { clear - V8 H8. induction V8 as [|x y l l' R F IH]; [destruct H8|]. destruct H8 as [->|H8]; [exists x; split; [now left|auto]|].
    destruct (IH H8) as (c7 & I & R'). exists c7. split; [now right|auto]. }
  exists (map (deref h5) c7). rewrite Forall_forall in I7. destruct (I7 _ H7) as [I T].
  split; [apply Forall_map; auto|]. split; auto. destruct cb as [f|]; auto.
  apply Forall_map. apply Forall_forall. intros a Ha. eapply linked_asked; [apply K4, I, Ha|apply D5].
Qed.

(** ** Without a callback no element gets a recid *)
Definition unlinked (e : el) : Prop := get Krecid e = None.
Lemma get_set_other k k' v e : key_eqb k k' = false -> get k (set k' v e) = get k e.
Proof. intros H. rewrite get_set. now rewrite H. Qed.
Lemma dget_ddel k k' d : key_eqb k k' = false -> dget k (ddel k' d) = dget k d.
Proof.
  intros N. unfold ddel. induction d as [|[k2 v] d IH]; cbn; auto.
  destruct (key_eqb_spec k' k2); cbn; subst; [rewrite N; auto|]. destruct (key_eqb k k2); auto.
Qed.
Lemma get_del_other k k' e : key_eqb k k' = false -> get k (del k' e) = get k e.
Proof. intros H. apply dget_ddel. auto. Qed.
Lemma get_misc k s e : get k (set_misc s e) = get k e. Proof. reflexivity. Qed.
Lemma get_type k t e : get k (set_type t e) = get k e. Proof. reflexivity. Qed.
Ltac unlk := unfold unlinked, set_str, journal_el, hdl_el in *;
  repeat first [rewrite get_set_other by reflexivity | rewrite get_del_other by reflexivity | rewrite get_misc | rewrite get_type];
  first [assumption | reflexivity | match goal with |- get _ (if ?b then _ else _) = _ => destruct b end; unlk].
Lemma tag_step_unlinked s o s' : tag_step s o = Ok s' -> Forall unlinked (ps_els s) -> Forall unlinked (ps_els s').
Proof.
  unfold tag_step. intros H F.
  assert (forall e, unlinked e -> Forall unlinked (ps_els s ++ [e])) as A.
  { intros e B. apply Forall_app. split; auto. }
  repeat match type of H with (if ?b then _ else _) = _ => destruct b end; try discriminate.
  all: unfold journal_step, report_step, url_step, doi_step, auth_step, misc_step, subfield_step, map_tag_to_subfield in H.
  all: repeat match type of H with
       | context [match find_from ?a ?b ?c with _ => _ end] => destruct (find_from a b c)
       | context [match find_sub ?a ?b with _ => _ end] => destruct (find_sub a b)
       | context [match re_search ?a ?b with _ => _ end] => destruct (re_search a b)
       | context [match ps_urls ?b with _ => _ end] => destruct (ps_urls b) as [|[]]
       | context [match ps_dois ?b with _ => _ end] => destruct (ps_dois b)
       | bind _ _ = Ok _ => inv_ok H
       | (let (_, _) := ?p in _) = Ok _ => destruct p
       end; try discriminate; try (inversion H; subst; clear H; cbn [ps_els]; rewrite ?app_nil_r; auto; apply A; unlk).
  all: try (destruct (convert_unusable_tag_to_misc _ _ _ _); inversion H; subst; auto).
Qed.
Lemma tag_loop_unlinked : forall fuel s s', tag_loop fuel s = Ok s' -> Forall unlinked (ps_els s) -> Forall unlinked (ps_els s').
Proof.
  induction fuel as [|f IH]; cbn; intros s s' H F; destruct (re_search _ _); try discriminate; try (inversion H; subst; auto).
  inv_ok H. eapply IH; eauto. eapply tag_step_unlinked; eauto.
Qed.
Lemma parse_tagged_unlinked line dois urls els c :
  parse_tagged_reference_line line dois urls = Ok (els, c) -> Forall unlinked els.
Proof.
  unfold parse_tagged_reference_line. intros H. inv_ok H. apply tag_loop_unlinked in E; [|constructor].
  destruct (nonempty _); inversion H; subst; auto. apply Forall_app. split; auto. constructor; auto. reflexivity.
Qed.
Lemma split_volume_el_unlinked e e' : unlinked e -> split_volume_el e = Ok e' -> unlinked e'.
Proof. unfold split_volume_el. intros B H. crunch H; unlk. Qed.
Lemma format_volume_el_unlinked e e' : unlinked e -> format_volume_el e = Ok e' -> unlinked e'.
Proof. unfold format_volume_el. intros B H. crunch H; unlk. Qed.
Lemma special_el_unlinked sp e e' : unlinked e -> handle_special_journals_el sp e = Ok e' -> unlinked e'.
Proof. unfold handle_special_journals_el. intros B H. crunch_all; unlk. Qed.
Lemma report_el_unlinked e e' : unlinked e -> format_report_number_el e = Ok e' -> unlinked e'.
Proof. unfold format_report_number_el. intros B H. crunch H; unlk. Qed.
Lemma hep_el_unlinked e e' : unlinked e -> format_hep_el e = Ok e' -> unlinked e'.
Proof. unfold format_hep_el. intros B H. crunch H; unlk. Qed.
Lemma author_el_unlinked e e' : unlinked e -> format_author_ed_el e = Ok e' -> unlinked e'.
Proof. unfold format_author_ed_el. intros B H. crunch H; unlk. Qed.
Lemma remove_b_el_unlinked e e' : unlinked e -> remove_b_el e = Ok e' -> unlinked e'.
Proof. unfold remove_b_el. intros B H. crunch H; unlk. Qed.
Lemma mangle_el_unlinked e e' : unlinked e -> mangle_volume_el e = Ok e' -> unlinked e'.
Proof. unfold mangle_volume_el. intros B H. crunch H; unlk. Qed.
Lemma arxiv_el_unlinked e e' : unlinked e -> arxiv_url_el e = Ok e' -> unlinked e'.
Proof. unfold arxiv_url_el. intros B H. crunch H; unlk. Qed.
Lemma hdl_el_unlinked e e' : unlinked e -> hdl_url_el e = Ok e' -> unlinked e'.
Proof. unfold hdl_url_el. intros B H. crunch H; unlk. Qed.
Lemma books_unlinked books l l' : look_for_books books l = Ok l' -> Forall unlinked l -> Forall unlinked l'.
Proof.
  unfold look_for_books. intros H F. crunch H; auto. apply Forall_forall. intros y Hy.
  apply remove_first_in, in_app_iff in Hy as [Hy|[<-|[]]]; [rewrite Forall_forall in F; auto|unlk].
Qed.
Lemma hdl_insert_unlinked st o : Forall unlinked (fst st) -> Forall unlinked (fst (hdl_insert st o)).
Proof.
  destruct st as [l p]. unfold hdl_insert. cbn [fst]. intros F. destruct (nth_error l p) as [e|] eqn:N; auto. cbn [fst].
  apply insert_at_Forall; [unlk|]. apply update_at_Forall; auto. intros _ _. apply nth_error_In in N.
  rewrite Forall_forall in F. apply (F _ N).
Qed.
Lemma look_for_hdl_unlinked l : Forall unlinked l -> Forall unlinked (look_for_hdl l).
Proof.
  unfold look_for_hdl. generalize 0. generalize (length l) at 1. intros todo. revert l.
  induction todo as [|t IH]; cbn; intros l p F; auto. destruct (nth_error l p); auto.
  match goal with |- context [fold_left hdl_insert ?ms ?x] => generalize ms; intros ms' end.
  assert (forall ms st, Forall unlinked (fst st) -> Forall unlinked (fst (fold_left hdl_insert ms st))) as G.
  { induction ms as [|o ms IHm]; cbn; auto. intros st Fs. apply IHm. now apply hdl_insert_unlinked. }
  specialize (G ms' (l, p) F). destruct (fold_left hdl_insert ms' (l, p)) as [l' p']. now apply IH.
Qed.
Lemma transform_unlinked K l l' : transform K l = Ok l' -> Forall unlinked l -> Forall unlinked l'.
Proof.
  unfold transform. intros H F. repeat (inv_ok H).
  unfold split_volume_from_journal, format_volume, handle_special_journals, format_report_number, format_author_ed,
    format_hep, remove_b_for_nucl_phys, mangle_volume, arxiv_urls_to_report_numbers, look_for_hdl_urls in *.
  eapply mapM_Forall; [apply hdl_el_unlinked|exact H|]. apply look_for_hdl_unlinked.
  eapply mapM_Forall; [apply arxiv_el_unlinked|exact E8|].
  eapply mapM_Forall; [apply mangle_el_unlinked|exact E7|].
  eapply mapM_Forall; [apply remove_b_el_unlinked|exact E6|].
  eapply mapM_Forall; [apply hep_el_unlinked|exact E5|].
  eapply books_unlinked; [exact E4|].
  eapply mapM_Forall; [apply author_el_unlinked|exact E3|].
  eapply mapM_Forall; [apply report_el_unlinked|exact E2|].
  eapply mapM_Forall; [apply special_el_unlinked|exact E1|].
  eapply mapM_Forall; [apply format_volume_el_unlinked|exact E0|].
  eapply mapM_Forall; [apply split_volume_el_unlinked|exact E|]. auto.
Qed.
Lemma cut_of_unlinked e x : unlinked e -> In x (cut_of e) -> unlinked x.
Proof.
  unfold cut_of. intros B H.
  repeat match type of H with
  | context [match ?x with _ => _ end] => destruct x
  end; cbn in H; intuition (subst; auto); try reflexivity.
Qed.

Definition clean_heap (h : heap) : Prop := forall a, unlinked (deref h a).
Lemma clean_alloc h e : clean_heap h -> unlinked e -> clean_heap (h ++ [e]).
Proof.
  intros H E a. destruct (Nat.lt_trichotomy a (length h)) as [L|[->|G]].
  - now rewrite deref_alloc_old.
  - now rewrite deref_alloc_new.
  - unfold deref. rewrite nth_overflow; [reflexivity|]. rewrite app_length. cbn. lia.
Qed.
Lemma clean_store h a f : clean_heap h -> (unlinked (deref h a) -> unlinked (f (deref h a))) -> clean_heap (store h a f).
Proof.
  intros H E b. destruct (Nat.eq_dec a b) as [<-|N]; [|now rewrite deref_store_other].
  destruct (Nat.lt_ge_cases a (length h)); [rewrite deref_store_same; auto|].
  unfold deref. rewrite nth_overflow; [reflexivity|]. now rewrite store_length.
Qed.
Lemma implied_loop_clean j : forall todo h c h' c', clean_heap h -> implied_loop j h c todo = Ok (h', c') -> clean_heap h'.
Proof.
  induction todo as [|a todo IH]; cbn [implied_loop]; intros h c h' c' C H; [inversion H; subst; auto|].
  destruct (is_type MISC (deref h a)); [|eauto]. inv_ok H. destruct a0 as [i|]; [|eauto].
  inv_ok H. inv_ok H. destruct (get Ktitle (deref h j)); [|discriminate]. destruct (truthy_str (n_page i)); [|discriminate].
  cbn [alloc] in H. eapply IH; [|exact H]. apply clean_store; [|auto]. apply clean_alloc; auto. unfold ibid_el. unlk.
Qed.
Lemma implied_clean : forall cs j h h' cs', clean_heap h -> implied_ibids j h cs = Ok (h', cs') -> clean_heap h'.
Proof.
  induction cs as [|c cs IH]; cbn [implied_ibids]; intros j h h' cs' C H; [inversion H; subst; auto|].
  inv_ok H. destruct a as [h1 c1]. cbn in H. inv_ok H. destruct a as [h2 c2]. inversion H; subst. eapply IH; [|exact E0].
  destruct j as [ja|]; [destruct (existsb _ c)|]; try (inversion E; subst; auto). eapply implied_loop_clean; eauto.
Qed.
Lemma each_clean f : (forall h c h' c', clean_heap h -> f h c = Ok (h', c') -> clean_heap h') ->
  forall cs h h' cs', clean_heap h -> each f h cs = Ok (h', cs') -> clean_heap h'.
Proof.
  intros Hf. induction cs as [|c cs IH]; cbn [each]; intros h h' cs' C H; [inversion H; subst; auto|].
  inv_ok H. destruct a as [h1 c1]. cbn in H. inv_ok H. destruct a as [h2 c2]. cbn in H. inversion H; subst. eauto.
Qed.
Lemma clean_fold_drop y : forall c h, clean_heap h -> clean_heap (fold_left (fun h a => store h a (drop_year y)) c h).
Proof.
  intros c h C a. unfold unlinked, get. pose proof (fold_drop_bare y c h a) as B. unfold bare in B. injection B as _ ->. apply C.
Qed.
Lemma add_year_clean h c h' c' : clean_heap h -> add_year_one h c = Ok (h', c') -> clean_heap h'.
Proof.
  unfold add_year_one. intros C H. inv_ok H. destruct a as [[|y0 y]|]; cbn [alloc] in H; inversion H; subst; auto.
  apply (clean_fold_drop (y0 :: y)). apply clean_alloc; auto. reflexivity.
Qed.
Lemma search_clean books year : forall todo h c h' c', clean_heap h -> search_elements books year h c todo = Ok (h', c') -> clean_heap h'.
Proof.
  induction todo as [|a todo IH]; cbn [search_elements]; intros h c h' c' C H; [inversion H; subst; auto|].
  inv_ok H. destruct a0 as [[line m']|]; [|eauto]. cbn [alloc] in H. inversion H; subst.
  apply clean_store; [|auto]. apply clean_alloc; auto. reflexivity.
Qed.
Theorem post_split_no_callback books n h0 cs0 st' n' :
  Forall (closed h0) cs0 -> Forall (fun c => no_ty RECID (tys h0 c)) cs0 -> clean_heap h0 ->
  post_split books None n (h0, cs0) = Ok (st', n') ->
  n' = n /\ Forall (Forall (fun e => e_type e <> RECID)) (values st').
Proof.
  intros C0 N0 K0 H. pose proof (post_split_recid _ _ _ _ _ _ _ C0 N0 H) as P.
  unfold post_split in H.
  inv_ok H. destruct a as [h1 cs1]. unfold look_for_implied_ibids in E. cbn [fst snd] in E. apply implied_clean in E; auto.
  inv_ok H. destruct a as [h2 cs2]. unfold add_year_elements in E0. cbn [fst snd] in E0.
  eapply each_clean in E0; [|apply add_year_clean|exact E].
  inv_ok H. destruct a as [h3 cs3]. unfold look_for_undetected_books in E1. cbn [fst snd] in E1.
  eapply each_clean in E1; [|intros h c h' c' C Q; destruct (is_unknown_citation _); [eapply search_clean; eauto|inversion Q; subst; auto]|exact E0].
  cbn [bind] in H. inv_ok H. destruct a as [h5 cs5]. unfold remove_duplicated_authors in E2. cbn [fst snd] in E2.
  pose proof (dup_authors_each_dict _ _ _ _ E2) as (L5 & D5).
  assert (clean_heap h5) as K5 by (intros a; unfold unlinked, get; rewrite D5; apply E1).
  unfold remove_duplicated_dois in H. cbn [fst snd] in H. inv_ok H. destruct a as [h7 cs7].
  unfold remove_duplicated_collaborations in E3. cbn [fst snd] in E3. apply dup_collabs_all in E3 as [-> _].
  inv_ok H. destruct a as [h8 cs8]. inversion H; subst; clear H. split; auto.
  unfold add_recid_elements in E3. cbn [fst snd] in E3.
  assert (h8 = h5) as ->.
  { revert E3. clear - K5. revert cs8. induction cs7 as [|c cs IH]; cbn [each]; intros cs8 H; [inversion H; auto|].
    inv_ok H. destruct a as [h1 c1]. assert (h1 = h5) as ->.
    { unfold add_recid_one in E. destruct (find _ c) as [a|] eqn:F; [|inversion E; auto].
      apply find_some in F as [_ F]. unfold clean_heap, unlinked in K5. rewrite K5 in F. discriminate. }
    cbn in H. inv_ok H. destruct a as [h2 c2]. cbn in H. inversion H; subst. eauto. }
  apply Forall_forall. intros cit Hc. rewrite Forall_forall in P. destruct (P _ Hc) as (body & T & _ & R).
  destruct (find _ body) as [e|] eqn:F; [|now subst]. exfalso.
  unfold values in Hc. cbn [fst snd] in Hc. apply in_map_iff in Hc as (c8 & <- & _).
  apply find_some in F as [Ie F]. destruct R as (v & Gv & R).
  assert (In e (map (deref h5) c8)) as Ie' by (rewrite R, in_app_iff; auto).
  apply in_map_iff in Ie' as (a & <- & _). unfold clean_heap, unlinked in K5. rewrite K5 in Gv. discriminate.
Qed.

(** ** From the returned references back to the citations *)
Lemma split_heap_unlinked els h cs : Forall unlinked els -> split_citations els = (h, cs) -> clean_heap h.
Proof.
  unfold split_citations. intros F H. injection H as H _.
  assert (forall l s, clean_heap (s_heap s) -> clean_heap (s_heap (fold_left split_step l s))) as G.
  { induction l as [|a l IH]; cbn [fold_left]; auto. intros s C. apply IH. unfold split_step.
    assert (forall s0, s_heap (push s0 a) = s_heap s0) as P.
    { intros s0. unfold push. now destruct (e_type _). }
    destruct (split_needed _ _ _) as [r|]; rewrite P; auto. unfold split_at.
    match goal with |- context [insert_postponed ?x] => set (s1 := x) end.
    assert (clean_heap (s_heap s1)) as C1.
    { unfold s1. destruct r; auto. destruct (split1 _ _) as [[misc rest]|]; auto. cbn.
      apply clean_alloc; [|reflexivity]. apply clean_store; auto. }
    destruct (insert_postponed s1). destruct (postpone_last_auth _ _ _). exact C1. }
  rewrite <- H. apply G. cbn. intros a. unfold deref. destruct (nth_in_or_default a els null_el) as [I|E].
  - rewrite Forall_forall in F. auto.
  - rewrite E. reflexivity.
Qed.
Definition origin (cb : option callback) (f : template) (r : ref) (cit : list el) : Prop :=
  exists K n els cits n' marker raw, Forall basic els /\ Forall unlinked els /\ cite K cb n els = Ok (cits, n')
  /\ In cit cits /\ build_reference_fields cit marker raw f = Ok [r].
Lemma parse_line_origin E x cb line cits m c x' : parse_reference_line E x cb line = Ok (cits, m, c, x') ->
  exists K n els n', Forall basic els /\ Forall unlinked els /\ cite K cb n els = Ok (cits, n').
Proof.
  unfold parse_reference_line. intros H. inv_ok H. destruct a as [mk l].
  destruct (identify_and_tag_DOI E l) as [l1 dois]. destruct (identify_and_tag_URLs l1) as [l2 urls].
  inv_ok H. destruct a as [[tg ti] sd]. inv_ok H. destruct a as [els cnt]. inv_ok H. destruct a as [ci n].
  inversion H; subst. exists (set_std (x_kbs x) sd), (x_calls x), els, n.
  split; [eapply parse_tagged_basic; eauto|]. split; [eapply parse_tagged_unlinked; eauto|auto].
Qed.
Lemma parse_lines_origin E cb : forall lines x cnt ps cnt' x', parse_lines E x cb cnt lines = Ok (ps, cnt', x') ->
  Forall (fun p => exists K n els n', Forall basic els /\ Forall unlinked els /\ cite K cb n els = Ok (p_elements p, n')) ps.
Proof.
  induction lines as [|raw t IH]; cbn [parse_lines]; intros x cnt ps cnt' x' H; [inversion H; constructor|].
  inv_ok H. destruct a as [[[cits m] c] x1]. inv_ok H. inv_ok H. destruct a0 as [[ps1 c1] x2]. inversion H; subst.
  constructor; eauto. cbn. eapply parse_line_origin; eauto.
Qed.
Lemma build_line_origin f p rs : build_line f p = Ok rs ->
  Forall (fun r => exists cit, In cit (p_elements p) /\ build_reference_fields cit (p_marker p) (p_raw p) f = Ok [r]) rs.
Proof.
  unfold build_line. intros H. inv_ok H. inversion H; subst; clear H. apply mapM_ok in E.
  assert (forall L, incl (p_elements p) L -> Forall (fun r => exists cit, In cit L /\ build_reference_fields cit (p_marker p) (p_raw p) f = Ok [r]) (concat a)) as G.
  { intros L. induction E as [|els rs l a H F IH]; intros I; [constructor|]. cbn [concat]. apply Forall_app. split.
    - destruct (build_reference_fields_raw _ _ _ _ _ H) as (r & -> & _). constructor; auto. exists els. split; auto. apply I. now left.
    - apply IH. intros z Hz. apply I. now right. }
  apply G. intros z Hz. auto.
Qed.
Lemma reference_origin E K cb f lines refs stats : parse_references E K cb f lines = Ok (refs, stats) ->
  Forall (fun r => exists cit, origin cb f r cit) refs.
Proof.
  unfold parse_references. intros H. inv_ok H. destruct a as [[ps cnt] x]. inv_ok H. inv_ok H. inversion H; subst.
  unfold parse_references_elements in E0. apply parse_lines_origin in E0.
  apply build_references_spec in E1 as (blocks & -> & F).
  clear - E0 F. revert E0. induction F as [|p b ps blocks Hb F IH]; intros E0; [constructor|].
  inversion E0; subst. cbn [concat]. apply Forall_app. split; auto. destruct H1 as (K' & n & els & n' & B & U & C).
  apply build_line_origin in Hb. eapply Forall_impl; [|exact Hb]. cbn. intros r (cit & I & Br).
  exists cit, K', n, els, (p_elements p), n', (p_marker p), (p_raw p). auto.
Qed.

(** the citation [cit] is a list of elements followed by the first true answer *)
Definition recid_first (P : el -> Prop) (cit : list el) : Prop :=
  exists body, Forall (fun e => e_type e <> RECID /\ P e) body
    /\ match find (fun e => truthy_opt (get Krecid e)) body with
       | Some e => exists v, get Krecid e = Some v /\ cit = body ++ [recid_el v]
       | None => cit = body
       end.
Lemma cite_recid K f n els cits n' : Forall basic els -> cite K (Some f) n els = Ok (cits, n') ->
  n <= n' /\ Forall (recid_first (asked f n n')) cits.
Proof.
  unfold cite. intros B H. inv_ok H. apply transform_basic in E; auto. inv_ok H. destruct a0 as [els' n1].
  pose proof (associate_basic _ _ _ _ _ E0 E) as B'. apply associate_ok in E0 as (-> & _ & _).
  inv_ok H. destruct a0 as [st n2]. inversion H; subst; clear H.
  destruct (split_citations els') as [h cs] eqn:Es.
  pose proof (split_closed _ _ _ Es) as [Ne Cl]. pose proof (split_basic _ _ _ B' Es) as Nb.
  assert (Forall (closed h) cs) as C.
  { apply Forall_forall. intros c Hc. apply Forall_forall. intros a0 Ha. now apply (Cl c). }
  assert (n + length a <= n') as Le.
  { clear - E0 C. unfold post_split in E0. inv_ok E0. inv_ok E0. inv_ok E0. inv_ok E0. destruct a3 as [st4 n4]. inv_ok E0. inv_ok E0. inv_ok E0.
    inversion E0; subst. inv_ok E3. match type of E3 with (let (_, _) := ?p in _) = _ => destruct p as [h5 n5] end. inversion E3; subst.
    assert (forall cs n h h' n', associate_citations f n h cs = Ok (h', n') -> n <= n') as G.
    { clear. assert (forall c n h h' n', associate_heap f n h c = Ok (h', n') -> n <= n') as G.
      { induction c as [|a c IH]; cbn [associate_heap]; intros n h h' n' H; [inversion H; auto|]. inv_ok H. apply IH in H. lia. }
      induction cs as [|c cs IH]; cbn [associate_citations]; intros n h h' n' H; [inversion H; auto|].
      inv_ok H. destruct a as [h1 n1]. cbn in H. apply IH in H. apply G in E. lia. }
    eapply G; eauto. }
  apply post_split_recid in E0; auto.
  2: { eapply Forall_impl; [|exact Nb]. cbn. tauto. }
  split; [lia|]. eapply Forall_impl; [|exact E0]. cbn. intros cit (body & T & A & M). exists body. split; auto.
  rewrite Forall_forall in *. intros e He. split; auto. destruct (A e He) as (m & e0 & v & Hm & Q). exists m, e0, v. split; [lia|auto].
Qed.
Lemma cite_no_callback K n els cits n' : Forall basic els -> Forall unlinked els -> cite K None n els = Ok (cits, n') ->
  n' = n /\ Forall (Forall (fun e => e_type e <> RECID)) cits.
Proof.
  unfold cite. intros B U H. inv_ok H. pose proof (transform_basic _ _ _ E B) as B'. pose proof (transform_unlinked _ _ _ E U) as U'.
  cbn [bind] in H. inv_ok H. destruct a0 as [st n2]. inversion H; subst; clear H.
  destruct (split_citations a) as [h cs] eqn:Es.
  pose proof (split_closed _ _ _ Es) as [Ne Cl]. pose proof (split_basic _ _ _ B' Es) as Nb.
  eapply post_split_no_callback; [| | |exact E0].
  - apply Forall_forall. intros c Hc. apply Forall_forall. intros a0 Ha. now apply (Cl c).
  - eapply Forall_impl; [|exact Nb]. cbn. tauto.
  - eapply split_heap_unlinked; eauto.
Qed.

(** ** The recid field of the returned references *)
Lemma recid_contribution e : e_type e <> RECID -> contribution Frecid e = [].
Proof. unfold contribution. destruct (e_type e); auto; contradiction. Qed.
Lemma recid_contributions l : Forall (fun e => e_type e <> RECID) l -> flat_map (contribution Frecid) l = [].
Proof. induction 1; auto. cbn [flat_map]. now rewrite recid_contribution. Qed.
Lemma recid_without_callback E K f lines refs stats : parse_references E K None f lines = Ok (refs, stats) ->
  Forall (fun r => flist Frecid r = []) refs.
Proof.
  intros H. apply reference_origin in H. eapply Forall_impl; [|exact H]. cbn.
  intros r (cit & K' & n & els & cits & n' & m & raw & B & U & C & I & Br).
  rewrite (build_reference_fields_flist Frecid _ _ _ _ _ eq_refl Br). apply recid_contributions.
  apply cite_no_callback in C as [_ C]; auto. rewrite Forall_forall in C. auto.
Qed.
Lemma recid_with_callback E K g f lines refs stats : parse_references E K (Some g) f lines = Ok (refs, stats) ->
  Forall (fun r => Forall (fun s => exists m e v, g m e = Ok v /\ truthy v = true /\ str_of_val v = Ok s) (flist Frecid r)) refs.
Proof.
  intros H. apply reference_origin in H. eapply Forall_impl; [|exact H]. cbn.
  intros r (cit & K' & n & els & cits & n' & m & raw & B & U & C & I & Br).
  rewrite (build_reference_fields_flist Frecid _ _ _ _ _ eq_refl Br).
  apply cite_recid in C as [_ C]; auto. rewrite Forall_forall in C. destruct (C _ I) as (body & T & M).
  assert (Forall (fun e => e_type e <> RECID) body) as T' by (eapply Forall_impl; [|exact T]; cbn; tauto).
  destruct (find _ body) as [e|] eqn:F; [|subst; rewrite recid_contributions; auto].
  destruct M as (v & G & ->). rewrite flat_map_app, recid_contributions by auto. cbn [app flat_map]. rewrite app_nil_r.
  unfold contribution. cbn [e_type recid_el set]. change (get Krecid (recid_el v)) with (Some v). cbv beta iota.
  destruct (str_of_val v) as [s|] eqn:Sv; [|constructor]. unfold single. destruct (nonempty s); [|constructor]. constructor; auto.
  apply find_some in F as [Ie Ft]. rewrite Forall_forall in T. destruct (T _ Ie) as [_ (m0 & e0 & v0 & Hm & Q & Gv & _)].
  rewrite G in Gv. injection Gv as <-. rewrite G in Ft. cbn in Ft.
  destruct Q as [Q|[_ ->]]; [|discriminate]. exists m0, e0, v. auto.
Qed.

(** ** The year field of the returned references *)
Definition year_dates (d : list (ety * option val)) : list str :=
  flat_map (fun p => match p with (YEAR, Some (VS s)) => single s | _ => [] end) d.
Lemma year_contributions l : flat_map (contribution Fyear) l = year_dates (dates l).
Proof.
  unfold year_dates, dates. induction l as [|e l IH]; auto. cbn [flat_map]. rewrite flat_map_app, <- IH. f_equal.
  unfold contribution, date_of, text_of. destruct (e_type e); auto. cbn. rewrite app_nil_r. destruct (get Kyear e) as [[]|]; auto.
Qed.
Lemma chosen_nonempty l ys : chosen_year l ys -> Forall (fun y => y <> []) ys.
Proof. intros H. destruct H; auto. Qed.
Lemma cite_years K cb n els cits n' : Forall basic els -> cite K cb n els = Ok (cits, n') ->
  Forall (fun cit => exists l ys extra, chosen_year l ys /\ Forall (fun e => e_type e <> YEAR) l
    /\ dates cit = dates l ++ map (fun y => (YEAR, Some (VS y))) ys ++ extra
    /\ (extra = [] \/ (is_unknown_citation l = true /\ exists y, extra = [(BOOK, Some (VS y))]))) cits.
Proof.
  unfold cite. intros B H. inv_ok H. apply transform_basic in E; auto. inv_ok H. destruct a0 as [els' n1].
  assert (Forall basic els') as B'.
  { destruct cb; [eapply associate_basic; eauto|inversion E0; subst; auto]. }
  inv_ok H. destruct a0 as [st n2]. inversion H; subst; clear H.
  destruct (split_citations els') as [h cs] eqn:Es.
  pose proof (split_closed _ _ _ Es) as [Ne Cl]. pose proof (split_basic _ _ _ B' Es) as Nb.
  assert (Forall (closed h) cs) as C.
  { apply Forall_forall. intros c Hc. apply Forall_forall. intros a0 Ha. now apply (Cl c). }
  apply post_split_years in E1 as (h1 & cs1 & I & L1 & L2 & P); auto.
  unfold look_for_implied_ibids in I. cbn [fst snd] in I. apply implied_ibids_spec in I as (X1 & C1 & F1); auto.
  apply Forall_forall. intros cit Hc. apply In_nth_error in Hc as (i & Hi).
  destruct (nth_error cs1 i) as [c|] eqn:Hc.
  2: { apply nth_error_None in Hc. assert (i < length (values st)) by (apply nth_error_Some; congruence). rewrite L2, <- L1 in H. lia. }
  destruct (P i c Hc) as (final & h2 & ys & Hf & K2 & Y & extra & D & X). rewrite Hi in Hf. injection Hf as <-.
  assert (In c cs1) as Ic by (eapply nth_error_In; eauto).
  assert (closed h1 c) as Cc by (rewrite Forall_forall in C1; auto).
  assert (Forall (fun a => e_type (deref h1 a) <> YEAR) c) as Ny.
  { apply no_ty_Forall. clear - F1 Nb Ic. induction F1 as [|x y l l' (k & R) F IH]; [destruct Ic|]. inversion Nb; subst.
    destruct Ic as [->|Ic]; [|auto]. destruct H1 as [H1 _]. unfold no_ty in *. rewrite R, count_ty_app, repeat_count by discriminate. lia. }
  assert (map (fun a => bare (deref h2 a)) c = map (fun a => bare (deref h1 a)) c) as Bs.
  { apply map_ext_in. intros b Hb. apply K2. unfold closed in Cc. rewrite Forall_forall in Cc. auto. }
  assert (map e_type (map (deref h2) c) = map e_type (map (deref h1) c)) as Ts.
  { apply (f_equal (map fst)) in Bs. rewrite !map_map in *. exact Bs. }
  exists (map (deref h2) c), ys, extra. split; auto. split.
  - apply Forall_map. rewrite !map_map in Ts. clear - Ts Ny. induction Ny; constructor; cbn in Ts; inversion Ts; auto. congruence.
  - rewrite <- (dates_vals h2), dates_bare, Bs, <- dates_bare, dates_vals. split; auto.
    destruct X as [X|[U X]]; auto. right. split; auto. unfold is_unknown_citation in *.
    assert (forall l, forallb (fun e => negb (known_type (e_type e))) l = forallb (fun t => negb (known_type t)) (map e_type l)) as G.
    { clear. induction l; cbn; congruence. }
    rewrite G in *. now rewrite Ts.
Qed.
Lemma reference_years E K cb f lines refs stats : parse_references E K cb f lines = Ok (refs, stats) ->
  Forall (fun r => exists cit l ys extra, origin cb f r cit /\ chosen_year l ys /\ flist Fyear r = ys
    /\ dates cit = dates l ++ map (fun y => (YEAR, Some (VS y))) ys ++ extra
    /\ (extra = [] \/ (is_unknown_citation l = true /\ exists y, extra = [(BOOK, Some (VS y))]))) refs.
Proof.
  intros H. apply reference_origin in H. eapply Forall_impl; [|exact H]. cbn.
  intros r (cit & O). pose proof O as (K' & n & els & cits & n' & m & raw & B & U & C & I & Br).
  apply cite_years in C; auto. rewrite Forall_forall in C. destruct (C _ I) as (l & ys & extra & Y & Ny & D & X).
  exists cit, l, ys, extra. split; auto. split; auto. split; auto.
  rewrite (build_reference_fields_flist Fyear _ _ _ _ _ eq_refl Br), year_contributions, D.
  unfold year_dates. rewrite !flat_map_app.
  replace (flat_map _ (dates l)) with (@nil str).
  2: { clear - Ny. unfold dates. induction Ny as [|e l He Ny IH]; auto. cbn [flat_map]. rewrite flat_map_app, <- IH, app_nil_r.
       unfold date_of. destruct (e_type e); auto; contradiction. }
  replace (flat_map _ extra) with (@nil str) by (destruct X as [->|[_ (y & ->)]]; reflexivity).
  rewrite app_nil_r. cbn [app]. apply chosen_nonempty in Y. clear - Y. induction Y as [|y ys Hy Y IH]; auto. cbn [map flat_map].
  rewrite IH. destruct y; [contradiction|reflexivity].
Qed.
