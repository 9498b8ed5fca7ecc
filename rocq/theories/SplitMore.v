(** Proofs about where a line is split into citations (C06). *)
From Coq Require Import Arith NArith Bool List Lia.
From Verif Require Import PyStr ListFacts Elements Split SplitProofs.
Import ListNotations.

(** [y] repeats [x]: two elements of one kind that a citation has once only *)
Definition repeats (x y : el) : Prop :=
  counts_for_split x = true /\ ctype_of x = ctype_of y /\ repeatable (ctype_of y) = false.

Section Line.
Variable els : list el.
Hypothesis No59 : forall e, In e els -> ~ In 59%N (e_misc e).

Definition tys_ok (s : sst) : Prop :=
  (forall c, In c (s_types s) -> exists a, In a (s_cur s) /\ counts_for_split (deref els a) = true /\ ctype_of (deref els a) = c)
  /\ (forall c, s_last s = Some c -> In c (s_types s)).
Lemma mem59 a : a < length els -> mem_ch 59%N (e_misc (deref els a)) = false.
Proof.
  intros L. destruct (mem_ch 59%N (e_misc (deref els a))) eqn:M; auto. apply mem_ch_in in M. exfalso. apply (No59 (deref els a)); auto. now apply nth_In.
Qed.
Lemma needed_why s a r : a < length els -> tys_ok s -> split_needed (deref els a) (s_types s) (s_last s) = Some r ->
  r = Repeated /\ repeatable (ctype_of (deref els a)) = false /\ exists b, In b (s_cur s) /\ counts_for_split (deref els b) = true /\ ctype_of (deref els b) = ctype_of (deref els a).
Proof.
  intros L (T & La) H. unfold split_needed in H. rewrite mem59 in H by auto.
  assert (forall x y, ctype_eqb x y = true -> x = y) as Q.
  { intros [|x] [|y]; cbn; intros E; try discriminate; auto. f_equal. destruct x, y; try discriminate; auto. }
  destruct (existsb (ctype_eqb (ctype_of (deref els a))) (s_types s) && negb (repeatable (ctype_of (deref els a)))) eqn:B.
  - injection H as <-. apply andb_true_iff in B as (B & R). apply negb_true_iff in R. split; auto. split; auto.
    apply existsb_exists in B as (c & I & E). apply Q in E. subst c. destruct (T _ I) as (b & Ib & C & E). eauto.
  - cbn [orb] in H. destruct (s_last s) as [l|] eqn:El; [|discriminate]. destruct (ctype_eqb l (ctype_of (deref els a)) && negb (repeatable (ctype_of (deref els a)))) eqn:B2; [|discriminate].
    injection H as <-. apply andb_true_iff in B2 as (E & R). apply negb_true_iff in R. apply Q in E. subst l. auto.
Qed.
Lemma push_tys s a : s_heap s = els -> tys_ok s -> tys_ok (push s a).
Proof.
  intros Hh (T & La). unfold push. rewrite Hh.
  assert (forall c, In c (s_types s) -> exists b, In b (s_cur s ++ [a]) /\ counts_for_split (deref els b) = true /\ ctype_of (deref els b) = c) as T'.
  { intros c I. destruct (T c I) as (b & Ib & R). exists b. rewrite in_app_iff. auto. }
  destruct (e_type (deref els a)) eqn:Te; (split; cbn [s_types s_last s_cur]; [|try (intros c E; injection E as <-; now left); auto]); auto.
  all: intros c [<-|I]; auto; exists a; rewrite in_app_iff; cbn; repeat split; auto; unfold counts_for_split; now rewrite Te.
Qed.
Lemma push_rest s a : s_heap (push s a) = s_heap s /\ s_cur (push s a) = s_cur s ++ [a] /\ s_out (push s a) = s_out s /\ s_postponed (push s a) = s_postponed s
  /\ (is_type AUTH (deref (s_heap s) a) = false -> s_nauth (push s a) = s_nauth s).
Proof. unfold push, is_type. destruct (e_type (deref (s_heap s) a)); cbn; repeat split; auto; discriminate. Qed.

Definition after (k : nat) : sst := fold_left split_step (seq 0 k) (s_init els).
Lemma after_S k : after (S k) = split_step (after k) k.
Proof. unfold after. rewrite seq_S, fold_left_app. reflexivity. Qed.
(** ** Nothing repeated: one citation *)
Lemma together : (forall i j x y, i < j -> nth_error els i = Some x -> nth_error els j = Some y -> ~ repeats x y) -> citations els = [els].
Proof.
  intros Once. unfold citations, split_citations.
  assert (forall k, k <= length els -> let s := after k in
    s_heap s = els /\ s_cur s = seq 0 k /\ s_out s = [] /\ s_postponed s = None /\ tys_ok s) as H.
  { induction k as [|k IH]; intros L.
    - cbn. repeat split; auto; cbn; [intros c []|discriminate].
    - rewrite after_S. specialize (IH ltac:(lia)). cbn zeta in *. revert IH. generalize (after k). intros s (Hh & Hc & Ho & Hp & Ht).
      unfold split_step. rewrite Hh. destruct (split_needed (deref els k) (s_types s) (s_last s)) as [r|] eqn:N.
      + exfalso. apply needed_why in N as (_ & R & b & Ib & Cb & E); auto. rewrite Hc in Ib. apply in_seq in Ib.
        apply (Once b k (deref els b) (deref els k)); [lia|apply nth_error_nth'; lia|apply nth_error_nth'; lia|].
        repeat split; auto; congruence.
      + destruct (push_rest s k) as (P1 & P2 & P3 & P4 & _). rewrite P1, P2, P3, P4, Hc. split; auto. split; [rewrite seq_S; reflexivity|]. split; auto. split; auto. apply push_tys; auto. }
  specialize (H (length els) (Nat.le_refl _)). cbn zeta in H. change (fold_left split_step (seq 0 (length els)) (s_init els)) with (after (length els)). revert H. generalize (after (length els)). intros s H. destruct H as (Hh & Hc & Ho & Hp & _).
  unfold insert_postponed. rewrite Hh, Ho, Hp, Hc. cbn [fst app map]. f_equal. clear. unfold deref.
  apply (nth_ext _ _ null_el null_el); [now rewrite map_length, seq_length|]. intros i L. rewrite map_length, seq_length in L.
  rewrite (nth_indep _ null_el (nth 0 els null_el)) by now rewrite map_length, seq_length. rewrite (map_nth (fun a => nth a els null_el)). now rewrite seq_nth.
Qed.

(** ** A citation begins with a repeated element *)
Hypothesis NoAuth : forall e, In e els -> e_type e <> AUTH.
Definition chained (cs : list (list addr)) : Prop := forall l c c' r, cs = l ++ c :: c' :: r ->
  exists y t x, c' = y :: t /\ In x c /\ repeats (deref els x) (deref els y).
Lemma chained_grow cs c a : chained (cs ++ [c]) -> (c = [] -> cs = []) -> chained (cs ++ [c ++ [a]]).
Proof.
  intros H Ne l u v r E. destruct r as [|z r].
  - change (l ++ [u; v]) with (l ++ [u] ++ [v]) in E. rewrite app_assoc in E. apply app_inj_tail in E as (-> & <-).
    destruct c as [|y t]; [specialize (Ne eq_refl); destruct l; discriminate|]. destruct (H l u (y :: t) []) as (y' & t' & x & E' & I & R).
    { rewrite <- app_assoc. reflexivity. } injection E' as <- <-. exists y, (t ++ [a]), x. auto.
  - destruct (exists_last (l := z :: r)) as (r' & w & Er); [discriminate|]. rewrite Er in E.
    assert (l ++ u :: v :: r' ++ [w] = (l ++ u :: v :: r') ++ [w]) as X by now rewrite <- app_assoc.
    rewrite X in E. apply app_inj_tail in E as (-> & _). apply (H l u v (r' ++ [c])). now rewrite <- app_assoc.
Qed.
Lemma chained_new cs c a x : chained (cs ++ [c]) -> In x c -> repeats (deref els x) (deref els a) -> chained ((cs ++ [c]) ++ [[a]]).
Proof.
  intros H I R l u v r E. destruct r as [|z r].
  - change (l ++ [u; v]) with (l ++ [u] ++ [v]) in E. rewrite app_assoc in E. apply app_inj_tail in E as (E & <-). apply app_inj_tail in E as (-> & <-). exists a, [], x. auto.
  - destruct (exists_last (l := z :: r)) as (r' & w & Er); [discriminate|]. rewrite Er in E.
    assert (l ++ u :: v :: r' ++ [w] = (l ++ u :: v :: r') ++ [w]) as X by now rewrite <- app_assoc.
    rewrite X in E. apply app_inj_tail in E as (E & _). exact (H l u v r' E).
Qed.
Lemma split_begin l c c' r : citations els = l ++ c :: c' :: r -> exists y t x, c' = y :: t /\ In x c /\ repeats x y.
Proof.
  unfold citations, split_citations.
  assert (forall k, k <= length els -> let s := after k in
    s_heap s = els /\ s_nauth s = 0 /\ s_postponed s = None /\ tys_ok s /\ chained (s_out s ++ [s_cur s]) /\ (s_cur s = [] -> s_out s = [])) as H.
  { induction k as [|k IH]; intros L.
    - cbn. repeat split; auto; cbn; [intros c0 []|discriminate|]. intros l0 c0 c1 r0 E. destruct l0 as [|? [|]]; discriminate.
    - rewrite after_S. specialize (IH ltac:(lia)). cbn zeta in *. revert IH. generalize (after k). intros s (Hh & Hn & Hp & Ht & Hc & He).
      assert (is_type AUTH (deref els k) = false) as NA. { specialize (NoAuth (deref els k) (nth_In _ _ L)). unfold is_type. destruct (e_type (deref els k)); auto; congruence. }
      unfold split_step. rewrite Hh. destruct (split_needed (deref els k) (s_types s) (s_last s)) as [r0|] eqn:N.
      + apply needed_why in N as (-> & R & b & Ib & Cb & E); auto.
        assert (split_at s k Repeated = mksst els [] [] None 0 None (Some Repeated) (s_out s ++ [s_cur s])) as Es.
        { unfold split_at, insert_postponed. rewrite Hp, Hn, Hh. reflexivity. }
        rewrite Es. set (s0 := mksst els [] [] None 0 None (Some Repeated) (s_out s ++ [s_cur s])). destruct (push_rest s0 k) as (P1 & P2 & P3 & P4 & P5).
        rewrite P1, P2, P3, P4, (P5 NA). cbn [s_heap s_nauth s_postponed s_cur s_out s0 app]. repeat split; auto; try (apply push_tys; [reflexivity|split; cbn; [intros c0 []|discriminate]]); try discriminate.
        eapply chained_new; eauto. repeat split; auto; congruence.
      + destruct (push_rest s k) as (P1 & P2 & P3 & P4 & P5). rewrite P1, P2, P3, P4, P5, Hn by (now rewrite Hh). repeat split; auto; try (apply push_tys; auto).
        * apply chained_grow; auto.
        * intros X. apply app_eq_nil in X as [_ X]. discriminate. }
  specialize (H (length els) (Nat.le_refl _)). cbn zeta in H. change (fold_left split_step (seq 0 (length els)) (s_init els)) with (after (length els)). revert H. generalize (after (length els)). intros s H. destruct H as (Hh & Hn & Hp & _ & Hc & _).
  assert (fst (insert_postponed s) = s_cur s) as Ei by (unfold insert_postponed; now rewrite Hp). rewrite Ei, Hh. intros E.
  apply map_eq_app in E as (l1 & l2 & El & <- & E2). apply map_eq_cons in E2 as (c1 & l3 & -> & <- & E3). apply map_eq_cons in E3 as (c2 & l4 & -> & <- & <-).
  destruct (Hc l1 c1 c2 l4 El) as (y & t & x & -> & I & R). exists (deref els y), (map (deref els) t), (deref els x). split; auto. split; auto. now apply in_map.
Qed.
End Line.
