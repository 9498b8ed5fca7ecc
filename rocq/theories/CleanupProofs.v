(** What the clean-up of a citation keeps (remove_duplicated_authors, engine.py 512-523),
    and the counters of a list of lines in terms of its last line. *)
From Coq Require Import List Arith NArith Bool Lia Permutation String.
From Verif Require Import PyStr ListFacts Elements Record Regex RegexParse Patterns Numeration Transform Split Post ParseTagged
  Tag Engine RegexMeta RecordProofs SplitProofs PostProofs EngineProofs ComposeProofs.
Import ListNotations.
Local Open Scope nat_scope.
Local Notation length := List.length.
Local Notation concat := List.concat.
Local Arguments key_eqb : simpl never.
Local Arguments ety_eqb : simpl never.

(** an element is kept, or it was an author and is now misc text that ends with the
    author's text *)
Definition kept_or_misc (e e' : el) : Prop :=
  e' = e \/ (e_type e = AUTH /\ exists txt, get Kauth_txt e = Some (VS txt)
             /\ e' = mkel MISC (e_misc e ++ 32%N :: txt) (e_dict e)).
Lemma get_str_some k e v : get_str k e = Ok v -> get k e = Some (VS v).
Proof. unfold get_str. destruct (get k e) as [[]|]; intros H; inversion H; auto. Qed.
Lemma dup_authors_kept : forall c found h h', dup_authors found h c = Ok h' ->
  length h' = length h /\ forall a, a < length h -> kept_or_misc (deref h a) (deref h' a).
Proof.
  induction c as [|a c IH]; cbn [dup_authors]; intros found h h' H.
  - inversion H; subst. split; auto. intros; now left.
  - destruct (is_type AUTH (deref h a)) eqn:T; [|eauto]. destruct found; [|eauto].
    inv_ok H. apply IH in H as [L K]. rewrite store_length in *. split; auto. intros b Hb.
    specialize (K b Hb). destruct (Nat.eq_dec a b) as [<-|N].
    + rewrite deref_store_same in K by auto. apply is_type_true in T. destruct K as [K|[K _]]; [|discriminate].
      right. split; auto. apply get_str_some in E. rename a0 into txt. exists txt. split; auto.
    + now rewrite deref_store_other in K.
Qed.
Lemma kept_trans a b c : kept_or_misc a b -> kept_or_misc b c -> kept_or_misc a c.
Proof.
  intros [->|[A (t & B & ->)]] K; auto. destruct K as [->|[K _]]; [|discriminate]. right. split; eauto.
Qed.
Lemma remove_duplicated_authors_kept st st' : remove_duplicated_authors st = Ok st' ->
  Forall (closed (fst st)) (snd st) ->
  Forall2 (Forall2 kept_or_misc) (values st) (values st')
  /\ Forall (fun c => length (filter (is_type AUTH) c) <= 1) (values st').
Proof.
  unfold remove_duplicated_authors. destruct st as [h cs], st' as [h' cs']. cbn [fst snd]. intros H C.
  pose proof (dup_authors_all _ _ _ _ H) as (-> & _ & A).
  assert (length h' = length h /\ forall a, a < length h -> kept_or_misc (deref h a) (deref h' a)) as [L K].
  { clear A C. revert h h' H. generalize cs at 2 as cs2. induction cs as [|c cs IH]; cbn [each]; intros cs2 h h' H.
    - inversion H; subst. split; auto. intros; now left.
    - inv_ok H. destruct a as [h1 c1]. inv_ok E. inversion E; subst. cbn in H. inv_ok H. destruct a as [h2 t2]. cbn in H. inversion H; subst; clear H.
      apply dup_authors_kept in E0 as [L K]. apply IH in E1 as [L' K']. split; [lia|]. intros a Ha.
      eapply kept_trans; [apply K; auto|apply K'; lia]. }
  unfold values. cbn [fst snd]. split.
  - clear A H. induction C as [|c cs C Cs IH]; cbn; constructor; auto. clear Cs IH. induction C; cbn; constructor; auto.
  - apply Forall_map. eapply Forall_impl; [|exact A]. cbn. intros c. rewrite tys_ty_of. generalize (map (deref h') c). clear.
    intros l H. replace (length (filter (is_type AUTH) l)) with (count_ty AUTH (ty_of l)); auto. clear H.
    induction l as [|e l IH]; auto. cbn [ty_of map filter]. rewrite count_ty_hd. unfold ty_of in IH. rewrite IH.
    unfold is_type. destruct (ety_eqb_spec (e_type e) AUTH), (ety_eqb_spec AUTH (e_type e)); cbn; congruence.
Qed.

(** What becomes of the elements of a citation in the last steps: surplus authors become
    misc text, repeated DOIs and collaborations disappear, a recid may be added. *)
Definition no_doi_collab (e : el) : bool := negb (is_type DOI e || is_type COLLABORATION e).
Lemma kept_dois_filter l : forall found, filter no_doi_collab (kept_dois found l) = filter no_doi_collab l.
Proof.
  induction l as [|e l IH]; intros found; cbn [kept_dois filter]; auto.
  destruct (is_type DOI e) eqn:D.
  - assert (no_doi_collab e = false) as N by (unfold no_doi_collab; now rewrite D).
    rewrite N. destruct found; cbn [filter]; rewrite ?N, ?IH; auto.
  - cbn [filter]. now rewrite IH.
Qed.
Lemma kept_collabs_filter l : forall seen, filter no_doi_collab (kept_collabs seen l) = filter no_doi_collab l.
Proof.
  induction l as [|e l IH]; intros seen; cbn [kept_collabs filter]; auto.
  destruct (is_type COLLABORATION e) eqn:D.
  - assert (no_doi_collab e = false) as N by (unfold no_doi_collab; rewrite D; now rewrite orb_true_r).
    rewrite N. destruct (get_str Kcollaboration e); [destruct (mem_str _ _)|]; cbn [filter]; rewrite ?N, ?IH; auto.
  - cbn [filter]. now rewrite IH.
Qed.
Lemma Permutation_filter {A} (f : A -> bool) l l' : Permutation l l' -> Permutation (filter f l) (filter f l').
Proof.
  induction 1; cbn; auto.
  - destruct (f x); auto.
  - destruct (f x), (f y); auto. apply perm_swap.
  - eapply Permutation_trans; eauto.
Qed.

Lemma late_cleanup st4 st5 st7 st8 : Forall (closed (fst st4)) (snd st4) ->
  remove_duplicated_authors st4 = Ok st5 -> remove_duplicated_collaborations (remove_duplicated_dois st5) = Ok st7 ->
  add_recid_elements st7 = Ok st8 ->
  Forall2 (fun c4 c8 => exists c5 body, Forall2 kept_or_misc c4 c5
      /\ Permutation (filter no_doi_collab body) (filter no_doi_collab c5)
      /\ (c8 = body \/ exists v, c8 = body ++ [recid_el v])) (values st4) (values st8).
Proof.
  intros C4 H5 H7 H8. pose proof (remove_duplicated_authors_kept _ _ H5 C4) as [K _].
  destruct st4 as [h4 cs4], st5 as [h5 cs5], st7 as [h7 cs7], st8 as [h8 cs8].
  assert (length h5 = length h4 /\ cs5 = cs4) as [L5 ->].
  { unfold remove_duplicated_authors in H5. apply dup_authors_all in H5 as (-> & [X _] & _). auto. }
  unfold remove_duplicated_dois in H7. cbn [fst snd] in *.
  pose proof (dup_dois_all h5 cs4) as F6. set (cs6 := map (fun c : list addr => dup_dois false h5 c c) cs4) in *. clearbody cs6.
  unfold remove_duplicated_collaborations in H7. cbn [fst snd] in H7.
  apply dup_collabs_all in H7 as [-> F7].
  assert (Forall (closed h5) cs4) as C5.
  { eapply Forall_impl; [|exact C4]. unfold closed. cbn. intros c F. now rewrite L5. }
  assert (Forall (closed h5) cs6) as C6.
  { clear - F6 C5. induction F6; inversion C5; subst; constructor; tauto. }
  assert (Forall (closed h5) cs7) as C7.
  { clear - F7 C6. induction F7; inversion C6; subst; constructor; tauto. }
  unfold add_recid_elements in H8. cbn [fst snd] in H8.
  pose proof (add_recid_values _ _ _ _ C7 H8) as (_ & _ & V8).
  unfold values in *. cbn [fst snd] in *. clear - K F6 F7 V8. revert cs6 cs7 cs8 F6 F7 V8.
  induction cs4 as [|c cs4 IH]; intros cs6 cs7 cs8 F6 F7 V8; inversion F6; subst; inversion F7; subst; inversion V8; subst;
    cbn [map] in *; inversion K; subst; constructor; eauto.
  repeat match goal with H : _ /\ (closed _ _ -> _) |- _ => destruct H as [? _] end.
  match goal with H : Permutation _ (kept_dois _ _) |- _ => rename H into P6 end.
  match goal with H : Permutation _ (kept_collabs _ _) |- _ => rename H into P7 end.
  match goal with H : match find _ _ with _ => _ end |- _ => rename H into R8 end. exists (map (deref h5) c), (map (deref h5) y0). split; auto. split.
  - rewrite (Permutation_filter _ _ _ P7), kept_collabs_filter, (Permutation_filter _ _ _ P6), kept_dois_filter. auto.
  - destruct (find _ _); [destruct R8 as (v & _ & ->)|rewrite R8]; eauto.
Qed.

(** ** The counters *)
Lemma stats_last_line E K cb f lines raw refs stats :
  pure cb -> ~ In (py "key") (jk_keys (k_journals K)) ->
  parse_references E K cb f (lines ++ [raw]) = Ok (refs, stats) ->
  exists refs', parse_references E K cb f [raw] = Ok (refs', stats).
Proof.
  intros P Nk H. pose proof (parse_references_stats _ _ _ _ _ _ _ P Nk H) as S. rewrite rev_app_distr in S. cbn [rev app] in S.
  assert (references E K cb f (lines ++ [raw]) = Ok refs) as R by (unfold references; now rewrite H).
  apply references_app in R as (r1 & r2 & _ & R2 & _); auto. unfold references in R2.
  destruct (parse_references E K cb f [raw]) as [[rs st]|] eqn:E1; [|discriminate].
  pose proof (parse_references_stats _ _ _ _ _ _ _ P Nk E1) as S1. cbn [rev app] in S1.
  destruct S as (ci & m & c & X & ->), S1 as (ci' & m' & c' & X' & ->). rewrite X in X'. inversion X'; subst. eauto.
Qed.
