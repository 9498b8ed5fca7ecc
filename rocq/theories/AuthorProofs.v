(** Author tagging: the recognised groups are replaced by tags, from the last to the first, and the rest is kept. *)
From Coq Require Import List Arith NArith Bool String Lia.
From Verif Require Import PyStr ListFacts Regex RegexMeta RegexParse Patterns RecordProofs Numeration DocText Tag WashProofs TagCount TagOk RebuildProofs.
Import ListNotations.
Local Open Scope nat_scope.
Local Notation length := List.length.

(** ** The relation *)
Definition ends_with_etal (before : str) : Prop := exists e, In e etal_matches /\ endswith (lower (strip before)) e = true.
Definition ends_with_and (before : str) : Prop := endswith (lower (strip before)) (py " and") = true.
(** the weaker pattern finds names, not of editors, at the beginning of the text *)
Definition missed_names (near : rx) (before : str) : Prop :=
  exists w, re_match (rx_re near) before = Some w /\ truthy_str (gd_get near before w "es") = false /\ truthy_str (gd_get near before w "ee") = false.
(** where the group of a match begins; [None]: it is not tagged *)
Inductive group_from (near : rx) (a : apos) : option nat -> Prop :=
| gf_etal : ends_with_etal (a_before a) -> group_from near a None
| gf_here : ~ ends_with_etal (a_before a) -> a_multi a = true \/ ~ ends_with_and (a_before a) -> group_from near a (Some (a_start a))
| gf_missed : ~ ends_with_etal (a_before a) -> a_multi a = false -> ends_with_and (a_before a) -> missed_names near (a_before a) ->
    group_from near a (Some (a_start a - length (a_before a)))
| gf_lost : ~ ends_with_etal (a_before a) -> a_multi a = false -> ends_with_and (a_before a) -> ~ missed_names near (a_before a) -> group_from near a None.
Definition again (rest : str) : str := match rest with c :: _ => if N.eqb c 59 then [c] else [] | [] => [] end.
(** the line is s from its n-th character on *)
Inductive authors_tagged (near : rx) : nat -> list apos -> str -> str -> Prop :=
| at_end n s : authors_tagged near n [] s s
| at_left n a l s out : group_from near a None -> a_ed a = false -> authors_tagged near n l s out -> authors_tagged near n (a :: l) s out
| at_group n a l before g rest out :
    group_from near a (Some (n + length before)) -> a_ed a = false -> a_end a = n + length before + length g ->
    authors_tagged near (a_end a) l rest out ->
    authors_tagged near n (a :: l) (before ++ g ++ rest)
      (before ++ wrap (if a_etal a then "AUTHetal" else "AUTHstnd") (author_text g) ++ again out ++ out)
| at_editors n a l before g rest out names :
    group_from near a (Some (n + length before)) \/ group_from near a None /\ a_start a = n + length before ->
    a_ed a = true -> a_end a = n + length before + length g -> a_names a = Some names ->
    authors_tagged near (a_end a) l rest out ->
    authors_tagged near n (a :: l) (before ++ g ++ rest)
      (before ++ wrap "AUTHincl" (strip_chars (py ",:;- [](") (sub_text re_etal_ci (py "et al.") names) ++ py " (eds.)") ++ again out ++ out).

(** ** Proof *)
Fixpoint spaced (n : nat) (l : list apos) (m : nat) : Prop :=
  match l with
  | [] => n <= m
  | a :: t => n <= a_start a /\ n + length (a_before a) <= a_start a /\ a_start a <= a_end a /\ a_end a <= m /\ spaced (a_end a) t m
  end.
Lemma spaced_le l : forall n m, spaced n l m -> n <= m.
Proof. induction l as [|a l IH]; cbn; intros n m H; auto. destruct H as (A & B & C & D & _). lia. Qed.
Lemma tagged_before near l : forall p n' s out n, authors_tagged near n' l s out -> n + length p = n' -> authors_tagged near n l (p ++ s) (p ++ out).
Proof.
  induction l as [|a l IH]; intros p n' s out n H L; inversion H; subst.
  - constructor.
  - apply at_left; auto. eapply IH; eauto.
  - replace (p ++ before ++ g ++ rest) with ((p ++ before) ++ g ++ rest) by now rewrite <- app_assoc.
    replace (p ++ before ++ wrap (if a_etal a then "AUTHetal" else "AUTHstnd") (author_text g) ++ again out0 ++ out0) with ((p ++ before) ++ wrap (if a_etal a then "AUTHetal" else "AUTHstnd") (author_text g) ++ again out0 ++ out0) by now rewrite <- app_assoc.
    apply at_group; auto; rewrite app_length; [|lia]. rewrite Nat.add_assoc. auto.
  - replace (p ++ before ++ g ++ rest) with ((p ++ before) ++ g ++ rest) by now rewrite <- app_assoc.
    replace (p ++ before ++ wrap "AUTHincl" (strip_chars (py ",:;- [](") (sub_text re_etal_ci (py "et al.") names) ++ py " (eds.)") ++ again out0 ++ out0)
      with ((p ++ before) ++ wrap "AUTHincl" (strip_chars (py ",:;- [](") (sub_text re_etal_ci (py "et al.") names) ++ py " (eds.)") ++ again out0 ++ out0) by now rewrite <- app_assoc.
    apply at_editors; auto; rewrite app_length; [|lia]. rewrite Nat.add_assoc. auto.
Qed.
Lemma tag_authors_app near l1 : forall out l2, tag_authors near out (l1 ++ l2) = bind (tag_authors near out l1) (fun o => tag_authors near o l2).
Proof. induction l1 as [|a l1 IH]; intros out l2; cbn [app tag_authors bind]; auto. destruct (tag_author near out a); cbn [bind]; auto. Qed.
Lemma group_named_get p s o n v : group_named p s o (py n) = Ok v -> gd_get p s o n = v.
Proof. unfold group_named, gd_get. destruct (assoc_str (py n) (rx_names p)); congruence. Qed.
Lemma etal_dec before : existsb (endswith (lower (strip before))) etal_matches = true <-> ends_with_etal before.
Proof. rewrite existsb_exists. reflexivity. Qed.
Lemma semi_again out e : match nth_error out e with Some c => if N.eqb c 59 then py ";" else [] | None => [] end = again (skipn e out).
Proof.
  revert out. induction e as [|e IH]; intros [|c out]; cbn [nth_error skipn again]; auto. destruct (N.eqb_spec c 59) as [->|]; reflexivity.
Qed.
Lemma tag_author_ok near out a out' : tag_author near out a = Ok out' ->
  group_from near a None /\ a_ed a = false /\ out' = out
  \/ (exists st, group_from near a (Some st) /\ a_ed a = false
      /\ out' = firstn st out ++ wrap (if a_etal a then "AUTHetal" else "AUTHstnd") (author_text (slice st (a_end a) out)) ++ again (skipn (a_end a) out) ++ skipn (a_end a) out)
  \/ (exists st names, (group_from near a (Some st) \/ group_from near a None /\ a_start a = st) /\ a_ed a = true /\ a_names a = Some names
      /\ out' = firstn st out ++ wrap "AUTHincl" (strip_chars (py ",:;- [](") (sub_text re_etal_ci (py "et al.") names) ++ py " (eds.)") ++ again (skipn (a_end a) out) ++ skipn (a_end a) out).
Proof.
  unfold tag_author. intros H. inv_ok H. destruct a0 as (st & dump). rewrite semi_again in H.
  assert (if dump then group_from near a None /\ st = a_start a else group_from near a (Some st)) as G.
  { clear H. destruct (existsb (endswith (lower (strip (a_before a)))) etal_matches) eqn:Et.
    - injection E as <- <-. split; auto. apply gf_etal. now apply etal_dec.
    - assert (~ ends_with_etal (a_before a)) as Ne by (rewrite <- etal_dec; congruence).
      destruct (a_multi a) eqn:Mu; cbn [negb andb] in E; [injection E as <- <-; now apply gf_here; auto|].
      destruct (endswith (lower (strip (a_before a))) (py " and")) eqn:An.
      + destruct (re_match (rx_re near) (a_before a)) as [w|] eqn:W.
        * inv_ok E. inv_ok E. apply group_named_get in E0. destruct (truthy_str a0) eqn:T0; cbn [orb] in E.
          -- injection E as <- <-. split; auto. apply gf_lost; auto. intros (w' & W' & F & _). rewrite W in W'. injection W' as <-. congruence.
          -- apply group_named_get in E1. destruct (truthy_str a1) eqn:T1; cbn [orb] in E.
             ++ injection E as <- <-. split; auto. apply gf_lost; auto. intros (w' & W' & _ & F). rewrite W in W'. injection W' as <-. congruence.
             ++ injection E as <- <-. destruct (re_match_ok _ _ _ W) as (_ & Z). rewrite Z, Nat.sub_0_r. apply gf_missed; auto. exists w. rewrite E0, E1. auto.
        * injection E as <- <-. split; auto. apply gf_lost; auto. intros (w' & W' & _). congruence.
      + injection E as <- <-. apply gf_here; auto. right. unfold ends_with_and. congruence. }
  destruct (a_ed a).
  - inv_ok H. destruct (a_names a) as [names|]; [|discriminate]. cbn [need] in E0. injection E0 as <-. right. right. exists st, names.
    split; [destruct dump; [right; destruct G; auto|now left]|]. split; auto. split; auto.
    apply (f_equal (fun r => match r with Ok a => a | Err _ => [] end)) in H. cbv beta iota in H. now symmetry.
  - destruct dump.
    + left. destruct G as (G & _). split; auto. split; auto. congruence.
    + right. left. exists st. split; auto. split; auto. apply (f_equal (fun r => match r with Ok a => a | Err _ => [] end)) in H. cbv beta iota in H. rewrite <- H. now destruct (a_etal a).
Qed.
Lemma group_bounds near a st n : group_from near a (Some st) -> n + length (a_before a) <= a_start a -> n <= st <= a_start a.
Proof. intros H L. inversion H; subst; lia. Qed.
Lemma tag_authors_ok near out : forall l n out', spaced n l (length out) -> tag_authors near out (rev l) = Ok out' ->
  exists t, out' = firstn n out ++ t /\ authors_tagged near n l (skipn n out) t.
Proof.
  induction l as [|a l IH]; intros n out' Sp H.
  - cbn in H. injection H as <-. exists (skipn n out). split; [symmetry; apply firstn_skipn|constructor].
  - cbn [spaced] in Sp. destruct Sp as (A & B & C & D & Sp). cbn [rev] in H. rewrite tag_authors_app in H. inv_ok H. cbn [tag_authors] in H. inv_ok H. injection H as ->.
    destruct (IH _ _ Sp E) as (t & -> & T). set (e := a_end a) in *.
    assert (length (firstn e out) = e) as Le by (rewrite firstn_length; lia).
    assert (skipn e (firstn e out ++ t) = t) as Sk by (rewrite skipn_app, Le, Nat.sub_diag, skipn_all2 by lia; reflexivity).
    assert (forall st, st <= e -> firstn st (firstn e out ++ t) = firstn st out) as Fi.
    { intros st L. rewrite firstn_app, Le. replace (st - e) with 0 by lia. rewrite firstn_O, app_nil_r, firstn_firstn. f_equal. lia. }
    assert (forall st, st <= e -> slice st e (firstn e out ++ t) = slice st e out) as Sl.
    { intros st L. unfold slice. rewrite skipn_app, Le. replace (st - e) with 0 by lia. cbn [skipn]. rewrite firstn_app, skipn_length, Le, Nat.sub_diag, firstn_O, app_nil_r. rewrite skipn_firstn_comm, firstn_firstn. f_equal. lia. }
    assert (forall st, n <= st -> st <= e -> skipn n out = slice n st out ++ slice st e out ++ skipn e out) as Cut.
    { intros st L1 L2. rewrite <- (skipn_cut out st e L2). now apply skipn_cut. }
    assert (forall st, n <= st -> st <= e -> length (slice n st out) = st - n /\ length (slice st e out) = e - st) as Ln.
    { intros st L1 L2. rewrite !slice_len_le by lia. lia. }
    assert (forall st, n <= st -> firstn st out = firstn n out ++ slice n st out) as Fn.
    { intros st L. unfold slice. rewrite <- (firstn_skipn n (firstn st out)), firstn_firstn, Nat.min_l by lia. f_equal. rewrite skipn_firstn_comm. reflexivity. }
    apply tag_author_ok in E0. fold e in E0. rewrite Sk in E0. destruct E0 as [(G & Ed & ->)|[(st & G & Ed & ->)|(st & names & G & Ed & Nm & ->)]].
    + exists (slice n e out ++ t). split; [rewrite (Fn e) by lia; symmetry; apply app_assoc|]. apply at_left; auto.
      rewrite (skipn_cut out n e) by lia. apply (tagged_before near l _ e); auto. rewrite slice_len_le by lia. lia.
    + destruct (group_bounds _ _ _ n G B) as (L1 & L2). rewrite Fi, Sl by lia. exists (slice n st out ++ wrap (if a_etal a then "AUTHetal" else "AUTHstnd") (author_text (slice st e out)) ++ again t ++ t).
      split; [rewrite (Fn st L1); symmetry; apply app_assoc|]. rewrite (Cut st) by lia. destruct (Ln st L1) as (X & Y); [lia|]. apply at_group; auto; rewrite ?X, ?Y; [|unfold e in *; lia].
      replace (n + (st - n)) with st by lia. exact G.
    + assert (n <= st <= a_start a) as (L1 & L2) by (destruct G as [G|(_ & <-)]; [now apply (group_bounds _ _ _ n) in G|lia]).
      rewrite Fi by lia. exists (slice n st out ++ wrap "AUTHincl" (strip_chars (py ",:;- [](") (sub_text re_etal_ci (py "et al.") names) ++ py " (eds.)") ++ again t ++ t).
      split; [rewrite (Fn st L1); symmetry; apply app_assoc|]. rewrite (Cut st) by lia. destruct (Ln st L1) as (X & Y); [lia|]. apply at_editors; auto; rewrite ?X, ?Y; [|unfold e in *; lia].
      replace (n + (st - n)) with st by lia. exact G.
Qed.

(** ** The matches that are considered *)
Definition picked (p : rx) (subject before : str) (o : mobj) (a : apos) : Prop :=
  a_start a = m_start o /\ a_end a = m_end o /\ a_before a = before /\ a_names a = gd_get p subject o "author_names"
  /\ a_etal a = truthy_str (gd_get p subject o "et") || truthy_str (gd_get p subject o "et2")
  /\ a_ed a = truthy_str (gd_get p subject o "es") || truthy_str (gd_get p subject o "ee")
  /\ a_multi a = truthy_str (gd_get p subject o "multi_auth") || truthy_str (gd_get p subject o "multi_surs").
(** those whose place in the line has no underscore, with the text since the last of them *)
Inductive picks (p : rx) (subject line : str) : nat -> list mobj -> list apos -> Prop :=
| pk_end from : picks p subject line from [] []
| pk_not from o ms l : In 95%N (slice (m_start o) (m_end o) line) -> picks p subject line from ms l -> picks p subject line from (o :: ms) l
| pk_yes from o ms a l : ~ In 95%N (slice (m_start o) (m_end o) line) -> picked p subject (slice from (m_start o) line) o a ->
    picks p subject line (m_end o) ms l -> picks p subject line from (o :: ms) (a :: l).
Lemma positions_ok p subject line : forall ms from l, author_positions p subject line ms from = Ok l -> picks p subject line from ms l.
Proof.
  induction ms as [|o ms IH]; intros from l H; cbn [author_positions] in H; [injection H as <-; constructor|].
  destruct (mem_ch 95%N (slice (m_start o) (m_end o) line)) eqn:U; [apply pk_not; [now apply ListFacts.mem_ch_in|auto]|].
  assert (~ In 95%N (slice (m_start o) (m_end o) line)) as Nu by (intros I; apply ListFacts.mem_ch_in in I; congruence).
  repeat inv_ok H. injection H as <-. apply pk_yes; auto.
  repeat match goal with H : group_named _ _ _ _ = Ok _ |- _ => apply group_named_get in H; rewrite <- H in *; clear H end.
  unfold picked. cbn.
  destruct (truthy_str (gd_get p subject o "et")); [injection E0 as <-; cbn; repeat split|apply group_named_get in E0; subst; repeat split].
Qed.
Lemma picks_spaced p subject line m : forall ms from l, picks p subject line from ms l -> chain from ms m -> spaced from l m.
Proof.
  intros ms. induction ms as [|o ms IH]; intros from l H C; inversion H; subst.
  - exact C.
  - cbn [chain] in C. destruct C as (A & B & C). apply IH; auto. eapply chain_weaken; [|exact C]. lia.
  - cbn [chain] in C. destruct C as (A & B & C). match goal with H : picked _ _ _ _ _ |- _ => destruct H as (Ea & Eb & Ec & _) end.
    pose proof (chain_le _ _ _ C). cbn [spaced]. rewrite Ea, Eb, Ec.
    assert (length (slice from (m_start o) line) <= m_start o - from) by (unfold slice; rewrite firstn_length; lia).
    repeat split; try lia; auto.
Qed.

(** ** The text of a group *)
Definition in_chars (cs : str) (s : str) : Prop := Forall (fun c => In c cs) s.
Lemma take_chars cs s : exists pre, in_chars cs pre /\ s = pre ++ drop_while (in_set cs) s.
Proof.
  induction s as [|c s IH]; [exists []; split; auto; constructor|]. cbn [drop_while]. destruct (in_set cs c) eqn:E; [|exists []; split; auto; constructor].
  destruct IH as (pre & F & IH). exists (c :: pre). split; [constructor; auto; now apply ListFacts.mem_ch_in|]. cbn. now rewrite <- IH.
Qed.
Lemma in_chars_rev cs s : in_chars cs s -> in_chars cs (rev s).
Proof. unfold in_chars. rewrite !Forall_forall. intros H c I. apply H. now apply in_rev. Qed.
Lemma strip_chars_ok cs s : exists pre post, in_chars cs pre /\ in_chars cs post /\ s = pre ++ strip_chars cs s ++ post
  /\ ~ starts_in cs (strip_chars cs s) /\ ~ ends_in cs (strip_chars cs s).
Proof.
  destruct (take_chars cs s) as (pre & F & A). destruct (take_chars cs (rev (drop_while (in_set cs) s))) as (post & G & B).
  exists pre, (rev post). split; auto. split; [now apply in_chars_rev|]. split.
  - rewrite A at 1. f_equal. apply (f_equal (@rev ch)) in B. rewrite rev_involutive, rev_app_distr in B. exact B.
  - split; [apply (rstrip_starts cs (lstrip_chars cs s) cs), lstrip_starts|apply (rstrip_ends cs (lstrip_chars cs s))].
Qed.
Lemma in_chars_sub cs ds s : (forall c, In c cs -> In c ds) -> in_chars cs s -> in_chars ds s.
Proof. unfold in_chars. intros H. apply Forall_impl. auto. Qed.
Lemma in_chars_app cs a b : in_chars cs a -> in_chars cs b -> in_chars cs (a ++ b).
Proof. intros A B. now apply Forall_app. Qed.
Lemma author_text_ok s : exists pre post,
  sub_text re_etal_ci (py "et al.") (sub_text re_ed_notation_ci (py "(ed.)") s) = pre ++ author_text s ++ post
  /\ in_chars (py ".,:;- []()") pre /\ in_chars (py ",:;- []()") post
  /\ (endswith (author_text s) (py "(ed.)") = false -> ~ starts_in (py ")") (author_text s) /\ ~ ends_in (py ")") (author_text s)).
Proof.
  unfold author_text. set (n := sub_text re_etal_ci _ _). clearbody n. destruct (take_chars (py ".") n) as (p1 & F1 & E1).
  change (drop_while (in_set (py ".")) n) with (lstrip_chars (py ".") n) in E1. set (n1 := lstrip_chars (py ".") n) in *. clearbody n1.
  destruct (strip_chars_ok (py ",:;- [](") n1) as (p2 & q2 & F2 & G2 & E2 & _). set (n2 := strip_chars (py ",:;- [](") n1) in *. clearbody n2.
  assert (in_chars (py ".,:;- []()") (p1 ++ p2)) as P12.
  { apply in_chars_app; (eapply in_chars_sub; [|eassumption]; cbn; intuition). }
  assert (in_chars (py ",:;- []()") q2) as Q2 by ((eapply in_chars_sub; [|eassumption]; cbn; intuition)).
  destruct (endswith n2 (py "(ed.)")) eqn:Ed.
  - exists (p1 ++ p2), q2. subst n1. rewrite E1, <- app_assoc. repeat split; auto; congruence.
  - destruct (strip_chars_ok (py ")") n2) as (p3 & q3 & F3 & G3 & E3 & S3 & T3). set (n3 := strip_chars (py ")") n2) in *. clearbody n3.
    exists (p1 ++ p2 ++ p3), (q3 ++ q2). subst n1 n2. rewrite E1, <- !app_assoc. split; auto. split.
    + rewrite app_assoc. apply in_chars_app; auto. (eapply in_chars_sub; [|eassumption]; cbn; intuition).
    + split; auto. apply in_chars_app; auto. (eapply in_chars_sub; [|eassumption]; cbn; intuition).
Qed.

Lemma authors_ok E line kb out : identify_and_tag_authors E line kb = Ok out ->
  let o := fold_left (fun l e => replace (fst e) (snd e) l) kb line in
  let found s := re_finditer (rx_re (re_auth E)) (strip_tags s) in
  let src := if length (found o) <? length (found (unidecode E o)) then unidecode E o else o in
  length (strip_tags src) = length src ->
  exists ps, picks (re_auth E) (strip_tags src) (strip_tags o) 0 (found src) ps /\ authors_tagged (re_auth_near_miss E) 0 ps src out.
Proof.
  intros H o found src L. unfold identify_and_tag_authors in H. fold o in H. cbv zeta in H.
  fold (found o) in H. fold (found (unidecode E o)) in H.
  assert (bind (author_positions (re_auth E) (strip_tags src) (strip_tags o) (found src) 0) (fun ps => tag_authors (re_auth_near_miss E) src (rev ps)) = Ok out) as H'.
  { unfold src. destruct (length (found o) <? length (found (unidecode E o))); exact H. }
  clear H. rename H' into H. inv_ok H. apply positions_ok in E0. exists a. split; auto.
  destruct (tag_authors_ok (re_auth_near_miss E) src a 0 out) as (t & T1 & T2); auto.
  - eapply picks_spaced; eauto. unfold found. rewrite <- L. apply finditer_ok.
  - cbn in T1, T2. now subst t.
Qed.
