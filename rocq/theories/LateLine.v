(** No step of tagging adds a "<cds.URL" or "<cds.DOI": authors and collaborations *)
From Coq Require Import List Arith NArith Bool String Lia.
From Verif Require Import PyStr ListFacts Regex RegexMeta RegexParse Patterns Numeration DocText Tag RecordProofs WashProofs HitProofs TagCount TagOk
  RebuildProofs AuthorProofs TagRebuild LateTags LateNames.
Import ListNotations.
Local Open Scope nat_scope.
Local Notation length := List.length.

Section Late.
Variables x y : N.
Hypothesis Le : letters x y.
Notation cnt := (lhits false x y L0).
Let Hy := letters_y x y Le.
Let Hx := letters_x' x y Le.

Lemma infix_cnt a m b : cnt m <= cnt (a ++ m ++ b).
Proof. rewrite !lhits_app. pose proof (lhits_from false x y m (lends x L0 a)). lia. Qed.
Lemma strip_cnt cs s : cnt (strip_chars cs s) <= cnt s.
Proof. destruct (strip_chars_ok cs s) as (a & b & _ & _ & E & _). rewrite E at 2. apply infix_cnt. Qed.
Lemma const_cheap m r : r = py "(ed.)" \/ r = py "et al." -> lcheap false x y m r.
Proof.
  intros R q. unfold lcost. assert (lhits false x y q r = 0 /\ lends x q r = L0) as (-> & ->) by (destruct Le as [(-> & ->)|(-> & ->)], R as [->| ->], q; split; reflexivity).
  cbn. rewrite orb_true_r. lia.
Qed.
Lemma author_text_cnt s : cnt (author_text s) <= cnt s.
Proof.
  destruct (author_text_ok s) as (a & b & E & _). eapply Nat.le_trans; [apply (infix_cnt a _ b)|]. rewrite <- E. unfold sub_text.
  eapply Nat.le_trans; [apply lre_sub_hits; auto; intros; apply const_cheap; auto|]. apply lre_sub_hits; auto. intros. apply const_cheap; auto.
Qed.
(** a part of the line is replaced by a tag around a text *)
Lemma again_late q r : cnt (again r ++ r) <= lhits false x y q r.
Proof.
  unfold again. destruct r as [|c r]; [cbn; lia|]. destruct (N.eqb_spec c 59) as [->|]; [|apply lhits_from]. cbn [app]. change (59%N :: 59%N :: r) with ([59%N] ++ 59%N :: r). rewrite lhits_app.
  change (lhits false x y L0 [59%N]) with 0. change (lends x L0 [59%N]) with (lnext x L0 59). change (lnext x L0 59) with L0. apply lhits_from.
Qed.
Lemma piece_late t g st e out : In t tags -> st <= e -> cnt g <= cnt (slice st e out) -> cnt (firstn st out ++ wrap t g ++ again (skipn e out) ++ skipn e out) <= cnt out.
Proof.
  intros T Lt G. rewrite lhits_app. destruct (late_wrap false x y t (lends x L0 (firstn st out)) g Le T) as (W1 & W2). rewrite lhits_app, W1, W2.
  assert (out = firstn st out ++ slice st e out ++ skipn e out) as E by (rewrite <- (skipn_cut out st e Lt), firstn_skipn; reflexivity). apply (f_equal cnt) in E. rewrite !lhits_app in E.
  pose proof (lhits_from false x y (slice st e out) (lends x L0 (firstn st out))). pose proof (again_late (lends x (lends x L0 (firstn st out)) (slice st e out)) (skipn e out)). lia.
Qed.
Lemma piece_late' t g a b out : In t tags -> a <= b -> cnt g <= cnt (slice a b out) -> cnt (firstn a out ++ wrap t g ++ skipn b out) <= cnt out.
Proof.
  intros T Lt G. rewrite !lhits_app. destruct (late_wrap false x y t (lends x L0 (firstn a out)) g Le T) as (W1 & W2). rewrite W1, W2.
  assert (out = firstn a out ++ slice a b out ++ skipn b out) as E by (rewrite <- (skipn_cut out a b Lt), firstn_skipn; reflexivity). apply (f_equal cnt) in E. rewrite !lhits_app in E.
  pose proof (lhits_from false x y (slice a b out) (lends x L0 (firstn a out))). pose proof (lhits_from false x y (skipn b out) (lends x (lends x L0 (firstn a out)) (slice a b out))). lia.
Qed.

(** ** Authors *)
Definition apos_late (a : apos) : Prop := a_start a <= a_end a /\ (forall t, a_names a = Some t -> cnt t = 0).
Lemma names_cnt names : cnt names = 0 -> cnt (strip_chars (py ",:;- [](") (sub_text re_etal_ci (py "et al.") names) ++ py " (eds.)") = 0.
Proof.
  intros N. rewrite lhits_app. assert (forall q, lhits false x y q (py " (eds.)") = 0) as -> by (intros q; destruct Le as [(-> & ->)|(-> & ->)], q; reflexivity).
  pose proof (strip_cnt (py ",:;- [](") (sub_text re_etal_ci (py "et al.") names)). assert (cnt (sub_text re_etal_ci (py "et al.") names) <= cnt names); [|lia].
  unfold sub_text. apply lre_sub_hits; auto. intros. apply const_cheap; auto.
Qed.
Lemma tag_author_cnt near out a out' : apos_late a -> tag_author near out a = Ok out' -> cnt out' <= cnt out.
Proof.
  intros (A1 & A2) H. assert (forall st, group_from near a (Some st) -> st <= a_end a) as B by (intros st G; inversion G; subst; lia).
  apply tag_author_ok in H as [(_ & _ & ->)|[(st & G & _ & ->)|(st & names & G & _ & Nm & ->)]]; [lia| |].
  - apply piece_late; auto; [destruct (a_etal a); cbn; tauto|]. apply author_text_cnt.
  - apply piece_late; [cbn; tauto| |rewrite (names_cnt names (A2 _ Nm)); lia]. destruct G as [G|(_ & <-)]; auto.
Qed.
Lemma tag_authors_cnt near : forall l out out', Forall apos_late l -> tag_authors near out l = Ok out' -> cnt out' <= cnt out.
Proof.
  induction l as [|a l IH]; intros out out' F; cbn [tag_authors]; intros H; [injection H as <-; lia|]. inversion F; subst. inv_ok H. apply tag_author_cnt in E; auto. apply IH in H; auto. lia.
Qed.
Lemma picks_late p subject line : name_late x y p "author_names" = true -> forall ms from l, (forall o, In o ms -> obj_ok subject (rx_re p) o) -> picks p subject line from ms l -> Forall apos_late l.
Proof.
  intros N. induction ms as [|o ms IH]; intros from l O P; inversion P; subst; [constructor| |].
  - eapply IH; [|eassumption]. intros; apply O; now right.
  - constructor; [|eapply IH; [|eassumption]; intros; apply O; now right]. match goal with H : picked _ _ _ _ _ |- _ => destruct H as (E1 & E2 & _ & E3 & _) end. specialize (O o ltac:(now left)).
    split; [rewrite E1, E2; destruct O as (u & v & _ & _ & _ & -> & -> & L & _); lia|]. intros t T. rewrite E3 in T. eapply name_late_get; eauto.
Qed.
(** the corrections of names *)
Definition states : list state := [Q0; Q1; Q2; Q3; Q4; Q5; Q6].
Definition costb (m r : str) : bool :=
  forallb (fun q => hits w3 x q r + (if state_eqb (ends q r) (ends q m) || state_eqb (ends q r) Q0 || state_eqb (ends q r) Q6 then 0 else 1) <=? hits w3 x q m) states.
Lemma costb_ok m r : costb m r = true -> forall q t, hits w3 x q (r ++ t) <= hits w3 x q (m ++ t).
Proof.
  unfold costb. rewrite forallb_forall. intros H q t. assert (In q states) as I by (destruct q; cbn; tauto). specialize (H q I). apply Nat.leb_le in H. rewrite !hits_app.
  destruct (state_eqb (ends q r) (ends q m)) eqn:A; [apply state_eqb_eq in A; rewrite A; cbn [orb] in H; lia|].
  pose proof (hits_from w3 x t (ends q m)) as F.
  destruct (state_eqb (ends q r) Q0) eqn:B; cbn [orb] in H; [apply state_eqb_eq in B; rewrite B; lia|].
  destruct (state_eqb (ends q r) Q6) eqn:C; [apply state_eqb_eq in C; rewrite C, hits_w3_6; lia|].
  pose proof (hits_one w3 x (letter_next x (letters_x x y Le)) w3_next t (ends q r)). lia.
Qed.
Lemma replace_hits a b : a <> [] -> costb a b = true -> forall s q, hits w3 x q (replace a b s) <= hits w3 x q s.
Proof.
  intros Na C. unfold replace. pose proof (costb_ok _ _ C) as Ct.
  assert (forall n s, length s <= n -> forall k q, hits w3 x q (replace_aux a b s k) <= hits w3 x q (skipn k s)) as H; [|intros s q; apply (H (length s) s (le_n _) 0 q)].
  induction n as [|n IH]; intros [|c s] Len k q; cbn [length] in Len; try (cbn [replace_aux]; destruct k; cbn; lia); cbn [replace_aux].
  destruct k as [|k]; [|cbn [skipn]; apply IH; lia]. cbn [skipn]. destruct (prefixb a (c :: s)) eqn:Pr.
  - apply prefixb_app in Pr as (t & E). rewrite E. eapply Nat.le_trans; [|exact (Ct q t)]. rewrite !hits_app. apply Nat.add_le_mono_l.
    destruct a as [|c' a']; [congruence|]. cbn [app] in E. injection E as -> ->. cbn [length]. eapply Nat.le_trans; [apply IH; lia|].
    replace (skipn (S (length a') - 1) (a' ++ t)) with t; [lia|]. cbn. rewrite Nat.sub_0_r, skipn_app, skipn_all, Nat.sub_diag. reflexivity.
  - cbn [hits]. apply Nat.add_le_mono_l. apply (IH s ltac:(lia) 0).
Qed.
Definition clean_names (kb : list (str * str)) : bool := forallb (fun e => nonempty (fst e) && costb (fst e) (snd e)) kb.
Lemma corrections_cnt kb : clean_names kb = true -> forall s, hits w3 x Q0 (fold_left (fun l e => replace (fst e) (snd e) l) kb s) <= hits w3 x Q0 s.
Proof.
  unfold clean_names. induction kb as [|(a, b) kb IH]; intros C s; cbn [fold_left]; [lia|]. cbn [forallb fst snd] in *. apply andb_true_iff in C as [C1 C2]. apply andb_true_iff in C1 as [C0 C1].
  eapply Nat.le_trans; [apply IH; auto|]. apply replace_hits; [intros ->; discriminate|exact C1].
Qed.
(** writing as ASCII: each character for itself, and ASCII stays *)
Definition transliterates (E : env) (u : N -> str) : Prop := (forall s, unidecode E s = flat_map u s) /\ forall c, (c < 128)%N -> u c = [c].
Definition tame (u : N -> str) (c : N) : Prop := (c < 128)%N \/ ~ In 60%N (u c).
Lemma authors_cnt E u line kb out : transliterates E u -> name_late x y (re_auth E) "author_names" = true -> clean_names kb = true ->
  Forall (tame u) (fold_left (fun l e => replace (fst e) (snd e) l) kb line) ->
  identify_and_tag_authors E line kb = Ok out -> cnt out <= hits w2 x Q0 line.
Proof.
  intros (U1 & U2) N C F H. unfold identify_and_tag_authors in H. set (o := fold_left _ kb line) in *. cbv zeta in H.
  assert (exists src ps, cnt src <= lhits true x y L0 o /\ Forall apos_late ps /\ tag_authors (re_auth_near_miss E) src ps = Ok out) as (src & ps & S & A & T).
  { destruct (_ <? _).
    - inv_ok H. exists (unidecode E o), (rev a). split; [rewrite U1; now apply late_translit|]. split; auto. apply Forall_rev. apply positions_ok in E0. eapply picks_late; [exact N| |exact E0]. intros b I. now apply finditer_obj.
    - inv_ok H. exists o, (rev a). split; [apply late_weaker|]. split; auto. apply Forall_rev. apply positions_ok in E0. eapply picks_late; [exact N| |exact E0]. intros b I. now apply finditer_obj. }
  apply tag_authors_cnt in T; auto. pose proof (corrections_cnt kb C line) as K. fold o in K.
  assert (lhits true x y L0 o <= hits w3 x Q0 o) by (apply (late_early x y o Le L0); discriminate). pose proof (hits_w32 x line Q0). lia.
Qed.

(** ** Collaborations *)
Definition clean_collabs (kb : list (str * rx)) : bool := forallb (fun e => plain (rx_re (snd e)) && g_avoids 1 (rx_re (snd e))) kb.
Lemma tag_collab_cnt p subject : plain (rx_re p) = true -> g_avoids 1 (rx_re p) = true -> forall ms line out, (forall o, In o ms -> obj_ok subject (rx_re p) o) ->
  tag_collab subject ms line = Ok out -> cnt out <= cnt line.
Proof.
  intros Pl Av. induction ms as [|o ms IH]; intros line out O; cbn [tag_collab]; intros H; [injection H as <-; lia|]. destruct (g_text subject o 1) as [g|] eqn:G; [|discriminate].
  apply IH in H; [|intros; apply O; now right]. eapply Nat.le_trans; [exact H|]. specialize (O o ltac:(now left)). apply piece_late'; [cbn; tauto|destruct O as (u & v & _ & _ & _ & -> & -> & L & _); lia|].
  assert (~ In 60%N g) as N by (pose proof (g_plain _ _ _ 1 O Pl ltac:(discriminate) Av) as N; unfold g_str in N; now rewrite G in N).
  pose proof (strip_cnt (py ".,:;- [](){}") g). destruct (plain_late false x y g N) as (Z & _). lia.
Qed.
Lemma collabs_cnt kb : clean_collabs kb = true -> forall line out, identify_and_tag_collaborations line kb = Ok out -> cnt out <= cnt line.
Proof.
  unfold clean_collabs. induction kb as [|(k & p) kb IH]; intros C line out; cbn [identify_and_tag_collaborations]; intros H; [injection H as <-; lia|]. cbn [forallb snd] in C. apply andb_true_iff in C as [C1 C2]. apply andb_true_iff in C1 as [C0 C1].
  inv_ok H. apply IH in H; auto. eapply Nat.le_trans; [exact H|]. eapply tag_collab_cnt; [exact C0|exact C1| |exact E]. intros o I. apply finditer_obj. now apply in_rev.
Qed.
End Late.
