(** What a pattern reads between two texts, and the texts its groups capture. *)
From Coq Require Import List Arith NArith Bool Lia.
From Verif Require Import PyStr ListFacts Regex RegexMeta RegexLang.
Import ListNotations.
Local Open Scope nat_scope.
Local Notation length := List.length.

Definition caps := list (nat * str).
Inductive reps (P : str -> str -> str -> caps -> Prop) : nat -> option nat -> str -> str -> str -> caps -> Prop :=
| reps_stop mx a b : reps P 0 mx a [] b []
| reps_more mn mx a u v b c1 c2 : mx <> Some 0 -> P a u (v ++ b) c1 -> reps P (pred mn) (option_map pred mx) (a ++ u) v b c2 ->
    reps P mn mx a (u ++ v) b (c2 ++ c1).
Fixpoint rd (r : re) (a w b : str) (c : caps) {struct r} : Prop :=
  match r with
  | Eps => w = [] /\ c = []
  | Cls k => exists d, w = [d] /\ cls_mem k d = true /\ c = []
  | Any => exists d, w = [d] /\ d <> 10%N /\ c = []
  | Cat r1 r2 => exists u v c1 c2, w = u ++ v /\ c = c2 ++ c1 /\ rd r1 a u (v ++ b) c1 /\ rd r2 (a ++ u) v b c2
  | Alt r1 r2 => rd r1 a w b c \/ rd r2 a w b c
  | Rep _ mn mx r => reps (rd r) mn mx a w b c
  | Grp i r => exists c', c = (i, w) :: c' /\ rd r a w b c'
  | Look true ng _ r => w = [] /\ c = [] /\ let P := exists u t c', b = u ++ t /\ rd r a u t c' in if ng then ~ P else P
  | Look false ng n r => w = [] /\ c = [] /\ let P := exists p u c', a = p ++ u /\ length u = n /\ rd r p u b c' in if ng then ~ P else P
  | Bos => w = [] /\ c = [] /\ a = []
  | Eos => w = [] /\ c = [] /\ (b = [] \/ b = [10%N])
  | Wordb => w = [] /\ c = [] /\ xorb (hd_is_word (rev a)) (hd_is_word b) = true
  | NWordb => w = [] /\ c = [] /\ xorb (hd_is_word (rev a)) (hd_is_word b) = false
  end.
Fixpoint fair (r : re) : bool :=
  match r with
  | Cat a b | Alt a b => fair a && fair b
  | Rep _ _ _ a => (0 <? minlen a) && fair a
  | Grp _ a => fair a
  | Look _ _ _ a => negb (has_group a) && fair a
  | _ => true
  end.
Lemma fair_productive r : fair r = true -> productive r = true.
Proof. induction r; cbn; auto; rewrite ?andb_true_iff; intuition. Qed.

(** groups and the captured texts *)
Definition located (s : str) (g : groups) (c : caps) : Prop := Forall2 (fun p q => fst p = fst q /\ slice (fst (snd p)) (snd (snd p)) s = snd q) g c.
Lemma located_app s g1 c1 g2 c2 : located s g1 c1 -> located s g2 c2 -> located s (g2 ++ g1) (c2 ++ c1).
Proof. unfold located. intros. now apply Forall2_app. Qed.
Lemma slice_mid (a w b : str) : slice (length a) (length a + length w) (a ++ w ++ b) = w.
Proof. unfold slice. rewrite skipn_app, skipn_all, Nat.sub_diag. cbn [app skipn]. replace (length a + length w - length a) with (length w) by lia. rewrite firstn_app, firstn_all, Nat.sub_diag. cbn. apply app_nil_r. Qed.
Lemma fwd_here_eq a s w x' : fwd (here a s) w x' -> exists b, s = w ++ b /\ x' = here (a ++ w) b.
Proof. apply fwd_here_iff. Qed.
Lemma here_at a b : at_ (a ++ b) (here a b). Proof. apply at_here. Qed.
Lemma here_inj a b a' b' : here a b = here a' b' -> a = a' /\ b = b'.
Proof. unfold here. intros H. injection H as _ H1 H2. apply (f_equal (@rev ch)) in H1. rewrite !rev_involutive in H1. auto. Qed.
Lemma back_snoc n a c b : back (S n) (here (a ++ [c]) b) = back n (here a (c :: b)).
Proof.
  cbn [back]. unfold here. cbn [pre suf pos]. rewrite rev_app_distr. cbn [rev app]. rewrite app_length. cbn [length]. now replace (length a + 1 - 1) with (length a) by lia.
Qed.
Lemma back_here n : forall a b, n <= length a -> exists p u, a = p ++ u /\ length u = n /\ back n (here a b) = Some (here p (u ++ b)).
Proof.
  induction n as [|n IH]; intros a b L.
  - exists a, []. rewrite app_nil_r. cbn. auto.
  - destruct (rev a) as [|c t] eqn:E; [apply (f_equal (@length ch)) in E; rewrite rev_length in E; cbn in E; lia|].
    assert (a = rev t ++ [c]) as -> by (rewrite <- (rev_involutive a), E; reflexivity). rewrite app_length in L. cbn in L.
    destruct (IH (rev t) (c :: b)) as (p & u & E1 & L1 & B); [lia|]. exists p, (u ++ [c]). split; [rewrite E1; now rewrite app_assoc|]. split; [rewrite app_length; cbn; lia|].
    rewrite back_snoc, B, <- app_assoc. reflexivity.
Qed.
Lemma back_short n : forall a b, length a < n -> back n (here a b) = None.
Proof.
  induction n as [|n IH]; intros a b L; [lia|]. destruct (rev a) as [|c t] eqn:E.
  - assert (a = []) as -> by (rewrite <- (rev_involutive a), E; reflexivity). reflexivity.
  - assert (a = rev t ++ [c]) as -> by (rewrite <- (rev_involutive a), E; reflexivity). rewrite app_length in L. cbn in L. rewrite back_snoc. apply IH. lia.
Qed.

Definition says (r : re) : Prop :=
  (forall a s g x' g', mt r (here a s) g x' g' -> exists w b c gc, s = w ++ b /\ x' = here (a ++ w) b /\ rd r a w b c /\ g' = gc ++ g /\ located (a ++ s) gc c)
  /\ (forall a w b c g, rd r a w b c -> exists gc, mt r (here a (w ++ b)) g (here (a ++ w) b) (gc ++ g) /\ located (a ++ w ++ b) gc c).
Lemma says_plain r a s g : says r -> has_group r = false -> fair r = true ->
  (m r (here a s) g accept <> None <-> exists u t c, s = u ++ t /\ rd r a u t c).
Proof.
  intros (S1 & S2) Hg Hf. split.
  - intros N. destruct (m r (here a s) g accept) as [[y h]|] eqn:E; [|congruence]. apply m_sound in E as (x' & g' & M & _). apply S1 in M as (w & b & c & gc & -> & _ & R & _). eauto.
  - intros (u & t & c & -> & R). destruct (S2 _ _ _ _ g R) as (gc & M & _). eapply (m_complete (a ++ u ++ t)); [exact M|apply here_at|now apply fair_productive|discriminate].
Qed.
Lemma says_behind r p u b g : says r -> fair r = true ->
  (m r (here p (u ++ b)) g (accept_at (length (p ++ u))) <> None <-> exists c, rd r p u b c).
Proof.
  intros (S1 & S2) Hf. split.
  - intros N. destruct (m r _ g _) as [[y h]|] eqn:E; [|congruence]. apply m_sound in E as (x' & g' & M & E2). apply S1 in M as (w & b' & c & gc & E & -> & R & _). unfold accept_at, here in E2. cbn [pos] in E2.
    destruct (Nat.eqb_spec (length (p ++ w)) (length (p ++ u))) as [L|]; [|discriminate]. rewrite !app_length in L. assert (u = w /\ b = b') as (<- & <-); [|eauto].
    assert (length u = length w) as L' by lia. clear -E L'. revert w E L'. induction u as [|x u IH]; intros [|y w] E L; cbn in *; try discriminate; auto. injection E as -> E. destruct (IH w E); [lia|]. subst. auto.
  - intros (c & R). destruct (S2 _ _ _ _ g R) as (gc & M & _). eapply (m_complete (p ++ u ++ b)); [exact M|apply here_at|now apply fair_productive|]. unfold accept_at, here. cbn [pos]. rewrite Nat.eqb_refl. discriminate.
Qed.
Lemma says_all r : fair r = true -> says r.
Proof.
  induction r as [| k | | r1 IH1 r2 IH2 | r1 IH1 r2 IH2 | gr mn mx r IH | i r IH | ah ng n r IH | | | | ]; cbn [fair]; intros Hf.
  - split; [intros a s g x' g' M; inversion M; subst; exists [], s, [], []; cbn; rewrite app_nil_r; repeat split; constructor|]. intros a w b c g (-> & ->). exists []. cbn. rewrite app_nil_r. split; constructor.
  - split.
    + intros a s g x' g' M. apply mt_cls_fwd in M as (d & F & C & ->). apply fwd_here_eq in F as (b & -> & ->). exists [d], b, [], []. repeat split; auto; [|constructor]. exists d. auto.
    + intros a w b c g (d & -> & C & ->). exists []. split; [|constructor]. apply mt_cls_fwd. exists d. split; [apply fwd_here|auto].
  - split.
    + intros a s g x' g' M. inversion M; subst. match goal with X : step _ = Some (?e, _) |- _ => rename X into St; rename e into d end. apply fwd_step in St. apply fwd_here_eq in St as (b & -> & ->). exists [d], b, [], []. repeat split; auto; [|constructor]. exists d. auto.
    + intros a w b c g (d & -> & C & ->). exists []. split; [|constructor]. apply (mt_any _ _ d); auto. apply fwd_step. apply fwd_here.
  - apply andb_true_iff in Hf as (F1 & F2). destruct (IH1 F1) as (A1 & B1), (IH2 F2) as (A2 & B2). split.
    + intros a s g x' g' M. apply mt_cat_iff in M as (y & h & M1 & M2). apply A1 in M1 as (u & s' & c1 & g1 & -> & -> & R1 & -> & L1). apply A2 in M2 as (v & b & c2 & g2 & -> & -> & R2 & -> & L2).
      exists (u ++ v), b, (c2 ++ c1), (g2 ++ g1). rewrite <- !app_assoc in *. repeat split; auto; [|now apply located_app]. exists u, v, c1, c2. auto.
    + intros a w b c g (u & v & c1 & c2 & -> & -> & R1 & R2). destruct (B1 _ _ _ _ g R1) as (g1 & M1 & L1). destruct (B2 _ _ _ _ (g1 ++ g) R2) as (g2 & M2 & L2). exists (g2 ++ g1). rewrite <- !app_assoc in *. split; [|now apply located_app].
      apply mt_cat_iff. eauto.
  - apply andb_true_iff in Hf as (F1 & F2). destruct (IH1 F1) as (A1 & B1), (IH2 F2) as (A2 & B2). split.
    + intros a s g x' g' M. apply mt_alt_iff in M as [M|M]; [apply A1 in M|apply A2 in M]; destruct M as (w & b & c & gc & E1 & E2 & R & E3 & L); exists w, b, c, gc; cbn [rd]; auto.
    + intros a w b c g [R|R]; [destruct (B1 _ _ _ _ g R) as (gc & M & L)|destruct (B2 _ _ _ _ g R) as (gc & M & L)]; exists gc; split; auto; apply mt_alt_iff; auto.
  - apply andb_true_iff in Hf as (_ & F). destruct (IH F) as (A & B). split.
    + intros a s g x' g' M. remember (Rep gr mn mx r) as q eqn:E. remember (here a s) as x eqn:Ex. revert gr mn mx a s E Ex. induction M; intros gr0 mn0 mx0 a0 s0 E Ex; inversion E; subst.
      * exists [], s0, [], []. cbn. rewrite app_nil_r. repeat split; constructor.
      * apply A in M1 as (u & s' & c1 & g1' & -> & -> & R1 & -> & L1). destruct (IHM2 gr0 (pred mn0) (option_map pred mx0) (a0 ++ u) s' eq_refl eq_refl) as (v & b & c2 & g2' & -> & -> & R2 & -> & L2).
        exists (u ++ v), b, (c2 ++ c1), (g2' ++ g1'). rewrite <- !app_assoc in *. repeat split; auto; [|now apply located_app]. cbn [rd]. constructor; auto.
    + intros a w b c g R. cbn [rd] in R. revert g. induction R as [mx a b|mn mx a u v b c1 c2 N P R IHR]; intros g.
      * exists []. cbn. rewrite app_nil_r. split; constructor.
      * destruct (B _ _ _ _ g P) as (g1 & M1 & L1). destruct (IHR (g1 ++ g)) as (g2 & M2 & L2). exists (g2 ++ g1). rewrite <- !app_assoc in *. split; [|now apply located_app]. eapply mt_more; eauto.
  - destruct (IH Hf) as (A & B). split.
    + intros a s g x' g' M. apply mt_grp_iff in M as (h & M & ->). apply A in M as (w & b & c & gc & -> & -> & R & -> & L). exists w, b, ((i, w) :: c), ((i, (length a, length (a ++ w))) :: gc). repeat split; auto; [exists c; auto|].
      constructor; auto. cbn [fst snd]. rewrite app_length. split; auto. apply slice_mid.
    + intros a w b c g (c' & -> & R). destruct (B _ _ _ _ g R) as (gc & M & L). exists ((i, (length a, length (a ++ w))) :: gc). split.
      * apply mt_grp_iff. eexists. split; [exact M|reflexivity].
      * constructor; auto. cbn [fst snd]. rewrite app_length. split; auto. apply slice_mid.
  - apply andb_true_iff in Hf as (Hg & F). apply negb_true_iff in Hg. specialize (IH F). destruct ah.
    + pose proof (fun a s g => says_plain r a s g IH Hg F) as Q. split.
      * intros a s g x' g' M. inversion M; subst; cbn [rd].
        -- exists [], s, [], []. cbn. rewrite app_nil_r. match goal with X : m _ _ _ _ = Some _ |- _ => pose proof X as Y; apply m_sound in Y as (? & ? & Y & E) end. injection E as E1 E2; subst. apply no_group_mt in Y; auto. subst.
           repeat split; auto; [|constructor]. apply (Q a s g). congruence.
        -- exists [], s, [], []. cbn. rewrite app_nil_r. repeat split; auto; [|constructor]. rewrite <- (Q a s g'). auto.
      * intros a w b c g R. cbn [rd] in R. destruct R as (-> & -> & R). exists []. cbn [app]. rewrite app_nil_r. split; [|constructor]. destruct ng.
        -- rewrite <- (Q a b g) in R. apply mt_nahead. destruct (m _ _ _ _); auto. exfalso. apply R. discriminate.
        -- rewrite <- (Q a b g) in R. destruct (m r (here a b) g accept) as [[y h]|] eqn:E; [|congruence]. pose proof E as Y. apply m_sound in Y as (? & ? & Y & E2). apply no_group_mt in Y; auto. subst. injection E2 as -> ->. eapply mt_ahead. eauto.
    + assert (forall a b g, (exists y, back n (here a b) = Some y /\ m r y g (accept_at (length a)) <> None) <-> exists p u c', a = p ++ u /\ length u = n /\ rd r p u b c') as Q.
      { intros a b g. split.
        - intros (y & By & N). destruct (Nat.le_gt_cases n (length a)) as [L|L]; [|rewrite back_short in By by auto; discriminate]. destruct (back_here n a b L) as (p & u & -> & Lu & By'). rewrite By in By'. injection By' as ->.
          apply says_behind in N as (c & R); auto. exists p, u, c. auto.
        - intros (p & u & c & -> & Lu & R). destruct (back_here n (p ++ u) b) as (p' & u' & E & Lu' & By); [rewrite app_length; lia|].
          assert (p = p' /\ u = u') as (<- & <-). { assert (length p = length p') as Lp by (apply (f_equal (@length ch)) in E; rewrite !app_length in E; lia). clear -E Lp. revert p' E Lp. induction p as [|x p IH]; intros [|y p'] E L; cbn in *; try discriminate; auto. injection E as -> E. destruct (IH p' E); [lia|]. subst. auto. }
          eexists. split; [exact By|]. apply says_behind; eauto. }
      split.
      * intros a s g x' g' M. inversion M; subst; cbn [rd].
        -- exists [], s, [], []. cbn. rewrite app_nil_r. match goal with X : m _ _ _ _ = Some _ |- _ => pose proof X as Y; apply m_sound in Y as (? & ? & Y & E) end. unfold accept_at in E. destruct (_ =? _) in E; [|discriminate]. injection E as E1 E2; subst. apply no_group_mt in Y; auto. subst.
           repeat split; auto; [|constructor]. apply (Q a s g). eexists. split; [eauto|]. cbn [pos here] in *. change (pos (here a s)) with (length a) in *. congruence.
        -- exists [], s, [], []. cbn. rewrite app_nil_r. repeat split; auto; [|constructor]. rewrite <- (Q a s g'). intros (y & By & N). apply N. change (length a) with (pos (here a s)). auto.
      * intros a w b c g R. cbn [rd] in R. destruct R as (-> & -> & R). exists []. cbn [app]. rewrite app_nil_r. split; [|constructor]. destruct ng.
        -- rewrite <- (Q a b g) in R. apply mt_nbehind. intros y By. destruct (m _ _ _ _) eqn:E; auto. exfalso. apply R. exists y. split; auto. change (length a) with (pos (here a b)). congruence.
        -- rewrite <- (Q a b g) in R. destruct R as (y & By & N). destruct (m r y g (accept_at (length a))) as [[z h]|] eqn:E; [|congruence]. pose proof E as Y. apply m_sound in Y as (? & ? & Y & E2). apply no_group_mt in Y; auto. subst. unfold accept_at in E2. destruct (_ =? _) in E2; [|discriminate]. injection E2 as -> ->. eapply mt_behind; eauto.
  - split.
    + intros a s g x' g' M. inversion M; subst. match goal with X : pos _ = 0 |- _ => rename X into Z end. exists [], s, [], []. cbn. rewrite app_nil_r. repeat split; auto; [|constructor]. cbn in Z. destruct a; [auto|discriminate].
    + intros a w b c g (-> & -> & ->). exists []. split; constructor. reflexivity.
  - split.
    + intros a s g x' g' M. apply mt_eos in M as (-> & -> & E). exists [], s, [], []. cbn. rewrite app_nil_r. repeat split; auto. constructor.
    + intros a w b c g (-> & -> & E). exists []. cbn. rewrite app_nil_r. split; [|constructor]. apply mt_eos. auto.
  - split.
    + intros a s g x' g' M. apply mt_wordb_iff in M as (-> & -> & E). exists [], s, [], []. cbn. rewrite app_nil_r. repeat split; auto. constructor.
    + intros a w b c g (-> & -> & E). exists []. cbn. rewrite app_nil_r. split; [|constructor]. apply mt_wordb_iff. auto.
  - split.
    + intros a s g x' g' M. inversion M; subst. exists [], s, [], []. cbn. rewrite app_nil_r. repeat split; auto. constructor.
    + intros a w b c g (-> & -> & E). exists []. cbn. rewrite app_nil_r. split; [|constructor]. constructor. exact E.
Qed.

(** ** A match and its groups *)
Fixpoint cap (i : nat) (c : caps) : option str := match c with [] => None | (j, t) :: c' => if i =? j then Some t else cap i c' end.
Lemma located_cap s g c i : located s g c -> match lookup_group i g with Some (p, q) => Some (slice p q s) | None => None end = cap i c.
Proof. induction 1 as [|[j [p q]] [j' t] g c (E1 & E2) L IH]; cbn [lookup_group cap fst snd] in *; auto. subst j'. destruct (i =? j); auto. now rewrite E2. Qed.
Lemma run_rd r a s o : fair r = true -> run r false (here a s) = Some o -> exists w b c, s = w ++ b /\ rd r a w b c
  /\ m_start o = length a /\ m_end o = length a + length w /\ forall i, i <> 0 -> g_text (a ++ s) o i = cap i c.
Proof.
  intros F H. unfold run in H. destruct (m r (here a s) [] _) as [[z g]|] eqn:Q; [|discriminate]. injection H as <-. cbn [andb] in Q. apply m_sound in Q as (z' & h & M & E). injection E as -> ->.
  apply (says_all r F) in M as (w & b & c & gc & -> & -> & R & -> & L). exists w, b, c. repeat split; auto; [cbn; now rewrite app_length|]. intros i N. rewrite app_nil_r in *. unfold g_text, g_span. cbn [m_groups]. destruct (Nat.eqb_spec i 0); [congruence|]. now apply located_cap.
Qed.
Lemma run_not r a w b : fair r = true -> run r false (here a (w ++ b)) = None -> forall c, ~ rd r a w b c.
Proof.
  intros F H c R. destruct (proj2 (says_all r F) _ _ _ _ [] R) as (gc & M & _). apply (run_complete (a ++ w ++ b) r _ _ _ (here_at _ _) (fair_productive _ F) M H).
Qed.

(** ** Substitution *)
(** t is s with some texts replaced, from the left to the right: [R a w b v] holds of each replaced text w, the texts before and
    behind it, and what is put for it; in what is kept before it, and after the last one, there begins no text with [P] *)
Inductive tagged (P : str -> str -> str -> Prop) (R : str -> str -> str -> str -> Prop) : str -> str -> str -> Prop :=
| tagged_end a s : (forall p w q, s = p ++ w ++ q -> ~ P (a ++ p) w q) -> tagged P R a s s
| tagged_step a k w b v t : (forall p q w' b', k = p ++ q -> q <> [] -> q ++ w ++ b = w' ++ b' -> ~ P (a ++ p) w' b') ->
    R (a ++ k) w b v -> tagged P R (a ++ k ++ w) b t -> tagged P R a (k ++ w ++ b) (k ++ v ++ t).
Lemma iter_skip r u : forall p pr b, iter_at r p pr (u ++ b) (length u) = iter_at r (p + length u) (rev u ++ pr) b 0.
Proof.
  induction u as [|c u IH]; intros p pr b; cbn [app length]; [now rewrite Nat.add_0_r|]. cbn [iter_at]. rewrite IH. cbn [rev]. rewrite <- app_assoc. cbn [app]. f_equal. lia.
Qed.
Lemma rd_min r a w b c : fair r = true -> rd r a w b c -> minlen r <= length w.
Proof. intros F R. destruct (proj2 (says_all r F) _ _ _ _ [] R) as (gc & M & _). pose proof (mt_minlen _ _ _ _ _ _ M (here_at a (w ++ b))) as L. unfold here in L. cbn [pos] in L. rewrite app_length in L. lia. Qed.
Lemma sub_tagged r (f : mobj -> str) (P : str -> str -> str -> Prop) (R : str -> str -> str -> str -> Prop) whole : fair r = true -> 1 <= minlen r ->
  (forall a w b, P a w b -> exists c, rd r a w b c) ->
  (forall a w b o, whole = a ++ w ++ b -> run r false (here a (w ++ b)) = Some o -> m_start o = length a -> m_end o = length a + length w -> R a w b (f o)) ->
  tagged P R [] whole (re_sub r f whole).
Proof.
  intros F Mn HP HR.
  enough (forall n s k a, length s <= n -> whole = a ++ k ++ s -> (forall p q, k = p ++ q -> q <> [] -> run r false (here (a ++ p) (q ++ s)) = None) ->
    tagged P R a (k ++ s) (sub_from whole f (length a) (iter_at r (length (a ++ k)) (rev (a ++ k)) s 0))) as H.
  { apply (H (length whole) whole [] []); auto. intros p q E N. destruct p; [cbn in E; congruence|discriminate]. }
  assert (forall a, run r false (here a []) = None) as Z.
  { intros a. destruct (run r false (here a [])) as [o|] eqn:E; auto. apply run_rd in E as (w & b & c & E & Rd & _); auto. apply rd_min in Rd; auto. destruct w; [cbn in Rd; lia|discriminate]. }
  induction n as [|n IH]; intros s k a L W K.
  - destruct s; [|cbn in L; lia]. cbn [iter_at]. change (mkst (length (a ++ k)) (rev (a ++ k)) []) with (here (a ++ k) []). rewrite Z. cbn [sub_from]. rewrite W, skipn_app, skipn_all, Nat.sub_diag. cbn [app skipn]. apply tagged_end.
    intros p w q E Hp. rewrite app_nil_r in E. apply HP in Hp as (c & Hp). destruct (w ++ q) as [|x y] eqn:Ewq.
    + apply app_eq_nil in Ewq as (-> & ->). apply rd_min in Hp; auto. cbn in Hp. lia.
    + revert Hp. apply run_not; auto. specialize (K p (x :: y) E ltac:(discriminate)). rewrite app_nil_r in K. now rewrite Ewq.
  - destruct s as [|c t]; [apply (IH [] k a); auto; cbn; lia|]. cbn [iter_at]. change (mkst (length (a ++ k)) (rev (a ++ k)) (c :: t)) with (here (a ++ k) (c :: t)). destruct (run r false (here (a ++ k) (c :: t))) as [o|] eqn:E.
    + pose proof E as E0. apply run_rd in E0 as (w & b & cs & Ew & Rd & S1 & S2 & _); auto. pose proof (rd_min _ _ _ _ _ F Rd) as Lw. rewrite S2. destruct (Nat.eqb_spec (length (a ++ k) + length w) (length (a ++ k))) as [Q|_]; [lia|].
      destruct w as [|x w]; [cbn in Lw; lia|]. cbn [app] in Ew. injection Ew as <- ->. cbn [length]. replace (length (a ++ k) + S (length w) - length (a ++ k) - 1) with (length w) by lia. rewrite iter_skip.
      cbn [sub_from]. rewrite S1, S2. change (k ++ c :: w ++ b) with (k ++ (c :: w) ++ b).
      assert (slice (length a) (length (a ++ k)) whole = k) as ->. { rewrite app_length, W. apply slice_mid. }
      constructor.
      * intros p q w' b' Ek N Eq Hp. apply HP in Hp as (c' & Hp). revert Hp. apply run_not; auto. rewrite <- Eq. apply K; auto.
      * apply HR; auto. rewrite W. now rewrite <- app_assoc.
      * replace (length (a ++ k) + length (c :: w)) with (length (a ++ k ++ c :: w)) by (rewrite !app_length; cbn; lia).
        replace (S (length (a ++ k)) + length w) with (length ((a ++ k ++ c :: w) ++ [])) by (rewrite !app_length; cbn; lia).
        replace (rev w ++ c :: rev (a ++ k)) with (rev ((a ++ k ++ c :: w) ++ [])) by (rewrite app_nil_r, !rev_app_distr; cbn; now rewrite <- !app_assoc).
        apply (IH b [] (a ++ k ++ c :: w)); [cbn in L; rewrite app_length in L; lia|rewrite W; cbn [app]; now rewrite <- !app_assoc|]. intros p q Ep N. destruct p; [cbn in Ep; congruence|discriminate].
    + replace (S (length (a ++ k))) with (length (a ++ k ++ [c])) by (rewrite !app_length; cbn; lia). replace (c :: rev (a ++ k)) with (rev (a ++ k ++ [c])) by (rewrite !rev_app_distr; reflexivity).
      replace (k ++ c :: t) with ((k ++ [c]) ++ t) by (now rewrite <- app_assoc). apply IH; [cbn in L; lia|rewrite W; now rewrite <- app_assoc|].
      intros p q Ep N. destruct (rev q) as [|x q'] eqn:Eq; [exfalso; apply N; rewrite <- (rev_involutive q), Eq; reflexivity|]. assert (q = rev q' ++ [x]) as -> by (rewrite <- (rev_involutive q), Eq; reflexivity).
      rewrite app_assoc in Ep. apply app_inj_tail in Ep as (Ek & <-). rewrite <- app_assoc. cbn [app]. destruct (rev q') as [|y z] eqn:Eq'; [rewrite app_nil_r in Ek; subst p; exact E|]. apply K; [exact Ek|discriminate].
Qed.

(** ** Reading simple patterns *)
Lemma rd_class k mn mx a w b c : reps (rd (Cls k)) mn mx a w b c <-> forallb (cls_mem k) w = true /\ mn <= length w /\ le_max (length w) mx /\ c = [].
Proof.
  split.
  - induction 1 as [mx a b|mn mx a u v b c1 c2 N (d & -> & D & ->) R (I1 & I2 & I3 & ->)]; [cbn; repeat split; auto; destruct mx; cbn; lia|]. cbn [app forallb length]. rewrite D, I1. repeat split; [lia|]. destruct mx as [[|n]|]; cbn in *; try congruence; auto. lia.
  - intros (A & L & M & ->). revert mn mx a A L M. induction w as [|d w IH]; intros mn mx a A L M.
    + cbn in L. assert (mn = 0) as -> by lia. constructor.
    + cbn [forallb] in A. apply andb_true_iff in A as (D & A). change (d :: w) with ([d] ++ w). change (@nil (nat * str)) with (@nil (nat * str) ++ []). constructor.
      * intros ->. cbn in M. lia.
      * exists d. auto.
      * apply IH; auto; [cbn in L; lia|]. destruct mx as [[|n]|]; cbn in *; auto; lia.
Qed.
Lemma rd_option P mx a w b c : mx = Some 1 -> reps P 0 mx a w b c <-> (w = [] /\ c = []) \/ P a w b c.
Proof.
  intros ->. split.
  - inversion 1 as [|mn mx a' u v b' c1 c2 N Hp Hr]; subst; auto. right. cbn in Hr. inversion Hr as [|mn mx a' u' v' b' c1' c2' N' Hp' Hr']; subst; [|congruence]. cbn [app] in *. now rewrite app_nil_r.
  - intros [(-> & ->)|H]; [constructor|]. rewrite <- (app_nil_r w). change c with (@nil (nat * str) ++ c). constructor; [discriminate|auto|constructor].
Qed.
Definition letters (ci : bool) (word w : str) : Prop := if ci then Forall2 (fun c d => In c (case_variants d)) word w else w = word.
Definition lits (ci : bool) (word : str) (r : re) : re := fold_right (fun c r => Cat (Cls (mkcls false ci [CRange c c])) r) r word.
Lemma range_one c d : in_range c c d = N.eqb d c.
Proof. unfold in_range. destruct (N.eqb_spec d c) as [->|N]; [now rewrite !N.leb_refl|]. destruct (N.leb_spec c d), (N.leb_spec d c); cbn; auto. lia. Qed.
Lemma one_char ci c d : cls_mem (mkcls false ci [CRange c c]) d = true <-> if ci then In c (case_variants d) else d = c.
Proof.
  unfold cls_mem. cbn [c_neg c_ci c_items existsb]. rewrite xorb_false_l, orb_false_r. unfold item_mem. destruct ci.
  - rewrite existsb_exists. split; [intros (e & I & E)|intros I; exists c; split; auto]; rewrite range_one, N.eqb_eq in *; congruence.
  - rewrite range_one. apply N.eqb_eq.
Qed.
Lemma rd_lits ci word r : forall a t b c, rd (lits ci word r) a t b c <-> exists u v, t = u ++ v /\ letters ci word u /\ rd r (a ++ u) v b c.
Proof.
  unfold letters. induction word as [|x word IH]; intros a t b c; cbn [lits fold_right].
  - split.
    + intros H. exists [], t. rewrite app_nil_r. split; auto. split; auto. destruct ci; constructor.
    + intros (u & v & -> & L & H). assert (u = []) as -> by (destruct ci; [inversion L|]; auto). now rewrite app_nil_r in H.
  - fold (lits ci word r). cbn [rd]. split.
    + intros (u & v & c1 & c2 & -> & -> & (d & -> & D & ->) & H). apply IH in H as (u & v' & -> & L & H). exists (d :: u), v'. split; auto. apply one_char in D. rewrite app_nil_r. split.
      * destruct ci; [constructor; auto|subst; auto].
      * rewrite <- app_assoc in H. exact H.
    + intros (u & v & -> & L & H). assert (exists d u', u = d :: u' /\ (if ci then In x (case_variants d) else d = x) /\ (if ci then Forall2 (fun c d => In c (case_variants d)) word u' else u' = word)) as (d & u' & -> & D & L').
      { destruct ci; [inversion L; subst; eauto|subst; eauto]. }
      exists [d], (u' ++ v), [], c. rewrite app_nil_r. split; auto. split; auto. split; [exists d; split; auto; split; auto; now apply one_char|]. apply IH. exists u', v. split; auto. split; auto. now rewrite <- app_assoc.
Qed.
Lemma lits_fair ci word r : fair (lits ci word r) = fair r.
Proof. induction word; auto. Qed.
Lemma lits_min ci word r : minlen (lits ci word r) = length word + minlen r.
Proof. induction word as [|c w IH]; auto. cbn [lits fold_right minlen length]. fold (lits ci w r). rewrite IH. reflexivity. Qed.

(** ** The preferred match *)
Lemma run_m r a s o : run r false (here a s) = Some o <-> exists z g, m r (here a s) [] accept = Some (z, g) /\ o = mkmobj (length a) (pos z) g.
Proof.
  unfold run. change (m r (here a s) [] (fun x' g' => if false && (pos x' =? pos (here a s)) then None else Some (x', g'))) with (m r (here a s) [] accept). destruct (m r (here a s) [] accept) as [[z g]|].
  - split; [intros E; injection E as <-; eauto|intros (z' & g' & E & ->); injection E as -> ->; reflexivity].
  - split; [discriminate|intros (? & ? & ? & _); discriminate].
Qed.
Lemma peel r1 r2 a s g k res : fair r1 = true -> m (Cat r1 r2) (here a s) g k = Some res -> exists u s' c gc, s = u ++ s' /\ rd r1 a u s' c /\ located (a ++ s) gc c
  /\ m r2 (here (a ++ u) s') (gc ++ g) k = Some res.
Proof. intros F H. cbn [m] in H. apply m_sound in H as (x' & g' & M & H). apply (says_all r1 F) in M as (w & b & c & gc & -> & -> & R & -> & L). exists w, b, c, gc. auto. Qed.
Lemma peel_lits ci word r a s g k res : m (lits ci word r) (here a s) g k = Some res -> exists u s', s = u ++ s' /\ letters ci word u /\ m r (here (a ++ u) s') g k = Some res.
Proof.
  revert a s. induction word as [|x word IH]; intros a s H.
  - exists [], s. rewrite app_nil_r. split; auto. split; auto. destruct ci; constructor.
  - apply (peel (Cls _) (lits ci word r)) in H as (u & s' & c & gc & -> & (d & -> & D & ->) & L & H); [|reflexivity]. inversion L; subst. apply IH in H as (u & s'' & -> & W & H). exists (d :: u), s''. split; auto. rewrite <- app_assoc in H. split; auto.
    apply one_char in D. unfold letters in *. destruct ci; [constructor; auto|now subst].
Qed.
Lemma rep_total mn mx c (K : cont) : (forall x g, K x g <> None) -> forall fuel n x g, mn <= n -> 0 < fuel -> length (suf x) < fuel -> rep_loop true mn mx (Cls c) K fuel n x g <> None.
Proof.
  intros HK. induction fuel as [|f IH]; intros n x g Hn _ Hf; [lia|]. cbn [rep_loop]. assert (mn <=? n = true) as -> by (apply Nat.leb_le; lia). unfold orelse. match goal with |- (match ?q with Some _ => _ | None => _ end) <> None => destruct q end; [discriminate|apply HK].
Qed.
Lemma rep_most mn mx c (K : cont) : (forall x g, K x g <> None) -> forall fuel n a s g res, length s + (mn - n) < fuel -> le_max n mx ->
  rep_loop true mn mx (Cls c) K fuel n (here a s) g = Some res -> exists w b, s = w ++ b /\ forallb (cls_mem c) w = true /\ mn <= n + length w /\ le_max (n + length w) mx
    /\ (mx = Some (n + length w) \/ match b with d :: _ => cls_mem c d = false | [] => True end) /\ K (here (a ++ w) b) g = Some res.
Proof.
  intros HK. induction fuel as [|f IH]; intros n a s g res Hf Hm H; [lia|].
  assert (forall Q : Prop, Q -> (if mn <=? n then K (here a s) g else None) = Some res -> Q /\ mn <= n /\ K (here a s) g = Some res) as Stop.
  { intros Q q H'. destruct (Nat.leb_spec mn n); [auto|discriminate]. }
  assert (mn <= n -> K (here a s) g = Some res -> (mx = Some n \/ match s with d :: _ => cls_mem c d = false | [] => True end) -> exists w b, s = w ++ b /\ forallb (cls_mem c) w = true /\ mn <= n + length w /\ le_max (n + length w) mx
    /\ (mx = Some (n + length w) \/ match b with d :: _ => cls_mem c d = false | [] => True end) /\ K (here (a ++ w) b) g = Some res) as Done.
  { intros L E S. exists [], s. cbn [app length forallb]. rewrite Nat.add_0_r, app_nil_r. auto 8. }
  cbn [rep_loop] in H. destruct (below n mx) eqn:B.
  - cbn [m] in H. unfold step in H. unfold here at 1 in H. cbn [suf pos pre] in H. destruct s as [|d t].
    + cbn [orelse] in H. apply (Stop True) in H as (_ & L & E); auto.
    + destruct (cls_mem c d) eqn:D.
      * match type of H with context [rep_loop _ _ _ _ _ _ _ ?y g] => replace y with (here (a ++ [d]) t) in H by (unfold here; cbn [pos pre]; rewrite rev_app_distr, app_length; cbn; f_equal; lia) end.
        assert (pos (here a (d :: t)) <? pos (here (a ++ [d]) t) = true) as Lt by (apply Nat.ltb_lt; cbn; rewrite app_length; cbn; lia). rewrite Lt, orb_true_r in H.
        destruct (rep_loop true mn mx (Cls c) K f (S n) (here (a ++ [d]) t) g) as [r|] eqn:Q.
        -- cbn [orelse] in H. injection H as ->. apply IH in Q as (w & b & -> & A & L & M & Z & E); [|cbn in Hf; lia|unfold below in B; destruct mx; cbn; auto; apply Nat.ltb_lt in B; lia].
           exists (d :: w), b. cbn [app forallb length]. rewrite D, A. rewrite <- app_assoc in E. rewrite Nat.add_succ_r. auto 8.
        -- exfalso. cbn [orelse] in H. apply (Stop True) in H as (_ & L & E); auto. revert Q. apply rep_total; auto; cbn in *; lia.
      * cbn [orelse] in H. apply (Stop True) in H as (_ & L & E); auto.
  - cbn [orelse] in H. apply (Stop True) in H as (_ & L & E); auto. apply Done; auto. left. unfold below in B. destruct mx as [k|]; [|discriminate]. apply Nat.ltb_ge in B. cbn in Hm. f_equal. lia.
Qed.
Lemma peel_most mn mx c a s g (K : cont) res : (forall x g, K x g <> None) -> m (Rep true mn mx (Cls c)) (here a s) g K = Some res -> exists w b, s = w ++ b /\ forallb (cls_mem c) w = true /\ mn <= length w /\ le_max (length w) mx
    /\ (mx = Some (length w) \/ match b with d :: _ => cls_mem c d = false | [] => True end) /\ K (here (a ++ w) b) g = Some res.
Proof.
  intros HK H. change (rep_loop true mn mx (Cls c) K (S (mn + length s)) 0 (here a s) g = Some res) in H. apply rep_most in H; auto; [lia|]. destruct mx; cbn; auto; lia.
Qed.
(** an optional part is taken if it can be *)
Lemma peel_maybe r a s g (K : cont) res : fair r = true -> 1 <= minlen r -> m (Rep true 0 (Some 1) r) (here a s) g K = Some res ->
  (exists w b c gc, s = w ++ b /\ rd r a w b c /\ located (a ++ s) gc c /\ K (here (a ++ w) b) (gc ++ g) = Some res)
  \/ (K (here a s) g = Some res /\ forall w b c, s = w ++ b -> rd r a w b c -> exists gc, K (here (a ++ w) b) (gc ++ g) = None).
Proof.
  intros F Mn H. change (rep_loop true 0 (Some 1) r K (S (length s)) 0 (here a s) g = Some res) in H. cbn [rep_loop] in H. change (below 0 (Some 1)) with true in H. cbv iota in H. change (0 <=? 0) with true in H. change (0 <? 0) with false in H. cbn [orb] in H.
  match type of H with orelse (m r (here a s) g ?k') _ = _ => set (k := k') in H end.
  assert (forall w b gc, length w >= 1 -> s = w ++ b -> k (here (a ++ w) b) (gc ++ g) = K (here (a ++ w) b) (gc ++ g)) as Hk.
  { intros w b gc Lw ->. unfold k. assert (pos (here a (w ++ b)) <? pos (here (a ++ w) b) = true) as -> by (apply Nat.ltb_lt; cbn; rewrite app_length; lia).
    fold (rep_loop true 0 (Some 1) r K). rewrite app_length. destruct (length w + length b) as [|f] eqn:E; [lia|]. reflexivity. }
  destruct (m r (here a s) g k) as [q|] eqn:Q; cbn [orelse] in H.
  - injection H as ->. left. apply m_sound in Q as (x' & g' & M & E). apply (says_all r F) in M as (w & b & c & gc & -> & -> & R & -> & L). pose proof (rd_min _ _ _ _ _ F R). exists w, b, c, gc. rewrite Hk in E by (auto; lia). auto.
  - right. split; auto. intros w b c -> R. destruct (proj2 (says_all r F) _ _ _ _ g R) as (gc & M & _). pose proof (rd_min _ _ _ _ _ F R). exists gc.
    destruct (K (here (a ++ w) b) (gc ++ g)) as [q|] eqn:E; auto. exfalso. revert Q. eapply (m_complete (a ++ w ++ b)); [exact M|apply here_at|now apply fair_productive|]. rewrite Hk by (auto; lia). rewrite E. discriminate.
Qed.
Lemma peel_option r a s g (K : cont) res : (forall x g, K x g <> None) -> fair r = true -> 1 <= minlen r -> m (Rep true 0 (Some 1) r) (here a s) g K = Some res ->
  (exists w b c gc, s = w ++ b /\ rd r a w b c /\ located (a ++ s) gc c /\ K (here (a ++ w) b) (gc ++ g) = Some res)
  \/ (K (here a s) g = Some res /\ forall w b c, s = w ++ b -> ~ rd r a w b c).
Proof.
  intros HK F Mn H. apply peel_maybe in H as [H|(H & N)]; auto. right. split; auto. intros w b c E R. destruct (N w b c E R) as (gc & Q). now apply HK in Q.
Qed.
Lemma opt_total r (K : cont) : (forall x g, K x g <> None) -> forall x g, m (Rep true 0 (Some 1) r) x g K <> None.
Proof.
  intros HK x g. change (m (Rep true 0 (Some 1) r) x g K) with (rep_loop true 0 (Some 1) r K (S (length (suf x))) 0 x g). cbn [rep_loop]. change (0 <=? 0) with true.
  unfold orelse. match goal with |- (match ?q with Some _ => _ | None => _ end) <> None => destruct q end; [discriminate|apply HK].
Qed.
Lemma many_total c (K : cont) : (forall x g, K x g <> None) -> forall x g, m (Rep true 0 None (Cls c)) x g K <> None.
Proof. intros HK x g. change (m (Rep true 0 None (Cls c)) x g K) with (rep_loop true 0 None (Cls c) K (S (length (suf x))) 0 x g). apply rep_total; auto; lia. Qed.
Lemma rd_alt r1 r2 a w b c : rd (Alt r1 r2) a w b c <-> rd r1 a w b c \/ rd r2 a w b c. Proof. reflexivity. Qed.
Lemma rd_cat r1 r2 a w b c : rd (Cat r1 r2) a w b c <-> exists u v c1 c2, w = u ++ v /\ c = c2 ++ c1 /\ rd r1 a u (v ++ b) c1 /\ rd r2 (a ++ u) v b c2. Proof. reflexivity. Qed.
Lemma rd_grp i r a w b c : rd (Grp i r) a w b c <-> exists c', c = (i, w) :: c' /\ rd r a w b c'. Proof. reflexivity. Qed.
Lemma rd_eps a w b c : rd Eps a w b c <-> w = [] /\ c = []. Proof. reflexivity. Qed.
Lemma rd_cls k a w b c : rd (Cls k) a w b c <-> exists d, w = [d] /\ cls_mem k d = true /\ c = []. Proof. reflexivity. Qed.
Lemma rd_rep_cls g mn mx k a w b c : rd (Rep g mn mx (Cls k)) a w b c <-> forallb (cls_mem k) w = true /\ mn <= length w /\ le_max (length w) mx /\ c = [].
Proof. exact (rd_class k mn mx a w b c). Qed.
Lemma rd_opt g r a w b c : rd (Rep g 0 (Some 1) r) a w b c <-> (w = [] /\ c = []) \/ rd r a w b c.
Proof. exact (rd_option (rd r) (Some 1) a w b c eq_refl). Qed.
Lemma rd_ahead n r a w b c : rd (Look true false n r) a w b c <-> w = [] /\ c = [] /\ exists u t c', b = u ++ t /\ rd r a u t c'. Proof. reflexivity. Qed.
Lemma rd_not_ahead n r a w b c : rd (Look true true n r) a w b c <-> w = [] /\ c = [] /\ ~ exists u t c', b = u ++ t /\ rd r a u t c'. Proof. reflexivity. Qed.
Lemma rd_not_behind n r a w b c : rd (Look false true n r) a w b c <-> w = [] /\ c = [] /\ ~ exists p u c', a = p ++ u /\ length u = n /\ rd r p u b c'. Proof. reflexivity. Qed.
(** a literal word at the end of a pattern *)
Definition word_re (ci : bool) (w : str) : re :=
  match rev w with [] => Eps | c :: t => lits ci (rev t) (Cls (mkcls false ci [CRange c c])) end.
Lemma letters_app ci u v w : letters ci (u ++ v) w <-> exists x y, w = x ++ y /\ letters ci u x /\ letters ci v y.
Proof.
  unfold letters. destruct ci.
  - split; [intros H; apply Forall2_app_inv_l in H as (x & y & A & B & ->); eauto|intros (x & y & -> & A & B); now apply Forall2_app].
  - split; [intros ->; eauto|intros (x & y & -> & -> & ->); auto].
Qed.
Lemma letters_one ci c w : letters ci [c] w <-> exists d, w = [d] /\ cls_mem (mkcls false ci [CRange c c]) d = true.
Proof.
  unfold letters. split.
  - intros H. assert (exists d, w = [d] /\ if ci then In c (case_variants d) else d = c) as (d & -> & D).
    { destruct ci; [inversion H as [|? d ? t D T]; inversion T; subst; eauto|subst; eauto]. }
    exists d. split; auto. now apply one_char.
  - intros (d & -> & D). apply one_char in D. destruct ci; [constructor; auto|now subst].
Qed.
Lemma rd_word ci word a w b c : word <> [] -> rd (word_re ci word) a w b c <-> letters ci word w /\ c = [].
Proof.
  intros N. unfold word_re. destruct (rev word) as [|x t] eqn:E. { apply (f_equal (@rev _)) in E. rewrite rev_involutive in E. contradiction. }
  apply (f_equal (@rev _)) in E. rewrite rev_involutive in E. cbn [rev] in E. rewrite rd_lits, E. rewrite letters_app. split.
  - intros (u & v & -> & U & V). apply rd_cls in V as (d & -> & D & ->). split; auto. exists u, [d]. split; auto. split; auto. apply letters_one. eauto.
  - intros ((u & v & -> & U & V) & ->). exists u, v. split; auto. split; auto. apply letters_one in V as (d & -> & D). apply rd_cls. eauto.
Qed.
Lemma m_group i r x g k : m (Grp i r) x g k = m r x g (fun x' g' => k x' ((i, (pos x, pos x')) :: g')). Proof. reflexivity. Qed.
Lemma m_seq r1 r2 x g k : m (Cat r1 r2) x g k = m r1 x g (fun x' g' => m r2 x' g' k). Proof. reflexivity. Qed.
