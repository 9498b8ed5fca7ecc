(** Meta-theory of the matcher of [Regex.v]: a declarative match relation, soundness
    and completeness of the backtracking search, positions and groups. *)
From Coq Require Import List Arith NArith Bool Lia.
From Verif Require Import PyStr ListFacts Regex.
Import ListNotations.
Open Scope nat_scope.

(** ** Match relation: [mt r x g x' g']: [r] matches from [x] to [x']. *)
Definition accept : cont := fun x g => Some (x, g).
Definition accept_at (p : nat) : cont := fun x g => if pos x =? p then Some (x, g) else None.

Inductive mt : re -> st -> groups -> st -> groups -> Prop :=
| mt_eps x g : mt Eps x g x g
| mt_cls c x g d x' : step x = Some (d, x') -> cls_mem c d = true -> mt (Cls c) x g x' g
| mt_any x g d x' : step x = Some (d, x') -> d <> 10%N -> mt Any x g x' g
| mt_cat a b x g x1 g1 x2 g2 : mt a x g x1 g1 -> mt b x1 g1 x2 g2 -> mt (Cat a b) x g x2 g2
| mt_altl a b x g x' g' : mt a x g x' g' -> mt (Alt a b) x g x' g'
| mt_altr a b x g x' g' : mt b x g x' g' -> mt (Alt a b) x g x' g'
| mt_stop gr mx a x g : mt (Rep gr 0 mx a) x g x g
| mt_more gr mn mx a x g x1 g1 x2 g2 :
    mx <> Some 0 -> mt a x g x1 g1 ->
    mt (Rep gr (pred mn) (option_map pred mx) a) x1 g1 x2 g2 ->
    mt (Rep gr mn mx a) x g x2 g2
| mt_grp i a x g x' g' : mt a x g x' g' -> mt (Grp i a) x g x' ((i, (pos x, pos x')) :: g')
| mt_ahead w a x g y g' : m a x g accept = Some (y, g') -> mt (Look true false w a) x g x g'
| mt_nahead w a x g : m a x g accept = None -> mt (Look true true w a) x g x g
| mt_behind w a x g y z g' :
    back w x = Some y -> m a y g (accept_at (pos x)) = Some (z, g') ->
    mt (Look false false w a) x g x g'
| mt_nbehind w a x g :
    (forall y, back w x = Some y -> m a y g (accept_at (pos x)) = None) ->
    mt (Look false true w a) x g x g
| mt_bos x g : pos x = 0 -> mt Bos x g x g
| mt_eos0 x g : suf x = [] -> mt Eos x g x g
| mt_eos1 x g : suf x = [10%N] -> mt Eos x g x g
| mt_wordb x g : at_boundary x = true -> mt Wordb x g x g
| mt_nwordb x g : at_boundary x = false -> mt NWordb x g x g.

(** the inner loop of [m (Rep ...)], named *)
Definition rep_loop (gr : bool) (mn : nat) (mx : option nat) (a : re) (k : cont) :=
  fix rep (fuel n : nat) (x : st) (g : groups) {struct fuel} : option (st * groups) :=
       match fuel with
       | O => None
       | S f =>
         let more := fun _ : unit =>
           if below n mx
           then m a x g (fun x' g' =>
                  if (n <? mn) || (pos x <? pos x') then rep f (S n) x' g' else None)
           else None in
         let stop := fun _ : unit => if mn <=? n then k x g else None in
         if gr then orelse (more tt) stop else orelse (stop tt) more
       end.

Lemma m_rep gr mn mx a x g k :
  m (Rep gr mn mx a) x g k = rep_loop gr mn mx a k (S (mn + length (suf x))) 0 x g.
Proof. reflexivity. Qed.

Lemma orelse_some {A} (a : option A) b r :
  orelse a b = Some r -> a = Some r \/ (a = None /\ b tt = Some r).
Proof. destruct a; cbn; auto. Qed.
Lemma orelse_none {A} (a : option A) b :
  orelse a b = None -> a = None /\ b tt = None.
Proof. destruct a; cbn; auto; discriminate. Qed.

(** ** Soundness *)
Definition sub_max (mx : option nat) (n : nat) := option_map (fun k => k - n) mx.

Lemma m_sound r : forall x g k res,
  m r x g k = Some res -> exists x' g', mt r x g x' g' /\ k x' g' = Some res.
Proof.
  induction r as [| c | | a IHa b IHb | a IHa b IHb | gr mn mx a IHa | i a IHa
                 | ah ng w a IHa | | | | ]; intros x g k res H.
  - cbn in H. eauto using mt.
  - cbn in H. destruct (step x) as [[d x']|] eqn:E; try discriminate.
    destruct (cls_mem c d) eqn:E2; try discriminate. eauto using mt.
  - cbn in H. destruct (step x) as [[d x']|] eqn:E; try discriminate.
    destruct (N.eqb_spec d 10) as [E2|E2]; try discriminate. eauto using mt.
  - cbn in H. apply IHa in H as (x1 & g1 & H1 & H). apply IHb in H as (x2 & g2 & H2 & H).
    eauto using mt.
  - cbn in H. apply orelse_some in H as [H|[_ H]].
    + apply IHa in H as (x1 & g1 & H1 & H). eauto using mt.
    + apply IHb in H as (x1 & g1 & H1 & H). eauto using mt.
  - rewrite m_rep in H.
    assert (L : forall fuel n x g, rep_loop gr mn mx a k fuel n x g = Some res ->
        exists x' g', mt (Rep gr (mn - n) (sub_max mx n) a) x g x' g' /\ k x' g' = Some res).
    { clear x g H. induction fuel as [|f IHf]; intros n x g H; [discriminate|].
      cbn [rep_loop] in H.
      assert (Hmore : (if below n mx
           then m a x g (fun x' g' =>
                  if (n <? mn) || (pos x <? pos x') then rep_loop gr mn mx a k f (S n) x' g' else None)
           else None) = Some res ->
         exists x' g', mt (Rep gr (mn - n) (sub_max mx n) a) x g x' g' /\ k x' g' = Some res).
      { intros H0. destruct (below n mx) eqn:Eb; try discriminate.
        apply IHa in H0 as (x1 & g1 & H1 & H0).
        destruct ((n <? mn) || (pos x <? pos x1)); try discriminate.
        apply IHf in H0 as (x2 & g2 & H2 & H0).
        exists x2, g2. split; auto. eapply mt_more; eauto.
        - destruct mx as [q|]; cbn in *; try congruence. apply Nat.ltb_lt in Eb.
          intros E; inversion E; lia.
        - replace (pred (mn - n)) with (mn - S n) by lia.
          replace (option_map pred (sub_max mx n)) with (sub_max mx (S n)); auto.
          destruct mx as [q|]; cbn; auto. f_equal; lia. }
      assert (Hstop : (if mn <=? n then k x g else None) = Some res ->
         exists x' g', mt (Rep gr (mn - n) (sub_max mx n) a) x g x' g' /\ k x' g' = Some res).
      { intros H0. destruct (Nat.leb_spec mn n); try discriminate.
        replace (mn - n) with 0 by lia. eauto using mt. }
      destruct gr; apply orelse_some in H as [H|[_ H]]; auto. }
    apply L in H. rewrite Nat.sub_0_r in H.
    replace (sub_max mx 0) with mx in H; auto.
    destruct mx; cbn; auto; f_equal; lia.
  - cbn in H. apply IHa in H as (x1 & g1 & H1 & H). eauto using mt.
  - destruct ah; cbn in H.
    + fold accept in H. destruct (m a x g accept) as [[y g']|] eqn:E; destruct ng; try discriminate; eauto using mt.
    + destruct (back w x) as [y|] eqn:Eb.
      * fold (accept_at (pos x)) in H.
        destruct (m a y g (accept_at (pos x))) as [[z g']|] eqn:E; destruct ng; try discriminate; eauto using mt.
        exists x, g. split; auto. apply mt_nbehind. intros y0 Hy; rewrite Eb in Hy; inversion Hy; subst; auto.
      * destruct ng; try discriminate. exists x, g; split; auto. apply mt_nbehind. intros y0 Hy. congruence.
  - cbn in H. destruct (Nat.eqb_spec (pos x) 0); try discriminate. eauto using mt.
  - cbn in H. destruct (suf x) as [|c [|? ?]] eqn:E; try discriminate; eauto using mt.
    destruct (N.eqb_spec c 10); try discriminate. subst. eauto using mt.
  - cbn in H. destruct (at_boundary x) eqn:E; try discriminate. eauto using mt.
  - cbn in H. destruct (at_boundary x) eqn:E; try discriminate. eauto using mt.
Qed.

(** ** Positions *)
(** [at_ s x]: the state [x] is a position in the subject [s]. *)
Definition at_ (s : str) (x : st) : Prop := pos x = length (pre x) /\ rev (pre x) ++ suf x = s.

Lemma at_init s : at_ s (init s).
Proof. split; reflexivity. Qed.

Lemma at_len s x : at_ s x -> length s = pos x + length (suf x).
Proof. intros [A B]. rewrite <- B, app_length, rev_length. lia. Qed.

Lemma at_suf s x : at_ s x -> suf x = skipn (pos x) s.
Proof.
  intros [A B]. rewrite <- B, A, <- rev_length, skipn_app, skipn_all, Nat.sub_diag. reflexivity.
Qed.
Lemma at_pre s x : at_ s x -> rev (pre x) = firstn (pos x) s.
Proof.
  intros [A B]. rewrite <- B, A, <- rev_length, firstn_app, firstn_all, Nat.sub_diag. cbn.
  now rewrite app_nil_r.
Qed.
Lemma at_unique s x y : at_ s x -> at_ s y -> pos x = pos y -> x = y.
Proof.
  intros Hx Hy E. pose proof (at_suf _ _ Hx). pose proof (at_suf _ _ Hy).
  pose proof (at_pre _ _ Hx). pose proof (at_pre _ _ Hy). rewrite E in *.
  destruct x as [p pr su], y as [p' pr' su']; cbn in *. subst.
  f_equal. rewrite <- (rev_involutive pr), <- (rev_involutive pr'). congruence.
Qed.

Lemma step_at s x d x' : at_ s x -> step x = Some (d, x') ->
  at_ s x' /\ pos x' = S (pos x) /\ suf x = d :: suf x' /\ nth_error s (pos x) = Some d.
Proof.
  intros [A B] H. unfold step in H. destruct (suf x) as [|c t] eqn:E; inversion H; subst d x'; clear H; cbn.
  repeat split; cbn; try lia; auto.
  - rewrite <- app_assoc. exact B.
  - rewrite <- B, A, <- rev_length, nth_error_app2, Nat.sub_diag by lia. reflexivity.
Qed.

Lemma back_at s w : forall x y, at_ s x -> back w x = Some y -> at_ s y /\ pos x = pos y + w.
Proof.
  induction w; intros x y [A B] H; cbn in H.
  - inversion H; subst. split; [split; auto|lia].
  - destruct (pre x) as [|c t] eqn:E; try discriminate.
    apply IHw in H.
    + cbn in H. destruct H as [H1 H2]. split; auto. cbn in A. lia.
    + split; cbn; [cbn in A; lia|]. cbn in B. rewrite <- app_assoc in B. exact B.
Qed.

Lemma mt_at s r x g x' g' : mt r x g x' g' -> at_ s x -> at_ s x' /\ pos x <= pos x'.
Proof.
  induction 1; intros Hx; auto;
    try (match goal with H : step _ = _ |- _ => apply (step_at s) in H as (? & ? & ?); auto; split; auto; lia end);
    try (destruct IHmt1; auto; destruct IHmt2; auto; split; auto; lia).
Qed.

Lemma at_pos_le s x : at_ s x -> pos x <= length s.
Proof. intros H. apply at_len in H. lia. Qed.

(** text between two positions *)
Definition between (s : str) (x x' : st) : str := slice (pos x) (pos x') s.

Lemma slice_app s a b c : a <= b -> b <= c -> slice a c s = slice a b s ++ slice b c s.
Proof.
  intros H1 H2. unfold slice.
  replace (skipn b s) with (skipn (b - a) (skipn a s)) by (rewrite skipn_skipn; f_equal; lia).
  replace (c - a) with ((b - a) + (c - b)) by lia.
  remember (skipn a s) as t. clear Heqt.
  remember (b - a) as n; clear Heqn. remember (c - b) as k. clear.
  revert t; induction n; intros t; cbn; auto. destruct t; cbn; [now rewrite firstn_nil|]. now rewrite IHn.
Qed.
Lemma slice_refl s a : slice a a s = [].
Proof. unfold slice. now rewrite Nat.sub_diag. Qed.
Lemma slice_length s a b : b <= length s -> length (slice a b s) = b - a.
Proof. intros. unfold slice. rewrite firstn_length, skipn_length. lia. Qed.
Lemma slice_full s : slice 0 (length s) s = s.
Proof. unfold slice. rewrite Nat.sub_0_r. cbn. apply firstn_all. Qed.
Lemma slice_one s a d : nth_error s a = Some d -> slice a (S a) s = [d].
Proof.
  intros H. unfold slice. replace (S a - a) with 1 by lia.
  revert a H. induction s as [|c t IH]; intros [|a] H; cbn in *; try discriminate.
  - now inversion H.
  - now apply IH.
Qed.

Lemma step_between s x d x' : at_ s x -> step x = Some (d, x') -> between s x x' = [d].
Proof.
  intros Hx H. destruct (step_at _ _ _ _ Hx H) as (A & B & C & D).
  unfold between. rewrite B. now apply slice_one.
Qed.

(** split only visible conjunctions *)
Ltac spl := repeat match goal with |- _ /\ _ => split end.

(** ** Groups *)

Fixpoint has_group (r : re) : bool :=
  match r with
  | Cat a b | Alt a b => has_group a || has_group b
  | Rep _ _ _ a => has_group a
  | Grp _ _ => true
  | Look _ _ _ a => has_group a
  | _ => false
  end.
(** no group inside a look-around (true of every pattern of the code base) *)
Fixpoint plain (r : re) : bool :=
  match r with
  | Cat a b | Alt a b => plain a && plain b
  | Rep _ _ _ a => plain a
  | Grp _ a => plain a
  | Look _ _ _ a => negb (has_group a)
  | _ => true
  end.

Lemma no_group_mt r x g x' g' : mt r x g x' g' -> has_group r = false -> g' = g.
Proof.
  enough (HH : forall r, has_group r = false -> forall x g x' g', mt r x g x' g' -> g' = g)
    by (intros; eapply HH; eauto).
  clear. intros r.
  induction r as [| c | | a IHa b IHb | a IHa b IHb | gr mn mx a IHa | i a IHa
                 | ah ng w a IHa | | | | ]; cbn; intros Hg x g x' g' H; try (inversion H; subst; auto; fail); try discriminate.
  - apply orb_false_iff in Hg as [? ?]. inversion H; subst. transitivity g1; eauto.
  - apply orb_false_iff in Hg as [? ?]. inversion H; subst; eauto.
  - specialize (IHa Hg). clear Hg.
    remember (Rep gr mn mx a) as q eqn:E. revert gr mn mx E.
    induction H; intros gr' mn' mx' E; inversion E; subst; auto.
    transitivity g1; eauto.
  - inversion H; subst; auto.
    + match goal with X : m _ _ _ _ = Some _ |- _ => apply m_sound in X as (? & ? & X & E) end.
      inversion E; subst. eauto.
    + match goal with X : m _ _ _ _ = Some _ |- _ => apply m_sound in X as (? & ? & X & E) end.
      unfold accept_at in E. destruct (_ =? _) in E; inversion E; subst. eauto.
Qed.

(** Every group recorded by a match comes from a match of a sub-pattern of that number. *)
Fixpoint sub_grps (r : re) : list (nat * re) :=
  match r with
  | Cat a b | Alt a b => sub_grps a ++ sub_grps b
  | Rep _ _ _ a => sub_grps a
  | Grp i a => (i, a) :: sub_grps a
  | _ => []
  end.

Definition grp_event (s : str) (r : re) (x x' : st) (e : nat * (nat * nat)) : Prop :=
  exists a y gy y' gy', In (fst e, a) (sub_grps r) /\ mt a y gy y' gy' /\ at_ s y /\ at_ s y' /\
    fst (snd e) = pos y /\ snd (snd e) = pos y' /\ pos x <= pos y /\ pos y <= pos y' /\ pos y' <= pos x'.

Lemma mt_groups s r x g x' g' : mt r x g x' g' -> plain r = true -> at_ s x ->
  exists new, g' = new ++ g /\ Forall (grp_event s r x x') new.
Proof.
  induction 1; cbn; intros Hp Hx; try (exists []; split; [reflexivity|constructor]; fail).
  - apply andb_true_iff in Hp as [P1 P2].
    destruct (mt_at s _ _ _ _ _ H Hx) as [A1 L1]. destruct (mt_at s _ _ _ _ _ H0 A1) as [A2 L2].
    destruct IHmt1 as (n1 & E1 & F1); auto. destruct IHmt2 as (n2 & E2 & F2); auto.
    exists (n2 ++ n1). split; [subst; now rewrite app_assoc|].
    apply Forall_app; split.
    + eapply Forall_impl; [|exact F2]. intros e (q & y & gy & y' & gy' & I & M & ? & ? & ? & ? & ? & ? & ?).
      exists q, y, gy, y', gy'. cbn. rewrite in_app_iff. spl; auto; lia.
    + eapply Forall_impl; [|exact F1]. intros e (q & y & gy & y' & gy' & I & M & ? & ? & ? & ? & ? & ? & ?).
      exists q, y, gy, y', gy'. cbn. rewrite in_app_iff. spl; auto; lia.
  - apply andb_true_iff in Hp as [P1 P2]. destruct IHmt as (n & E & F); auto.
    exists n. split; auto. eapply Forall_impl; [|exact F].
    intros e (q & y & gy & y' & gy' & I & M & R). exists q, y, gy, y', gy'. cbn. rewrite in_app_iff. auto.
  - apply andb_true_iff in Hp as [P1 P2]. destruct IHmt as (n & E & F); auto.
    exists n. split; auto. eapply Forall_impl; [|exact F].
    intros e (q & y & gy & y' & gy' & I & M & R). exists q, y, gy, y', gy'. cbn. rewrite in_app_iff. auto.
  - destruct (mt_at s _ _ _ _ _ H0 Hx) as [A1 L1]. destruct (mt_at s _ _ _ _ _ H1 A1) as [A2 L2].
    destruct IHmt1 as (n1 & E1 & F1); auto. destruct IHmt2 as (n2 & E2 & F2); auto.
    exists (n2 ++ n1). split; [subst; now rewrite app_assoc|].
    apply Forall_app; split.
    + eapply Forall_impl; [|exact F2]. intros e (q & y & gy & y' & gy' & I & M & ? & ? & ? & ? & ? & ? & ?).
      exists q, y, gy, y', gy'. cbn in *. spl; auto; lia.
    + eapply Forall_impl; [|exact F1]. intros e (q & y & gy & y' & gy' & I & M & ? & ? & ? & ? & ? & ? & ?).
      exists q, y, gy, y', gy'. cbn in *. spl; auto; lia.
  - destruct IHmt as (n & E & F); auto. destruct (mt_at s _ _ _ _ _ H Hx) as [A1 L1].
    exists ((i, (pos x, pos x')) :: n). split; [subst; auto|]. constructor.
    + exists a, x, g, x', g'. cbn. spl; auto; apply A1 || apply Hx.
    + eapply Forall_impl; [|exact F].
      intros e (q & y & gy & y' & gy' & I & M & R). exists q, y, gy, y', gy'. cbn. auto.
  - apply negb_true_iff in Hp. apply m_sound in H as (z & g2 & H & E). inversion E; subst.
    apply no_group_mt in H; auto. subst. exists []; split; auto.
  - apply negb_true_iff in Hp. apply m_sound in H0 as (z' & g2 & H0 & E).
    unfold accept_at in E. destruct (_ =? _) in E; inversion E; subst.
    apply no_group_mt in H0; auto. subst. exists []; split; auto.
Qed.

(** ** Static analyses *)

(** the least number of characters of a match *)
Fixpoint minlen (r : re) : nat :=
  match r with
  | Cls _ | Any => 1
  | Cat a b => minlen a + minlen b
  | Alt a b => Nat.min (minlen a) (minlen b)
  | Rep _ mn _ a => mn * minlen a
  | Grp _ a => minlen a
  | _ => 0
  end.
Lemma mt_minlen s r x g x' g' : mt r x g x' g' -> at_ s x -> pos x + minlen r <= pos x'.
Proof.
  induction 1; cbn; intros Hx; try lia.
  - apply (step_at s) in H as (? & ? & ?); auto. lia.
  - apply (step_at s) in H as (? & ? & ?); auto. lia.
  - destruct (mt_at s _ _ _ _ _ H Hx) as [A1 L1]. specialize (IHmt1 Hx). specialize (IHmt2 A1). lia.
  - specialize (IHmt Hx). lia.
  - specialize (IHmt Hx). lia.
  - destruct (mt_at s _ _ _ _ _ H0 Hx) as [A1 L1]. specialize (IHmt1 Hx). specialize (IHmt2 A1).
    cbn in IHmt2. destruct mn; cbn in *; lia.
  - specialize (IHmt Hx). lia.
Qed.

(** no match consumes the character [c0] *)
Fixpoint avoids (c0 : N) (r : re) : bool :=
  match r with
  | Cls k => negb (cls_mem k c0)
  | Any => N.eqb c0 10
  | Cat a b | Alt a b => avoids c0 a && avoids c0 b
  | Rep _ _ _ a | Grp _ a => avoids c0 a
  | _ => true
  end.
Lemma mt_avoids s c0 r x g x' g' : mt r x g x' g' -> at_ s x -> avoids c0 r = true ->
  ~ In c0 (between s x x').
Proof.
  assert (Hcat : forall x x1 x2, pos x <= pos x1 -> pos x1 <= pos x2 ->
            ~ In c0 (between s x x1) -> ~ In c0 (between s x1 x2) -> ~ In c0 (between s x x2)).
  { intros y y1 y2 L1 L2 N1 N2. unfold between in *. rewrite (slice_app s _ (pos y1)) by auto.
    rewrite in_app_iff. tauto. }
  induction 1; cbn; intros Hx Ha; auto; try (unfold between; rewrite slice_refl; cbn; tauto).
  - rewrite (step_between _ _ _ _ Hx H). cbn. intros [E|[]]. subst. rewrite H0 in Ha. discriminate.
  - rewrite (step_between _ _ _ _ Hx H). cbn. intros [E|[]]. subst. apply N.eqb_eq in Ha. auto.
  - apply andb_true_iff in Ha as [P1 P2].
    destruct (mt_at s _ _ _ _ _ H Hx) as [A1 L1]. destruct (mt_at s _ _ _ _ _ H0 A1) as [A2 L2]. eauto.
  - apply andb_true_iff in Ha as [P1 P2]. auto.
  - apply andb_true_iff in Ha as [P1 P2]. auto.
  - destruct (mt_at s _ _ _ _ _ H0 Hx) as [A1 L1]. destruct (mt_at s _ _ _ _ _ H1 A1) as [A2 L2]. eauto.
Qed.

(** every consumed character satisfies [P]; [chk] must be sound for [P] on classes *)
Fixpoint all_cls (chk : cls -> bool) (any : bool) (r : re) : bool :=
  match r with
  | Cls k => chk k
  | Any => any
  | Cat a b | Alt a b => all_cls chk any a && all_cls chk any b
  | Rep _ _ _ a | Grp _ a => all_cls chk any a
  | _ => true
  end.
Lemma mt_all_cls s (P : N -> Prop) chk r x g x' g' :
  (forall k c, chk k = true -> cls_mem k c = true -> P c) ->
  mt r x g x' g' -> at_ s x -> all_cls chk false r = true -> Forall P (between s x x').
Proof.
  intros HP. assert (Hcat : forall x x1 x2, pos x <= pos x1 -> pos x1 <= pos x2 ->
            Forall P (between s x x1) -> Forall P (between s x1 x2) -> Forall P (between s x x2)).
  { intros y y1 y2 L1 L2 N1 N2. unfold between in *. rewrite (slice_app s _ (pos y1)) by auto.
    apply Forall_app; auto. }
  induction 1; cbn; intros Hx Ha; auto; try (unfold between; rewrite slice_refl; constructor); try discriminate.
  - rewrite (step_between _ _ _ _ Hx H). constructor; eauto.
  - apply andb_true_iff in Ha as [P1 P2].
    destruct (mt_at s _ _ _ _ _ H Hx) as [A1 L1]. destruct (mt_at s _ _ _ _ _ H0 A1) as [A2 L2]. eauto.
  - apply andb_true_iff in Ha as [P1 P2]. auto.
  - apply andb_true_iff in Ha as [P1 P2]. auto.
  - destruct (mt_at s _ _ _ _ _ H0 Hx) as [A1 L1]. destruct (mt_at s _ _ _ _ _ H1 A1) as [A2 L2]. eauto.
Qed.

(** the group [i] takes part in every match *)
Fixpoint always (i : nat) (r : re) : bool :=
  match r with
  | Cat a b => always i a || always i b
  | Alt a b => always i a && always i b
  | Rep _ mn _ a => (0 <? mn) && always i a
  | Grp j a => (i =? j) || always i a
  | _ => false
  end.
Lemma lookup_group_app i n g : lookup_group i n <> None -> lookup_group i (n ++ g) <> None.
Proof. induction n as [|[j v] n IH]; cbn; [tauto|]. destruct (i =? j); auto; discriminate. Qed.
Lemma mt_keeps r x g x' g' i : mt r x g x' g' -> lookup_group i g <> None -> lookup_group i g' <> None.
Proof.
  enough (HH : forall r x g x' g', mt r x g x' g' -> lookup_group i g <> None -> lookup_group i g' <> None) by eauto.
  clear. intros r.
  induction r as [| c | | a IHa b IHb | a IHa b IHb | gr mn mx a IHa | j a IHa
                 | ah ng w a IHa | | | | ]; intros x g x' g' H Hl; try (inversion H; subst; eauto; fail).
  - remember (Rep gr mn mx a) as q eqn:E. revert gr mn mx E.
    induction H; intros gr' mn' mx' E; inversion E; subst; eauto.
  - inversion H; subst. cbn. destruct (i =? j); eauto; discriminate.
  - inversion H; subst; auto;
      match goal with X : m _ _ _ _ = Some _ |- _ => apply m_sound in X as (? & ? & X & E) end.
    + inversion E; subst. eauto.
    + unfold accept_at in E. destruct (_ =? _) in E; inversion E; subst. eauto.
Qed.
Lemma mt_always r x g x' g' i : mt r x g x' g' -> always i r = true -> lookup_group i g' <> None.
Proof.
  induction 1; cbn; intros Ha; try discriminate.
  - apply orb_true_iff in Ha as [Ha|Ha]; eauto using mt_keeps.
  - apply andb_true_iff in Ha as [? ?]; auto.
  - apply andb_true_iff in Ha as [? ?]; auto.
  - apply andb_true_iff in Ha as [? ?]. eauto using mt_keeps.
  - destruct (i =? i0); try discriminate. cbn in Ha. auto.
Qed.

(** ** Completeness *)

(** every optional iteration consumes a character *)
Fixpoint productive (r : re) : bool :=
  match r with
  | Cat a b | Alt a b => productive a && productive b
  | Rep _ _ _ a => (0 <? minlen a) && productive a
  | Grp _ a => productive a
  | _ => true
  end.

Lemma m_complete s r x g x' g' : mt r x g x' g' -> at_ s x -> productive r = true ->
  forall k, k x' g' <> None -> m r x g k <> None.
Proof.
  enough (HH : forall r, productive r = true -> forall x g x' g', mt r x g x' g' -> at_ s x ->
     forall k, k x' g' <> None -> m r x g k <> None) by (intros; eapply HH; eauto).
  clear. intros r.
  induction r as [| c | | a IHa b IHb | a IHa b IHb | gr mn mx a IHa | i a IHa
                 | ah ng w a IHa | | | | ]; intros Hp x g x' g' H Hx k Hk.
  - inversion H; subst; auto.
  - inversion H; subst. cbn.
    repeat match goal with E : _ = Some _ |- _ => rewrite E | E : _ = true |- _ => rewrite E end. auto.
  - inversion H; subst. cbn.
    match goal with E : _ = Some _ |- _ => rewrite E end. destruct (N.eqb_spec d 10); auto.
  - cbn in Hp. apply andb_true_iff in Hp as [P1 P2]. inversion H; subst.
    match goal with M : mt a _ _ _ _ |- _ => destruct (mt_at s _ _ _ _ _ M Hx) as [A1 L1] end.
    cbn. eapply IHa; eauto.
  - cbn in Hp. apply andb_true_iff in Hp as [P1 P2]. cbn. intros E. apply orelse_none in E as [E1 E2].
    inversion H; subst.
    + eapply IHa; eauto.
    + eapply IHb; eauto.
  - cbn [productive] in Hp. apply andb_true_iff in Hp as [P1 P2]. apply Nat.ltb_lt in P1.
    rewrite m_rep.
    assert (L : forall x g x' g' mn' mx', mt (Rep gr mn' mx' a) x g x' g' -> at_ s x ->
        k x' g' <> None ->
        forall fuel n, length (suf x) < fuel -> mn' = mn - n -> mx' = sub_max mx n ->
        rep_loop gr mn mx a k fuel n x g <> None).
    { clear x g x' g' H Hx Hk. intros x g x' g' mn' mx' H.
      remember (Rep gr mn' mx' a) as q eqn:E. revert mn' mx' E.
      induction H; intros mn' mx' E Hx Hk fuel n Hf En Em; inversion E; subst;
        (destruct fuel as [|f]; [lia|]).
      - cbn [rep_loop]. assert (mn <= n) by lia. apply Nat.leb_le in H. rewrite H.
        destruct gr; intros X; apply orelse_none in X as [? ?]; auto.
      - assert (Eb : below n mx = true).
        { destruct mx as [q|]; cbn in *; auto. apply Nat.ltb_lt.
          assert (q - n <> 0) by congruence. lia. }
        pose proof (mt_minlen s _ _ _ _ _ H0 Hx) as Lm.
        destruct (mt_at s _ _ _ _ _ H0 Hx) as [A1 L1].
        cbn [rep_loop]. rewrite Eb.
        set (kk := fun x'0 g' => if (n <? mn) || (pos x <? pos x'0)
                  then rep_loop gr mn mx a k f (S n) x'0 g' else None).
        assert (Hm : m a x g kk <> None).
        { eapply IHa; eauto. unfold kk. 
          replace (pos x <? pos x1) with true by (symmetry; apply Nat.ltb_lt; lia).
          rewrite orb_true_r. eapply IHmt2; eauto.
          - pose proof (at_len _ _ Hx). pose proof (at_len _ _ A1). lia.
          - lia.
          - destruct mx; cbn; auto. f_equal; lia. }
        destruct gr; intros X; apply orelse_none in X as [? ?]; auto. }
    eapply L; eauto; try lia.
    destruct mx; cbn; auto; f_equal; lia.
  - cbn in Hp. inversion H; subst. cbn. eapply IHa; eauto.
  - inversion H; subst; cbn.
    + fold accept. match goal with E : m _ _ _ _ = _ |- _ => rewrite E end. auto.
    + fold accept. match goal with E : m _ _ _ _ = _ |- _ => rewrite E end. auto.
    + fold (accept_at (pos x')).
      match goal with E : back _ _ = _ |- _ => rewrite E end.
      match goal with E : m _ _ _ _ = _ |- _ => rewrite E end. auto.
    + destruct (back w x') eqn:E; auto. fold (accept_at (pos x')).
      match goal with F : forall y, _ -> m _ _ _ _ = _ |- _ => rewrite F end; auto.
  - inversion H; subst. cbn. match goal with E : _ = 0 |- _ => rewrite E end. auto.
  - inversion H; subst; cbn; match goal with E : suf _ = _ |- _ => rewrite E end; auto.
  - inversion H; subst. cbn. match goal with E : at_boundary _ = _ |- _ => rewrite E end. auto.
  - inversion H; subst. cbn. match goal with E : at_boundary _ = _ |- _ => rewrite E end. auto.
Qed.

(** ** Match objects *)

Lemma run_sound s r adv x o : at_ s x -> run r adv x = Some o ->
  exists x' , mt r x [] x' (m_groups o) /\ at_ s x' /\ m_start o = pos x /\ m_end o = pos x' /\
     pos x <= pos x' /\ pos x' <= length s /\ (adv = true -> pos x < pos x').
Proof.
  intros Hx H. unfold run in H.
  destruct (m r x [] _) as [[x' g']|] eqn:E; try discriminate. inversion H; subst; clear H. cbn.
  apply m_sound in E as (y & gy & M & E).
  destruct (adv && (pos y =? pos x)) eqn:Ea; inversion E; subst.
  destruct (mt_at s _ _ _ _ _ M Hx) as [A L].
  exists x'. spl; auto; try apply A; try lia.
  - now apply at_pos_le.
  - intros ->. cbn in Ea. apply Nat.eqb_neq in Ea. lia.
Qed.

(** [obj_ok s r o]: [o] is a match of [r] in the subject [s]. *)
Definition obj_ok (s : str) (r : re) (o : mobj) : Prop :=
  exists x x', at_ s x /\ at_ s x' /\ mt r x [] x' (m_groups o) /\
    m_start o = pos x /\ m_end o = pos x' /\ pos x <= pos x' /\ pos x' <= length s.

Lemma obj_bounds s r o : obj_ok s r o -> m_start o <= m_end o /\ m_end o <= length s.
Proof. intros (x & x' & ? & ? & ? & -> & -> & ? & ?). auto. Qed.

Lemma re_match_ok r s o : re_match r s = Some o -> obj_ok s r o /\ m_start o = 0.
Proof.
  intros H. apply run_sound with (s := s) in H; [|apply at_init].
  destruct H as (x' & ? & ? & ? & ? & ? & ? & ?). split; auto.
  exists (init s), x'. spl; auto using at_init.
Qed.

Lemma at_cons s p pr c t : at_ s (mkst p pr (c :: t)) -> at_ s (mkst (S p) (c :: pr) t).
Proof. intros [A B]; split; cbn in *; [lia|]. rewrite <- app_assoc. exact B. Qed.

Lemma search_at_ok r s : forall su p pr o, at_ s (mkst p pr su) -> search_at r p pr su = Some o ->
  obj_ok s r o /\ p <= m_start o.
Proof.
  induction su as [|c t IH]; intros p pr o Hx H; cbn in H.
  - destruct (run _ _ _) eqn:E; inversion H; subst. apply run_sound with (s := s) in E as (x' & ? & ? & ? & ? & ? & ? & ?); auto.
    split; [exists (mkst p pr []), x'; spl; auto|]. cbn in *; lia.
  - destruct (run _ _ _) eqn:E.
    + inversion H; subst. apply run_sound with (s := s) in E as (x' & ? & ? & ? & ? & ? & ? & ?); auto.
      split; [exists (mkst p pr (c :: t)), x'; spl; auto|]. cbn in *; lia.
    + apply IH in H; [|now apply at_cons]. destruct H; split; auto; lia.
Qed.
Lemma re_search_ok r s o : re_search r s = Some o -> obj_ok s r o.
Proof. intros H. eapply search_at_ok; [apply at_init|exact H]. Qed.

(** matches of [finditer]: within bounds, ascending, not overlapping *)
Fixpoint chain (p : nat) (l : list mobj) (q : nat) : Prop :=
  match l with
  | [] => p <= q
  | o :: t => p <= m_start o /\ m_start o <= m_end o /\ chain (m_end o) t q
  end.
Lemma chain_weaken l : forall p p' q, p' <= p -> chain p l q -> chain p' l q.
Proof. destruct l as [|o t]; cbn; intros; [lia|]. intuition lia. Qed.
Lemma chain_le l : forall p q, chain p l q -> p <= q.
Proof. induction l as [|o t IH]; cbn; intros; auto. destruct H as (? & ? & H). apply IH in H. lia. Qed.
Lemma chain_in l o : forall p q, chain p l q -> In o l -> p <= m_start o /\ m_start o <= m_end o /\ m_end o <= q.
Proof.
  induction l as [|u t IH]; cbn; intros p q H Hin; [tauto|].
  destruct H as (A & B & C). destruct Hin as [->|Hin].
  - apply chain_le in C. lia.
  - apply IH in C; auto. lia.
Qed.

Lemma iter_at_ok r s : forall su p pr k, at_ s (mkst p pr su) -> k <= length su ->
  Forall (obj_ok s r) (iter_at r p pr su k) /\ chain (p + k) (iter_at r p pr su k) (length s).
Proof.
  assert (Hob : forall x x' o, at_ s x -> at_ s x' -> mt r x [] x' (m_groups o) ->
    m_start o = pos x -> m_end o = pos x' -> pos x <= pos x' -> pos x' <= length s -> obj_ok s r o).
  { intros x x' o ? ? ? ? ? ? ?. exists x, x'. spl; auto. }
  induction su as [|c t IH]; intros p pr k Hx Hk.
  - cbn in Hk. assert (k = 0) by lia; subst. cbn.
    assert (Lp : p = length s) by (apply at_len in Hx; cbn in Hx; lia).
    destruct (run r false (mkst p pr [])) as [o|] eqn:E; [|cbn; split; [constructor|lia]].
    apply run_sound with (s := s) in E as (x' & ? & ? & ? & ? & ? & ? & _); auto. cbn in *.
    assert (Eo : m_end o = p) by lia. rewrite Eo, Nat.eqb_refl.
    destruct (run r true (mkst p pr [])) as [o2|] eqn:E2.
    + exfalso. apply run_sound with (s := s) in E2 as (y' & ? & ? & ? & ? & ? & ? & L); auto. cbn in *.
      specialize (L eq_refl). lia.
    + cbn. split; [constructor; eauto|]. lia.
  - destruct k as [|k].
    + cbn [iter_at]. set (x := mkst p pr (c :: t)) in *.
      assert (Hn : forall j, j <= length t ->
         Forall (obj_ok s r) (iter_at r (S p) (c :: pr) t j) /\ chain (S p + j) (iter_at r (S p) (c :: pr) t j) (length s)).
      { intros. apply IH; auto. now apply at_cons. }
      pose proof (at_len _ _ Hx) as Ln. cbn in Ln.
      destruct (run r false x) as [o|] eqn:E.
      * apply run_sound with (s := s) in E as (x' & ? & ? & ? & ? & ? & ? & _); auto. cbn [pos] in *.
        assert (Oo : obj_ok s r o) by eauto.
        destruct (Nat.eqb_spec (m_end o) p) as [Ee|Ee].
        -- destruct (run r true x) as [o2|] eqn:E2.
           ++ apply run_sound with (s := s) in E2 as (y' & ? & ? & ? & ? & ? & ? & L); auto.
              specialize (L eq_refl). cbn [pos] in *.
              destruct (Hn (m_end o2 - p - 1)) as [F C]; [cbn in *; lia|].
              split; [repeat constructor; eauto|]. cbn [chain]. cbn in *. spl; try lia.
              replace (m_end o2) with (S p + (m_end o2 - p - 1)) at 1 by lia. auto.
           ++ destruct (Hn 0) as [F C]; [lia|]. split; [constructor; eauto|]. cbn in *. spl; try lia.
              eapply chain_weaken; [|exact C]. lia.
        -- destruct (Hn (m_end o - p - 1)) as [F C]; [cbn in *; lia|].
           split; [constructor; eauto|]. cbn in *. spl; try lia.
           replace (m_end o) with (S p + (m_end o - p - 1)) at 1 by lia. auto.
      * destruct (Hn 0) as [F C]; [lia|]. split; auto. eapply chain_weaken; [|exact C]. lia.
    + cbn [iter_at]. cbn in Hk. destruct (IH (S p) (c :: pr) k) as [F C]; [now apply at_cons|lia|].
      split; auto. replace (p + S k) with (S p + k) by lia. auto.
Qed.

Lemma finditer_ok r s : Forall (obj_ok s r) (re_finditer r s) /\ chain 0 (re_finditer r s) (length s).
Proof. apply (iter_at_ok r s s 0 [] 0); [apply at_init|lia]. Qed.

(** ** Groups of match objects *)
Lemma obj_group s r o i a b : obj_ok s r o -> plain r = true -> i <> 0 ->
  g_span o i = Some (a, b) ->
  exists q y gy y' gy', In (i, q) (sub_grps r) /\ mt q y gy y' gy' /\ at_ s y /\ at_ s y' /\
    a = pos y /\ b = pos y' /\ m_start o <= a /\ a <= b /\ b <= m_end o.
Proof.
  intros (x & x' & Hx & Hx' & M & Es & Ee & L1 & L2) Hp Hi Hg. unfold g_span in Hg.
  destruct (Nat.eqb_spec i 0); [congruence|].
  destruct (mt_groups s _ _ _ _ _ M Hp Hx) as (new & E & F). rewrite app_nil_r in E. rewrite E in Hg. clear E M.
  induction new as [|[j v] new IH]; cbn in Hg; [discriminate|].
  inversion F as [|e l Fe Fl]; subst.
  destruct (Nat.eqb_spec i j).
  - inversion Hg; subst. destruct Fe as (q & y & gy & y' & gy' & ? & ? & ? & ? & ? & ? & ? & ? & ?). cbn in *.
    exists q, y, gy, y', gy'. spl; auto; lia.
  - apply IH; auto.
Qed.
Lemma obj_always s r o i : obj_ok s r o -> always i r = true -> i <> 0 -> g_span o i <> None.
Proof.
  intros (x & x' & Hx & Hx' & M & _) Ha Hi. unfold g_span.
  destruct (Nat.eqb_spec i 0); [congruence|]. eapply mt_always; eauto.
Qed.

(** ** [sub] *)
Fixpoint gaps (s : str) (p : nat) (ms : list mobj) : list str :=
  match ms with
  | [] => [skipn p s]
  | o :: t => slice p (m_start o) s :: gaps s (m_end o) t
  end.
Lemma sub_id s ms : forall p, chain p ms (length s) ->
  sub_from s (fun o => slice (m_start o) (m_end o) s) p ms = skipn p s.
Proof.
  induction ms as [|o t IH]; intros p H; cbn in *; auto.
  destruct H as (A & B & C). rewrite IH by auto. clear IH.
  pose proof (chain_le _ _ _ C).
  assert (E : forall a b, a <= b -> slice a b s ++ skipn b s = skipn a s).
  { intros a b Hab. unfold slice.
    replace (skipn b s) with (skipn (b - a) (skipn a s)) by (rewrite skipn_skipn; f_equal; lia).
    apply firstn_skipn. }
  rewrite E by auto. apply E; auto.
Qed.
Lemma sub_length s f ms : forall p, chain p ms (length s) ->
  (forall o, In o ms -> length (f o) = m_end o - m_start o) ->
  length (sub_from s f p ms) = length s - p.
Proof.
  induction ms as [|o t IH]; intros p H Hf; cbn in *.
  - rewrite skipn_length. lia.
  - destruct H as (A & B & C). pose proof (chain_le _ _ _ C).
    rewrite !app_length, IH, slice_length, Hf; auto; lia.
Qed.

(** ** Completeness of match, search and finditer *)
Lemma run_complete s r x x' g' : at_ s x -> productive r = true -> mt r x [] x' g' -> run r false x <> None.
Proof.
  intros Hx Hp M H. unfold run in H. cbn in H.
  destruct (m r x [] _) as [[y gy]|] eqn:E; try discriminate.
  eapply (m_complete s) in E; eauto. cbn. discriminate.
Qed.
Lemma search_complete s r : productive r = true -> forall su p pr y x' g',
  at_ s (mkst p pr su) -> at_ s y -> p <= pos y -> mt r y [] x' g' ->
  exists o, search_at r p pr su = Some o /\ m_start o <= pos y.
Proof.
  intros Hp. induction su as [|c t IH]; intros p pr y x' g' Hx Hy L M; cbn.
  - assert (pos y = p) by (apply at_len in Hx; apply at_pos_le in Hy; cbn in Hx; lia).
    assert (y = mkst p pr []) by (eapply at_unique; eauto). subst y.
    destruct (run r false (mkst p pr [])) as [o|] eqn:E.
    + exists o; split; auto. apply run_sound with (s := s) in E as (z & ? & ? & ? & ?); auto. cbn in *; lia.
    + exfalso. eapply run_complete; eauto.
  - destruct (run r false (mkst p pr (c :: t))) as [o|] eqn:E.
    + exists o; split; auto. apply run_sound with (s := s) in E as (z & ? & ? & ? & ?); auto. cbn in *; lia.
    + destruct (Nat.eq_dec (pos y) p).
      * exfalso. assert (y = mkst p pr (c :: t)) by (eapply at_unique; eauto). subst y.
        eapply run_complete; eauto.
      * eapply IH; eauto; [now apply at_cons|lia].
Qed.
