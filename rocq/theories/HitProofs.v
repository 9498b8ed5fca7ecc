(** Counting the places where "<cds.U" or "<cds.D" stands in a line: an automaton that reads the
    line, and what the operations on lines do to the count. *)
From Coq Require Import List Arith NArith Bool String Lia.
From Verif Require Import PyStr ListFacts Regex RegexMeta DocText Tag ParseProofs.
Import ListNotations.
Local Open Scope nat_scope.
Local Notation length := List.length.

(** how much of "<cds." has just been read; [Q6] in a name that starts with A *)
Inductive state := Q0 | Q1 | Q2 | Q3 | Q4 | Q5 | Q6.
Definition is_letter (c : N) : bool := ((65 <=? c) && (c <=? 90) || (97 <=? c) && (c <=? 122))%N.
Definition next (q : state) (c : N) : state :=
  if N.eqb c 60 then Q1 else
  match q with
  | Q1 => if N.eqb c 99 then Q2 else Q0
  | Q2 => if N.eqb c 100 then Q3 else Q0
  | Q3 => if N.eqb c 115 then Q4 else Q0
  | Q4 => if N.eqb c 46 then Q5 else Q0
  | Q5 => if N.eqb c 65 || N.eqb c 97 then Q6 else Q0
  | Q6 => if is_letter c then Q6 else Q0
  | Q0 => Q0
  end.
Definition state_eqb (a b : state) : bool :=
  match a, b with Q0, Q0 | Q1, Q1 | Q2, Q2 | Q3, Q3 | Q4, Q4 | Q5, Q5 | Q6, Q6 => true | _, _ => false end.
Lemma state_eqb_eq a b : state_eqb a b = true <-> a = b.
Proof. destruct a, b; cbn; split; congruence. Qed.
Fixpoint ends (q : state) (s : str) : state := match s with [] => q | c :: t => ends (next q c) t end.

(** [w]: characters that must not follow a part of "<cds."; [x]: the letter after it *)
Section Hits.
Variable w : state -> N -> bool.
Variable x : N.
Definition hit (q : state) (c : N) : nat :=
  if (state_eqb q Q5 && N.eqb c x) || (negb (state_eqb q Q0) && w q c) then 1 else 0.
Fixpoint hits (q : state) (s : str) : nat := match s with [] => 0 | c :: t => hit q c + hits (next q c) t end.

Lemma ends_app a b : forall q, ends q (a ++ b) = ends (ends q a) b.
Proof. induction a as [|c a IH]; intros q; cbn; auto. Qed.
Lemma hits_app a b : forall q, hits q (a ++ b) = hits q a + hits (ends q a) b.
Proof. induction a as [|c a IH]; intros q; cbn [app hits ends]; auto. rewrite IH. lia. Qed.
Lemma next_rel q c : next Q0 c = Q0 \/ next Q0 c = next q c.
Proof. unfold next. destruct (N.eqb c 60); auto. Qed.
Lemma hits_from s : forall q, hits Q0 s <= hits q s.
Proof.
  induction s as [|c s IH]; intros q; cbn [hits]; [lia|]. change (hit Q0 c) with 0. destruct (next_rel q c) as [E|E]; rewrite E; [specialize (IH (next q c))|]; lia.
Qed.
Lemma ends_from s : forall q, ends Q0 s = Q0 \/ ends Q0 s = ends q s.
Proof.
  induction s as [|c s IH]; intros q; cbn [ends]; auto. destruct (next_rel q c) as [E|E]; rewrite E; auto.
Qed.
Lemma hits_skipn n : forall s q, hits Q0 (skipn n s) <= hits q s.
Proof.
  induction n as [|n IH]; intros s q; [apply hits_from|]. destruct s as [|c s]; cbn [skipn hits]; [lia|]. specialize (IH s (next q c)). lia.
Qed.
Lemma hits_firstn n : forall s q, hits q (firstn n s) <= hits q s.
Proof. intros s q. rewrite <- (firstn_skipn n s) at 2. rewrite hits_app. lia. Qed.
Lemma hits_slice a b s q : hits Q0 (slice a b s) <= hits q s.
Proof. unfold slice. eapply Nat.le_trans; [apply hits_firstn|apply hits_skipn]. Qed.
Lemma hits_cut a b s : a <= b -> hits Q0 (slice a b s) + hits Q0 (skipn b s) <= hits Q0 (skipn a s).
Proof.
  intros L. assert (skipn a s = slice a b s ++ skipn b s) as ->.
  { unfold slice. rewrite <- (firstn_skipn (b - a) (skipn a s)) at 1. f_equal. rewrite skipn_skipn. f_equal. lia. }
  rewrite hits_app. pose proof (hits_from (skipn b s) (ends Q0 (slice a b s))). lia.
Qed.

(** the letter after "<cds." is an ASCII letter and the forbidden characters are none of "<cds." *)
Hypothesis X : next Q5 x = Q0.
Hypothesis W : forall q c, w q c = true -> next q c = Q0.
Lemma hit_resets q c : hit q c = 1 -> next q c = Q0.
Proof.
  unfold hit. destruct (state_eqb q Q5 && N.eqb c x) eqn:A.
  - intros _. apply andb_true_iff in A as [A B]. apply state_eqb_eq in A. apply N.eqb_eq in B. subst. exact X.
  - cbn [orb]. destruct (negb _ && w q c) eqn:B; [|discriminate]. intros _. apply andb_true_iff in B as [_ B]. now apply W.
Qed.
Lemma hit_le q c : hit q c <= 1. Proof. unfold hit. destruct (_ || _); lia. Qed.
Lemma hits_one s : forall q, hits q s <= S (hits Q0 s).
Proof.
  induction s as [|c s IH]; intros q; cbn [hits]; [lia|]. change (hit Q0 c) with 0.
  pose proof (hit_le q c) as L. destruct (hit q c) as [|[|n]] eqn:H; [| |lia].
  - destruct (next_rel q c) as [E|E]; rewrite E; [apply IH|lia].
  - rewrite (hit_resets _ _ H). pose proof (hits_from s (next Q0 c)). lia.
Qed.

(** the text [m] may be replaced by [r] without more hits *)
Definition cost (q : state) (m r : str) : Prop :=
  hits q r + (if state_eqb (ends q r) (ends q m) || state_eqb (ends q r) Q0 then 0 else 1) <= hits q m.
Definition cheap (m r : str) : Prop := forall q, cost q m r.
Lemma cost_hits q m r t : cost q m r -> hits q (r ++ t) <= hits q (m ++ t).
Proof.
  intros C. unfold cost in C. rewrite !hits_app. destruct (state_eqb (ends q r) (ends q m)) eqn:A; [apply state_eqb_eq in A; rewrite A; cbn [orb] in C; lia|].
  destruct (state_eqb (ends q r) Q0) eqn:B; cbn [orb] in C.
  - apply state_eqb_eq in B. rewrite B. pose proof (hits_from t (ends q m)). lia.
  - pose proof (hits_one t (ends q r)). pose proof (hits_from t (ends q m)). lia.
Qed.
Lemma sub_hits s f ms : forall p q, chain p ms (length s) -> (forall o, In o ms -> cheap (slice (m_start o) (m_end o) s) (f o)) ->
  hits q (sub_from s f p ms) <= hits q (skipn p s).
Proof.
  induction ms as [|o t IH]; intros p q C H; cbn [sub_from]; [lia|]. destruct C as (A & B & C).
  assert (skipn p s = slice p (m_start o) s ++ slice (m_start o) (m_end o) s ++ skipn (m_end o) s) as ->.
  { unfold slice. rewrite <- (firstn_skipn (m_start o - p) (skipn p s)) at 1. f_equal. rewrite skipn_skipn. replace (m_start o - p + p) with (m_start o) by lia.
    rewrite <- (firstn_skipn (m_end o - m_start o) (skipn (m_start o) s)) at 1. f_equal. rewrite skipn_skipn. f_equal. lia. }
  rewrite hits_app, (hits_app _ (slice (m_start o) (m_end o) s ++ _)). apply Nat.add_le_mono_l.
  set (q' := ends q _). eapply Nat.le_trans; [|apply (cost_hits q' _ _ _ (H o (or_introl eq_refl) q'))].
  rewrite !hits_app. apply Nat.add_le_mono_l. apply IH; auto. intros o' I. apply H. now right.
Qed.
Lemma re_sub_hits r s f q : (forall o, In o (re_finditer r s) -> obj_ok s r o -> cheap (slice (m_start o) (m_end o) s) (f o)) ->
  hits q (re_sub r f s) <= hits q s.
Proof.
  intros H. unfold re_sub. destruct (finditer_ok r s) as (F & C). rewrite Forall_forall in F.
  apply (sub_hits s f _ 0 q C). intros o I. apply H; auto.
Qed.

(** a text without "<" *)
Lemma plain_hits s : ~ In 60%N s -> hits Q0 s = 0 /\ ends Q0 s = Q0.
Proof.
  induction s as [|c s IH]; intros H; cbn [hits ends]; auto. change (hit Q0 c) with 0. assert (next Q0 c = Q0) as ->.
  { unfold next. destruct (N.eqb_spec c 60); auto. subst. exfalso. apply H. now left. }
  apply IH. intros I. apply H. now right.
Qed.
End Hits.

(** What is forbidden inside a tag: while lines are washed, and afterwards *)
Definition strict (q : state) (c : N) : bool :=
  match q with
  | Q0 | Q5 => false
  | Q1 => negb (mem_ch c (py "<c/"))
  | Q2 => negb (mem_ch c (py "<d"))
  | Q3 => negb (mem_ch c (py "<s"))
  | Q4 => negb (mem_ch c (py "<."))
  | Q6 => negb (is_letter c || mem_ch c (py "<>"))
  end.
Definition odd (c : N) : bool := is_space c || (128 <=? c)%N.
Definition w1 (q : state) (c : N) : bool := odd c || strict q c.
Definition w2 (q : state) (c : N) : bool := (128 <=? c)%N || N.eqb c 10.
Definition phase (w : state -> N -> bool) : Prop := w = w1 \/ w = w2.
Definition letter (x : N) : Prop := x = 85%N \/ x = 68%N.
Lemma letter_lt x : letter x -> x <> 60%N. Proof. intros [->| ->]; discriminate. Qed.
Lemma letter_next x : letter x -> next Q5 x = Q0. Proof. intros [->| ->]; reflexivity. Qed.
Lemma odd_next q c : odd c = true -> next q c = Q0.
Proof.
  intros H. assert (In c [60; 99; 100; 115; 46; 65; 97]%N -> False) as N.
  { intros I. assert (forallb (fun c => negb (odd c)) [60; 99; 100; 115; 46; 65; 97]%N = true) as F by (vm_compute; reflexivity).
    rewrite forallb_forall in F. specialize (F _ I). rewrite H in F. discriminate. }
  unfold next. destruct (N.eqb_spec c 60); [exfalso; apply N; subst; cbn; auto|].
  destruct q; auto; try (match goal with |- (if N.eqb ?a ?b then _ else _) = _ => destruct (N.eqb_spec a b); auto; exfalso; apply N; subst; cbn; auto 6 end).
  - destruct (N.eqb_spec c 65); [exfalso; apply N; subst; cbn; auto 7|]. destruct (N.eqb_spec c 97); [exfalso; apply N; subst; cbn; auto 8|]. reflexivity.
  - destruct (is_letter c) eqn:E; auto. exfalso. unfold is_letter in E. unfold odd in H. apply orb_true_iff in H as [H|H].
    + assert (forallb (fun c => negb (is_space c)) (map N.of_nat (seq 65 58)) = true) as F by (vm_compute; reflexivity).
      rewrite forallb_forall in F. specialize (F c). rewrite H in F. discriminate F. apply in_map_iff. exists (N.to_nat c). split; [lia|]. apply in_seq. assert (65 <= c <= 122)%N by (apply orb_true_iff in E as [E|E]; apply andb_true_iff in E as [E1 E2]; apply N.leb_le in E1, E2; lia). lia.
    + apply N.leb_le in H. apply orb_true_iff in E as [E|E]; apply andb_true_iff in E as [E1 E2]; apply N.leb_le in E1, E2; lia.
Qed.
Lemma mem_not c l : negb (mem_ch c l) = true -> ~ In c l.
Proof. intros H I. apply negb_true_iff in H. unfold mem_ch in H. rewrite <- not_true_iff_false in H. apply H. apply existsb_exists. exists c. split; auto. apply N.eqb_refl. Qed.
Lemma strict_next q c : strict q c = true -> next q c = Q0.
Proof.
  assert (forall l, negb (mem_ch c l) = true -> forall d, In d l -> N.eqb c d = false) as M.
  { intros l H d I. apply N.eqb_neq. intros ->. now apply (mem_not _ _ H). }
  destruct q; cbn [strict]; try discriminate; intros H; unfold next; try (rewrite !(M _ H); cbn; auto; fail).
  apply negb_true_iff, orb_false_iff in H as [H1 H2]. rewrite H1. destruct (N.eqb_spec c 60); auto. subst. discriminate.
Qed.
Lemma w21 q c : w2 q c = true -> w1 q c = true.
Proof. unfold w1, w2, odd. intros H. apply orb_true_iff in H as [H|H]; [rewrite H, orb_true_r; reflexivity|]. apply N.eqb_eq in H. subst. reflexivity. Qed.
Lemma phase_next w : phase w -> forall q c, w q c = true -> next q c = Q0.
Proof.
  assert (forall q c, w1 q c = true -> next q c = Q0) as A by (intros q c H; apply orb_true_iff in H as [H|H]; [now apply odd_next|now apply strict_next]).
  intros [->| ->] q c H; auto. apply A, w21, H.
Qed.
Lemma hits_w21 x s : forall q, hits w2 x q s <= hits w1 x q s.
Proof.
  induction s as [|c s IH]; intros q; cbn [hits]; [lia|]. apply Nat.add_le_mono; auto. unfold hit.
  destruct (state_eqb q Q5 && N.eqb c x); cbn [orb]; auto. destruct (state_eqb q Q0); cbn [negb andb]; auto. destruct (w2 q c) eqn:E; [|destruct (w1 q c); lia]. now rewrite (w21 _ _ E).
Qed.

(** ** The tags of the parser *)
Lemma opens_start n s : opens n s = true -> exists t, s = py "<cds." ++ n ++ t.
Proof.
  intros H. apply opens_iff in H as (t & r & O & ->). destruct O as [->|(c & _ & ->)]; eexists; rewrite <- !app_assoc; reflexivity.
Qed.
Lemma opens_lt n c t : opens n (c :: t) = true -> c = 60%N.
Proof. intros H. apply opens_start in H as (u & H). now injection H. Qed.
Lemma count_other n c t : c <> 60%N -> count_tags n (c :: t) = count_tags n t.
Proof. intros H. cbn [count_tags]. destruct (opens n (c :: t)) eqn:O; auto. apply opens_lt in O. congruence. Qed.
Lemma count_hits w x n : letter x -> forall s q, count_tags (x :: n) s <= hits w x q s.
Proof.
  intros X s. remember (length s) as k eqn:K. revert s K. induction k as [k IH] using lt_wf_ind. intros s -> q.
  destruct s as [|c t]; [cbn; lia|]. destruct (opens (x :: n) (c :: t)) eqn:O.
  - cbn [count_tags]. rewrite O. apply opens_start in O as (u & O). cbn [app] in O. change (py "<cds.") with [60; 99; 100; 115; 46]%N in O. cbn [app] in O.
    injection O as -> ->. rewrite !count_other by (discriminate || now apply letter_lt).
    assert (hits w x q (60 :: 99 :: 100 :: 115 :: 46 :: x :: n ++ u)%N >= 1 + hits w x Q0 (n ++ u)) as G.
    { cbn [hits]. change (next q 60) with Q1. change (next Q1 99) with Q2. change (next Q2 100) with Q3. change (next Q3 115) with Q4. change (next Q4 46) with Q5.
      assert (hit w x Q5 x = 1) as -> by (unfold hit; now rewrite N.eqb_refl).
      rewrite (letter_next x X). lia. }
    specialize (IH (length (n ++ u)) ltac:(unfold str, ch in *; cbn [length]; lia) _ eq_refl Q0). unfold str, ch in *. lia.
  - cbn [count_tags]. rewrite O. cbn [hits]. specialize (IH (length t) ltac:(cbn [length]; lia) t eq_refl (next q c)). lia.
Qed.

(** ** Wrapping *)
Definition tags : list string := ["ISBN"; "QUOTED"; "ARXIV"; "JOURNAL"; "JOURNALibid"; "VOL"; "YR"; "PG"; "REPORTNUMBER"; "PUBLISHER"; "AUTHincl"; "AUTHetal"; "AUTHstnd"; "COLLABORATION"]%string.
Definition states : list state := [Q0; Q1; Q2; Q3; Q4; Q5; Q6].
Lemma states_all q : In q states. Proof. destruct q; cbn; auto 8. Qed.
Section Costs.
Variable w : state -> N -> bool.
Variable x : N.
Hypothesis P : phase w.
Hypothesis L : letter x.
Ltac conc := destruct P as [->| ->]; destruct L as [->| ->].
Lemma wrap_hits t q g : In t tags -> hits w x q (wrap t g) = hits w x Q0 g /\ ends q (wrap t g) = Q0.
Proof.
  intros T. unfold wrap. set (a := py "<cds."). set (b := py "</cds."). set (n := py t).
  assert (hits w x q (a ++ n ++ py ">") = 0 /\ ends q (a ++ n ++ py ">") = Q0) as (A1 & A2).
  { subst a n. pose proof (states_all q) as S.
    assert (forallb (fun t => forallb (fun q => (hits w x q (py "<cds." ++ py t ++ py ">") =? 0) && state_eqb (ends q (py "<cds." ++ py t ++ py ">")) Q0) states) tags = true) as F by (conc; vm_compute; reflexivity).
    rewrite forallb_forall in F. specialize (F _ T). rewrite forallb_forall in F. specialize (F _ S). apply andb_true_iff in F as [F1 F2].
    apply Nat.eqb_eq in F1. apply state_eqb_eq in F2. auto. }
  assert (forall q, hits w x q (b ++ n ++ py ">") = 0 /\ ends q (b ++ n ++ py ">") = Q0) as B.
  { clear q A1 A2. intros q. subst b n. pose proof (states_all q) as S.
    assert (forallb (fun t => forallb (fun q => (hits w x q (py "</cds." ++ py t ++ py ">") =? 0) && state_eqb (ends q (py "</cds." ++ py t ++ py ">")) Q0) states) tags = true) as F by (conc; vm_compute; reflexivity).
    rewrite forallb_forall in F. specialize (F _ T). rewrite forallb_forall in F. specialize (F _ S). apply andb_true_iff in F as [F1 F2].
    apply Nat.eqb_eq in F1. apply state_eqb_eq in F2. auto. }
  replace (a ++ n ++ py ">" ++ g ++ b ++ n ++ py ">") with ((a ++ n ++ py ">") ++ g ++ b ++ n ++ py ">") by now rewrite <- !app_assoc.
  clearbody a b n. specialize (B (ends Q0 g)). revert A1 A2 B. generalize (a ++ n ++ py ">") (b ++ n ++ py ">"). intros u v A1 A2 (B1 & B2).
  rewrite !hits_app, !ends_app, A1, A2, B1, B2. split; auto. lia.
Qed.
(** a replacement after which nothing of a tag is pending *)
Lemma closed_cheap m r : (forall q, hits w x q r <= hits w x q m) -> (forall q, ends q r = Q0) -> cheap w x m r.
Proof. intros A B q. unfold cost. rewrite B. specialize (A q). cbn. rewrite orb_true_r. lia. Qed.
(** wrapping a part of what is replaced *)
Lemma wrap_cheap t m g : In t tags -> (forall q, hits w x Q0 g <= hits w x q m) -> cheap w x m (wrap t g).
Proof. intros T H. apply closed_cheap; intros q; destruct (wrap_hits t q g T) as (E1 & E2); auto. rewrite E1. auto. Qed.
End Costs.
