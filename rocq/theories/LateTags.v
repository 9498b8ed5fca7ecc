(** Counting the places where "<cds.UR" or "<cds.DO" stands in a line, whatever ends of line are in between: an automaton
    like that of HitProofs for the steps after the line is rebuilt. *)
From Coq Require Import List Arith NArith Bool String Lia.
From Verif Require Import PyStr ListFacts Regex RegexMeta DocText Tag ParseProofs HitProofs.
Import ListNotations.
Local Open Scope nat_scope.
Local Notation length := List.length.

(** how much of "<cds.U" has been read *)
Inductive late := L0 | L1 | L2 | L3 | L4 | L5 | L6.
Definition late_eqb (a b : late) : bool :=
  match a, b with L0, L0 | L1, L1 | L2, L2 | L3, L3 | L4, L4 | L5, L5 | L6, L6 => true | _, _ => false end.
Lemma late_eqb_eq a b : late_eqb a b = true <-> a = b.
Proof. destruct a, b; cbn; split; congruence. Qed.
Definition lates : list late := [L0; L1; L2; L3; L4; L5; L6].
Lemma lates_all q : In q lates. Proof. destruct q; cbn; tauto. Qed.

Section Late.
(** the two letters; [f]: characters that are not ASCII must not follow a part of it *)
Variable f : bool.
Variables x y : N.
Definition lnext (q : late) (c : N) : late :=
  if N.eqb c 10 then q else if N.eqb c 60 then L1 else
  match q with
  | L1 => if N.eqb c 99 then L2 else L0
  | L2 => if N.eqb c 100 then L3 else L0
  | L3 => if N.eqb c 115 then L4 else L0
  | L4 => if N.eqb c 46 then L5 else L0
  | L5 => if N.eqb c x then L6 else L0
  | _ => L0
  end.
Definition lhit (q : late) (c : N) : nat :=
  if (late_eqb q L6 && N.eqb c y) || (f && negb (late_eqb q L0) && (128 <=? c)%N) then 1 else 0.
Fixpoint lends (q : late) (s : str) : late := match s with [] => q | c :: t => lends (lnext q c) t end.
Fixpoint lhits (q : late) (s : str) : nat := match s with [] => 0 | c :: t => lhit q c + lhits (lnext q c) t end.
Lemma lends_app a b : forall q, lends q (a ++ b) = lends (lends q a) b.
Proof. induction a as [|c a IH]; intros q; cbn; auto. Qed.
Lemma lhits_app a b : forall q, lhits q (a ++ b) = lhits q a + lhits (lends q a) b.
Proof. induction a as [|c a IH]; intros q; cbn [app lhits lends]; auto. rewrite IH. lia. Qed.
Lemma lhit_0 c : lhit L0 c = 0. Proof. unfold lhit. cbn. rewrite andb_false_r. reflexivity. Qed.
Lemma lnext_rel q c : lnext L0 c = L0 \/ lnext L0 c = lnext q c.
Proof. unfold lnext. destruct (N.eqb c 10); auto. destruct (N.eqb c 60); auto. Qed.
Lemma lhits_from s : forall q, lhits L0 s <= lhits q s.
Proof.
  induction s as [|c s IH]; intros q; cbn [lhits]; [lia|]. rewrite lhit_0. destruct (lnext_rel q c) as [E|E]; rewrite E; [specialize (IH (lnext q c))|]; lia.
Qed.
Lemma lhits_skipn n : forall s q, lhits L0 (skipn n s) <= lhits q s.
Proof.
  induction n as [|n IH]; intros s q; [apply lhits_from|]. destruct s as [|c s]; cbn [skipn lhits]; [lia|]. specialize (IH s (lnext q c)). lia.
Qed.
Lemma lhits_firstn n : forall s q, lhits q (firstn n s) <= lhits q s.
Proof. intros s q. rewrite <- (firstn_skipn n s) at 2. rewrite lhits_app. lia. Qed.
Lemma lhits_slice a b s q : lhits L0 (slice a b s) <= lhits q s.
Proof. unfold slice. eapply Nat.le_trans; [apply lhits_firstn|apply lhits_skipn]. Qed.
Lemma lhit_le q c : lhit q c <= 1. Proof. unfold lhit. destruct (_ || _); lia. Qed.
Hypothesis Y : (y <> 60 /\ y <> 10 /\ y < 128)%N.
Hypothesis X : (x < 128)%N.
Lemma lhit_resets q c : lhit q c = 1 -> lnext q c = L0.
Proof.
  unfold lhit. destruct (late_eqb q L6 && N.eqb c y) eqn:A.
  - intros _. apply andb_true_iff in A as [A B]. apply late_eqb_eq in A. apply N.eqb_eq in B. subst. unfold lnext.
    destruct (N.eqb_spec y 10); [lia|]. destruct (N.eqb_spec y 60); [lia|]. reflexivity.
  - cbn [orb]. destruct (f && _ && _) eqn:B; [|discriminate]. intros _. apply andb_true_iff in B as [_ B]. apply N.leb_le in B. unfold lnext.
    repeat match goal with |- context [N.eqb c ?k] => destruct (N.eqb_spec c k); [subst; lia|] end. destruct q; reflexivity.
Qed.
Lemma lhits_one s : forall q, lhits q s <= S (lhits L0 s).
Proof.
  induction s as [|c s IH]; intros q; cbn [lhits]; [lia|]. rewrite lhit_0.
  pose proof (lhit_le q c) as L. destruct (lhit q c) as [|[|n]] eqn:H; [| |lia].
  - destruct (lnext_rel q c) as [E|E]; rewrite E; [apply IH|lia].
  - rewrite (lhit_resets _ _ H). pose proof (lhits_from s (lnext L0 c)). lia.
Qed.
Definition lcost (q : late) (m r : str) : Prop :=
  lhits q r + (if late_eqb (lends q r) (lends q m) || late_eqb (lends q r) L0 then 0 else 1) <= lhits q m.
Definition lcheap (m r : str) : Prop := forall q, lcost q m r.
Definition lcheapb (m r : str) : bool := forallb (fun q => lhits q r + (if late_eqb (lends q r) (lends q m) || late_eqb (lends q r) L0 then 0 else 1) <=? lhits q m) lates.
Lemma lcheapb_ok m r : lcheapb m r = true -> lcheap m r.
Proof. unfold lcheapb. rewrite forallb_forall. intros H q. apply Nat.leb_le, (H q (lates_all q)). Qed.
Lemma lcost_hits q m r t : lcost q m r -> lhits q (r ++ t) <= lhits q (m ++ t).
Proof.
  intros C. unfold lcost in C. rewrite !lhits_app. destruct (late_eqb (lends q r) (lends q m)) eqn:A; [apply late_eqb_eq in A; rewrite A; cbn [orb] in C; lia|].
  destruct (late_eqb (lends q r) L0) eqn:B; cbn [orb] in C.
  - apply late_eqb_eq in B. rewrite B. pose proof (lhits_from t (lends q m)). lia.
  - pose proof (lhits_one t (lends q r)). pose proof (lhits_from t (lends q m)). lia.
Qed.
Lemma lsub_hits s g ms : forall p q, chain p ms (length s) -> (forall o, In o ms -> lcheap (slice (m_start o) (m_end o) s) (g o)) ->
  lhits q (sub_from s g p ms) <= lhits q (skipn p s).
Proof.
  induction ms as [|o t IH]; intros p q C H; cbn [sub_from]; [lia|]. destruct C as (A & B & C).
  assert (skipn p s = slice p (m_start o) s ++ slice (m_start o) (m_end o) s ++ skipn (m_end o) s) as ->.
  { unfold slice. rewrite <- (firstn_skipn (m_start o - p) (skipn p s)) at 1. f_equal. rewrite skipn_skipn. replace (m_start o - p + p) with (m_start o) by lia.
    rewrite <- (firstn_skipn (m_end o - m_start o) (skipn (m_start o) s)) at 1. f_equal. rewrite skipn_skipn. f_equal. lia. }
  rewrite lhits_app, (lhits_app _ (slice (m_start o) (m_end o) s ++ _)). apply Nat.add_le_mono_l.
  set (q' := lends q _). eapply Nat.le_trans; [|apply (lcost_hits q' _ _ _ (H o (or_introl eq_refl) q'))].
  rewrite !lhits_app. apply Nat.add_le_mono_l. apply IH; auto. intros o' I. apply H. now right.
Qed.
Lemma lre_sub_hits r s g q : (forall o, In o (re_finditer r s) -> obj_ok s r o -> lcheap (slice (m_start o) (m_end o) s) (g o)) ->
  lhits q (re_sub r g s) <= lhits q s.
Proof.
  intros H. unfold re_sub. destruct (finditer_ok r s) as (F & C). rewrite Forall_forall in F.
  apply (lsub_hits s g _ 0 q C). intros o I. apply H; auto.
Qed.
Lemma prefixb_app a s : prefixb a s = true -> exists t, s = a ++ t.
Proof. revert s. induction a as [|c a IH]; intros [|d s]; cbn; try discriminate; [exists []; auto|eauto|]. intros H. apply andb_true_iff in H as [A B]. apply N.eqb_eq in A. subst. destruct (IH _ B) as (t & ->). eauto. Qed.
Lemma lreplace_hits a b : a <> [] -> lcheap a b -> forall s q, lhits q (replace a b s) <= lhits q s.
Proof.
  intros Na C. unfold replace. 
  assert (forall n s, length s <= n -> forall k q, lhits q (replace_aux a b s k) <= lhits q (skipn k s)) as H; [|intros s q; apply (H (length s) s (le_n _) 0 q)].
  induction n as [|n IH]; intros [|c s] Le k q; cbn [length] in Le; try (cbn [replace_aux]; destruct k; cbn; lia); cbn [replace_aux].
  destruct k as [|k]; [|cbn [skipn]; apply IH; lia]. cbn [skipn]. destruct (prefixb a (c :: s)) eqn:Pr.
  - apply prefixb_app in Pr as (t & E). rewrite E. eapply Nat.le_trans; [|apply (lcost_hits q _ _ _ (C q))]. rewrite !lhits_app. apply Nat.add_le_mono_l.
    destruct a as [|c' a']; [congruence|]. cbn [app] in E. injection E as -> ->. cbn [length]. eapply Nat.le_trans; [apply IH; lia|].
    replace (skipn (S (length a') - 1) (a' ++ t)) with t; [lia|]. cbn. rewrite Nat.sub_0_r, skipn_app, skipn_all, Nat.sub_diag. reflexivity.
  - cbn [lhits]. apply Nat.add_le_mono_l. apply (IH s ltac:(lia) 0).
Qed.
(** a text without "<" *)
Lemma plain_late s : ~ In 60%N s -> lhits L0 s = 0 /\ lends L0 s = L0.
Proof.
  induction s as [|c s IH]; intros H; cbn [lhits lends]; auto. rewrite lhit_0. assert (lnext L0 c = L0) as ->.
  { unfold lnext. destruct (N.eqb c 10); auto. destruct (N.eqb_spec c 60); auto. subst. exfalso. apply H. now left. }
  apply IH. intros I. apply H. now right.
Qed.
End Late.

(** ** Against the automaton of the steps before *)
Definition letters (x y : N) : Prop := x = 85%N /\ y = 82%N \/ x = 68%N /\ y = 79%N.
Lemma letters_x x y : letters x y -> letter x. Proof. intros [(-> & _)|(-> & _)]; [now left|now right]. Qed.
Lemma letters_y x y : letters x y -> (y <> 60 /\ y <> 10 /\ y < 128)%N. Proof. intros [(_ & ->)|(_ & ->)]; repeat split; discriminate. Qed.
Lemma letters_x' x y : letters x y -> (x < 128)%N. Proof. intros [(-> & _)|(-> & _)]; reflexivity. Qed.
Definition early (p : late) : state := match p with L0 | L6 => Q0 | L1 => Q1 | L2 => Q2 | L3 => Q3 | L4 => Q4 | L5 => Q5 end.
(** as [w2], but not behind the name of a tag for authors *)
Definition w3 (q : state) (c : N) : bool := negb (state_eqb q Q6) && w2 q c.
Lemma w3_next q c : w3 q c = true -> next q c = Q0.
Proof. unfold w3. intros H. apply andb_true_iff in H as [_ H]. now apply (phase_next w2 (or_intror eq_refl)). Qed.
Lemma hits_w3_6 x s : hits w3 x Q6 s = hits w3 x Q0 s.
Proof.
  induction s as [|c s IH]; cbn [hits]; auto. unfold next. destruct (N.eqb c 60); [reflexivity|]. destruct (is_letter c); [rewrite IH|]; reflexivity.
Qed.
Lemma hits_w32 x s : forall q, hits w3 x q s <= hits w2 x q s.
Proof.
  induction s as [|c s IH]; intros q; cbn [hits]; [lia|]. apply Nat.add_le_mono; auto. unfold hit, w3.
  destruct (state_eqb q Q5 && N.eqb c x); cbn [orb]; auto. destruct (state_eqb q Q0); cbn [negb andb]; auto. destruct (state_eqb q Q6); cbn [negb andb]; [lia|]. lia.
Qed.
Lemma late_early x y s : letters x y -> forall p, p <> L6 -> lhits true x y p s <= hits w3 x (early p) s.
Proof.
  intros Le. pose proof (letters_y _ _ Le) as Hy. pose proof (letters_x' _ _ Le) as Hx. induction s as [|c s IH]; intros p Np; cbn [lhits hits]; [lia|].
  assert (forall q, lhits true x y q s <= S (hits w3 x Q0 s)) as One.
  { intros q. eapply Nat.le_trans; [apply lhits_one; auto|]. apply le_n_S, (IH L0). discriminate. }
  pose proof (hit_le w3 x (early p) c) as Hl. destruct (hit w3 x (early p) c) as [|[|n]] eqn:H; [| |lia].
  - assert (lhit true y p c = 0) as ->.
    { unfold lhit. destruct (late_eqb p L6) eqn:E; [apply late_eqb_eq in E; congruence|]. cbn [andb orb]. destruct (late_eqb p L0) eqn:E0; cbn [negb andb]; auto.
      destruct (128 <=? c)%N eqn:G; auto. exfalso. unfold hit, w3, w2 in H. rewrite G in H. cbn [orb] in H. rewrite andb_true_r in H.
      destruct p; cbn in H; try discriminate; try (apply late_eqb_eq in E0; congruence); try congruence. rewrite orb_true_r in H. discriminate. }
    cbn [plus]. destruct (late_eqb p L0) eqn:E0; [apply late_eqb_eq in E0; subst p; cbn [early]|].
    + unfold lnext, next. destruct (N.eqb_spec c 10) as [->|]; [apply (IH L0); discriminate|]. destruct (N.eqb c 60); [apply (IH L1); discriminate|apply (IH L0); discriminate].
    + assert (c <> 10%N /\ (p = L5 -> c <> x)) as (N10 & Nx).
      { unfold hit in H. split; [intros ->|intros -> ->].
        - destruct p; cbn in H; try discriminate; try congruence. rewrite orb_true_r in H. discriminate.
        - cbn in H. rewrite N.eqb_refl in H. discriminate. }
      unfold lnext. destruct (N.eqb_spec c 10); [congruence|]. unfold next. destruct (N.eqb_spec c 60); [apply (IH L1); discriminate|].
      destruct p; cbn [early]; try congruence; try (discriminate E0);
        try (match goal with |- lhits _ _ _ (if N.eqb c ?k then _ else _) _ <= _ => destruct (N.eqb_spec c k) end; first [now apply (IH L2)|now apply (IH L3)|now apply (IH L4)|now apply (IH L5)|now apply (IH L0)|idtac]).
      * exfalso. now apply Nx.
      * destruct (_ || _); [|now apply (IH L0)]. eapply Nat.le_trans; [now apply (IH L0)|]. apply hits_from.
  - assert (next (early p) c = Q0) as ->.
    { eapply hit_resets; [|intros q d; now apply (w3_next)|exact H]. now apply letter_next, (letters_x x y). }
    pose proof (lhit_le true y p c) as Hl2. destruct (lhit true y p c) as [|[|n]] eqn:G; [| |lia].
    + specialize (One (lnext x p c)). lia.
    + rewrite (lhit_resets true x y Hy Hx _ _ G). specialize (IH L0 ltac:(discriminate)). cbn [early] in IH. lia.
Qed.
(** ** Writing characters as ASCII *)
Lemma late_translit u x y s : letters x y -> (forall c, (c < 128)%N -> u c = [c]) -> Forall (fun c => (c < 128)%N \/ ~ In 60%N (u c)) s ->
  forall q, lhits false x y q (flat_map u s) <= lhits true x y q s.
Proof.
  intros Le A. pose proof (letters_y _ _ Le) as Hy. pose proof (letters_x' _ _ Le) as Hx. induction s as [|c s IH]; intros F q; cbn [flat_map lhits]; [lia|]. inversion F as [|? ? Fc Fs]; subst. specialize (IH Fs).
  destruct (N.lt_ge_cases c 128) as [Lt|Ge].
  - rewrite A by auto. cbn [app lhits]. apply Nat.add_le_mono; [|apply IH]. unfold lhit. assert ((128 <=? c)%N = false) as -> by (apply N.leb_gt; lia). rewrite !andb_false_r. lia.
  - destruct Fc as [Fc|Fc]; [lia|]. destruct (plain_late false x y (u c) Fc) as (E1 & E2). destruct (late_eqb q L0) eqn:Eq.
    + apply late_eqb_eq in Eq. subst q. rewrite lhits_app, E1, E2, lhit_0. cbn [plus]. eapply Nat.le_trans; [apply IH|]. apply lhits_from.
    + assert (lhit true y q c = 1) as H by (unfold lhit; rewrite Eq; assert ((128 <=? c)%N = true) as -> by (apply N.leb_le; lia); cbn; rewrite orb_true_r; reflexivity).
      rewrite (lhit_resets true x y Hy Hx _ _ H), H. eapply Nat.le_trans; [apply lhits_one; auto|]. rewrite lhits_app, E1, E2. specialize (IH L0). lia.
Qed.
Lemma late_weaker x y s : forall q, lhits false x y q s <= lhits true x y q s.
Proof.
  induction s as [|c s IH]; intros q; cbn [lhits]; [lia|]. apply Nat.add_le_mono; auto. unfold lhit. cbn [andb orb]. destruct (_ && _); cbn [orb]; [lia|]. destruct (_ && _); lia.
Qed.
(** ** Ends of lines *)
Lemma late_newlines f x y s : letters x y -> forall q, lhits f x y q (remove_newlines s) = lhits f x y q s.
Proof.
  intros Le. pose proof (letters_y _ _ Le) as (_ & Hy & _). unfold remove_newlines. induction s as [|c s IH]; intros q; cbn [filter lhits]; auto. destruct (N.eqb_spec c 10) as [->|N]; cbn [negb lhits]; rewrite ?IH; auto.
  unfold lnext. cbn. assert (lhit f y q 10 = 0) as -> by (unfold lhit; destruct (N.eqb_spec 10 y); [congruence|]; rewrite !andb_false_r; reflexivity). reflexivity.
Qed.
(** ** The tags of the parser *)
Lemma count_late x y n : letters x y -> forall s q, count_tags (x :: y :: n) s <= lhits false x y q s.
Proof.
  intros Le. pose proof (letters_y _ _ Le) as (Hy & Hy2 & _). assert (x <> 60%N /\ x <> 10%N) as (Hx & Hx2) by (destruct Le as [(-> & _)|(-> & _)]; split; discriminate).
  intros s. remember (length s) as k eqn:K. revert s K. induction k as [k IH] using lt_wf_ind. intros s -> q.
  destruct s as [|c t]; [cbn; lia|]. destruct (opens (x :: y :: n) (c :: t)) eqn:O.
  - cbn [count_tags]. rewrite O. apply opens_start in O as (u & O). change (py "<cds.") with [60; 99; 100; 115; 46]%N in O. cbn [app] in O.
    injection O as -> ->. rewrite !count_other by (discriminate || assumption).
    assert (lhits false x y q (60 :: 99 :: 100 :: 115 :: 46 :: x :: y :: n ++ u)%N >= 1 + lhits false x y L0 (n ++ u)) as G.
    { cbn [lhits]. change (lnext x q 60) with L1. change (lnext x L1 99) with L2. change (lnext x L2 100) with L3. change (lnext x L3 115) with L4. change (lnext x L4 46) with L5.
      assert (lnext x L5 x = L6) as -> by (unfold lnext; destruct (N.eqb_spec x 10); [congruence|]; destruct (N.eqb_spec x 60); [congruence|]; now rewrite N.eqb_refl).
      assert (lhit false y L6 y = 1) as -> by (unfold lhit; now rewrite N.eqb_refl).
      assert (lnext x L6 y = L0) as -> by (unfold lnext; destruct (N.eqb_spec y 10); [congruence|]; destruct (N.eqb_spec y 60); [congruence|]; reflexivity). lia. }
    specialize (IH (length (n ++ u)) ltac:(unfold str, ch in *; cbn [length]; lia) _ eq_refl L0). unfold str, ch in *. lia.
  - cbn [count_tags]. rewrite O. cbn [lhits]. specialize (IH (length t) ltac:(cbn [length]; lia) t eq_refl (lnext x q c)). lia.
Qed.
(** ** Wrapping *)
Lemma late_wrap f x y t q g : letters x y -> In t tags -> lhits f x y q (wrap t g) = lhits f x y L0 g /\ lends x q (wrap t g) = L0.
Proof.
  intros Le T. unfold wrap. set (a := py "<cds."). set (b := py "</cds."). set (n := py t).
  assert (lhits f x y q (a ++ n ++ py ">") = 0 /\ lends x q (a ++ n ++ py ">") = L0) as (A1 & A2).
  { subst a n. pose proof (lates_all q) as S.
    assert (forallb (fun t => forallb (fun q => (lhits f x y q (py "<cds." ++ py t ++ py ">") =? 0) && late_eqb (lends x q (py "<cds." ++ py t ++ py ">")) L0) lates) tags = true) as F by (destruct f, Le as [(-> & ->)|(-> & ->)]; vm_compute; reflexivity).
    rewrite forallb_forall in F. specialize (F _ T). rewrite forallb_forall in F. specialize (F _ S). apply andb_true_iff in F as [F1 F2].
    apply Nat.eqb_eq in F1. apply late_eqb_eq in F2. auto. }
  assert (forall q, lhits f x y q (b ++ n ++ py ">") = 0 /\ lends x q (b ++ n ++ py ">") = L0) as B.
  { clear q A1 A2. intros q. subst b n. pose proof (lates_all q) as S.
    assert (forallb (fun t => forallb (fun q => (lhits f x y q (py "</cds." ++ py t ++ py ">") =? 0) && late_eqb (lends x q (py "</cds." ++ py t ++ py ">")) L0) lates) tags = true) as F by (destruct f, Le as [(-> & ->)|(-> & ->)]; vm_compute; reflexivity).
    rewrite forallb_forall in F. specialize (F _ T). rewrite forallb_forall in F. specialize (F _ S). apply andb_true_iff in F as [F1 F2].
    apply Nat.eqb_eq in F1. apply late_eqb_eq in F2. auto. }
  replace (a ++ n ++ py ">" ++ g ++ b ++ n ++ py ">") with ((a ++ n ++ py ">") ++ g ++ b ++ n ++ py ">") by now rewrite <- !app_assoc.
  clearbody a b n. specialize (B (lends x L0 g)). revert A1 A2 B. generalize (a ++ n ++ py ">") (b ++ n ++ py ">"). intros u v A1 A2 (B1 & B2).
  rewrite !lhits_app, !lends_app, A1, A2, B1, B2. split; auto. lia.
Qed.
