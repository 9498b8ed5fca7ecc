(** Proofs for C64: which publishers are found in a line. *)
From Coq Require Import Arith NArith Bool String Lia List.
From Verif Require Import PyStr ListFacts Regex RegexParse RegexMeta RegexLang Patterns Kbs Tag KbFit CaptureLang FoundProofs TransformProofs ComposeProofs TaggerProofs CollabNest PubGrammar.
Import ListNotations.
Local Notation length := List.length.
Local Open Scope nat_scope.

Lemma iget_iput {A} k k' (v : A) m : iget k (iput k' v m) = if k =? k' then Some v else iget k m.
Proof.
  induction m as [|[q u] m IH]; cbn [iput iget].
  - destruct (k =? k'); auto.
  - destruct (Nat.eqb_spec k' q) as [->|n]; cbn [iget]; [now destruct (k =? q)|]. destruct (k' <? q); cbn [iget]; [reflexivity|].
    rewrite IH. destruct (Nat.eqb_spec k q), (Nat.eqb_spec k k'); auto. congruence.
Qed.
(** ** Characters and their variants *)
Lemma variant_facts d c : In c (case_variants d) -> (c < 128)%N -> is_word d = is_word c
  /\ forall c', In c' (case_variants d) -> (c' < 128)%N -> is_lower_ascii c = false -> is_lower_ascii c' = false -> c = c'.
Proof.
  intros H L.
  assert (In d (map N.of_nat (seq 0 128) ++ [304; 305; 383; 8490])%N) as I.
  { apply in_or_app. destruct (N.ltb_spec d 128) as [Ld|Ld]; [left; apply in_map_iff; exists (N.to_nat d); split; [apply N2Nat.id|apply in_seq; lia]|right].
    destruct (special_fold d) eqn:F.
    - unfold special_fold in F. rewrite !orb_true_iff, !N.eqb_eq in F. destruct F as [[[->| ->]| ->]| ->]; cbn; auto.
    - pose proof (case_variants_high d Ld F) as Q. rewrite Forall_forall in Q. specialize (Q c H). lia. }
  assert (forallb (fun d => forallb (fun c => if (c <? 128)%N then Bool.eqb (is_word d) (is_word c)
     && forallb (fun c' => negb (c' <? 128)%N || is_lower_ascii c || is_lower_ascii c' || N.eqb c c') (case_variants d) else true) (case_variants d)) (map N.of_nat (seq 0 128) ++ [304; 305; 383; 8490])%N = true) as C by (vm_compute; reflexivity).
  rewrite forallb_forall in C. specialize (C d I). rewrite forallb_forall in C. specialize (C c H). apply N.ltb_lt in L. rewrite L in C. apply andb_true_iff in C as [C1 C2].
  split; [now apply eqb_prop|]. intros c' H' L' U U'. rewrite forallb_forall in C2. specialize (C2 c' H'). apply N.ltb_lt in L'. rewrite L', U, U' in C2. cbn in C2. now apply N.eqb_eq.
Qed.
(** a name: no small letters, and a letter or digit at both ends *)
Definition capital (X : str) : bool := forallb (fun c => (c <? 128)%N && negb (is_lower_ascii c)) X && hd_is_word X && hd_is_word (rev X).
Definition cased (X w : str) : Prop := Forall2 (fun c d => In c (case_variants d)) X w.
Lemma cased_len X w : cased X w -> length w = length X.
Proof. intros H. induction H; cbn; auto. Qed.
Lemma cased_word X w : capital X = true -> cased X w -> hd_is_word w = true /\ hd_is_word (rev w) = true.
Proof.
  unfold capital. rewrite !andb_true_iff. intros ((A & B) & C) H. rewrite forallb_forall in A. split.
  - destruct H as [|c d X w D H]; [discriminate|]. cbn in *. specialize (A c (or_introl eq_refl)). apply andb_true_iff in A as [A _]. apply N.ltb_lt in A. now rewrite (proj1 (variant_facts d c D A)).
  - destruct (exists_last (l := X)) as (Y & c & ->); [intros ->; discriminate|]. apply Forall2_app_inv_l in H as (v & u & _ & D & ->). inversion D as [|? d ? ? D1 D2]; subst. inversion D2; subst.
    rewrite rev_app_distr in *. cbn in *. specialize (A c ltac:(apply in_or_app; right; now left)). apply andb_true_iff in A as [A _]. apply N.ltb_lt in A. now rewrite (proj1 (variant_facts d c D1 A)).
Qed.
Lemma word_no_word s : hd_is_word s = false <-> no_word s.
Proof. destruct s; cbn; tauto. Qed.
(** ** The pattern *)
Definition name_re (X : str) : re := Cat (Grp 1 (Alt Wordb Bos)) (lits true X (Grp 2 (Alt Wordb Eos))).
Definition publisher_names : list str := Eval vm_compute in map fst shipped_publishers_kb.
Lemma shipped_publishers_form : map (fun e => (fst e, rx_re (fst (snd e)))) shipped_publishers_kb = map (fun X => (X, name_re X)) publisher_names.
Proof. vm_compute. reflexivity. Qed.
Lemma name_fair X : fair (name_re X) = true.
Proof. unfold name_re. cbn [fair]. rewrite lits_fair. reflexivity. Qed.
Lemma name_min X : minlen (name_re X) = length X.
Proof. unfold name_re. cbn [minlen]. rewrite lits_min. cbn. lia. Qed.
Definition named (X a w b : str) : Prop := cased X w /\ no_word (rev a) /\ no_word b.
Lemma rd_name X a w b : capital X = true -> (exists c, rd (name_re X) a w b c) <-> named X a w b.
Proof.
  intros C. unfold name_re, named. split.
  - intros (c & H). apply rd_cat in H as (u & v & c1 & c2 & -> & _ & H1 & H2). apply rd_grp in H1 as (c' & _ & H1). apply rd_lits in H2 as (w1 & w2 & -> & L & H2).
    apply rd_grp in H2 as (c3 & _ & H2). assert (u = []) as -> by (destruct H1 as [(-> & _)|(-> & _)]; auto). assert (w2 = []) as -> by (destruct H2 as [(-> & _)|(-> & _)]; auto).
    cbn [app] in *. rewrite app_nil_r in *. change (cased X w1) in L. destruct (cased_word X w1 C L) as [W1 W2]. split; [exact L|]. split.
    + destruct H1 as [(_ & _ & H1)|(_ & _ & ->)]; [|exact I]. apply word_no_word. destruct w1 as [|d w1]; [discriminate|]. cbn in W1, H1. rewrite W1 in H1. now destruct (hd_is_word (rev a)).
    + destruct H2 as [(_ & _ & H2)|(_ & _ & [->| ->])]; [|exact I|reflexivity]. apply word_no_word. rewrite rev_app_distr in H2. destruct (rev w1) as [|d w2]; [discriminate|]. cbn in W2, H2. rewrite W2 in H2. now destruct (hd_is_word b).
  - intros (L & A & B). destruct (cased_word X w C L) as [W1 W2]. exists [(2, []); (1, [])]. apply rd_cat. exists [], w, [(1, [])], [(2, [])]. split; auto. split; auto. split.
    + apply rd_grp. exists []. split; auto. left. split; auto. split; auto. apply word_no_word in A. rewrite A. destruct w as [|d w]; [discriminate|]. cbn in *. now rewrite W1.
    + apply rd_lits. exists w, []. rewrite app_nil_r. split; auto. split; auto. apply rd_grp. exists []. split; auto. left. split; auto. split; auto. rewrite app_nil_r, rev_app_distr. apply word_no_word in B. rewrite B. destruct (rev w) as [|d v]; [discriminate|]. cbn in *. now rewrite W2.
Qed.
(** ** A name does not overlap itself *)
Definition apart_from_self (X : str) : bool := forallb (fun k => hd_is_word (rev (firstn k X)) || negb (prefixb (skipn k X) X)) (seq 1 (length X - 1)).
Lemma cased_same X Y w : forallb (fun c => (c <? 128)%N && negb (is_lower_ascii c)) X = true -> forallb (fun c => (c <? 128)%N && negb (is_lower_ascii c)) Y = true -> cased X w -> cased Y w -> X = Y.
Proof.
  intros A B H. revert Y B. induction H as [|c d X w D H IH]; intros Y B G; inversion G as [|c' ? Y' ? D' G']; subst; auto. cbn in A, B. apply andb_true_iff in A as [A1 A2]. apply andb_true_iff in B as [B1 B2].
  apply andb_true_iff in A1 as [A1 A3]. apply andb_true_iff in B1 as [B1 B3]. apply N.ltb_lt in A1. apply N.ltb_lt in B1. apply negb_true_iff in A3. apply negb_true_iff in B3. f_equal; [|now apply IH].
  eapply (proj2 (variant_facts d c D A1)); eauto.
Qed.
Lemma cased_prefix X Y u v s t : capital X = true -> capital Y = true -> cased X u -> cased Y v -> u ++ s = v ++ t -> length X <= length Y -> prefixb X Y = true.
Proof.
  unfold capital. rewrite !andb_true_iff. intros ((A & _) & _) ((B & _) & _) H G E L. pose proof (cased_len _ _ H) as L1. pose proof (cased_len _ _ G) as L2.
  assert (exists r, v = u ++ r) as (r & ->). { exists (skipn (length u) v). apply (f_equal (firstn (length u))) in E. rewrite firstn_app, Nat.sub_diag, firstn_O, app_nil_r, firstn_all, firstn_app in E.
    replace (length u - length v) with 0 in E by (unfold str, ch in *; lia). rewrite firstn_O, app_nil_r in E. rewrite E at 1. symmetry. apply firstn_skipn. }
  apply Forall2_app_inv_r in G as (Y1 & Y2 & G1 & G2 & ->). apply prefixb_app. exists Y2. f_equal. rewrite forallb_app in B. apply andb_true_iff in B as [B _]. now apply (cased_same Y1 X u).
Qed.
Lemma apart X a1 w1 b1 a2 w2 b2 : capital X = true -> apart_from_self X = true -> named X a1 w1 b1 -> named X a2 w2 b2 -> a1 ++ w1 ++ b1 = a2 ++ w2 ++ b2 -> length a1 < length a2 -> length a1 + length w1 <= length a2.
Proof.
  intros C P (H1 & _ & _) (H2 & A2 & _) E L. destruct (le_lt_dec (length a1 + length w1) (length a2)) as [?|Q]; auto. exfalso.
  pose proof (cased_len _ _ H1) as L1. pose proof (cased_len _ _ H2) as L2.
  set (k := length a2 - length a1). assert (1 <= k < length X) as K by (unfold k; unfold str, ch in *; lia).
  assert (exists u v, w1 = u ++ v /\ length u = k /\ a2 = a1 ++ u /\ v ++ b1 = w2 ++ b2) as (u & v & -> & Lu & -> & E2).
  { exists (firstn k w1), (skipn k w1). split; [symmetry; apply firstn_skipn|]. split; [rewrite firstn_length; unfold str, ch in *; lia|].
    assert (a2 = firstn (length a2) (a1 ++ w1 ++ b1)) as Ea by (rewrite E, firstn_app, Nat.sub_diag, firstn_O, app_nil_r; symmetry; apply firstn_all).
    assert (a2 = a1 ++ firstn k w1) as Ea2.
    { rewrite Ea at 1. rewrite firstn_app. rewrite (firstn_all2 a1) by lia. f_equal. fold k. rewrite firstn_app. replace (k - length w1) with 0 by (unfold str, ch in *; lia). now rewrite firstn_O, app_nil_r. }
    split; auto. rewrite <- (firstn_skipn k w1) in E. rewrite Ea2 in E. rewrite <- !app_assoc in E. now apply app_inv_head, app_inv_head in E. }
  unfold cased in H1. apply Forall2_app_inv_r in H1 as (X1 & X2 & G1 & G2 & EX). pose proof (cased_len _ _ G1) as LX1.
  unfold apart_from_self in P. rewrite forallb_forall in P. specialize (P k ltac:(apply in_seq; lia)).
  assert (firstn k X = X1 /\ skipn k X = X2) as [F1 F2]. { rewrite EX. rewrite <- Lu, LX1. split; [rewrite firstn_app, firstn_all, Nat.sub_diag, firstn_O; apply app_nil_r|rewrite skipn_app, skipn_all, Nat.sub_diag; reflexivity]. }
  rewrite F1, F2 in P. apply orb_true_iff in P as [P|P].
  - destruct (exists_last (l := X1)) as (Y & c & ->); [intros ->; discriminate|]. apply Forall2_app_inv_l in G1 as (v1 & u1 & _ & D & ->). inversion D as [|? d ? ? D1 D2]; subst. inversion D2; subst.
    rewrite rev_app_distr in P. rewrite !rev_app_distr in A2. cbn in P, A2. unfold capital in C. rewrite !andb_true_iff in C. destruct C as ((C & _) & _). rewrite forallb_forall in C.
    specialize (C c ltac:(apply in_or_app; left; apply in_or_app; right; now left)). apply andb_true_iff in C as [C _]. apply N.ltb_lt in C. rewrite (proj1 (variant_facts d c D1 C)) in A2. congruence.
  - apply negb_true_iff in P. assert (prefixb X2 X = true) as Q2; [|congruence].
    pose proof C as C0. unfold capital in C. rewrite !andb_true_iff in C. destruct C as ((C & _) & _).
    assert (forallb (fun c => (c <? 128)%N && negb (is_lower_ascii c)) X2 = true) as CX. { rewrite EX, forallb_app in C. now apply andb_true_iff in C as [_ C]. }
    pose proof (cased_len _ _ G2) as LX2. assert (length X = length X1 + length X2) as LX by (rewrite EX; apply app_length).
    assert (exists r, w2 = v ++ r) as (r & ->). { exists (skipn (length v) w2). apply (f_equal (firstn (length v))) in E2. rewrite firstn_app, Nat.sub_diag, firstn_O, app_nil_r, firstn_all, firstn_app in E2.
      replace (length v - length w2) with 0 in E2 by (unfold str, ch in *; lia). rewrite firstn_O, app_nil_r in E2. rewrite E2 at 1. symmetry. apply firstn_skipn. }
    apply Forall2_app_inv_r in H2 as (Y1 & Y2 & G3 & G4 & EY). apply prefixb_app. exists Y2. rewrite EY. f_equal. apply (cased_same Y1 X2 v); auto. rewrite EY, forallb_app in C. now apply andb_true_iff in C as [C _].
Qed.
Lemma found_in P R a s os : found P R a s os -> forall o, In o os -> exists p w b, s = p ++ w ++ b /\ R (a ++ p) w b o.
Proof.
  induction 1 as [a s N|a k w b o t N Ho F IH]; intros q I; [destruct I|]. destruct I as [<-|I].
  - exists k, w, b. auto.
  - destruct (IH q I) as (p & v & c & -> & Hq). exists (k ++ w ++ p), v, c. split; [now rewrite <- !app_assoc|]. now rewrite <- !app_assoc in *.
Qed.
Lemma name_hits X line i : capital X = true -> apart_from_self X = true -> existsb (fun o => m_start o =? i) (re_finditer (name_re X) line) = true <-> named_at X line i.
Proof.
  intros C A.
  assert (forall o, In o (re_finditer (name_re X) line) -> exists a w b, line = a ++ w ++ b /\ named X a w b /\ m_start o = length a /\ m_end o = length a + length w) as Hin.
  { intros o I. assert (1 <= length X) as LX by (destruct X; [discriminate|cbn; lia]).
    pose proof (finditer_found (name_re X) (fun _ _ _ => False) (fun a w b o => named X a w b /\ m_start o = length a /\ m_end o = length a + length w) line (name_fair X) ltac:(rewrite name_min; exact LX)) as F.
    specialize (F ltac:(intros a w b [])). destruct (found_in _ _ _ _ _ (F ltac:(
      intros a w b q Ew Rn S1 S2; split; [|split; assumption]; pose proof Rn as Rd; apply run_rd in Rd as (w' & b' & c & E & Rd & S3 & S4 & _); [|apply name_fair];
      assert (w = w' /\ b = b') as [-> ->] by (assert (length w = length w') as Lw by (unfold str, ch in *; lia); split; [apply (f_equal (firstn (length w))) in E|apply (f_equal (skipn (length w))) in E];
        [rewrite firstn_app, Nat.sub_diag, firstn_O, app_nil_r, firstn_all, Lw, firstn_app, Nat.sub_diag, firstn_O, app_nil_r, firstn_all in E|rewrite skipn_app, Nat.sub_diag, skipn_all, Lw, skipn_app, Nat.sub_diag, skipn_all in E]; exact E);
      apply rd_name; [exact C|now exists c])) o I) as (p & w & b & E & Hr). exists p, w, b. split; auto. }
  rewrite existsb_exists. split.
  - intros (o & I & Eo). apply Nat.eqb_eq in Eo. destruct (Hin o I) as (a & w & b & -> & (Hc & Ha & Hb) & S1 & _). exists a, w, b. split; auto. split; [congruence|]. auto.
  - intros (a & w & b & -> & Li & Hc & Ha & Hb). destruct (finditer_covers (name_re X) (a ++ w ++ b) a (w ++ b) eq_refl) as (o & I & Co).
    { intros Z. assert (exists c, rd (name_re X) a w b c) as (c & Rd) by (apply rd_name; [exact C|split; auto]). revert Rd. now apply run_not; [apply name_fair|]. }
    destruct (Hin o I) as (a' & w' & b' & E & Hn & S1 & S2). exists o. split; auto. apply Nat.eqb_eq. rewrite S1, <- Li. unfold covers in Co.
    destruct (lt_eq_lt_dec (length a') (length a)) as [[Lt|]|Gt]; auto; [|lia]. exfalso.
    assert (named X a w b) as Hn2 by (split; auto). pose proof (apart X a' w' b' a w b C A Hn Hn2 ltac:(congruence) Lt). lia.
Qed.
(** ** The table *)
Lemma pub_inner (name : str) os : forall (acc : imap str) i, iget i (fold_left (fun acc o => iput (m_start o) name acc) os acc) = if existsb (fun o => m_start o =? i) os then Some name else iget i acc.
Proof.
  induction os as [|o os IH]; intros acc i; cbn; auto. rewrite IH, iget_iput. rewrite (Nat.eqb_sym i). destruct (m_start o =? i), (existsb (fun o => m_start o =? i) os); reflexivity.
Qed.
Definition last_said (line : str) (i : nat) (l : list (str * re)) (r : option str) : option str :=
  fold_left (fun r e => if existsb (fun o => m_start o =? i) (re_finditer (snd e) line) then Some (fst e) else r) l r.
Lemma pub_outer line i (kb : publishers_kb) : forall acc : imap str,
  iget i (fold_left (fun acc e => fold_left (fun acc o => iput (m_start o) (fst e) acc) (re_finditer (rx_re (fst (snd e))) line) acc) kb acc)
  = last_said line i (map (fun e => (fst e, rx_re (fst (snd e)))) kb) (iget i acc).
Proof.
  unfold last_said. induction kb as [|[n [p t]] kb IH]; intros acc; cbn [fold_left map fst snd]; auto. rewrite IH, pub_inner. reflexivity.
Qed.
Lemma last_said_iff line i names : Forall (fun X => capital X = true /\ apart_from_self X = true) names ->
  forall X, last_said line i (map (fun X => (X, name_re X)) names) None = Some X <-> exists l1 l2, names = l1 ++ X :: l2 /\ named_at X line i /\ forall Y, In Y l2 -> ~ named_at Y line i.
Proof.
  unfold last_said. induction names as [|N names IH] using rev_ind; intros G X.
  - cbn. split; [discriminate|]. intros (l1 & l2 & E & _). destruct l1; discriminate.
  - apply Forall_app in G as [G GN]. inversion GN as [|? ? [CN AN] _]; subst. rewrite map_app, fold_left_app. cbn [map fold_left fst snd].
    pose proof (name_hits N line i CN AN) as HN. destruct (existsb (fun o => m_start o =? i) (re_finditer (name_re N) line)).
    + split.
      * intros E. injection E as <-. exists names, []. split; auto. split; [now apply HN|]. intros Y [].
      * intros (l1 & l2 & E & Hx & Hl). destruct (exists_last (l := X :: l2)) as (l3 & z & E2); [discriminate|]. rewrite E2, app_assoc in E. apply app_inj_tail in E as [E ->].
        destruct l3 as [|x l3]; cbn in E2; injection E2 as -> E2; [reflexivity|]. exfalso. apply (Hl z); [rewrite E2; apply in_or_app; right; now left|]. now apply HN.
    + rewrite (IH G X). split.
      * intros (l1 & l2 & -> & Hx & Hl). exists l1, (l2 ++ [N]). split; [now rewrite <- app_assoc|]. split; auto. intros Y I. apply in_app_or in I as [I|[<-|[]]]; auto. intros Hy. apply HN in Hy. discriminate.
      * intros (l1 & l2 & E & Hx & Hl). destruct (exists_last (l := X :: l2)) as (l3 & z & E2); [discriminate|]. rewrite E2, app_assoc in E. apply app_inj_tail in E as [E ->].
        destruct l3 as [|x l3]; cbn in E2; injection E2 as -> E2; [apply HN in Hx; discriminate|]. exists l1, l3. split; auto. split; auto. intros Y I. apply Hl. rewrite E2. apply in_or_app. now left.
Qed.
(** of two names that begin alike the longer one is later in the table *)
Fixpoint longer_later (l : list str) : bool := match l with X :: t => forallb (fun Y => negb (prefixb Y X)) t && longer_later t | [] => true end.
Lemma longer_later_app l1 X l2 : longer_later (l1 ++ X :: l2) = true -> forall Y, In Y l1 -> prefixb X Y = false.
Proof.
  induction l1 as [|Z l1 IH]; cbn; intros H Y I; [destruct I|]. apply andb_true_iff in H as [H1 H2]. destruct I as [<-|I]; [|now apply IH].
  rewrite forallb_forall in H1. apply negb_true_iff. apply H1. apply in_or_app. right. now left.
Qed.
Lemma longest_last line i names : Forall (fun X => capital X = true /\ apart_from_self X = true) names -> longer_later names = true ->
  forall X, (exists l1 l2, names = l1 ++ X :: l2 /\ named_at X line i /\ forall Y, In Y l2 -> ~ named_at Y line i) <-> publisher_at names line i X.
Proof.
  intros G LL X. assert (forall X Y, In X names -> In Y names -> named_at X line i -> named_at Y line i -> length X <= length Y -> prefixb X Y = true) as Pre.
  { rewrite Forall_forall in G. intros U V Iu Iv (a & w & b & E1 & L1 & H1 & _) (a' & w' & b' & E2 & L2 & H2 & _) Le. destruct (G _ Iu), (G _ Iv). apply (cased_prefix U V w w' b b'); auto.
    subst line. assert (a = a') as <-. { apply (f_equal (firstn (length a))) in E2. rewrite firstn_app, Nat.sub_diag, firstn_O, app_nil_r, firstn_all in E2. rewrite E2, firstn_app. replace (length a - length a') with 0 by (unfold str, ch in *; lia). rewrite firstn_O, app_nil_r. apply firstn_all2. unfold str, ch in *; lia. }
    now apply app_inv_head in E2. }
  unfold publisher_at. split.
  - intros (l1 & l2 & E & Hx & Hl). assert (In X names) as I by (rewrite E; apply in_or_app; right; now left). split; auto. split; auto. intros Y Iy Hy.
    destruct (le_lt_dec (length Y) (length X)) as [?|Lt]; auto. exfalso. rewrite E in Iy. apply in_app_or in Iy as [Iy|[->|Iy]]; [|lia|now apply (Hl Y)].
    assert (prefixb X Y = true) as P by (apply Pre; auto; [rewrite E; apply in_or_app; now left|lia]). rewrite E in LL. rewrite (longer_later_app _ _ _ LL Y Iy) in P. discriminate.
  - intros (I & Hx & Hl). apply in_split in I as (l1 & l2 & E). exists l1, l2. split; auto. split; auto. intros Y Iy Hy.
    assert (In Y names) as IY by (rewrite E; apply in_or_app; right; now right). specialize (Hl Y IY Hy).
    assert (prefixb Y X = true) as P by (apply Pre; auto; rewrite E; apply in_or_app; right; now left).
    apply in_split in Iy as (m1 & m2 & ->). rewrite E in LL. replace (l1 ++ X :: m1 ++ Y :: m2) with ((l1 ++ X :: m1) ++ Y :: m2) in LL by now rewrite <- app_assoc.
    rewrite (longer_later_app _ _ _ LL X ltac:(apply in_or_app; right; now left)) in P. discriminate.
Qed.
Lemma publishers_exact line i X : iget i (identify_publishers line shipped_publishers_kb) = Some X <-> publisher_at (map fst shipped_publishers_kb) line i X.
Proof.
  unfold identify_publishers. rewrite pub_outer, shipped_publishers_form. change (iget i (@nil (nat * str))) with (@None str).
  assert (Forall (fun X => capital X = true /\ apart_from_self X = true) publisher_names) as G.
  { apply Forall_forall. intros Y I. assert (forallb (fun X => capital X && apart_from_self X) publisher_names = true) as C by (vm_compute; reflexivity). rewrite forallb_forall in C. now apply andb_true_iff, C. }
  assert (longer_later publisher_names = true) as LL by (vm_compute; reflexivity).
  rewrite (last_said_iff line i publisher_names G X). change (map fst shipped_publishers_kb) with publisher_names. now apply longest_last.
Qed.
(** ** The table that is built *)
Lemma built_publishers rows : forall kb0 kb, build_publishers_kb_from rows kb0 = Ok kb -> forall n,
  (exists r1 r2 t p, rows = r1 ++ (n, t) :: r2 /\ ~ In n (map fst r2) /\ assoc_str n kb = Some (p, t)) \/ (~ In n (map fst rows) /\ assoc_str n kb = assoc_str n kb0).
Proof.
  induction rows as [|[name repl] rows IH]; intros kb0 kb H n; cbn [build_publishers_kb_from] in H.
  - injection H as <-. right. split; auto.
  - destruct (compile _ _) as [p|e]; [|discriminate]. cbn [bind] in H. destruct (IH _ _ H n) as [(r1 & r2 & t & q & -> & N & A)|(N & A)].
    + left. exists ((name, repl) :: r1), r2, t, q. auto.
    + destruct (list_eq_dec N.eq_dec n name) as [->|Ne].
      * left. exists [], rows, repl, p. split; auto. split; auto. rewrite A, assoc_sput. destruct (eqs_spec name name); congruence.
      * right. split; [intros [E|I]; [cbn in E; congruence|contradiction]|]. rewrite A, assoc_sput. destruct (eqs_spec n name); congruence.
Qed.
Lemma publishers_table rows kb : build_publishers_kb rows = Ok kb -> forall n t,
  (exists p, assoc_str n kb = Some (p, t)) <-> exists r1 r2, rows = r1 ++ (n, t) :: r2 /\ ~ In n (map fst r2).
Proof.
  intros H n t. pose proof (built_publishers rows [] kb H n) as D. split.
  - intros (p & A). destruct D as [(r1 & r2 & t' & p' & E & N & A')|(_ & A')]; [|cbn in A'; congruence]. rewrite A in A'. injection A' as _ <-. now exists r1, r2.
  - intros (r1 & r2 & E & N). destruct D as [(q1 & q2 & t' & p & E' & N' & A)|(N' & _)].
    + exists p. rewrite A. do 2 f_equal. rewrite E in E'. clear H A E. revert q1 E'. induction r1 as [|x r1 IH]; intros q1 E'.
      * destruct q1 as [|y q1]; cbn in E'; injection E' as E1 E2; [congruence|]. exfalso. apply N. rewrite E2, map_app. apply in_or_app. right. now left.
      * destruct q1 as [|y q1]; cbn in E'; injection E' as E1 E2; [|eauto]. exfalso. apply N'. rewrite <- E2, map_app. apply in_or_app. right. now left.
    + exfalso. apply N'. rewrite E, map_app. apply in_or_app. right. now left.
Qed.
Lemma publishers_unmasked line i X : iget i (identify_publishers line shipped_publishers_kb) = Some X -> forall q, i <= q < i + length X -> nth_error line q <> Some 95%N.
Proof.
  intros H q Q E. apply publishers_exact in H as (I & (a & w & b & -> & L & C & _) & _). pose proof (cased_len _ _ C) as Lw.
  rewrite nth_error_app2 in E by lia. rewrite nth_error_app1 in E by (unfold str, ch in *; lia). apply nth_error_In in E. revert E.
  assert (forallb (fun X => negb (existsb (N.eqb 95) X)) (map fst shipped_publishers_kb) = true) as U by (vm_compute; reflexivity). rewrite forallb_forall in U. specialize (U X I). apply negb_true_iff in U.
  apply (case_not 95%N 95%N X w); auto; [lia|]. intros J. assert (existsb (N.eqb 95) X = true); [|congruence]. apply existsb_exists. exists 95%N. split; auto.
Qed.
