(** Which journal titles are found in a line, exactly (C65). *)
From Coq Require Import Arith NArith Bool String Lia List.
From Verif Require Import PyStr ListFacts Regex RegexParse RegexMeta RegexLang Patterns Kbs Tag KbProofs SpanProofs CaptureLang PubProofs.
Import ListNotations.
Local Notation length := List.length.
Local Open Scope nat_scope.

(** [title_marked rows t a s is out]: the text s, which stands behind a, is read from the left to the right; where the title t
    can be recognised ([recognisable]) its place is noted in [is], it is masked with underscores and the reading goes on behind
    the character after it; [out] is the text that results *)
Inductive title_marked (rows : list (str * str)) (t : str) : str -> str -> list nat -> str -> Prop :=
| no_title a s : (forall p c q, s = p ++ t ++ c :: q -> ~ recognisable rows (a ++ p) t c q) -> title_marked rows t a s [] s
| one_title a k c b l out :
    (forall p q c' b', k = p ++ q -> q <> [] -> q ++ t ++ c :: b = t ++ c' :: b' -> ~ recognisable rows (a ++ p) t c' b') ->
    recognisable rows (a ++ k) t c b -> title_marked rows t (a ++ k ++ t ++ [c]) b l out ->
    title_marked rows t a (k ++ t ++ c :: b) (length (a ++ k) :: l) (k ++ repeat 95%N (length t) ++ c :: out).
(** the titles one after the other, each in the line the titles before it have left *)
Inductive titles_marked (rows : list (str * str)) : list str -> str -> list (nat * str) -> str -> Prop :=
| no_titles line : titles_marked rows [] line [] line
| more_titles t ts line l line1 hits line2 : title_marked rows t [] line l line1 -> titles_marked rows ts line1 hits line2 ->
    titles_marked rows (t :: ts) line (map (fun i => (i, t)) l ++ hits) line2.

Section One.
Variables (rows : list (str * str)) (t : str) (r : re).
Hypothesis Sound : forall a s o, run r false (here a s) = Some o -> exists c b, s = t ++ c :: b /\ recognisable rows a t c b /\ m_start o = length a /\ m_end o = length a + length t + 1.
Hypothesis Complete : forall a c b, recognisable rows a t c b -> run r false (here a (t ++ c :: b)) <> None.
Lemma iter_marked : forall n s a k, length s <= n -> (forall p q c b, k = p ++ q -> q <> [] -> q ++ s = t ++ c :: b -> ~ recognisable rows (a ++ p) t c b) ->
  exists out, title_marked rows t a (k ++ s) (map m_start (iter_at r (length (a ++ k)) (rev (a ++ k)) s 0)) out.
Proof.
  induction n as [|n IH]; intros s a k L K.
  - destruct s; [|cbn in L; lia]. cbn [iter_at]. change (mkst (length (a ++ k)) (rev (a ++ k)) []) with (here (a ++ k) []). destruct (run r false (here (a ++ k) [])) as [o|] eqn:E.
    { apply Sound in E as (c & b & E & _). destruct t; discriminate. }
    exists (k ++ []). apply no_title. intros p c q Ek Hr. rewrite app_nil_r in Ek. apply (K p (t ++ c :: q) c q); auto; [destruct t; discriminate|apply app_nil_r].
  - destruct s as [|x s]; [apply IH; auto; cbn; lia|]. cbn [iter_at]. change (mkst (length (a ++ k)) (rev (a ++ k)) (x :: s)) with (here (a ++ k) (x :: s)). destruct (run r false (here (a ++ k) (x :: s))) as [o|] eqn:E.
    + apply Sound in E as (c & b & Es & Hr & S1 & S2). rewrite S2. destruct (Nat.eqb_spec (length (a ++ k) + length t + 1) (length (a ++ k))) as [Q|_]; [lia|].
      assert (exists w, t ++ [c] = x :: w /\ s = w ++ b /\ length w = length t) as (w & Ew & -> & Lw).
      { destruct t as [|y t']; cbn [app] in *; injection Es as -> ->; [exists []; auto|]. exists (t' ++ [c]). split; auto. split; [now rewrite <- app_assoc|]. rewrite app_length. cbn. lia. }
      replace (length (a ++ k) + length t + 1 - length (a ++ k) - 1) with (length w) by lia. rewrite iter_skip.
      destruct (IH b (a ++ k ++ t ++ [c]) []) as (out & H).
      { cbn in L. rewrite app_length in L. lia. } { intros p q c' b' Ep. destruct p, q; try discriminate. congruence. }
      exists (k ++ repeat 95%N (length t) ++ c :: out). rewrite Es. cbn [map]. rewrite S1. apply one_title; auto.
      * intros p q c' b' Ek N Eq. apply (K p q c' b'); auto. now rewrite Es.
      * rewrite app_nil_r in H. cbn [app] in H. replace (S (length (a ++ k)) + length w) with (length (a ++ k ++ t ++ [c])) by (rewrite !app_length; cbn; lia).
        replace (rev w ++ x :: rev (a ++ k)) with (rev (a ++ k ++ t ++ [c])); auto. rewrite Ew, app_assoc, (rev_app_distr (a ++ k)). cbn [rev]. now rewrite <- app_assoc.
    + destruct (IH s a (k ++ [x])) as (out & H).
      { cbn in L. lia. }
      { intros p q c b Ek N Eq Hr. destruct (exists_last N) as (q' & z & ->). rewrite app_assoc in Ek. apply app_inj_tail in Ek as [-> ->]. destruct q' as [|y q'].
        - rewrite app_nil_r in *. cbn in Eq. rewrite Eq in E. exact (Complete _ _ _ Hr E).
        - apply (K p (y :: q') c b); auto; [discriminate|]. now rewrite <- app_assoc in Eq. }
      exists out. rewrite <- app_assoc in H. cbn [app] in H. replace (S (length (a ++ k))) with (length (a ++ k ++ [x])) by (rewrite !app_length; cbn; lia).
      replace (x :: rev (a ++ k)) with (rev (a ++ k ++ [x])) by (rewrite app_assoc, rev_app_distr; reflexivity). exact H.
Qed.
Lemma finditer_marked line : exists out, title_marked rows t [] line (map m_start (re_finditer r line)) out.
Proof. destruct (iter_marked (length line) line [] [] (le_n _)) as (out & H); [intros [|? ?] [|? ?]; try discriminate; congruence|]. exists out. exact H. Qed.
End One.

Lemma mask_all rows t a s l out : title_marked rows t a s l out -> forall A, length A = length a ->
  fold_left (fun ln i => mask i (i + length t) (length t) ln) l (A ++ s) = A ++ out.
Proof.
  induction 1 as [a s N|a k c b l out N Hr T IH]; intros A LA; auto. cbn [fold_left].
  assert (mask (length (a ++ k)) (length (a ++ k) + length t) (length t) (A ++ k ++ t ++ c :: b) = (A ++ k ++ repeat 95%N (length t) ++ [c]) ++ b) as ->.
  { unfold mask, underscores. rewrite app_length, <- LA, <- app_length. rewrite (app_assoc A k). rewrite firstn_app, firstn_all, Nat.sub_diag, firstn_O, app_nil_r.
    rewrite skipn_app. rewrite (skipn_all2 (A ++ k)) by lia. replace (length (A ++ k) + length t - length (A ++ k)) with (length t) by lia. rewrite skipn_app, skipn_all, Nat.sub_diag. cbn [app skipn]. now rewrite <- !app_assoc. }
  rewrite IH; [now rewrite <- !app_assoc|]. rewrite !app_length, repeat_length. cbn. lia.
Qed.
Lemma hits_fold t os : forall s, let s' := fold_left (journal_hit t) os s in
  j_line s' = fold_left (fun ln i => mask i (i + length t) (length t) ln) (map m_start os) (j_line s)
  /\ j_matches s' = fold_left (fun m i => iput i t m) (map m_start os) (j_matches s).
Proof. induction os as [|o os IH]; intros s; cbn; auto. apply (IH (journal_hit t s o)). Qed.
Lemma pattern_sound rows t r : In t (jk_keys (build_journals_kb rows)) -> assoc_str t (jk_search (build_journals_kb rows)) = Some r ->
  forall a s o, run r false (here a s) = Some o -> exists c b, s = t ++ c :: b /\ recognisable rows a t c b /\ m_start o = length a /\ m_end o = length a + length t + 1.
Proof.
  intros K E a s o R. destruct (title_pattern rows t K) as (r' & E' & _ & P & Sh). rewrite E in E'. injection E' as <-.
  apply (run_sound (a ++ s)) in R; [|apply at_here]. destruct R as (x' & M & A' & S1 & S2 & _). cbn [here pos] in *.
  destruct Sh as [(S & ->)|(S & I & ->)].
  - apply seek_match in M as (c & b & -> & W & St & -> & _). exists c, b. split; auto. split; [left; split; auto; split; auto|].
    + unfold starts_word in St. unfold hd_is_word. destruct (rev a); auto.
    + split; [now rewrite S1|]. rewrite S2. cbn [here pos]. rewrite !app_length. cbn. lia.
  - apply repl_match in M as (c & b & -> & W & B & N & -> & _). exists c, b. split; auto. split; [right; split; auto; split; auto; split; [|split]|].
    + unfold upper_or_digit in W. intros U. destruct (N.leb_spec 65 c), (N.leb_spec c 90), (N.leb_spec 48 c), (N.leb_spec c 57); cbn in W; try discriminate; lia.
    + unfold boundary in B. intros Q. rewrite Q, xorb_nilpotent in B. discriminate.
    + intros a' ->. unfold no_slash in N. rewrite rev_app_distr in N. now apply N.
    + split; [now rewrite S1|]. rewrite S2. cbn [here pos]. rewrite !app_length. cbn. lia.
Qed.
Lemma pattern_complete rows t r : In t (jk_keys (build_journals_kb rows)) -> assoc_str t (jk_search (build_journals_kb rows)) = Some r ->
  forall a c b, recognisable rows a t c b -> run r false (here a (t ++ c :: b)) <> None.
Proof.
  intros K E a c b R. destruct (title_pattern rows t K) as (r' & E' & _ & P & _). rewrite E in E'. injection E' as <-.
  destruct (recognisable_mt rows a t c b r R K E) as (x' & g' & M). apply (run_complete (a ++ t ++ c :: b) r _ x' g'); auto. apply at_here.
Qed.
Lemma journals_marked rows titles : (forall t, In t titles -> In t (jk_keys (build_journals_kb rows))) -> forall s, exists s' hits,
  identify_journals_from (jk_search (build_journals_kb rows)) titles s = Ok s' /\ titles_marked rows titles (j_line s) hits (j_line s')
  /\ j_matches s' = fold_left (fun m e => iput (fst e) (snd e) m) hits (j_matches s).
Proof.
  induction titles as [|t titles IH]; intros K s; cbn [identify_journals_from].
  - exists s, []. split; auto. split; auto. constructor.
  - pose proof (K t (or_introl eq_refl)) as Kt. destruct (title_pattern rows t Kt) as (r & E & _). rewrite E.
    destruct (finditer_marked rows t r (pattern_sound rows t r Kt E) (pattern_complete rows t r Kt E) (j_line s)) as (out & T).
    destruct (hits_fold t (re_finditer r (j_line s)) s) as [HL HM]. pose proof (mask_all _ _ _ _ _ _ T [] eq_refl) as ML. cbn [app] in ML.
    destruct (IH ltac:(intros u I; apply K; now right) (fold_left (journal_hit t) (re_finditer r (j_line s)) s)) as (s' & hits & E' & T' & M').
    exists s', (map (fun i => (i, t)) (map m_start (re_finditer r (j_line s))) ++ hits). split; auto. split.
    + apply more_titles with (line1 := out); auto. now rewrite HL, ML in T'.
    + rewrite M', HM, fold_left_app. f_equal. generalize (map m_start (re_finditer r (j_line s))). intros l. generalize (j_matches s). induction l as [|i l IHl]; intros m; cbn; auto.
Qed.
(** ** The places are distinct *)
Definition clean_title (t : str) : Prop := t <> [] /\ ~ In 95%N t.
Lemma marked_places rows t a s l out : clean_title t -> title_marked rows t a s l out -> length out = length s
  /\ (forall q, nth_error s q = Some 95%N -> nth_error out q = Some 95%N)
  /\ (forall i, In i l -> length a <= i /\ nth_error s (i - length a) <> Some 95%N /\ nth_error out (i - length a) = Some 95%N) /\ NoDup l.
Proof.
  intros (Ne & Nu). induction 1 as [a s N|a k c b l out N Hr T (IL & IU & II & IN)]; unfold str, ch in *.
  - split; auto. split; auto. split; [intros i []|constructor].
  - split; [rewrite !app_length, repeat_length; cbn; lia|]. split; [|split].
    + intros q Hq. destruct (lt_dec q (length k)) as [Lt|Ge]; [rewrite nth_error_app1 in * by lia; auto|]. rewrite nth_error_app2 in * by lia.
      destruct (lt_dec (q - length k) (length t)) as [Lt|Ge2].
      * rewrite nth_error_app1 by (rewrite repeat_length; lia). now apply nth_error_repeat.
      * rewrite nth_error_app2 in * by (rewrite ?repeat_length; lia). rewrite repeat_length. destruct (q - length k - length t) as [|q']; cbn in *; auto.
    + intros i [<-|I].
      * rewrite app_length. replace (length a + length k - length a) with (length k) by lia. split; [lia|]. split.
        -- rewrite nth_error_app2, Nat.sub_diag by lia. destruct t as [|x t']; [congruence|]. cbn. intros Q. injection Q as ->. apply Nu. now left.
        -- rewrite nth_error_app2, Nat.sub_diag by lia. destruct t as [|x t']; [congruence|]. reflexivity.
      * destruct (II i I) as (L1 & N1 & N2). rewrite !app_length in *. cbn [length] in *. split; [lia|].
        replace (i - length a) with (length k + (length t + S (i - (length a + (length k + (length t + 1)))))) by lia. split.
        -- rewrite nth_error_app2 by lia. replace (length k + (length t + S (i - (length a + (length k + (length t + 1))))) - length k) with (length t + S (i - (length a + (length k + (length t + 1))))) by lia.
           rewrite nth_error_app2 by lia. replace (length t + S (i - (length a + (length k + (length t + 1)))) - length t) with (S (i - (length a + (length k + (length t + 1))))) by lia. exact N1.
        -- rewrite nth_error_app2 by lia. replace (length k + (length t + S (i - (length a + (length k + (length t + 1))))) - length k) with (length t + S (i - (length a + (length k + (length t + 1))))) by lia.
           rewrite nth_error_app2; rewrite repeat_length; [|lia]. replace (length t + S (i - (length a + (length k + (length t + 1)))) - length t) with (S (i - (length a + (length k + (length t + 1))))) by lia. exact N2.
    + constructor; auto. intros I. destruct (II _ I) as (L1 & _). rewrite !app_length in L1. cbn in L1. lia.
Qed.
Lemma nodup_two {A} (l1 l2 : list A) : NoDup l1 -> NoDup l2 -> (forall x, In x l1 -> In x l2 -> False) -> NoDup (l1 ++ l2).
Proof.
  induction l1 as [|x l1 IH]; cbn; intros D1 D2 N; auto. inversion D1; subst. constructor; [|apply IH; auto; intros y I J; apply (N y); auto].
  intros I. apply in_app_or in I as [I|I]; [contradiction|]. apply (N x); auto.
Qed.
Lemma titles_places rows ts line hits out : Forall clean_title ts -> titles_marked rows ts line hits out ->
  (forall q, nth_error line q = Some 95%N -> nth_error out q = Some 95%N)
  /\ (forall i t, In (i, t) hits -> nth_error line i <> Some 95%N) /\ NoDup (map fst hits).
Proof.
  intros C H. induction H as [line|t ts line l line1 hits line2 T Ts IH].
  - split; auto. split; [intros i t []|constructor].
  - inversion C as [|? ? Ct Cs]; subst. destruct (IH Cs) as (U & P & D). destruct (marked_places _ _ _ _ _ _ Ct T) as (_ & U1 & P1 & D1). cbn [length] in P1. split; [auto|]. split.
    + intros i u I. apply in_app_or in I as [I|I].
      * apply in_map_iff in I as (j & E & I). injection E as -> ->. destruct (P1 i I) as (_ & N & _). now rewrite Nat.sub_0_r in N.
      * intros Q. now apply (P i u I), U1.
    + rewrite map_app, map_map. cbn [fst]. rewrite map_id. apply nodup_two; [exact D1|exact D|]. intros i I J. apply in_map_iff in J as ((j & u) & E & J). cbn in E. subst j.
      apply (P i u J). destruct (P1 i I) as (_ & _ & N). now rewrite Nat.sub_0_r in N.
Qed.
Lemma put_all_in {A} (hits : list (nat * A)) : NoDup (map fst hits) -> forall m i v, iget i (fold_left (fun m e => iput (fst e) (snd e) m) hits m) = Some v <-> In (i, v) hits \/ ~ In i (map fst hits) /\ iget i m = Some v.
Proof.
  induction hits as [|(j & u) hits IH]; intros D m i v; cbn [fold_left map fst snd].
  - split; [intros H; right; auto|intros [[]|[_ H]]; auto].
  - inversion D as [|? ? D1 D2]; subst. rewrite (IH D2), iget_iput. split.
    + intros [I|(N & H)]; [left; now right|]. destruct (Nat.eqb_spec i j) as [->|Ne]; [left; left; congruence|]. right. split; auto. intros [<-|I]; auto.
    + intros [[E|I]|(N & H)]; auto.
      * injection E as -> ->. right. split; auto. now rewrite Nat.eqb_refl.
      * right. split; [intros I; apply N; now right|]. destruct (Nat.eqb_spec i j) as [->|Ne]; auto. exfalso. apply N. now left.
Qed.
Lemma journals_exact rows line : (forall t, In t (jk_keys (build_journals_kb rows)) -> t <> [] /\ ~ In 95%N t) -> exists s hits,
  identify_journals line (build_journals_kb rows) = Ok s /\ titles_marked rows (jk_keys (build_journals_kb rows)) line hits (j_line s)
  /\ forall i t, iget i (j_matches s) = Some t <-> In (i, t) hits.
Proof.
  intros C. destruct (journals_marked rows (jk_keys (build_journals_kb rows)) (fun t I => I) (mkjst [] line [])) as (s & hits & E & T & M). exists s, hits. split; [exact E|]. split; [exact T|].
  intros i t. cbn [j_matches] in M. rewrite M. assert (Forall clean_title (jk_keys (build_journals_kb rows))) as F by (apply Forall_forall; exact C).
  destruct (titles_places _ _ _ _ _ F T) as (_ & _ & D). rewrite (put_all_in hits D). split; [intros [I|(_ & H)]; auto; discriminate|auto].
Qed.
(** ** There is one result *)
Lemma title_one rows t a s l1 o1 : title_marked rows t a s l1 o1 -> forall l2 o2, title_marked rows t a s l2 o2 -> l1 = l2 /\ o1 = o2.
Proof.
  induction 1 as [a s N|a k c b l out N Hr T IH]; intros l2 o2 H2.
  - inversion H2 as [? ? N2|? k c b l out N2 Hr T E1 E2]; subst; auto. exfalso. exact (N k c b eq_refl Hr).
  - inversion H2 as [? ? N2 E1 E2|? k' c' b' l' out' N' Hr' T' E1 E2]; subst; [exfalso; exact (N2 k c b eq_refl Hr)|].
    assert (k = k') as <-.
    { destruct (lt_eq_lt_dec (length k) (length k')) as [[Lt|Eq]|Gt].
      - exfalso. assert (exists q, k' = k ++ q /\ q <> [] /\ t ++ c :: b = q ++ t ++ c' :: b') as (q & -> & Nq & Eq).
        { exists (skipn (length k) k'). assert (k' = k ++ skipn (length k) k') as Q.
          { apply (f_equal (firstn (length k))) in E2. rewrite !firstn_app, Nat.sub_diag, firstn_O, app_nil_r, firstn_all in E2. replace (length k - length k') with 0 in E2 by (unfold str, ch in *; lia). rewrite firstn_O, app_nil_r in E2. rewrite <- E2 at 1. symmetry. apply firstn_skipn. }
          split; auto. split. { intros Z. rewrite Z, app_nil_r in Q. subst k'. lia. } rewrite Q in E2. rewrite <- app_assoc in E2. now apply app_inv_head in E2. }
        exact (N' k q c b eq_refl Nq (eq_sym Eq) Hr).
      - apply (f_equal (firstn (length k))) in E2. rewrite !firstn_app, Eq, !Nat.sub_diag, !firstn_O, !app_nil_r in E2. rewrite firstn_all in E2. rewrite <- Eq, firstn_all in E2. auto.
      - exfalso. assert (exists q, k = k' ++ q /\ q <> [] /\ t ++ c' :: b' = q ++ t ++ c :: b) as (q & -> & Nq & Eq).
        { exists (skipn (length k') k). assert (k = k' ++ skipn (length k') k) as Q.
          { apply (f_equal (firstn (length k'))) in E2. rewrite !firstn_app, Nat.sub_diag, firstn_O, app_nil_r, firstn_all in E2. replace (length k' - length k) with 0 in E2 by (unfold str, ch in *; lia). rewrite firstn_O, app_nil_r in E2. rewrite E2 at 1. symmetry. apply firstn_skipn. }
          split; auto. split. { intros Z. rewrite Z, app_nil_r in Q. subst k. lia. } rewrite Q in E2. rewrite <- app_assoc in E2. now apply app_inv_head in E2. }
        exact (N k' q c' b' eq_refl Nq (eq_sym Eq) Hr'). }
    apply app_inv_head, app_inv_head in E2. injection E2 as -> ->. destruct (IH _ _ T') as [-> ->]. auto.
Qed.
Lemma titles_one rows ts line h1 o1 h2 o2 : titles_marked rows ts line h1 o1 -> titles_marked rows ts line h2 o2 -> h1 = h2 /\ o1 = o2.
Proof.
  intros H. revert h2 o2. induction H as [line|t ts line l line1 hits line2 T Ts IH]; intros h2 o2 H2; inversion H2 as [|? ? ? l' line1' hits' line2' T' Ts']; subst; auto.
  destruct (title_one _ _ _ _ _ _ T _ _ T') as [-> ->]. destruct (IH _ _ Ts') as [-> ->]. auto.
Qed.
