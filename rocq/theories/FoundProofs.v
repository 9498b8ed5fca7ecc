(** What finditer finds, exactly; the words of a line. *)
From Coq Require Import List Arith NArith Bool String Lia.
From Verif Require Import PyStr ListFacts Regex RegexParse RegexMeta RegexLang Patterns DocText CaptureLang.
Import ListNotations.
Local Notation length := List.length.
Local Notation concat := List.concat.
Local Open Scope nat_scope.

(** the objects found in s, from the left to the right: [R a w b o] holds of each text found, the texts before and behind it
    and the object; in what is passed over there begins no text with [P] *)
Inductive found (P : str -> str -> str -> Prop) (R : str -> str -> str -> mobj -> Prop) : str -> str -> list mobj -> Prop :=
| found_end a s : (forall p w q, s = p ++ w ++ q -> ~ P (a ++ p) w q) -> found P R a s []
| found_step a k w b o t : (forall p q w' b', k = p ++ q -> q <> [] -> q ++ w ++ b = w' ++ b' -> ~ P (a ++ p) w' b') ->
    R (a ++ k) w b o -> found P R (a ++ k ++ w) b t -> found P R a (k ++ w ++ b) (o :: t).
Lemma finditer_found r (P : str -> str -> str -> Prop) (R : str -> str -> str -> mobj -> Prop) whole : fair r = true -> 1 <= minlen r ->
  (forall a w b, P a w b -> exists c, rd r a w b c) ->
  (forall a w b o, whole = a ++ w ++ b -> run r false (here a (w ++ b)) = Some o -> m_start o = length a -> m_end o = length a + length w -> R a w b o) ->
  found P R [] whole (re_finditer r whole).
Proof.
  intros F Mn HP HR.
  enough (forall n s k a, length s <= n -> whole = a ++ k ++ s -> (forall p q, k = p ++ q -> q <> [] -> run r false (here (a ++ p) (q ++ s)) = None) ->
    found P R a (k ++ s) (iter_at r (length (a ++ k)) (rev (a ++ k)) s 0)) as H.
  { apply (H (length whole) whole [] []); auto. intros p q E N. destruct p; [cbn in E; congruence|discriminate]. }
  assert (forall a, run r false (here a []) = None) as Z.
  { intros a. destruct (run r false (here a [])) as [o|] eqn:E; auto. apply run_rd in E as (w & b & c & E & Rd & _); auto. apply rd_min in Rd; auto. destruct w; [cbn in Rd; lia|discriminate]. }
  induction n as [|n IH]; intros s k a L W K.
  - destruct s; [|cbn in L; lia]. cbn [iter_at]. change (mkst (length (a ++ k)) (rev (a ++ k)) []) with (here (a ++ k) []). rewrite Z. apply found_end.
    intros p w q E Hp. rewrite app_nil_r in E. apply HP in Hp as (c & Hp). destruct (w ++ q) as [|x y] eqn:Ewq.
    + apply app_eq_nil in Ewq as (-> & ->). apply rd_min in Hp; auto. cbn in Hp. lia.
    + revert Hp. apply run_not; auto. specialize (K p (x :: y) E ltac:(discriminate)). rewrite app_nil_r in K. now rewrite Ewq.
  - destruct s as [|c t]; [apply (IH [] k a); auto; cbn; lia|]. cbn [iter_at]. change (mkst (length (a ++ k)) (rev (a ++ k)) (c :: t)) with (here (a ++ k) (c :: t)). destruct (run r false (here (a ++ k) (c :: t))) as [o|] eqn:E.
    + pose proof E as E0. apply run_rd in E0 as (w & b & cs & Ew & Rd & S1 & S2 & _); auto. pose proof (rd_min _ _ _ _ _ F Rd) as Lw. rewrite S2. destruct (Nat.eqb_spec (length (a ++ k) + length w) (length (a ++ k))) as [Q|_]; [lia|].
      destruct w as [|x w]; [cbn in Lw; lia|]. cbn [app] in Ew. injection Ew as <- ->. cbn [length]. replace (length (a ++ k) + S (length w) - length (a ++ k) - 1) with (length w) by lia. rewrite iter_skip.
      change (k ++ c :: w ++ b) with (k ++ (c :: w) ++ b). constructor.
      * intros p q w' b' Ek N Eq Hp. apply HP in Hp as (c' & Hp). revert Hp. apply run_not; auto. rewrite <- Eq. apply K; auto.
      * apply HR; auto. rewrite W. now rewrite <- app_assoc.
      * replace (S (length (a ++ k)) + length w) with (length ((a ++ k ++ c :: w) ++ [])) by (rewrite !app_length; cbn; lia).
        replace (rev w ++ c :: rev (a ++ k)) with (rev ((a ++ k ++ c :: w) ++ [])) by (rewrite app_nil_r, !rev_app_distr; cbn; now rewrite <- !app_assoc).
        apply (IH b [] (a ++ k ++ c :: w)); [cbn in L; rewrite app_length in L; lia|rewrite W; cbn [app]; now rewrite <- !app_assoc|]. intros p q Ep N. destruct p; [cbn in Ep; congruence|discriminate].
    + replace (S (length (a ++ k))) with (length (a ++ k ++ [c])) by (rewrite !app_length; cbn; lia). replace (c :: rev (a ++ k)) with (rev (a ++ k ++ [c])) by (rewrite !rev_app_distr; reflexivity).
      replace (k ++ c :: t) with ((k ++ [c]) ++ t) by (now rewrite <- app_assoc). apply IH; [cbn in L; lia|rewrite W; now rewrite <- app_assoc|].
      intros p q Ep N. destruct (rev q) as [|x q'] eqn:Eq; [exfalso; apply N; rewrite <- (rev_involutive q), Eq; reflexivity|]. assert (q = rev q' ++ [x]) as -> by (rewrite <- (rev_involutive q), Eq; reflexivity).
      rewrite app_assoc in Ep. apply app_inj_tail in Ep as (Ek & <-). rewrite <- app_assoc. cbn [app]. destruct (rev q') as [|y z] eqn:Eq'; [rewrite app_nil_r in Ek; subst p; exact E|]. apply K; [exact Ek|discriminate].
Qed.

(** ** The words of a line *)
(** ws are the maximal runs of characters with p in a text *)
Inductive runs_of (p : ch -> bool) : str -> list str -> Prop :=
| ro_nil : runs_of p [] []
| ro_gap c l ws : p c = false -> runs_of p l ws -> runs_of p (c :: l) ws
| ro_word w l ws : w <> [] -> forallb p w = true -> (forall c t, l = c :: t -> p c = false) -> runs_of p l ws -> runs_of p (w ++ l) (w :: ws).
(** ASCII letters, digits and hyphens *)
Definition word_char (c : ch) : bool :=
  ((65 <=? c) && (c <=? 90) || (97 <=? c) && (c <=? 122) || (48 <=? c) && (c <=? 57) || (c =? 45))%N.
Definition word_run : cls := mkcls false false [CRange 65 90; CRange 97 122; CRange 48 57; CRange 45 45].
Lemma word_run_mem c : cls_mem word_run c = word_char c.
Proof.
  unfold cls_mem, word_run, word_char. cbn -[N.leb N.eqb in_range]. unfold in_range. rewrite orb_false_r, <- !orb_assoc.
  assert (((45 <=? c) && (c <=? 45))%N = (c =? 45)%N) as ->.
  { destruct (N.eqb_spec c 45) as [->|N]; [reflexivity|]. apply andb_false_iff. destruct (N.le_gt_cases c 45); [left|right]; apply N.leb_gt; lia. }
  match goal with |- (if ?b then true else false) = _ => now destruct b end.
Qed.
Lemma word_run_all w : forallb (cls_mem word_run) w = forallb word_char w.
Proof. induction w as [|c w IH]; cbn [forallb]; rewrite ?word_run_mem, ?IH; auto. Qed.
Lemma word_search_form : rx_re re_word_search = Grp 1 (Rep true 1 None (Cls word_run)). Proof. reflexivity. Qed.
Lemma words_found l : found (fun _ w _ => w <> [] /\ forallb word_char w = true)
  (fun a w b o => w <> [] /\ forallb word_char w = true /\ (forall c t, b = c :: t -> word_char c = false) /\ slice (m_start o) (m_end o) l = w)
  [] l (re_finditer (rx_re re_word_search) l).
Proof.
  rewrite word_search_form. apply finditer_found; [reflexivity|cbn; lia| |].
  - intros a w b (N & W). exists [(1, w)]. apply rd_grp. exists []. split; auto. apply rd_rep_cls. rewrite word_run_all. repeat split; auto. destruct w; [congruence|cbn; lia].
  - intros a w b o E H S1 S2. apply run_m in H as (z & g & H & Ho). rewrite m_group in H. apply peel_most in H; [|discriminate].
    destruct H as (w' & b' & Ew & A & Lm & _ & Mx & Ac). rewrite word_run_all in A. cbn in Ac. injection Ac as <- <-. rewrite Ho in S2. cbn [m_end pos here] in S2. rewrite app_length in S2.
    assert (length w' = length w) as Lw by lia.
    assert (w' = w) as ->. { apply (f_equal (firstn (length w))) in Ew. rewrite firstn_app, firstn_all, Nat.sub_diag, app_nil_r in Ew. rewrite <- Lw in Ew. now rewrite firstn_app, firstn_all, Nat.sub_diag, app_nil_r in Ew. }
    apply app_inv_head in Ew as ->. split; [intros ->; cbn in Lm; lia|]. split; auto. split.
    + intros c t ->. destruct Mx as [Q|Q]; [discriminate|]. now rewrite word_run_mem in Q.
    + rewrite S1, E, Ho. cbn [m_end pos here]. rewrite app_length. apply slice_mid.
Qed.
Lemma gap_runs p k l ws : forallb (fun c => negb (p c)) k = true -> runs_of p l ws -> runs_of p (k ++ l) ws.
Proof. induction k as [|c k IH]; cbn [app forallb]; auto. intros H R. apply andb_true_iff in H as [H1 H2]. apply negb_true_iff in H1. constructor; auto. Qed.
(** the words are the maximal runs of letters, digits and hyphens *)
Lemma words_exact l : runs_of word_char l (words l).
Proof.
  unfold words, re_findall. pose proof (words_found l) as H. revert H. generalize (re_finditer (rx_re re_word_search) l). set (f := fun o => slice (m_start o) (m_end o) l).
  intros os. change (found (fun _ w _ => w <> [] /\ forallb word_char w = true)
    (fun a w b o => w <> [] /\ forallb word_char w = true /\ (forall c t, b = c :: t -> word_char c = false) /\ f o = w) [] l os -> runs_of word_char l (map f os)).
  clearbody f. intros H. induction H as [a s H|a k w b o t H (N & W & B & Ho) F IH]; cbn [map].
  - rewrite <- (app_nil_r s). apply gap_runs; [|constructor]. apply forallb_forall. intros c I. apply in_split in I as (u & v & ->).
    destruct (word_char c) eqn:C; auto. exfalso. apply (H u [c] v); auto. split; [discriminate|]. cbn. now rewrite C.
  - rewrite Ho. apply gap_runs; [|constructor; auto]. apply forallb_forall. intros c I. apply in_split in I as (u & v & ->).
    destruct (word_char c) eqn:C; auto. exfalso. apply (H u (c :: v) [c] (v ++ w ++ b)); auto; [discriminate|]. split; [discriminate|]. cbn. now rewrite C.
Qed.
