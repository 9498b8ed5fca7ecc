(** Proofs about the spans recognised in a line (C20, C21). *)
From Coq Require Import List Arith NArith Bool String Lia Sorting.Sorted.
From Verif Require Import PyStr ListFacts Regex RegexParse Patterns RegexMeta RegexLang RegexWords Numeration DocText Tag Kbs KbProofs WashProofs SpaceProofs StripProofs.
Import ListNotations.
Local Open Scope nat_scope.
Local Notation length := List.length.
Local Notation concat := List.concat.

(** ** Spans and masked lines *)
(** position [p] lies in one of the spans *)
Definition inside {A} (len : A -> nat) (m : imap A) (p : nat) : bool :=
  existsb (fun e => (fst e <=? p) && (p <? fst e + len (snd e))) m.
(** The spans are not empty, within the line, ordered and disjoint; the new line has underscores on
    them and the old characters elsewhere. *)
Record marked {A} (len : A -> nat) (line : str) (m : imap A) (line' : str) : Prop := mk_marked {
  mk_length : length line' = length line;
  mk_within : forall i v, In (i, v) m -> 1 <= len v /\ i + len v <= length line;
  mk_keys : NoDup (map fst m);
  mk_disjoint : forall i v j w, In (i, v) m -> In (j, w) m -> i < j -> i + len v <= j;
  mk_chars : forall p c, nth_error line p = Some c -> nth_error line' p = Some (if inside len m p then 95%N else c) }.

Lemma inside_spec {A} (len : A -> nat) m p : inside len m p = true <-> exists i v, In (i, v) m /\ i <= p /\ p < i + len v.
Proof.
  unfold inside. rewrite existsb_exists. split.
  - intros ((i & v) & I & H). cbn in H. apply andb_true_iff in H as [H1 H2]. apply Nat.leb_le in H1. apply Nat.ltb_lt in H2. eauto.
  - intros (i & v & I & H1 & H2). exists (i, v). split; auto. cbn [fst snd]. apply andb_true_iff. now rewrite Nat.leb_le, Nat.ltb_lt.
Qed.
Lemma inside_none {A} (len : A -> nat) m p : inside len m p = false <-> forall i v, In (i, v) m -> ~ (i <= p /\ p < i + len v).
Proof.
  rewrite <- not_true_iff_false, inside_spec. split.
  - intros H i v I (? & ?). apply H. eauto.
  - intros H (i & v & I & ? & ?). now apply (H i v).
Qed.
Lemma iput_in {A} k (v : A) m e : ~ In k (map fst m) -> In e (iput k v m) <-> e = (k, v) \/ In e m.
Proof.
  induction m as [|(k', v') t IH]; cbn [iput map fst]; intros N; [cbn; intuition|].
  destruct (Nat.eqb_spec k k') as [->|D]; [exfalso; apply N; now left|]. destruct (k <? k'); cbn [In]; [intuition|].
  rewrite IH by (intros I; apply N; now right). intuition.
Qed.
Lemma iput_nodup {A} k (v : A) m : ~ In k (map fst m) -> NoDup (map fst m) -> NoDup (map fst (iput k v m)).
Proof.
  induction m as [|(k', v') t IH]; cbn [iput map fst]; intros N D; [repeat constructor; auto|].
  destruct (Nat.eqb_spec k k') as [->|E]; [exfalso; apply N; now left|]. destruct (k <? k'); cbn [map fst]; [constructor; auto|].
  inversion D; subst. constructor; [|apply IH; auto; intros I; apply N; now right].
  intros I. apply in_map_iff in I as ((a & b) & E1 & I). cbn in E1. subst a. apply iput_in in I as [I|I]; [injection I as -> _; auto| |intros J; apply N; now right].
  apply H1. apply in_map_iff. now exists (k', b).
Qed.
Lemma nth_mask a b line p : a <= b -> b <= length line ->
  nth_error (mask a b (b - a) line) p = if (a <=? p) && (p <? b) then Some 95%N else nth_error line p.
Proof.
  intros L1 L2. unfold mask, underscores. assert (length (firstn a line) = a) as La by (rewrite firstn_length; lia).
  destruct (Nat.leb_spec a p) as [H|H]; cbn [andb].
  - rewrite nth_error_app2 by lia. rewrite La. destruct (Nat.ltb_spec p b) as [G|G].
    + rewrite nth_error_app1 by (rewrite repeat_length; lia). apply nth_error_repeat. lia.
    + rewrite nth_error_app2 by (rewrite repeat_length; lia). rewrite repeat_length.
      replace (p - a - (b - a)) with (p - b) by lia. rewrite <- (firstn_skipn b line) at 2. rewrite nth_error_app2 by (rewrite firstn_length; lia).
      f_equal. rewrite firstn_length. lia.
  - rewrite nth_error_app1 by lia. rewrite <- (firstn_skipn a line) at 2. now rewrite nth_error_app1 by lia.
Qed.
Lemma mask_length a b line : a <= b -> b <= length line -> length (mask a b (b - a) line) = length line.
Proof. intros. unfold mask, underscores. rewrite !app_length, firstn_length, repeat_length, skipn_length. lia. Qed.
Lemma nth_some {A} (l : list A) p : p < length l -> exists c, nth_error l p = Some c.
Proof. intros H. destruct (nth_error l p) eqn:E; eauto. apply nth_error_None in E. lia. Qed.
Lemma nth_skip {A} (l : list A) a k : nth_error (skipn a l) k = nth_error l (a + k).
Proof. revert l. induction a as [|a IH]; intros l; auto. destruct l; cbn; [now destruct k|apply IH]. Qed.
Lemma nth_first {A} (l : list A) n k : nth_error (firstn n l) k = if k <? n then nth_error l k else None.
Proof.
  revert l k. induction n as [|n IH]; intros l k; [now destruct k|]. destruct l as [|x l]; [cbn [firstn]; destruct k; now destruct (_ <? _)|].
  destruct k as [|k]; auto. cbn [firstn nth_error]. rewrite IH. reflexivity.
Qed.
Lemma nth_slice (l : str) a b k : nth_error (slice a b l) k = if k <? b - a then nth_error l (a + k) else None.
Proof. unfold slice. now rewrite nth_first, nth_skip. Qed.
Lemma nth_same {A} (l l' : list A) : (forall k, nth_error l k = nth_error l' k) -> l = l'.
Proof.
  revert l'. induction l as [|x l IH]; intros [|y l'] H; auto; [specialize (H 0); discriminate|specialize (H 0); discriminate|].
  pose proof (H 0) as H0. cbn in H0. injection H0 as ->. f_equal. apply IH. intros k. apply (H (S k)).
Qed.
Lemma slice_mid (a w b : str) : slice (length a) (length a + length w) (a ++ w ++ b) = w.
Proof.
  unfold slice. rewrite skipn_app, skipn_all, Nat.sub_diag. cbn [skipn app]. replace (length a + length w - length a) with (length w) by lia.
  now rewrite firstn_app, firstn_all, Nat.sub_diag, firstn_O, app_nil_r.
Qed.

Section Mark.
Context {A : Type} (len : A -> nat).
Lemma marked_start line : marked len line [] line.
Proof. split; auto; try (intros; contradiction); try constructor. Qed.
Lemma marked_step line m cur a v : marked len line m cur -> 1 <= len v -> a + len v <= length line ->
  (forall p, a <= p < a + len v -> inside len m p = false) -> marked len line (iput a v m) (mask a (a + len v) (len v) cur).
Proof.
  intros [L W K D C] L1 L2 F. assert (~ In a (map fst m)) as Fresh.
  { intros I. apply in_map_iff in I as ((i & w) & E & I). cbn in E. subst i. destruct (W _ _ I). specialize (F a). rewrite inside_none in F. apply (F ltac:(lia) _ _ I). lia. }
  assert (mask a (a + len v) (len v) cur = mask a (a + len v) (a + len v - a) cur) as -> by (f_equal; lia).
  split.
  - rewrite mask_length; lia.
  - intros i w I. apply iput_in in I as [I|I]; auto. injection I as -> ->. lia.
  - now apply iput_nodup.
  - intros i w j x I J O. apply iput_in in I; auto. apply iput_in in J; auto. destruct I as [I|I], J as [J|J]; eauto.
    + injection I as -> ->. injection J as -> ->. lia.
    + injection I as -> ->. destruct (le_lt_dec (a + len v) j); auto. destruct (W _ _ J). specialize (F j ltac:(lia)). rewrite inside_none in F. exfalso. apply (F _ _ J). lia.
    + injection J as -> ->. destruct (le_lt_dec (i + len w) a); auto. specialize (F a ltac:(lia)). rewrite inside_none in F. exfalso. apply (F _ _ I). lia.
  - intros p c E. rewrite nth_mask by lia. destruct ((a <=? p) && (p <? a + len v)) eqn:B.
    + apply andb_true_iff in B as [B1 B2]. apply Nat.leb_le in B1. apply Nat.ltb_lt in B2. replace (inside len (iput a v m) p) with true; auto.
      symmetry. apply inside_spec. exists a, v. split; [apply iput_in; auto|lia].
    + rewrite (C _ _ E). replace (inside len (iput a v m) p) with (inside len m p); auto. apply eq_true_iff_eq. rewrite !inside_spec.
      split; intros (i & w & I & Q); exists i, w; (split; [|auto]); [apply iput_in; auto|]. apply iput_in in I as [I|I]; auto. injection I as -> ->.
      exfalso. apply andb_false_iff in B as [B|B]; [apply Nat.leb_gt in B|apply Nat.ltb_ge in B]; lia.
Qed.
(** text without underscores read in the masked line lies outside the spans and is text of the line *)
Lemma marked_text line m cur a w : marked len line m cur -> slice a (a + length w) cur = w -> a + length w <= length line -> ~ In 95%N w ->
  slice a (a + length w) line = w /\ forall p, a <= p < a + length w -> inside len m p = false.
Proof.
  intros [L W K D C] E Le N.
  assert (forall p, a <= p < a + length w -> nth_error cur p = nth_error w (p - a)) as Q.
  { intros p Hp. rewrite <- E at 1. rewrite nth_slice. replace (a + (p - a)) with p by lia. now destruct (Nat.ltb_spec (p - a) (a + length w - a)); [|lia]. }
  assert (forall p, a <= p < a + length w -> inside len m p = false) as F.
  { intros p Hp. destruct (inside len m p) eqn:I; auto. destruct (nth_some line p ltac:(lia)) as (c & E2). apply C in E2. rewrite I, Q in E2 by lia.
    apply nth_error_In in E2. contradiction. }
  split; auto. rewrite <- E at 2. apply nth_same. intros k. rewrite !nth_slice. destruct (Nat.ltb_spec k (a + length w - a)) as [H|H]; auto.
  destruct (nth_some line (a + k) ltac:(lia)) as (c & E2). rewrite E2. apply C in E2. rewrite F in E2 by lia. auto.
Qed.
(** a row of new spans *)
Fixpoint row (p : nat) (es : list (nat * A)) (q : nat) : Prop :=
  match es with [] => p <= q | (a, v) :: t => p <= a /\ 1 <= len v /\ row (a + len v) t q end.
Definition put_all (es : list (nat * A)) (m : imap A) : imap A := fold_left (fun m e => iput (fst e) (snd e) m) es m.
Definition mask_all (es : list (nat * A)) (cur : str) : str := fold_left (fun l e => mask (fst e) (fst e + len (snd e)) (len (snd e)) l) es cur.
Lemma row_le es : forall p q, row p es q -> p <= q.
Proof. induction es as [|(a, v) t IH]; cbn; intros p q R; auto. destruct R as (R1 & R2 & R3). apply IH in R3. lia. Qed.
Lemma row_in es a v : forall p q, row p es q -> In (a, v) es -> p <= a /\ a + len v <= q /\ 1 <= len v.
Proof.
  induction es as [|(b, w) t IH]; cbn; intros p q R I; [destruct I|]. destruct R as (R1 & R2 & R3). destruct I as [I|I].
  - injection I as -> ->. apply row_le in R3. lia.
  - destruct (IH _ _ R3 I). lia.
Qed.
Lemma marked_row line es : forall m cur p, marked len line m cur -> row p es (length line) ->
  (forall a v k, In (a, v) es -> a <= k < a + len v -> inside len m k = false) ->
  marked len line (put_all es m) (mask_all es cur) /\ forall e, In e (put_all es m) <-> In e m \/ In e es.
Proof.
  induction es as [|(a, v) t IH]; intros m cur p M R F.
  - split; auto. intros e. cbn. tauto.
  - cbn [row] in R. destruct R as (R1 & R2 & R3). pose proof (row_le _ _ _ R3) as Le.
    assert (forall k, a <= k < a + len v -> inside len m k = false) as F1 by (intros k; apply F; now left).
    pose proof (marked_step line m cur a v M R2 Le F1) as M1.
    assert (~ In a (map fst m)) as Fresh.
    { intros I. apply in_map_iff in I as ((i & w) & E & I). cbn in E. subst i. destruct (mk_within _ _ _ _ M _ _ I). specialize (F1 a ltac:(lia)). rewrite inside_none in F1. apply (F1 _ _ I). lia. }
    destruct (IH (iput a v m) (mask a (a + len v) (len v) cur) (a + len v) M1 R3) as (Q1 & Q2).
    + intros b w k I Hk. rewrite inside_none. intros i x J. apply iput_in in J as [J|J]; auto.
      * injection J as -> ->. destruct (row_in _ _ _ _ _ R3 I). lia.
      * assert (inside len m k = false) as U by (apply (F b w); [now right|auto]). rewrite inside_none in U. auto.
    + split; [exact Q1|]. intros e. cbn [put_all fold_left fst snd]. change (fold_left _ t (iput a v m)) with (put_all t (iput a v m)). rewrite Q2, iput_in by auto. cbn [In]. intuition.
Qed.
End Mark.
(** spans of two passes do not meet *)
Lemma marked_apart {A B} (len : A -> nat) (len' : B -> nat) l0 m l1 m' l2 : marked len l0 m l1 -> marked len' l1 m' l2 ->
  (forall a v, In (a, v) m' -> ~ In 95%N (slice a (a + len' v) l1)) -> forall p, ~ (inside len m p = true /\ inside len' m' p = true).
Proof.
  intros M M' N p (I & J). apply inside_spec in J as (a & v & J & P1 & P2). apply (N _ _ J). pose proof (mk_within _ _ _ _ M' _ _ J) as (W1 & W2).
  pose proof (mk_length _ _ _ _ M) as L. destruct (nth_some l0 p ltac:(lia)) as (c & E). apply (mk_chars _ _ _ _ M) in E. rewrite I in E.
  apply (nth_error_In _ (p - a)). rewrite nth_slice. destruct (Nat.ltb_spec (p - a) (a + len' v - a)); [|lia]. now replace (a + (p - a)) with p by lia.
Qed.

(** ** Ibids *)
Definition ibid_text (w : str) : Prop := exists a b c, (a = [] \/ a = py "-") /\ (b = [] \/ b = py "EM") /\ (c = [] \/ c = py ".") /\ w = a ++ py "IBID" ++ b ++ c.
Definition ibid_lead : re := match rx_re re_ibid with Cat a _ => a | _ => Eps end.
Definition ibid_rest : re := match rx_re re_ibid with Cat _ b => b | _ => Eps end.
Lemma ibid_cat : rx_re re_ibid = Cat ibid_lead ibid_rest. Proof. reflexivity. Qed.
Definition ibid_words : list gword := Eval vm_compute in match gwords ibid_rest with Some l => l | None => [] end.
Lemma ibid_words_ok : gwords ibid_rest = Some ibid_words. Proof. reflexivity. Qed.
Lemma ibid_lang x g x' g' : mt (rx_re re_ibid) x g x' g' -> exists w, fwd x w x' /\ ibid_text w.
Proof.
  rewrite ibid_cat, mt_cat_iff. intros (y & h & H1 & H2).
  assert (exists a, fwd x a y /\ (a = [] \/ a = py "-")) as (a & Fa & Ha).
  { unfold ibid_lead in H1. cbn [re_ibid rx_re] in H1. apply mt_opt_inv in H1 as [(-> & _)|H1]; [exists []; split; [apply fwd_refl|auto]|].
    apply mt_grp_iff in H1 as (h1 & H1 & _). apply mt_alt_iff in H1 as [H1|H1].
    - apply mt_cls_fwd in H1 as (d & F & M & _). apply (lit_cls_mem 45%N) in M as ->. exists (py "-"). auto.
    - apply mt_wordb_iff in H1 as (-> & _). exists []. split; [apply fwd_refl|auto]. }
  apply (gwords_mt _ _ ibid_words_ok) in H2 as (u & t & I & R & F & _). exists (a ++ t). split; [eapply fwd_app; eauto|].
  unfold ibid_words in I. cbn [In] in I.
  repeat (destruct I as [<-|I]; [cbn [fst] in R|]); [| | | |destruct I].
  - apply (reads_lits (py "IBID")) in R as ->. exists a, [], []. repeat split; auto.
  - apply (reads_lits (py "IBID.")) in R as ->. exists a, [], (py "."). repeat split; auto.
  - apply (reads_lits (py "IBIDEM")) in R as ->. exists a, (py "EM"), []. repeat split; auto.
  - apply (reads_lits (py "IBIDEM.")) in R as ->. exists a, (py "EM"), (py "."). repeat split; auto.
Qed.
Lemma ibid_here a b : run (rx_re re_ibid) false (here a (py "IBID" ++ b)) <> None.
Proof.
  set (x := here a (py "IBID" ++ b)). unfold run. set (k := fun x' g' => _). rewrite ibid_cat.
  change (m (Cat ibid_lead ibid_rest) x [] k) with (m ibid_lead x [] (fun x' g' => m ibid_rest x' g' k)).
  assert (m ibid_rest x [] k <> None) as Q.
  { apply (m_complete (a ++ py "IBID" ++ b) ibid_rest x [] (here (a ++ py "IBID") b) []).
    - apply (gwords_mt _ _ ibid_words_ok). eexists (lit_word (py "IBID"), _), (py "IBID"). split; [left; reflexivity|]. split; [now apply reads_lits|]. split; [apply fwd_here|reflexivity].
    - apply at_here.
    - reflexivity.
    - unfold k. cbn. discriminate. }
  assert (m ibid_lead x [] (fun x' g' => m ibid_rest x' g' k) <> None) as Q2.
  { unfold ibid_lead. cbn [re_ibid rx_re]. rewrite m_rep. cbn [rep_loop plus]. intros E. apply orelse_none in E as [_ E]. cbn [Nat.leb] in E. auto. }
  destruct (m ibid_lead _ _ _) as [(u & v)|]; [discriminate|congruence].
Qed.
Definition ibid_entries (line : str) : list (nat * str) := map (fun o => (m_start o, slice (m_start o) (m_end o) line)) (re_finditer (rx_re re_ibid) line).
Lemma ibid_text_ok w : ibid_text w -> 1 <= length w /\ ~ In 95%N w.
Proof.
  intros (a & b & c & [-> | ->] & [-> | ->] & [-> | ->] & ->); (split; [cbn; lia|intros I; cbn in I; repeat (destruct I as [I|I]; [discriminate|]); destruct I]).
Qed.
Lemma ibids_fold line ms : forall m cur, (forall o, In o ms -> m_start o <= m_end o <= length line) ->
  fold_left (fun st o => (iput (m_start o) (slice (m_start o) (m_end o) line) (fst st), mask (m_start o) (m_end o) (m_end o - m_start o) (snd st))) ms (m, cur)
  = (put_all (map (fun o => (m_start o, slice (m_start o) (m_end o) line)) ms) m,
     mask_all (@length ch) (map (fun o => (m_start o, slice (m_start o) (m_end o) line)) ms) cur).
Proof.
  induction ms as [|o t IH]; intros m cur B; cbn [fold_left map]; auto. destruct (B o ltac:(now left)) as (B1 & B2).
  cbn [fst snd]. rewrite IH by (intros; apply B; now right). unfold put_all, mask_all. cbn [fold_left fst snd]. rewrite slice_length by auto.
  now replace (m_start o + (m_end o - m_start o)) with (m_end o) by lia.
Qed.
Lemma ibid_row line ms : forall p q, chain p ms q -> (forall o, In o ms -> m_start o < m_end o /\ m_end o <= length line) ->
  row (@length ch) p (map (fun o => (m_start o, slice (m_start o) (m_end o) line)) ms) q.
Proof.
  induction ms as [|o t IH]; intros p q C B; cbn [map row chain] in *; auto. destruct C as (C1 & C2 & C3). destruct (B o ltac:(now left)) as (B1 & B2).
  rewrite slice_length by auto. split; auto. split; [lia|]. replace (m_start o + (m_end o - m_start o)) with (m_end o) by lia. apply IH; auto. intros; apply B; now right.
Qed.
Lemma ibids_spec line : let (m, line') := identify_ibids line in
  marked (@length ch) line m line'
  /\ (forall i w, In (i, w) m -> slice i (i + length w) line = w /\ ibid_text w)
  /\ (forall a b, line' <> a ++ py "IBID" ++ b).
Proof.
  unfold identify_ibids. pose proof (finditer_ok (rx_re re_ibid) line) as (O & C).
  assert (forall o, In o (re_finditer (rx_re re_ibid) line) -> m_start o < m_end o /\ m_end o <= length line /\ ibid_text (slice (m_start o) (m_end o) line)) as B.
  { intros o I. destruct (finditer_in _ _ _ I) as (a & w & b & x' & E & F & M & S1 & S2). apply ibid_lang in M as (w' & F' & T).
    assert (w' = w) as ->.
    { apply fwd_here_iff in F as (t & E1 & ->). apply fwd_here_iff in F' as (t' & E2 & Q). injection Q as Q1 Q2 Q3. clear - E1 E2 Q1 Q2 Q3.
      rewrite !app_length in Q1. apply (app_inv_tail t). rewrite <- E1. subst t'. auto. }
    destruct (ibid_text_ok _ T). rewrite S1, S2. split; [lia|]. split; [rewrite E, !app_length; lia|].
    replace (slice (length a) (length a + length w) line) with w; auto. rewrite E. symmetry. apply slice_mid. }
  rewrite ibids_fold by (intros o I; destruct (B o I); lia).
  destruct (marked_row (@length ch) line (ibid_entries line) [] line 0) as (M & Q).
  - apply marked_start.
  - apply ibid_row; auto. intros o I. destruct (B o I); tauto.
  - intros; apply inside_none; intros ? ? [].
  - fold (ibid_entries line). split; auto. split.
    + intros i w I. apply Q in I as [[]|I]. unfold ibid_entries in I. apply in_map_iff in I as (o & E & I). injection E as <- <-.
      destruct (B o I) as (B1 & B2 & B3). split; auto. rewrite slice_length by lia. f_equal. lia.
    + intros a b E. set (line' := mask_all _ _ _) in *.
      destruct (marked_text (@length ch) line (put_all (ibid_entries line) []) line' (length a) (py "IBID") M) as (T & U).
      * rewrite E. apply slice_mid.
      * rewrite <- (mk_length _ _ _ _ M), E, !app_length. lia.
      * intros I. cbn in I. repeat (destruct I as [I|I]; [discriminate|]). destruct I.
      * assert (length a <= length line) as La by (rewrite <- (mk_length _ _ _ _ M), E, !app_length; lia).
        assert (line = firstn (length a) line ++ py "IBID" ++ skipn (length a + 4) line) as E2.
        { rewrite <- T at 1. change (length (py "IBID")) with 4. rewrite slice_skipn by lia. symmetry. apply firstn_skipn. }
        destruct (finditer_covers (rx_re re_ibid) line _ _ E2 (ibid_here _ _)) as (o & I & Cv & Cv2). rewrite firstn_length, Nat.min_l in * by lia.
        destruct (B o I) as (B1 & B2 & B3). assert (inside (@length ch) (put_all (ibid_entries line) []) (length a) = true) as In1.
        { apply inside_spec. exists (m_start o), (slice (m_start o) (m_end o) line). split; [apply Q; right; apply in_map_iff; eauto|].
          rewrite slice_length by lia. lia. }
        rewrite U in In1 by (change (length (py "IBID")) with 4; lia). discriminate.
Qed.

(** ** Journal titles *)
(** every match of the pattern begins with the title *)
Definition reads_title (r : re) (t : str) : Prop := forall a b x' g', mt r (here a b) [] x' g' -> exists c b', b = t ++ c :: b' /\ x' = here (a ++ t ++ [c]) b'.
Lemma seek_title t : reads_title (seek_re t) t.
Proof. intros a b x' g' M. apply seek_match in M as (c & b' & E & _ & _ & X & _). eauto. Qed.
Lemma repl_title t : reads_title (repl_re t) t.
Proof. intros a b x' g' M. apply repl_match in M as (c & b' & E & _ & _ & _ & X & _). eauto. Qed.
Lemma title_match r t line o : reads_title r t -> In o (re_finditer r line) ->
  slice (m_start o) (m_start o + length t) line = t /\ m_end o = m_start o + length t + 1 /\ m_end o <= length line.
Proof.
  intros R I. destruct (finditer_in _ _ _ I) as (a & w & b & x' & E & F & M & S1 & S2). apply R in M as (c & b' & E2 & ->).
  rewrite E2 in E. rewrite S1, S2, E, slice_mid. split; auto.
  apply fwd_here_iff in F as (t' & E3 & Q). injection Q as Q1 Q2 Q3. rewrite !app_length in *. cbn [length] in *. split; lia.
Qed.
Lemma title_row t ms : forall p q, chain p ms q -> 1 <= length t -> (forall o, In o ms -> m_end o = m_start o + length t + 1) ->
  row (@length ch) p (map (fun o => (m_start o, t)) ms) q.
Proof.
  induction ms as [|o ms IH]; intros p q C L B; cbn [map row chain] in *; auto. destruct C as (C1 & C2 & C3). pose proof (B o ltac:(now left)).
  split; auto. split; [lia|]. apply (IH _ q); auto; [|intros; apply B; now right]. eapply chain_weaken; [|eauto]. lia.
Qed.
Lemma journal_fold t ms : forall s, fold_left (journal_hit t) ms s =
  mkjst (put_all (map (fun o => (m_start o, t)) ms) (j_matches s)) (mask_all (@length ch) (map (fun o => (m_start o, t)) ms) (j_line s)) (fold_left (fun c _ => bump t c) ms (j_count s)).
Proof. induction ms as [|o ms IH]; intros s; cbn [fold_left map]; [now destruct s|]. rewrite IH. reflexivity. Qed.

(** how often a title is among the spans, and in the counts *)
Definition uses (t : str) (m : imap str) : nat := length (filter (fun e => eqs (snd e) t) m).
Definition count_of (t : str) (c : list (str * nat)) : nat := match assoc_str t c with Some n => n | None => 0 end.
Lemma bump_count t u c : count_of u (bump t c) = (if eqs u t then 1 else 0) + count_of u c.
Proof.
  unfold count_of. induction c as [|(k, v) c IH]; cbn [bump assoc_str].
  - destruct (eqs u t); auto.
  - destruct (eqs_spec t k) as [->|N]; cbn [assoc_str].
    + destruct (eqs u k); auto.
    + destruct (eqs_spec u k) as [->|N2]; auto. destruct (eqs_spec k t) as [->|]; [congruence|]. auto.
Qed.
Lemma bumps_count t u {B} (ms : list B) : forall c, count_of u (fold_left (fun c _ => bump t c) ms c) = (if eqs u t then length ms else 0) + count_of u c.
Proof. induction ms as [|o ms IH]; intros c; cbn [fold_left length]; [now destruct (eqs u t)|]. rewrite IH, bump_count. destruct (eqs u t); lia. Qed.
Lemma uses_put t u a m : ~ In a (map fst m) -> uses u (iput a t m) = (if eqs t u then 1 else 0) + uses u m.
Proof.
  unfold uses. induction m as [|(k, v) m IH]; cbn [iput map fst]; intros N; [cbn; destruct (eqs t u); auto|].
  destruct (Nat.eqb_spec a k) as [->|D]; [exfalso; apply N; now left|]. destruct (a <? k); cbn [filter snd].
  - destruct (eqs t u); cbn [length]; auto.
  - assert (~ In a (map fst m)) as N' by (intros I; apply N; now right). specialize (IH N'). destruct (eqs v u); cbn [length]; rewrite IH; lia.
Qed.
Lemma uses_row line u t ms : forall m cur p, marked (@length ch) line m cur -> row (@length ch) p (map (fun o : mobj => (m_start o, t)) ms) (length line) ->
  (forall a v k, In (a, v) (map (fun o => (m_start o, t)) ms) -> a <= k < a + length v -> inside (@length ch) m k = false) ->
  uses u (put_all (map (fun o => (m_start o, t)) ms) m) = (if eqs t u then length ms else 0) + uses u m.
Proof.
  induction ms as [|o ms IH]; intros m cur p M R F; cbn [map length]; [cbn; destruct (eqs t u); auto|].
  cbn [map row] in R. destruct R as (R1 & R2 & R3). pose proof (row_le _ _ _ _ R3) as Le. cbn [map] in F.
  assert (forall k, m_start o <= k < m_start o + length t -> inside (@length ch) m k = false) as F1 by (intros k; apply F; now left).
  assert (~ In (m_start o) (map fst m)) as Fresh.
  { intros I. apply in_map_iff in I as ((i & w) & E & I). cbn [fst] in E. subst i. destruct (mk_within _ _ _ _ M _ _ I). specialize (F1 (m_start o) ltac:(lia)). rewrite inside_none in F1. apply (F1 _ _ I). lia. }
  unfold put_all. cbn [fold_left fst snd]. change (fold_left _ ?l ?x) with (put_all l x).
  rewrite (IH (iput (m_start o) t m) (mask (m_start o) (m_start o + length t) (length t) cur) (m_start o + length t)); auto.
  - rewrite uses_put by auto. destruct (eqs t u); lia.
  - now apply marked_step.
  - intros b w k I Hk. rewrite inside_none. intros i x J. apply iput_in in J as [J|J]; auto.
    + injection J as -> ->. destruct (row_in _ _ _ _ _ _ R3 I). lia.
    + assert (inside (@length ch) m k = false) as U by (apply (F b w); [now right|auto]). rewrite inside_none in U. auto.
Qed.

Definition usable (t : str) : Prop := t <> [] /\ ~ In 95%N t.
Record jinv (line : str) (keys : list str) (s : jst) : Prop := mkjinv {
  ji_marked : marked (@length ch) line (j_matches s) (j_line s);
  ji_text : forall i t, In (i, t) (j_matches s) -> In t keys /\ slice i (i + length t) line = t;
  ji_count : forall t, count_of t (j_count s) = uses t (j_matches s) }.
Lemma journal_step line keys r t s : jinv line keys s -> In t keys -> usable t -> reads_title r t ->
  jinv line keys (fold_left (journal_hit t) (re_finditer r (j_line s)) s)
  /\ forall e, In e (j_matches (fold_left (journal_hit t) (re_finditer r (j_line s)) s)) <-> In e (j_matches s) \/ exists o, In o (re_finditer r (j_line s)) /\ e = (m_start o, t).
Proof.
  intros [M T Cn] K [U1 U2] R. rewrite journal_fold. cbn [j_matches j_line j_count]. set (ms := re_finditer r (j_line s)).
  pose proof (finditer_ok r (j_line s)) as (_ & C). fold ms in C. pose proof (mk_length _ _ _ _ M) as L. rewrite L in C.
  assert (1 <= length t) as Lt by (destruct t; [congruence|cbn; lia]).
  assert (row (@length ch) 0 (map (fun o => (m_start o, t)) ms) (length line)) as Rw.
  { apply (title_row t); auto. intros o I. now destruct (title_match r t (j_line s) o R I) as (_ & E & _). }
  assert (forall o, In o ms -> slice (m_start o) (m_start o + length t) line = t /\ forall k, m_start o <= k < m_start o + length t -> inside (@length ch) (j_matches s) k = false) as Fr.
  { intros o I. destruct (title_match r t (j_line s) o R I) as (S1 & E & B). apply (marked_text (@length ch) line (j_matches s) (j_line s)); auto. rewrite L in B. lia. }
  assert (forall a v k, In (a, v) (map (fun o => (m_start o, t)) ms) -> a <= k < a + length v -> inside (@length ch) (j_matches s) k = false) as F.
  { intros a v k I. apply in_map_iff in I as (o & E & I). injection E as <- <-. now apply Fr. }
  destruct (marked_row (@length ch) line _ (j_matches s) (j_line s) 0 M Rw F) as (M' & Q). split; [split; cbn [j_matches j_line j_count]|].
  - exact M'.
  - intros i u I. apply Q in I as [I|I]; auto. apply in_map_iff in I as (o & E & I). injection E as <- <-. split; auto. now apply Fr.
  - intros u. rewrite bumps_count, Cn. etransitivity; [|symmetry; apply (uses_row line u t ms (j_matches s) (j_line s) 0); auto]. destruct (eqs_spec u t) as [->|N]; [now rewrite eqs_refl|].
    destruct (eqs_spec t u); [congruence|auto].
  - intros e. rewrite Q, in_map_iff. split; (intros [I|(o & E & I)]; [now left|right]); exists o; auto.
Qed.

(** where a title of the knowledge base can be recognised: before it [a], after it the character [c] and [b] *)
Definition as_seek (a : str) (c : ch) : Prop := is_word c = false /\ hd_is_word (rev a) = false.
Definition as_repl (a t : str) (c : ch) (b : str) : Prop := ~ (65 <= c <= 90 \/ 48 <= c <= 57)%N
  /\ hd_is_word (rev a) <> hd_is_word (t ++ c :: b) /\ (forall a', a <> a' ++ [47%N]).
Definition is_seek (rows : list (str * str)) (t : str) : Prop := exists row, In row rows /\ t = seek_phrase (fst row).
Definition is_repl (rows : list (str * str)) (t : str) : Prop := exists row, In row rows /\ t = repl_phrase (snd row).
Definition recognisable (rows : list (str * str)) (a t : str) (c : ch) (b : str) : Prop :=
  is_seek rows t /\ as_seek a c \/ ~ is_seek rows t /\ is_repl rows t /\ as_repl a t c b.
Lemma title_pattern rows t : In t (jk_keys (build_journals_kb rows)) -> exists r, assoc_str t (jk_search (build_journals_kb rows)) = Some r /\ reads_title r t /\ productive r = true
  /\ (is_seek rows t /\ r = seek_re t \/ ~ is_seek rows t /\ is_repl rows t /\ r = repl_re t).
Proof.
  intros K. destruct (journals_assoc rows t) as (A & _ & _). rewrite A. destruct (last_seek t rows) eqn:L.
  - exists (seek_re t). split; auto. split; [apply seek_title|]. split; [apply productive_seek|]. left. split; auto.
    apply last_seek_some in L as (pre & r & post & -> & E & _). exists r. split; [apply in_app_iff; right; now left|auto].
  - apply journals_keys in K as (row & I & [-> | ->]); [exfalso; apply (proj1 (last_seek_none _ _) L row I); auto|].
    destruct (first_repl _ _) eqn:Fr; [|exfalso; apply (proj1 (first_repl_none _ _) Fr (snd row)); auto; now apply in_map].
    exists (repl_re (repl_phrase (snd row))). split; auto. split; [apply repl_title|]. split; [apply productive_repl|]. right. split; [|split; [exists row|]; auto].
    intros (row' & I' & E). apply (proj1 (last_seek_none _ _) L row' I'). auto.
Qed.
Lemma recognisable_mt rows a t c b r : recognisable rows a t c b -> In t (jk_keys (build_journals_kb rows)) -> assoc_str t (jk_search (build_journals_kb rows)) = Some r ->
  exists x' g', mt r (here a (t ++ c :: b)) [] x' g'.
Proof.
  intros R K E. destruct (title_pattern rows t K) as (r' & E' & _ & _ & P). rewrite E in E'. injection E' as <-.
  destruct R as [(S1 & W & H)|(S1 & I & U & B & N)], P as [(S2 & ->)|(S2 & _ & ->)]; try contradiction.
  - do 2 eexists. apply seek_match. exists c, b. split; auto. split; auto. split; [now apply starts_word_hd|]. split; reflexivity.
  - do 2 eexists. apply repl_match. exists c, b. split; auto. split.
    { unfold upper_or_digit. destruct (N.leb_spec 65 c), (N.leb_spec c 90), (N.leb_spec 48 c), (N.leb_spec c 57); cbn; auto; exfalso; apply U; lia. }
    split; [unfold boundary; destruct (hd_is_word (rev a)), (hd_is_word (t ++ c :: b)); cbn; congruence|]. split; [|split; reflexivity].
    unfold no_slash. destruct (rev a) as [|d l] eqn:Ra; auto. intros ->. apply (N (rev l)). rewrite <- (rev_involutive a), Ra. reflexivity.
Qed.
(** only the characters next to the title matter *)
Lemma recognisable_local rows a t c b a' b' : recognisable rows a t c b -> t <> [] -> hd_error (rev a') = hd_error (rev a) -> recognisable rows a' t c b'.
Proof.
  intros R T H. assert (hd_is_word (rev a') = hd_is_word (rev a)) as Hw by (unfold hd_is_word; destruct (rev a), (rev a'); cbn in H; congruence).
  destruct R as [(S1 & W & Q)|(S1 & I & U & B & N)]; [left|right].
  - split; auto. split; auto. congruence.
  - split; auto. split; auto. split; auto. split.
    + rewrite Hw. destruct t as [|d t]; [congruence|]. exact B.
    + intros u ->. rewrite rev_app_distr in H. cbn in H. destruct (rev a) as [|d l] eqn:Ra; [discriminate|]. cbn in H. injection H as <-.
      apply (N (rev l)). rewrite <- (rev_involutive a), Ra. reflexivity.
Qed.

Section Journals.
Context (rows : list (str * str)) (line : str).
Let keys := jk_keys (build_journals_kb rows).
Let kb := jk_search (build_journals_kb rows).
Context (U : forall t, In t keys -> usable t).
Lemma journals_from : forall titles done s, keys = done ++ titles -> jinv line done s ->
  exists s', identify_journals_from kb titles s = Ok s' /\ jinv line keys s'
  /\ (forall e, In e (j_matches s) -> In e (j_matches s'))
  /\ forall t a c b, In t titles -> line = a ++ t ++ c :: b -> recognisable rows a t c b ->
       exists before after i t', titles = before ++ t :: after /\ In (i, t') (j_matches s') /\ In t' (done ++ before ++ [t])
         /\ i <= length a + length t /\ length a <= i + length t'.
Proof.
  induction titles as [|t titles IH]; intros done s K J.
  - exists s. rewrite app_nil_r in K. split; auto. split; [now rewrite K|]. split; auto. intros t a c b [].
  - assert (In t keys) as It by (rewrite K; apply in_app_iff; right; now left). destruct (title_pattern rows t It) as (r & E & R & P & _).
    cbn [identify_journals_from]. unfold kb. rewrite E. fold kb.
    assert (jinv line (done ++ [t]) s) as J1 by (destruct J as [J1 J2 J3]; split; auto; intros i u I; destruct (J2 i u I); split; auto; apply in_app_iff; auto).
    destruct (journal_step line (done ++ [t]) r t s J1) as (J2 & Q); auto; [apply in_app_iff; right; now left|].
    destruct (IH (done ++ [t]) _ ltac:(rewrite <- app_assoc; exact K) J2) as (s' & E' & J' & Mono & L). exists s'. split; auto. split; auto.
    split; [intros e I; apply Mono, Q; auto|].
    intros u a c b I El Rec. destruct (in_dec (list_eq_dec N.eq_dec) u [t]) as [[<-|[]]|Nt].
    + exists [], titles. cbn [app].
      assert (exists i t', In (i, t') (j_matches (fold_left (journal_hit t) (re_finditer r (j_line s)) s)) /\ In t' (done ++ [t]) /\ i <= length a + length t /\ length a <= i + length t') as (i & t' & X1 & X2 & X3 & X4).
      2:{ exists i, t'. split; auto. }
      destruct J as [M J2' J3]. pose proof (mk_length _ _ _ _ M) as Ln.
      destruct (existsb (fun p => inside (@length ch) (j_matches s) p) (seq (length a - 1) (length t + 1 + (length a - (length a - 1))))) eqn:Ex.
      * apply existsb_exists in Ex as (p & Ip & Hp). apply in_seq in Ip. apply inside_spec in Hp as (i & t' & Im & H1 & H2). exists i, t'.
        split; [apply Q; auto|]. destruct (J2' _ _ Im) as (D1 & D2). split; [apply in_app_iff; auto|]. lia.
      * assert (forall p, length a - 1 <= p <= length a + length t -> inside (@length ch) (j_matches s) p = false) as Free.
        { intros p Hp. destruct (inside (@length ch) (j_matches s) p) eqn:Z; auto. assert (existsb (fun p => inside (@length ch) (j_matches s) p) (seq (length a - 1) (length t + 1 + (length a - (length a - 1)))) = true) as C; [|congruence].
          apply existsb_exists. exists p. split; auto. apply in_seq. lia. }
        assert (forall p, length a - 1 <= p <= length a + length t -> nth_error (j_line s) p = nth_error line p) as Same.
        { intros p Hp. destruct (nth_error line p) as [d|] eqn:D.
          - apply (mk_chars _ _ _ _ M) in D. now rewrite Free in D.
          - apply nth_error_None in D. apply nth_error_None. lia. }
        assert (length line = length a + length t + 1 + length b) as Ll by (rewrite El, !app_length; cbn; lia).
        assert (j_line s = firstn (length a) (j_line s) ++ t ++ c :: skipn (length a + length t + 1) (j_line s)) as Ej.
        { assert (slice (length a) (length a + (length t + 1)) (j_line s) = t ++ [c]) as Sl.
          { transitivity (slice (length a) (length a + (length t + 1)) line).
            - apply nth_same. intros k. rewrite !nth_slice. destruct (Nat.ltb_spec k (length a + (length t + 1) - length a)); auto. apply Same. lia.
            - rewrite El. replace (length t + 1) with (length (t ++ [c])) by (rewrite app_length; reflexivity). replace (t ++ c :: b) with ((t ++ [c]) ++ b) by now rewrite <- app_assoc. apply slice_mid. }
          replace (t ++ c :: skipn (length a + length t + 1) (j_line s)) with ((t ++ [c]) ++ skipn (length a + (length t + 1)) (j_line s)) by (rewrite <- app_assoc, Nat.add_assoc; reflexivity).
          rewrite <- Sl, slice_skipn by lia. symmetry. apply firstn_skipn. }
        assert (recognisable rows (firstn (length a) (j_line s)) t c (skipn (length a + length t + 1) (j_line s))) as Rec'.
        { apply (recognisable_local rows a t c b); auto; [apply (U t It)|].
          assert (forall (x : str), hd_error (rev x) = match length x with 0 => None | S n => nth_error x n end) as HR.
          { intros x. destruct x as [|d x] using rev_ind; auto. rewrite rev_app_distr, app_length, Nat.add_comm. cbn [length plus]. cbn [rev app hd_error].
            rewrite nth_error_app2, Nat.sub_diag by lia. reflexivity. }
          rewrite !HR, firstn_length, Nat.min_l by lia. destruct (length a) as [|n] eqn:La; auto. rewrite nth_first. destruct (Nat.ltb_spec n (S n)); [|lia].
          rewrite Same by lia. rewrite El. rewrite nth_error_app1 by lia. reflexivity. }
        destruct (recognisable_mt rows _ t c _ r Rec' It E) as (x' & g' & Mt).
        destruct (finditer_complete r (j_line s) _ _ x' g' P Ej Mt) as (o & Io & Cv1 & Cv2). rewrite firstn_length, Nat.min_l in * by lia.
        destruct (title_match r t (j_line s) o R Io) as (_ & En & _). exists (m_start o), t. split; [apply Q; right; eauto|]. split; [apply in_app_iff; right; now left|]. lia.
    + destruct I as [<-|I]; [exfalso; apply Nt; now left|]. destruct (L u a c b I El Rec) as (bf & af & i & t' & E1 & X1 & X2 & X3).
      exists (t :: bf), af, i, t'. split; [cbn; now rewrite E1|]. split; auto. split; auto. rewrite <- app_assoc in X2. exact X2.
Qed.
Lemma journals_spec : exists s, identify_journals line (build_journals_kb rows) = Ok s
  /\ marked (@length ch) line (j_matches s) (j_line s)
  /\ (forall i t, In (i, t) (j_matches s) -> In t keys /\ slice i (i + length t) line = t)
  /\ (forall t, count_of t (j_count s) = uses t (j_matches s))
  /\ forall t a c b, In t keys -> line = a ++ t ++ c :: b -> recognisable rows a t c b ->
       exists i t', In (i, t') (j_matches s) /\ length t <= length t' /\ i <= length a + length t /\ length a <= i + length t'.
Proof.
  destruct (journals_from keys [] (mkjst [] line [])) as (s & E & [J1 J2 J3] & _ & L); auto.
  - split; cbn [j_matches j_line j_count]; [apply marked_start|intros ? ? []|reflexivity].
  - exists s. split; auto. split; auto. split; auto. split; auto. intros t a c b I El Rec.
    destruct (L t a c b I El Rec) as (bf & af & i & t' & E1 & X1 & X2 & X3). exists i, t'. split; auto. split; auto.
    cbn [app] in X2. pose proof (sort_by_sorted (@List.length N) (jb_keys (fold_left add_repl (distinct [] (map snd rows)) (fold_left add_seek rows (mkjb [] [] []))))) as So.
    change (sort_by _ _) with keys in So. rewrite E1 in So. apply in_app_iff in X2 as [X2|[<-|[]]]; auto. clear - So X2.
    induction bf as [|d bf IH]; [destruct X2|]. cbn [app] in So. inversion So as [|? ? So' Fa]; subst. destruct X2 as [<-|X2]; auto.
    rewrite Forall_forall in Fa. apply Fa. apply in_app_iff. right. now left.
Qed.
End Journals.

(** ** Report numbers *)
(** the shape of the patterns: something without groups, then group 1, in which the number always is found and which reads no underscore *)
Definition rep_ok (p : rx) : bool :=
  match rx_re p with
  | Cat lead (Grp 1 body) =>
    negb (has_group lead) && plain body && avoids 95 body && (1 <=? minlen body) && negb (existsb (fun e => fst e =? 1) (sub_grps body))
    && match assoc_str (py "numn") (rx_names p) with Some j => negb (j =? 0) && negb (j =? 1) && always j body | None => false end
  | _ => false
  end.
Lemma lookup_event s r x x' j h v : Forall (grp_event s r x x') h -> lookup_group j h = Some v -> pos x <= fst v /\ fst v <= snd v /\ snd v <= pos x'.
Proof.
  induction h as [|(i, u) h IH]; cbn [lookup_group]; intros F E; [discriminate|]. inversion F as [|? ? Fe Fl]; subst. destruct (j =? i); auto.
  injection E as <-. destruct Fe as (q & y & gy & y' & gy' & _ & _ & _ & _ & E1 & E2 & ? & ? & ?). cbn [fst snd] in *. lia.
Qed.
Lemma rep_match p s o : rep_ok p = true -> In o (re_finditer (rx_re p) s) -> exists a u v,
  g_span o 1 = Some (a, m_end o) /\ m_start o <= a /\ a < m_end o /\ m_end o <= length s /\ ~ In 95%N (slice a (m_end o) s)
  /\ group_named p s o (py "numn") = Ok (Some (slice u v s)) /\ a <= u /\ u <= v /\ v <= m_end o.
Proof.
  unfold rep_ok. intros R I. pose proof (proj1 (finditer_ok (rx_re p) s)) as O. rewrite Forall_forall in O. apply O in I as (x & x' & Ax & Ax' & M & S1 & S2 & L1 & L2). clear O.
  destruct (rx_re p) as [| | |lead q| | | | | | | |]; try discriminate. destruct q as [| | | | | |i body| | | | |]; try discriminate. destruct i as [|[|i]]; try discriminate.
  destruct (assoc_str (py "numn") (rx_names p)) as [j|] eqn:N; [|rewrite andb_false_r in R; discriminate].
  repeat (apply andb_true_iff in R as [R ?]). repeat match goal with H : _ && _ = true |- _ => apply andb_true_iff in H as [H ?] end.
  repeat match goal with H : negb _ = true |- _ => apply negb_true_iff in H end.
  apply mt_cat_iff in M as (y & h & M1 & M2). apply mt_grp_iff in M2 as (h' & M2 & Eg). apply no_group_mt in M1 as E; [|assumption]. subst h.
  destruct (mt_at s _ _ _ _ _ M1 Ax) as (Ay & Ly). pose proof (mt_minlen s _ _ _ _ _ M2 Ay) as Mn. match goal with H : (1 <=? _) = true |- _ => apply Nat.leb_le in H end.
  destruct (mt_groups s _ _ _ _ _ M2 ltac:(assumption) Ay) as (new & En & F). rewrite app_nil_r in En. subst h'.
  assert (lookup_group j new <> None) as Al by (eapply mt_always; eauto). destruct (lookup_group j new) as [(u & v)|] eqn:Lk; [|congruence].
  destruct (lookup_event s _ _ _ _ _ _ F Lk) as (B1 & B2 & B3). cbn [fst snd] in *.
  exists (pos y), u, v. assert (pos x' = m_end o) as <- by auto. split.
  - unfold g_span. cbn [Nat.eqb]. rewrite Eg. reflexivity.
  - split; [lia|]. split; [lia|]. split; auto. split.
    + destruct (avoids_text 95 _ _ _ _ _ M2 ltac:(assumption)) as (w & (F1 & F2 & F3) & Nw). replace (slice (pos y) (pos x') s) with w; auto.
      destruct (at_is_here _ _ Ay) as (a & b & -> & -> & Pa). cbn [suf here] in F1. rewrite F1. cbn [pos here] in *. rewrite F3. symmetry. apply slice_mid.
    + split; [|lia]. unfold group_named. rewrite N. unfold g_text, g_span. destruct (Nat.eqb_spec j 0); [congruence|]. rewrite Eg. cbn [lookup_group].
      destruct (Nat.eqb_spec j 1); [congruence|]. now rewrite Lk.
Qed.
Lemma slice_inner (s s' : str) a b u v : slice a b s = slice a b s' -> a <= u -> v <= b -> slice u v s = slice u v s'.
Proof.
  intros E L1 L2. apply nth_same. intros k. rewrite !nth_slice. destruct (Nat.ltb_spec k (v - u)) as [H|H]; auto.
  assert (nth_error (slice a b s) (u - a + k) = nth_error (slice a b s') (u - a + k)) as Q by now rewrite E. rewrite !nth_slice in Q.
  destruct (Nat.ltb_spec (u - a + k) (b - a)); [|lia]. now replace (a + (u - a + k)) with (u + k) in Q by lia.
Qed.
Lemma put_all_in {A} (es : list (nat * A)) : forall m, NoDup (map fst es) -> (forall k, In k (map fst es) -> ~ In k (map fst m)) ->
  (forall e, In e (put_all es m) <-> In e m \/ In e es) /\ (NoDup (map fst m) -> NoDup (map fst (put_all es m))).
Proof.
  induction es as [|(a, v) t IH]; intros m D F; [split; [intros; cbn; tauto|auto]|]. cbn [map fst] in D. inversion D as [|? ? D1 D2]; subst.
  assert (~ In a (map fst m)) as Fr by (apply F; now left).
  destruct (IH (iput a v m) D2) as (Q1 & Q2).
  - intros k Ik Im. apply in_map_iff in Im as ((k' & w) & E & Im). cbn [fst] in E. subst k'. apply iput_in in Im as [Im|Im]; auto.
    + injection Im as -> ->. contradiction.
    + apply (F k); [now right|]. apply in_map_iff. now exists (k, w).
  - change (put_all ((a, v) :: t) m) with (put_all t (iput a v m)). split.
    + intros e. rewrite Q1, iput_in by auto. cbn [In]. intuition.
    + intros Dm. apply Q2. now apply iput_nodup.
Qed.
Definition rstart (o : mobj) : nat := match g_span o 1 with Some (a, _) => a | None => 0 end.
Definition rnum (p : rx) (s : str) (o : mobj) : str := match group_named p s o (py "numn") with Ok (Some n) => n | _ => [] end.
Lemma repnum_fold p std subject ms : forall s,
  (forall o, In o ms -> g_span o 1 = Some (rstart o, m_end o) /\ group_named p subject o (py "numn") = Ok (Some (rnum p subject o)) /\ rstart o <= m_end o) ->
  repnum_hits p std subject ms s = Ok (mkrst (put_all (map (fun o => (rstart o, m_end o - rstart o)) ms) (r_len s))
    (put_all (map (fun o => (rstart o, std ++ clean_numeration (rnum p subject o))) ms) (r_repl s))
    (mask_all (fun n => n) (map (fun o => (rstart o, m_end o - rstart o)) ms) (r_line s))).
Proof.
  induction ms as [|o ms IH]; intros s H; [now destruct s|]. cbn [repnum_hits map]. destruct (H o ltac:(now left)) as (H1 & H2 & H3). rewrite H2. cbn [bind]. rewrite H1.
  rewrite IH by (intros; apply H; now right). cbn [r_len r_repl r_line]. unfold put_all, mask_all. cbn [fold_left fst snd]. now replace (rstart o + (m_end o - rstart o)) with (m_end o) by lia.
Qed.
Record rinv (kb : repnum_kb) (l0 : str) (s : rst) : Prop := mkrinv {
  ri_marked : marked (fun n => n) l0 (r_len s) (r_line s);
  ri_text : forall i n, In (i, n) (r_len s) -> ~ In 95%N (slice i (i + n) l0);
  ri_keys : map fst (r_repl s) = map fst (r_len s);
  ri_repl : forall i n v, In (i, n) (r_len s) -> In (i, v) (r_repl s) -> exists key p std u w,
    assoc_rep key (rk_search kb) = Some p /\ assoc_rep key (rk_std kb) = Some std /\ v = std ++ clean_numeration (slice u w l0) /\ i <= u /\ u <= w /\ w <= i + n }.
Lemma iput_keys {A B} k (v : A) (w : B) m m' : map fst m = map fst m' -> map fst (iput k v m) = map fst (iput k w m').
Proof.
  revert m'. induction m as [|(a, b) m IH]; intros [|(c, d) m'] E; try discriminate; auto. cbn [map fst] in E. injection E as -> E. cbn [iput].
  destruct (k =? c); cbn [map fst]; [congruence|]. destruct (k <? c); cbn [map fst]; [congruence|]. f_equal. auto.
Qed.
Lemma put_keys {A B} (f : mobj -> A) (g : mobj -> B) ms : forall m m', map fst m = map fst m' ->
  map fst (put_all (map (fun o => (rstart o, f o)) ms) m) = map fst (put_all (map (fun o => (rstart o, g o)) ms) m').
Proof. induction ms as [|o ms IH]; intros m m' E; auto. cbn [map]. unfold put_all. cbn [fold_left fst snd]. apply IH. now apply iput_keys. Qed.
Lemma row_nodup {A} (len : A -> nat) es : forall p q, row len p es q -> NoDup (map fst es) /\ forall k, In k (map fst es) -> p <= k.
Proof.
  induction es as [|(a, v) t IH]; cbn [row map fst]; intros p q R; [split; [constructor|intros ? []]|]. destruct R as (R1 & R2 & R3). destruct (IH _ _ R3) as (D & L). split.
  - constructor; auto. intros I. apply L in I. lia.
  - intros k [<-|I]; auto. apply L in I. lia.
Qed.
Lemma repnum_step kb key p std l0 s : rinv kb l0 s -> rep_ok p = true -> assoc_rep key (rk_search kb) = Some p -> assoc_rep key (rk_std kb) = Some std ->
  exists s', repnum_hits p std (r_line s) (re_finditer (rx_re p) (r_line s)) s = Ok s' /\ rinv kb l0 s'
    /\ (forall e, In e (r_len s') <-> In e (r_len s) \/ In e (map (fun o => (rstart o, m_end o - rstart o)) (re_finditer (rx_re p) (r_line s))))
    /\ (forall e, In e (r_repl s') <-> In e (r_repl s) \/ In e (map (fun o => (rstart o, std ++ clean_numeration (rnum p (r_line s) o))) (re_finditer (rx_re p) (r_line s)))).
Proof.
  intros [M T K Rp] R E1 E2. set (ms := re_finditer (rx_re p) (r_line s)).
  assert (forall o, In o ms -> exists u v, g_span o 1 = Some (rstart o, m_end o) /\ group_named p (r_line s) o (py "numn") = Ok (Some (rnum p (r_line s) o))
    /\ m_start o <= rstart o /\ rstart o < m_end o /\ m_end o <= length l0 /\ ~ In 95%N (slice (rstart o) (m_end o) (r_line s))
    /\ rnum p (r_line s) o = slice u v (r_line s) /\ rstart o <= u /\ u <= v /\ v <= m_end o) as H.
  { intros o I. destruct (rep_match p (r_line s) o R I) as (a & u & v & G & B1 & B2 & B3 & B4 & B5 & B6 & B7 & B8). exists u, v.
    rewrite (mk_length _ _ _ _ M) in B3. unfold rstart, rnum. rewrite G, B5. repeat (split; auto). }
  rewrite repnum_fold by (intros o I; destruct (H o I) as (u & v & X1 & X2 & X3 & X4 & _); repeat split; auto; lia).
  eexists. split; [reflexivity|].
  pose proof (finditer_ok (rx_re p) (r_line s)) as (_ & C). fold ms in C. rewrite (mk_length _ _ _ _ M) in C.
  set (es := map (fun o => (rstart o, m_end o - rstart o)) ms).
  assert (row (fun n => n) 0 es (length l0)) as Rw.
  { unfold es. clear - C H. revert C. generalize 0. induction ms as [|o t IH]; intros q C; cbn [map row chain] in *; auto. destruct C as (C1 & C2 & C3).
    destruct (H o ltac:(now left)) as (u & v & _ & _ & X3 & X4 & _). split; [lia|]. split; [lia|]. replace (rstart o + (m_end o - rstart o)) with (m_end o) by lia.
    apply IH; auto. intros; apply H; now right. }
  assert (forall o, In o ms -> slice (rstart o) (m_end o) l0 = slice (rstart o) (m_end o) (r_line s) /\ forall k, rstart o <= k < m_end o -> inside (fun n => n) (r_len s) k = false) as Fr.
  { intros o I. destruct (H o I) as (u & v & _ & _ & X3 & X4 & X5 & X6 & _). pose proof (mk_length _ _ _ _ M) as Ln.
    assert (length (slice (rstart o) (m_end o) (r_line s)) = m_end o - rstart o) as Ls by (rewrite slice_length; lia).
    destruct (marked_text (fun n => n) l0 (r_len s) (r_line s) (rstart o) (slice (rstart o) (m_end o) (r_line s)) M) as (Y1 & Y2); auto.
    - rewrite Ls. f_equal. lia.
    - rewrite Ls. lia.
    - rewrite Ls in Y1, Y2. replace (rstart o + (m_end o - rstart o)) with (m_end o) in Y1, Y2 by lia. auto. }
  assert (forall a v k, In (a, v) es -> a <= k < a + v -> inside (fun n => n) (r_len s) k = false) as F.
  { intros a v k I. apply in_map_iff in I as (o & E & I). injection E as <- <-. destruct (H o I) as (u & w & _ & _ & X3 & X4 & _). intros Hk. apply (Fr o I). lia. }
  destruct (marked_row (fun n => n) l0 es (r_len s) (r_line s) 0 M Rw F) as (M' & Q).
  assert (map fst es = map fst (map (fun o => (rstart o, std ++ clean_numeration (rnum p (r_line s) o))) ms)) as Ek by (unfold es; rewrite !map_map; reflexivity).
  destruct (row_nodup _ _ _ _ Rw) as (Nd & _).
  assert (forall k, In k (map fst es) -> ~ In k (map fst (r_len s))) as Fresh.
  { intros k I J. apply in_map_iff in I as ((k' & n) & E & I). cbn [fst] in E. subst k'. apply in_map_iff in J as ((k' & n') & E & J). cbn [fst] in E. subst k'.
    destruct (row_in _ _ _ _ _ _ Rw I) as (_ & _ & Y). destruct (mk_within _ _ _ _ M _ _ J) as (Y2 & _). specialize (F k n k I ltac:(lia)). rewrite inside_none in F. apply (F _ _ J). lia. }
  rewrite Ek in Nd, Fresh. rewrite <- K in Fresh. destruct (put_all_in _ (r_repl s) Nd Fresh) as (Q2 & _). rewrite K in Fresh.
  cbn [r_len r_repl r_line]. split; [|split; [exact Q|exact Q2]]. split; cbn [r_len r_repl r_line].
  - exact M'.
  - intros i n I. apply Q in I as [I|I]; auto. apply in_map_iff in I as (o & E & I). injection E as <- <-. destruct (H o I) as (u & v & _ & _ & X3 & X4 & X5 & X6 & _).
    replace (rstart o + (m_end o - rstart o)) with (m_end o) by lia. now rewrite (proj1 (Fr o I)).
  - now apply put_keys.
  - intros i n v I J. apply Q in I. apply Q2 in J. destruct I as [I|I], J as [J|J].
    + eauto.
    + exfalso. apply (Fresh i); [apply in_map_iff; exists (i, v); auto|apply in_map_iff; exists (i, n); auto].
    + exfalso. apply (Fresh i); [rewrite <- Ek; apply in_map_iff; exists (i, n); auto|]. rewrite <- K. apply in_map_iff; exists (i, v); auto.
    + apply in_map_iff in I as (o & E & I). injection E as <- <-. apply in_map_iff in J as (o' & E & J). injection E as Es <-.
      destruct (H o I) as (u0 & v0 & _ & _ & Z3 & Z4 & _). destruct (H o' J) as (u & v & _ & _ & X3 & X4 & X5 & X6 & X7 & X8 & X9 & X10).
      assert (m_end o' = m_end o) as Em.
      { clear - C I J Es H. assert (forall o1 o2, In o1 ms -> In o2 ms -> rstart o1 = rstart o2 -> m_end o1 <= m_end o2) as G; [|apply Nat.le_antisymm; apply G; auto].
        revert C. generalize 0. clear I J Es. induction ms as [|h t IH]; intros q C o1 o2 I1 I2 E; [destruct I1|]. cbn [chain] in C. destruct C as (C1 & C2 & C3).
        assert (forall o, In o (h :: t) -> m_start o <= rstart o /\ rstart o < m_end o) as Hb by (intros o0 I0; destruct (H o0 I0) as (? & ? & _ & _ & ? & ? & _); auto).
        destruct I1 as [<-|I1], I2 as [<-|I2]; auto.
        - pose proof (chain_in _ _ _ _ C3 I2). pose proof (Hb h ltac:(now left)). pose proof (Hb o2 ltac:(now right)). lia.
        - pose proof (chain_in _ _ _ _ C3 I1). pose proof (Hb h ltac:(now left)). pose proof (Hb o1 ltac:(now right)). lia.
        - apply (IH ltac:(intros; apply H; now right) _ C3); auto. }
      exists key, p, std, u, v. repeat (split; auto); try lia. rewrite X7. f_equal. f_equal. apply (slice_inner (r_line s) l0 (rstart o') (m_end o')); auto. symmetry. apply (Fr o' J).
Qed.
Lemma repnum_categs_ok kb l0 : forall cs s, rinv kb l0 s ->
  (forall c, In c cs -> exists p std, assoc_rep c (rk_search kb) = Some p /\ assoc_rep c (rk_std kb) = Some std /\ rep_ok p = true) ->
  exists s', repnum_categs kb cs s = Ok s' /\ rinv kb l0 s'.
Proof.
  induction cs as [|c cs IH]; intros s I H; [exists s; auto|]. cbn [repnum_categs]. destruct (H c ltac:(now left)) as (p & std & E1 & E2 & R). rewrite E1, E2.
  destruct (repnum_step kb c p std l0 s I R E1 E2) as (s1 & -> & I1 & _). cbn [bind]. apply IH; auto. intros; apply H; now right.
Qed.
Lemma insert_desc_in x y l : In y (insert_desc x l) <-> y = x \/ In y l.
Proof. induction l as [|z l IH]; cbn [insert_desc]; [cbn; intuition|]. destruct (repkey_ltb z x); cbn [In]; [intuition|]. rewrite IH. intuition. Qed.
Lemma sort_desc_in y l : In y (sort_desc l) <-> In y l.
Proof. unfold sort_desc. induction l as [|x l IH]; cbn [fold_right In]; [tauto|]. rewrite insert_desc_in, IH. intuition. Qed.
Definition slash_out (c : ch) : ch := if N.eqb c 47 then 32%N else c.
Lemma replace_slash s : replace (py "/") (py " ") s = map slash_out s.
Proof.
  unfold replace. induction s as [|c s IH]; auto. cbn [replace_aux map]. unfold slash_out at 1. cbn [prefixb py]. change (py "/") with [47%N] in *. cbn [prefixb]. rewrite andb_true_r, N.eqb_sym.
  destruct (N.eqb c 47); cbn [List.length Nat.sub]; rewrite IH; reflexivity.
Qed.
Lemma reports_spec kb line : (forall key, In key (map fst (rk_std kb)) -> exists p std, assoc_rep key (rk_search kb) = Some p /\ assoc_rep key (rk_std kb) = Some std /\ rep_ok p = true) ->
  exists s, identify_report_numbers line kb = Ok s /\ rinv kb (map slash_out line) s.
Proof.
  intros H. unfold identify_report_numbers. rewrite replace_slash. apply repnum_categs_ok.
  - split; cbn [r_len r_repl r_line]; [apply marked_start|intros ? ? []|reflexivity|intros ? ? ? []].
  - intros c I. apply H. now apply sort_desc_in.
Qed.

(** ** The three passes together *)
Definition reports_fine (kb : repnum_kb) : Prop := forall key, In key (map fst (rk_std kb)) ->
  exists p std, assoc_rep key (rk_search kb) = Some p /\ assoc_rep key (rk_std kb) = Some std /\ rep_ok p = true.
Lemma passes_spec kb rows line : reports_fine kb -> (forall t, In t (jk_keys (build_journals_kb rows)) -> usable t) ->
  exists r j, identify_report_numbers line kb = Ok r /\ identify_journals (r_line r) (build_journals_kb rows) = Ok j
  /\ let ib := fst (identify_ibids (j_line j)) in
     forall p, ~ (inside (fun n => n) (r_len r) p = true /\ inside (@length ch) (j_matches j) p = true)
            /\ ~ (inside (fun n => n) (r_len r) p = true /\ inside (@length ch) ib p = true)
            /\ ~ (inside (@length ch) (j_matches j) p = true /\ inside (@length ch) ib p = true).
Proof.
  intros Hr Hj. destruct (reports_spec kb line Hr) as (r & Er & R). destruct (journals_spec rows (r_line r) Hj) as (j & Ej & M & T & _). exists r, j. split; auto. split; auto.
  pose proof (ibids_spec (j_line j)) as I. destruct (identify_ibids (j_line j)) as (ib & l'). cbn [fst]. destruct I as (Mi & Ti & _).
  assert (forall i w, In (i, w) ib -> slice i (i + length w) (r_line r) = w /\ ~ In 95%N w) as Tr.
  { intros i w I. destruct (Ti _ _ I) as (Sl & X). apply ibid_text_ok in X as (_ & X). split; auto.
    apply (marked_text (@length ch) (r_line r) (j_matches j) (j_line j)); auto. rewrite <- (mk_length _ _ _ _ M). apply (mk_within _ _ _ _ Mi _ _ I). }
  intros p. split; [|split].
  - apply (marked_apart _ _ _ _ _ _ _ (ri_marked _ _ _ R) M). intros a v I. destruct (T _ _ I) as (K & ->). apply (Hj v K).
  - intros (X & Y). apply inside_spec in Y as (i & w & I & P1 & P2). destruct (Tr _ _ I) as (Sl & Nu). apply Nu. rewrite <- Sl.
    pose proof (mk_length _ _ _ _ (ri_marked _ _ _ R)) as L1. pose proof (mk_length _ _ _ _ M) as L2. pose proof (mk_within _ _ _ _ Mi _ _ I) as (W1 & W2).
    destruct (nth_some (map slash_out line) p ltac:(lia)) as (c & E). apply (mk_chars _ _ _ _ (ri_marked _ _ _ R)) in E. rewrite X in E.
    apply (nth_error_In _ (p - i)). rewrite nth_slice. destruct (Nat.ltb_spec (p - i) (i + length w - i)); [|lia]. now replace (i + (p - i)) with p by lia.
  - apply (marked_apart _ _ _ _ _ _ _ M Mi). intros a v I. destruct (Ti _ _ I) as (-> & X). now apply ibid_text_ok in X as (_ & X).
Qed.
