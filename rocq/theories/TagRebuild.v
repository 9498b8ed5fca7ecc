(** No step of tagging adds a "<cds.URL" or "<cds.DOI": rebuilding the line around titles, report numbers and publishers *)
From Coq Require Import List Arith NArith Bool String Lia Sorted.
From Verif Require Import PyStr ListFacts Regex RegexMeta RegexParse Patterns Numeration DocText Tag RecordProofs NormalProofs WashProofs HitProofs TagCount NumTotal TagOk
  SpanProofs UrlProofs RebuildProofs AuthorProofs.
Import ListNotations.
Local Open Scope nat_scope.
Local Notation length := List.length.

Lemma lt_app (a b : str) : ~ In 60%N (a ++ b) <-> ~ In 60%N a /\ ~ In 60%N b.
Proof. rewrite in_app_iff. tauto. Qed.
Lemma show_clean v : clean_opt v -> ~ In 60%N (show v).
Proof. destruct v as [t|]; intros C; cbn [show]; [now apply C|]. vm_compute. intuition discriminate. Qed.

Section Rebuild.
Variable x : N.
Hypothesis L : letter x.
Notation cnt := (hits w2 x Q0).
Let P2 : phase w2 := or_intror eq_refl.

(** ** Text in which nothing is counted *)
Definition dead (s : str) : Prop := cnt s = 0 /\ ends Q0 s = Q0.
Lemma dead_plain s : ~ In 60%N s -> dead s. Proof. apply plain_hits. Qed.
Lemma dead_app a b : dead a -> dead b -> dead (a ++ b).
Proof. intros (A1 & A2) (B1 & B2). unfold dead. rewrite hits_app, ends_app, A2, A1, B1, B2. auto. Qed.
Lemma dead_wrap t g : In t tags -> ~ In 60%N g -> dead (wrap t g).
Proof. intros T G. destruct (wrap_hits w2 x P2 L t Q0 g T) as (E1 & E2). split; auto. rewrite E1. now apply plain_hits. Qed.
(** from whatever part of a tag on *)
Definition closed (s : str) : Prop := forall q, hits w2 x q s = 0 /\ ends q s = Q0.
Lemma closed_wrap t g : In t tags -> ~ In 60%N g -> closed (wrap t g).
Proof. intros T G q. destruct (wrap_hits w2 x P2 L t q g T) as (E1 & E2). split; auto. rewrite E1. now apply plain_hits. Qed.
Lemma closed_app a b : closed a -> dead b -> closed (a ++ b).
Proof. intros A (B1 & B2) q. destruct (A q) as (A1 & A2). rewrite hits_app, ends_app, A2, A1, B1, B2. auto. Qed.
Lemma closed_blank a : closed a -> closed (py " " ++ a).
Proof.
  intros A q. rewrite hits_app, ends_app. destruct (A (ends q (py " "))) as (-> & ->). split; auto. rewrite Nat.add_0_r. destruct L as [->| ->]; destruct q; reflexivity.
Qed.
Lemma dead_front a s : dead a -> cnt (a ++ s) = cnt s.
Proof. intros (A1 & A2). now rewrite hits_app, A1, A2. Qed.
Lemma dead_numeration se i : clean_opt se -> num_ok i -> dead (numeration_tags se i).
Proof.
  intros S (_ & _ & V & Pg & _ & Y & Pe). unfold numeration_tags.
  assert (forall t g, In t tags -> ~ In 60%N g -> dead (py " " ++ wrap t g)) as W by (intros t g T G; apply dead_app; [now apply dead_plain; vm_compute; intuition discriminate|now apply dead_wrap]).
  match goal with |- dead (py " <cds.VOL>" ++ ?a ++ ?b ++ py "</cds.VOL>" ++ ?y ++ py " <cds.PG>" ++ ?p ++ ?e ++ py "</cds.PG>") =>
    assert (py " <cds.VOL>" ++ a ++ b ++ py "</cds.VOL>" ++ y ++ py " <cds.PG>" ++ p ++ e ++ py "</cds.PG>"
      = (py " " ++ wrap "VOL" (a ++ b)) ++ y ++ (py " " ++ wrap "PG" (p ++ e))) as -> by (unfold wrap; cbn [py String.append]; rewrite <- !app_assoc; reflexivity)
  end.
  apply dead_app; [apply W; [cbn; tauto|]|apply dead_app; [|apply W; [cbn; tauto|]]].
  - apply lt_app. split; [destruct se as [t|]; [now apply S|cbn; tauto]|now apply show_clean].
  - destruct (n_year i) as [[|c y]|]; try (now apply dead_plain; cbn; tauto).
    assert (py " <cds.YR>(" ++ (c :: y) ++ py ")</cds.YR>" = py " " ++ wrap "YR" (py "(" ++ (c :: y) ++ py ")")) as -> by (unfold wrap; cbn [py String.append]; rewrite <- !app_assoc; reflexivity).
    apply W; [cbn; tauto|]. apply lt_app. split; [vm_compute; intuition discriminate|]. apply lt_app. split; [now apply Y|vm_compute; intuition discriminate].
  - apply lt_app. split; [now apply show_clean|]. destruct (n_page_end i) as [[|c y]|]; try (cbn; tauto). apply lt_app. split; [vm_compute; intuition discriminate|now apply Pe].
Qed.

(** ** Places *)
Lemma account_mono len len' spaces : forall i j a b c d, i <= j -> fst (account_loop spaces len i a b) <= fst (account_loop spaces len' j c d).
Proof.
  induction spaces as [|(sp & n) t IH]; intros i j a b c d Le; cbn [account_loop fst]; [exact Le|].
  destruct (Nat.ltb_spec sp i), (Nat.ltb_spec sp j); try lia.
  - apply IH. lia.
  - destruct len as [l|]; [destruct (_ && _)|]; apply IH; lia.
  - destruct len as [l|], len' as [l'|]; repeat destruct (_ && _); apply IH; lia.
Qed.
Definition place (M : lmatches) (i : nat) : nat := fst (account_for_stripped_whitespace (lm_spaces M) None i).
Lemma place_any M len i : fst (account_for_stripped_whitespace (lm_spaces M) len i) = place M i.
Proof. unfold place, account_for_stripped_whitespace. apply Nat.le_antisymm; apply account_mono; auto. Qed.
Lemma place_mono M i j : i <= j -> place M i <= place M j.
Proof. intros Le. unfold place, account_for_stripped_whitespace. now apply account_mono. Qed.

(** ** What is put in *)
Definition prev_clean (p : prev) : Prop := match p with Some (t, s) => ~ In 60%N t /\ clean_opt s | None => True end.
Definition std_clean (std : list (str * str)) : Prop := forall k t, assoc_str k std = Some t -> ~ In 60%N t.
Definition pub_clean (pk : publishers_kb) : Prop := forall k p t, assoc_str k pk = Some (p, t) -> ~ In 60%N t.
Definition rep_clean (m : imap str) : Prop := forall i t, iget i m = Some t -> ~ In 60%N t.
Lemma clean_series se i : clean_opt se -> num_ok i -> clean_opt (series_of se i).
Proof. intros S (_ & _ & _ & _ & N & _) t. unfold series_of. destruct (n_series i) as [[|]|], se as [[|]|]; auto. Qed.
Lemma numbered_clean chunk text i : numbered chunk text i -> num_ok i.
Proof.
  intros [H|_ H].
  - destruct (find_numeration_ok text) as (r & E & R). rewrite H in E. injection E as <-. now apply R.
  - destruct (find_numeration_more_ok (chunk ++ py " " ++ text)) as (r & E & R). rewrite H in E. injection E as <-. now apply R.
Qed.
Lemma journal_step line info previous sp idx ex std chunk sp' previous' : std_clean std -> prev_clean previous ->
  add_tagged_journal line info previous sp idx ex std = Ok (chunk, sp', previous') ->
  prev_clean previous' /\ ((chunk = [] /\ sp' = sp) \/ (idx <= sp' /\ exists d, closed d /\ chunk = slice sp idx line ++ d)).
Proof.
  intros Sc Pc. unfold add_tagged_journal.
  assert (forall d series title, ~ In 60%N title -> clean_opt series -> closed d ->
    (let* r := journal_numeration line (slice sp idx line ++ d) (skip_ponctuation line (idx + length info + ex)) series in
     match r with None => Ok ([], sp, previous) | Some (chunk', sp1, s) => Ok (chunk', sp1, Some (title, s)) end) = Ok (chunk, sp', previous') ->
    prev_clean previous' /\ ((chunk = [] /\ sp' = sp) \/ (idx <= sp' /\ exists d, closed d /\ chunk = slice sp idx line ++ d))) as F.
  { intros d series title T S D H. inv_ok H. apply numeration_ok in E. destruct a as [((c1 & sp1) & s1)|].
    - injection H as -> -> <-. destruct E as (i & N & -> & -> & ->). apply numbered_clean in N. split; [split; auto; now apply clean_series|]. right. split; [unfold skip_ponctuation; lia|].
      exists (d ++ numeration_tags (series_of series i) i). split; [|now rewrite app_assoc]. apply closed_app; auto. apply dead_numeration; auto. now apply clean_series.
    - injection H as <- <- <-. auto. }
  destruct (is_ibid_text info).
  - destruct previous as [(title & series)|]; [|intros [= <- <- <-]; auto]. destruct Pc as (C1 & C2). apply F; auto. apply closed_blank. apply closed_wrap; auto. cbn; tauto.
  - destruct (assoc_str info std) as [t|] eqn:A; [|discriminate]. specialize (Sc _ _ A). destruct (rsplit1 59%N t) as [(title & series)|] eqn:R.
    + apply rsplit1_some in R as (-> & _). apply lt_app in Sc as (S1 & S2). apply F; auto.
      * intros u [= <-] I. apply S2. right. now apply TagCount.strip_in'.
      * apply closed_wrap; auto. cbn; tauto.
    + apply F; auto; [discriminate|]. apply closed_wrap; auto. cbn; tauto.
Qed.
(** the pieces are behind each other, so that no part of the line that is counted appears twice *)
Lemma piece_count line b sp e idx d out : b <= sp -> b <= idx -> e <= idx -> closed d -> cnt out <= cnt (skipn idx line) -> cnt ((slice sp e line ++ d) ++ out) <= cnt (skipn b line).
Proof.
  intros B1 B2 Le D O. rewrite <- app_assoc, !hits_app. destruct (D (ends Q0 (slice sp e line))) as (-> & ->). cbn [plus].
  eapply Nat.le_trans; [apply Nat.add_le_mono_l, O|]. destruct (le_lt_dec sp e) as [Lt|Gt].
  - eapply Nat.le_trans; [|apply (hits_skipn w2 x (sp - b) (skipn b line) Q0)]. rewrite skipn_skipn. replace (sp - b + b) with sp by lia.
    eapply Nat.le_trans; [|apply (hits_cut w2 x sp e line Lt)]. apply Nat.add_le_mono_l.
    replace idx with ((idx - e) + e) by lia. rewrite <- skipn_skipn. apply hits_skipn.
  - assert (slice sp e line = []) as -> by (unfold slice; replace (e - sp) with 0 by lia; reflexivity). cbn [hits plus].
    replace idx with ((idx - b) + b) by lia. rewrite <- skipn_skipn. apply hits_skipn.
Qed.
Theorem rebuild_count line M std pk : std_clean std -> pub_clean pk -> rep_clean (lm_reprepl M) -> forall todo b sp previous out, by_key todo ->
  prev_clean previous -> b <= sp -> (forall i k, In (i, k) todo -> b <= place M i) ->
  rebuild_loop line M std pk todo sp previous = Ok out -> cnt out <= cnt (skipn b line).
Proof.
  intros Sc Kc Rc. induction todo as [|(i & k) t IH]; intros b sp previous out S Pc B Pl; cbn [rebuild_loop]; intros H.
  - injection H as <-. replace sp with ((sp - b) + b) by lia. rewrite <- skipn_skipn. apply hits_skipn.
  - inversion S as [|? ? S1 S2]; subst. rewrite Forall_forall in S2.
    assert (forall j k', In (j, k') t -> place M i <= place M j) as Mo by (intros j k' I; apply place_mono; apply S2 in I; cbn in I; lia).
    assert (b <= place M i) as Bi by (eapply Pl; left; reflexivity). destruct k.
    + destruct (iget i (lm_journals M)) as [info|]; [|discriminate]. cbn [key_err bind] in H.
      pose proof (place_any M (Some (length info)) i) as Ei. destruct (account_for_stripped_whitespace _ _ _) as (idx & ex). cbn [fst] in Ei. subst idx. inv_ok H. destruct a as ((chunk & sp') & pv). inv_ok H. injection H as <-.
      destruct (journal_step _ _ _ _ _ _ _ _ _ _ Sc Pc E) as (Pc' & [(-> & ->)|(Le & d & D & ->)]).
      * cbn [app]. apply (IH b sp pv); [exact S1|exact Pc'|exact B| |exact E0]. intros j k' I. eapply Pl. right. exact I.
      * apply (piece_count line b sp (place M i) (place M i)); auto. eapply IH; [exact S1|exact Pc'|exact Le|exact Mo|exact E0].
    + destruct (iget i (lm_replen M)) as [len|]; [|discriminate]. cbn [key_err bind] in H. destruct (iget i (lm_reprepl M)) as [r|] eqn:Er; [|discriminate]. cbn [key_err bind] in H.
      pose proof (place_any M (Some len) i) as Ei. destruct (account_for_stripped_whitespace _ _ _) as (idx & ex). cbn [fst] in Ei. subst idx. unfold add_tagged_report_number in H. inv_ok H. injection H as <-.
      assert (closed (wrap "REPORTNUMBER" r)) as D by (apply closed_wrap; [cbn; tauto|now apply (Rc i)]).
      assert (cnt a <= cnt (skipn (place M i) line)) as C by (eapply IH; [exact S1|exact Pc| |exact Mo|exact E]; destruct (closing_brace _); lia).
      destruct (sp + 1 <=? place M i); [apply (piece_count line b sp (place M i - 1) (place M i)); auto; lia|apply (piece_count line b sp (place M i) (place M i)); auto].
    + destruct (iget i (lm_publishers M)) as [name|]; [|discriminate]. cbn [key_err bind] in H.
      pose proof (place_any M None i) as Ei. destruct (account_for_stripped_whitespace _ _ _) as (idx & ex). cbn [fst] in Ei. subst idx. unfold add_tagged_publisher in H. destruct (assoc_str name pk) as [(q & r)|] eqn:Ek; [|discriminate].
      cbn [bind] in H. inv_ok H. injection H as <-. apply (piece_count line b sp (place M i) (place M i)); auto.
      * apply closed_wrap; [cbn; tauto|]. eapply Kc; eauto.
      * eapply IH; [exact S1|exact Pc| |exact Mo|exact E]. lia.
Qed.

(** ** A blank in a volume *)
Lemma volume_count s : cnt (wash_volume_tag s) <= cnt s.
Proof.
  unfold wash_volume_tag, sub_with. apply re_sub_hits; [now apply letter_next|now apply phase_next|]. intros o _ O. apply wrap_cheap; auto; [cbn; tauto|]. intros q.
  assert (~ In 60%N (g_str s o 1 ++ g_str s o 2)) as N.
  { apply lt_app. split; (eapply g_plain; [exact O|vm_compute; reflexivity|discriminate|vm_compute; reflexivity]). }
  destruct (plain_hits w2 x _ N) as (-> & _). lia.
Qed.

(** ** The report numbers *)
Lemma replace_lt a b s : ~ In 60%N b -> ~ In 60%N s -> ~ In 60%N (replace a b s).
Proof.
  intros B. unfold replace. generalize 0. induction s as [|c s IH]; intros k S; cbn [replace_aux]; [auto|]. assert (~ In 60%N s) by (intros I; apply S; now right). destruct k; [|now apply IH].
  destruct (prefixb a (c :: s)); [apply lt_app; auto|]. intros [->|I]; [apply S; now left|]. revert I. now apply IH.
Qed.
Lemma sub_from_lt (s : str) f : ~ In 60%N s -> forall ms p, (forall o, In o ms -> ~ In 60%N (f o)) -> ~ In 60%N (sub_from s f p ms).
Proof.
  intros S. induction ms as [|o ms IH]; intros p H; cbn [sub_from].
  - intros I. apply S. rewrite <- (firstn_skipn p s). apply in_or_app. now right.
  - apply lt_app. split; [intros I; apply S; eapply slice_in; eauto|]. apply lt_app. split; [apply H; now left|]. apply IH. intros o' I. apply H. now right.
Qed.
Lemma sub_text_lt p t s : ~ In 60%N t -> ~ In 60%N s -> ~ In 60%N (sub_text p t s).
Proof. intros T S. unfold sub_text, re_sub. apply sub_from_lt; auto. Qed.
Lemma clean_numeration_lt s : ~ In 60%N s -> ~ In 60%N (clean_numeration s).
Proof.
  intros S. unfold clean_numeration. repeat (apply replace_lt; [vm_compute; intuition discriminate|]). apply sub_text_lt; [vm_compute; intuition discriminate|].
  apply replace_lt; auto. vm_compute; intuition discriminate.
Qed.
(** no standard form of a report number and no reading of its digits has a "<" *)
Definition clean_reports (kb : repnum_kb) : bool :=
  forallb (fun e => names_avoid (snd e) ["numn"%string]) (rk_search kb) && forallb (fun e => negb (mem_ch 60%N (snd e))) (rk_std kb).
Lemma mem_lt s : negb (mem_ch 60%N s) = true <-> ~ In 60%N s.
Proof. rewrite negb_true_iff, <- not_true_iff_false. now rewrite ListFacts.mem_ch_in. Qed.
Lemma assoc_rep_in {A} k (l : list (repkey * A)) v : assoc_rep k l = Some v -> exists k', In (k', v) l.
Proof. induction l as [|(k', v') l IH]; cbn; [discriminate|]. destruct (repkey_eqb k k'); [intros [= ->]; eauto|]. intros H. destruct (IH H) as (j & I). eauto. Qed.
Lemma repnum_hits_clean p std subject : names_avoid p ["numn"%string] = true -> ~ In 60%N std -> forall ms s s', (forall o, In o ms -> obj_ok subject (rx_re p) o) ->
  (forall e, In e (r_repl s) -> ~ In 60%N (snd e)) -> repnum_hits p std subject ms s = Ok s' -> forall e, In e (r_repl s') -> ~ In 60%N (snd e).
Proof.
  intros Na Sd. induction ms as [|o ms IH]; intros s s' Ok_ R; cbn [repnum_hits]; intros H; [injection H as <-; exact R|]. inv_ok H. destruct a as [n|]; [|discriminate].
  destruct (g_span o 1) as [(u & v)|]; [|discriminate]. eapply IH; [|  |exact H]; [intros; apply Ok_; now right|]. cbn [r_repl]. intros e I. apply iput_incl in I as [->|I]; [|auto]. cbn [snd].
  apply lt_app. split; auto. apply clean_numeration_lt. destruct (names_avoid_in _ _ "numn" Na) as (Pl & Av); [now left|]. apply group_named_get in E. eapply name_get; eauto. apply Ok_. now left.
Qed.
Lemma repnum_clean kb : clean_reports kb = true -> forall cs s s', (forall e, In e (r_repl s) -> ~ In 60%N (snd e)) -> repnum_categs kb cs s = Ok s' -> forall e, In e (r_repl s') -> ~ In 60%N (snd e).
Proof.
  unfold clean_reports. rewrite andb_true_iff, !forallb_forall. intros (C1 & C2). induction cs as [|c cs IH]; intros s s' R; cbn [repnum_categs]; intros H; [injection H as <-; exact R|].
  destruct (assoc_rep c (rk_search kb)) as [p|] eqn:Ep; [|discriminate]. destruct (assoc_rep c (rk_std kb)) as [std|] eqn:Es; [|discriminate]. inv_ok H. eapply IH; [|exact H].
  apply assoc_rep_in in Ep as (k1 & Ep). apply assoc_rep_in in Es as (k2 & Es). eapply repnum_hits_clean; [exact (C1 _ Ep)|apply mem_lt, (C2 _ Es)| |exact R|exact E]. intros o I. now apply finditer_obj.
Qed.
Lemma reports_clean line kb r : clean_reports kb = true -> identify_report_numbers line kb = Ok r -> rep_clean (r_repl r).
Proof.
  intros C H i t G. apply iget_in in G. unfold identify_report_numbers in H. refine (repnum_clean kb C _ _ _ _ H (i, t) G). cbn. tauto.
Qed.
Lemma types_sorted a b c : by_key (get_replacement_types a b c).
Proof.
  unfold get_replacement_types, put_kind.
  assert (forall (k : kind) (l : list nat) (m : imap kind), by_key m -> by_key (fold_left (fun m i => iput i k m) l m)) as F.
  { induction l as [|i l IH]; intros m S; cbn [fold_left]; auto. apply IH. now apply iput_sorted. }
  repeat apply F. constructor.
Qed.
End Rebuild.
