(** A line of a text without "<" is tagged with as many "<cds.URL" and "<cds.DOI" at most as addresses and DOIs were found in it *)
From Coq Require Import List Arith NArith Bool String Lia.
From Verif Require Import PyStr ListFacts Regex RegexMeta RegexParse Patterns Numeration DocText Tag ParseTagged RecordProofs ParseProofs WashProofs HitProofs TagCount NumTotal ElementsOk TagOk
  RebuildProofs UrlProofs AuthorProofs TagRebuild LateTags LateNames LateLine Chars.
Import ListNotations.
Local Open Scope nat_scope.
Local Notation length := List.length.

(** ** DOIs and addresses *)
Lemma weave_hits x tag d : (forall q, hits w1 x q tag = d /\ ends q tag = Q0) -> forall kept found q, length kept = S (length found) ->
  hits w1 x q (weave kept (repeat tag (length found))) <= hits w1 x q (weave kept found) + d * length found.
Proof.
  intros T. induction kept as [|k ks IH]; intros [|t ts] q L; try discriminate; cbn [length repeat weave]; [lia|].
  rewrite !hits_app. destruct (T (ends q k)) as (-> & ->). injection L as L. specialize (IH ts Q0 L). pose proof (hits_from w1 x (weave ks ts) (ends (ends q k) t)). lia.
Qed.
Lemma url_tag_hits q : (hits w1 85 q url_tag = 1 /\ ends q url_tag = Q0) /\ (hits w1 68 q url_tag = 0 /\ ends q url_tag = Q0).
Proof. destruct q; vm_compute; auto. Qed.
Lemma doi_tag_hits q : (hits w1 85 q doi_tag = 0 /\ ends q doi_tag = Q0) /\ (hits w1 68 q doi_tag = 1 /\ ends q doi_tag = Q0).
Proof. destruct q; vm_compute; auto. Qed.
Definition no_link (s : str) : Prop := forall d, nth_error s 1 = Some d -> nth_error s 0 = Some 60%N -> d <> 97%N /\ d <> 65%N.
Lemma clear_app k : forall s, ~ In 60%N k -> clear_check s = true -> no_link s -> clear_check (k ++ s) = true /\ no_link (k ++ s).
Proof.
  induction k as [|c k IH]; intros s N C H; auto. cbn [app clear_check]. destruct (IH s) as (A & B); auto; [intros I; apply N; now right|]. rewrite A, andb_true_r. split.
  - remember (k ++ s) as r. destruct r as [|e [|d r]]; auto. destruct (N.eqb_spec e 60) as [->|]; auto. destruct (B d eq_refl eq_refl) as (A1 & B1). apply N.eqb_neq in A1, B1. now rewrite A1, B1.
  - intros d _ E. cbn in E. injection E as ->. exfalso. apply N. now left.
Qed.
Lemma weave_clear kept : forall found : list str, (forall k, In k kept -> ~ In 60%N k) -> clear_check (weave kept (repeat doi_tag (length found))) = true /\ no_link (weave kept (repeat doi_tag (length found))).
Proof.
  assert (no_link []) as Nl by discriminate.
  induction kept as [|k ks IH]; intros found H; [auto|]. destruct found as [|t ts]; cbn [length repeat weave].
  - rewrite <- (app_nil_r k). apply clear_app; auto. apply H. now left.
  - destruct (IH ts (fun k I => H k (or_intror I))) as (A & B). set (s := weave ks _) in *. apply clear_app; [apply H; now left| |intros d E _; cbn in E; injection E as <-; split; discriminate].
    change (doi_tag ++ s) with (60%N :: py "cds.DOI />" ++ s). assert (~ In 60%N (py "cds.DOI />")) as Nt by (vm_compute; intuition discriminate). destruct (clear_app _ s Nt A B) as (A' & _).
    change (clear_check (60%N :: py "cds.DOI />" ++ s)) with (true && clear_check (py "cds.DOI />" ++ s)). exact A'.
Qed.
Lemma weave_parts c : forall kept found, length kept = S (length found) -> ~ In c (weave kept found) -> forall k, In k kept -> ~ In c k.
Proof.
  induction kept as [|k0 ks IH]; intros [|t ts] L N k I; try discriminate; cbn [weave] in N.
  - destruct ks; [|discriminate]. destruct I as [<-|[]]; auto.
  - rewrite !in_app_iff in N. destruct I as [<-|I]; [tauto|]. injection L as L. apply (IH ts L); tauto.
Qed.
Lemma forall2_length {A B} (R : A -> B -> Prop) a b : Forall2 R a b -> length a = length b.
Proof. induction 1; cbn; auto. Qed.
Theorem marks_count E rest l1 dois l2 urls : ~ In 60%N rest -> identify_and_tag_DOI E rest = (l1, dois) -> identify_and_tag_URLs l1 = (l2, urls) ->
  hits w1 85 Q0 l2 <= length urls /\ hits w1 68 Q0 l2 <= length dois.
Proof.
  intros N D U. destruct (doi_spec E rest) as (k1 & f1 & L1 & E1 & O1 & F1 & _). rewrite D in O1, F1. cbn [fst snd] in O1, F1.
  assert (clear_tags l1) as C.
  { apply clear_check_ok. rewrite O1. apply weave_clear. intros k I. revert k I. rewrite E1 in N. eapply weave_parts; eauto. }
  destruct (urls_spec l1 C) as (k2 & f2 & L2 & E2 & O2 & F2 & _). rewrite U in O2, F2. cbn [fst snd] in O2, F2.
  apply forall2_length in F1, F2. rewrite <- F1, <- F2. destruct (plain_hits w1 85 rest N) as (Z1 & _). destruct (plain_hits w1 68 rest N) as (Z2 & _).
  rewrite O2. split.
  - pose proof (weave_hits 85 url_tag 1 (fun q => proj1 (url_tag_hits q)) k2 f2 Q0 L2) as A. rewrite <- E2, O1 in A.
    pose proof (weave_hits 85 doi_tag 0 (fun q => proj1 (doi_tag_hits q)) k1 f1 Q0 L1) as B. rewrite <- E1, Z1 in B. lia.
  - pose proof (weave_hits 68 url_tag 0 (fun q => proj2 (url_tag_hits q)) k2 f2 Q0 L2) as A. rewrite <- E2, O1 in A.
    pose proof (weave_hits 68 doi_tag 1 (fun q => proj2 (doi_tag_hits q)) k1 f1 Q0 L1) as B. rewrite <- E1, Z2 in B. lia.
Qed.

(** ** The knowledge bases, the expressions for authors and the characters *)
Definition no_lt (s : str) : bool := negb (mem_ch 60%N s).
(** no title, publisher or report number has a "<", and no correction of an author's name makes a tag *)
Definition plain_kbs (K : kbs) : bool :=
  forallb (fun e => no_lt (snd e)) (jk_std (k_journals K)) && forallb (fun e => no_lt (snd e)) (k_journals_re K)
  && forallb (fun e => no_lt (snd (snd e))) (k_publishers K) && clean_reports (k_reports K)
  && clean_names 85 (k_authors K) && clean_names 68 (k_authors K) && clean_collabs (k_collabs K).
(** the names an author expression finds are not within tags, and two digits of a year are read as they are today *)
Definition sound_env (E : env) : bool :=
  (now_year E <=? 2100)%N && name_late 85 82 (re_auth E) "author_names" && name_late 68 79 (re_auth E) "author_names".
(** a set of characters: with all of ASCII and with every upper case form, and no other character than "<" is transliterated into a text with "<" *)
Record writing (E : env) (P : N -> Prop) : Prop := mkwr {
  wr_table : exists u, transliterates E u /\ forall c, P c -> tame u c;
  wr_ascii : forall c, (c < 128)%N -> P c;
  wr_upper : forall c, P c -> Forall P (upper_ch c) }.
(** the texts of the knowledge bases that can come into a line are written in it *)
Record written (P : N -> Prop) (K : kbs) : Prop := mkwn {
  wn_titles : forall k t, In (k, t) (jk_std (k_journals K)) -> Forall P t;
  wn_titles_re : forall k t, In (k, t) (k_journals_re K) -> Forall P t;
  wn_publishers : forall k p t, In (k, (p, t)) (k_publishers K) -> Forall P t;
  wn_reports : forall k t, In (k, t) (rk_std (k_reports K)) -> Forall P t;
  wn_names : forall a b, In (a, b) (k_authors K) -> Forall P b }.

Lemma sput_in {A} (e : str * A) k v : forall m, In e (sput k v m) -> In (snd e) (map snd m) \/ snd e = v.
Proof.
  induction m as [|(k', v') m IH]; cbn [sput]; [intros [<-|[]]; auto|]. destruct (eqs k k'); intros [<-|I]; cbn [map snd In]; auto.
  - left. right. now apply in_map.
  - destruct (IH I); auto.
Qed.
Lemma supdate_in {A} (e : str * A) : forall b a, In e (supdate a b) -> In (snd e) (map snd a) \/ In (snd e) (map snd b).
Proof.
  unfold supdate. induction b as [|(k, v) b IH]; intros a H; cbn [fold_left fst snd] in H; [left; now apply in_map|]. apply IH in H as [H|H]; cbn [map In snd]; [|auto].
  apply in_map_iff in H as (e' & Ev & H). apply sput_in in H. rewrite <- Ev. destruct H; auto.
Qed.
Lemma supdate_all {A} (Q : A -> Prop) a b : (forall e, In e a -> Q (snd e)) -> (forall e, In e b -> Q (snd e)) -> forall e, In e (supdate a b) -> Q (snd e).
Proof. intros Ha Hb e I. apply supdate_in in I as [I|I]; apply in_map_iff in I as (e' & <- & I); auto. Qed.

(** ** One line *)
Lemma rebuild_start x line M std pk todo out : letter x -> std_clean std -> pub_clean pk -> rep_clean (lm_reprepl M) -> by_key todo ->
  rebuild_loop line M std pk todo 0 None = Ok out -> hits w2 x Q0 out <= hits w2 x Q0 line.
Proof. intros L S Pk R B H. apply (rebuild_count x L line M std pk S Pk R todo 0 0 None out B I (le_n 0)) in H; auto. intros; lia. Qed.
Section Line.
Variables (E : env) (P : N -> Prop) (K : kbs).
Hypothesis Wr : writing E P.
Hypothesis Wn : written P K.
Hypothesis Pe : sound_env E = true.
Hypothesis Pk : plain_kbs K = true.
Let std := supdate (jk_std (k_journals K)) (k_journals_re K).
Lemma std_ok : std_clean std /\ std_all P std.
Proof.
  unfold plain_kbs in Pk. rewrite !andb_true_iff, !forallb_forall in Pk. destruct Pk as ((((((K1 & K2) & K3) & K4) & K5) & K6) & K7).
  split; intros k t A; apply assoc_in in A; fold std in A.
  - refine (supdate_all (fun t => ~ In 60%N t) _ _ _ _ (k, t) A); intros e I; apply mem_lt; [now apply K1|now apply K2].
  - refine (supdate_all (Forall P) _ _ _ _ (k, t) A); intros (k1, t1) I; cbn [snd]; [eapply wn_titles; eauto|eapply wn_titles_re; eauto].
Qed.
Lemma process_count x y line M tagged : letters x y -> Forall P line -> rep_clean (lm_reprepl M) -> rep_all P (lm_reprepl M) ->
  process_reference_line E line M std K = Ok tagged -> lhits false x y L0 tagged <= hits w2 x Q0 line.
Proof.
  intros Le Al Rc Ra H. pose proof (letters_x _ _ Le) as L. destruct std_ok as (Sc & Sa). destruct Wr as [(u & U & T) Wa Wu]. destruct Wn as [N1 N2 N3 N4 N5].
  unfold plain_kbs in Pk. rewrite !andb_true_iff, !forallb_forall in Pk. destruct Pk as ((((((K1 & K2) & K3) & K4) & K5) & K6) & K7).
  unfold sound_env in Pe. rewrite !andb_true_iff in Pe. destruct Pe as ((_ & E1) & E2).
  assert (name_late x y (re_auth E) "author_names" = true /\ clean_names x (k_authors K) = true) as (Na & Nk) by (destruct Le as [(-> & ->)|(-> & ->)]; auto).
  unfold process_reference_line in H. inv_ok H. rename a into l0, E0 into R.
  assert (hits w2 x Q0 l0 <= hits w2 x Q0 line /\ Forall P l0) as (C0 & A0).
  { destruct (_ =? 0); [injection R as <-; auto|]. cbv zeta in R. inv_ok R. injection R as <-. rename a into l1, E0 into R.
    assert (pub_clean (k_publishers K)) as Pc by (intros k p t A; apply assoc_in in A; apply mem_lt; exact (K3 _ A)).
    assert (pub_all P (k_publishers K)) as Pa by (intros k p t A; apply assoc_in in A; eapply N3; eauto). split.
    - eapply Nat.le_trans; [apply volume_count, L|]. eapply rebuild_start; eauto. apply types_sorted.
    - apply (volume_all P Wa). eapply (rebuild_all P Wa Wu); [exact Al|exact Sa|exact Pa|exact Ra| |exact R]. exact I. }
  inv_ok H. rename a into l2, E0 into Au. inv_ok H. rename a into l3, E0 into Co. injection H as <-. rewrite late_newlines by exact Le.
  apply (collabs_cnt x y Le _ K7) in Co. apply (authors_cnt x y Le E u) in Au; auto.
  - lia.
  - eapply Forall_impl; [exact T|]. apply (corrections_all P); auto.
Qed.
Theorem tag_count x y line titles r : letters x y -> Forall P line -> tag_reference_line E line K titles = Ok r ->
  lhits false x y L0 (fst (fst r)) <= hits w1 x Q0 line.
Proof.
  intros Le Al H. unfold tag_reference_line in H. fold std in H. set (l1 := working_line1 E line) in *. cbv zeta in H.
  assert (hits w2 x Q0 l1 <= hits w1 x Q0 line) as C.
  { eapply Nat.le_trans; [apply hits_w21|]. apply working_line_hits; [exact (letters_x _ _ Le)|]. unfold sound_env in Pe. rewrite !andb_true_iff in Pe. destruct Pe as ((Ye & _) & _). apply N.leb_le. exact Ye. }
  destruct Wr as [_ Wa Wu]. pose proof (working_all P Wa E line Al) as A1. fold l1 in A1. clearbody l1. inv_ok H.
  set (l2 := sub_text re_punctuation (py " ") (upper (strip_tags l1))) in *. assert (Forall P l2) as A2.
  { apply (sub_text_all P); [now apply (lit_all P Wa)|]. apply (upper_all P Wu). now apply (strip_tags_all P Wa). }
  clearbody l2. unfold remove_and_record_multiple_spaces_in_line in H. set (l3 := re_sub _ _ l2) in H. assert (Forall P l3) as A3 by (apply (re_sub_all P); auto; intros; now apply (lit_all P Wa)).
  clearbody l3. inv_ok H. rename a0 into r0, E1 into Rn. inv_ok H. inv_ok H.
  destruct (if contains _ _ then _ else _) as (jm2 & l4). inv_ok H. injection H as <-. cbn [fst].
  eapply Nat.le_trans; [|exact C]. eapply process_count; eauto; cbn [lm_reprepl].
  - unfold plain_kbs in Pk. rewrite !andb_true_iff in Pk. destruct Pk as ((((((K1 & K2) & K3) & K4) & K5) & K6) & K7). eapply reports_clean; [exact K4|exact Rn].
  - eapply (reports_all P Wa); [|exact A3|exact Rn]. apply Wn.
Qed.
End Line.
