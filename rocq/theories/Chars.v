(** Where the characters of a tagged line come from: a property of characters that all ASCII characters have, that
    is kept by changing case, and that the characters of the line and of the knowledge bases have, holds of all
    characters of the tagged line. *)
From Coq Require Import List Arith NArith Bool String Lia.
From Verif Require Import PyStr ListFacts Regex RegexMeta RegexParse Patterns Numeration DocText Tag RecordProofs TagCount TagOk UrlProofs AuthorProofs RebuildProofs NormalProofs TagRebuild.
Import ListNotations.
Local Open Scope nat_scope.
Local Notation length := List.length.

Section Chars.
Variable P : N -> Prop.
Hypothesis Pascii : forall c, (c < 128)%N -> P c.
Hypothesis Pupper : forall c, P c -> Forall P (upper_ch c).
Notation all := (Forall P).

(** ** Strings *)
Lemma lit_all s : forallb (fun c => (c <? 128)%N) s = true -> all s.
Proof. intros H. rewrite forallb_forall in H. apply Forall_forall. intros c I. apply Pascii, N.ltb_lt, H, I. Qed.
Lemma sub_all (s t : str) : (forall c, In c t -> In c s) -> all s -> all t.
Proof. rewrite !Forall_forall. auto. Qed.
Lemma slice_all a b s : all s -> all (slice a b s).
Proof. apply sub_all. intros c. apply slice_in. Qed.
Lemma skipn_all' n s : all s -> all (skipn n s).
Proof. apply sub_all. intros c I. rewrite <- (firstn_skipn n s). apply in_or_app. now right. Qed.
Lemma firstn_all' n s : all s -> all (firstn n s).
Proof. apply sub_all. intros c I. rewrite <- (firstn_skipn n s). apply in_or_app. now left. Qed.
Lemma app_all a b : all a -> all b -> all (a ++ b).
Proof. intros. apply Forall_app. auto. Qed.
Lemma g_str_all s o i : all s -> all (g_str s o i).
Proof. intros H. unfold g_str, g_text. destruct (g_span o i) as [(a, b)|]; [now apply slice_all|constructor]. Qed.
Lemma tgrp_all p s o n : all s -> all (tgrp p s o n).
Proof. intros H. unfold tgrp. destruct (assoc_str _ _); [now apply g_str_all|constructor]. Qed.
Definition oall (v : option str) : Prop := match v with Some t => all t | None => True end.
Lemma gd_get_all p s o n : all s -> oall (gd_get p s o n).
Proof. intros H. unfold gd_get, g_text. destruct (assoc_str _ _) as [i|]; [|exact I]. destruct (g_span o i) as [(a, b)|]; [now apply slice_all|exact I]. Qed.
Lemma show_all v : oall v -> all (show v).
Proof. destruct v; cbn [show]; auto. intros _. now apply lit_all. Qed.
Lemma wrap_all t g : forallb (fun c => (c <? 128)%N) (py t) = true -> all g -> all (wrap t g).
Proof. intros T G. unfold wrap. repeat apply app_all; auto; now apply lit_all. Qed.
Lemma strip_chars_all cs s : all s -> all (strip_chars cs s). Proof. apply sub_all. intros c. apply strip_in. Qed.
Lemma strip_all s : all s -> all (strip s). Proof. apply sub_all. intros c. apply strip_in'. Qed.

(** ** Replacements *)
Lemma sub_from_all s f : all s -> forall ms p, (forall o, In o ms -> all (f o)) -> all (sub_from s f p ms).
Proof.
  intros S. induction ms as [|o ms IH]; intros p H; cbn [sub_from]; [now apply skipn_all'|]. repeat apply app_all; [now apply slice_all|apply H; now left|]. apply IH. intros; apply H; now right.
Qed.
Lemma re_sub_all r s f : all s -> (forall o, all (f o)) -> all (re_sub r f s).
Proof. intros S H. unfold re_sub. apply sub_from_all; auto. Qed.
Lemma sub_text_all p t s : all t -> all s -> all (sub_text p t s).
Proof. intros T S. now apply re_sub_all. Qed.
Lemma sub_with_all p f s : all s -> (forall o, all (f s o)) -> all (sub_with p f s).
Proof. intros S H. now apply re_sub_all. Qed.
Lemma replace_all a b s : all b -> all s -> all (replace a b s).
Proof.
  intros B. unfold replace. generalize 0. induction s as [|c s IH]; intros k S; cbn [replace_aux]; [constructor|]. inversion S; subst. destruct k; [|now apply IH].
  destruct (prefixb a (c :: s)); [apply app_all; auto|constructor; auto].
Qed.

(** ** The steps before titles are looked up *)
Lemma wash_all s : all s -> all (wash_line s).
Proof. intros S. unfold wash_line. repeat (apply sub_text_all; [now apply lit_all|]). exact S. Qed.

Lemma upper_all s : all s -> all (upper s).
Proof. induction 1; cbn; [constructor|]. apply app_all; auto. Qed.
Lemma filter_all f s : all s -> all (filter f s).
Proof. apply sub_all. intros c I. now apply filter_In in I as [I _]. Qed.
Lemma underscores_all n : all (underscores n).
Proof. unfold underscores. induction n; constructor; auto. now apply Pascii. Qed.
Lemma mask_all' a b n s : all s -> all (mask a b n s).
Proof. intros H. unfold mask. apply app_all; [now apply firstn_all'|]. apply app_all; [apply underscores_all|now apply skipn_all']. Qed.
Lemma arxiv_all p s : all s -> all (sub_with p (arxiv_tagger p) s).
Proof.
  intros S. apply sub_with_all; auto. intros o. unfold arxiv_tagger. apply wrap_all; [reflexivity|]. repeat apply app_all; try (now apply lit_all); try (apply show_all, gd_get_all; auto).
  pose proof (gd_get_all p s o "suffix" S) as G. destruct (gd_get p s o "suffix") as [[|c t]|]; constructor; auto. now apply Pascii.
Qed.
Lemma old_arxiv_table e : In e re_old_arxiv -> match snd e with Some t => forallb (fun c => (c <? 128)%N) t = true | None => True end.
Proof.
  assert (forallb (fun e : rx * option str => match snd e with Some t => forallb (fun c => (c <? 128)%N) t | None => true end) re_old_arxiv = true) as H by (vm_compute; reflexivity).
  rewrite forallb_forall in H. intros I. specialize (H _ I). destruct (snd e); auto.
Qed.
Lemma arxiv_more_all s : all s -> all (tag_arxiv_more s).
Proof.
  intros S. unfold tag_arxiv_more. set (s1 := sub_with re_arxiv_catchup _ s). assert (all s1) as S1.
  { apply sub_with_all; auto. intros o. repeat apply app_all; try (now apply lit_all); apply tgrp_all; auto. }
  clearbody s1. clear s S. pose proof old_arxiv_table as T. revert s1 S1 T. induction re_old_arxiv as [|e l IH]; intros s S T; cbn [fold_left]; auto.
  apply IH; [|intros e' I; apply T; now right]. apply sub_with_all; auto. intros o. unfold old_arxiv_repl. apply wrap_all; [reflexivity|]. specialize (T e (or_introl eq_refl)).
  apply app_all; [destruct (snd e); [now apply lit_all|now apply tgrp_all]|]. apply app_all; [now apply lit_all|now apply tgrp_all].
Qed.
Lemma pos_all s : all s -> all (tag_pos_volume s).
Proof.
  unfold tag_pos_volume. revert s. induction re_pos as [|p l IH]; intros s S; cbn [fold_left]; auto. apply IH. apply sub_with_all; auto. intros o. unfold pos_tagger.
  assert (oall (pos_year p s o)) as Y.
  { unfold pos_year. destruct (group_named p s o (py "year")) as [y|] eqn:G.
    - unfold group_named in G. destruct (assoc_str _ _) as [i|]; [|discriminate]. injection G as <-. unfold g_text. destruct (g_span o i) as [(a, b)|]; [now apply slice_all|exact I].
    - destruct (re_search _ _); [|exact I]. apply slice_all, show_all, gd_get_all, S. }
  repeat apply app_all; try (now apply lit_all); try (apply show_all, gd_get_all; exact S).
  destruct (pos_year p s o) as [[|c t]|]; [constructor| |constructor]. apply app_all; [now apply lit_all|]. apply wrap_all; [reflexivity|]. apply app_all; [now apply lit_all|]. apply app_all; [|now apply lit_all].
  apply strip_chars_all, strip_all, Y.
Qed.
Theorem working_all E s : all s -> all (working_line1 E s).
Proof.
  intros S. unfold working_line1. cbv zeta.
  assert (all (tag_quoted_text (wash_line (tag_pos_volume (wash_line s))))) as Q.
  { unfold tag_quoted_text. apply sub_with_all; [apply wash_all, pos_all, wash_all, S|]. intros o. apply wrap_all; [reflexivity|]. apply tgrp_all, wash_all, pos_all, wash_all, S. }
  set (q := tag_quoted_text _) in *. assert (all (tag_isbn q)) as I1 by (apply sub_with_all; auto; intros o; apply wrap_all; [reflexivity|]; now apply tgrp_all).
  assert (all (tag_arxiv E (tag_isbn q))) as A by (unfold tag_arxiv; cbv zeta; now repeat apply arxiv_all).
  pose proof (pos_all _ (arxiv_more_all _ A)) as Po. set (r := tag_pos_volume (tag_arxiv_more _)) in *. clearbody r. unfold tag_atlas_conf. cbv zeta. match goal with |- all (sub_with _ _ ?z) => set (r1 := z) end.
  assert (all r1) as R1 by (apply sub_with_all; auto; intros o; apply wrap_all; [reflexivity|]; apply app_all; [now apply lit_all|now apply tgrp_all]).
  apply sub_with_all; auto. intros o. apply wrap_all; [reflexivity|]. apply app_all; [now apply lit_all|now apply tgrp_all].
Qed.
Lemma strip_tags_all s : all s -> all (strip_tags s).
Proof.
  unfold strip_tags. generalize (re_finditer (rx_re re_tag) s). intros ms. revert s. induction ms as [|o ms IH]; intros s S; cbn [fold_left]; auto. apply IH.
  unfold re_sub1. apply sub_from_all; auto. intros. apply underscores_all.
Qed.

(** ** Numeration *)
Definition num_all (i : numinfo) : Prop := oall (n_year i) /\ oall (n_series i) /\ oall (n_volume i) /\ oall (n_page i) /\ oall (n_page_end i).
Lemma gd_all p s o n v : all s -> gd p s o n = Ok v -> oall v.
Proof. intros S. unfold gd. pose proof (gd_get_all p s o n S) as G. unfold gd_get in G. destruct (assoc_str (py n) (rx_names p)); [intros [= <-]; exact G|discriminate]. Qed.
Lemma series_all v : all v -> oall (extract_series_from_volume v).
Proof.
  intros V. unfold extract_series_from_volume. destruct (re_search (rx_re re_series_from_numeration) v); [apply upper_all, g_str_all, V|].
  destruct (re_search _ v); [apply upper_all, g_str_all, V|exact I].
Qed.
Lemma vol_all p s o v : all s -> vol_num_of p s o = Ok v -> oall v.
Proof.
  intros S H. unfold vol_num_of in H. inv_ok H. apply gd_all in E; auto. destruct (truthy_str a); [injection H as <-; auto|]. inv_ok H. apply gd_all in E0; auto.
  destruct (truthy_str a0); [injection H as <-; auto|]. now apply gd_all in H.
Qed.
Lemma or_all a b : oall a -> oall b -> oall (or_else a b).
Proof. destruct a as [[|]|], b; cbn; auto. Qed.
Lemma jinst_all p s o (pg j : option str) : all s -> (if truthy_str pg then Ok None else gd p s o "jinst_page") = Ok j -> oall j.
Proof. intros S. destruct (truthy_str pg); [intros [= <-]; exact I|apply gd_all, S]. Qed.
Lemma info_all p s o i : all s -> numeration_info p s o = Ok i -> num_all i.
Proof.
  intros S H. unfold numeration_info in H. inv_ok H. cbv zeta in H. inv_ok H. inv_ok H. inv_ok H. inv_ok H. inv_ok H. injection H as <-. 
  assert (oall a0) as Se.
  { destruct (truthy_str _); [injection E0 as <-; now apply gd_get_all|]. inv_ok E0. injection E0 as <-. apply series_all. apply gd_all in E; auto. destruct a; [|discriminate]. cbn in E5. injection E5 as ->. exact E. }
  repeat split; cbn [n_year n_series n_volume n_page n_page_end]; auto; [now apply gd_get_all|eapply vol_all; eauto|apply or_all; [eapply gd_all; eauto|eapply jinst_all; eauto]|eapply gd_all; eauto].
Qed.
Lemma info_more_all p s o i : all s -> numeration_info_more p s o = Ok i -> num_all i.
Proof.
  intros S H. unfold numeration_info_more in H. inv_ok H. inv_ok H. cbv zeta in H. inv_ok H. inv_ok H. inv_ok H. inv_ok H. inv_ok H. inv_ok H. injection H as <-.
  assert (oall (extract_series_from_volume a0)) as Se.
  { apply series_all. apply gd_all in E; auto. destruct a; [|discriminate]. cbn in E0. injection E0 as ->. exact E. }
  repeat split; cbn [n_year n_series n_volume n_page n_page_end]; auto; [now apply gd_get_all|eapply vol_all; eauto|apply or_all; [eapply gd_all; eauto|eapply jinst_all; eauto]|eapply gd_all; eauto].
Qed.
Lemma with_all s i : all s -> forall ps, find_numeration_with ps s = Ok (Some i) -> num_all i.
Proof. intros S. induction ps as [|p l IH]; cbn [find_numeration_with]; intros H; [discriminate|]. destruct (re_match (rx_re p) s); [|auto]. inv_ok H. injection H as <-. eapply info_all; eauto. Qed.
Lemma more_with_all s i : all s -> forall ps, find_numeration_more_with ps s = Ok (Some i) -> num_all i.
Proof. intros S. induction ps as [|p l IH]; cbn [find_numeration_more_with]; intros H; [discriminate|]. destruct (re_search (rx_re p) s); [|auto]. inv_ok H. injection H as <-. eapply info_more_all; eauto. Qed.
Lemma find_all s i : all s -> find_numeration s = Ok (Some i) -> num_all i.
Proof. unfold find_numeration. intros S. apply with_all, S. Qed.
Lemma find_more_all s i : all s -> find_numeration_more s = Ok (Some i) -> num_all i.
Proof. unfold find_numeration_more. intros S. apply more_with_all, S. Qed.
Lemma numbered_all chunk text i : all chunk -> all text -> numbered chunk text i -> num_all i.
Proof.
  intros C T [H|_ H]; [eapply find_all; eauto|]. eapply find_more_all; [|exact H]. apply app_all; auto. apply app_all; auto. now apply lit_all.
Qed.
Lemma num_tags_all se i : oall se -> num_all i -> all (numeration_tags se i).
Proof.
  intros Se (Y & _ & V & Pg & Pe). unfold numeration_tags.
  apply app_all; [now apply lit_all|]. apply app_all; [destruct se; [exact Se|constructor]|]. apply app_all; [now apply show_all|]. apply app_all; [now apply lit_all|]. apply app_all.
  2: apply app_all; [now apply lit_all|]; apply app_all; [now apply show_all|]; apply app_all; [|now apply lit_all].
  - destruct (n_year i) as [[|c y]|]; [constructor| |constructor]. repeat apply app_all; auto; now apply lit_all.
  - destruct (n_page_end i) as [[|c y]|]; [constructor| |constructor]. apply app_all; auto; now apply lit_all.
Qed.
Lemma series_of_all se i : oall se -> num_all i -> oall (series_of se i).
Proof. intros S (_ & N & _). unfold series_of. destruct (n_series i) as [[|]|], se as [[|]|]; auto. Qed.

(** ** Rebuilding *)
Definition prev_all (p : prev) : Prop := match p with Some (t, s) => all t /\ oall s | None => True end.
Definition std_all (std : list (str * str)) : Prop := forall k t, assoc_str k std = Some t -> all t.
Definition pub_all (pk : publishers_kb) : Prop := forall k p t, assoc_str k pk = Some (p, t) -> all t.
Definition rep_all (m : imap str) : Prop := forall i t, iget i m = Some t -> all t.
Lemma journal_all line info previous sp idx ex std chunk sp' previous' : all line -> std_all std -> prev_all previous ->
  add_tagged_journal line info previous sp idx ex std = Ok (chunk, sp', previous') -> prev_all previous' /\ all chunk.
Proof.
  intros Al Sc Pc. unfold add_tagged_journal.
  assert (forall d series title, all title -> oall series -> all d ->
    (let* r := journal_numeration line (slice sp idx line ++ d) (skip_ponctuation line (idx + length info + ex)) series in
     match r with None => Ok ([], sp, previous) | Some (chunk', sp1, s) => Ok (chunk', sp1, Some (title, s)) end) = Ok (chunk, sp', previous') ->
    prev_all previous' /\ all chunk) as F.
  { intros d series title T S D H. assert (all (slice sp idx line ++ d)) as Ac by (apply app_all; auto; now apply slice_all). inv_ok H. apply numeration_ok in E. destruct a as [((c1 & sp1) & s1)|].
    - injection H as -> -> <-. destruct E as (i & N & -> & -> & ->). apply numbered_all in N; [|exact Ac|now apply skipn_all']. split; [split; auto; now apply series_of_all|].
      apply app_all; auto. apply num_tags_all; auto. now apply series_of_all.
    - injection H as <- <- <-. split; auto. }
  destruct (is_ibid_text info).
  - destruct previous as [(title & series)|]; [|intros [= <- <- <-]; split; [exact I|constructor]]. destruct Pc as (C1 & C2). apply F; auto. apply app_all; [now apply lit_all|]. now apply wrap_all.
  - destruct (assoc_str info std) as [t|] eqn:A; [|discriminate]. specialize (Sc _ _ A). destruct (rsplit1 59%N t) as [(title & series)|] eqn:R.
    + apply rsplit1_some in R as (-> & _). apply Forall_app in Sc as (S1 & S2). apply F; auto; [|now apply wrap_all]. cbn. apply strip_all. now inversion S2.
    + apply F; auto; [exact I|]. now apply wrap_all.
Qed.
Theorem rebuild_all line M std pk : all line -> std_all std -> pub_all pk -> rep_all (lm_reprepl M) -> forall todo sp previous out, prev_all previous ->
  rebuild_loop line M std pk todo sp previous = Ok out -> all out.
Proof.
  intros Al Sc Kc Rc. induction todo as [|(i & k) t IH]; intros sp previous out Pc; cbn [rebuild_loop]; intros H; [injection H as <-; now apply skipn_all'|]. destruct k.
  - inv_ok H. destruct (account_for_stripped_whitespace _ _ _) as (idx & ex). inv_ok H. destruct a0 as ((chunk & sp') & pv). inv_ok H. injection H as <-. apply journal_all in E0 as (E0 & E2); auto. apply app_all; auto. eauto.
  - inv_ok H. inv_ok H. destruct (account_for_stripped_whitespace _ _ _) as (idx & ex). unfold add_tagged_report_number in H. inv_ok H. injection H as <-. apply app_all; [|eauto].
    apply app_all; [destruct (_ <=? _); now apply slice_all|]. apply wrap_all; [reflexivity|]. destruct (iget i (lm_reprepl M)) eqn:G; [|discriminate]. cbn in E0. injection E0 as <-. eapply Rc; eauto.
  - inv_ok H. destruct (account_for_stripped_whitespace _ _ _) as (idx & ex). inv_ok H. destruct a0 as (chunk & sp'). inv_ok H. injection H as <-. unfold add_tagged_publisher in E0.
    destruct (assoc_str a (pk)) as [(p & r)|] eqn:A; [|discriminate]. injection E0 as <- <-. apply app_all; [|eauto]. apply app_all; [now apply slice_all|]. apply wrap_all; [reflexivity|]. eapply Kc; eauto.
Qed.
Lemma volume_all s : all s -> all (wash_volume_tag s).
Proof. intros S. apply sub_with_all; auto. intros o. apply wrap_all; [reflexivity|]. apply app_all; now apply g_str_all. Qed.
Lemma corrections_all kb : (forall a b, In (a, b) kb -> all b) -> forall s, all s -> all (fold_left (fun l e => replace (fst e) (snd e) l) kb s).
Proof. induction kb as [|(a, b) kb IH]; intros H s S; cbn [fold_left fst snd]; auto. apply IH; [intros; eapply H; right; eauto|]. apply replace_all; auto. eapply H. now left. Qed.

(** ** Report numbers *)
Lemma clean_all s : all s -> all (clean_numeration s).
Proof. intros S. unfold clean_numeration. repeat (apply replace_all; [now apply lit_all|]). apply sub_text_all; [now apply lit_all|]. apply replace_all; auto. now apply lit_all. Qed.
Lemma repnum_hits_all p std subject : all std -> all subject -> forall ms s s', all (r_line s) -> (forall e, In e (r_repl s) -> all (snd e)) -> repnum_hits p std subject ms s = Ok s' ->
  all (r_line s') /\ forall e, In e (r_repl s') -> all (snd e).
Proof.
  intros Sd Sj. induction ms as [|o ms IH]; intros s s' L R; cbn [repnum_hits]; intros H; [injection H as <-; auto|]. inv_ok H. destruct a as [n|]; [|discriminate].
  destruct (g_span o 1) as [(u & v)|]; [|discriminate]. eapply IH; [| |exact H]; cbn [r_line r_repl]; [now apply mask_all'|]. intros e I. apply iput_incl in I as [->|I]; [|auto]. cbn [snd].
  apply app_all; auto. apply clean_all. apply group_named_get in E. pose proof (gd_get_all p subject o "numn" Sj) as G. now rewrite E in G.
Qed.
Lemma repnum_all kb : (forall k t, In (k, t) (rk_std kb) -> all t) -> forall cs s s', all (r_line s) -> (forall e, In e (r_repl s) -> all (snd e)) -> repnum_categs kb cs s = Ok s' -> forall e, In e (r_repl s') -> all (snd e).
Proof.
  intros C. induction cs as [|c cs IH]; intros s s' L R; cbn [repnum_categs]; intros H; [injection H as <-; exact R|].
  destruct (assoc_rep c (rk_search kb)) as [p|]; [|discriminate]. destruct (assoc_rep c (rk_std kb)) as [std|] eqn:Es; [|discriminate]. inv_ok H. apply assoc_rep_in in Es as (k2 & Es).
  apply repnum_hits_all in E as (E1 & E2); eauto.
Qed.
Lemma reports_all line kb r : (forall k t, In (k, t) (rk_std kb) -> all t) -> all line -> identify_report_numbers line kb = Ok r -> rep_all (r_repl r).
Proof.
  intros C L H i t G. apply iget_in in G. unfold identify_report_numbers in H. refine (repnum_all kb C _ _ _ _ _ H (i, t) G); cbn; [|tauto]. apply replace_all; auto. now apply lit_all.
Qed.
End Chars.
