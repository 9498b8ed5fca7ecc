(** Texts without "<": their lines raise no IndexError. *)
From Coq Require Import List Arith NArith Bool String Lia.
From Verif Require Import PyStr ListFacts Regex RegexMeta RegexParse Patterns Elements Record Transform Split Post ParseTagged Numeration DocText Tag Find RefText Kbs Pdf Engine Api
  RecordProofs ComposeProofs ParseProofs MarkerProofs FindProofs WashProofs HitProofs TagCount NumTotal ElementsOk TagOk LinesOk TagRebuild LateTags LateNames LateLine Chars TagLine.
Import ListNotations.
Local Open Scope nat_scope.
Local Notation length := List.length.

(** ** The characters of the lines handed to the tagger are those of the text, except for blanks, quotes and commas *)
Section Chars.
Variable Q : N -> Prop.
Hypothesis Qb : Q 32%N.
Hypothesis Qq : Q 34%N.
Hypothesis Qc : Q 44%N.
Notation all := (Forall Q).
Lemma strip_q s : all s -> all (strip s). Proof. apply strip_all. Qed.
Lemma drop_q f s : all s -> all (drop_while f s).
Proof. apply sub_all. intros c. induction s as [|x s IH]; cbn; auto. destruct (f x); cbn; auto. Qed.
Lemma rev_q s : all s -> all (rev s). Proof. apply Forall_rev. Qed.
Lemma rstrip_q s : all s -> all (rstrip s). Proof. intros S. unfold rstrip, rstrip_by. now apply rev_q, drop_q, rev_q. Qed.
Lemma lstrip_q s : all s -> all (lstrip s). Proof. intros S. unfold lstrip. now apply drop_q. Qed.
Lemma join_q a b : all a -> all b -> all (join_lines a b).
Proof.
  intros A B. unfold join_lines. pose proof (rev_q a A) as R. unfold str, ch in *. destruct (rev a) as [|c t]; auto. inversion R; subst. destruct (N.eqb c 45); [apply app_all; auto; now apply rev_q|].
  destruct (N.eqb c 32); [now apply app_all|]. apply app_all; auto. apply app_all; auto.
Qed.
Lemma firstn_q {A} (R : A -> Prop) n l : Forall R l -> Forall R (firstn n l).
Proof. intros F. rewrite <- (firstn_skipn n l) in F. now apply Forall_app in F as [F _]. Qed.
Lemma skipn_q {A} (R : A -> Prop) n l : Forall R l -> Forall R (skipn n l).
Proof. intros F. rewrite <- (firstn_skipn n l) in F. now apply Forall_app in F as [_ F]. Qed.
Lemma joins_q : forall (l : list str) (acc : str), all acc -> Forall (Forall Q) l -> all (fold_left (fun acc l => join_lines acc (strip l)) l acc).
Proof. induction l as [|x l IH]; intros acc A G; cbn [fold_left]; auto. inversion G; subst. apply IH; auto. apply join_q; auto. now apply strip_q. Qed.
Lemma prepare_q ls : Forall (Forall Q) ls -> all (prepare_ref ls).
Proof. intros F. unfold prepare_ref. apply rstrip_q, joins_q; [constructor|now apply firstn_q]. Qed.
Lemma add_q s l : all s -> Forall (Forall Q) l -> Forall (Forall Q) (add_nonempty s l).
Proof. intros S L. unfold add_nonempty. destruct s; auto. apply Forall_app; auto. Qed.
Lemma flush_q w o : Forall (Forall Q) w -> Forall (Forall Q) o -> Forall (Forall Q) (flush w o).
Proof. intros W O. unfold flush. destruct w; auto. apply Forall_app. split; auto. constructor; auto. now apply prepare_q. Qed.
Lemma rebuild_step_q p indent s line s' : all line -> Forall (Forall Q) (w_working s) -> Forall (Forall Q) (w_out s) -> rebuild_step p indent s line = Ok s' ->
  Forall (Forall Q) (w_working s') /\ Forall (Forall Q) (w_out s').
Proof.
  intros L W O H. unfold rebuild_step in H. destruct (re_search (rx_re p) line) as [o|]; [|injection H as <-; cbn; split; auto; now apply add_q].
  inv_ok H. destruct a as [n|]; [|discriminate]. inv_ok H. cbv zeta in H. destruct (_ && _); injection H as <-; cbn [w_working w_out].
  - split; [apply add_q; auto; now apply skipn_all'|]. apply flush_q; auto. apply add_q; auto. now apply firstn_all'.
  - split; auto. apply Forall_app. auto.
Qed.
Lemma rebuild_steps_q p indent : forall lines s s', Forall (Forall Q) lines -> Forall (Forall Q) (w_working s) -> Forall (Forall Q) (w_out s) -> rebuild_steps p indent s lines = Ok s' ->
  Forall (Forall Q) (w_working s') /\ Forall (Forall Q) (w_out s').
Proof.
  induction lines as [|l t IH]; intros s s' F W O H; cbn [rebuild_steps] in H; [injection H as <-; auto|]. inversion F; subst. inv_ok H. apply rebuild_step_q in E as (E1 & E2); auto. eapply IH; eauto.
Qed.
Lemma rebuild_q lines ptn out : Forall (Forall Q) lines -> rebuild_reference_lines lines ptn = Ok out -> Forall (Forall Q) out.
Proof.
  intros F H. unfold rebuild_reference_lines in H. destruct (separator lines ptn) as (p & i). inv_ok H. injection H as <-. apply rebuild_steps_q in E as (E1 & E2); auto; [now apply flush_q| |]; constructor.
Qed.
Lemma get_lines_q (body : list str) start end_ title ptn same out : Forall (Forall Q) body -> get_reference_lines body start end_ title ptn same = Ok out -> Forall (Forall Q) out.
Proof.
  intros F H. unfold get_reference_lines in H. inv_ok H. destruct a as (b & st). cbv zeta in H. apply rebuild_q in H; auto.
  assert (Forall (Forall Q) b) as B.
  { destruct same; [|destruct title; injection E as <- <-; auto]. unfold str, ch in *. destruct title as [t|], (nth_error body start) as [l|] eqn:Nl; try discriminate. injection E as <- <-. destruct (find_sub t l) as [i|]; auto.
    apply Forall_app. split; [now apply firstn_q|]. constructor; [|exact (skipn_q _ (S start) body F)]. apply skipn_all'. apply nth_error_In in Nl. rewrite Forall_forall in F. auto. }
  assert (Forall (Forall Q) (skipn st (firstn end_ b))) as C by now apply skipn_q, firstn_q.
  destruct title as [[|c t]|]; auto. unfold strip_footer. rewrite Forall_forall in *. intros l I. apply filter_In in I as [I _]. auto.
Qed.
Lemma fulltext_q body out st : Forall (Forall Q) body -> extract_references_from_fulltext body = Ok (out, st) -> Forall (Forall Q) out.
Proof.
  intros F H. unfold extract_references_from_fulltext in H. inv_ok H. apply (removed_lines_forall _ _ _ E) in F. inv_ok H. destruct a0 as [s|]; [|injection H as <- <-; constructor]. cbv zeta in H. inv_ok H.
  destruct a0 as [e|]; [|injection H as <- <-; constructor]. inv_ok H. injection H as <- <-. eapply get_lines_q; eauto.
Qed.
Lemma split_q : forall s cur, all s -> all cur -> Forall (Forall Q) (split_lines s cur).
Proof.
  induction s as [|c s IH]; intros cur S C; cbn [split_lines]; [constructor; auto; now apply rev_q|]. inversion S; subst. destruct (N.eqb c 10); [|apply IH; auto]. constructor; [now apply rev_q|]. apply IH; auto.
Qed.
Lemma repair_q s : all s -> all (repair_broken_urls s).
Proof.
  unfold repair_broken_urls. generalize url_repair_patterns. intros l. revert s. induction l as [|p l IH]; intros s S; cbn [fold_left]; auto. apply IH. unfold repair_with. apply re_sub_all; auto. intros o.
  unfold chop_spaces. apply filter_all. now apply g_str_all.
Qed.
Lemma wash_q E s : (forall t, all t -> all (undesirable E t)) -> all s -> all (wash_and_repair_reference_line E s).
Proof.
  intros U S. unfold wash_and_repair_reference_line. cbv zeta. apply sub_text_all; [constructor; auto|]. apply U. set (t := undesirable E (repair_broken_urls s)). assert (all t) as T by (apply U, repair_q, S).
  apply re_sub_all; auto. intros o. apply app_all; auto. apply app_all; auto. now apply g_str_all.
Qed.
End Chars.

(** ** Lines *)
(** the replacement of undesirable characters brings in characters of P other than "<" only *)
Definition replaces_plainly (E : env) (P : N -> Prop) : Prop := forall s c, In c (undesirable E s) -> In c s \/ (P c /\ c <> 60%N).
Definition plain_in (P : N -> Prop) (c : N) : Prop := P c /\ c <> 60%N.
Lemma plain_in_iff P s : Forall (plain_in P) s <-> Forall P s /\ ~ In 60%N s.
Proof.
  unfold plain_in. rewrite !Forall_forall. split; [intros H; split; [intros c I; now apply H|intros I; now apply (H _ I)]|]. intros (A & B) c I. split; auto. intros ->. auto.
Qed.
Lemma set_std_plain P K : plain_kbs K = true -> written P K -> let K' := set_std K (supdate (jk_std (k_journals K)) (k_journals_re K)) in plain_kbs K' = true /\ written P K'.
Proof.
  intros Pk [N1 N2 N3 N4 N5]. cbv zeta. split.
  - unfold plain_kbs in *. cbn [set_std k_journals k_journals_re k_reports k_publishers k_authors k_collabs jk_std]. rewrite !andb_true_iff in *. destruct Pk as ((((((K1 & K2) & K3) & K4) & K5) & K6) & K7). repeat split; auto.
    rewrite forallb_forall in *. apply (supdate_all (fun t => no_lt t = true)); auto.
  - constructor; cbn [set_std k_journals k_journals_re k_reports k_publishers k_authors k_collabs jk_std]; auto. intros k t I.
    refine (supdate_all (Forall P) _ _ _ _ (k, t) I); intros (k1, t1) J; cbn [snd]; eauto.
Qed.
Lemma weave_q (P : N -> Prop) tag : forall kept found, length kept = S (length found) -> Forall P (UrlProofs.weave kept found) -> Forall P tag -> Forall P (UrlProofs.weave kept (repeat tag (length found))).
Proof.
  intros kept. induction kept as [|k ks IH]; intros [|t ts] L F T; try discriminate; cbn [UrlProofs.weave length repeat] in *; auto. injection L as L. apply Forall_app in F as [F1 F2]. apply Forall_app in F2 as [_ F2].
  apply app_all; auto. apply app_all; auto.
Qed.
Section Es.
Variables (es : list exn) (E : env) (P : N -> Prop).
Hypothesis Fe : fit_env E = true.
Hypothesis Pe : sound_env E = true.
Hypothesis Wr : writing E P.
Definition ctx_plain (x : context) : Prop := ctx_ok es x /\ plain_kbs (x_kbs x) = true /\ written P (x_kbs x).
Lemma rest_plain line mark rest : Forall (plain_in P) line -> remove_reference_line_marker line = Ok (mark, rest) -> Forall (plain_in P) rest.
Proof.
  intros F H. destruct (marker_split line) as (m & r & H' & [(_ & R & _)|(p & o & s & _ & _ & R & _)]); rewrite H in H'; injection H' as <- <-.
  - rewrite R. now apply lstrip_q.
  - apply (lstrip_q (plain_in P)) in F. unfold str, ch in *. rewrite R in F. apply Forall_app in F as [_ F]. now apply Forall_app in F as [_ F].
Qed.
Lemma line_plain x cb line : ctx_plain x -> (forall f, cb = Some f -> fit_callback f) -> Forall (plain_in P) line ->
  good es (fun r => let '(cits, _, _, x') := r in Forall (Forall wf) cits /\ ctx_plain x') (parse_reference_line E x cb line).
Proof.
  intros ((Fk & Nk & V) & Pk & Wn) Cb L. unfold parse_reference_line. destruct (marker_split line) as (mark & rest & Em & _). rewrite Em. cbn [bind]. apply (rest_plain _ _ _ L) in Em. apply plain_in_iff in Em as (Rp & Rl).
  destruct (identify_and_tag_DOI E rest) as (l1, dois) eqn:D. destruct (identify_and_tag_URLs l1) as (l2, urls) eqn:U. destruct (marks_count _ _ _ _ _ _ Rl D U) as (C1 & C2).
  assert (Forall P l2) as A2.
  { destruct Wr as [_ Wa _]. destruct (UrlProofs.doi_spec E rest) as (k1 & f1 & Lk & E1 & O1 & _). rewrite D in O1. cbn [fst] in O1.
    assert (Forall P l1) as A1 by (rewrite O1; apply weave_q; [exact Lk|now rewrite <- E1|now apply (lit_all P Wa)]).
    assert (UrlProofs.clear_tags l1) as C. { apply UrlProofs.clear_check_ok. rewrite O1. apply weave_clear. intros k I. revert k I. rewrite E1 in Rl. eapply weave_parts; eauto. }
    destruct (UrlProofs.urls_spec l1 C) as (k2 & f2 & L2 & E2 & O2 & _). rewrite U in O2. cbn [fst] in O2. rewrite O2. apply weave_q; [exact L2|now rewrite <- E2|now apply (lit_all P Wa)]. }
  pose proof (tag_good es E l2 (x_kbs x) (x_titles x) Fe Fk Nk) as G. destruct (tag_reference_line E l2 (x_kbs x) (x_titles x)) as [((tagged & titles) & std)|e] eqn:T; cbn [bind good] in *; [|exact G]. destruct G as (Nk' & ->).
  assert (count_tags (py "URL") tagged <= length urls /\ count_tags (py "DOI") tagged <= length dois) as (Cu & Cd).
  { assert (letters 85 82 /\ letters 68 79) as (L1 & L2) by (split; [now left|now right]). split.
    - eapply Nat.le_trans; [apply (count_late 85 82 [76%N] L1 tagged L0)|]. eapply Nat.le_trans; [|exact C1]. exact (tag_count E P (x_kbs x) Wr Wn Pe Pk 85 82 l2 _ _ L1 A2 T).
    - eapply Nat.le_trans; [apply (count_late 68 79 [73%N] L2 tagged L0)|]. eapply Nat.le_trans; [|exact C2]. exact (tag_count E P (x_kbs x) Wr Wn Pe Pk 68 79 l2 _ _ L2 A2 T). }
  destruct (parse_total tagged dois urls Cu Cd) as ((els & cnt) & Ep). rewrite Ep. cbn [bind]. apply parse_tagged_wf in Ep. eapply good_bind; [apply cite_good; eauto|].
  - cbn [set_std k_books]. unfold fit_kbs in Fk. now apply andb_true_iff in Fk as [_ Fk].
  - intros (cits, n) W. cbn [good fst] in *. split; auto. destruct (set_std_plain P _ Pk Wn) as (Pk' & Wn'). split; [split; [now apply set_std_fit|split; auto]|]. split; auto.
Qed.
Hypothesis Up : replaces_plainly E P.
Lemma washed_plain line : Forall (plain_in P) line -> Forall (plain_in P) (wash_and_repair_reference_line E line).
Proof.
  intros L. destruct Wr as [_ Wa _]. apply wash_q; auto; try (split; [now apply Wa|discriminate]). intros t T. rewrite Forall_forall in *. intros c I. apply Up in I as [I|(I1 & I2)]; auto. now split.
Qed.
Lemma lines_plain cb : (forall f, cb = Some f -> fit_callback f) -> forall lines x c, ctx_plain x -> Forall (Forall (plain_in P)) lines ->
  good es (fun r => let '(ps, cnt, _) := r in Forall (fun p => Forall (Forall wf) (p_elements p)) ps /\ exists c', cnt = counts_dict c') (parse_lines E x cb (counts_dict c) lines).
Proof.
  intros Cb. induction lines as [|raw t IH]; intros x c X F; cbn [parse_lines]; [cbn; split; eauto|]. inversion F; subst.
  eapply good_bind; [apply line_plain; auto; now apply washed_plain|]. intros (((cits & mk) & c1) & x1) (W & X1). rewrite sum_counts. cbn [bind].
  eapply good_bind; [apply IH; [exact X1|assumption]|]. intros ((ps & cnt) & x2) (Wp & Ec). cbn [good]. split; auto.
Qed.
Lemma references_plain K cb f lines : (k_special K = [] \/ In ValueError es) -> fit_kbs K = true -> plain_kbs K = true -> written P K -> (forall f, cb = Some f -> fit_callback f) -> fit_format f = true ->
  Forall (Forall (plain_in P)) lines -> good es (fun _ => True) (parse_references E K cb f lines).
Proof.
  intros V Fk Pk Wn Cb Ff L. unfold parse_references, parse_references_elements. eapply good_bind; [apply lines_plain; auto; split; auto; split; auto; split; [reflexivity|exact V]|].
  intros ((ps & cnt) & x) (W & c & ->). eapply good_bind; [apply build_good; auto|]. intros refs _. rewrite build_stats_of. exact I.
Qed.
End Es.

(** ** The functions of the API *)
(** what extraction needs to know about a text without "<" *)
Definition plain_options (O : options) (P : N -> Prop) : Prop :=
  writing (o_env O) P /\ replaces_plainly (o_env O) P /\ sound_env (o_env O) = true /\ forall K, o_kbs O = Ok K -> plain_kbs K = true /\ written P K.
Lemma string_plain es O P only source : (forall K, o_kbs O = Ok K -> k_special K = [] \/ In ValueError es) -> fit_options O -> Forall short (split_lines source []) ->
  plain_options O P -> Forall P source -> ~ In 60%N source -> good es (fun _ => True) (extract_references_from_string O only source).
Proof.
  intros V (K & Ek & Fe & Fk & Cb & Ff) S (Wr & Up & Pe & Pk) A N. destruct (Pk K Ek) as (Pk1 & Wn). pose proof (proj2 (plain_in_iff P source) (conj A N)) as Pl.
  pose proof (split_q (plain_in P) source [] Pl (Forall_nil _)) as Bp. assert (plain_in P 32%N) as Qb by (split; [now apply (wr_ascii _ _ Wr)|discriminate]). unfold extract_references_from_string.
  assert (exists lines, (if only then
       let* s := get_reference_section_beginning (split_lines source []) in
       let* d := (match s with Some s => Ok (s_details s) | None => find_numeration_in_body (split_lines source []) end) in
       rebuild_reference_lines (split_lines source []) (d_pattern d)
     else let* (l, _) := extract_references_from_fulltext (split_lines source []) in Ok l) = Ok lines /\ Forall (Forall (plain_in P)) lines) as (lines & -> & Lp).
  { destruct only.
    - destruct (lines_only_refs _ S) as (lines & El). exists lines. split; auto. inv_ok El. inv_ok El. eapply rebuild_q; eauto.
    - destruct (extract_total _ S) as [(refs & Ee)|Ee]; rewrite Ee; cbn [bind]; [exists refs; split; auto; eapply fulltext_q; eauto|]. eexists. split; [reflexivity|constructor]. }
  cbn [bind]. unfold parse_with. rewrite Ek. cbn [bind]. eapply good_bind; [eapply references_plain; eauto|]. intros (refs, st) _. exact I.
Qed.
Lemma journal_plain es E P K line : k_special K = [] \/ In ValueError es -> fit_env E = true -> fit_kbs K = true -> writing E P -> sound_env E = true -> plain_kbs K = true -> written P K ->
  Forall P line -> ~ In 60%N line -> good es (fun _ => True) (extract_journal_reference E (Ok K) line).
Proof.
  intros V Fe Fk Wr Pe Pk Wn A N. unfold extract_journal_reference. cbn [bind]. eapply good_bind; [apply (line_plain es E P); auto; [split; [split; [exact Fk|split; [reflexivity|exact V]]|split; [exact Pk|exact Wn]]|discriminate|now apply plain_in_iff]|].
  intros (((cits & m) & c) & x) _. exact I.
Qed.
