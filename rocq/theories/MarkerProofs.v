(** Facts about the numeration markers of references, read off their patterns. *)
From Coq Require Import List Arith NArith Bool String Lia.
From Verif Require Import PyStr ListFacts NumberFacts Regex RegexParse RegexMeta RegexLang Patterns DocText ParseTagged Tag Find RefText RecordProofs RefTextProofs.
Import ListNotations.
Local Notation length := List.length.
Local Open Scope nat_scope.
Local Arguments is_space : simpl never.

(** ** The number of a marker *)
Definition is_digits_re (r : re) : bool :=
  match r with Rep true 1 None (Cls (mkcls false _ [CDigit true])) => true | _ => false end.
(** the pattern has the group "mark", which takes part in every match; its group "marknum",
    if any, takes part in every match and consists of digits *)
Definition in_all (n : str) (p : rx) : bool :=
  match assoc_str n (rx_names p) with Some i => negb (i =? 0) && always i (rx_re p) | None => false end.
Definition marker_ok (p : rx) : bool :=
  plain (rx_re p) && in_all (py "mark") p &&
  match assoc_str (py "marknum") (rx_names p) with
  | None => true
  | Some i => in_all (py "marknum") p && forallb (fun e => negb (fst e =? i) || is_digits_re (snd e)) (sub_grps (rx_re p))
  end.
Lemma is_digits_re_shape r : is_digits_re r = true -> exists ci, r = Rep true 1 None (Cls (mkcls false ci [CDigit true])).
Proof.
  unfold is_digits_re. intros D.
  repeat match goal with D : match ?x with _ => _ end = true |- _ => destruct x; try discriminate D end. eauto.
Qed.
Lemma digits_re_text s r x g x' g' : is_digits_re r = true -> mt r x g x' g' -> at_ s x ->
  forallb is_digit (between s x x') = true /\ between s x x' <> [].
Proof.
  intros D M A. apply is_digits_re_shape in D as (ci & ->). apply mt_rep_cls in M as (w & F & W & L & _). rewrite (fwd_between s x w x' A F). split.
  - rewrite forallb_forall in *. intros c I. apply W in I. unfold cls_mem in I. cbn [c_neg c_ci c_items existsb item_mem] in I.
    destruct (is_digit c); auto.
  - destruct w; [cbn in L; lia|discriminate].
Qed.
Lemma int_of_digits t : forallb is_digit t = true -> t <> [] -> (N.of_nat (length t) <= int_max_str_digits)%N -> exists n, int_of_str t = Ok n.
Proof.
  intros D Ne L. unfold int_of_str. rewrite strip_isdigits.
  - destruct t; [congruence|]. rewrite (proj2 (N.ltb_ge _ _) L). apply (digits_value_some _ 0) in D as (n & ->). eauto.
  - rewrite forallb_forall in *. intros c I. apply digit_isdigit. auto.
Qed.
Lemma in_all_text s p o n : in_all n p = true -> obj_ok s (rx_re p) o ->
  exists i a b, assoc_str n (rx_names p) = Some i /\ i <> 0 /\ g_span o i = Some (a, b) /\ group_named p s o n = Ok (Some (slice a b s)).
Proof.
  unfold in_all, group_named. destruct (assoc_str n (rx_names p)) as [i|]; [|discriminate]. intros H O. apply andb_true_iff in H as [I A].
  apply negb_true_iff, Nat.eqb_neq in I. pose proof (obj_always s _ o i O A I) as G. destruct (g_span o i) as [[a b]|] eqn:E; [|congruence].
  exists i, a, b. unfold g_text. rewrite E. auto.
Qed.
Lemma marker_mark s p o : marker_ok p = true -> obj_ok s (rx_re p) o -> exists t, group_named p s o (py "mark") = Ok (Some t).
Proof.
  unfold marker_ok. intros H O. apply andb_true_iff in H as [H _]. apply andb_true_iff in H as [_ H].
  destruct (in_all_text s p o _ H O) as (i & a & b & _ & _ & _ & E). eauto.
Qed.
(** absent, or digits *)
Lemma marker_marknum s p o : marker_ok p = true -> obj_ok s (rx_re p) o ->
  (assoc_str (py "marknum") (rx_names p) = None /\ group_named p s o (py "marknum") = Err IndexError)
  \/ (assoc_str (py "marknum") (rx_names p) <> None /\
      exists t, group_named p s o (py "marknum") = Ok (Some t) /\ forallb is_digit t = true /\ t <> [] /\ length t <= length s).
Proof.
  unfold marker_ok. intros H O. apply andb_true_iff in H as [H N]. apply andb_true_iff in H as [P _].
  destruct (assoc_str (py "marknum") (rx_names p)) as [i|] eqn:E.
  - right. split; [discriminate|]. apply andb_true_iff in N as [N F].
    destruct (in_all_text s p o _ N O) as (i' & a & b & E' & I0 & G & R). rewrite E in E'. injection E' as <-.
    destruct (obj_group s _ o i a b O P I0 G) as (q & y & gy & y' & gy' & I & M & A & A' & -> & -> & L).
    rewrite forallb_forall in F. specialize (F _ I). cbn in F. rewrite Nat.eqb_refl in F. cbn in F.
    exists (slice (pos y) (pos y') s). split; auto. destruct (digits_re_text s q y gy y' gy' F M A) as [D Ne]. split; auto. split; auto.
    pose proof (at_pos_le _ _ A'). rewrite slice_length by auto. lia.
  - left. split; auto. unfold group_named. now rewrite E.
Qed.
(** lines in which every number can be read *)
Definition short (line : str) : Prop := (N.of_nat (length line) <= int_max_str_digits)%N.
Lemma marker_number s p o : marker_ok p = true -> obj_ok s (rx_re p) o -> short s -> numbered p -> mark_number p s o <> None.
Proof.
  intros M O S Nm. destruct (marker_marknum s p o M O) as [(A & _)|(_ & t & G & D & Ne & L)]; [now elim Nm|].
  unfold mark_number. rewrite G. destruct (int_of_digits t D Ne) as (n & ->); [|discriminate]. unfold short in S. lia.
Qed.
Lemma markers_ok : forallb marker_ok marker_patterns = true. Proof. vm_compute. reflexivity. Qed.
Lemma no_title_markers_ok : forallb marker_ok [re_bracket_markers; re_dot_markers; re_number_markers] = true. Proof. vm_compute. reflexivity. Qed.

(** ** Removing the marker *)
Lemma marker_shapes : Forall (fun p => assoc_str (py "mark") (rx_names p) = Some 1 /\
  exists body, rx_re p = Cat (Rep true 0 None (cls1 (CSpace true))) (Grp 1 body)) marker_patterns.
Proof. unfold marker_patterns. repeat (constructor; [split; [reflexivity|eexists; reflexivity]|]). constructor. Qed.
Lemma regex_match_list_some s ps p o : regex_match_list s ps = Some (p, o) -> In p ps /\ re_match (rx_re p) s = Some o.
Proof.
  induction ps as [|q ps IH]; cbn; [discriminate|]. destruct (re_match (rx_re q) s) eqn:E.
  - intros H; inversion H; subst. auto.
  - intros H. destruct (IH H). auto.
Qed.
Lemma regex_match_list_none s ps : regex_match_list s ps = None <-> forall p, In p ps -> re_match (rx_re p) s = None.
Proof.
  induction ps as [|q ps IH]; cbn; [split; auto; intros _ p []|]. destruct (re_match (rx_re q) s) eqn:E.
  - split; [discriminate|]. intros H. specialize (H q (or_introl eq_refl)). congruence.
  - rewrite IH. split; auto. intros H p [<-|I]; auto.
Qed.
Lemma lstrip_no_space s c t : lstrip s = c :: t -> is_space c = false. Proof. apply lstrip_hd. Qed.
Lemma marker_split line : exists mark rest, remove_reference_line_marker line = Ok (mark, rest) /\
  ((mark = [32%N] /\ rest = lstrip line /\ regex_match_list (lstrip line) marker_patterns = None)
   \/ exists p o s, regex_match_list (lstrip line) marker_patterns = Some (p, o) /\ forallb is_space s = true
       /\ lstrip line = mark ++ s ++ rest /\ rest = lstrip rest /\ length mark = m_end o).
Proof.
  unfold remove_reference_line_marker. destruct (regex_match_list (lstrip line) marker_patterns) as [[p o]|] eqn:E.
  - apply regex_match_list_some in E as E2. destruct E2 as (I & M). pose proof marker_shapes as S. rewrite Forall_forall in S. apply S in I as (Nm & body & Sh).
    unfold group_named. rewrite Nm. cbn [bind]. apply re_match_some in M as (w & x' & F & M & St & En & Fi & Sk). rewrite Sh in M.
    apply mt_cat_iff in M as (y & h & M1 & M2). apply mt_rep_cls in M1 as (u & U & V & _). destruct U as (U1 & U2 & U3).
    assert (u = []) as ->.
    { destruct u as [|c u]; auto. cbn in U1, V. apply lstrip_no_space in U1. apply andb_true_iff in V as [V _]. unfold cls_mem in V. cbn in V. now rewrite U1 in V. }
    cbn in U3. apply mt_grp_iff in M2 as (h' & M2 & G). unfold g_text, g_span. rewrite G. cbn. rewrite U3.
    destruct F as (F1 & F2 & F3). cbn in F1, F3. rewrite F3.
    exists w, (lstrip (suf x')). unfold slice. rewrite Nat.sub_0_r. cbn [skipn]. split.
    { do 3 f_equal; [|now rewrite Sk]. rewrite F1. rewrite firstn_app, Nat.sub_diag, firstn_all. cbn. apply app_nil_r. }
    right. destruct (lstrip_by_split is_space (suf x')) as (s & Es & Sp). exists p, o, s. split; auto. split; auto. split; [rewrite F1, Es at 1; reflexivity|].
    split; auto. unfold lstrip. destruct (lstrip_by is_space (suf x')) as [|c t] eqn:L; auto. apply lstrip_hd in L. cbn. now rewrite L.
  - exists [32%N], (lstrip line). split; auto.
Qed.

(** ** Rebuilding does not fail *)
Lemma search_ok r s o : re_search r s = Some o -> obj_ok s r o.
Proof. apply re_search_ok. Qed.
Lemma plain_steps_total p indent : assoc_str (py "marknum") (rx_names p) = None -> forall lines s, exists s', rebuild_steps p indent s lines = Ok s'.
Proof.
  intros Nm. induction lines as [|l t IH]; intros s; cbn [rebuild_steps]; eauto.
  assert (exists s1, rebuild_step p indent s l = Ok s1) as (s1 & ->); [|cbn [bind]; apply IH].
  unfold rebuild_step. destruct (re_search (rx_re p) l); eauto. unfold read_marknum, group_named. rewrite Nm. cbn [bind new_line_detected].
  destruct (true && _); eauto.
Qed.
Lemma numbered_steps_total p indent : marker_ok p = true -> numbered p -> forall lines s, w_current s <> None -> Forall short lines ->
  exists s', rebuild_steps p indent s lines = Ok s'.
Proof.
  intros M Nm. induction lines as [|l t IH]; intros s C F; cbn [rebuild_steps]; eauto. inversion F as [|? ? S F']; subst.
  assert (exists s1, rebuild_step p indent s l = Ok s1 /\ w_current s1 <> None) as (s1 & -> & C1); [|cbn [bind]; apply IH; auto].
  unfold rebuild_step. destruct (re_search (rx_re p) l) as [o|] eqn:O; [|eexists; split; [reflexivity|exact C]].
  pose proof (marker_number l p o M (search_ok _ _ _ O) S Nm) as Q. unfold mark_number in Q. unfold read_marknum.
  destruct (group_named p l o (py "marknum")) as [[txt|]|]; try (now elim Q). destruct (int_of_str txt) as [n|]; [|now elim Q].
  cbn [bind]. destruct (w_current s) as [c|] eqn:Cu; [|now elim C]. cbn [new_line_detected bind].
  destruct (_ && _); eexists; (split; [reflexivity|]); cbn; congruence.
Qed.
Lemma rebuild_total lines ptn : match ptn with Some p => ~ numbered p \/ (marker_ok p = true /\ Forall short lines) | None => True end ->
  exists out, rebuild_reference_lines lines ptn = Ok out.
Proof.
  intros H. unfold rebuild_reference_lines. destruct (separator lines ptn) as [p indent] eqn:E.
  assert (exists s, rebuild_steps p indent rb_init lines = Ok s) as (s & ->); [|cbn [bind]; eauto].
  unfold separator in E. destruct ptn as [q|].
  - injection E as <- <-. unfold numbered in H. destruct H as [H|(M & S)].
    + apply plain_steps_total. destruct (assoc_str _ _); auto. now elim H.
    + destruct (assoc_str (py "marknum") (rx_names q)) eqn:A.
      * apply numbered_steps_total; auto; [unfold numbered; congruence|discriminate].
      * now apply plain_steps_total.
  - apply plain_steps_total. destruct (blank_lines_separate lines); injection E as <- <-; reflexivity.
Qed.
