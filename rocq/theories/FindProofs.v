(** Where the reference section starts and ends (Find.v), and that extracting the
    references of a text never fails (RefText.v). *)
From Coq Require Import List Arith NArith Bool String Lia.
From Verif Require Import PyStr ListFacts NumberFacts Regex RegexParse RegexMeta RegexLang Patterns DocText ParseTagged Tag Find RefText RecordProofs
  RefTextProofs MarkerProofs PageProofs.
Import ListNotations.
Local Notation length := List.length.
Local Open Scope nat_scope.
Local Arguments is_space : simpl never.

(** ** The end of the section *)
(** the number of the marker at the beginning of a line, if it can be read *)
Definition line_number (mk : list rx) (line : str) : option N :=
  match regex_match_list (strip line) mk with Some (p, o) => mark_number p (strip line) o | None => None end.
(** the number of the last numbered marker of some lines *)
Definition last_number (mk : list rx) (lines : list str) : N :=
  fold_left (fun c l => match line_number mk l with Some n => n | None => c end) lines 0%N.
(** the line starts with a marker that is more than digits, and which continues the
    numbering after [c] if it has a number *)
Definition continues (mk : list rx) (c : N) (line : str) : Prop :=
  exists p o, regex_match_list (strip line) mk = Some (p, o) /\ isdigit (slice (m_start o) (m_end o) (strip line)) = false
    /\ (numbered p -> mark_number p (strip line) o = Some (c + 1)%N).
(** line number [n] of the section is the title of a following section: it matches a title
    pattern and none of the next 199 lines continues the references *)
Definition next_section (mk : list rx) (lines : list str) (n : nat) : Prop :=
  exists line, nth_error lines n = Some line /\ regex_match_list (strip line) post_reference_title_patterns <> None
    /\ forall l, In l (firstn 199 (skipn (S n) lines)) -> ~ continues mk (last_number mk (firstn (S n) lines)) l.
(** a line of more than ten digits, apart from spaces, signs and periods *)
Definition axis_line (l : str) : Prop :=
  let d := strip (filter (fun c => negb (mem_ch c [32; 46; 45; 43; 215; 8722]%N)) l) in 10 < length d /\ isdigit d = true.
(** four such lines follow each other at [n] *)
Definition axis_at (lines : list str) (n : nat) : Prop :=
  exists a b c d t, skipn n lines = a :: b :: c :: d :: t /\ axis_line a /\ axis_line b /\ axis_line c /\ axis_line d.
Definition section_length (mk : list rx) (lines : list str) (n : nat) : Prop :=
  (forall j, j < n -> ~ next_section mk lines j) /\ (forall j, S j < n -> ~ axis_at lines j)
  /\ (n = length lines \/ next_section mk lines n \/ exists j, n = S j /\ axis_at lines j) /\ n <= length lines.

Lemma axis_line_iff l : digit_line l = true <-> axis_line l.
Proof. unfold digit_line, axis_line. cbn zeta. rewrite andb_true_iff, Nat.ltb_lt. reflexivity. Qed.
Lemma digit_scan_short lines : forall k limit num, k <= limit -> num < k -> let (n, l) := digit_scan lines k limit num in n < l.
Proof.
  induction lines as [|l t IH]; intros k limit num A B; cbn [digit_scan]; [lia|]. destruct (Nat.ltb_spec k limit); [|lia].
  destruct (digit_line l); [apply IH; lia|]. destruct (digit_test_str l); apply IH; lia.
Qed.
Lemma graph_axis_iff line t : graph_axis line t = true <-> axis_at (line :: t) 0.
Proof.
  unfold graph_axis, axis_at. cbn [skipn]. rewrite andb_true_iff, axis_line_iff. split.
  - intros (A & H). assert (forall lines k num limit, num = k -> k < limit -> (let (n, l) := digit_scan lines k limit num in n =? l) = true ->
      exists b t, lines = b :: t /\ axis_line b /\ (let (n, l) := digit_scan t (S k) limit (S num) in n =? l) = true) as Step.
    { intros lines k num limit -> L Q. destruct lines as [|b r]; cbn [digit_scan] in Q; [apply Nat.eqb_eq in Q; lia|].
      rewrite (proj2 (Nat.ltb_lt _ _) L) in Q. destruct (digit_line b) eqn:D.
      - exists b, r. split; auto. split; auto. now apply axis_line_iff.
      - exfalso. destruct (digit_test_str b).
        + pose proof (digit_scan_short r (S k) (S limit) k ltac:(lia) ltac:(lia)) as X. destruct (digit_scan r (S k) (S limit) k). apply Nat.eqb_eq in Q. lia.
        + pose proof (digit_scan_short r (S k) limit k ltac:(lia) ltac:(lia)) as X. destruct (digit_scan r (S k) limit k). apply Nat.eqb_eq in Q. lia. }
    apply Step in H as (b & t1 & -> & B & H); auto. apply Step in H as (c & t2 & -> & C & H); auto. apply Step in H as (d & t3 & -> & D & H); auto.
    exists line, b, c, d, t3. auto.
  - intros (a & b & c & d & r & E & A & B & C & D). injection E as -> ->. apply axis_line_iff in B, C, D. split; auto. cbn [digit_scan Nat.ltb Nat.leb]. rewrite B, C, D.
    destruct r; reflexivity.
Qed.
Lemma has_marknum_iff p : has_marknum p = true <-> numbered p.
Proof. unfold has_marknum, numbered. destruct (assoc_str _ _); split; congruence. Qed.
Lemma marknum_value_ok p s o : marker_ok p = true -> obj_ok s (rx_re p) o -> marknum_value p s o = Ok (mark_number p s o).
Proof.
  intros M O. unfold marknum_value, mark_number. destruct (marker_marknum s p o M O) as [(_ & ->)|(_ & t & -> & _)]; auto. destruct (int_of_str t); auto.
Qed.
Lemma match_ok mk s p o : forallb marker_ok mk = true -> regex_match_list s mk = Some (p, o) -> marker_ok p = true /\ obj_ok s (rx_re p) o.
Proof.
  intros F H. apply regex_match_list_some in H as (I & H). rewrite forallb_forall in F. split; auto. now apply re_match_ok.
Qed.
Lemma follows_spec mk c : forallb marker_ok mk = true -> forall lines, exists r, marker_follows mk c lines = Ok r /\ (r = true <-> exists l, In l lines /\ continues mk c l).
Proof.
  intros F. induction lines as [|l t (r & E & R)]; cbn [marker_follows].
  - exists false. split; auto. split; [discriminate|intros (l & [] & _)].
  - assert (~ continues mk c l -> marker_follows mk c t = Ok r /\ (r = true <-> exists l0, In l0 (l :: t) /\ continues mk c l0)) as Skip.
    { intros N. split; auto. rewrite R. split; intros (l0 & I & C); [exists l0; split; auto; now right|]. destruct I as [<-|I]; [tauto|eauto]. }
    destruct (regex_match_list (strip l) mk) as [[p o]|] eqn:Mt.
    + destruct (match_ok _ _ _ _ F Mt) as (M & O). destruct (isdigit (slice (m_start o) (m_end o) (strip l))) eqn:D.
      * exists r. apply Skip. intros (p' & o' & Mt' & D' & _). rewrite Mt in Mt'. injection Mt' as <- <-. congruence.
      * destruct (has_marknum p) eqn:H.
        -- apply has_marknum_iff in H. rewrite marknum_value_ok by auto. cbn [bind]. destruct (mark_number p (strip l) o) as [n|] eqn:V.
           ++ destruct (N.eqb_spec (c + 1) n) as [Q|Q].
              ** exists true. split; auto. split; auto. intros _. exists l. split; [now left|]. exists p, o. split; auto. split; auto. intros _. congruence.
              ** exists r. apply Skip. intros (p' & o' & Mt' & _ & G). rewrite Mt in Mt'. injection Mt' as <- <-. specialize (G H). congruence.
           ++ exists r. apply Skip. intros (p' & o' & Mt' & _ & G). rewrite Mt in Mt'. injection Mt' as <- <-. specialize (G H). congruence.
        -- exists true. split; auto. split; auto. intros _. exists l. split; [now left|]. exists p, o. split; auto. split; auto. intros G. apply has_marknum_iff in G. congruence.
    + exists r. apply Skip. intros (p' & o' & Mt' & _). congruence.
Qed.
(** the scan, after the lines [before] *)
Definition next_section_after (mk : list rx) (before lines : list str) (n : nat) : Prop :=
  exists line, nth_error lines n = Some line /\ regex_match_list (strip line) post_reference_title_patterns <> None
    /\ forall l, In l (firstn 199 (skipn (S n) lines)) -> ~ continues mk (last_number mk (before ++ firstn (S n) lines)) l.
Lemma last_number_snoc mk before l : last_number mk (before ++ [l]) = match line_number mk l with Some n => n | None => last_number mk before end.
Proof. unfold last_number. now rewrite fold_left_app. Qed.
Lemma end_scan_spec mk : forallb marker_ok mk = true -> forall lines before, exists n, end_scan mk (last_number mk before) lines = Ok n
  /\ (forall j, j < n -> ~ next_section_after mk before lines j) /\ (forall j, S j < n -> ~ axis_at lines j)
  /\ (n = length lines \/ next_section_after mk before lines n \/ exists j, n = S j /\ axis_at lines j) /\ n <= length lines.
Proof.
  intros F. induction lines as [|line t IH]; intros before; cbn [end_scan].
  - exists 0. split; auto. split; [intros; lia|]. split; [intros; lia|]. split; [now left|auto].
  - assert ((match regex_match_list (strip line) mk with
             | Some (p, o) => let* v := marknum_value p (strip line) o in Ok (match v with Some n => n | None => last_number mk before end)
             | None => Ok (last_number mk before) end) = Ok (last_number mk (before ++ [line]))) as ->.
    { rewrite last_number_snoc. unfold line_number. destruct (regex_match_list (strip line) mk) as [[p o]|] eqn:Mt; auto.
      destruct (match_ok _ _ _ _ F Mt) as (M & O). rewrite marknum_value_ok by auto. reflexivity. }
    cbn [bind]. set (c := last_number mk (before ++ [line])).
    assert (exists e, (match regex_match_list (strip line) post_reference_title_patterns with
       | Some _ => let* f := marker_follows mk c (firstn 199 t) in Ok (negb f) | None => Ok false end) = Ok e
       /\ (e = true <-> next_section_after mk before (line :: t) 0)) as (e & -> & Ee).
    { unfold next_section_after. change (skipn 1 (line :: t)) with t. change (firstn 1 (line :: t)) with [line]. change (nth_error (line :: t) 0) with (Some line). fold c. destruct (regex_match_list (strip line) post_reference_title_patterns) as [z|] eqn:Z.
      - destruct (follows_spec mk c F (firstn 199 t)) as (r & -> & R). cbn [bind]. exists (negb r). split; auto. rewrite negb_true_iff, <- not_true_iff_false, R. split.
        + intros N. exists line. split; auto. split; [congruence|]. intros l I C. apply N. exists l. split; auto.
        + intros (l0 & Q & _ & H) (l & I & C). injection Q as <-. exact (H l I C).
      - exists false. split; auto. split; [discriminate|]. intros (l0 & Q & H & _). injection Q as <-. congruence. }
    cbn [bind]. destruct e.
    { exists 0. split; auto. split; [intros; lia|]. split; [intros; lia|]. split; [right; left; now apply Ee|cbn; lia]. }
    destruct (graph_axis line t) eqn:G.
    { exists 1. apply graph_axis_iff in G. split; auto. split; [intros j J; replace j with 0 by lia; intros Q; apply Ee in Q; discriminate|].
      split; [intros; lia|]. split; [right; right; exists 0; auto|cbn; lia]. }
    destruct (IH (before ++ [line])) as (n & E & H1 & H2 & H3 & H4). fold c in E. rewrite E. cbn [bind]. exists (S n).
    assert (forall j, next_section_after mk before (line :: t) (S j) <-> next_section_after mk (before ++ [line]) t j) as Sh.
    { intros j. unfold next_section_after. cbn [nth_error]. change (skipn (S (S j)) (line :: t)) with (skipn (S j) t).
      change (firstn (S (S j)) (line :: t)) with (line :: firstn (S j) t). rewrite <- app_assoc. reflexivity. }
    split; auto. split.
    { intros [|j] J; [intros Q; apply Ee in Q; discriminate|]. rewrite Sh. apply H1. lia. }
    split. { intros [|j] J; [intros Q; apply graph_axis_iff in Q; congruence|]. change (axis_at (line :: t) (S j)) with (axis_at t j). apply H2. lia. }
    split; [|cbn; lia]. destruct H3 as [->|[H3|(j & -> & H3)]]; [now left|right; left; now apply Sh|right; right; exists (S j); auto].
Qed.
Lemma end_spec body start marker ptn : (forall p, ptn = Some p -> marker_ok p = true) ->
  let mk := match marker, ptn with Some _, Some p => [p] | _, _ => marker_patterns end in
  (body = [] \/ length body < start) /\ find_end_of_reference_section body start marker ptn = Ok None
  \/ exists n, find_end_of_reference_section body start marker ptn = Ok (Some (start + n)) /\ start <= length body /\ section_length mk (skipn start body) n.
Proof.
  intros P mk. unfold find_end_of_reference_section. destruct (Nat.ltb_spec (length body) start) as [L|L]; cbn [orb]; [left; auto|].
  destruct (Nat.ltb_spec (length body) 1) as [L1|L1]; [left; destruct body; [auto|cbn in L1; lia]|]. right. fold mk.
  assert (forallb marker_ok mk = true) as M.
  { unfold mk. destruct marker, ptn; try apply markers_ok. cbn. now rewrite (P _ eq_refl). }
  destruct (end_scan_spec mk M (skipn start body) []) as (n & E & H). change (last_number mk []) with 0%N in E. rewrite E. cbn [bind]. exists n. split; auto.
Qed.

(** ** The start of the section: by title *)
Lemma plain_lits fl s : plain (re_lits fl s) = true.
Proof. induction s as [|c [|d s] IH]; auto. Qed.
Lemma grps_lits fl s : sub_grps (re_lits fl s) = [].
Proof. induction s as [|c [|d s] IH]; auto. Qed.
Lemma in_all_title n t p : in_all n p = true -> in_all n (title_marker t p) = true.
Proof.
  unfold in_all, title_marker. cbn [rx_names rx_re]. destruct (assoc_str n (rx_names p)) as [i|]; auto. intros H. apply andb_true_iff in H as [A B]. rewrite A.
  cbn [always Nat.ltb Nat.leb andb orb]. rewrite B. now rewrite !orb_true_r.
Qed.
Lemma title_marker_ok t p : marker_ok p = true -> marker_ok (title_marker t p) = true.
Proof.
  unfold marker_ok. intros H. apply andb_true_iff in H as [H N]. apply andb_true_iff in H as [P M].
  rewrite (in_all_title _ t p M). change (rx_names (title_marker t p)) with (rx_names p).
  assert (plain (rx_re (title_marker t p)) = true) as -> by (cbn; now rewrite plain_lits, P). cbn [andb].
  destruct (assoc_str (py "marknum") (rx_names p)) as [i|]; auto. apply andb_true_iff in N as [N F]. rewrite (in_all_title _ t p N).
  unfold title_marker. cbn [rx_re sub_grps]. rewrite grps_lits. exact F.
Qed.
Lemma body_rxs_ok : forallb marker_ok marker_body_rxs = true. Proof. vm_compute. reflexivity. Qed.
Lemma titles_ok : forallb (in_all (py "title")) reference_section_title_patterns = true. Proof. vm_compute. reflexivity. Qed.
Lemma numeration_in_body body : exists d, find_numeration_in_body body = Ok d /\ d_same_line d = false /\ (forall p, d_pattern d = Some p -> marker_ok p = true).
Proof.
  induction body as [|l t IH]; cbn [find_numeration_in_body].
  - eexists. split; [reflexivity|]. split; auto. discriminate.
  - destruct (isspace l); auto. destruct (regex_match_list l marker_patterns) as [[p o]|] eqn:M; auto.
    destruct (match_ok _ _ _ _ markers_ok M) as (K & O). destruct (marker_mark _ _ _ K O) as (mk & ->).
    destruct (group_named p l o (py "marknum")) as [n|]; cbn [bind].
    + destruct (match n with Some x => eqs x (py "1") | None => false end); auto. eexists. split; [reflexivity|]. split; auto. cbn. now intros q [= <-].
    + eexists. split; [reflexivity|]. split; auto. cbn. now intros q [= <-].
Qed.
Lemma numeration_of_section body title : exists d found, find_numeration_of_section body title = Ok (d, found)
  /\ (forall p, d_pattern d = Some p -> marker_ok p = true) /\ (found = true -> exists c m, d_marker d = Some (c :: m)).
Proof.
  unfold find_numeration_of_section, find_numeration_in_title. destruct body as [|first t].
  - cbn. exists (mkdet None None false), false. split; auto. split; discriminate.
  - destruct (regex_match_list first (map (title_marker title) marker_body_rxs)) as [[p o]|] eqn:M.
    + assert (forallb marker_ok (map (title_marker title) marker_body_rxs) = true) as K0.
      { apply forallb_forall. intros q I. apply in_map_iff in I as (r & <- & I). apply title_marker_ok. pose proof body_rxs_ok as B. rewrite forallb_forall in B. auto. }
      destruct (match_ok _ _ _ _ K0 M) as (K & O). destruct (marker_mark _ _ _ K O) as (mk & ->). cbn [bind].
      eexists _, _. split; [reflexivity|]. split; [cbn; now intros q [= <-]|]. intros Q. cbn [d_marker]. destruct mk as [|c mk]; [|eauto]. vm_compute in Q. discriminate.
    + cbn [bind]. destruct (numeration_in_body (first :: t)) as (d & -> & _ & P). cbn [bind]. exists d, false. split; auto. split; auto. discriminate.
Qed.
(** line [j] is a title for the pattern [p]; [f]: the first marker follows on the same line *)
Definition title_at (p : rx) (body : list str) (s : section_start) (f : bool) : Prop :=
  exists line o title, nth_error body (s_line s) = Some line /\ re_match (rx_re p) line = Some o /\ group_named p line o (py "title") = Ok (Some title)
    /\ s_title s = Some title /\ find_numeration_of_section (firstn 6 (skipn (s_line s) body)) title = Ok (s_details s, f).
Definition has_marker (s : section_start) : Prop := exists c m, d_marker (s_details s) = Some (c :: m).
(** the title chosen among those from line [i] on *)
Definition chosen_from (i : nat) (p : rx) (body : list str) (s : section_start) : Prop :=
  exists f, title_at p body s f /\ i <= s_line s /\
  ((f = true /\ (forall s', title_at p body s' true -> i <= s_line s' -> s_line s' <= s_line s))
   \/ ((forall s', title_at p body s' true -> i <= s_line s' -> False) /\
       ((has_marker s /\ forall s' f', title_at p body s' f' -> has_marker s' -> i <= s_line s' -> s_line s <= s_line s')
        \/ (forall s' f', title_at p body s' f' -> i <= s_line s' -> ~ has_marker s' /\ s_line s <= s_line s')))).
Definition chosen := chosen_from 0.
Lemma title_at_fun p body s s' f f' : title_at p body s f -> title_at p body s' f' -> s_line s = s_line s' -> s = s' /\ f = f'.
Proof.
  intros (l & o & t & A & B & C & D & E) (l' & o' & t' & A' & B' & C' & D' & E') Q. rewrite Q in *. rewrite A in A'. injection A' as <-. rewrite B in B'. injection B' as <-.
  rewrite C in C'. injection C' as <-. rewrite E in E'. injection E' as E1 E2. destruct s, s'; cbn in *. subst. auto.
Qed.
Lemma has_marker_dec s : (match d_marker (s_details s) with Some (_ :: _) => true | _ => false end) = true <-> has_marker s.
Proof. unfold has_marker. destruct (d_marker (s_details s)) as [[|c m]|]; split; intros H; try discriminate; try (destruct H as (? & ? & ?); discriminate); eauto. Qed.
Lemma found_marker p body s : title_at p body s true -> has_marker s.
Proof.
  intros (l & o & t & _ & _ & _ & _ & E). destruct (numeration_of_section (firstn 6 (skipn (s_line s) body)) t) as (d & f & E' & _ & H). rewrite E in E'. injection E' as <- <-. exact (H eq_refl).
Qed.
Lemma title_scan_spec p body : in_all (py "title") p = true -> forall i best, i <= length body ->
  match best with
  | None => forall s f, title_at p body s f -> i <= s_line s -> False
  | Some b => chosen_from i p body b /\ forall s, title_at p body s true -> i <= s_line s -> False
  end ->
  exists r, title_scan p body i best = Ok r /\ match r with Some s => chosen p body s | None => forall s f, ~ title_at p body s f end.
Proof.
  intros T. induction i as [|j IH]; intros best L H; cbn [title_scan].
  - exists best. split; auto. destruct best as [b|]; [apply H|]. intros s f Q. apply (H s f Q). lia.
  - destruct (nth_error body j) as [line|] eqn:E; [|apply nth_error_None in E; lia].
    (* no title on this line *)
    destruct (re_match (rx_re p) line) as [o|] eqn:M.
    + destruct (in_all_text line p o _ T (proj1 (re_match_ok _ _ _ M))) as (g & a & b & _ & _ & _ & G). rewrite G. cbn [bind].
      destruct (numeration_of_section (firstn 6 (skipn j body)) (slice a b line)) as (d & f & D & Pk & Fm). rewrite D. cbn [bind].
      set (s := mksec j (Some (slice a b line)) d). assert (title_at p body s f) as Ts by (exists line, o, (slice a b line); cbn; auto).
      assert (forall s' f', title_at p body s' f' -> j <= s_line s' -> (s' = s /\ f' = f) \/ S j <= s_line s') as Cases.
      { intros s' f' Q K. destruct (Nat.eq_dec (s_line s') j) as [Ej|]; [left; apply (title_at_fun p body s' s f' f Q Ts Ej)|right; lia]. }
      set (keep := match best with Some b0 => _ | None => false end). destruct keep eqn:K.
      * (* the previous one is kept *)
        apply IH; [lia|]. unfold keep in K. destruct best as [b0|]; [|discriminate]. apply andb_true_iff in K as [K1 K2]. apply has_marker_dec in K1.
        assert (~ has_marker s) as Nm by (unfold has_marker; cbn; intros (c & m & Q); now rewrite Q in K2).
        destruct H as ((f0 & T0 & L0 & C) & Nf). split.
        { exists f0. split; auto. split; [lia|]. destruct C as [(-> & C)|(C1 & C2)]; [exfalso; eapply Nf; eauto|]. right. split.
          - intros s' Q K'. destruct (Cases s' true Q K') as [(-> & _)|K'']; [apply Nm; eapply found_marker; eauto|eauto].
          - left. split; auto. intros s' f' Q Mk K'. destruct (Cases s' f' Q K') as [(-> & _)|K'']; [tauto|]. destruct C2 as [(_ & C2)|C2]; [eauto|]. elim (proj1 (C2 b0 f0 T0 L0)). exact K1. }
        { intros s' Q K'. destruct (Cases s' true Q K') as [(-> & _)|K'']; [apply Nm; eapply found_marker; eauto|eauto]. }
      * assert (forall s', title_at p body s' true -> S j <= s_line s' -> False) as Nf by (intros s' Q K'; destruct best; [eapply (proj2 H); eauto|eapply H; eauto]).
        assert (chosen_from j p body s) as Ch.
        { exists f. split; auto. split; [cbn; lia|]. destruct f.
          - left. split; auto. intros s' Q K'. destruct (Cases s' true Q K') as [(-> & _)|K'']; [auto|]. exfalso. eauto.
          - right. split.
            + intros s' Q K'. destruct (Cases s' true Q K') as [(_ & Q')|K'']; [discriminate|eauto].
            + destruct (match d_marker d with Some (_ :: _) => true | _ => false end) eqn:Dm.
              * left. split; [apply has_marker_dec; exact Dm|]. intros s' f' Q _ K'. cbn. lia.
              * right. intros s' f' Q K'. split; [|cbn; lia]. destruct (Cases s' f' Q K') as [(-> & _)|K''].
                -- intros Q2. apply has_marker_dec in Q2. cbn in Q2. congruence.
                -- intros Q2. unfold keep in K. destruct best as [b0|]; [|eapply H; eauto]. destruct H as ((f0 & T0 & L0 & C) & _).
                   assert (has_marker b0) as Hb.
                   { destruct C as [(-> & _)|(_ & [(C & _)|C])]; [eapply found_marker; eauto|exact C|]. elim (proj1 (C s' f' Q K'')). exact Q2. }
                   apply has_marker_dec in Hb. rewrite Hb in K. cbn in K. destruct (d_marker d) as [[|]|]; discriminate. }
        destruct f.
        { exists (Some s). split; auto. destruct Ch as (f & T0 & L0 & C). exists f. split; auto. split; [lia|].
          destruct (title_at_fun p body s s f true T0 Ts eq_refl) as (_ & ->). left. split; auto.
          intros s' Q _. destruct (Nat.le_gt_cases (s_line s') (s_line s)) as [|Gt]; auto. exfalso. eapply Nf; eauto. }
        apply IH; [lia|]. split; auto. intros s' Q K'. destruct (Cases s' true Q K') as [(_ & Q')|K'']; [discriminate|eauto].
    + assert (forall s' f', title_at p body s' f' -> j <= s_line s' -> S j <= s_line s') as Cases.
      { intros s' f' (l' & o' & t' & A & B & _) K. destruct (Nat.eq_dec (s_line s') j) as [Ej|]; [|lia]. rewrite Ej in A. rewrite E in A. injection A as <-. congruence. }
      apply IH; [lia|]. destruct best as [b0|].
      * destruct H as ((f0 & T0 & L0 & C) & Nf). split; [|intros s' Q K'; eauto]. exists f0. split; auto. split; [lia|].
        destruct C as [(-> & C)|(C1 & C2)]; [left; split; auto; intros s' Q K'; eauto|]. right. split; [intros s' Q K'; eauto|].
        destruct C2 as [(C2 & C3)|C2]; [left; split; auto; intros s' f' Q Mk K'; eauto|right; intros s' f' Q K'; eauto].
      * intros s f Q K'. eapply H; eauto.
Qed.
(** the patterns are tried in order *)
Lemma find_title ps body : forallb (in_all (py "title")) ps = true -> exists r, find_reference_section_from ps body = Ok r /\
  match r with
  | Some s => exists qs p rs, ps = qs ++ p :: rs /\ chosen p body s /\ forall q s' f, In q qs -> ~ title_at q body s' f
  | None => forall p s f, In p ps -> ~ title_at p body s f
  end.
Proof.
  induction ps as [|p ps IH]; cbn [forallb find_reference_section_from]; intros T.
  - exists None. split; auto.
  - apply andb_true_iff in T as [T1 T2]. destruct (title_scan_spec p body T1 (length body) None (le_n _)) as (r & E & H).
    { intros s f (l & o & t & A & _) L. assert (s_line s < length body) by (apply nth_error_Some; congruence). lia. }
    rewrite E. cbn [bind]. destruct r as [s|].
    + exists (Some s). split; auto. exists [], p, ps. split; auto.
    + destruct (IH T2) as (r & -> & R). exists r. split; auto. destruct r as [s|].
      * destruct R as (qs & q & rs & -> & C & N). exists (p :: qs), q, rs. split; auto. split; auto. intros q' s' f' [<-|I]; eauto.
      * intros q s f [<-|I]; eauto.
Qed.
(** a title line is just a line that the pattern matches *)
Lemma title_lines p body j line o : in_all (py "title") p = true -> nth_error body j = Some line -> re_match (rx_re p) line = Some o ->
  exists s f, title_at p body s f /\ s_line s = j.
Proof.
  intros T E M. destruct (in_all_text line p o _ T (proj1 (re_match_ok _ _ _ M))) as (g & a & b & _ & _ & _ & G).
  destruct (numeration_of_section (firstn 6 (skipn j body)) (slice a b line)) as (d & f & D & _).
  exists (mksec j (Some (slice a b line)) d), f. split; auto. exists line, o, (slice a b line). cbn. auto.
Qed.

(** ** The start of the section: without title *)
Definition marked (p : rx) (n : string) (line : str) : Prop :=
  exists o, re_match (rx_re p) (strip line) = Some o /\ group_named p (strip line) o (py "marknum") = Ok (Some (py n)).
(** line [j] has the number 1, and the number 2 is among the next ten lines, unless fewer
    than five lines follow *)
Definition number_at (p : rx) (body : list str) (j : nat) : Prop :=
  exists line, nth_error body j = Some line /\ marked p "1" line
    /\ (length (firstn 10 (skipn (S j) body)) < 5 \/ exists l, In l (firstn 10 (skipn (S j) body)) /\ marked p "2" l).
Lemma marknum_is_spec p line n : marker_ok p = true -> numbered p -> exists b, marknum_is p (strip line) (py n) = Ok b /\ (b = true <-> marked p n line).
Proof.
  intros M Nm. unfold marknum_is, marked. destruct (re_match (rx_re p) (strip line)) as [o|] eqn:E.
  - destruct (marker_marknum _ _ _ M (proj1 (re_match_ok _ _ _ E))) as [(A & _)|(_ & t & G & _)]; [now elim Nm|]. rewrite G. cbn [bind]. exists (eqs t (py n)). split; auto.
    rewrite eqs_eq. split; [intros ->; eauto|]. intros (o' & Q & H). injection Q as <-. congruence.
  - exists false. split; auto. split; [discriminate|intros (o & Q & _); discriminate].
Qed.
Lemma any_marknum_spec p n lines : marker_ok p = true -> numbered p -> exists b, any_marknum p (py n) lines = Ok b /\ (b = true <-> exists l, In l lines /\ marked p n l).
Proof.
  intros M Nm. induction lines as [|l t (b & E & B)]; cbn [any_marknum].
  - exists false. split; auto. split; [discriminate|intros (l & [] & _)].
  - destruct (marknum_is_spec p l n M Nm) as (b0 & -> & B0). cbn [bind]. destruct b0.
    + exists true. split; auto. split; auto. intros _. exists l. split; [now left|now apply B0].
    + exists b. split; auto. rewrite B. split; intros (x & I & K); [exists x; split; auto; now right|]. destruct I as [<-|I]; [apply B0 in K; discriminate|eauto].
Qed.
Definition number_section (p : rx) (body : list str) (s : section_start) : Prop :=
  number_at p body (s_line s) /\ (forall j, number_at p body j -> j <= s_line s) /\ s_title s = None /\ d_same_line (s_details s) = false
  /\ d_pattern (s_details s) = Some p
  /\ exists line o mk, nth_error body (s_line s) = Some line /\ re_match (rx_re p) (strip line) = Some o /\ group_named p (strip line) o (py "mark") = Ok (Some mk)
       /\ d_marker (s_details s) = Some (strip mk).
Lemma number_scan_spec p body : marker_ok p = true -> numbered p -> forall i, i <= length body ->
  (forall j, number_at p body j -> j < i) ->
  exists r, number_scan p body i = Ok r /\ match r with Some s => number_section p body s | None => forall j, ~ number_at p body j end.
Proof.
  intros M Nm. induction i as [|j IH]; intros L H; cbn [number_scan].
  - exists None. split; auto. intros j Q. apply H in Q. lia.
  - destruct (nth_error body j) as [line|] eqn:E; [|apply nth_error_None in E; lia].
    destruct (marknum_is_spec p line "1" M Nm) as (one & -> & One). cbn [bind].
    assert (~ number_at p body j -> exists r, number_scan p body j = Ok r /\ match r with Some s => number_section p body s | None => forall j, ~ number_at p body j end) as Skip.
    { intros N. apply IH; [lia|]. intros k Q. pose proof (H k Q). assert (k <> j) by (intros ->; tauto). lia. }
    destruct one.
    + set (zone := firstn 10 (skipn (S j) body)).
      assert (exists f, (if length zone <? 5 then Ok true else any_marknum p (py "2") zone) = Ok f /\ (f = true <-> length zone < 5 \/ exists l, In l zone /\ marked p "2" l)) as (f & -> & F).
      { destruct (Nat.ltb_spec (length zone) 5) as [Q|Q]; [exists true; split; auto; split; auto|]. destruct (any_marknum_spec p "2" zone M Nm) as (b & -> & B). exists b. split; auto. rewrite B. split; auto.
        intros [X|X]; [lia|auto]. }
      cbn [bind]. destruct f.
      * destruct (proj1 One eq_refl) as (o & Mt & G). rewrite Mt. destruct (marker_mark _ _ _ M (proj1 (re_match_ok _ _ _ Mt))) as (mk & Gm). rewrite Gm. cbn [bind].
        eexists. split; [reflexivity|]. cbn. unfold number_section. cbn. split; [exists line; split; auto; split; [now apply One|apply F; auto]|].
        split; [intros k Q; apply H in Q; lia|]. split; auto. split; auto. split; auto. exists line, o, mk. auto.
      * apply Skip. intros (l & E' & _ & Z). apply F in Z. discriminate.
    + apply Skip. intros (l & E' & Q & _). rewrite E in E'. injection E' as <-. apply One in Q. discriminate.
Qed.
Lemma number_section_spec p body : marker_ok p = true -> numbered p ->
  exists r, find_reference_section_no_title p body = Ok r /\ match r with Some s => number_section p body s | None => forall j, ~ number_at p body j end.
Proof.
  intros M Nm. apply number_scan_spec; auto. intros j (l & E & _). apply nth_error_Some. congruence.
Qed.

(** ** The beginning *)
Definition by_title (body : list str) (s : section_start) : Prop :=
  exists qs p rs, reference_section_title_patterns = qs ++ p :: rs /\ chosen p body s /\ forall q s' f, In q qs -> ~ title_at q body s' f.
Definition no_title (body : list str) : Prop := forall p line, In p reference_section_title_patterns -> In line body -> re_match (rx_re p) line = None.
Definition no_number (p : rx) (body : list str) : Prop := forall j, ~ number_at p body j.
Definition beginning (body : list str) (r : option section_start) : Prop :=
  match r with
  | Some s => by_title body s
              \/ no_title body /\ (number_section re_bracket_markers body s
                 \/ no_number re_bracket_markers body /\ (number_section re_dot_markers body s
                    \/ no_number re_dot_markers body /\ number_section re_number_markers body s))
  | None => no_title body /\ no_number re_bracket_markers body /\ no_number re_dot_markers body /\ no_number re_number_markers body
  end.
Lemma title_none body : (forall p s f, In p reference_section_title_patterns -> ~ title_at p body s f) -> no_title body.
Proof.
  intros H p line I L. destruct (re_match (rx_re p) line) as [o|] eqn:M; auto. exfalso. apply In_nth_error in L as (j & E).
  pose proof titles_ok as T. rewrite forallb_forall in T. destruct (title_lines p body j line o (T p I) E M) as (s & f & Q & _). eapply H; eauto.
Qed.
Lemma beginning_spec body : exists r, get_reference_section_beginning body = Ok r /\ beginning body r.
Proof.
  unfold get_reference_section_beginning, find_reference_section. destruct (find_title _ body titles_ok) as (r & -> & R). cbn [bind]. destruct r as [s|].
  - exists (Some s). split; auto. now left.
  - apply title_none in R. destruct (number_section_spec re_bracket_markers body) as (r & -> & R1); [reflexivity|discriminate|]. cbn [bind].
    destruct r as [s|]; [exists (Some s); split; auto; right; auto|].
    destruct (number_section_spec re_dot_markers body) as (r & -> & R2); [reflexivity|discriminate|]. cbn [bind].
    destruct r as [s|]; [exists (Some s); split; auto; right; split; auto|].
    destruct (number_section_spec re_number_markers body) as (r & -> & R3); [reflexivity|discriminate|]. exists r. split; auto.
    destruct r as [s|]; [right; split; auto; right; split; auto|]. repeat (split; auto).
Qed.
(** facts used below *)
Lemma beginning_ok body s : beginning body (Some s) -> s_line s < length body /\ (forall p, d_pattern (s_details s) = Some p -> marker_ok p = true)
  /\ (d_same_line (s_details s) = true -> s_title s <> None).
Proof.
  assert (forall p, marker_ok p = true -> number_section p body s -> s_line s < length body /\ (forall p, d_pattern (s_details s) = Some p -> marker_ok p = true)
    /\ (d_same_line (s_details s) = true -> s_title s <> None)) as Num.
  { intros p M ((l & E & _) & _ & _ & Sl & P & _). split; [apply nth_error_Some; congruence|]. split; [intros q; rewrite P; now intros [= <-]|congruence]. }
  intros [(qs & p & rs & _ & (f & (l & o & t & E & _ & _ & St & D) & _) & _)|(_ & [N|(_ & [N|(_ & N)])])]; try (eapply Num; [|exact N]; reflexivity).
  split; [apply nth_error_Some; congruence|]. split; [|congruence].
  destruct (numeration_of_section (firstn 6 (skipn (s_line s) body)) t) as (d & f' & D' & P & _). rewrite D in D'. injection D' as <- <-. auto.
Qed.

(** ** Extracting the references of a text never fails *)
Lemma removed_forall (P : str -> Prop) D i l l' : removed D i l l' -> Forall P l -> Forall P l'.
Proof. induction 1; intros F; inversion F; subst; auto. Qed.
Lemma removed_lines_forall (P : str -> Prop) body out : remove_page_boundary_lines body = Ok out -> Forall P body -> Forall P out.
Proof.
  intros H F. destruct (removed_lines body) as (out' & E & C). rewrite H in E. injection E as <-. destruct C as [(_ & ->)|(nh & nf & _ & _ & A & B)]; auto.
  unfold long_pages in *. destruct (nonempty (page_lens (breaks body)) && (nh + nf + 1 <? min_list (page_lens (breaks body)))) eqn:T.
  - eapply removed_forall; eauto. apply A. now apply long_pages_test.
  - rewrite B; auto. intros Q. apply long_pages_test in Q. congruence.
Qed.
Lemma skipn_short n l : short l -> short (skipn n l).
Proof. unfold short. intros H. rewrite skipn_length. lia. Qed.
Lemma Forall_firstn {A} (P : A -> Prop) n : forall l, Forall P l -> Forall P (firstn n l).
Proof. induction n; intros l F; [constructor|]. destruct F; cbn; constructor; auto. Qed.
Lemma Forall_skipn {A} (P : A -> Prop) n : forall l, Forall P l -> Forall P (skipn n l).
Proof. induction n; intros l F; auto. destruct F; cbn; auto. Qed.
Lemma Forall_filter {A} (P : A -> Prop) f l : Forall P l -> Forall P (filter f l).
Proof. induction 1; cbn; auto. destruct (f x); auto. Qed.
(** the lines that make up the references: [n] lines from the start, without the title and
    without lines that repeat the title *)
Definition after_title (t l : str) : str := match find_sub t l with Some i => skipn (i + length t) l | None => l end.
Definition section_lines (body : list str) (s : section_start) (n : nat) : list str :=
  let ls := firstn n (skipn (s_line s) body) in
  match s_title s with
  | None => ls
  | Some t =>
    filter (fun l => negb (nonempty t && is_footer t l))
      (match ls with [] => [] | l :: r => if d_same_line (s_details s) then after_title t l :: r else r end)
  end.
Lemma filter_all {A} (l : list A) : filter (fun _ => true) l = l. Proof. induction l; cbn; congruence. Qed.
Lemma firstn_cut {A} k n : forall l : list A, skipn k (firstn (k + n) l) = firstn n (skipn k l).
Proof. induction k as [|k IH]; intros l; auto. destruct l; cbn; [now destruct n|apply IH]. Qed.
Lemma reference_lines_spec body s n : s_line s < length body -> (d_same_line (s_details s) = true -> s_title s <> None) ->
  get_reference_lines body (s_line s) (s_line s + n) (s_title s) (d_pattern (s_details s)) (d_same_line (s_details s))
  = rebuild_reference_lines (section_lines body s n) (d_pattern (s_details s)).
Proof.
  intros L Sl. unfold get_reference_lines, section_lines. set (k := s_line s) in *.
  destruct (nth_error body k) as [l|] eqn:E; [|apply nth_error_None in E; lia].
  assert (skipn k body = l :: skipn (S k) body) as Ek.
  { clear -E. revert body E. induction k as [|k IH]; intros [|x b] E; try discriminate; cbn in *; [congruence|auto]. }
  assert (forall x, skipn k (firstn (k + n) (firstn k body ++ x :: skipn (S k) body)) = firstn n (x :: skipn (S k) body)) as Sk.
  { intros x. rewrite firstn_cut. f_equal. rewrite skipn_app. rewrite firstn_length_le by lia. rewrite Nat.sub_diag, skipn_all2 by (rewrite firstn_length; lia). reflexivity. }
  destruct (s_title s) as [t|].
  - assert ((if d_same_line (s_details s) then Ok (match find_sub t l with Some i => firstn k body ++ skipn (i + length t) l :: skipn (S k) body | None => body end, k) else Ok (body, S k))
      = Ok (if d_same_line (s_details s) then firstn k body ++ after_title t l :: skipn (S k) body else body, if d_same_line (s_details s) then k else S k)) as ->.
    { destruct (d_same_line (s_details s)); auto. unfold after_title. destruct (find_sub t l); auto. rewrite <- Ek. now rewrite firstn_skipn. }
    cbn [bind]. f_equal.
    assert (skipn (if d_same_line (s_details s) then k else S k) (firstn (k + n) (if d_same_line (s_details s) then firstn k body ++ after_title t l :: skipn (S k) body else body))
      = match firstn n (skipn k body) with [] => [] | l0 :: r => if d_same_line (s_details s) then after_title t l0 :: r else r end) as ->.
    { rewrite Ek. destruct (d_same_line (s_details s)).
      - rewrite Sk. destruct n; reflexivity.
      - destruct n as [|n]; [rewrite Nat.add_0_r; apply skipn_all2; rewrite firstn_length; lia|]. replace (k + S n) with (S k + n) by lia. rewrite firstn_cut. reflexivity. }
    destruct t as [|c t]; cbn [nonempty andb]; [|reflexivity]. cbn [negb]. now rewrite filter_all.
  - destruct (d_same_line (s_details s)); [now elim (Sl eq_refl)|]. cbn [bind]. now rewrite firstn_cut.
Qed.
Lemma section_lines_short body s n : Forall short body -> Forall short (section_lines body s n).
Proof.
  intros F. unfold section_lines. assert (Forall short (firstn n (skipn (s_line s) body))) as F1 by (apply Forall_firstn, Forall_skipn; auto).
  destruct (s_title s) as [t|]; auto. apply Forall_filter. destruct F1 as [|l r S1 F1]; auto. destruct (d_same_line (s_details s)); auto. constructor; auto.
  unfold after_title. destruct (find_sub t l); auto. now apply skipn_short.
Qed.
Definition section_markers (s : section_start) : list rx :=
  match d_marker (s_details s), d_pattern (s_details s) with Some _, Some p => [p] | _, _ => marker_patterns end.
Lemma extract_spec fulltext : exists body r, remove_page_boundary_lines fulltext = Ok body /\ get_reference_section_beginning body = Ok r /\ beginning body r /\
  match r with
  | None => extract_references_from_fulltext fulltext = Ok ([], 4)
  | Some s => exists n, section_length (section_markers s) (skipn (s_line s) body) n /\
      extract_references_from_fulltext fulltext =
      (let* refs := rebuild_reference_lines (section_lines body s n) (d_pattern (s_details s)) in Ok (refs, 0))
      /\ (Forall short fulltext -> exists refs, rebuild_reference_lines (section_lines body s n) (d_pattern (s_details s)) = Ok refs)
  end.
Proof.
  unfold extract_references_from_fulltext. destruct (removed_lines fulltext) as (body & E & _). rewrite E. cbn [bind].
  destruct (beginning_spec body) as (r & R & B). exists body, r. split; auto. split; auto. split; auto. rewrite R. cbn [bind]. destruct r as [s|]; auto.
  destruct (beginning_ok body s B) as (L & P & Sl).
  destruct (end_spec body (s_line s) (d_marker (s_details s)) (d_pattern (s_details s)) P) as [([Q|Q] & _)|(n & -> & _ & S)]; [subst; cbn in L; lia|lia|].
  exists n. split; auto. cbn [bind]. rewrite reference_lines_spec by auto. split; auto.
  intros F. pose proof (removed_lines_forall _ _ _ E F) as Fb. apply rebuild_total. destruct (d_pattern (s_details s)) as [p|]; auto. right. split; auto. now apply section_lines_short.
Qed.
Lemma extract_total fulltext : Forall short fulltext ->
  (exists refs, extract_references_from_fulltext fulltext = Ok (refs, 0)) \/ extract_references_from_fulltext fulltext = Ok ([], 4).
Proof.
  intros F. destruct (extract_spec fulltext) as (body & r & _ & _ & _ & H). destruct r as [s|]; auto. destruct H as (n & _ & -> & T). destruct (T F) as (refs & ->). left. cbn. eauto.
Qed.

(** ** A title on the line of the first marker *)
(** equal up to case *)
Definition same_letter (c d : ch) : Prop := cls_mem (mkcls false true [CRange c c]) d = true.
Definition contains_ci (t line : str) : Prop := exists a w b, line = a ++ w ++ b /\ Forall2 same_letter t w.
Lemma lits_ci t : forall x g x' g', mt (re_lits fI t) x g x' g' -> exists w, fwd x w x' /\ Forall2 same_letter t w.
Proof.
  assert (forall c x g x' g', mt (lit fI c) x g x' g' -> exists d, fwd x [d] x' /\ same_letter c d) as L.
  { intros c x g x' g' M. apply mt_cls_fwd in M as (d & F & M & _). exists d. split; auto. }
  induction t as [|c [|c2 t] IH]; intros x g x' g' M.
  - cbn in M. inversion M; subst. exists []. split; [apply fwd_refl|constructor].
  - apply L in M as (d & F & S). exists [d]. split; auto.
  - change (re_lits fI (c :: c2 :: t)) with (Cat (lit fI c) (re_lits fI (c2 :: t))) in M. apply mt_cat_iff in M as (y & h & A & B).
    apply L in A as (d & F & S). apply IH in B as (w & G & W). exists (d :: w). split; auto. change (d :: w) with ([d] ++ w). eapply fwd_app; eauto.
Qed.
Lemma title_marker_contains t p line o : re_search (rx_re (title_marker t p)) line = Some o -> contains_ci t line.
Proof.
  intros H. apply re_search_some in H as (a & w & b & x' & -> & F & M & _). cbn [title_marker rx_re] in M.
  apply mt_cat_iff in M as (y & h & M1 & M). apply mt_cat_iff in M as (z & k & M2 & M3).
  apply mt_rep_cls in M1 as (u & U & _). apply lits_ci in M2 as (v & V & S). destruct (mt_fwd _ _ _ _ _ M3) as (r & R).
  assert (w = u ++ v ++ r) as -> by (eapply fwd_fun; eauto; eapply fwd_app; eauto; eapply fwd_app; eauto).
  exists (a ++ u), v, (r ++ b). split; auto. now rewrite <- !app_assoc.
Qed.
Lemma unmarked_steps p indent lines : Forall (fun l => re_search (rx_re p) l = None) lines -> forall s,
  rebuild_steps p indent s lines = Ok (mkrb (w_current s) (w_marknum s) (w_working s ++ full lines) (w_out s)).
Proof.
  induction 1 as [|l t H F IH]; intros s; cbn [rebuild_steps].
  - rewrite app_nil_r. now destruct s.
  - unfold rebuild_step. rewrite H. cbn [bind]. rewrite IH. cbn [w_current w_marknum w_working w_out]. f_equal. f_equal. rewrite full_cons. unfold add_nonempty. destruct l; cbn; auto. now rewrite <- app_assoc.
Qed.
Lemma merged p lines : Forall (fun l => re_search (rx_re p) l = None) lines -> exists out, rebuild_reference_lines lines (Some p) = Ok out /\ length out <= 1.
Proof.
  intros F. unfold rebuild_reference_lines. cbn [separator]. rewrite (unmarked_steps p false lines F). cbn [bind w_working w_out rb_init app]. eexists. split; [reflexivity|].
  unfold flush. destruct (full lines); cbn; lia.
Qed.
Lemma same_line_pattern body s : beginning body (Some s) -> d_same_line (s_details s) = true ->
  exists t q, s_title s = Some t /\ In q marker_body_rxs /\ d_pattern (s_details s) = Some (title_marker t q).
Proof.
  assert (forall p, number_section p body s -> d_same_line (s_details s) = true -> exists t q, s_title s = Some t /\ In q marker_body_rxs /\ d_pattern (s_details s) = Some (title_marker t q)) as Num.
  { intros p (_ & _ & _ & Sl & _) Q. congruence. }
  intros [(qs & p & rs & _ & (f & (l & o & t & E & _ & _ & St & D) & _) & _)|(_ & [N|(_ & [N|(_ & N)])])] Sl; try (eapply Num; eauto; fail).
  exists t. unfold find_numeration_of_section, find_numeration_in_title in D. destruct (firstn 6 (skipn (s_line s) body)) as [|first r]; [cbn in D; injection D as D1 D2; rewrite <- D1 in Sl; discriminate|].
  destruct (regex_match_list first (map (title_marker t) marker_body_rxs)) as [[p' o']|] eqn:M.
  - apply regex_match_list_some in M as (I & _). apply in_map_iff in I as (q & <- & I). exists q. split; auto. split; auto.
    destruct (group_named _ _ _ _) as [[mk|]|]; cbn [bind] in D; try discriminate. injection D as D1 D2. rewrite <- D1. reflexivity.
  - cbn [bind] in D. destruct (numeration_in_body (first :: r)) as (d & E' & Sl' & _). rewrite E' in D. cbn [bind] in D. injection D as D1 D2. congruence.
Qed.
Lemma extract_merged fulltext body s : remove_page_boundary_lines fulltext = Ok body -> get_reference_section_beginning body = Ok (Some s) ->
  d_same_line (s_details s) = true -> (forall t line, s_title s = Some t -> In line (skipn (S (s_line s)) body) -> ~ contains_ci t line) ->
  (forall t line, s_title s = Some t -> nth_error body (s_line s) = Some line -> ~ contains_ci t (after_title t line)) ->
  exists refs, extract_references_from_fulltext fulltext = Ok (refs, 0) /\ length refs <= 1.
Proof.
  intros E B Sl Nt Nl. destruct (extract_spec fulltext) as (body' & r & E' & B' & Bg & H). rewrite E in E'. injection E' as <-. rewrite B in B'. injection B' as <-.
  destruct H as (n & _ & -> & _). destruct (same_line_pattern body s Bg Sl) as (t & q & T & _ & ->).
  destruct (merged (title_marker t q) (section_lines body s n)) as (out & Eo & L); [|rewrite Eo; cbn [bind]; eauto].
  unfold section_lines. rewrite T, Sl. apply Forall_filter.
  assert (forall l, ~ contains_ci t l -> re_search (rx_re (title_marker t q)) l = None) as Nc.
  { intros l N. destruct (re_search (rx_re (title_marker t q)) l) as [o|] eqn:O; auto. elim N. eapply title_marker_contains; eauto. }
  destruct (firstn n (skipn (s_line s) body)) as [|l r] eqn:F; [constructor|]. destruct n as [|n]; [discriminate|].
  destruct (skipn (s_line s) body) as [|l' r'] eqn:K; [discriminate|]. cbn [firstn] in F. injection F as -> <-.
  assert (skipn (S (s_line s)) body = r') as K2.
  { replace (S (s_line s)) with (1 + s_line s) by lia. rewrite <- (skipn_skipn 1 (s_line s) body). now rewrite K. }
  constructor.
  - apply Nc. apply Nl; auto. rewrite <- (firstn_skipn (s_line s) body), K.
    assert (s_line s < length body) as Lt by (apply (beginning_ok body s Bg)). rewrite nth_error_app2; rewrite firstn_length_le by lia; [|lia]. now rewrite Nat.sub_diag.
  - apply Forall_forall. intros x I. apply Nc. apply Nt; auto. rewrite K2. rewrite <- (firstn_skipn n r'). apply in_app_iff. auto.
Qed.
