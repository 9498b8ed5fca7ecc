(** Where the grammars of SectGrammar decide what the code does (C58). *)
From Coq Require Import List Arith NArith Bool String Lia.
From Verif Require Import PyStr ListFacts NumberFacts Regex RegexMeta RegexLang RegexParse Patterns DocText ParseTagged Tag Find RefText RefTextProofs MarkerProofs FindProofs CaptureLang PosProofs TaggerProofs ArxivProofs NumGrammar NumProofs NumFind NumForms SectGrammar SectProofs.
Import ListNotations.
Local Open Scope nat_scope.
Local Notation length := List.length.

Lemma cap_kept g f c : cap (g f) (kept g c) = cap (g f) c.
Proof.
  induction c as [|[i t] c IH]; auto. cbn [kept filter fst]. destruct (is_field g i) eqn:E; cbn [cap].
  - destruct (g f =? i); auto.
  - destruct (Nat.eqb_spec (g f) i) as [<-|]; auto. now rewrite is_field_of in E.
Qed.
Lemma on_match g r p s : fair r = true -> (forall f f', g f = g f' -> f = f') -> reads_on g r p -> match re_match r s with
  | Some o => exists w b fs, s = w ++ b /\ p [] w b fs /\ m_end o = length w /\ forall f, g f <> 0 -> g_text s o (g f) = field_of f fs
  | None => ~ begins p s end.
Proof.
  intros F Inj H. pose proof (match_spec r s F) as M. destruct (re_match r s) as [o|].
  - destruct M as (w & b & c & E & R & En & G). apply H in R as (fs & P & K). exists w, b, fs. split; auto. split; auto. split; auto. intros f N. rewrite G by auto. rewrite <- (cap_kept g f c), K. now apply cap_field.
  - intros (w & b & fs & E & P). apply H in P as (c & R & _). exact (M w b c E R).
Qed.
Lemma match_list_spec (ps : list rx) (qs : list part) s : length qs = length ps ->
  (forall n, n < length ps -> fair (rx_re (nth n ps rx0)) = true /\ exists g, (forall f f', g f = g f' -> f = f') /\ reads_on g (rx_re (nth n ps rx0)) (nth n qs nothing)) ->
  match regex_match_list s ps with
  | Some (p, o) => exists k, k < length ps /\ p = nth k ps rx0 /\ re_match (rx_re p) s = Some o /\ forall j, j < k -> ~ begins (nth j qs nothing) s
  | None => forall j, j < length ps -> ~ begins (nth j qs nothing) s end.
Proof.
  revert qs. induction ps as [|p ps IH]; intros qs L H; [intros j J; cbn in J; lia|]. destruct qs as [|q qs]; [discriminate|]. cbn [regex_match_list].
  destruct (H 0 ltac:(cbn; lia)) as (F & g & Inj & R). cbn [nth] in F, R. pose proof (on_match g (rx_re p) q s F Inj R) as M. destruct (re_match (rx_re p) s) as [o|] eqn:E.
  - exists 0. split; [cbn; lia|]. split; auto. split; auto. intros j J. lia.
  - specialize (IH qs ltac:(cbn in L; lia) (fun n Hn => H (S n) ltac:(cbn; lia))). destruct (regex_match_list s ps) as [[p' o]|].
    + destruct IH as (k & K & Ep & Em & N). exists (S k). split; [cbn; lia|]. split; auto. split; auto. intros [|j] J; [exact M|]. apply N. lia.
    + intros [|j] J; [exact M|]. apply IH. cbn in J. lia.
Qed.

(** ** The marker of a line *)
Lemma nothing_nth (ps : list part) n : n < length ps -> nth n ps nothing = nth n ps no_part. Proof. apply nth_indep. Qed.
Lemma mark_inj n : n < 14 -> forall f f', mark_no (nth n marker_patterns rx0) f = mark_no (nth n marker_patterns rx0) f' -> f = f'.
Proof. intros L. apply inj_of. do 14 (destruct n as [|n]; [reflexivity|]). exfalso. lia. Qed.
Lemma marks_fair n : n < 14 -> fair (rx_re (nth n marker_patterns rx0)) = true.
Proof. intros L. do 14 (destruct n as [|n]; [reflexivity|]). exfalso. lia. Qed.
Lemma mark_name n : n < 14 -> assoc_str (py "mark") (rx_names (nth n marker_patterns rx0)) = Some (mark_no (nth n marker_patterns rx0) Fmark) /\ mark_no (nth n marker_patterns rx0) Fmark <> 0
  /\ mark_no (nth n marker_patterns rx0) Fnumber <> 0 /\ (numbered (nth n marker_patterns rx0) -> assoc_str (py "marknum") (rx_names (nth n marker_patterns rx0)) = Some (mark_no (nth n marker_patterns rx0) Fnumber)).
Proof.
  intros L. unfold numbered. do 14 (destruct n as [|n]; [split; [reflexivity|split; [discriminate|split; [discriminate|intros H; first [reflexivity | now elim H]]]]|]). exfalso. lia.
Qed.
(** forms with a number *)
Definition number_form (k : nat) : bool := negb (existsb (Nat.eqb k) [1; 11; 12; 13]).
Lemma numbered_form n : n < 14 -> numbered (nth n marker_patterns rx0) <-> number_form n = true.
Proof. intros L. unfold numbered. do 14 (destruct n as [|n]; [split; [reflexivity || (intros H; now elim H)|discriminate]|]). exfalso. lia. Qed.
(** the white space after a bare number is taken as a whole *)
Lemma bare_longest s o : re_match (rx_re (nth 6 marker_patterns rx0)) s = Some o -> ~ first_is is_space (skipn (m_end o) s).
Proof.
  intros H. unfold re_match in H. change (init s) with (here [] s) in H. apply run_m in H as (z & g & H & ->). cbn [m_end].
  assert (rx_re (nth 6 marker_patterns rx0) = Cat sp (Grp 1 (Cat (Grp 2 (Rep true 1 None dg)) (Rep true 1 None (Cls (mkcls false false [CSpace true])))))) as E by reflexivity. rewrite E in H. clear E.
  apply peel in H as (u & s1 & c1 & g1 & -> & _ & _ & H); [|reflexivity]. rewrite m_group in H.
  apply peel in H as (v & s2 & c2 & g2 & -> & _ & _ & H); [|reflexivity]. apply peel_longest in H as (w & b & -> & W & L & _ & K & N). injection K as <- _.
  cbn [here pos]. intros (c & t & E & Sp). assert (b = c :: t) as ->.
  { rewrite <- E. rewrite !app_length. cbn [length]. replace (u ++ v ++ w ++ b) with ((u ++ v ++ w) ++ b) by now rewrite <- !app_assoc. rewrite skipn_app. rewrite (skipn_all2 (u ++ v ++ w)) by (rewrite !app_length; lia). replace (_ - _) with 0 by (rewrite !app_length; lia). reflexivity. }
  specialize (N (w ++ [c]) t). rewrite <- app_assoc in N. specialize (N eq_refl). specialize (N ltac:(rewrite forallb_app; apply andb_true_iff; split; [exact W|]; cbn [forallb]; now rewrite space_mem, Sp) ltac:(rewrite app_length; cbn; lia) I). discriminate.
Qed.
Lemma mark_found s : match regex_match_list s marker_patterns with
  | Some (p, o) => exists k w b fs, p = nth k marker_patterns rx0 /\ marker_of s k w b fs /\ m_end o = length w /\ group_named p s o (py "mark") = Ok (field_of Fmark fs)
      /\ (number_form k = true -> group_named p s o (py "marknum") = Ok (field_of Fnumber fs)) /\ (number_form k = false -> group_named p s o (py "marknum") = Err IndexError)
  | None => no_marker s end.
Proof.
  pose proof (match_list_spec marker_patterns marks s eq_refl) as H.
  assert (forall n, n < length marker_patterns -> fair (rx_re (nth n marker_patterns rx0)) = true /\ exists g, (forall f f', g f = g f' -> f = f') /\ reads_on g (rx_re (nth n marker_patterns rx0)) (nth n marks nothing)) as R.
  { intros n L. change (length marker_patterns) with 14 in L. split; [now apply marks_fair|]. exists (mark_no (nth n marker_patterns rx0)). split; [now apply mark_inj|]. rewrite nothing_nth by exact L. now apply marks_read. }
  specialize (H R). destruct (regex_match_list s marker_patterns) as [[p o]|]; [|exact H]. destruct H as (k & L & Ep & M & N). change (length marker_patterns) with 14 in L.
  pose proof (on_match _ _ _ s (marks_fair k L) (mark_inj k L) (marks_read k L)) as S. rewrite <- Ep in S. rewrite M in S. destruct S as (w & b & fs & Es & P & En & G). exists k, w, b, fs. split; auto.
  destruct (mark_name k L) as (A1 & A2 & A3 & A4). rewrite <- Ep in A1, A2, A3, A4. split; [|split; auto; split; [|split]].
  - split; auto. split; auto. split; [rewrite nothing_nth by exact L; exact P|]. split; auto. intros ->. subst p. apply bare_longest in M. rewrite En, Es, skipn_app, skipn_all, Nat.sub_diag in M. exact M.
  - unfold group_named. rewrite A1. f_equal. now apply G.
  - intros Nf. apply numbered_form in Nf; auto. rewrite <- Ep in Nf. unfold group_named. rewrite (A4 Nf). f_equal. now apply G.
  - intros Nf. unfold group_named. destruct (assoc_str (py "marknum") (rx_names p)) eqn:E; auto. exfalso. assert (number_form k = true) by (apply numbered_form; auto; rewrite <- Ep; unfold numbered; congruence). congruence.
Qed.

(** ** A line has at most one marker *)
Definition det (P : str -> Prop) (p : part) : Prop := forall a w b fs w' b' fs', p a w b fs -> p a w' b' fs' -> w ++ b = w' ++ b' -> P b -> P b' -> w = w' /\ fs = fs'.
Definition always (_ : str) : Prop := True.
Definition stops (q : ch -> bool) (p : part) : Prop := forall a w b fs, p a w b fs -> exists c t, w ++ b = c :: t /\ q c = false.
Lemma det_any P p : det always p -> det P p. Proof. intros H a w b fs w' b' fs' A B E _ _. now apply (H a w b fs w' b' fs'). Qed.
Lemma det_one P q : det P (one q).
Proof. intros a w b fs w' b' fs' ((c & -> & _) & ->) ((c' & -> & _) & ->) E _ _. injection E as -> _. auto. Qed.
Lemma det_place P Q : det P (place Q). Proof. intros a w b fs w' b' fs' (-> & -> & _) (-> & -> & _) _ _ _. auto. Qed.
Lemma det_named P f p : det P p -> det P (named f p).
Proof. intros H a w b fs w' b' fs' (f1 & -> & A) (f2 & -> & B) E Q Q'. destruct (H _ _ _ _ _ _ _ A B E Q Q') as (-> & ->). auto. Qed.
Lemma det_seq P p q : det always p -> det P q -> det P (p ;; q).
Proof.
  intros H1 H2 a w b fs w' b' fs' (u & v & f1 & f2 & -> & -> & A & B) (u' & v' & f1' & f2' & -> & -> & A' & B') E Q Q'. rewrite <- !app_assoc in E.
  destruct (H1 _ _ _ _ _ _ _ A A' E I I) as (<- & <-). apply app_inv_head in E. destruct (H2 _ _ _ _ _ _ _ B B' E Q Q') as (<- & <-). auto.
Qed.
Lemma run_split (q : ch -> bool) u s u' s' : forallb q u = true -> forallb q u' = true -> (forall c t, s = c :: t -> q c = false) -> (forall c t, s' = c :: t -> q c = false) -> u ++ s = u' ++ s' -> u = u'.
Proof.
  revert u'. induction u as [|c u IH]; intros [|c' u'] A A' S S' E; cbn [app] in E; auto.
  - exfalso. cbn [forallb] in A'. apply andb_true_iff in A' as (A' & _). specialize (S _ _ E). congruence.
  - exfalso. cbn [forallb] in A. apply andb_true_iff in A as (A & _). specialize (S' _ _ (eq_sym E)). congruence.
  - injection E as <- E. cbn [forallb] in A, A'. apply andb_true_iff in A as (_ & A). apply andb_true_iff in A' as (_ & A'). f_equal. eapply IH; eauto.
Qed.
Lemma det_last q lo : det (fun b => ~ first_is q b) (many lo None q).
Proof.
  intros a w b fs w' b' fs' ((A & _) & ->) ((A' & _) & ->) E N N'. split; auto. eapply run_split; [exact A|exact A'| | |exact E]; intros c t ->; [destruct (q c) eqn:D; auto; elim N|destruct (q c) eqn:D; auto; elim N']; exists c, t; auto.
Qed.
Lemma det_many P q lo p : stops q p -> det P p -> det P (many lo None q ;; p).
Proof.
  intros S D a w b fs w' b' fs' (u & v & f1 & f2 & -> & -> & ((A & _) & ->) & B) (u' & v' & f1' & f2' & -> & -> & ((A' & _) & ->) & B') E Q Q'. rewrite <- !app_assoc in E.
  assert (u = u') as <-. { eapply run_split; [exact A|exact A'| | |exact E]; intros c t Et; [destruct (S _ _ _ _ B) as (c0 & t0 & E0 & N)|destruct (S _ _ _ _ B') as (c0 & t0 & E0 & N)]; congruence. }
  apply app_inv_head in E. destruct (D _ _ _ _ _ _ _ B B' E Q Q') as (<- & <-). auto.
Qed.
Lemma det_named_many P f q lo p : stops q p -> det P p -> det P (named f (many lo None q) ;; p).
Proof.
  intros S D a w b fs w' b' fs' (u & v & f1 & f2 & -> & -> & (x & -> & ((A & _) & ->)) & B) (u' & v' & f1' & f2' & -> & -> & (x' & -> & ((A' & _) & ->)) & B') E Q Q'. rewrite <- !app_assoc in E.
  assert (u = u') as <-. { eapply run_split; [exact A|exact A'| | |exact E]; intros c t Et; [destruct (S _ _ _ _ B) as (c0 & t0 & E0 & N)|destruct (S _ _ _ _ B') as (c0 & t0 & E0 & N)]; congruence. }
  apply app_inv_head in E. destruct (D _ _ _ _ _ _ _ B B' E Q Q') as (<- & <-). auto.
Qed.
Lemma stops_one q p : (forall c, p c = true -> q c = false) -> stops q (one p).
Proof. intros H a w b fs ((c & -> & D) & _). exists c, b. auto. Qed.
Lemma stops_seq q p r : stops q p -> stops q (p ;; r).
Proof. intros H a w b fs (u & v & f1 & f2 & -> & _ & A & _). destruct (H _ _ _ _ A) as (c & t & E & N). exists c, t. rewrite <- app_assoc. auto. Qed.
Lemma stops_many q lo p r : (forall c, p c = true -> q c = false) -> stops q r -> stops q (many lo None p ;; r).
Proof.
  intros H S a w b fs (u & v & f1 & f2 & -> & _ & ((A & _) & _) & B). destruct u as [|c u]; [exact (S _ _ _ _ B)|]. cbn [forallb] in A. apply andb_true_iff in A as (A & _). exists c, ((u ++ v) ++ b). auto.
Qed.
Lemma stops_some q p lo hi : (forall c, p c = true -> q c = false) -> stops q (many (S lo) hi p).
Proof. intros H a w b fs ((A & L & _) & _). destruct w as [|c w]; [cbn in L; lia|]. cbn [forallb] in A. apply andb_true_iff in A as (A & _). exists c, (w ++ b). auto. Qed.
Lemma stops_named q f p : stops q p -> stops q (named f p). Proof. intros H a w b fs (f' & -> & A). exact (H _ _ _ _ A). Qed.
Lemma space_digit c : is_space c = true -> is_digit c = false.
Proof. intros H. destruct (is_digit c) eqn:D; auto. apply digit_no_space in D. congruence. Qed.
Lemma some_not l q c : forallb (fun x => negb (q x)) l = true -> some_of l c = true -> q c = false.
Proof. intros H I. unfold some_of in I. apply existsb_exists in I as (x & I & E). apply N.eqb_eq in E as ->. rewrite forallb_forall in H. now apply negb_true_iff, H. Qed.
Ltac other := intros; match goal with
  | H : is_space ?c = true |- is_digit ?c = false => exact (space_digit _ H)
  | H : is_digit ?c = true |- is_space ?c = false => destruct (is_space c) eqn:?D; [pose proof (space_digit _ D); congruence|reflexivity]
  | H : some_of _ ?c = true |- _ => revert H; apply some_not; reflexivity
  end.
Ltac stop := repeat match goal with
  | |- stops _ (any_of _) => apply stops_one; other
  | |- stops _ (blanks ;; _) => apply stops_many; [other|]
  | |- stops _ (many 0 None _ ;; _) => apply stops_many; [other|]
  | |- stops _ (many (S _) _ _ ;; _) => apply stops_seq, stops_some; other
  | |- stops _ (many (S _) _ _) => apply stops_some; other
  | |- stops _ (digits ;; _) => apply stops_seq, stops_some; other
  | |- stops _ (named _ _ ;; _) => apply stops_seq
  | |- stops _ (named _ _) => apply stops_named
  | |- stops _ digits => apply stops_some; other
  | |- stops _ (_ ;; _) => apply stops_seq
  end.
Ltac dets := repeat match goal with
  | |- det _ (any_of _) => apply det_one
  | |- det _ (not_before _) => apply det_place
  | |- det _ (blanks ;; _) => apply det_many; [stop|]
  | |- det _ (digits ;; _) => apply det_many; [stop|]
  | |- det _ (named _ digits ;; _) => apply det_named_many; [stop|]
  | |- det _ (named _ _) => apply det_named
  | |- det _ (many 1 None is_space) => apply det_last
  | |- det _ (_ ;; _) => apply det_seq
  end.
Definition within (q : ch -> bool) (p : part) : Prop := forall a w b fs, p a w b fs -> forallb q w = true /\ fs = [].
Definition upto (x : ch) (p : part) : Prop := forall a w b fs, p a w b fs -> exists u, w = u ++ [x] /\ forallb (fun c => negb (N.eqb c x)) u = true /\ fs = [].
Lemma within_many q lo hi p : (forall c, p c = true -> q c = true) -> within q (many lo hi p).
Proof. intros H a w b fs ((A & _) & ->). split; auto. rewrite forallb_forall in *. auto. Qed.
Lemma within_one q p : (forall c, p c = true -> q c = true) -> within q (one p).
Proof. intros H a w b fs ((c & -> & D) & ->). cbn [forallb]. rewrite H by auto. auto. Qed.
Lemma within_maybe q p : within q p -> within q (maybe p). Proof. intros H a w b fs [(-> & ->)|A]; auto. exact (H _ _ _ _ A). Qed.
Lemma within_seq q p r : within q p -> within q r -> within q (p ;; r).
Proof. intros H1 H2 a w b fs (u & v & f1 & f2 & -> & -> & A & B). apply H1 in A as (A & ->). apply H2 in B as (B & ->). rewrite forallb_app, A, B. auto. Qed.
Lemma upto_seq x p r : within (fun c => negb (N.eqb c x)) p -> upto x r -> upto x (p ;; r).
Proof. intros H1 H2 a w b fs (u & v & f1 & f2 & -> & -> & A & B). apply H1 in A as (A & ->). apply H2 in B as (u' & -> & B & ->). exists (u ++ u'). split; [now rewrite <- app_assoc|]. split; auto. rewrite forallb_app. apply andb_true_iff. auto. Qed.
Lemma det_upto P x p : upto x p -> det P p.
Proof.
  intros H a w b fs w' b' fs' A A' E _ _. apply H in A as (u & -> & A & ->). apply H in A' as (u' & -> & A' & ->). split; auto. f_equal. rewrite <- !app_assoc in E. cbn [app] in E.
  eapply run_split; [exact A|exact A'| | |exact E]; intros c t Et; injection Et as <- _; now rewrite N.eqb_refl.
Qed.
Lemma not_eq (p : ch -> bool) x c : p x = false -> p c = true -> negb (N.eqb c x) = true.
Proof. intros N H. apply negb_true_iff. destruct (N.eqb_spec c x); auto. congruence. Qed.
Lemma upto_label : upto 93%N label.
Proof.
  unfold label. repeat (apply upto_seq; [first [apply within_one | apply within_many | apply within_maybe; apply within_one | apply within_maybe, within_seq; [apply within_many|apply within_maybe, within_one]]; intros c; now apply not_eq|]).
  intros a w b fs ((c & -> & D) & ->). exists []. split; auto. cbn in D. rewrite orb_false_r in D. apply N.eqb_eq in D as ->. auto.
Qed.
Lemma marks_det k : k < 14 -> det (mark_ends k) (nth k marks nothing).
Proof.
  intros L. do 14 (try (destruct k as [|k]; [cbv [nth marks mark_texts map]|])); [..|exfalso; lia].
  all: unfold bracketed; dets.
  - intros a w b fs A. apply upto_label in A as A'. unfold label in A. destruct A as (u & v & f1 & f2 & -> & _ & ((c & -> & D) & _) & _). exists c, (v ++ b). split; auto. cbn in D. rewrite orb_false_r in D. apply N.eqb_eq in D as ->. reflexivity.
  - exact (det_upto _ _ _ upto_label).
  - intros a w b fs w' b' fs' A B E N N'. exact (det_last is_space 1 a w b fs w' b' fs' A B E (N eq_refl) (N' eq_refl)).
Qed.
Lemma marker_unique l k w b fs k' w' b' fs' : marker_of l k w b fs -> marker_of l k' w' b' fs' -> k = k' /\ w = w' /\ b = b' /\ fs = fs'.
Proof.
  intros (L & E & P & M & N) (L' & E' & P' & M' & N').
  assert (k = k') as <-.
  { destruct (Nat.lt_trichotomy k k') as [H|[H|H]]; auto; exfalso; [apply (N' _ H)|apply (N _ H)]; [exists w, b, fs|exists w', b', fs']; auto. }
  split; auto. rewrite E in E'. destruct (marks_det k L _ _ _ _ _ _ _ P P' E' M M') as (<- & <-). split; auto. split; auto. now apply app_inv_head in E'.
Qed.
Lemma marker_or l k w b fs : marker_of l k w b fs -> ~ no_marker l.
Proof. intros (L & E & P & _) N. apply (N k L). exists w, b, fs. auto. Qed.
Lemma mark_field k : k < 14 -> forall a w b fs, nth k marks nothing a w b fs -> (exists u v, w = u ++ v /\ forallb is_space u = true /\ field_of Fmark fs = Some v).
Proof.
  intros L a w b fs H. unfold marks in H. assert (nth k (map (fun p => blanks ;; named Fmark p) mark_texts) nothing = (blanks ;; named Fmark (nth k mark_texts nothing))) as E.
  { rewrite (nth_indep _ nothing (blanks ;; named Fmark nothing)) by exact L. exact (map_nth (fun p => blanks ;; named Fmark p) mark_texts nothing k). }
  rewrite E in H. destruct H as (u & v & f1 & f2 & -> & -> & ((A & _) & ->) & (f & -> & _)). exists u, v. auto.
Qed.
Lemma number_field k : k < 14 -> forall a w b fs, nth k marks nothing a w b fs -> if number_form k then exists t, field_of Fnumber fs = Some t else field_of Fnumber fs = None.
Proof.
  intros L a w b fs H. assert (nth k marks nothing a w b fs) as H' by exact H. revert H.
  do 14 (try (destruct k as [|k]; [cbv [nth marks mark_texts map]|])); [..|exfalso; lia].
  all: intros (u & v & f1 & f2 & -> & -> & (_ & ->) & (f & -> & A)); clear H'; unfold bracketed in A; cbn [number_form existsb Nat.eqb negb orb].
  all: try (apply upto_label in A as (x & _ & _ & ->); reflexivity).
  all: repeat (match type of A with (_ ;; _) _ _ _ _ => let B := fresh "B" in let E := fresh "E" in let E' := fresh "E" in destruct A as (? & ? & ? & ? & E & -> & B & A); clear E; first [destruct B as (_ & ->) | destruct B as (? & -> & (_ & ->))] end).
  all: first [destruct A as (_ & ->) | destruct A as (_ & -> & _)]; cbn; eauto.
Qed.
(** remove_reference_line_marker *)
Lemma marker_exact line mark rest : remove_reference_line_marker line = Ok (mark, rest) <->
  (no_marker (lstrip line) /\ mark = py " " /\ rest = lstrip line) \/ exists k b fs, marker_of (lstrip line) k mark b fs /\ rest = lstrip b.
Proof.
  unfold remove_reference_line_marker. pose proof (mark_found (lstrip line)) as M. destruct (regex_match_list (lstrip line) marker_patterns) as [[p o]|].
  - destruct M as (k & w & b & fs & Ep & M & En & G & _). pose proof M as (L & Es & P & _). apply mark_field in P as (u & v & -> & U & F); auto.
    assert (u = []) as ->. { destruct u as [|c u]; auto. cbn [forallb] in U. apply andb_true_iff in U as (U & _). cbn [app] in Es. apply lstrip_no_space in Es. congruence. }
    cbn [app] in *. rewrite G, F. cbn [bind]. rewrite En, Es, skipn_app, skipn_all, Nat.sub_diag. cbn [app skipn]. rewrite <- Es. split.
    + intros E. injection E as <- <-. right. exists k, b, fs. auto.
    + intros [(N & _)|(k' & b' & fs' & M' & ->)]; [now elim (marker_or _ _ _ _ _ M)|]. destruct (marker_unique _ _ _ _ _ _ _ _ _ M M') as (<- & <- & <- & <-). reflexivity.
  - split; [intros E; injection E as <- <-; left; auto|]. intros [(_ & -> & ->)|(k & b & fs & M' & _)]; auto. now elim (marker_or _ _ _ _ _ M').
Qed.

(** ** Titles *)
Lemma title_inj n : n < 28 -> forall f f', mark_no (nth n reference_section_title_patterns rx0) f = mark_no (nth n reference_section_title_patterns rx0) f' -> f = f'.
Proof. intros L. apply inj_of. do 28 (destruct n as [|n]; [reflexivity|]). exfalso. lia. Qed.
Lemma titles_fair n : n < 28 -> fair (rx_re (nth n reference_section_title_patterns rx0)) = true.
Proof. intros L. do 28 (destruct n as [|n]; [reflexivity|]). exfalso. lia. Qed.
Lemma title_name n : n < 28 -> assoc_str (py "title") (rx_names (nth n reference_section_title_patterns rx0)) = Some (mark_no (nth n reference_section_title_patterns rx0) Ftitle) /\ mark_no (nth n reference_section_title_patterns rx0) Ftitle <> 0.
Proof. intros L. do 28 (destruct n as [|n]; [split; [reflexivity|discriminate]|]). exfalso. lia. Qed.
Lemma title_found k l : k < 28 -> match re_match (rx_re (nth k reference_section_title_patterns rx0)) l with
  | Some o => forall t, group_named (nth k reference_section_title_patterns rx0) l o (py "title") = Ok (Some t) -> has_title k t l
  | None => ~ begins (nth k section_titles nothing) l end.
Proof.
  intros L. pose proof (on_match _ _ _ l (titles_fair k L) (title_inj k L) (titles_read k L)) as M. rewrite <- nothing_nth in M by exact L. destruct (title_name k L) as (N1 & N2).
  destruct (re_match (rx_re (nth k reference_section_title_patterns rx0)) l) as [o|]; auto. destruct M as (w & b & fs & E & P & _ & G). intros t T. exists w, b, fs. split; auto. split; auto. unfold group_named in T. rewrite N1, (G Ftitle N2) in T. congruence.
Qed.
Lemma no_title_at k body : k < 28 -> (forall s f, ~ title_at (nth k reference_section_title_patterns rx0) body s f) -> forall l, In l body -> ~ begins (nth k section_titles nothing) l.
Proof.
  intros L H l I. pose proof (title_found k l L) as F. destruct (re_match (rx_re (nth k reference_section_title_patterns rx0)) l) as [o|] eqn:M; auto. exfalso. apply In_nth_error in I as (j & E).
  pose proof titles_ok as T. rewrite forallb_forall in T. destruct (title_lines _ body j l o (T _ (nth_In reference_section_title_patterns rx0 L)) E M) as (s & f & Q & _). exact (H s f Q).
Qed.
Lemma untitled_iff body : no_title body <-> untitled 28 body.
Proof.
  split.
  - intros H j l L I. pose proof (title_found j l L) as F. rewrite (H _ l (nth_In reference_section_title_patterns rx0 L) I) in F. exact F.
  - intros H p l I J. apply (In_nth _ _ rx0) in I as (k & L & <-). pose proof (title_found k l L) as F. destruct (re_match (rx_re (nth k reference_section_title_patterns rx0)) l) as [o|] eqn:M; auto. exfalso.
    apply In_nth_error in J as (j & E). pose proof titles_ok as T. rewrite forallb_forall in T. destruct (title_lines _ body j l o (T _ (nth_In reference_section_title_patterns rx0 L)) E M) as (s & f & Q & _).
    destruct Q as (l' & o' & t & E1 & M1 & G & _). pose proof (title_found k l' L) as F'. rewrite M1 in F'. destruct (F' t G) as (w & b & fs & -> & P & _). apply (H k (w ++ b) L); [eapply nth_error_In; exact E1|]. exists w, b, fs. auto.
Qed.
Lemma titled_spec body s : by_title body s -> exists k line t, k < 28 /\ nth_error body (s_line s) = Some line /\ has_title k t line /\ s_title s = Some t /\ untitled k body.
Proof.
  intros (qs & p & rs & E & (f & (line & o & t & E1 & M & G & T & _) & _) & N). set (k := length qs).
  assert (length reference_section_title_patterns = 28) as Len by reflexivity. assert (k < 28) as L by (rewrite <- Len, E, app_length; subst k; cbn; lia).
  assert (nth k reference_section_title_patterns rx0 = p) as Ep by (rewrite E; apply nth_middle).
  exists k, line, t. split; auto. split; auto. split; [|split; auto].
  - pose proof (title_found k line L) as F. rewrite Ep, M in F. now apply F.
  - intros j l J I. apply (no_title_at j body); [lia| |exact I]. intros s' f'. apply N. rewrite E, app_nth1 by exact J. now apply nth_In.
Qed.

(** ** Numbers at the beginning of a line *)
Definition nothing_read : part := text (fun w => w = []).
Lemma on_empty g : reads_on g Eps nothing_read. Proof. apply on_reads, reads_text. intros a w b c. reflexivity. Qed.
Lemma on_left g r1 r2 p : reads_on g r1 nothing_read -> reads_on g r2 p -> reads_on g (Cat r1 r2) p.
Proof.
  intros H1 H2. apply (on_weak _ _ (nothing_read ;; p)); [|now apply on_cat]. intros a w b fs. split.
  - intros (u & v & f1 & f2 & -> & -> & (-> & ->) & A). rewrite !app_nil_r in *. exact A.
  - intros A. exists [], w, [], fs. rewrite !app_nil_r. repeat split; auto.
Qed.
Lemma on_right g r1 r2 p : reads_on g r1 p -> reads_on g r2 nothing_read -> reads_on g (Cat r1 r2) p.
Proof.
  intros H1 H2. apply (on_weak _ _ (p ;; nothing_read)); [|now apply on_cat]. intros a w b fs. split.
  - intros (u & v & f1 & f2 & -> & -> & A & (-> & ->)). rewrite !app_nil_r in *. exact A.
  - intros A. exists w, [], fs, []. rewrite !app_nil_r. repeat split; auto.
Qed.
Definition number_rxs : list rx := [re_bracket_markers; re_dot_markers; re_number_markers].
Definition read_texts : list part :=
  [ named Fmark (any_of "[" ;; blanks ;; named Fnumber digits ;; blanks ;; any_of "]");
    named Fmark (blanks ;; named Fnumber digits ;; blanks ;; any_of ".");
    named Fmark (blanks ;; named Fnumber digits ;; blanks) ].
Lemma numbers_read i : i < 3 -> reads_on (mark_no (nth i number_rxs rx0)) (rx_re (nth i number_rxs rx0)) (nth i read_texts nothing).
Proof.
  intros L. destruct i as [|[|[|i]]]; [| | |lia]; cbv [nth number_rxs read_texts re_bracket_markers re_dot_markers re_number_markers rx_re]; (apply on_grp; [reflexivity|]).
  - ci_tree.
  - apply on_left; [apply on_free; [reflexivity|apply on_empty]|]. ci_tree.
  - apply on_left; [apply on_free; [reflexivity|apply on_empty]|]. apply on_cat; [ci_tree|]. apply on_cat; [ci_tree|]. apply on_right; [ci_tree|]. apply on_free; [reflexivity|apply on_empty].
Qed.
Lemma number_inj n : n < 3 -> forall f f', mark_no (nth n number_rxs rx0) f = mark_no (nth n number_rxs rx0) f' -> f = f'.
Proof. intros L. apply inj_of. destruct n as [|[|[|n]]]; [reflexivity..|lia]. Qed.
Lemma number_name n : n < 3 -> assoc_str (py "mark") (rx_names (nth n number_rxs rx0)) = Some (mark_no (nth n number_rxs rx0) Fmark) /\ mark_no (nth n number_rxs rx0) Fmark <> 0
  /\ assoc_str (py "marknum") (rx_names (nth n number_rxs rx0)) = Some (mark_no (nth n number_rxs rx0) Fnumber) /\ mark_no (nth n number_rxs rx0) Fnumber <> 0 /\ fair (rx_re (nth n number_rxs rx0)) = true.
Proof. intros L. destruct n as [|[|[|n]]]; [repeat split; discriminate..|lia]. Qed.
(** the digits of a bare number are taken as a whole *)
Lemma bare_digits s o : re_match (rx_re re_number_markers) s = Some o -> exists u t v b, s = u ++ t ++ v ++ b /\ forallb is_space u = true /\ forallb is_digit t = true /\ t <> [] /\ forallb is_space v = true
  /\ ~ first_is is_digit (v ++ b) /\ m_end o = length (u ++ t ++ v) /\ g_text s o (mark_no re_number_markers Fnumber) = Some t /\ g_text s o (mark_no re_number_markers Fmark) = Some (u ++ t ++ v).
Proof.
  intros H. unfold re_match in H. change (init s) with (here [] s) in H. apply run_m in H as (z & g & H & ->). cbn [m_end].
  assert (rx_re re_number_markers = Grp 1 (Cat (Grp 2 Eps) (Cat sp (Cat (Grp 3 (Rep true 1 None dg)) (Cat sp (Grp 4 Eps)))))) as E by reflexivity. rewrite E in H. clear E. rewrite m_group in H.
  apply peel in H as (u0 & s1 & c0 & g0 & -> & R0 & L0 & H); [|reflexivity]. apply rd_grp in R0 as (c' & -> & R0). apply rd_eps in R0 as (-> & ->). cbn [app] in *.
  apply peel in H as (u & s2 & c1 & g1 & -> & R1 & L1 & H); [|reflexivity]. change (reps (rd (Cls (mkcls false false [CSpace true]))) 0 None [] u s2 c1) in R1. apply rd_class in R1 as (U & _ & _ & ->). rewrite (class_all _ _ _ space_mem) in U.
  rewrite m_seq, m_group in H. apply peel_longest in H as (t & s3 & -> & T & Lt & _ & H & N). rewrite (class_all _ _ _ digit_mem') in T.
  apply peel in H as (v & b & c3 & g3 & -> & R3 & L3 & H); [|reflexivity]. change (reps (rd (Cls (mkcls false false [CSpace true]))) 0 None (u ++ t) v b c3) in R3. apply rd_class in R3 as (V & _ & _ & ->). rewrite (class_all _ _ _ space_mem) in V.
  rewrite m_group in H. cbn [m] in H. injection H as <- <-.
  exists u, t, v, b. split; auto. split; auto. split; auto. split; [destruct t; [cbn in Lt; lia|discriminate]|]. split; auto.
  unfold located in L1, L3. inversion L1; inversion L3; subst. split; [|split; [cbn [here pos]; now rewrite <- app_assoc|]].
  - intros (c & r & Er & D). assert (v = []) as ->. { destruct v as [|x v]; auto. injection Er as -> _. cbn [forallb] in V. apply andb_true_iff in V as (V & _). now rewrite (space_digit c V) in D. }
    cbn [app] in Er. subst b. specialize (N (t ++ [c]) r). rewrite <- app_assoc in N. specialize (N eq_refl ltac:(rewrite forallb_app; apply andb_true_iff; split; [rewrite (class_all _ _ _ digit_mem'); exact T|cbn [forallb]; now rewrite digit_mem', D]) ltac:(rewrite app_length; cbn; lia) I).
    revert N. assert (rd (Cat sp (Grp 4 Eps)) (([] ++ u) ++ t ++ [c]) [] r [(4, [])]) as Rd. { apply rd_cat. exists [], [], [], [(4, [])]. repeat split; auto; [constructor|]. exists []. repeat split; auto. }
    match goal with |- m _ _ ?G _ = None -> False => destruct (proj2 (says_all (Cat sp (Grp 4 Eps)) eq_refl) _ _ _ _ G Rd) as (gc & M & _) end. eapply (m_complete ((([] ++ u) ++ t ++ [c]) ++ r)); [exact M|exact (here_at (([] ++ u) ++ t ++ [c]) r)|reflexivity|discriminate].
  - change (mark_no re_number_markers Fnumber) with 3. change (mark_no re_number_markers Fmark) with 1. unfold g_text, g_span. cbn [Nat.eqb m_groups lookup_group app]. split; f_equal.
    + pose proof (slice_mid u t (v ++ b)) as Q. now rewrite app_length.
    + pose proof (slice_mid [] (u ++ t ++ v) b) as Q. cbn [app length] in Q. rewrite <- !app_assoc in Q. rewrite <- app_assoc. exact Q.
Qed.
Lemma marked_found i s o : i < 3 -> re_match (rx_re (nth i number_rxs rx0)) s = Some o -> exists n m, has_number i n m s
  /\ group_named (nth i number_rxs rx0) s o (py "marknum") = Ok (Some n) /\ group_named (nth i number_rxs rx0) s o (py "mark") = Ok (Some m).
Proof.
  intros L M. destruct (number_name i L) as (A1 & A2 & A3 & A4 & F). unfold group_named. rewrite A1, A3. destruct (Nat.eq_dec i 2) as [->|N].
  - destruct (bare_digits s o M) as (u & t & v & b & -> & U & T & Tn & V & Nd & _ & G1 & G2). exists t, (u ++ t ++ v). cbn [nth number_rxs]. rewrite G1, G2. split; auto.
    exists (u ++ t ++ v), b, ((Fmark, u ++ t ++ v) :: [(Fnumber, t)]). rewrite <- !app_assoc. split; auto. split; auto. cbn [nth number_texts]. exists [(Fnumber, t)]. split; auto.
    exists u, (t ++ v), [], [(Fnumber, t)]. rewrite app_nil_r. split; auto. split; auto. split; [repeat split; auto; cbn; lia|]. exists t, v, [(Fnumber, t)], []. split; auto. split; auto. split.
    + exists []. split; auto. repeat split; auto. destruct t; [congruence|cbn; lia].
    + exists [], v, [], []. split; auto. split; auto. split; [repeat split; auto|]. repeat split; auto. cbn. lia.
  - pose proof (on_match _ _ _ s F (number_inj i L) (numbers_read i L)) as S. rewrite M in S. destruct S as (w & b & fs & E & P & _ & G). rewrite (G Fmark A2), (G Fnumber A4).
    assert (nth i read_texts nothing = nth i number_texts nothing) as Q by (destruct i as [|[|[|i]]]; [reflexivity|reflexivity|congruence|lia]). rewrite Q in P.
    assert (exists n m, field_of Fnumber fs = Some n /\ field_of Fmark fs = Some m) as (n & m & Fn & Fm).
    { destruct i as [|[|[|i]]]; [| |congruence|lia]; cbn [nth number_texts] in P; destruct P as (f & -> & P).
      - destruct P as (? & ? & ? & ? & _ & -> & (_ & ->) & (? & ? & ? & ? & _ & -> & (_ & ->) & (? & ? & ? & ? & _ & -> & (? & -> & (_ & ->)) & (? & ? & ? & ? & _ & -> & (_ & ->) & (_ & ->))))). cbn. eauto.
      - destruct P as (? & ? & ? & ? & _ & -> & (_ & ->) & (? & ? & ? & ? & _ & -> & (? & -> & (_ & ->)) & (? & ? & ? & ? & _ & -> & (_ & ->) & (_ & ->)))). cbn. eauto. }
    exists n, m. rewrite Fn, Fm. split; auto. exists w, b, fs. auto.
Qed.
Lemma number_begins i n m s : i < 3 -> has_number i n m s -> re_match (rx_re (nth i number_rxs rx0)) s <> None.
Proof.
  intros L (w & b & fs & E & P & _) N. destruct (number_name i L) as (A1 & A2 & A3 & A4 & F). pose proof (on_match _ _ _ s F (number_inj i L) (numbers_read i L)) as S. rewrite N in S. apply S.
  destruct (Nat.eq_dec i 2) as [->|Ni].
  - cbn [nth number_texts read_texts] in *. destruct P as (f & -> & (u & v & f1 & f2 & -> & -> & B & (u1 & v1 & f3 & f4 & -> & -> & D & (u2 & v2 & f5 & f6 & -> & -> & (-> & -> & _) & (V & ->))))).
    exists (u ++ u1 ++ v2), b, ((Fmark, u ++ u1 ++ v2) :: (([] ++ f3) ++ f1)). split; auto. exists (([] ++ f3) ++ f1). split; auto. exists u, (u1 ++ v2), f1, ([] ++ f3). repeat (split; auto). exists u1, v2, f3, []. repeat (split; auto).
  - exists w, b, fs. split; auto. destruct i as [|[|[|i]]]; [exact P|exact P|congruence|lia].
Qed.
Lemma drop_pad f u s : forallb f u = true -> lstrip_by f (u ++ s) = lstrip_by f s.
Proof. induction u as [|c u IH]; cbn [forallb app]; auto. intros H. apply andb_true_iff in H as (A & B). unfold lstrip_by in *. cbn [drop_while]. rewrite A. now apply IH. Qed.
Lemma strip_pad u t v : forallb is_space u = true -> forallb is_space v = true -> forallb is_digit t = true -> strip (u ++ t ++ v) = t.
Proof.
  intros U V T. assert (forall s, forallb is_digit s = true -> drop_while is_space s = s) as N.
  { intros s H. apply drop_while_none. rewrite forallb_forall in *. intros c I. apply H in I. now rewrite (digit_no_space c I). }
  destruct t as [|c t].
  - cbn [app]. assert (strip (u ++ v) = []); [|auto]. apply strip_by_nil. rewrite forallb_app, U, V. reflexivity.
  - unfold strip, strip_by. rewrite drop_pad by auto. unfold rstrip_by, lstrip_by. assert (drop_while is_space ((c :: t) ++ v) = (c :: t) ++ v) as ->.
    { cbn [app drop_while]. cbn [forallb] in T. apply andb_true_iff in T as (T & _). now rewrite (digit_no_space c T). }
    rewrite rev_app_distr. change (rev (lstrip_by is_space (rev v ++ rev (c :: t))) = c :: t). rewrite drop_pad by now rewrite forallb_rev. unfold lstrip_by. rewrite N by now rewrite forallb_rev. apply rev_involutive.
Qed.
Lemma number_unique i n m n' m' s : i < 3 -> has_number i n m s -> has_number i n' m' s -> n = n' /\ strip m = strip m'.
Proof.
  intros L (w & b & fs & E & P & Fn & Fm) (w' & b' & fs' & E' & P' & Fn' & Fm'). destruct (Nat.eq_dec i 2) as [->|Ni].
  - cbn [nth number_texts] in *. destruct P as (f & -> & (u & v & f1 & f2 & -> & -> & ((U & _) & ->) & (u1 & v1 & f3 & f4 & -> & -> & (? & -> & ((D & Dl & _) & ->)) & (u2 & v2 & f5 & f6 & -> & -> & (-> & -> & Nd) & ((V & _) & ->))))).
    destruct P' as (f' & -> & (u' & v' & f1' & f2' & -> & -> & ((U' & _) & ->) & (u1' & v1' & f3' & f4' & -> & -> & (? & -> & ((D' & Dl' & _) & ->)) & (u2' & v2' & f5' & f6' & -> & -> & (-> & -> & Nd') & ((V' & _) & ->))))).
    cbn in Fn, Fn', Fm, Fm'. injection Fn as <-. injection Fn' as <-. injection Fm as <-. injection Fm' as <-. cbn [app] in *. rewrite E in E'. rewrite <- !app_assoc in E'.
    rewrite !strip_pad by auto. assert (u1 = u1'); [|auto]. assert (forall x y : str, forallb is_digit x = true -> 1 <= length x -> forall c t, x ++ y = c :: t -> is_space c = false) as Hd.
    { intros x y Hx Lx c t Et. destruct x as [|d x]; [cbn in Lx; lia|]. injection Et as -> _. cbn [forallb] in Hx. apply andb_true_iff in Hx as (Hx & _). now apply digit_no_space. }
    assert (u = u') as <-. { eapply run_split; [exact U|exact U'| | |exact E']; intros c t Et; [exact (Hd _ _ D Dl c t Et)|exact (Hd _ _ D' Dl' c t Et)]. }
    apply app_inv_head in E'. eapply run_split; [exact D|exact D'| | |exact E']; intros c t Et; match goal with |- ?x = false => destruct x eqn:Dc; auto end; exfalso; [apply Nd|apply Nd']; exists c, t; auto.
  - assert (det always (nth i number_texts nothing)) as Dt by (destruct i as [|[|[|i]]]; [| |congruence|lia]; cbn [nth number_texts]; dets).
    rewrite E in E'. destruct (Dt _ _ _ _ _ _ _ P P' E' I I) as (<- & <-). rewrite Fn in Fn'. rewrite Fm in Fm'. injection Fn' as <-. injection Fm' as <-. auto.
Qed.
Lemma marked_iff i n line : i < 3 -> marked (nth i number_rxs rx0) n line <-> exists m, has_number i (py n) m (strip line).
Proof.
  intros L. split.
  - intros (o & M & G). destruct (marked_found i _ o L M) as (n' & m & H & G' & _). rewrite G in G'. injection G' as ->. eauto.
  - intros (m & H). destruct (re_match (rx_re (nth i number_rxs rx0)) (strip line)) as [o|] eqn:M; [|now elim (number_begins i _ _ _ L H)]. destruct (marked_found i _ o L M) as (n' & m' & H' & G & _).
    destruct (number_unique i _ _ _ _ _ L H H') as (<- & _). exists o. auto.
Qed.
Lemma number_at_iff i body j : i < 3 -> number_at (nth i number_rxs rx0) body j <-> starts_at i body j.
Proof.
  intros L. split.
  - intros (line & E & M & R). apply marked_iff in M as (m & M); auto. exists line, m. split; auto. split; auto. destruct R as [R|(l & I & M')]; auto. apply marked_iff in M' as (m' & M'); eauto.
  - intros (line & m & E & M & R). exists line. split; auto. split; [apply marked_iff; eauto|]. destruct R as [R|(l & m' & I & M')]; auto. right. exists l. split; auto. apply marked_iff; eauto.
Qed.
Lemma number_section_iff i body s : i < 3 -> number_section (nth i number_rxs rx0) body s -> s_title s = None /\ starts_at i body (s_line s) /\ (forall j, starts_at i body j -> j <= s_line s)
  /\ exists line m, nth_error body (s_line s) = Some line /\ has_number i (py "1") m (strip line) /\ d_marker (s_details s) = Some (strip m).
Proof.
  intros L (A & B & C & _ & _ & (line & o & mk & E & M & G & D)). split; auto. split; [now apply number_at_iff|]. split; [intros j J; apply B; now apply number_at_iff|].
  destruct (marked_found i _ o L M) as (n & m & H & _ & G'). rewrite G in G'. injection G' as <-. apply number_at_iff in A as (line' & m' & E' & H' & _); auto. rewrite E in E'. injection E' as <-. destruct (number_unique i _ _ _ _ _ L H H') as (-> & _). exists line, mk. auto.
Qed.
Lemma no_number_iff i body : i < 3 -> no_number (nth i number_rxs rx0) body <-> forall j, ~ starts_at i body j.
Proof. intros L. split; intros H j K; apply (H j); now apply number_at_iff. Qed.

(** the beginning of the section *)
Lemma beginning_exact body : exists r, get_reference_section_beginning body = Ok r /\ match r with
  | Some s => match s_title s with
    | Some t => exists k line, k < 28 /\ nth_error body (s_line s) = Some line /\ has_title k t line /\ untitled k body
    | None => untitled 28 body /\ exists i line m, i < 3 /\ (forall i' j, i' < i -> ~ starts_at i' body j) /\ starts_at i body (s_line s) /\ (forall j, starts_at i body j -> j <= s_line s)
        /\ nth_error body (s_line s) = Some line /\ has_number i (py "1") m (strip line) /\ d_marker (s_details s) = Some (strip m)
    end
  | None => untitled 28 body /\ forall i j, i < 3 -> ~ starts_at i body j end.
Proof.
  destruct (beginning_spec body) as (r & E & B). exists r. split; auto. destruct r as [s|]; cbn [beginning] in B.
  - destruct B as [B|(Nt & B)].
    + apply titled_spec in B as (k & line & t & L & El & T & -> & U). exists k, line. auto.
    + apply untitled_iff in Nt. assert (exists i, i < 3 /\ number_section (nth i number_rxs rx0) body s /\ forall i', i' < i -> no_number (nth i' number_rxs rx0) body) as (i & L & Sn & No).
      { destruct B as [B|(N0 & [B|(N1 & B)])]; [exists 0|exists 1|exists 2]; (split; [lia|]); (split; [exact B|]); intros i' Li; destruct i' as [|[|i']]; try lia; assumption. }
      apply number_section_iff in Sn as (-> & A & Bl & (line & m & C)); auto. split; auto. exists i, line, m. split; auto. split; [intros i' j Li; apply no_number_iff; [lia|apply No; exact Li]|]. auto.
  - destruct B as (Nt & N0 & N1 & N2). apply untitled_iff in Nt. split; auto. intros i j L. apply no_number_iff; auto. destruct i as [|[|[|i]]]; auto. lia.
Qed.

(** ** The end of the section *)
Lemma numbered_field k w b fs l : marker_of l k w b fs -> number_form k = true <-> field_of Fnumber fs <> None.
Proof. intros (L & _ & P & _). pose proof (number_field k L _ _ _ _ P) as H. destruct (number_form k); [destruct H as (t & ->); split; auto; discriminate|rewrite H; split; [discriminate|congruence]]. Qed.
Lemma next_fair n : n < 20 -> fair (rx_re (nth n post_reference_title_patterns rx0)) = true.
Proof. intros L. do 20 (destruct n as [|n]; [reflexivity|]). exfalso. lia. Qed.
Lemma next_inj n : n < 20 -> forall f f', mark_no (nth n post_reference_title_patterns rx0) f = mark_no (nth n post_reference_title_patterns rx0) f' -> f = f'.
Proof. intros L. apply inj_of. do 20 (destruct n as [|n]; [reflexivity|]). exfalso. lia. Qed.
Lemma next_found s : regex_match_list s post_reference_title_patterns <> None <-> exists k, k < 20 /\ begins (nth k next_titles nothing) s.
Proof.
  split.
  - intros H. destruct (regex_match_list s post_reference_title_patterns) as [[p o]|] eqn:E; [|congruence]. apply regex_match_list_some in E as (I & M). apply (In_nth _ _ rx0) in I as (k & L & <-). change (k < 20) in L. exists k. split; auto.
    pose proof (on_match _ _ _ s (next_fair k L) (next_inj k L) (next_read k L)) as S. rewrite M in S. destruct S as (w & b & fs & Es & P & _). exists w, b, fs. auto.
  - intros (k & L & B) N. apply (proj1 (regex_match_list_none _ _)) with (p := nth k post_reference_title_patterns rx0) in N; [|now apply nth_In].
    pose proof (on_match _ _ _ s (next_fair k L) (next_inj k L) (next_read k L)) as S. rewrite N in S. rewrite nothing_nth in B by exact L. contradiction.
Qed.

(** ** The first marker of a section with a title *)
Lemma marks_nth k : k < 14 -> nth k marks nothing = (blanks ;; named Fmark (nth k mark_texts nothing)).
Proof.
  intros L. unfold marks. rewrite (nth_indep _ nothing (blanks ;; named Fmark nothing)) by exact L. exact (map_nth (fun p => blanks ;; named Fmark p) mark_texts nothing k).
Qed.
Lemma texts_stop k : k < 14 -> stops is_space (nth k mark_texts nothing).
Proof. intros L. do 14 (try (destruct k as [|k]; [cbv [nth mark_texts]|])); [..|exfalso; lia]. all: unfold bracketed, label; stop. Qed.
Lemma blank_no_marker l : forallb is_space l = true -> no_marker l.
Proof.
  intros S k L (w & b & fs & -> & P). rewrite (marks_nth k L) in P. destruct P as (u & v & f1 & f2 & -> & -> & _ & (f & -> & A)). destruct (texts_stop k L _ _ _ _ A) as (c & t & E & N).
  rewrite <- app_assoc, E, forallb_app in S. apply andb_true_iff in S as (_ & S). cbn [forallb] in S. apply andb_true_iff in S as (S & _). congruence.
Qed.
(** the pattern for one form of markers *)
Definition form_rx (r : option (nat * str)) : option rx := option_map (fun x => nth (fst x) marker_patterns rx0) r.
Lemma body_mark body : exists r, find_numeration_in_body body = Ok (mkdet (option_map snd r) (form_rx r) false) /\ first_mark body r.
Proof.
  induction body as [|l t (r & E & F)]; cbn [find_numeration_in_body]; [exists None; split; auto; intros x k m []|].
  assert ((forall k m, ~ mark_one l k m) -> exists r, find_numeration_in_body t = Ok (mkdet (option_map snd r) (form_rx r) false) /\ first_mark (l :: t) r) as Skip.
  { intros N. exists r. split; auto. destruct r as [[k m]|]; cbn [first_mark] in *.
    - destruct F as (l1 & x & l2 & -> & M & Q). exists (l :: l1), x, l2. split; auto. split; auto. intros y k' m' [<-|I]; eauto.
    - intros x k m [<-|I]; auto. }
  destruct (isspace l) eqn:Sp.
  - apply Skip. intros k m (w & b & fs & M & _). apply (marker_or _ _ _ _ _ M), blank_no_marker. unfold isspace in Sp. destruct l; [discriminate|exact Sp].
  - pose proof (mark_found l) as M. destruct (regex_match_list l marker_patterns) as [[p o]|].
    + destruct M as (k & w & b & fs & Ep & M & _ & G & G1 & G2). pose proof M as (L & _ & P & _). destruct (mark_field k L _ _ _ _ P) as (u & v & _ & _ & Fm). rewrite Fm in G.
      assert (field_of Fnumber fs = None \/ field_of Fnumber fs = Some (py "1") -> first_mark (l :: t) (Some (k, v))) as Found.
      { intros H. exists [], l, t. split; auto. split; [exists w, b, fs; auto|intros x k' m' []]. }
      destruct (number_form k) eqn:Nf.
      * rewrite (G1 eq_refl). destruct (field_of Fnumber fs) as [x|] eqn:Fn.
        -- destruct (eqs x (py "1")) eqn:Ex.
           ++ apply eqs_eq in Ex as ->. rewrite G. cbn [bind]. exists (Some (k, v)). split; [cbn; now rewrite Ep|]. apply Found. now right.
           ++ apply Skip. intros k' m (w' & b' & fs' & M' & _ & H). destruct (marker_unique _ _ _ _ _ _ _ _ _ M M') as (<- & <- & <- & <-). rewrite Fn in H. destruct H as [H|H]; [discriminate|]. injection H as ->. now rewrite (proj2 (eqs_eq _ _) eq_refl) in Ex.
        -- exfalso. now apply (numbered_field _ _ _ _ _ M) in Nf.
      * rewrite (G2 eq_refl), G. cbn [bind]. exists (Some (k, v)). split; [cbn; now rewrite Ep|]. apply Found. left. pose proof (number_field k L _ _ _ _ P) as H. now rewrite Nf in H.
    + apply Skip. intros k m (w & b & fs & M' & _). exact (marker_or _ _ _ _ _ M' M).
Qed.

(** ** A marker after the title *)
Lemma bodies_read n : n < 14 -> reads_on (mark_no (nth n marker_body_rxs rx0)) (rx_re (nth n marker_body_rxs rx0)) (named Fmark (nth n mark_texts nothing)).
Proof.
  intros L. do 14 (destruct n as [|n]; [cbv [nth marker_body_rxs rx_re mark_texts]; ci_tree|]). exfalso. lia.
Qed.
Lemma bodies_inj n : n < 14 -> forall f f', mark_no (nth n marker_body_rxs rx0) f = mark_no (nth n marker_body_rxs rx0) f' -> f = f'.
Proof. intros L. apply inj_of. do 14 (destruct n as [|n]; [reflexivity|]). exfalso. lia. Qed.
Lemma bodies_fair n : n < 14 -> fair (rx_re (nth n marker_body_rxs rx0)) = true.
Proof. intros L. do 14 (destruct n as [|n]; [reflexivity|]). exfalso. lia. Qed.
Lemma bodies_name n : n < 14 -> assoc_str (py "mark") (rx_names (nth n marker_body_rxs rx0)) = Some (mark_no (nth n marker_body_rxs rx0) Fmark) /\ mark_no (nth n marker_body_rxs rx0) Fmark <> 0.
Proof. intros L. do 14 (destruct n as [|n]; [split; [reflexivity|discriminate]|]). exfalso. lia. Qed.
Lemma lits_fair t : fair (re_lits fI t) = true.
Proof. induction t as [|c [|c2 t] IH]; auto. Qed.
Lemma on_letter g c : reads_on g (RegexParse.lit fI c) (text (fun w => exists d, w = [d] /\ same_letter c d)).
Proof. apply on_reads, (reads_cls g _ (fun d => cls_mem (mkcls false true [CRange c c]) d)). reflexivity. Qed.
Lemma on_lits g t : reads_on g (re_lits fI t) (text (Forall2 same_letter t)).
Proof.
  induction t as [|c [|c2 t] IH].
  - apply (on_weak g Eps (text (fun w => w = []))); [|apply on_reads, reads_text; intros a w b d; reflexivity]. intros a w b fs. unfold text. split; intros (H & ->); split; auto; [subst; constructor|now inversion H].
  - apply (on_weak g (re_lits fI [c]) _ _ (fun a w b fs => conj (fun H => H) (fun H => H))). eapply on_weak; [|apply (on_letter g c)]. intros a w b fs. unfold text. split; intros (H & ->); split; auto.
    + destruct H as (d & -> & H). auto.
    + inversion H as [|? d ? ? A B]; subst. inversion B; subst. eauto.
  - change (re_lits fI (c :: c2 :: t)) with (Cat (RegexParse.lit fI c) (re_lits fI (c2 :: t))). eapply on_weak; [|apply on_cat; [apply (on_letter g c)|exact IH]]. intros a w b fs. unfold text, NumGrammar.seq. split.
    + intros (u & v & f1 & f2 & -> & -> & ((d & -> & S) & ->) & (F & ->)). split; auto. constructor; auto.
    + intros (F & ->). inversion F as [|? d ? v S F']; subst. exists [d], v, [], []. split; auto. split; auto. split; auto. split; eauto.
Qed.
Lemma title_marks_nth t k : k < 14 -> nth k (title_marks same_letter t) nothing = (blanks ;; text (Forall2 same_letter t) ;; named Fmark (nth k mark_texts nothing)).
Proof.
  intros L. unfold title_marks. rewrite (nth_indep _ nothing (blanks ;; text (Forall2 same_letter t) ;; named Fmark nothing)) by exact L. exact (map_nth (fun p => blanks ;; text (Forall2 same_letter t) ;; named Fmark p) mark_texts nothing k).
Qed.
Lemma title_rx_nth t k : k < 14 -> nth k (map (title_marker t) marker_body_rxs) rx0 = title_marker t (nth k marker_body_rxs rx0).
Proof. intros L. rewrite (nth_indep _ rx0 (title_marker t rx0)) by exact L. apply map_nth. Qed.
Lemma title_marks_read t k : k < 14 -> reads_on (mark_no (nth k marker_body_rxs rx0)) (rx_re (title_marker t (nth k marker_body_rxs rx0))) (nth k (title_marks same_letter t) nothing).
Proof.
  intros L. rewrite (title_marks_nth t k L). cbn [title_marker rx_re]. apply on_cat; [apply on_sp|]. apply on_cat; [apply on_lits|]. now apply bodies_read.
Qed.
Lemma title_marks_fair t k : k < 14 -> fair (rx_re (title_marker t (nth k marker_body_rxs rx0))) = true.
Proof. intros L. cbn [title_marker rx_re fair]. rewrite lits_fair, (bodies_fair k L). reflexivity. Qed.
Lemma bare_after t s o : re_match (rx_re (title_marker t (nth 6 marker_body_rxs rx0))) s = Some o -> ~ first_is is_space (skipn (m_end o) s).
Proof.
  intros H. unfold re_match in H. change (init s) with (here [] s) in H. apply run_m in H as (z & g & H & ->). cbn [m_end].
  assert (rx_re (title_marker t (nth 6 marker_body_rxs rx0)) = Cat sp (Cat (re_lits fI t) (Grp 1 (Cat (Grp 2 (Rep true 1 None dg)) (Rep true 1 None (Cls (mkcls false false [CSpace true]))))))) as E by reflexivity. rewrite E in H. clear E.
  apply peel in H as (u & s1 & c1 & g1 & -> & _ & _ & H); [|reflexivity]. apply peel in H as (u' & s1' & c1' & g1' & -> & _ & _ & H); [|apply lits_fair]. rewrite m_group in H.
  apply peel in H as (v & s2 & c2 & g2 & -> & _ & _ & H); [|reflexivity]. apply peel_longest in H as (w & b & -> & W & L & _ & K & N). injection K as <- _.
  cbn [here pos]. intros (c & r & E & Sp). assert (b = c :: r) as ->.
  { rewrite <- E. rewrite !app_length. cbn [length]. replace (u ++ u' ++ v ++ w ++ b) with ((u ++ u' ++ v ++ w) ++ b) by now rewrite <- !app_assoc. rewrite skipn_app. rewrite (skipn_all2 (u ++ u' ++ v ++ w)) by (rewrite !app_length; lia). replace (_ - _) with 0 by (rewrite !app_length; lia). reflexivity. }
  specialize (N (w ++ [c]) r). rewrite <- app_assoc in N. specialize (N eq_refl). specialize (N ltac:(rewrite forallb_app; apply andb_true_iff; split; [exact W|]; cbn [forallb]; now rewrite space_mem, Sp) ltac:(rewrite app_length; cbn; lia) I). discriminate.
Qed.
Lemma title_mark_found t s : match regex_match_list s (map (title_marker t) marker_body_rxs) with
  | Some (p, o) => exists k m, p = title_marker t (nth k marker_body_rxs rx0) /\ group_named p s o (py "mark") = Ok (Some m) /\ mark_after same_letter t s k m
  | None => forall j, j < 14 -> ~ begins (nth j (title_marks same_letter t) nothing) s end.
Proof.
  pose proof (match_list_spec (map (title_marker t) marker_body_rxs) (title_marks same_letter t) s) as H. specialize (H ltac:(unfold title_marks; rewrite !map_length; reflexivity)).
  assert (length (map (title_marker t) marker_body_rxs) = 14) as Len by (rewrite map_length; reflexivity). rewrite Len in H.
  assert (forall n, n < 14 -> fair (rx_re (nth n (map (title_marker t) marker_body_rxs) rx0)) = true /\ exists g, (forall f f', g f = g f' -> f = f')
    /\ reads_on g (rx_re (nth n (map (title_marker t) marker_body_rxs) rx0)) (nth n (title_marks same_letter t) nothing)) as R.
  { intros n L. rewrite (title_rx_nth t n L). split; [now apply title_marks_fair|]. exists (mark_no (nth n marker_body_rxs rx0)). split; [now apply bodies_inj|now apply title_marks_read]. }
  specialize (H R). clear R. destruct (regex_match_list s (map (title_marker t) marker_body_rxs)) as [[p o]|]; [|exact H]. destruct H as (k & L & Ep & M & N). rewrite (title_rx_nth t k L) in Ep.
  pose proof (on_match _ _ _ s (title_marks_fair t k L) (bodies_inj k L) (title_marks_read t k L)) as S. rewrite <- Ep, M in S. destruct S as (w & b & fs & Es & P & En & G). destruct (bodies_name k L) as (A1 & A2).
  assert (exists m, field_of Fmark fs = Some m) as (m & Fm). { pose proof P as P'. rewrite (title_marks_nth t k L) in P'. destruct P' as (u & v & f1 & f2 & _ & -> & (_ & ->) & (u' & v' & f3 & f4 & _ & -> & (_ & ->) & (f & -> & _))). exists v'. reflexivity. }
  exists k, m. split; auto. split.
  - unfold group_named. rewrite Ep at 1. cbn [title_marker rx_names]. rewrite A1. f_equal. rewrite G by exact A2. exact Fm.
  - exists w, b, fs. split; auto. split; [|auto]. split; auto. split; auto. intros ->. subst p. apply bare_after in M. rewrite En, Es, skipn_app, skipn_all, Nat.sub_diag in M. exact M.
Qed.
