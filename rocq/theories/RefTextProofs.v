(** From lines to references (RefText.v): what is kept, and where new references start. *)
From Coq Require Import List Arith NArith Bool String Lia.
From Verif Require Import PyStr ListFacts Regex RegexParse RegexMeta RegexLang Patterns DocText Tag Find RefText RecordProofs.
Import ListNotations.
Local Notation length := List.length.
Local Notation concat := List.concat.
Local Open Scope nat_scope.
Local Arguments is_space : simpl never.

(** ** Text without white space *)
Definition squash (s : str) : str := filter (fun c => negb (is_space c)) s.
Lemma squash_app a b : squash (a ++ b) = squash a ++ squash b. Proof. apply filter_app. Qed.
Lemma squash_concat l : squash (concat l) = concat (map squash l).
Proof. induction l as [|x l IH]; cbn; auto. now rewrite squash_app, IH. Qed.
Lemma squash_spaces s : forallb is_space s = true -> squash s = [].
Proof. induction s as [|c s IH]; cbn; auto. destruct (is_space c); cbn; auto. discriminate. Qed.
Lemma squash_strip s : squash (strip s) = squash s.
Proof.
  destruct (strip_by_split is_space s) as (p & q & E & P & Q). rewrite E at 2. rewrite !squash_app, (squash_spaces p), (squash_spaces q), app_nil_r; auto.
Qed.
Lemma squash_lstrip s : squash (lstrip s) = squash s.
Proof. destruct (lstrip_by_split is_space s) as (p & E & P). rewrite E at 2. now rewrite squash_app, (squash_spaces p). Qed.
Lemma squash_rstrip s : squash (rstrip s) = squash s.
Proof. destruct (rstrip_by_split is_space s) as (p & E & P). rewrite E at 2. now rewrite squash_app, (squash_spaces p), app_nil_r. Qed.

(** ** Joining the lines of a reference *)
(** [l'] is the text of [l] without white space, and perhaps without hyphens at its end *)
Definition trimmed (l l' : str) : Prop := exists k, squash l = l' ++ repeat 45%N k.
Lemma drop_last_hyphen (ps : list str) ls t : Forall2 trimmed ls ps -> concat ps = t ++ [45%N] ->
  exists ps', Forall2 trimmed ls ps' /\ concat ps' = t.
Proof.
  intros F. revert t. induction F as [|l p ls ps (k & E) F IH]; cbn; intros t Q.
  - now destruct t.
  - destruct (concat ps) as [|c u] eqn:C.
    + exists (t :: ps). rewrite app_nil_r in Q. split; [|cbn; rewrite C; apply app_nil_r]. constructor; auto.
      exists (S k). rewrite E, Q, <- app_assoc. reflexivity.
    + destruct (@exists_last _ (c :: u)) as (v & d & V); [discriminate|]. rewrite V in *. rewrite app_assoc in Q. apply app_inj_tail in Q as [Q ->].
      destruct (IH v eq_refl) as (ps' & F' & C'). exists (p :: ps'). split; [constructor; auto; now exists k|]. cbn. now rewrite C'.
Qed.
Lemma join_lines_squash a b : squash (join_lines a b) = squash a ++ squash b
  \/ exists t, squash a = t ++ [45%N] /\ squash (join_lines a b) = t ++ squash b.
Proof.
  unfold join_lines. destruct (rev a) as [|c t] eqn:R.
  - left. assert (a = []) as -> by (rewrite <- (rev_involutive a), R; reflexivity). reflexivity.
  - assert (a = rev t ++ [c]) as -> by (rewrite <- (rev_involutive a), R; reflexivity).
    destruct (N.eqb_spec c 45) as [->|N].
    + right. exists (squash (rev t)). rewrite !squash_app. split; auto.
    + left. destruct (N.eqb c 32); rewrite !squash_app; auto.
Qed.
Lemma prepare_joined working : exists pieces, Forall2 trimmed (firstn max_lines working) pieces /\ squash (prepare_ref working) = concat pieces.
Proof.
  unfold prepare_ref. rewrite squash_rstrip. generalize (firstn max_lines working). intros ls.
  assert (forall done acc ps, Forall2 trimmed done ps -> squash acc = concat ps ->
    exists pieces, Forall2 trimmed (done ++ ls) pieces /\ squash (fold_left (fun acc l => join_lines acc (strip l)) ls acc) = concat pieces) as H.
  { induction ls as [|l ls IH]; intros done acc ps F E; cbn [fold_left].
    - exists ps. rewrite app_nil_r. auto.
    - assert (trimmed l (squash l)) as T by (exists 0; cbn; now rewrite app_nil_r).
      replace (done ++ l :: ls) with ((done ++ [l]) ++ ls) by (rewrite <- app_assoc; reflexivity).
      destruct (join_lines_squash acc (strip l)) as [J|(t & A & J)]; rewrite squash_strip in J.
      + apply IH with (ps := ps ++ [squash l]); [apply Forall2_app; auto|]. rewrite concat_app, J, E. cbn. now rewrite app_nil_r.
      + rewrite E in A. destruct (drop_last_hyphen ps done t F A) as (ps' & F' & C').
        apply IH with (ps := ps' ++ [squash l]); [apply Forall2_app; auto|]. rewrite concat_app, J, C'. cbn. now rewrite app_nil_r. }
  destruct (H [] [] []) as (pieces & F & E); auto. exists pieces. auto.
Qed.
Definition letters (s : str) : str := filter (fun c => negb (is_space c || N.eqb c 45)) s.
Lemma letters_squash s : letters s = filter (fun c => negb (N.eqb c 45)) (squash s).
Proof. unfold letters, squash. induction s as [|c s IH]; cbn; auto. destruct (is_space c); cbn; auto. destruct (N.eqb c 45); cbn; now rewrite IH. Qed.
Lemma letters_app a b : letters (a ++ b) = letters a ++ letters b. Proof. apply filter_app. Qed.
Lemma letters_concat l : letters (concat l) = concat (map letters l).
Proof. induction l as [|x l IH]; cbn; auto. now rewrite letters_app, IH. Qed.
Lemma prepare_letters working : length working <= max_lines -> letters (prepare_ref working) = letters (concat working).
Proof.
  intros L. destruct (prepare_joined working) as (ps & F & E). rewrite firstn_all2 in F by auto. rewrite letters_squash, E. clear E L.
  induction F as [|l p ls ps (k & E) F IH]; auto. cbn [concat]. rewrite letters_app, filter_app, <- IH, (letters_squash l), E, filter_app. f_equal.
  match goal with |- _ = _ ++ ?x => replace x with (@nil ch) by (clear; induction k; auto) end. now rewrite app_nil_r.
Qed.

(** ** Blocks *)
Lemma add_nonempty_concat s l : concat (add_nonempty s l) = concat l ++ s.
Proof. destruct s; cbn; rewrite ?app_nil_r, ?concat_app; cbn; now rewrite ?app_nil_r. Qed.
Lemma add_nonempty_len s l : length (add_nonempty s l) <= S (length l).
Proof. destruct s; cbn; [lia|]. rewrite app_length. cbn. lia. Qed.
(** what the loop makes of the lines read so far: finished blocks and the working one *)
Definition blocks_ok (n : nat) (text : str) (s : rbst) : Prop :=
  exists blocks, concat (concat blocks) ++ concat (w_working s) = text /\ w_out s = map prepare_ref blocks
    /\ Forall (fun b => b <> [] /\ length b <= n) blocks /\ length (w_working s) <= n.
Lemma rebuild_step_ok p indent s line s' n text : rebuild_step p indent s line = Ok s' -> blocks_ok n text s -> blocks_ok (S n) (text ++ line) s'.
Proof.
  intros H (blocks & T & O & F & L). assert (Forall (fun b : list str => b <> [] /\ length b <= S n) blocks) as F'.
  { eapply Forall_impl; [|exact F]. cbn. intros b (A & B). split; auto. }
  unfold rebuild_step in H. destruct (re_search (rx_re p) line) as [o|].
  - destruct (read_marknum p line o (w_marknum s)) as [mn|]; [cbn [bind] in H|discriminate H]. destruct mn as [k|]; [|discriminate].
    destruct (new_line_detected (w_current s) k) as [det|]; [cbn [bind] in H|discriminate H].
    match goal with H : (if ?d then _ else _) = _ |- _ => destruct d end; inversion H; subst s'; unfold blocks_ok; cbn [w_working w_out].
    + set (w := add_nonempty (firstn (m_start o) line) (w_working s)). assert (concat w = concat (w_working s) ++ firstn (m_start o) line) as W by apply add_nonempty_concat.
      assert (length w <= S n) as Lw by (unfold w; pose proof (add_nonempty_len (firstn (m_start o) line) (w_working s)); lia).
      assert (length (add_nonempty (skipn (m_start o) line) []) <= S n) as L2 by (pose proof (add_nonempty_len (skipn (m_start o) line) []); cbn in *; lia).
      unfold flush. destruct w as [|x w'] eqn:Ew.
      * exists blocks. rewrite add_nonempty_concat. split; [|auto]. cbn in W. symmetry in W. apply app_eq_nil in W as [W1 W2]. rewrite W1, app_nil_r in T.
        rewrite T. cbn. now rewrite <- (firstn_skipn (m_start o) line) at 2; rewrite W2.
      * exists (blocks ++ [x :: w']). split; [|split; [|split; auto]].
        -- rewrite concat_app, concat_app, add_nonempty_concat. cbn [concat app]. rewrite app_nil_r. rewrite <- !app_assoc.
           change (x ++ concat w' ++ skipn (m_start o) line) with (x ++ (concat w' ++ skipn (m_start o) line)). rewrite (app_assoc x).
           change (x ++ concat w') with (concat (x :: w')). rewrite W, <- app_assoc, firstn_skipn, app_assoc, T. reflexivity.
        -- rewrite map_app, O. reflexivity.
        -- apply Forall_app. split; auto. constructor; [split; [discriminate|auto]|constructor].
    + exists blocks. rewrite concat_app. cbn [concat]. rewrite app_nil_r, app_assoc, T. repeat (split; auto). rewrite app_length. cbn. lia.
  - inversion H; subst s'. exists blocks. cbn [w_working w_out]. rewrite add_nonempty_concat, app_assoc, T. repeat (split; auto).
    pose proof (add_nonempty_len line (w_working s)). lia.
Qed.
Lemma rebuild_steps_ok p indent : forall lines s s' n text, rebuild_steps p indent s lines = Ok s' -> blocks_ok n text s ->
  blocks_ok (n + length lines) (text ++ concat lines) s'.
Proof.
  induction lines as [|l t IH]; intros s s' n text H B; cbn [rebuild_steps] in H.
  - inversion H; subst. cbn. now rewrite app_nil_r, Nat.add_0_r.
  - destruct (rebuild_step p indent s l) as [s1|] eqn:E; [cbn [bind] in H|discriminate H].
    apply (rebuild_step_ok _ _ _ _ _ n text) in E; auto. apply (IH _ _ _ _ H) in E. cbn. rewrite <- app_assoc in E. now rewrite Nat.add_succ_r.
Qed.
Lemma rebuild_blocks lines ptn out : rebuild_reference_lines lines ptn = Ok out ->
  exists blocks, concat (concat blocks) = concat lines /\ out = map prepare_ref blocks
    /\ Forall (fun b => b <> [] /\ length b <= length lines) blocks.
Proof.
  unfold rebuild_reference_lines. destruct (separator lines ptn) as [p indent]. intros H.
  destruct (rebuild_steps p indent rb_init lines) as [s|] eqn:E; [cbn [bind] in H|discriminate H]. injection H as <-.
  apply (rebuild_steps_ok _ _ _ _ _ 0 []) in E as (blocks & T & O & F & L).
  - cbn [app plus] in *. unfold flush. destruct (w_working s) as [|x w].
    + exists blocks. cbn in T. rewrite app_nil_r in T. auto.
    + exists (blocks ++ [x :: w]). rewrite concat_app, concat_app. cbn [concat app] in *. rewrite app_nil_r. split; auto. split; [now rewrite map_app, O|].
      apply Forall_app. split; auto. constructor; [split; [discriminate|auto]|constructor].
  - exists []. cbn. auto.
Qed.
Lemma rebuild_letters lines ptn out : rebuild_reference_lines lines ptn = Ok out -> length lines <= max_lines ->
  letters (concat out) = letters (concat lines).
Proof.
  intros H L. apply rebuild_blocks in H as (blocks & <- & -> & F). induction F as [|b bs (_ & B) F IH]; auto. cbn [map concat].
  rewrite concat_app, !letters_app, IH, prepare_letters by (eapply Nat.le_trans; eauto). reflexivity.
Qed.

(** ** Numbered markers *)
Definition mark_number (p : rx) (line : str) (o : mobj) : option N :=
  match group_named p line o (py "marknum") with
  | Ok (Some t) => match int_of_str t with Ok n => Some n | Err _ => None end
  | _ => None
  end.
Definition numbered (p : rx) : Prop := assoc_str (py "marknum") (rx_names p) <> None.
(** the first marker in [line], if any, does not have the number [n] *)
Definition not_marked (p : rx) (n : N) (line : str) : Prop :=
  forall o, re_search (rx_re p) line = Some o -> mark_number p line o <> Some n.
(** the lines after the reference [k] has begun, cut at the markers k+1, k+2, ... *)
Inductive cut_from (p : rx) : N -> list str -> list (list str) -> Prop :=
| cut_end k mid : Forall (not_marked p (k + 1)) mid -> cut_from p k mid [mid]
| cut_next k mid t h o rest b blocks :
    Forall (not_marked p (k + 1)) mid ->
    re_search (rx_re p) (t ++ h) = Some o -> m_start o = length t -> mark_number p (t ++ h) o = Some (k + 1)%N ->
    cut_from p (k + 1) rest (b :: blocks) ->
    cut_from p k (mid ++ (t ++ h) :: rest) ((mid ++ [t]) :: (h :: b) :: blocks).
Definition full (l : list str) : list str := filter (fun x : str => nonempty x) l.
Lemma full_app a b : full (a ++ b) = full a ++ full b. Proof. apply filter_app. Qed.
Lemma full_cons x b : full (x :: b) = if nonempty x then x :: full b else full b. Proof. reflexivity. Qed.
Definition present (blocks : list (list str)) : list (list str) :=
  filter (fun b => nonempty b) (map full blocks).
Lemma present_cons b bs : present (b :: bs) = (if nonempty (full b) then [full b] else []) ++ present bs.
Proof. unfold present. cbn [map filter]. destruct (nonempty _); reflexivity. Qed.
Lemma add_nonempty_filter x l : full l = l -> full (l ++ [x]) = add_nonempty x l.
Proof. intros H. rewrite full_app, H. destruct x; cbn; [apply app_nil_r|reflexivity]. Qed.
Lemma all_nonempty l : full l = l -> forall x : str, x <> [] -> full (l ++ [x]) = l ++ [x].
Proof. intros H x N. rewrite full_app, H. destruct x; [congruence|reflexivity]. Qed.
Lemma flush_present w out : full w = w -> flush w out = out ++ map prepare_ref (present [w]).
Proof. intros H. rewrite present_cons, H. unfold flush, present. destruct w; cbn; now rewrite ?app_nil_r. Qed.
Lemma cut_more p k line rest b blocks : not_marked p (k + 1) line -> cut_from p k rest (b :: blocks) -> cut_from p k (line :: rest) ((line :: b) :: blocks).
Proof.
  intros N C. inversion C; subst.
  - apply cut_end. now constructor.
  - change (line :: mid ++ (t ++ h) :: rest0) with ((line :: mid) ++ (t ++ h) :: rest0). change (line :: mid ++ [t]) with ((line :: mid) ++ [t]).
    eapply cut_next; eauto.
Qed.
Lemma numbered_steps p : numbered p -> re_search (rx_re p) [] = None -> forall lines s s' k,
  rebuild_steps p false s lines = Ok s' -> w_current s = Some k ->
  (forall m, w_marknum s = Some (Some m) -> m <> (k + 1)%N) -> w_marknum s <> Some None ->
  full (w_working s) = w_working s ->
  exists b blocks, cut_from p k lines (b :: blocks)
    /\ flush (w_working s') (w_out s') = w_out s ++ map prepare_ref (present ((w_working s ++ b) :: blocks)).
Proof.
  intros Np Ne. induction lines as [|line t IH]; intros s s' k H C M M0 W; cbn [rebuild_steps] in H.
  - inversion H; subst. exists [], []. split; [apply cut_end; constructor|]. rewrite app_nil_r. now apply flush_present.
  - destruct (rebuild_step p false s line) as [s1|] eqn:E; [cbn [bind] in H|discriminate H].
    unfold rebuild_step in E. destruct (re_search (rx_re p) line) as [o|] eqn:O.
    + destruct (read_marknum p line o (w_marknum s)) as [mn|] eqn:R; [cbn [bind] in E|discriminate E].
      destruct mn as [n|]; [|discriminate]. rewrite C in E.
      (* the number read now, or the old one *)
      assert (exists m, n = Some m /\ (mark_number p line o = Some m \/ (mark_number p line o = None /\ w_marknum s = Some (Some m)))) as (m & -> & D).
      { unfold read_marknum, mark_number in *. unfold group_named in *. destruct (assoc_str (py "marknum") (rx_names p)) eqn:As; [|now elim Np].
        destruct (g_text line o n0) as [txt|]; [|discriminate]. destruct (int_of_str txt) as [v|]; inversion R; eauto.
        rewrite H1 in *. destruct n as [m|]; [eauto|congruence]. }
      assert (line <> []) as NeL by (intros ->; congruence).
      cbn [new_line_detected bind] in E. rewrite andb_true_r in E. destruct (N.eqb_spec (k + 1) m) as [Q|Q].
      * inversion E; subst s1; clear E.
        destruct D as [D|(_ & D)]; [|exfalso; eapply M; eauto].
        destruct (IH _ _ m H) as (b & blocks & Cu & F); cbn [w_current w_marknum w_working w_out] in *; auto.
        { intros m' Z. injection Z as <-. lia. }
        { discriminate. }
        { destruct (skipn (m_start o) line); reflexivity. }
        exists [firstn (m_start o) line], ((skipn (m_start o) line :: b) :: blocks). subst m. split.
        -- rewrite <- (firstn_skipn (m_start o) line) at 1. apply (cut_next p k [] _ _ o); auto.
           ++ now rewrite firstn_skipn.
           ++ rewrite firstn_length_le; auto. apply re_search_ok, obj_bounds in O. unfold str, ch in *. lia.
           ++ now rewrite firstn_skipn.
        -- rewrite F. rewrite (present_cons (w_working s ++ _)), map_app, app_assoc. rewrite add_nonempty_filter by auto.
           assert (present ((add_nonempty (skipn (m_start o) line) [] ++ b) :: blocks) = present ((skipn (m_start o) line :: b) :: blocks)) as ->
             by (rewrite !present_cons; destruct (skipn (m_start o) line); reflexivity). f_equal.
           unfold flush. destruct (add_nonempty (firstn (m_start o) line) (w_working s)); cbn; now rewrite ?app_nil_r.
      * inversion E; subst s1; clear E.
        destruct (IH _ _ k H) as (b & blocks & Cu & F); cbn [w_current w_marknum w_working w_out] in *; auto.
        { intros m' Z. injection Z as <-. auto. }
        { discriminate. }
        { now apply all_nonempty. }
        exists (line :: b), blocks. split.
        -- apply cut_more; auto. intros o' O'. rewrite O in O'. injection O' as <-. destruct D as [-> |(-> & _)]; congruence.
        -- rewrite F, <- app_assoc. reflexivity.
    + inversion E; subst s1; clear E. destruct (IH _ _ k H) as (b & blocks & Cu & F); cbn [w_current w_marknum w_working w_out] in *; auto.
      { destruct line; cbn [add_nonempty]; auto. apply all_nonempty; auto. discriminate. }
      exists (line :: b), blocks. split.
      * apply cut_more; auto. intros o' O'. congruence.
      * rewrite F, !present_cons. rewrite !full_app, full_cons.
        assert (full (add_nonempty line (w_working s)) ++ full b = full (w_working s) ++ (if nonempty line then line :: full b else full b)) as ->; auto.
        destruct line; cbn [add_nonempty nonempty]; auto. rewrite full_app, <- app_assoc. reflexivity.
Qed.
Lemma rebuild_numbered p lines out : numbered p -> re_search (rx_re p) [] = None -> rebuild_reference_lines lines (Some p) = Ok out ->
  exists blocks, cut_from p 0 lines blocks /\ out = map prepare_ref (present blocks).
Proof.
  intros Np Ne H. unfold rebuild_reference_lines in H. cbn [separator] in H.
  destruct (rebuild_steps p false rb_init lines) as [s|] eqn:E; [cbn [bind] in H|discriminate H]. injection H as <-.
  apply (numbered_steps p Np Ne _ _ _ 0%N) in E as (b & blocks & C & F); cbn; auto; try discriminate. exists (b :: blocks). split; auto.
Qed.
