(** Where the lines of a section with known markers are cut into references (C58). *)
From Coq Require Import List Arith NArith Bool String Lia.
From Verif Require Import PyStr ListFacts Regex RegexMeta RegexLang RegexParse Patterns DocText ParseTagged Tag Find RefText RefTextProofs MarkerProofs FindProofs CaptureLang NumGrammar NumProofs NumFind SectGrammar SectProofs SectUse SectEnd Shift.
Import ListNotations.
Local Open Scope nat_scope.
Local Notation length := List.length.

Lemma app_parts {A} (a b c d : list A) : a ++ b = c ++ d -> length a = length c -> a = c /\ b = d.
Proof. revert c. induction a as [|x a IH]; intros [|y c] E L; try discriminate; auto. cbn [app] in E. injection E as -> E. destruct (IH c E ltac:(cbn in L; lia)) as (-> & ->). auto. Qed.
(** the first marker inside a line stands at the beginning of [h] *)
Definition first_marker (M : reading) (a h : str) (fs : fields) : Prop :=
  (exists w b, M h w b fs) /\ forall a' h' w b fs', a ++ h = a' ++ h' -> length a' < length a -> ~ M h' w b fs'.
(** it begins the reference after the [n]th: if it has a number then this is the next one *)
Definition next_mark (n : N) (fs : fields) : Prop := forall t, field_of Fnumber fs = Some t -> int_of_str t = Ok (n + 1)%N.
Definition same_reference (M : reading) (n : N) (l : str) : Prop := forall a h fs, l = a ++ h -> first_marker M a h fs -> ~ next_mark n fs.
(** the lines after the [n]th reference has begun, cut at the markers of the next ones *)
Inductive cut_at (M : reading) : N -> list str -> list (list str) -> Prop :=
| cut_last n mid : Forall (same_reference M n) mid -> cut_at M n mid [mid]
| cut_more n mid a h fs rest b blocks :
    Forall (same_reference M n) mid -> first_marker M a h fs -> next_mark n fs -> cut_at M (n + 1) rest (b :: blocks) ->
    cut_at M n (mid ++ (a ++ h) :: rest) ((mid ++ [a]) :: (h :: b) :: blocks).

Section Cut.
Variables (p : rx) (M : reading).
Hypothesis Gd : good p M.
Let R : read_by [p] M := proj1 Gd.
Let Lo : local (rx_re p) = true := proj1 (proj2 Gd).
Let Ne : forall w b fs, ~ M [] w b fs := proj2 (proj2 Gd).
Lemma search_reading l : match re_search (rx_re p) l with
  | Some o => exists a h fs, l = a ++ h /\ m_start o = length a /\ first_marker M a h fs
      /\ (numbered p -> group_named p l o (py "marknum") = Ok (field_of Fnumber fs)) /\ (numbered p <-> field_of Fnumber fs <> None)
  | None => forall a h w b fs, l = a ++ h -> ~ M h w b fs end.
Proof using Gd.
  pose proof R as (U & F). pose proof (search_moved (rx_re p) l Lo) as S.
  assert (forall s, re_match (rx_re p) s = None -> forall w b fs, ~ M s w b fs) as No. { intros s E. specialize (F s). rewrite one_pattern, E in F. exact F. }
  destruct (re_search (rx_re p) l) as [o|].
  - destruct S as (a & h & o' & -> & E & -> & N). specialize (F h). rewrite one_pattern, E in F. destruct F as (w & b & fs & H & _ & _ & _ & G & Nm). exists a, h, fs. split; auto. split.
    { apply re_match_some in E as (w' & x' & _ & _ & St & _). cbn [shift_obj m_start]. rewrite St. lia. }
    split; [split; [eauto|]|].
    + intros a' h' w' b' fs' Q L. apply No. now apply (N a').
    + rewrite named_moved. auto.
  - intros a h w b fs Q. apply No. now apply (S a).
Qed.
Lemma first_unique a h fs a' h' fs' : a ++ h = a' ++ h' -> first_marker M a h fs -> first_marker M a' h' fs' -> a = a' /\ h = h' /\ fs = fs'.
Proof using Gd.
  intros E ((w & b & H) & N) ((w' & b' & H') & N'). assert (length a = length a') as L.
  { destruct (Nat.lt_trichotomy (length a) (length a')) as [Q|[Q|Q]]; auto; exfalso; [apply (N' a h w b fs); auto|apply (N a' h' w' b' fs'); auto]. }
  apply app_parts in E as (-> & ->); auto. split; auto. split; auto. pose proof R as (U & _). now destruct (U _ _ _ _ _ _ _ H H') as (_ & _ & ->).
Qed.
Lemma search_empty : re_search (rx_re p) [] = None.
Proof using Gd.
  pose proof (search_reading []) as S. destruct (re_search (rx_re p) []) as [o|]; auto. destruct S as (a & h & fs & E & _ & ((w & b & H) & _) & _). symmetry in E. apply app_eq_nil in E as (-> & ->). now elim (Ne w b fs).
Qed.
Lemma not_marked_same n l : numbered p -> not_marked p (n + 1) l -> same_reference M n l.
Proof using Gd.
  intros Nm H a h fs E Fm K. pose proof (search_reading l) as S. destruct (re_search (rx_re p) l) as [o|] eqn:Q.
  - destruct S as (a' & h' & fs' & E' & _ & Fm' & G & Nf). rewrite E in E'. destruct (first_unique _ _ _ _ _ _ E' Fm Fm') as (<- & <- & <-). apply (H o Q). unfold mark_number. rewrite (G Nm).
    destruct (field_of Fnumber fs) as [t|] eqn:Ft; [|now elim (proj1 Nf Nm)]. now rewrite (K t Ft).
  - destruct Fm as ((w & b & X) & _). now elim (S a h w b fs E).
Qed.
Lemma cut_numbered n lines blocks : numbered p -> cut_from p n lines blocks -> cut_at M n lines blocks.
Proof using Gd.
  intros Nm C. induction C as [k mid F|k mid t h o rest b blocks F S St Mn C IH].
  - apply cut_last. eapply Forall_impl; [|exact F]. intros l. now apply not_marked_same.
  - pose proof (search_reading (t ++ h)) as Q. rewrite S in Q. destruct Q as (a' & h' & fs & E & St' & Fm & G & Nf). rewrite St in St'. destruct (app_parts _ _ _ _ E St') as (<- & <-).
    apply (cut_more M k mid t h fs); auto.
    + eapply Forall_impl; [|exact F]. intros l. now apply not_marked_same.
    + intros x Fx. unfold mark_number in Mn. rewrite (G Nm), Fx in Mn. destruct (int_of_str x); [congruence|discriminate].
Qed.
(** markers without numbers *)
Lemma unnumbered_steps : ~ numbered p -> forall lines s s' k, rebuild_steps p false s lines = Ok s' -> full (w_working s) = w_working s ->
  exists b blocks, cut_at M k lines (b :: blocks) /\ flush (w_working s') (w_out s') = w_out s ++ map prepare_ref (present ((w_working s ++ b) :: blocks)).
Proof using Gd.
  intros Nn. assert (assoc_str (py "marknum") (rx_names p) = None) as As by (unfold numbered in Nn; destruct (assoc_str _ _); [elim Nn; discriminate|auto]).
  induction lines as [|line t IH]; intros s s' k H W; cbn [rebuild_steps] in H.
  - inversion H; subst. exists [], []. split; [apply cut_last; constructor|]. rewrite app_nil_r. now apply flush_present.
  - destruct (rebuild_step p false s line) as [s1|] eqn:E; [cbn [bind] in H|discriminate H]. unfold rebuild_step in E. pose proof (search_reading line) as Sr. destruct (re_search (rx_re p) line) as [o|] eqn:O.
    + unfold read_marknum, group_named in E. rewrite As in E. cbn [bind new_line_detected andb negb] in E. injection E as <-.
      destruct Sr as (a & h & fs & El & St & Fm & _ & Nf). destruct (IH _ _ (k + 1)%N H) as (b & blocks & Cu & F); cbn [w_working w_out] in *.
      { destruct (skipn (m_start o) line); reflexivity. }
      assert (firstn (m_start o) line = a /\ skipn (m_start o) line = h) as (Ef & Es).
      { rewrite St, El, firstn_app, firstn_all, Nat.sub_diag, skipn_app, skipn_all, Nat.sub_diag. cbn [firstn skipn app]. rewrite app_nil_r. auto. }
      rewrite Ef, Es in F. exists [a], ((h :: b) :: blocks). split.
      * rewrite El. apply (cut_more M k [] a h fs); auto. intros x Fx. elim Nn. apply Nf. congruence.
      * rewrite F. rewrite (present_cons (w_working s ++ _)), map_app, app_assoc. rewrite add_nonempty_filter by auto.
        assert (present ((add_nonempty h [] ++ b) :: blocks) = present ((h :: b) :: blocks)) as -> by (rewrite !present_cons; destruct h; reflexivity). f_equal.
        unfold flush. destruct (add_nonempty a (w_working s)); cbn; now rewrite ?app_nil_r.
    + inversion E; subst s1; clear E. destruct (IH _ _ k H) as (b & blocks & Cu & F); cbn [w_working w_out] in *.
      { destruct line; cbn [add_nonempty]; auto. apply all_nonempty; auto. discriminate. }
      assert (same_reference M k line) as Sm. { intros a h fs El ((w & b' & X) & _) _. now elim (Sr a h w b' fs El). }
      exists (line :: b), blocks. split.
      * inversion Cu; subst; [apply cut_last; now constructor|]. change (line :: mid ++ (a ++ h) :: rest) with ((line :: mid) ++ (a ++ h) :: rest). change (line :: mid ++ [a]) with ((line :: mid) ++ [a]). eapply cut_more; eauto.
      * rewrite F, !present_cons. rewrite !full_app, full_cons.
        assert (full (add_nonempty line (w_working s)) ++ full b = full (w_working s) ++ (if nonempty line then line :: full b else full b)) as ->; auto.
        destruct line; cbn [add_nonempty nonempty]; auto. rewrite full_app, <- app_assoc. reflexivity.
Qed.
Lemma rebuild_cut lines out : rebuild_reference_lines lines (Some p) = Ok out -> exists blocks, cut_at M 0 lines blocks /\ out = map prepare_ref (present blocks).
Proof using Gd.
  intros H. destruct (assoc_str (py "marknum") (rx_names p)) as [i|] eqn:As.
  - assert (numbered p) as Nm by (unfold numbered; congruence). apply (rebuild_numbered p lines out Nm search_empty) in H as (blocks & C & ->). exists blocks. split; auto. now apply cut_numbered.
  - unfold rebuild_reference_lines in H. cbn [RefText.separator] in H. destruct (rebuild_steps p false rb_init lines) as [s|] eqn:E; [cbn [bind] in H|discriminate H]. injection H as <-.
    apply (unnumbered_steps ltac:(unfold numbered; congruence) _ _ _ 0%N) in E as (b & blocks & C & F); cbn; auto. exists (b :: blocks). split; auto.
Qed.
End Cut.

Lemma section_cut fulltext : exists body r, remove_page_boundary_lines fulltext = Ok body /\ get_reference_section_beginning body = Ok r /\ match r with
  | None => extract_references_from_fulltext fulltext = Ok ([], 4)
  | Some s => exists M n, marked_by body s M /\ ends_after M (skipn (s_line s) body) n /\
      match d_marker (s_details s) with
      | Some _ => forall refs st, extract_references_from_fulltext fulltext = Ok (refs, st) -> st = 0 /\ exists blocks, cut_at M 0 (section_lines body s n) blocks /\ refs = map prepare_ref (present blocks)
      | None => exists refs, rebuild_reference_lines (section_lines body s n) None = Ok refs /\ extract_references_from_fulltext fulltext = Ok (refs, 0)
      end end.
Proof.
  destruct (extract_spec fulltext) as (body & r & E & B & _ & H). exists body, r. split; auto. split; auto. destruct r as [s|]; auto. destruct H as (n & Sl & X & _). destruct (marked_spec body s B) as (M & Mb & R & Gd).
  exists M, n. split; auto. split; [now apply (section_length_in _ _ _ _ R)|]. destruct (d_pattern (s_details s)) as [p|].
  - destruct Gd as (Dm & Gd). destruct (d_marker (s_details s)); [|congruence]. intros refs st Q. rewrite X in Q. destruct (rebuild_reference_lines (section_lines body s n) (Some p)) as [out|] eqn:Rb; [|discriminate]. cbn [bind] in Q. injection Q as -> <-. split; auto. now apply (rebuild_cut p M Gd).
  - rewrite Gd. destruct (rebuild_total (section_lines body s n) None I) as (out & Q). exists out. split; auto. rewrite X, Q. reflexivity.
Qed.

(** ** Lines that repeat the title *)
Definition number_again : part := maybe (any_of "(") ;; maybe (any_of "[") ;; many 0 (Some 4) is_digit ;; maybe (any_of "]") ;; maybe (any_of ")") ;; maybe (any_of ".") ;; blanks.
Definition title_again (t : str) : part := number_again ;; text (fun w => w = t) ;; blanks ;; line_end.
Lemma exact_fair t : fair (re_lits noflags t) = true. Proof. induction t as [|c [|c2 t] IH]; auto. Qed.
Lemma on_exact g t : reads_on g (re_lits noflags t) (text (fun w => w = t)).
Proof.
  assert (forall c, reads_on g (RegexParse.lit noflags c) (text (fun w => w = [c]))) as L.
  { intros c. apply (on_weak g _ (one (N.eqb c))).
    - intros a w b fs. unfold one, text. split; intros (H & ->); split; auto; [destruct H as (d & -> & E); apply N.eqb_eq in E as ->; auto|exists c; split; auto; apply N.eqb_refl].
    - apply on_reads, (reads_cls g _ (fun d => N.eqb c d)). intros d. cbn. rewrite orb_false_r. unfold in_range. destruct (N.leb_spec c d), (N.leb_spec d c), (N.eqb_spec c d); cbn; auto; subst; lia. }
  induction t as [|c [|c2 t] IH].
  - apply (on_weak g Eps (text (fun w => w = []))); [intros a w b fs; reflexivity|]. apply on_reads, reads_text. intros a w b d. reflexivity.
  - apply L.
  - change (re_lits noflags (c :: c2 :: t)) with (Cat (RegexParse.lit noflags c) (re_lits noflags (c2 :: t))). eapply on_weak; [|apply on_cat; [apply L|exact IH]]. intros a w b fs. unfold text, NumGrammar.seq. split.
    + intros (u & v & f1 & f2 & -> & -> & (-> & ->) & (-> & ->)). auto.
    + intros (-> & ->). exists [c], (c2 :: t), [], []. auto.
Qed.
Lemma on_char g c : reads_on g (Cls (mkcls false false [CRange c c])) (one (some_of [c])).
Proof.
  apply on_reads, reads_cls. intros d. cbn. rewrite !orb_false_r. unfold in_range. destruct (N.leb_spec c d), (N.leb_spec d c), (N.eqb_spec d c); cbn; auto; subst; lia.
Qed.
Lemma footer_iff t l : is_footer t l = true <-> begins (title_again t) l.
Proof.
  unfold is_footer. set (g := mark_no re_footer_pre). assert (reads_on g (footer_re t) (title_again t)) as Rd.
  { unfold footer_re, title_again. apply on_cat; [cbv [rx_re re_footer_pre]; unfold number_again; ci_tree; apply on_char|]. apply on_cat; [apply on_exact|]. cbv [rx_re re_footer_post]. apply on_cat; [ci_tree|]. apply on_reads, reads_eos. }
  assert (fair (footer_re t) = true) as F by (unfold footer_re; cbn [fair]; now rewrite exact_fair).
  pose proof (on_match _ _ _ l F (inj_of g eq_refl) Rd) as M. destruct (re_match (footer_re t) l) as [o|].
  - destruct M as (w & b & fs & E & P & _). split; auto. intros _. exists w, b, fs. auto.
  - split; [discriminate|]. intros H. now elim M.
Qed.
