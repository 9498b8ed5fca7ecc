(** Proofs about whole lines and lists of lines (Engine.v). *)
From Coq Require Import List Arith NArith Bool Lia String Permutation.
From Verif Require Import PyStr ListFacts Elements Record Regex Patterns Transform Split Post ParseTagged DocText
  Tag Find RefText Engine RecordProofs SplitProofs PostProofs.
Import ListNotations.
Local Open Scope nat_scope.
Local Notation length := List.length.
Local Notation concat := List.concat.
Local Arguments key_eqb : simpl never.
Local Arguments ety_eqb : simpl never.
Local Arguments fkey_eqb : simpl never.

(** ** Neither the tagged line parser nor the transformations create YEAR or RECID elements *)
Definition basic (e : el) : Prop := e_type e <> YEAR /\ e_type e <> RECID.
Ltac basic := split; cbn; discriminate.

Lemma tag_step_basic s o s' : tag_step s o = Ok s' -> Forall basic (ps_els s) -> Forall basic (ps_els s').
Proof.
  unfold tag_step. intros H F.
  assert (forall e, basic e -> Forall basic (ps_els s ++ [e])) as A.
  { intros e B. apply Forall_app. split; auto. }
  repeat match type of H with (if ?b then _ else _) = _ => destruct b end; try discriminate.
  all: unfold journal_step, report_step, url_step, doi_step, auth_step, misc_step, subfield_step, map_tag_to_subfield in H.
  all: repeat match type of H with
       | context [match find_from ?a ?b ?c with _ => _ end] => destruct (find_from a b c)
       | context [match find_sub ?a ?b with _ => _ end] => destruct (find_sub a b)
       | context [match re_search ?a ?b with _ => _ end] => destruct (re_search a b)
       | context [match ps_urls ?b with _ => _ end] => destruct (ps_urls b) as [|[]]
       | context [match ps_dois ?b with _ => _ end] => destruct (ps_dois b)
       | bind _ _ = Ok _ => inv_ok H
       | (let (_, _) := ?p in _) = Ok _ => destruct p
       end; try discriminate; try (inversion H; subst; clear H; cbn [ps_els]; rewrite ?app_nil_r; auto; apply A; basic).
  all: try (destruct (convert_unusable_tag_to_misc _ _ _ _); inversion H; subst; auto).
Qed.
Lemma tag_loop_basic : forall fuel s s', tag_loop fuel s = Ok s' -> Forall basic (ps_els s) -> Forall basic (ps_els s').
Proof.
  induction fuel as [|f IH]; cbn; intros s s' H F; destruct (re_search _ _); try discriminate; try (inversion H; subst; auto).
  inv_ok H. eapply IH; eauto. eapply tag_step_basic; eauto.
Qed.
Lemma parse_tagged_basic line dois urls els c :
  parse_tagged_reference_line line dois urls = Ok (els, c) -> Forall basic els.
Proof.
  unfold parse_tagged_reference_line. intros H. inv_ok H. apply tag_loop_basic in E; [|constructor].
  destruct (nonempty _); inversion H; subst; auto. apply Forall_app. split; auto. constructor; auto. basic.
Qed.

(** ** A transformation applied to each element *)
Lemma mapM_Forall {A B} (P : A -> Prop) (Q : B -> Prop) (f : A -> res B) l l' :
  (forall a b, P a -> f a = Ok b -> Q b) -> mapM f l = Ok l' -> Forall P l -> Forall Q l'.
Proof. intros H M. apply mapM_ok in M. induction M; intros F; inversion F; subst; constructor; eauto. Qed.
Ltac crunch H :=
  repeat match type of H with
  | (if ?b then _ else _) = Ok _ => destruct b
  | bind _ _ = Ok _ => inv_ok H
  | match ?x with _ => _ end = Ok _ => destruct x
  | (let (_, _) := ?p in _) = Ok _ => destruct p
  | Ok _ = Ok _ => injection H as <-
  | Err _ = Ok _ => discriminate
  end.
Ltac crunch_all :=
  repeat match goal with
  | H : (if ?b then _ else _) = Ok _ |- _ => destruct b
  | H : bind _ _ = Ok _ |- _ => inv_ok H
  | H : Ok _ = Ok _ |- _ => injection H as <-
  | H : Err _ = Ok _ |- _ => discriminate
  end.
Lemma split_volume_el_basic e e' : basic e -> split_volume_el e = Ok e' -> basic e'.
Proof. unfold split_volume_el. intros B H. crunch H; auto. Qed.
Lemma format_volume_el_basic e e' : basic e -> format_volume_el e = Ok e' -> basic e'.
Proof. unfold format_volume_el. intros B H. crunch H; auto. Qed.
Lemma special_el_basic sp e e' : basic e -> handle_special_journals_el sp e = Ok e' -> basic e'.
Proof.
  unfold handle_special_journals_el. intros B H. crunch_all; first [exact B|split; cbn; discriminate].
Qed.
Lemma report_el_basic e e' : basic e -> format_report_number_el e = Ok e' -> basic e'.
Proof. unfold format_report_number_el. intros B H. crunch H; auto. Qed.
Lemma hep_el_basic e e' : basic e -> format_hep_el e = Ok e' -> basic e'.
Proof. unfold format_hep_el. intros B H. crunch H; auto. Qed.
Lemma author_el_basic e e' : basic e -> format_author_ed_el e = Ok e' -> basic e'.
Proof. unfold format_author_ed_el. intros B H. crunch H; auto. Qed.
Lemma remove_b_el_basic e e' : basic e -> remove_b_el e = Ok e' -> basic e'.
Proof. unfold remove_b_el. intros B H. crunch H; auto. Qed.
Lemma mangle_el_basic e e' : basic e -> mangle_volume_el e = Ok e' -> basic e'.
Proof. unfold mangle_volume_el. intros B H. crunch H; auto. Qed.
Lemma arxiv_el_basic e e' : basic e -> arxiv_url_el e = Ok e' -> basic e'.
Proof. unfold arxiv_url_el. intros B H. crunch H; auto; basic. Qed.
Lemma hdl_el_basic e e' : basic e -> hdl_url_el e = Ok e' -> basic e'.
Proof. unfold hdl_url_el. intros B H. crunch H; auto; basic. Qed.
Lemma remove_first_in x l y : In y (remove_first x l) -> In y l.
Proof. induction l as [|z l IH]; cbn; auto. destruct (el_eqb x z); cbn; auto. intros [->|]; auto. Qed.
Lemma books_basic books l l' : look_for_books books l = Ok l' -> Forall basic l -> Forall basic l'.
Proof.
  unfold look_for_books. intros H F. crunch H; auto. apply Forall_forall. intros y Hy.
  apply remove_first_in, in_app_iff in Hy as [Hy|[<-|[]]]; [rewrite Forall_forall in F; auto|basic].
Qed.
Lemma update_at_Forall {A} (P : A -> Prop) f : (forall a, P a -> P (f a)) -> forall l i, Forall P l -> Forall P (update_at i f l).
Proof. intros Hf. induction l as [|x l IH]; intros [|i] F; cbn; auto; inversion F; subst; constructor; auto. Qed.
Lemma insert_at_Forall {A} (P : A -> Prop) i x l : P x -> Forall P l -> Forall P (insert_at i x l).
Proof.
  intros Hx F. unfold insert_at. rewrite <- (firstn_skipn i l) in F. apply Forall_app in F as [F1 F2].
  apply Forall_app. auto.
Qed.
Lemma hdl_insert_basic st o : Forall basic (fst st) -> Forall basic (fst (hdl_insert st o)).
Proof.
  destruct st as [l p]. unfold hdl_insert. cbn [fst]. intros F. destruct (nth_error l p) as [e|] eqn:N; auto. cbn [fst].
  apply insert_at_Forall; [basic|]. apply update_at_Forall; auto. intros _ _. apply nth_error_In in N.
  rewrite Forall_forall in F. destruct (F _ N). split; auto.
Qed.
Lemma look_for_hdl_basic l : Forall basic l -> Forall basic (look_for_hdl l).
Proof.
  unfold look_for_hdl. generalize 0. generalize (length l) at 1. intros todo. revert l.
  induction todo as [|t IH]; cbn; intros l p F; auto. destruct (nth_error l p); auto.
  match goal with |- context [fold_left hdl_insert ?ms ?x] => generalize ms; intros ms' end.
  assert (forall ms st, Forall basic (fst st) -> Forall basic (fst (fold_left hdl_insert ms st))) as G.
  { induction ms as [|o ms IHm]; cbn; auto. intros st Fs. apply IHm. now apply hdl_insert_basic. }
  specialize (G ms' (l, p) F). destruct (fold_left hdl_insert ms' (l, p)) as [l' p']. now apply IH.
Qed.
Lemma transform_basic K l l' : transform K l = Ok l' -> Forall basic l -> Forall basic l'.
Proof.
  unfold transform. intros H F. repeat (inv_ok H).
  unfold split_volume_from_journal, format_volume, handle_special_journals, format_report_number, format_author_ed,
    format_hep, remove_b_for_nucl_phys, mangle_volume, arxiv_urls_to_report_numbers, look_for_hdl_urls in *.
  eapply mapM_Forall; [apply hdl_el_basic|exact H|]. apply look_for_hdl_basic.
  eapply mapM_Forall; [apply arxiv_el_basic|exact E8|].
  eapply mapM_Forall; [apply mangle_el_basic|exact E7|].
  eapply mapM_Forall; [apply remove_b_el_basic|exact E6|].
  eapply mapM_Forall; [apply hep_el_basic|exact E5|].
  eapply books_basic; [exact E4|].
  eapply mapM_Forall; [apply author_el_basic|exact E3|].
  eapply mapM_Forall; [apply report_el_basic|exact E2|].
  eapply mapM_Forall; [apply special_el_basic|exact E1|].
  eapply mapM_Forall; [apply format_volume_el_basic|exact E0|].
  eapply mapM_Forall; [apply split_volume_el_basic|exact E|]. auto.
Qed.
Lemma associate_basic cb : forall l n l' n', associate_recids cb n l = Ok (l', n') -> Forall basic l -> Forall basic l'.
Proof.
  induction l as [|e l IH]; cbn; intros n l' n' H F; [inversion H; auto|].
  inv_ok H. inv_ok H. destruct a0. inversion H; subst. inversion F; subst. constructor; eauto.
  apply associate_one_type in E. unfold basic. now rewrite E.
Qed.

(** ** Citations of a line *)
Lemma cut_of_basic e x : basic e -> In x (cut_of e) -> basic x.
Proof.
  unfold cut_of. intros B H.
  repeat match type of H with
  | context [match ?x with _ => _ end] => destruct x
  end; cbn in H; intuition (subst; auto); try (split; cbn; discriminate).
Qed.
Lemma split_basic els h cs : Forall basic els -> split_citations els = (h, cs) ->
  Forall (fun c => no_ty YEAR (tys h c) /\ no_ty RECID (tys h c)) cs.
Proof.
  intros F H. apply Forall_forall. intros c Hc.
  assert (forall a, In a c -> basic (deref h a)) as B.
  { intros a Ha. destruct (citations_from_line els (map (deref h) c) (deref h a)) as (e0 & I0 & I1).
    - unfold citations. rewrite H. now apply in_map.
    - now apply in_map.
    - rewrite Forall_forall in F. eapply cut_of_basic; eauto. }
  assert (forall t, t = YEAR \/ t = RECID -> no_ty t (tys h c)) as G; [|split; apply G; auto].
  intros t Ht. unfold no_ty, tys. clear - B Ht. induction c as [|a c IH]; auto. cbn [map]. rewrite count_ty_hd, IH.
  - destruct (ety_eqb_spec (e_type (deref h a)) t) as [E|]; auto. destruct (B a (or_introl eq_refl)). destruct Ht; congruence.
  - intros. apply B. now right.
Qed.
Lemma cite_spec K cb n els cits n' : Forall basic els -> cite K cb n els = Ok (cits, n') ->
  cits <> [] /\ Forall tidy cits.
Proof.
  unfold cite. intros B H. inv_ok H. apply transform_basic in E; auto. inv_ok H. destruct a0 as [els' n1].
  assert (Forall basic els') as B'.
  { destruct cb; [eapply associate_basic; eauto|inversion E0; subst; auto]. }
  inv_ok H. destruct a0 as [st n2]. inversion H; subst.
  destruct (split_citations els') as [h cs] eqn:Es.
  pose proof (split_closed _ _ _ Es) as [Ne Cl].
  apply post_split_tidy in E1 as [L T].
  - split; auto. intros X. rewrite X in L. cbn in L. destruct cs; auto. discriminate.
  - cbn. apply Forall_forall. intros c Hc. apply Forall_forall. intros a0 Ha. now apply (Cl c).
  - cbn. eapply split_basic; eauto.
Qed.

(** ** The output fields that come from elements of one type *)
Definition flist (k : fkey) (r : ref) : list str := match fget k r with Some l => l | None => [] end.
Definition single (s : str) : list str := if nonempty s then [s] else [].
Definition text_of (k : key) (e : el) : str := match get k e with Some (VS s) => s | _ => [] end.
(** what an element adds to the fields year, author, doi, collaboration and recid *)
Definition contribution (k : fkey) (e : el) : list str :=
  match k, e_type e with
  | Fyear, YEAR => single (text_of Kyear e)
  | Fauthor, AUTH => single (if eqs (text_of Kauth_type e) (py "incl") then py "(" ++ text_of Kauth_txt e ++ py ")" else text_of Kauth_txt e)
  | Fdoi, DOI => single (py "doi:" ++ text_of Kdoi_string e)
  | Fcollaboration, COLLABORATION => single (text_of Kcollaboration e)
  | Frecid, RECID => match get Krecid e with Some v => match str_of_val v with Ok s => single s | Err _ => [] end | None => [] end
  | _, _ => []
  end.
Definition one_type (k : fkey) : bool :=
  match k with Fyear | Fauthor | Fdoi | Fcollaboration | Frecid => true | _ => false end.
Lemma flist_add k k' v r : flist k (add_subfield r k' v) = flist k r ++ (if fkey_eqb k k' then single v else []).
Proof.
  unfold flist. rewrite fget_add_subfield. unfold single. destruct (fkey_eqb k k'), (nonempty v); cbn; rewrite ?app_nil_r; auto.
Qed.
Lemma flist_add_other k k' v r : k <> k' -> flist k (add_subfield r k' v) = flist k r.
Proof. intros H. rewrite flist_add. destruct (fkey_eqb_spec k k'); [congruence|apply app_nil_r]. Qed.
Lemma flist_add_opt_other k k' v r : k <> k' -> flist k (add_subfield_opt r k' v) = flist k r.
Proof. intros H. destruct v as [[]|]; cbn; auto. now apply flist_add_other. Qed.
Lemma get_str_text k e v : get_str k e = Ok v -> text_of k e = v.
Proof. unfold get_str, text_of. destruct (get k e) as [[]|]; intros H; inversion H; auto. Qed.
Lemma add_element_flist k f r e r' : one_type k = true -> add_element f r e = Ok r' ->
  flist k r' = flist k r ++ contribution k e.
Proof.
  intros K H. unfold add_element in H. set (r1 := if nonempty _ then _ else r) in H.
  assert (flist k r1 = flist k r) as C1.
  { unfold r1. destruct (nonempty _); auto. apply flist_add_other. intros ->. discriminate. }
  rewrite <- C1. clearbody r1. clear C1 r. unfold contribution.
  assert (forall k', one_type k' = false -> k <> k') as Ne by (intros k' X ->; congruence).
  destruct (e_type e); unfold add_journal_subfield in H; crunch_all;
    try (destruct (get Krecid e) eqn:G; [inv_ok H|discriminate]); try (injection H as <-);
    repeat match goal with G : get_str _ e = Ok _ |- _ => apply get_str_text in G; rewrite ?G end;
    repeat first [rewrite (flist_add_other k) by (apply Ne; reflexivity) | rewrite (flist_add_opt_other k) by (apply Ne; reflexivity)];
    try (destruct k; rewrite ?app_nil_r; reflexivity).
  all: try (rewrite flist_add; destruct k; try discriminate K; cbn; rewrite ?app_nil_r; auto; fail).
  rewrite flist_add. destruct k; try discriminate K; try (cbn; rewrite ?app_nil_r; auto; fail).
  now rewrite E.
Qed.
Lemma add_elements_flist k f : one_type k = true -> forall l r r', add_elements f r l = Ok r' ->
  flist k r' = flist k r ++ flat_map (contribution k) l.
Proof.
  intros K. induction l as [|e l IH]; cbn; intros r r' H; [inversion H; now rewrite app_nil_r|].
  inv_ok H. rewrite (IH _ _ H), (add_element_flist k f r e a K E). now rewrite app_assoc.
Qed.
Lemma build_reference_fields_flist k l m raw f r : one_type k = true ->
  build_reference_fields l m raw f = Ok [r] -> flist k r = flat_map (contribution k) l.
Proof.
  intros K H. unfold build_reference_fields in H. inv_ok H. inversion H; subst.
  rewrite (add_elements_flist k f K _ _ _ E). unfold flist. rewrite fget_fset.
  destruct (fkey_eqb_spec k Fraw_ref); [subst; discriminate|].
  unfold create_reference_field. destruct (nonempty _); [|auto]. rewrite fget_add_subfield.
  destruct (fkey_eqb_spec k Flinemarker); [subst; discriminate|auto].
Qed.

Lemma count_le {A} (f : el -> list A) t : (forall e, length (f e) <= if ety_eqb (e_type e) t then 1 else 0) ->
  forall l, length (flat_map f l) <= count_ty t (ty_of l).
Proof.
  intros H. induction l as [|e l IH]; cbn [flat_map]; [apply le_n|]. rewrite app_length, count_ty_cons. specialize (H e). lia.
Qed.
Lemma single_length s : length (single s) <= 1.
Proof. unfold single. destruct (nonempty s); cbn; lia. Qed.
Definition at_most_one (k : fkey) (r : ref) : Prop := length (flist k r) <= 1.
Definition tidy_ref (r : ref) : Prop :=
  at_most_one Fyear r /\ at_most_one Frecid r /\ at_most_one Fauthor r /\ at_most_one Fdoi r
  /\ NoDup (flist Fcollaboration r).
Lemma tidy_fields l m raw f r : tidy l -> build_reference_fields l m raw f = Ok [r] -> tidy_ref r.
Proof.
  intros (T1 & T2 & T3 & T4 & T5) H.
  assert (forall k, one_type k = true -> flist k r = flat_map (contribution k) l) as F
    by (intros; eapply build_reference_fields_flist; eauto).
  unfold tidy_ref, at_most_one. rewrite !F by reflexivity.
  assert (forall k t n, count_ty t (ty_of l) <= n ->
     (forall e, length (contribution k e) <= if ety_eqb (e_type e) t then 1 else 0) ->
     length (flat_map (contribution k) l) <= n) as G.
  { intros k t n Hn He. pose proof (count_le _ _ He l). lia. }
  split; [|split; [|split; [|split]]].
  - apply (G _ YEAR); auto. intros e. unfold contribution. destruct (e_type e); cbn; auto. apply single_length.
  - apply (G _ RECID); auto. intros e. unfold contribution. destruct (e_type e); cbn; auto.
    destruct (get Krecid e); [|apply Nat.le_0_l]. destruct (str_of_val _); [apply single_length|apply Nat.le_0_l].
  - apply (G _ AUTH); auto. intros e. unfold contribution. destruct (e_type e); cbn; auto. apply single_length.
  - apply (G _ DOI); auto. intros e. unfold contribution. destruct (e_type e); cbn; auto; apply single_length.
  - clear - T5. revert T5. unfold collab_names.
    assert (forall s e, In s (contribution Fcollaboration e) -> In s (collab_names [e])) as Sub.
    { intros s e. unfold contribution, collab_names. cbn [flat_map]. rewrite app_nil_r. unfold is_type.
      destruct (e_type e); cbn; auto. unfold get_str, text_of. destruct (get Kcollaboration e) as [[]|]; cbn; auto.
      unfold single. destruct (nonempty s0); cbn; auto; contradiction. }
    fold (collab_names l). induction l as [|e l IH]; cbn [flat_map]; [constructor|].
    intros N. change (collab_names (e :: l)) with (collab_names ([e] ++ l)) in N. rewrite collab_names_app in N.
    assert (NoDup (collab_names l) /\ (forall s, In s (collab_names [e]) -> In s (collab_names l) -> False)) as [N2 Dj].
    { clear - N. induction (collab_names [e]) as [|x xs IHx]; cbn in *; [auto|]. inversion N; subst. destruct (IHx H2) as [A B].
      split; auto. intros s [->|I] J; [apply H1, in_app_iff; auto|eapply B; eauto]. }
    specialize (IH N2). unfold contribution at 1. destruct (e_type e) eqn:T; cbn [List.app]; auto.
    unfold single. destruct (nonempty (text_of Kcollaboration e)) eqn:Ne; cbn [List.app]; auto. constructor; auto.
    intros I. apply in_flat_map in I as (e' & I' & Hs). apply Sub in Hs.
    apply (Dj (text_of Kcollaboration e)).
    + apply Sub. unfold contribution. rewrite T. unfold single. rewrite Ne. now left.
    + unfold collab_names. apply in_flat_map. exists e'. split; auto.
      unfold collab_names in Hs. cbn [flat_map] in Hs. now rewrite app_nil_r in Hs.
Qed.

(** ** Lists of lines *)
Definition good_line (raw : str) (p : processed) : Prop :=
  p_raw p = raw /\ p_elements p <> [] /\ Forall tidy (p_elements p).
Lemma parse_reference_line_good E x cb line cits m c x' :
  parse_reference_line E x cb line = Ok (cits, m, c, x') -> cits <> [] /\ Forall tidy cits.
Proof.
  unfold parse_reference_line. intros H. inv_ok H. destruct a as [mk l].
  destruct (identify_and_tag_DOI E l) as [l1 dois]. destruct (identify_and_tag_URLs l1) as [l2 urls].
  inv_ok H. destruct a as [[tg ti] sd]. inv_ok H. destruct a as [els cnt]. inv_ok H. destruct a as [ci n].
  inversion H; subst. apply parse_tagged_basic in E2. eapply cite_spec; eauto.
Qed.
Lemma parse_lines_good E cb : forall lines x cnt ps cnt' x', parse_lines E x cb cnt lines = Ok (ps, cnt', x') ->
  Forall2 good_line lines ps.
Proof.
  induction lines as [|raw t IH]; cbn; intros x cnt ps cnt' x' H; [inversion H; constructor|].
  inv_ok H. destruct a as [[[cits m] c] x1]. inv_ok H. inv_ok H. destruct a0 as [[ps1 c1] x2]. inversion H; subst.
  constructor; eauto. apply parse_reference_line_good in E0. split; auto.
Qed.
Definition block_of (raw : str) (b : list ref) : Prop :=
  b <> [] /\ Forall (fun r => fget Fraw_ref r = Some [raw] /\ clean_ref r /\ tidy_ref r) b.
Lemma build_line_tidy f p rs : Forall tidy (p_elements p) -> build_line f p = Ok rs -> Forall tidy_ref rs.
Proof.
  unfold build_line. intros T H. inv_ok H. inversion H; subst; clear H. apply mapM_ok in E.
  induction E as [|els rs l a H F IH]; cbn; auto. inversion T; subst. specialize (IH H3).
  destruct (build_reference_fields_raw _ _ _ _ _ H) as (r & -> & _). cbn. constructor; auto. eapply tidy_fields; eauto.
Qed.
Lemma parse_references_blocks E K cb f lines refs stats :
  parse_references E K cb f lines = Ok (refs, stats) ->
  exists blocks, refs = concat blocks /\ Forall2 block_of lines blocks.
Proof.
  unfold parse_references. intros H. inv_ok H. destruct a as [[ps cnt] x]. inv_ok H. inv_ok H. inversion H; subst.
  unfold parse_references_elements in E0. apply parse_lines_good in E0.
  apply build_references_spec in E1 as (blocks & -> & F). exists blocks. split; auto.
  clear - E0 F. revert blocks F. induction E0 as [|raw p lines ps (G1 & G2 & G3) E0 IH]; intros blocks F; inversion F; subst; constructor; auto.
  pose proof (build_line_tidy _ _ _ G3 H1) as T. apply build_line_spec in H1 as (L & C & R). split.
  - intros ->. cbn in L. destruct (p_elements p); auto. discriminate.
  - rewrite Forall_forall in *. intros r Hr. split; [|split]; auto.
Qed.
