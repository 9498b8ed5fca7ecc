(** The year and the recid of a citation (Post.v). *)
From Coq Require Import List Arith NArith Bool Lia Permutation.
From Verif Require Import PyStr ListFacts Elements Record Regex RegexParse Patterns Numeration Transform Split Post ParseTagged
  Tag Engine RegexMeta RecordProofs SplitProofs PostProofs EngineProofs.
Import ListNotations.
Local Open Scope nat_scope.
Local Arguments key_eqb : simpl never.
Local Arguments ety_eqb : simpl never.
Local Arguments fkey_eqb : simpl never.

(** ** Specification of the year of a list of elements *)
(** the elements whose year decides *)
Definition has_year_field (e : el) : Prop := e_type e = JOURNAL \/ (e_type e = BOOK /\ get Kyear e <> None).
Definition first_dated (l : list el) (e : el) : Prop :=
  exists l1 l2, l = l1 ++ e :: l2 /\ has_year_field e /\ Forall (fun x => ~ has_year_field x) l1.
(** the first year in a misc text *)
Definition year_in (e : el) (y : str) : Prop :=
  exists o, re_search (rx_re re_year_in_misc_txt) (e_misc e) = Some o /\ y = slice (m_start o) (m_end o) (e_misc e).
Definition no_year_in (e : el) : Prop := re_search (rx_re re_year_in_misc_txt) (e_misc e) = None.
Inductive chosen_year (l : list el) : list str -> Prop :=
| year_of_journal e y : first_dated l e -> get Kyear e = Some (VS y) -> y <> [] -> chosen_year l [y]
| year_of_misc l1 e l2 y : (forall j, first_dated l j -> get Kyear j = Some (VS []) \/ get Kyear j = Some VNone) ->
    l = l1 ++ e :: l2 -> year_in e y -> y <> [] -> Forall no_year_in l2 -> chosen_year l [y]
| year_none : (forall j, first_dated l j -> get Kyear j = Some (VS []) \/ get Kyear j = Some VNone) ->
    Forall no_year_in l -> chosen_year l [].

Lemma has_year_field_b e : (is_type JOURNAL e || (is_type BOOK e && match get Kyear e with Some _ => true | None => false end)) = true <-> has_year_field e.
Proof.
  unfold has_year_field. rewrite orb_true_iff, andb_true_iff, !is_type_true. destruct (get Kyear e); intuition congruence.
Qed.
Lemma first_dated_cons_no x l e : ~ has_year_field x -> (first_dated (x :: l) e <-> first_dated l e).
Proof.
  intros N. split.
  - intros (l1 & l2 & E & H & F). destruct l1 as [|z l1]; inversion E; subst; [contradiction|]. inversion F; subst. exists l1, l2. auto.
  - intros (l1 & l2 & -> & H & F). exists (x :: l1), l2. auto.
Qed.
Lemma first_dated_cons_yes x l e : has_year_field x -> (first_dated (x :: l) e <-> e = x).
Proof.
  intros N. split.
  - intros (l1 & l2 & E & H & F). destruct l1 as [|z l1]; inversion E; subst; auto. inversion F; subst. contradiction.
  - intros ->. exists [], l. auto.
Qed.
Lemma journal_year_spec l : match journal_year l with
  | Ok (Some y) => exists e, first_dated l e /\ get Kyear e = Some (VS y)
  | Ok None => forall j, first_dated l j -> get Kyear j = Some VNone
  | Err _ => True
  end.
Proof.
  induction l as [|x l IH]; cbn [journal_year].
  - intros j (l1 & l2 & E & _). now destruct l1.
  - destruct (_ || _) eqn:B.
    + apply has_year_field_b in B. destruct (get Kyear x) as [[]|] eqn:G; auto.
      * exists x. split; auto. now apply first_dated_cons_yes.
      * intros j Hj. apply first_dated_cons_yes in Hj; auto. now subst.
    + assert (~ has_year_field x) as N by (intros Q; apply has_year_field_b in Q; congruence).
      destruct (journal_year l) as [[y|]|]; auto.
      * destruct IH as (e & F & G). exists e. split; auto. now apply first_dated_cons_no.
      * intros j Hj. apply first_dated_cons_no in Hj; auto.
Qed.
Lemma first_dated_unique l a b : first_dated l a -> first_dated l b -> a = b.
Proof.
  intros (l1 & l2 & -> & H & F). induction l1 as [|x l1 IH]; cbn [app]; intros Hb.
  - apply first_dated_cons_yes in Hb; auto.
  - inversion F; subst. apply first_dated_cons_no in Hb; auto.
Qed.
Lemma misc_year_spec : forall l acc,
  (exists l1 e l2 y, l = l1 ++ e :: l2 /\ year_in e y /\ Forall no_year_in l2 /\ misc_year acc l = Some y)
  \/ (Forall no_year_in l /\ misc_year acc l = acc).
Proof.
  induction l as [|x l IH]; cbn [misc_year]; intros acc; [right; auto|].
  destruct (re_search (rx_re re_year_in_misc_txt) (e_misc x)) as [o|] eqn:S.
  - destruct (IH (Some (slice (m_start o) (m_end o) (e_misc x)))) as [(l1 & e & l2 & y & -> & Y & N & M)|[N M]].
    + left. exists (x :: l1), e, l2, y. auto.
    + left. exists [], x, l, (slice (m_start o) (m_end o) (e_misc x)). repeat split; auto. exists o. auto.
  - destruct (IH acc) as [(l1 & e & l2 & y & -> & Y & N & M)|[N M]].
    + left. exists (x :: l1), e, l2, y. auto.
    + right. split; auto.
Qed.
Definition olist (o : option str) : list str := match o with Some (c :: t) => [c :: t] | _ => [] end.
(** a year found in a misc text has at least four characters *)
Lemma obj_minlen s r o : obj_ok s r o -> m_start o + minlen r <= m_end o.
Proof. intros (x & x' & Hx & Hx' & M & -> & -> & _). eapply mt_minlen; eauto. Qed.
Lemma year_in_length e y : year_in e y -> 4 <= length y.
Proof.
  intros (o & S & ->). apply re_search_ok in S. pose proof (obj_bounds _ _ _ S) as [B1 B2].
  apply obj_minlen in S. rewrite slice_length by auto.
  assert (minlen (rx_re re_year_in_misc_txt) = 4) as M by (vm_compute; reflexivity). rewrite M in S. lia.
Qed.
Lemma find_year_spec l y : find_year l = Ok y -> chosen_year l (olist y).
Proof.
  unfold find_year. intros H. inv_ok H. pose proof (journal_year_spec l) as J. rewrite E in J.
  assert (forall acc, acc = Some [] \/ acc = None ->
    (forall j, first_dated l j -> get Kyear j = Some (VS []) \/ get Kyear j = Some VNone) ->
    chosen_year l (olist (misc_year acc l))) as G.
  { intros acc Ha Q. destruct (misc_year_spec l acc) as [(l1 & x & l2 & y0 & El & Y & N & M)|[N M]]; rewrite M.
    - pose proof (year_in_length _ _ Y). destruct y0 as [|c t]; [cbn in *; lia|].
      cbn. eapply year_of_misc; eauto. discriminate.
    - destruct Ha as [->| ->]; cbn; now apply year_none. }
  destruct a as [[|c t]|]; cbn in H; inversion H; subst; clear H; cbn in J.
  - destruct J as (e & F & Gk). apply G; auto. intros j Hj. rewrite (first_dated_unique l j e Hj F). auto.
  - destruct J as (e & F & Gk). eapply year_of_journal; eauto. discriminate.
  - apply G; auto.
Qed.

(** ** The loop over the citations *)
(** the part of an element that [drop_year] does not touch *)
Definition bare (e : el) : ety * dict := (e_type e, e_dict e).
Lemma bare_misc s e : bare (set_misc s e) = bare e. Proof. reflexivity. Qed.
Lemma drop_year_bare y e : bare (drop_year y e) = bare e.
Proof. unfold drop_year. now destruct (contains _ _). Qed.
Lemma fold_drop_bare y : forall c h a, bare (deref (fold_left (fun h a => store h a (drop_year y)) c h) a) = bare (deref h a).
Proof.
  induction c as [|b c IH]; cbn [fold_left In]; intros h a; auto. rewrite IH. destruct (Nat.eq_dec b a) as [->|N].
  - destruct (Nat.lt_ge_cases a (length h)).
    + rewrite deref_store_same by auto. apply drop_year_bare.
    + unfold deref, store. rewrite !nth_overflow; auto. now rewrite update_at_length.
  - now rewrite deref_store_other.
Qed.
Lemma fold_drop_other y : forall c h a, ~ In a c -> deref (fold_left (fun h a => store h a (drop_year y)) c h) a = deref h a.
Proof.
  induction c as [|b c IH]; cbn [fold_left In]; intros h a Ha; auto. rewrite IH by tauto. apply deref_store_other. intros ->. tauto.
Qed.
Lemma fold_drop_length y : forall c h, length (fold_left (fun h a => store h a (drop_year y)) c h) = length h.
Proof. induction c as [|b c IH]; cbn [fold_left In]; intros h; auto. rewrite IH. apply store_length. Qed.

(** what one pass over a citation does *)
Lemma add_year_one_values h c h' c' : closed h c -> add_year_one h c = Ok (h', c') ->
  exists ys, chosen_year (map (deref h) c) ys
  /\ map (fun a => bare (deref h' a)) c' = map (fun a => bare (deref h a)) c ++ map (fun y => bare (year_el y)) ys
  /\ (exists new, c' = c ++ new /\ Forall (fun a => length h <= a) new)
  /\ length h <= length h'
  /\ (forall a, a < length h -> bare (deref h' a) = bare (deref h a))
  /\ (forall a, a < length h -> ~ In a c -> deref h' a = deref h a).
Proof.
  intros C H. unfold add_year_one in H. inv_ok H. apply find_year_spec in E.
  destruct a as [[|y0 y]|]; cbn in H; inversion H; subst; clear H.
  1, 3: exists []; cbn; rewrite app_nil_r; repeat split; auto; exists []; now rewrite app_nil_r.
  exists [y0 :: y]. split; [exact E|].
  assert (forall a, bare (deref (store (fold_left (fun h a => store h a (drop_year (y0 :: y))) c (h ++ [year_el (y0 :: y)]))
     (length h) (drop_year (y0 :: y))) a) = bare (deref (h ++ [year_el (y0 :: y)]) a)) as B.
  { intros a. rewrite <- (fold_drop_bare (y0 :: y) (c ++ [length h]) (h ++ [year_el (y0 :: y)]) a). now rewrite fold_left_app. }
  rewrite fold_left_app. cbn [fold_left].
  split; [|split; [|split; [|split]]].
  - rewrite map_app. cbn [map]. f_equal.
    + apply map_ext_in. intros a Ha. rewrite B. unfold closed in C. rewrite Forall_forall in C. now rewrite deref_alloc_old by auto.
    + rewrite B. now rewrite deref_alloc_new.
  - exists [length h]. auto.
  - rewrite store_length, fold_drop_length, app_length. lia.
  - intros a Ha. rewrite B. now rewrite deref_alloc_old.
  - intros a Ha N. rewrite deref_store_other by lia. rewrite fold_drop_other by auto. now apply deref_alloc_old.
Qed.

(** [h1] is the heap when the i-th citation is treated: it differs from the heap at the
    start only in the misc texts of elements shared with earlier citations. *)
Lemma add_years_spec : forall cs h h' cs', Forall (closed h) cs -> each add_year_one h cs = Ok (h', cs') ->
  length cs' = length cs /\
  (forall a, a < length h -> bare (deref h' a) = bare (deref h a)) /\ length h <= length h' /\ Forall (closed h') cs' /\
  forall i c, nth_error cs i = Some c -> exists c' h1 ys, nth_error cs' i = Some c'
    /\ (forall a, a < length h -> bare (deref h1 a) = bare (deref h a) /\ (~ In a (concat (firstn i cs)) -> deref h1 a = deref h a))
    /\ chosen_year (map (deref h1) c) ys
    /\ map (fun a => bare (deref h' a)) c' = map (fun a => bare (deref h a)) c ++ map (fun y => bare (year_el y)) ys.
Proof.
  induction cs as [|c cs IH]; cbn [each]; intros h h' cs' C H.
  - inversion H; subst. repeat split; auto. intros [|i] c E; discriminate.
  - inv_ok H. destruct a as [h1 c1]. cbn in H. inv_ok H. destruct a as [h2 t2]. cbn in H. inversion H; subst; clear H.
    inversion C; subst.
    pose proof (add_year_one_spec _ _ _ _ H1 E) as (_ & Cl1 & _).
    destruct (add_year_one_values _ _ _ _ H1 E) as (ys & Y & B & (new & -> & New) & L & S1 & S2).
    assert (Forall (closed h1) cs) as C1.
    { eapply Forall_impl; [|eassumption]. unfold closed. intros c0 F. eapply Forall_impl; [|exact F]. cbn. lia. }
    destruct (IH _ _ _ C1 E0) as (I0 & I1 & I2 & I3 & I4).
    assert (forall a, a < length h -> bare (deref h' a) = bare (deref h a)) as Bh by (intros; rewrite I1 by lia; auto).
    split; [cbn; lia|]. split; auto. split; [lia|]. split; [constructor; auto|].
    { unfold closed in *. eapply Forall_impl; [|exact Cl1]. cbn. lia. }
    intros [|i] c0 Hc; cbn in Hc.
    + injection Hc as <-. exists (c ++ new), h, ys. split; auto. split; auto. split; auto.
      rewrite <- B. apply map_ext_in. intros a Ha. apply I1. unfold closed in Cl1. rewrite Forall_forall in Cl1. auto.
    + destruct (I4 i c0 Hc) as (c' & h2 & ys' & N & K & Y' & B'). exists c', h2, ys'. split; auto. split; [|split; auto].
      * intros a Ha. destruct (K a) as [K1 K2]; [lia|]. split; [rewrite K1; auto|]. cbn [firstn concat].
        intros Hn. rewrite in_app_iff in Hn. rewrite K2 by tauto. apply S2; tauto.
      * rewrite B'. f_equal. apply map_ext_in. intros a Ha. apply S1.
        apply nth_error_In in Hc. rewrite Forall_forall in H2. specialize (H2 c0 Hc). unfold closed in H2. rewrite Forall_forall in H2. auto.
Qed.

(** ** The years after the remaining steps *)
Section View.
Context {B : Type} (V : el -> list B).
Definition vext (h h' : heap) : Prop :=
  length h <= length h' /\ forall a, a < length h -> V (deref h' a) = V (deref h a).
Definition vals (h : heap) (c : citation) : list B := flat_map (fun a => V (deref h a)) c.
Lemma vext_refl h : vext h h. Proof. split; auto. Qed.
Lemma vext_trans h1 h2 h3 : vext h1 h2 -> vext h2 h3 -> vext h1 h3.
Proof. intros [L1 E1] [L2 E2]. split; [lia|]. intros a Ha. rewrite E2 by lia. auto. Qed.
Lemma vext_closed h h' c : vext h h' -> closed h c -> closed h' c.
Proof. intros [L _]. unfold closed. apply Forall_impl. cbn. lia. Qed.
Lemma vals_ext h h' c : vext h h' -> closed h c -> vals h' c = vals h c.
Proof.
  intros [_ E] C. unfold vals. induction C; cbn; auto. rewrite E, IHC by auto. auto.
Qed.
Lemma vext_alloc h e : vext h (h ++ [e]).
Proof. split; [rewrite app_length; lia|]. intros a Ha. now rewrite deref_alloc_old. Qed.
Lemma vext_store h a f : (a < length h -> V (f (deref h a)) = V (deref h a)) -> vext h (store h a f).
Proof.
  intros F. split; [now rewrite store_length|]. intros b Hb. destruct (Nat.eq_dec a b) as [->|N].
  - rewrite deref_store_same by auto. auto.
  - now rewrite deref_store_other.
Qed.
Lemma vals_perm h c l : Permutation (map (deref h) c) l -> Permutation (vals h c) (flat_map V l).
Proof. intros P. unfold vals. rewrite <- (flat_map_concat_map) || idtac.
  replace (flat_map (fun a => V (deref h a)) c) with (flat_map V (map (deref h) c)).
  - now apply Permutation_flat_map.
  - clear. induction c; cbn [map flat_map]; congruence.
Qed.
Lemma veach f : (forall h c h' c', closed h c -> f h c = Ok (h', c') -> vext h h' /\ closed h' c' /\ vals h' c' = vals h c) ->
  forall cs h h' cs', Forall (closed h) cs -> each f h cs = Ok (h', cs') ->
  vext h h' /\ Forall (closed h') cs' /\ Forall2 (fun c c' => vals h' c' = vals h c) cs cs'.
Proof.
  intros Hf. induction cs as [|c cs IH]; cbn [each]; intros h h' cs' C H.
  - inversion H; subst. split; [apply vext_refl|split; constructor].
  - inv_ok H. destruct a as [h1 c1]. cbn in H. inv_ok H. destruct a as [h2 t2]. cbn in H. inversion H; subst; clear H.
    inversion C; subst. destruct (Hf _ _ _ _ H1 E) as (X & C1 & P).
    assert (Forall (closed h1) cs) as C2 by (eapply Forall_impl; [|eassumption]; intros; eapply vext_closed; eauto).
    destruct (IH _ _ _ C2 E0) as (X' & C' & F). split; [eapply vext_trans; eauto|]. split.
    + constructor; auto. eapply vext_closed; eauto.
    + constructor; [rewrite (vals_ext h1 h') by auto; auto|].
      clear - F H2 X. induction F; constructor; inversion H2; subst; auto. rewrite H. now apply vals_ext.
Qed.
End View.

(** ** The steps after the years: a view that ignores misc texts, recids, authors, DOIs,
    collaborations only gains the undetected books *)
Section Later.
Context {B : Type} (V : el -> list B).
Context (V_bare : forall e e', bare e = bare e' -> V e = V e').
Context (V_recid : forall v e, V (set Krecid v e) = V e).
Context (V_no : forall e, match e_type e with AUTH | MISC | DOI | COLLABORATION | RECID => True | _ => False end -> V e = []).
Local Notation vals := (vals V).
Local Notation vext := (vext V).
Lemma books_view books year : forall todo h c h' c', closed h c ->
  search_elements books year h c todo = Ok (h', c') ->
  vext h h' /\ closed h' c' /\ (vals h' c' = vals h c \/ exists line, vals h' c' = vals h c ++ V (book_el line)).
Proof.
  induction todo as [|a todo IH]; cbn [search_elements]; intros h c h' c' C H.
  - inversion H; subst. split; [apply vext_refl|auto].
  - inv_ok H. destruct a0 as [[line m']|]; [|eapply IH; eauto]. cbn [alloc] in H. inversion H; subst; clear H.
    assert (vext h (store (h ++ [book_el line]) a (set_misc m'))) as X.
    { eapply vext_trans; [apply vext_alloc|]. apply vext_store. intros _. now apply V_bare. }
    split; auto. split.
    + apply Forall_app. split; [eapply vext_closed; eauto|]. constructor; auto. rewrite store_length, app_length. cbn. lia.
    + right. exists line. unfold vals. rewrite flat_map_app. fold (vals (store (h ++ [book_el line]) a (set_misc m')) c).
      rewrite (vals_ext _ _ _ _ X C). cbn [flat_map]. rewrite app_nil_r. f_equal.
      destruct (Nat.eq_dec a (length h)) as [->|N].
      * rewrite deref_store_same by (rewrite app_length; cbn; lia). rewrite deref_alloc_new. now apply V_bare.
      * rewrite deref_store_other by auto. now rewrite deref_alloc_new.
Qed.
Lemma associate_one_view f n e e' : associate_one f n e = Ok e' -> V e' = V e.
Proof.
  unfold associate_one. intros H.
  assert (exists v, e' = set Krecid v e) as [v ->]; auto.
  destruct (f n e) as [v|[]]; inversion H; eauto.
Qed.
Lemma associate_heap_view f : forall c n h h' n', associate_heap f n h c = Ok (h', n') -> vext h h'.
Proof.
  induction c as [|a c IH]; cbn [associate_heap]; intros n h h' n' H; [inversion H; subst; apply vext_refl|].
  inv_ok H. apply IH in H. eapply vext_trans; [|exact H]. apply vext_store. intros _. eapply associate_one_view; eauto.
Qed.
Lemma associate_citations_view f : forall cs n h h' n', associate_citations f n h cs = Ok (h', n') -> vext h h'.
Proof.
  induction cs as [|c cs IH]; cbn [associate_citations]; intros n h h' n' H; [inversion H; subst; apply vext_refl|].
  inv_ok H. destruct a as [h1 n1]. cbn in H. apply IH in H. eapply vext_trans; [eapply associate_heap_view; eauto|exact H].
Qed.
Lemma dup_authors_view : forall c found h h', dup_authors found h c = Ok h' -> vext h h'.
Proof.
  induction c as [|a c IH]; cbn [dup_authors]; intros found h h' H; [inversion H; subst; apply vext_refl|].
  destruct (is_type AUTH (deref h a)) eqn:T; [|eauto]. destruct found; [|eauto]. inv_ok H.
  apply IH in H. eapply vext_trans; [|exact H]. apply vext_store. intros _.
  apply is_type_true in T. rewrite !V_no; auto; cbn; rewrite ?T; auto.
Qed.
Lemma remove_addr_view h e c : V e = [] -> vals h (remove_addr h e c) = vals h c.
Proof.
  intros Z. induction c as [|a c IH]; cbn [remove_addr]; auto. unfold vals in *. cbn [flat_map].
  destruct (el_eqb_spec e (deref h a)) as [<-|N]; [now rewrite Z|]. cbn [flat_map]. now rewrite IH.
Qed.
Lemma dup_dois_view h : forall snap found c, vals h (dup_dois found h snap c) = vals h c.
Proof.
  induction snap as [|a snap IH]; cbn [dup_dois]; intros found c; auto.
  destruct (is_type DOI (deref h a)) eqn:T; [|auto]. destruct found; rewrite IH; auto.
  apply remove_addr_view, V_no. apply is_type_true in T. now rewrite T.
Qed.
Lemma dup_collabs_view h : forall snap seen c c', dup_collabs seen h snap c = Ok c' -> vals h c' = vals h c.
Proof.
  induction snap as [|a snap IH]; cbn [dup_collabs]; intros seen c c' H; [inversion H; auto|].
  destruct (is_type COLLABORATION (deref h a)) eqn:T; [|eauto]. inv_ok H. destruct (mem_str a0 seen); [|eauto].
  apply IH in H. rewrite H. apply remove_addr_view, V_no. apply is_type_true in T. now rewrite T.
Qed.
Lemma each_map f : forall cs h h' cs', each (fun h c => let* c' := f h c in Ok (h, c')) h cs = Ok (h', cs') ->
  h' = h /\ Forall2 (fun c c' => f h c = Ok c') cs cs'.
Proof.
  induction cs as [|c cs IH]; cbn [each]; intros h h' cs' H; [inversion H; auto|].
  inv_ok H. destruct a as [h1 c1]. inv_ok E. inversion E; subst. cbn in H. inv_ok H. destruct a as [h2 t2]. cbn in H. inversion H; subst.
  apply IH in E1 as [-> F]. auto.
Qed.
(** from the state after add_year_elements to the end *)
Definition later (books : books_kb) (cb : option callback) (n : nat) (st : state) : res (state * nat) :=
  let* st := look_for_undetected_books books st in
  let* (st, n) := (match cb with
                   | Some f => let* (h, n') := associate_citations f n (fst st) (snd st) in
                               Ok ((h, snd st), n')
                   | None => Ok (st, n)
                   end) in
  let* st := remove_duplicated_authors st in
  let st := remove_duplicated_dois st in
  let* st := remove_duplicated_collaborations st in
  let* st := add_recid_elements st in
  Ok (st, n).
Lemma later_view books cb n h2 cs2 st' n' : Forall (closed h2) cs2 -> later books cb n (h2, cs2) = Ok (st', n') ->
  Forall2 (fun c final => flat_map V final = vals h2 c \/ (is_unknown_citation (map (deref h2) c) = true /\ exists line, flat_map V final = vals h2 c ++ V (book_el line)))
    cs2 (values st').
Proof.
  intros C2 H. unfold later in H.
  inv_ok H. destruct a as [h3 cs3]. unfold look_for_undetected_books in E. cbn [fst snd] in E.
  assert (vext h2 h3 /\ Forall (closed h3) cs3 /\ Forall2 (fun c c' => vals h3 c' = vals h2 c \/ (is_unknown_citation (map (deref h2) c) = true /\ exists line, vals h3 c' = vals h2 c ++ V (book_el line))) cs2 cs3) as (X3 & C3 & F3).
  { assert (forall cs h h' cs', Forall (closed h) cs -> ext h2 h -> vext h2 h -> Forall (closed h2) cs -> each
      (fun h c => if is_unknown_citation (map (deref h) c) then search_for_book_in_misc books h c else Ok (h, c)) h cs = Ok (h', cs') ->
      vext h h' /\ Forall (closed h') cs' /\ Forall2 (fun c c' => vals h' c' = vals h2 c \/ (is_unknown_citation (map (deref h2) c) = true /\ exists line, vals h' c' = vals h2 c ++ V (book_el line))) cs cs') as G.
    { clear - V_bare. induction cs as [|c cs IH]; cbn [each]; intros h h' cs' C T X Z H.
      - inversion H; subst. split; [apply vext_refl|auto].
      - inv_ok H. destruct a as [h1 c1]. cbn in H. inv_ok H. destruct a as [h3 t2]. cbn in H. inversion H; subst; clear H.
        inversion C; subst. inversion Z; subst.
        assert (is_unknown_citation (map (deref h) c) = is_unknown_citation (map (deref h2) c)) as U.
        { pose proof (tys_ext _ _ _ T H3) as Q. revert Q. clear. unfold tys, is_unknown_citation. induction c as [|a c IH]; cbn [map forallb]; auto.
          intros Q. injection Q as Q1 Q2. rewrite Q1, IH; auto. }
        rewrite U in E.
        assert (ext h h1 /\ vext h h1 /\ closed h1 c1 /\ (vals h1 c1 = vals h c \/ (is_unknown_citation (map (deref h2) c) = true /\ exists line, vals h1 c1 = vals h c ++ V (book_el line)))) as (T1 & X1 & C1 & P1).
        { destruct (is_unknown_citation (map (deref h2) c)) eqn:Q.
          - unfold search_for_book_in_misc in E. pose proof (search_elements_spec _ _ _ _ _ _ _ H1 E) as (T1 & _). apply books_view in E as (X1 & C1 & P); auto. split; auto. split; auto. split; auto. intuition.
          - inversion E; subst. split; [apply ext_refl|]. split; [apply vext_refl|auto]. }
        assert (Forall (closed h1) cs) as C1' by (eapply Forall_impl; [|exact H2]; intros; eapply (vext_closed V); eauto).
        destruct (IH h1 h' t2) as (Y & D & F); auto.
        + eapply ext_trans; eauto.
        + eapply vext_trans; eauto.
        + split; [eapply vext_trans; eauto|]. split; [constructor; auto; eapply vext_closed; eauto|]. constructor; auto.
          rewrite (vals_ext _ _ _ _ Y C1). rewrite <- (vals_ext _ _ _ _ X H3). auto. }
    apply G in E; auto; [apply ext_refl|apply vext_refl]. }
  inv_ok H. destruct a as [[h4 cs4] n4].
  assert (vext h3 h4 /\ cs4 = cs3) as [X4 ->].
  { destruct cb as [f|]; cbn [fst snd] in E0.
    - inv_ok E0. destruct a as [h n0]. cbn in E0. inversion E0; subst. split; auto. eapply associate_citations_view; eauto.
    - inversion E0; subst. split; [apply vext_refl|auto]. }
  clear E0. inv_ok H. destruct a as [h5 cs5]. unfold remove_duplicated_authors in E0. cbn [fst snd] in E0.
  assert (Forall (closed h4) cs3) as C4 by (eapply Forall_impl; [|exact C3]; intros; eapply vext_closed; eauto).
  pose proof (dup_authors_all _ _ _ _ E0) as (-> & _ & _).
  apply (veach V) in E0 as (X5 & C5 & F5); auto.
  2: { intros h c h' c' Cl Ho. inv_ok Ho. inversion Ho; subst. pose proof (dup_authors_view _ _ _ _ E1) as X.
       split; auto. split; [eapply vext_closed; eauto|eapply vals_ext; eauto]. }
  unfold remove_duplicated_dois in H. cbn [fst snd] in H.
  pose proof (dup_dois_all h5 cs3) as F6'.
  inv_ok H. destruct a as [h7 cs7]. unfold remove_duplicated_collaborations in E0. cbn [fst snd] in E0.
  pose proof (dup_collabs_all _ _ _ _ E0) as [_ F7'].
  apply each_map in E0 as [-> F7].
  inv_ok H. destruct a as [h8 cs8]. inversion H; subst; clear H.
  unfold add_recid_elements in E0. cbn [fst snd] in E0.
  assert (Forall (closed h5) (map (fun c => dup_dois false h5 c c) cs3)) as C6.
  { revert F6' C5. clear. intros F6 C5. induction F6; inversion C5; subst; constructor; tauto. }
  assert (Forall (closed h5) cs7) as C7.
  { revert F7' C6. clear. intros F7 C6. induction F7; inversion C6; subst; constructor; tauto. }
  apply add_recid_values in E0 as (_ & _ & V8); auto.
  unfold values. cbn [fst snd].
  assert (Forall2 (fun c c' => vals h5 c' = vals h3 c) cs3 cs7) as F37.
  { assert (Forall (fun c => vals h5 c = vals h3 c) cs3) as G.
    { apply Forall_forall. intros c Hc. rewrite Forall_forall in C3, C4.
      rewrite (vals_ext _ _ _ _ X5), (vals_ext _ _ _ _ X4); auto. }
    revert F7 G. clear - V_no. revert cs7. induction cs3 as [|c cs IH]; cbn [map]; intros cs7 F7 G; inversion F7; subst; constructor;
      inversion G; subst; auto. rewrite (dup_collabs_view _ _ _ _ _ H1), dup_dois_view. auto. }
  assert (Forall2 (fun c c' => flat_map V (map (deref h8) c') = vals h5 c) cs7 cs8) as F8.
  { revert V8. clear - V_no. intros V8. induction V8 as [|x y l l' R F IH]; constructor; auto.
    assert (forall l, flat_map V (map (deref h5) l) = vals h5 l) as Q.
    { clear. induction l; auto. cbn [map flat_map]. rewrite IHl. reflexivity. }
    destruct (find _ _).
    - destruct R as (v & _ & ->). rewrite flat_map_app. cbn [flat_map]. rewrite (V_no (recid_el v)) by exact I. now rewrite !app_nil_r, Q.
    - now rewrite R, Q. }
  clear - F3 F37 F8. revert cs7 cs8 F37 F8. induction F3 as [|c c3 cs2 cs3 R F3 IH]; intros cs7 cs8 F37 F8; inversion F37; subst; inversion F8; subst; cbn [map]; constructor.
  - rewrite H2, H1. auto.
  - eapply IH; eauto.
Qed.
End Later.

(** ** The years of the final citations *)
Definition date_of (e : el) : list (ety * option val) :=
  match e_type e with YEAR | JOURNAL | BOOK => [(e_type e, get Kyear e)] | _ => [] end.
Definition dates (l : list el) : list (ety * option val) := flat_map date_of l.
Lemma date_of_bare e e' : bare e = bare e' -> date_of e = date_of e'.
Proof. unfold bare, date_of, get. intros H. injection H as -> ->. auto. Qed.
Lemma date_of_recid v e : date_of (set Krecid v e) = date_of e.
Proof. unfold date_of. cbn [set e_type]. rewrite get_set. auto. Qed.
Lemma date_of_no e : match e_type e with AUTH | MISC | DOI | COLLABORATION | RECID => True | _ => False end -> date_of e = [].
Proof. unfold date_of. destruct (e_type e); auto; contradiction. Qed.
Lemma dates_vals h c : vals date_of h c = dates (map (deref h) c).
Proof. unfold vals, dates. induction c; cbn [map flat_map]; congruence. Qed.
Lemma Forall2_nth {A B} (R : A -> B -> Prop) l l' : Forall2 R l l' -> forall i a, nth_error l i = Some a ->
  exists b, nth_error l' i = Some b /\ R a b.
Proof. induction 1; intros [|i] a E; cbn in *; try discriminate; eauto. injection E as <-. eauto. Qed.
Lemma dates_bare h : forall c, vals date_of h c = flat_map (fun b : ety * dict => date_of (mkel (fst b) [] (snd b))) (map (fun a => bare (deref h a)) c).
Proof. induction c as [|a l IH]; auto. cbn [map flat_map]. rewrite <- IH. reflexivity. Qed.

(** [c] is the citation after implied ibids were added and [h2] the heap when its year
    was looked for: it differs from the heap [h1] only in the misc texts of elements
    shared with earlier citations.  The year, and possibly a book found in the misc
    text, are the only dates added. *)
Theorem post_split_years books cb n h0 cs0 st' n' :
  Forall (closed h0) cs0 -> post_split books cb n (h0, cs0) = Ok (st', n') ->
  exists h1 cs1, look_for_implied_ibids (h0, cs0) = Ok (h1, cs1) /\ length cs1 = length cs0 /\
  length (values st') = length cs0 /\
  forall i c, nth_error cs1 i = Some c -> exists final h2 ys, nth_error (values st') i = Some final
    /\ (forall a, a < length h1 -> bare (deref h2 a) = bare (deref h1 a) /\ (~ In a (concat (firstn i cs1)) -> deref h2 a = deref h1 a))
    /\ chosen_year (map (deref h2) c) ys
    /\ exists extra, dates final = dates (map (deref h1) c) ++ map (fun y => (YEAR, Some (VS y))) ys ++ extra
    /\ (extra = [] \/ (is_unknown_citation (map (deref h1) c) = true /\ exists y, extra = [(BOOK, Some (VS y))])).
Proof.
  intros C0 H. unfold post_split in H.
  inv_ok H. destruct a as [h1 cs1]. exists h1, cs1. split; auto. unfold look_for_implied_ibids in E. cbn [fst snd] in E.
  apply implied_ibids_spec in E as (X1 & C1 & F1); auto.
  inv_ok H. destruct a as [h2 cs2]. unfold add_year_elements in E. cbn [fst snd] in E.
  apply add_years_spec in E as (L2 & Bh & Lh & C2 & Y2); auto.
  change (later books cb n (h2, cs2) = Ok (st', n')) in H.
  apply (later_view date_of date_of_bare date_of_recid date_of_no) in H; auto.
  assert (length cs1 = length cs0) as L1 by (apply Forall2_length in F1; auto).
  split; auto. split; [apply Forall2_length in H; rewrite <- H, L2; exact L1|].
  intros i c Hc. destruct (Y2 i c Hc) as (c2 & hi & ys & N2 & Ki & Ch & Bs).
  destruct (Forall2_nth _ _ _ H _ _ N2) as (final & N3 & R3).
  exists final, hi, ys. split; auto. split; auto. split; auto.
  assert (vals date_of h2 c2 = dates (map (deref h1) c) ++ map (fun y => (YEAR, Some (VS y))) ys) as E2.
  { rewrite dates_bare, Bs, flat_map_app, <- dates_bare, dates_vals. f_equal.
    clear. induction ys as [|y ys IH]; auto. cbn [map flat_map]. rewrite IH. reflexivity. }
  fold (dates final) in R3. destruct R3 as [R|[U (line & R)]].
  - exists []. rewrite R, E2, app_nil_r. auto.
  - exists (date_of (book_el line)). rewrite R, E2, <- app_assoc. split; auto. right. split; [|eexists; reflexivity].
    assert (map e_type (map (deref h2) c2) = map e_type (map (deref h1) c) ++ map (fun _ => YEAR) ys) as T.
    { apply (f_equal (map fst)) in Bs. rewrite map_app, !map_map in Bs. rewrite !map_map. cbn in Bs. rewrite Bs. f_equal. }
    unfold is_unknown_citation in *. 
    assert (forall l, forallb (fun e => negb (known_type (e_type e))) l = forallb (fun t => negb (known_type t)) (map e_type l)) as G.
    { clear. induction l; cbn; congruence. }
    rewrite G in *. rewrite T, forallb_app in U. now apply andb_true_iff in U.
Qed.
