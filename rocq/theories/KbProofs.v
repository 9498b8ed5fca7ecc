(** Building of the knowledge bases (Kbs.v). *)
From Coq Require Import List Arith NArith Bool String Permutation Sorting Lia.
From Verif Require Import PyStr ListFacts Regex RegexParse RegexMeta RegexLang Patterns DocText Tag Kbs RecordProofs ComposeProofs.
Import ListNotations.
Local Notation length := List.length.

(** ** Sorting by decreasing key *)
Section Sort.
Context {A : Type} (key : A -> nat).
Definition decreasing : list A -> Prop := StronglySorted (fun a b => key b <= key a).
Lemma insert_by_perm x l : Permutation (insert_by key x l) (x :: l).
Proof.
  induction l as [|y l IH]; cbn; auto. destruct (key y <=? key x); auto.
  eapply perm_trans; [apply perm_skip, IH|apply perm_swap].
Qed.
Lemma sort_by_perm l : Permutation (sort_by key l) l.
Proof. induction l as [|x l IH]; cbn; auto. eapply perm_trans; [apply insert_by_perm|auto]. Qed.
Lemma insert_by_sorted x l : decreasing l -> decreasing (insert_by key x l).
Proof.
  unfold decreasing. induction l as [|y l IH]; intros H; cbn.
  - repeat constructor.
  - inversion H as [|? ? H1 H2]; subst. destruct (Nat.leb_spec (key y) (key x)) as [L|L].
    + constructor; auto. constructor; auto. eapply Forall_impl; [|exact H2]. cbn. intros. lia.
    + constructor; auto. apply Forall_forall. intros z I. apply (Permutation_in _ (insert_by_perm x l)) in I. destruct I as [<-|I]; [lia|].
      eapply Forall_forall in H2; eauto.
Qed.
Lemma sort_by_sorted l : decreasing (sort_by key l).
Proof. induction l; cbn; [constructor|now apply insert_by_sorted]. Qed.
Lemma insert_by_stable n x l : decreasing l ->
  filter (fun y => key y =? n) (insert_by key x l) = filter (fun y => key y =? n) (x :: l).
Proof.
  unfold decreasing. induction l as [|y l IH]; intros H; auto. cbn [insert_by]. destruct (Nat.leb_spec (key y) (key x)) as [L|L]; auto.
  inversion H as [|? ? H1 H2]; subst. cbn [filter]. rewrite IH by auto. cbn [filter].
  destruct (Nat.eqb_spec (key y) n), (Nat.eqb_spec (key x) n); auto. lia.
Qed.
(** elements with the same key keep their order *)
Lemma sort_by_stable n l : filter (fun y => key y =? n) (sort_by key l) = filter (fun y => key y =? n) l.
Proof.
  induction l as [|x l IH]; auto. cbn [sort_by fold_right]. rewrite insert_by_stable by apply sort_by_sorted.
  cbn [filter]. fold (sort_by key l). now rewrite IH.
Qed.
End Sort.

(** ** Journals *)
Fixpoint last_seek (s : str) (rows : list (str * str)) : option str :=
  match rows with
  | [] => None
  | r :: t => match last_seek s t with Some x => Some x | None => if eqs s (seek_phrase (fst r)) then Some (snd r) else None end
  end.
Definition first_repl (s : str) (terms : list str) : option str := find (fun t => eqs s (repl_phrase t)) terms.
Lemma seeks s : forall rows b, let b' := fold_left add_seek rows b in
  assoc_str s (jb_kb b') = (match last_seek s rows with Some _ => Some (seek_re s) | None => assoc_str s (jb_kb b) end)
  /\ assoc_str s (jb_std b') = (match last_seek s rows with Some r => Some r | None => assoc_str s (jb_std b) end)
  /\ jb_keys b' = jb_keys b ++ map (fun r => seek_phrase (fst r)) rows.
Proof.
  induction rows as [|r t IH]; intros b; cbn [fold_left last_seek map].
  - rewrite app_nil_r. auto.
  - destruct (IH (add_seek b r)) as (A & B & C). rewrite A, B, C. unfold add_seek. cbn [jb_kb jb_std jb_keys].
    rewrite !assoc_sput. destruct (last_seek s t); [rewrite <- app_assoc; auto|].
    destruct (eqs_spec s (seek_phrase (fst r))) as [->|N]; rewrite <- app_assoc; auto.
Qed.
Lemma repls s : forall terms b, (forall x, assoc_str x (jb_kb b) = None <-> assoc_str x (jb_std b) = None) ->
  let b' := fold_left add_repl terms b in
  assoc_str s (jb_kb b') = (match assoc_str s (jb_kb b) with Some x => Some x | None => match first_repl s terms with Some _ => Some (repl_re s) | None => None end end)
  /\ assoc_str s (jb_std b') = (match assoc_str s (jb_std b) with Some x => Some x | None => first_repl s terms end)
  /\ (In s (jb_keys b') <-> In s (jb_keys b) \/ (assoc_str s (jb_kb b) = None /\ first_repl s terms <> None)).
Proof.
  induction terms as [|x t IH]; intros b D; cbn [fold_left first_repl find].
  - cbn. destruct (assoc_str s (jb_kb b)), (assoc_str s (jb_std b)); repeat split; auto; tauto.
  - fold (first_repl s t). unfold add_repl. destruct (assoc_str (repl_phrase x) (jb_kb b)) as [v|] eqn:K.
    + destruct (IH b D) as (A & B & C). cbv zeta in A, B, C. unfold add_repl in A, B, C. rewrite A, B, C.
      destruct (eqs_spec s (repl_phrase x)) as [->|N]; [rewrite K|tauto].
      destruct (assoc_str (repl_phrase x) (jb_std b)) eqn:Q; [|apply D in Q; congruence]. repeat split; auto; intuition congruence.
    + set (b1 := mkjb _ _ _). assert (forall y, assoc_str y (jb_kb b1) = None <-> assoc_str y (jb_std b1) = None) as D1.
      { intros y. unfold b1. cbn [jb_kb jb_std]. rewrite !assoc_sput. destruct (eqs y (repl_phrase x)); [split; discriminate|apply D]. }
      destruct (IH b1 D1) as (A & B & C). cbv zeta in A, B, C. unfold add_repl in A, B, C. rewrite A, B, C. unfold b1. cbn [jb_kb jb_std jb_keys].
      rewrite !assoc_sput, in_app_iff. cbn [In]. destruct (eqs_spec s (repl_phrase x)) as [->|N].
      * rewrite K. assert (assoc_str (repl_phrase x) (jb_std b) = None) as -> by now apply D. repeat split; auto; intuition congruence.
      * repeat split; auto; intuition congruence.
Qed.
Lemma find_distinct f : forall l seen, (forall x, In x seen -> f x = false) -> find f (distinct seen l) = find f l.
Proof.
  induction l as [|x l IH]; intros seen H; cbn [distinct find]; auto. destruct (mem_str x seen) eqn:M.
  - rewrite IH by auto. apply mem_str_in in M. now rewrite (H _ M).
  - cbn [find]. destruct (f x) eqn:F; auto. apply IH. intros y [<-|I]; auto.
Qed.
Lemma journals_assoc rows s :
  assoc_str s (jk_search (build_journals_kb rows)) =
    (match last_seek s rows with Some _ => Some (seek_re s) | None => match first_repl s (map snd rows) with Some _ => Some (repl_re s) | None => None end end)
  /\ assoc_str s (jk_std (build_journals_kb rows)) =
    (match last_seek s rows with Some x => Some x | None => first_repl s (map snd rows) end)
  /\ (In s (jk_keys (build_journals_kb rows)) <-> last_seek s rows <> None \/ first_repl s (map snd rows) <> None).
Proof.
  unfold build_journals_kb. cbn [jk_search jk_std jk_keys]. set (b := fold_left add_seek rows (mkjb [] [] [])).
  assert (forall x, assoc_str x (jb_kb b) = (match last_seek x rows with Some _ => Some (seek_re x) | None => None end)
    /\ assoc_str x (jb_std b) = last_seek x rows) as Q.
  { intros x. destruct (seeks x rows (mkjb [] [] [])) as (A & B & _). fold b in A, B. rewrite A, B. cbn. destruct (last_seek x rows); auto. }
  destruct (repls s (distinct [] (map snd rows)) b) as (A & B & C).
  { intros x. destruct (Q x) as (-> & ->). destruct (last_seek x rows); split; congruence. }
  cbv zeta in A, B, C. rewrite A, B. destruct (Q s) as (Q1 & Q2). unfold first_repl in *. rewrite find_distinct in * by (intros x []). rewrite Q1, Q2.
  split; [destruct (last_seek s rows); auto|]. split; [destruct (last_seek s rows); auto|].
  assert (forall l, In s (sort_by (@List.length N) l) <-> In s l) as -> by
    (intros l; split; apply Permutation_in; [|apply Permutation_sym]; apply (sort_by_perm (@List.length N) l)).
  rewrite C. destruct (seeks s rows (mkjb [] [] [])) as (_ & _ & Ks). cbv zeta in Ks. fold b in Ks. rewrite Ks, Q1. cbn [jb_keys app].
  assert (In s (map (fun r => seek_phrase (fst r)) rows) <-> last_seek s rows <> None) as ->.
  { clear. induction rows as [|r t IH]; cbn [map last_seek In]; [tauto|]. rewrite IH. destruct (last_seek s t); [intuition congruence|].
    destruct (eqs_spec s (seek_phrase (fst r))); intuition congruence. }
  destruct (last_seek s rows); [intuition congruence|]. tauto.
Qed.
Lemma last_seek_none s rows : last_seek s rows = None <-> forall r, In r rows -> seek_phrase (fst r) <> s.
Proof.
  induction rows as [|r t IH]; cbn [last_seek In]; [intuition|]. destruct (last_seek s t) as [x|].
  - split; [discriminate|]. intros H. assert (Some x = None) by (apply IH; auto). discriminate.
  - destruct (eqs_spec s (seek_phrase (fst r))) as [->|N].
    + split; [discriminate|]. intros H. exfalso. eapply H; eauto.
    + split; auto. intros _ r' [<-|I]; auto. now apply IH.
Qed.
Lemma last_seek_some s rows x : last_seek s rows = Some x <-> exists pre r post, rows = pre ++ r :: post /\ seek_phrase (fst r) = s /\ snd r = x
  /\ forall r', In r' post -> seek_phrase (fst r') <> s.
Proof.
  split.
  - revert x. induction rows as [|r t IH]; cbn [last_seek]; intros x H; [discriminate|]. destruct (last_seek s t) as [y|] eqn:L.
    + destruct (IH _ H) as (pre & r0 & post & -> & Q). exists (r :: pre), r0, post. auto.
    + destruct (eqs_spec s (seek_phrase (fst r))) as [->|N]; [|discriminate]. inversion H; subst. exists [], r, t. repeat split; auto. now apply last_seek_none.
  - intros (pre & r & post & -> & Q1 & Q2 & Q3). induction pre as [|a pre IH]; cbn [app last_seek].
    + apply last_seek_none in Q3. rewrite Q3, <- Q1, eqs_refl. congruence.
    + now rewrite IH.
Qed.
Lemma first_repl_some s terms x : first_repl s terms = Some x <-> exists pre post, terms = pre ++ x :: post /\ repl_phrase x = s
  /\ forall y, In y pre -> repl_phrase y <> s.
Proof.
  unfold first_repl. split.
  - induction terms as [|t ts IH]; cbn [find]; [discriminate|]. destruct (eqs_spec s (repl_phrase t)) as [->|N].
    + intros H; inversion H; subst. exists [], ts. repeat split; auto.
    + intros H. destruct (IH H) as (pre & post & -> & Q1 & Q2). exists (t :: pre), post. repeat split; auto. intros y [<-|I]; auto.
  - intros (pre & post & -> & Q1 & Q2). induction pre as [|a pre IH]; cbn [app find].
    + now rewrite <- Q1, eqs_refl.
    + destruct (eqs_spec s (repl_phrase a)) as [E|N]; [exfalso; apply (Q2 a); [now left|auto]|]. apply IH. intros y I. apply Q2. now right.
Qed.
Lemma first_repl_none s terms : first_repl s terms = None <-> forall y, In y terms -> repl_phrase y <> s.
Proof.
  unfold first_repl. induction terms as [|t ts IH]; cbn [find In]; [intuition|]. destruct (eqs_spec s (repl_phrase t)) as [->|N].
  - split; [discriminate|]. intros H. exfalso. eapply H; eauto.
  - rewrite IH. split; auto. intros H y [<-|I]; auto.
Qed.

(** ** What the patterns of the journals find *)
Lemma lit_mem c d : cls_mem (mkcls false false [CRange c c]) d = true <-> d = c.
Proof.
  unfold cls_mem. cbn. rewrite orb_false_r. unfold in_range. destruct (N.leb_spec c d), (N.leb_spec d c); cbn; split; intros; try discriminate; auto; lia.
Qed.
Lemma mt_re_lits : forall s x g x' g', mt (re_lits noflags s) x g x' g' <-> fwd x s x' /\ g' = g.
Proof.
  assert (forall c x g x' g', mt (lit noflags c) x g x' g' <-> fwd x [c] x' /\ g' = g) as L.
  { intros c x g x' g'. unfold lit. cbn. rewrite mt_cls_fwd. split.
    - intros (d & F & M & ->). apply lit_mem in M as ->. auto.
    - intros (F & ->). exists c. split; auto. split; auto. now apply lit_mem. }
  induction s as [|c [|c2 s] IH]; intros x g x' g'.
  - cbn. split.
    + intros H; inversion H; subst. split; auto. apply fwd_refl.
    + intros (F & ->). apply fwd_nil in F as ->. constructor.
  - apply L.
  - change (re_lits noflags (c :: c2 :: s)) with (Cat (lit noflags c) (re_lits noflags (c2 :: s))). rewrite mt_cat_iff. split.
    + intros (y & h & A & B). apply L in A as (A & ->). apply IH in B as (B & ->). split; auto. change (c :: c2 :: s) with ([c] ++ c2 :: s). eapply fwd_app; eauto.
    + intros (F & ->). exists (after x [c]), g. destruct F as (F1 & F2 & F3). split.
      * apply L. split; auto. eapply fwd_after. rewrite F1. cbn. reflexivity.
      * apply IH. split; auto. unfold fwd, after. cbn. rewrite F1, F2, F3. cbn. rewrite <- !app_assoc. repeat split; auto. lia.
Qed.
(** no word character directly before *)
Definition starts_word (a : str) : Prop := match rev a with [] => True | d :: _ => is_word d = false end.
Lemma seek_match s a b x' g' : mt (seek_re s) (here a b) [] x' g' <->
  exists c t, b = s ++ c :: t /\ is_word c = false /\ starts_word a /\ x' = here (a ++ s ++ [c]) t /\ g' = [(1, (length a, length a + length s))].
Proof.
  unfold seek_re, cls1. rewrite mt_cat_iff. split.
  - intros (y & h & A & B). apply (mt_nb_cls (a ++ b)) in A as (-> & -> & W); [|apply at_here].
    apply mt_cat_iff in B as (z & h & B & C). apply mt_grp_iff in B as (h' & B & ->). apply mt_re_lits in B as (B & ->).
    apply mt_cls_fwd in C as (c & F & M & ->). apply fwd_here_iff in B as (t & -> & ->). apply fwd_here_iff in F as (t' & -> & ->).
    exists c, t'. split; auto. split; [|split; [|split]].
    + unfold cls_mem in M. cbn in M. destruct (is_word c); cbn in M; congruence.
    + unfold starts_word. cbn in W. destruct (rev a) as [|d l]; auto. unfold cls_mem in W. cbn in W. destruct (is_word d); cbn in W; congruence.
    + now rewrite <- app_assoc.
    + cbn. now rewrite app_length.
  - intros (c & t & -> & M & W & -> & ->). exists (here a (s ++ c :: t)), []. split.
    + apply (mt_nb_cls (a ++ s ++ c :: t)); [apply at_here|]. split; auto. split; auto. cbn. unfold starts_word in W.
      destruct (rev a) as [|d l]; auto. unfold cls_mem. cbn. now rewrite W.
    + apply mt_cat_iff. exists (here (a ++ s) (c :: t)), [(1, (length a, length a + length s))]. split.
      * apply mt_grp_iff. exists []. split; [|cbn; now rewrite app_length]. apply mt_re_lits. split; auto. apply fwd_here.
      * apply mt_cls_fwd. exists c. split; [|split; auto; unfold cls_mem; cbn; now rewrite M]. rewrite app_assoc. change (c :: t) with ([c] ++ t). apply fwd_here.
Qed.
(** a word boundary, and no slash before *)
Definition boundary (a b : str) : Prop := xorb (hd_is_word (rev a)) (hd_is_word b) = true.
Definition no_slash (a : str) : Prop := match rev a with [] => True | d :: _ => d <> 47%N end.
Definition upper_or_digit (c : N) : bool := ((65 <=? c) && (c <=? 90) || (48 <=? c) && (c <=? 57))%N.
Lemma repl_match s a b x' g' : mt (repl_re s) (here a b) [] x' g' <->
  exists c t, b = s ++ c :: t /\ upper_or_digit c = false /\ boundary a b /\ no_slash a
    /\ x' = here (a ++ s ++ [c]) t /\ g' = [(1, (length a, length a + length s))].
Proof.
  assert (forall c, cls_mem (mkcls true false [CRange 65 90; CRange 48 57]) c = negb (upper_or_digit c)) as CM.
  { intros c. unfold cls_mem, upper_or_digit. cbn. now rewrite orb_false_r. }
  unfold repl_re. rewrite mt_cat_iff. split.
  - intros (y & h & A & B). apply (mt_nb_cls (a ++ b)) in A as (-> & -> & W); [|apply at_here].
    apply mt_cat_iff in B as (z & h & B & C). apply mt_wordb_iff in B as (-> & -> & Bo).
    apply mt_cat_iff in C as (z & h & B & C). apply mt_grp_iff in B as (h' & B & ->). apply mt_re_lits in B as (B & ->).
    apply mt_cls_fwd in C as (c & F & M & ->). apply fwd_here_iff in B as (t & -> & ->). apply fwd_here_iff in F as (t' & -> & ->).
    exists c, t'. split; auto. split; [|split; [|split; [|split]]].
    + rewrite CM in M. now apply negb_true_iff.
    + exact Bo.
    + unfold no_slash. cbn in W. destruct (rev a) as [|d l]; auto. intros ->. discriminate W.
    + now rewrite <- app_assoc.
    + cbn. now rewrite app_length.
  - intros (c & t & -> & M & Bo & W & -> & ->). exists (here a (s ++ c :: t)), []. split.
    + apply (mt_nb_cls (a ++ s ++ c :: t)); [apply at_here|]. split; auto. split; auto. cbn [pre here]. unfold no_slash in W.
      destruct (rev a) as [|d l]; auto. destruct (cls_mem _ d) eqn:Q; auto. now apply lit_mem in Q.
    + apply mt_cat_iff. exists (here a (s ++ c :: t)), []. split; [now apply mt_wordb_iff|].
      apply mt_cat_iff. exists (here (a ++ s) (c :: t)), [(1, (length a, length a + length s))]. split.
      * apply mt_grp_iff. exists []. split; [|cbn; now rewrite app_length]. apply mt_re_lits. split; auto. apply fwd_here.
      * apply mt_cls_fwd. exists c. split; [|split; auto; rewrite CM, M; auto]. rewrite app_assoc. change (c :: t) with ([c] ++ t). apply fwd_here.
Qed.
Lemma productive_lits s : productive (re_lits noflags s) = true.
Proof. induction s as [|c [|c2 s] IH]; auto. Qed.
Lemma productive_seek s : productive (seek_re s) = true.
Proof. unfold seek_re. cbn. now rewrite productive_lits. Qed.
Lemma productive_repl s : productive (repl_re s) = true.
Proof. unfold repl_re. cbn. now rewrite productive_lits. Qed.

Lemma journals_keys rows phrase :
  In phrase (jk_keys (build_journals_kb rows)) <->
  exists row, In row rows /\ (phrase = seek_phrase (fst row) \/ phrase = repl_phrase (snd row)).
Proof.
  rewrite (proj2 (proj2 (journals_assoc rows phrase))). split.
  - intros [H|H].
    + destruct (last_seek phrase rows) as [x|] eqn:L; [|congruence]. apply last_seek_some in L as (pr & r & po & -> & Q & _).
      exists r. split; auto. apply in_app_iff. right. now left.
    + destruct (first_repl phrase (map snd rows)) as [x|] eqn:L; [|congruence]. apply first_repl_some in L as (pr & po & E & Q & _).
      assert (In x (map snd rows)) as I by (rewrite E; apply in_app_iff; right; now left). apply in_map_iff in I as (r & <- & I). eauto.
  - intros (r & I & [-> | ->]).
    + left. intros N. apply last_seek_none with (r := r) in N; auto.
    + right. intros N. apply first_repl_none with (y := snd r) in N; auto. now apply in_map.
Qed.
Lemma starts_word_hd a : starts_word a <-> hd_is_word (rev a) = false.
Proof. unfold starts_word, hd_is_word. destruct (rev a); tauto. Qed.
Lemma journals_seek before row after :
  let rows := before ++ row :: after in
  let phrase := seek_phrase (fst row) in
  (forall later, In later after -> seek_phrase (fst later) <> phrase) ->
  assoc_str phrase (jk_std (build_journals_kb rows)) = Some (snd row)
  /\ exists pattern, assoc_str phrase (jk_search (build_journals_kb rows)) = Some pattern
     /\ forall text, (exists o, re_search pattern text = Some o) <->
          exists a c b, text = a ++ phrase ++ c :: b /\ is_word c = false /\ hd_is_word (rev a) = false.
Proof.
  intros rows phrase H. destruct (journals_assoc rows phrase) as (A & B & _).
  assert (last_seek phrase rows = Some (snd row)) as L by (apply last_seek_some; exists before, row, after; auto).
  rewrite L in A, B. split; auto. exists (seek_re phrase). split; auto. intros text. rewrite (re_search_iff _ _ (productive_seek phrase)). split.
  - intros (a & b & x' & g' & -> & M). apply seek_match in M as (c & t & -> & W & S & _). exists a, c, t. split; auto. split; auto. now apply starts_word_hd.
  - intros (a & c & b & -> & W & S). apply starts_word_hd in S. do 4 eexists. split; [reflexivity|]. apply seek_match. exists c, b. repeat split; auto.
Qed.
Lemma journals_repl before row after :
  let rows := before ++ row :: after in
  let phrase := repl_phrase (snd row) in
  (forall other, In other rows -> seek_phrase (fst other) <> phrase) ->
  (forall earlier, In earlier before -> repl_phrase (snd earlier) <> phrase) ->
  assoc_str phrase (jk_std (build_journals_kb rows)) = Some (snd row)
  /\ exists pattern, assoc_str phrase (jk_search (build_journals_kb rows)) = Some pattern
     /\ forall text, (exists o, re_search pattern text = Some o) <->
          exists a c b, text = a ++ phrase ++ c :: b
            /\ ~ (65 <= c <= 90 \/ 48 <= c <= 57)%N
            /\ hd_is_word (rev a) <> hd_is_word (phrase ++ c :: b)
            /\ (forall a', a <> a' ++ [47%N]).
Proof.
  intros rows phrase H1 H2. destruct (journals_assoc rows phrase) as (A & B & _).
  assert (last_seek phrase rows = None) as L by now apply last_seek_none.
  assert (first_repl phrase (map snd rows) = Some (snd row)) as L2.
  { apply first_repl_some. exists (map snd before), (map snd after). unfold rows. rewrite map_app. split; auto. split; auto.
    intros y I. apply in_map_iff in I as (r & <- & I). auto. }
  rewrite L, L2 in A, B. split; auto. exists (repl_re phrase). split; auto. intros text. rewrite (re_search_iff _ _ (productive_repl phrase)).
  assert (forall c, upper_or_digit c = false <-> ~ (65 <= c <= 90 \/ 48 <= c <= 57)%N) as UD.
  { intros c. unfold upper_or_digit. destruct (N.leb_spec 65 c), (N.leb_spec c 90), (N.leb_spec 48 c), (N.leb_spec c 57); cbn; intuition (try discriminate; lia). }
  assert (forall a, no_slash a <-> forall a', a <> a' ++ [47%N]) as NS.
  { intros a. unfold no_slash. destruct (rev a) as [|d l] eqn:R.
    - split; auto. intros _ a' ->. rewrite rev_app_distr in R. discriminate.
    - assert (a = rev l ++ [d]) as E by (rewrite <- (rev_involutive a), R; reflexivity). split.
      + intros N a' Q. rewrite E in Q. apply app_inj_tail in Q as [_ Q]. congruence.
      + intros Q ->. now apply (Q (rev l)). }
  assert (forall a b, boundary a b <-> hd_is_word (rev a) <> hd_is_word b) as BO.
  { intros a b. unfold boundary. destruct (hd_is_word (rev a)), (hd_is_word b); cbn; intuition congruence. }
  split.
  - intros (a & b & x' & g' & -> & M). apply repl_match in M as (c & t & -> & W & Bo & S & _). exists a, c, t. split; auto.
    split; [now apply UD|]. split; [now apply BO|now apply NS].
  - intros (a & c & b & -> & W & Bo & S). do 4 eexists. split; [reflexivity|]. apply repl_match. exists c, b. split; auto.
    split; [now apply UD|]. split; [now apply BO|]. split; [now apply NS|]. split; reflexivity.
Qed.

(** ** Order of report number patterns *)
Lemma filter_map_ {A B} (f : B -> bool) (g : A -> B) l : filter f (map g l) = map g (filter (fun x => f (g x)) l).
Proof. induction l as [|x l IH]; cbn; auto. destruct (f (g x)); cbn; now rewrite IH. Qed.
Lemma reportnum_order patterns :
  let ordered := map snd (order_reportnum_patterns_bylen patterns) in
  Permutation ordered patterns
  /\ StronglySorted (fun p q => base_len q <= base_len p) ordered
  /\ (forall n, filter (fun p => Nat.eqb (base_len p) n) ordered = filter (fun p => Nat.eqb (base_len p) n) patterns)
  /\ Forall (fun e => fst e = base_len (snd e)) (order_reportnum_patterns_bylen patterns).
Proof.
  unfold order_reportnum_patterns_bylen. set (l := map (fun p => (base_len p, p)) patterns). cbv zeta.
  assert (map snd l = patterns) as E by (unfold l; rewrite map_map; apply map_id).
  assert (Forall (fun e => fst e = base_len (snd e)) l) as F0 by (apply Forall_forall; intros e I; apply in_map_iff in I as (p & <- & _); reflexivity).
  assert (Forall (fun e => fst e = base_len (snd e)) (sort_by fst l)) as F.
  { apply Forall_forall. intros e I. apply (Permutation_in _ (sort_by_perm fst l)) in I. rewrite Forall_forall in F0. auto. }
  clearbody l. split; [rewrite <- E; apply Permutation_map, sort_by_perm|]. split; [|split; auto].
  - pose proof (sort_by_sorted fst l) as S. unfold decreasing in S. induction S as [|e es S IH H]; [constructor|].
    cbn. apply Forall_inv_tail in F as F2. constructor; auto. apply Forall_forall. intros q I. apply in_map_iff in I as (e' & <- & I).
    rewrite Forall_forall in H. specialize (H _ I). apply Forall_inv in F. rewrite Forall_forall in F2. now rewrite <- (F2 _ I), <- F.
  - intros n. rewrite filter_map_. rewrite (filter_ext_in _ (fun e => fst e =? n)).
    + rewrite sort_by_stable, <- E, filter_map_. f_equal. apply filter_ext_in. intros e I.
      rewrite Forall_forall in F0. now rewrite (F0 _ I).
    + intros e I. rewrite Forall_forall in F. now rewrite (F _ I).
Qed.
Lemma sub_none r f s : (forall a b x' g', s = a ++ b -> ~ mt r (here a b) [] x' g') -> re_sub r f s = s.
Proof.
  intros H. unfold re_sub. destruct (re_finditer r s) as [|o l] eqn:E; auto.
  assert (In o (re_finditer r s)) as I by (rewrite E; now left).
  apply finditer_in in I as (a & w & b & x' & Es & _ & M & _). exfalso. eapply H; eauto.
Qed.
Lemma base_len_plain p : ~ In 91%N p -> base_len p = length p.
Proof.
  intros H. unfold base_len, sub_text. rewrite sub_none; auto. intros a b x' g' -> M.
  unfold re_regexp_character_class in M. cbn [rx_re] in M. apply mt_cat_iff in M as (y & h & M & _).
  apply mt_cls_fwd in M as (d & F & M & _). apply fwd_here_iff in F as (t & -> & _). apply lit_mem in M as ->.
  apply H. apply in_app_iff. right. now left.
Qed.
Lemma strs_eqb_eq : forall a b : list str, (Nat.eqb (length a) (length b)) && forallb (fun p => eqs (fst p) (snd p)) (combine a b) = true -> a = b.
Proof.
  induction a as [|x a IH]; intros [|y b]; cbn; auto; try discriminate. intros H. apply andb_true_iff in H as [L H]. apply andb_true_iff in H as [E H].
  destruct (eqs_spec x y); [|discriminate]. subst. f_equal. apply IH. now rewrite L, H.
Qed.
