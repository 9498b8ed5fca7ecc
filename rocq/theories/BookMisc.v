(** Proofs about the books searched for in the misc text of a citation (C62). *)
From Coq Require Import Arith NArith Bool String Lia List.
From Verif Require Import PyStr ListFacts Elements Regex Transform Post SplitProofs PostProofs BookProofs ElementsOk Kbs KbFit.
Import ListNotations.
Local Open Scope list_scope.
Local Notation length := List.length.

(** the title is in the text up to case and punctuation *)
Definition title_in (title misc : str) : Prop := exists p b q, misc = p ++ b ++ q /\ key b = key title.
(** a title of the table that is in the text and whose row has that year *)
Definition fits (books : books_kb) (cy misc title : str) (line : list str) : Prop :=
  title_in title misc /\ assoc_str (upper title) books = Some line /\ strip_chars (py ";") (nth 2 line []) = cy.
(** the text without the first occurrence of the title *)
Definition without_title (title misc m : str) : Prop :=
  exists pre body junk rest, misc = pre ++ body ++ junk ++ rest /\ key body = key title
  /\ (exists c u, body = c :: u /\ key [c] <> []) /\ (exists u c, body = u ++ [c] /\ key [c] <> [])
  /\ (forall p b q, misc = p ++ b ++ q -> key b = key title -> length (key pre) <= length (key p))
  /\ forallb (fun c => negb (goes_on c)) junk = true /\ (rest = [] \/ exists c r, rest = c :: r /\ goes_on c = true)
  /\ m = strip pre ++ py " " ++ strip rest.
Definition first_title (books : books_kb) (cy misc : str) (line : list str) (m' : str) : Prop :=
  exists bs1 title r bs2 m, books = bs1 ++ (title, r) :: bs2
  /\ (forall t x ln, In (t, x) bs1 -> ~ fits books cy misc t ln)
  /\ fits books cy misc title line /\ without_title title misc m /\ m' = remove_year m cy.
(** the year of a citation is that of its first YEAR element *)
Definition year_of (l : list el) (cy : str) : Prop :=
  exists a e b, l = a ++ e :: b /\ (forall x, In x a -> e_type x <> YEAR) /\ e_type e = YEAR /\ get Kyear e = Some (VS cy).
Definition settled (t : ety) : Prop := In t [BOOK; JOURNAL; DOI; ISBN; RECID].
Definition is_book_of (line : list str) (b : el) : Prop :=
  e_type b = BOOK /\ e_misc b = [] /\ get Kauthors b = Some (VS (nth 0 line [])) /\ get Ktitle b = Some (VS (nth 1 line []))
  /\ get Kyear b = Some (VS (strip_chars (py ";") (nth 2 line []))).
Definition nothing_in (books : books_kb) (cy : str) (l : list el) : Prop :=
  forall e t x ln, In e l -> In (t, x) books -> ~ fits books cy (e_misc e) t ln.
Inductive book_searched (books : books_kb) (l : list el) : list el -> Prop :=
| bs_settled e : In e l -> settled (e_type e) -> book_searched books l l
| bs_none : (forall e, In e l -> ~ settled (e_type e)) -> (forall cy, year_of l cy -> nothing_in books cy l) -> book_searched books l l
| bs_found cy l1 e l2 line m' b : (forall e, In e l -> ~ settled (e_type e)) -> year_of l cy ->
    l = l1 ++ e :: l2 -> nothing_in books cy l1 -> first_title books cy (e_misc e) line m' -> is_book_of line b ->
    book_searched books l (l1 ++ set_misc m' e :: l2 ++ [b]).
(** every title has a letter or a digit, and its row three columns *)
Definition good_table (books : books_kb) : Prop :=
  forall t x, In (t, x) books -> key t <> [] /\ exists line, assoc_str (upper t) books = Some line /\ 3 <= length line.

Lemma known_settled t : known_type t = true <-> settled t.
Proof. unfold settled. destruct t; cbn; split; intros H; try discriminate; auto 10; repeat destruct H as [H|H]; try discriminate; contradiction. Qed.
Lemma unknown_iff l : is_unknown_citation l = true <-> forall e, In e l -> ~ settled (e_type e).
Proof.
  unfold is_unknown_citation. rewrite forallb_forall. split; intros H e I.
  - intros S. apply known_settled in S. apply H in I. now rewrite S in I.
  - apply negb_true_iff. destruct (known_type (e_type e)) eqn:K; auto. apply known_settled in K. exfalso. eapply H; eauto.
Qed.
Lemma known_iff l : is_unknown_citation l = false -> exists e, In e l /\ settled (e_type e).
Proof.
  unfold is_unknown_citation. induction l as [|e l IH]; [discriminate|]. cbn [forallb]. rewrite andb_false_iff. intros [H|H].
  - apply negb_false_iff, known_settled in H. exists e. cbn. auto.
  - destruct (IH H) as (x & I & S). exists x. cbn. auto.
Qed.
Lemma year_iff l cy : year_from_citation l = Some (VS cy) <-> year_of l cy.
Proof.
  unfold year_from_citation. induction l as [|e l IH].
  - cbn. split; [discriminate|]. intros (a & x & b & H & _). destruct a; discriminate.
  - cbn [find]. destruct (is_type YEAR e) eqn:T.
    + assert (e_type e = YEAR) as Te by (unfold is_type in T; destruct (e_type e); cbn in T; congruence).
      split.
      * intros H. exists [], e, l. cbn. repeat split; auto.
      * intros (a & x & b & H & Na & Tx & G). destruct a as [|y a]; cbn in H; injection H as -> ->; auto. exfalso. apply (Na y); cbn; auto.
    + assert (e_type e <> YEAR) as Te by (intros X; unfold is_type in T; rewrite X in T; discriminate).
      rewrite IH. split.
      * intros (a & x & b & -> & Na & R). exists (e :: a), x, b. split; auto. split; auto. intros y [<-|I]; auto.
      * intros (a & x & b & H & Na & Tx & G). destruct a as [|y a]; cbn in H; injection H as -> ->; [contradiction|].
        exists a, x, b. split; auto. split; auto. intros z I. apply Na. now right.
Qed.

Section Table.
Variable all : books_kb.
Hypothesis Good : good_table all.

Lemma titles_ok books year misc : one_to_one misc -> (forall x, In x books -> In x all) ->
  match search_titles books all year misc with
  | Ok None => forall cy t x ln, year = Some (VS cy) -> In (t, x) books -> ~ fits all cy misc t ln
  | Ok (Some (line, m')) => exists cy, year = Some (VS cy) /\ exists bs1 title r bs2 m, books = bs1 ++ (title, r) :: bs2
      /\ (forall t x ln, In (t, x) bs1 -> ~ fits all cy misc t ln)
      /\ fits all cy misc title line /\ without_title title misc m /\ m' = remove_year m cy
  | Err _ => False
  end.
Proof.
  intros O. induction books as [|(t, x) books IH]; intros Inc.
  { cbn. intros cy t x ln _ []. }
  assert (IH' := IH (fun y I => Inc y (or_intror I))). clear IH.
  assert (forall n : Prop, (forall cy ln, year = Some (VS cy) -> ~ fits all cy misc t ln) ->
    match search_titles books all year misc with
    | Ok None => forall cy t' x' ln, year = Some (VS cy) -> In (t', x') ((t, x) :: books) -> ~ fits all cy misc t' ln
    | Ok (Some (line, m')) => exists cy, year = Some (VS cy) /\ exists bs1 title r bs2 m, (t, x) :: books = bs1 ++ (title, r) :: bs2
        /\ (forall t x ln, In (t, x) bs1 -> ~ fits all cy misc t ln)
        /\ fits all cy misc title line /\ without_title title misc m /\ m' = remove_year m cy
    | Err _ => False
    end) as Skip.
  { intros _ N. destruct (search_titles books all year misc) as [[[line m']|]|]; auto.
    - destruct IH' as (cy & Y & bs1 & title & r & bs2 & m & -> & N1 & R). exists cy. split; auto.
      exists ((t, x) :: bs1), title, r, bs2, m. split; auto. split; auto. intros t' x' ln [E|I]; [injection E as <- <-; auto|eauto].
    - intros cy t' x' ln Y [E|I]; [injection E as <- <-; auto|eauto]. }
  destruct (Good t x (Inc _ (or_introl eq_refl))) as (Kt & line & A & L).
  pose proof (book_spec misc t O Kt) as B. cbn [search_titles].
  destruct (find_substring_ignore_special_chars misc t) as [i|] eqn:F.
  2: { apply (Skip True). intros cy ln Y ((p & b & q & E & K) & _). exact (B p b q E K). }
  rewrite A. destruct line as [|c0 [|c1 [|c2 cl]]]; cbn in L; try lia. cbn [nth_error].
  destruct B as (pre & body & post & junk & rest & Em & Lp & Kb & B1 & B2 & Fst & -> & Fj & Rj & C).
  destruct year as [[cy| | | |]|]; try (apply (Skip True); intros; discriminate).
  destruct (eqs cy (strip_chars (py ";") c2)) eqn:Ey.
  - apply eqs_eq in Ey. rewrite C. cbn [bind]. exists cy. split; auto. exists [], t, x, books, (strip pre ++ py " " ++ strip rest).
    split; auto. split; [intros ? ? ? []|]. split; [|split].
    + split; [exists pre, body, (junk ++ rest); auto|]. split; auto.
    + exists pre, body, junk, rest. repeat (split; auto).
    + now rewrite Ey.
  - apply (Skip True). intros cy' ln E (_ & A' & Y'). rewrite A in A'. injection A' as <-. injection E as <-. cbn [nth] in Y'.
    rewrite Y' in Ey. assert (eqs cy cy = true) as X by now apply eqs_eq. congruence.
Qed.
End Table.
Section Table2.
Variable all : books_kb.
Hypothesis Good : good_table all.
Lemma nth_book_el line : is_book_of line (book_el line).
Proof. unfold is_book_of, book_el. repeat split; reflexivity. Qed.

(** the loop over the elements, with those left behind in [done] *)
Lemma elements_ok h c : closed h c -> NoDup c -> (forall a, In a c -> one_to_one (e_misc (deref h a))) ->
  forall year todo done, c = done ++ todo ->
  (forall cy, year = Some (VS cy) -> nothing_in all cy (map (deref h) done)) ->
  exists h' c', search_elements all year h c todo = Ok (h', c')
  /\ ((h' = h /\ c' = c /\ forall cy, year = Some (VS cy) -> nothing_in all cy (map (deref h) c))
   \/ (exists cy d1 a d2 line m', year = Some (VS cy) /\ c = d1 ++ a :: d2 /\ nothing_in all cy (map (deref h) d1)
       /\ first_title all cy (e_misc (deref h a)) line m' /\ h' = store (h ++ [book_el line]) a (set_misc m') /\ c' = c ++ [length h])).
Proof.
  intros C N O year. induction todo as [|a todo IH]; intros done Ec Nd.
  - exists h, c. split; auto. left. rewrite app_nil_r in Ec. subst done. auto.
  - cbn [search_elements]. assert (In a c) as Ia by (rewrite Ec; apply in_app_iff; cbn; auto).
    pose proof (titles_ok all Good all year (e_misc (deref h a)) (O a Ia) (fun x I => I)) as T.
    destruct (search_titles all all year (e_misc (deref h a))) as [[[line m']|]|]; [| |contradiction]; cbn [bind].
    + destruct T as (cy & Y & T). eexists _, _. split; [reflexivity|]. right. exists cy, done, a, todo, line, m'. repeat (split; auto).
    + apply (IH (done ++ [a])); [now rewrite <- app_assoc|]. intros cy Y e t x ln I. rewrite map_app, in_app_iff in I. destruct I as [I|[<-|[]]]; [eapply Nd; eauto|]. eauto.
Qed.

Definition one_looked (h : heap) (c : citation) : res (heap * citation) :=
  if is_unknown_citation (map (deref h) c) then search_for_book_in_misc all h c else Ok (h, c).
Lemma one_ok h c : closed h c -> NoDup c -> (forall a, In a c -> one_to_one (e_misc (deref h a))) ->
  exists h' c', one_looked h c = Ok (h', c') /\ book_searched all (map (deref h) c) (map (deref h') c')
  /\ length h <= length h' /\ (forall a, a < length h -> ~ In a c -> deref h' a = deref h a)
  /\ (forall a, In a c' -> a < length h' /\ (In a c \/ length h <= a)).
Proof.
  intros C N O. unfold one_looked. destruct (is_unknown_citation (map (deref h) c)) eqn:U.
  2: { exists h, c. split; auto. split; [apply known_iff in U as (e & I & S); econstructor; eauto|]. split; auto. split; auto. intros a I. unfold closed in C. rewrite Forall_forall in C. auto. }
  pose proof (proj1 (unknown_iff _) U) as U'. unfold search_for_book_in_misc.
  destruct (elements_ok h c C N O (year_from_citation (map (deref h) c)) c [] eq_refl) as (h' & c' & E & R).
  { intros cy _ e t x ln []. }
  exists h', c'. split; auto. destruct R as [(-> & -> & R)|(cy & d1 & a & d2 & line & m' & Y & Ec & Nd & F & -> & ->)].
  - split; [|split; auto; split; auto; intros a I; unfold closed in C; rewrite Forall_forall in C; auto]. apply bs_none; auto. intros cy Y. apply R. now apply year_iff.
  - assert (forall x, In x c -> x < length h) as Cl by (unfold closed in C; now rewrite Forall_forall in C).
    assert (In a c) as Ia by (rewrite Ec; apply in_app_iff; cbn; auto).
    pose proof (Cl a Ia) as La. rewrite store_length, app_length. cbn [length]. split; [|split; [lia|split]].
    + pose proof N as N'. rewrite Ec in N'. apply NoDup_remove in N' as [_ Na]. rewrite in_app_iff in Na.
      assert (forall x, In x c -> x <> a -> deref (store (h ++ [book_el line]) a (set_misc m')) x = deref h x) as Q.
      { intros x I D. rewrite deref_store_other by congruence. apply deref_alloc_old. auto. }
      replace (map (deref (store (h ++ [book_el line]) a (set_misc m'))) (c ++ [length h]))
        with (map (deref h) d1 ++ set_misc m' (deref h a) :: map (deref h) d2 ++ [book_el line]).
      * eapply bs_found; eauto; [now apply year_iff|rewrite Ec, map_app; reflexivity|apply nth_book_el].
      * rewrite Ec, !map_app. cbn [map]. rewrite <- app_assoc. cbn [app]. f_equal; [|f_equal; [|f_equal]].
        -- apply map_ext_in. intros x I. symmetry. apply Q; [rewrite Ec; apply in_app_iff; auto|intros ->; auto].
        -- rewrite deref_store_same by (rewrite app_length; cbn; lia). now rewrite deref_alloc_old.
        -- apply map_ext_in. intros x I. symmetry. apply Q; [rewrite Ec; apply in_app_iff; cbn; auto|intros ->; auto].
        -- rewrite deref_store_other by lia. now rewrite deref_alloc_new.
    + intros x L I. rewrite deref_store_other by (intros ->; auto). now apply deref_alloc_old.
    + intros x I. apply in_app_iff in I as [I|[<-|[]]]; [|lia]. split; auto. apply Cl in I. lia.
Qed.

Lemma looked_ok : forall cs h, Forall (closed h) cs -> NoDup (List.concat cs) -> (forall a, In a (List.concat cs) -> one_to_one (e_misc (deref h a))) ->
  exists h' cs', each one_looked h cs = Ok (h', cs') /\ Forall2 (book_searched all) (map (map (deref h)) cs) (map (map (deref h')) cs')
  /\ length h <= length h' /\ (forall a, a < length h -> ~ In a (List.concat cs) -> deref h' a = deref h a).
Proof.
  induction cs as [|c cs IH]; intros h C N O.
  { exists h, []. cbn. repeat split; auto. }
  inversion C as [|? ? C1 C2]; subst. cbn [List.concat] in *.
  assert (NoDup c /\ NoDup (List.concat cs) /\ forall a, In a c -> ~ In a (List.concat cs)) as (N1 & N2 & D).
  { clear - N. induction c as [|a c IH]; cbn in *; [repeat split; auto; constructor|]. inversion N; subst. destruct (IH H2) as (A & B & D). rewrite in_app_iff in H1.
    split; [constructor; tauto|]. split; auto. intros x [<-|I]; auto. }
  destruct (one_ok h c C1 N1) as (h1 & c1 & E1 & B1 & L1 & K1 & S1). { intros a I. apply O. apply in_app_iff. auto. }
  assert (forall a, In a (List.concat cs) -> a < length h) as Lt.
  { intros a I. apply in_concat in I as (x & Ix & Ia). rewrite Forall_forall in C2. specialize (C2 x Ix). unfold closed in C2. rewrite Forall_forall in C2. auto. }
  assert (forall a, In a (List.concat cs) -> deref h1 a = deref h a) as K.
  { intros a I. apply K1; [auto|intros J; eapply D; eauto]. }
  destruct (IH h1) as (h2 & cs2 & E2 & B2 & L2 & K2); auto.
  { eapply Forall_impl; [|exact C2]. intros x Cx. unfold closed in *. eapply Forall_impl; [|exact Cx]. cbn. intros. lia. }
  { intros a I. rewrite K by auto. apply O. apply in_app_iff. auto. }
  exists h2, (c1 :: cs2). cbn [each]. rewrite E1. cbn [bind]. rewrite E2. cbn [bind]. split; auto. cbn [map]. split; [|split; [lia|]].
  - constructor.
    + replace (map (deref h2) c1) with (map (deref h1) c1); auto. apply map_ext_in. intros a I. symmetry. destruct (S1 a I) as (La & [J|J]); apply K2; auto.
      intros X. apply Lt in X. lia.
    + replace (map (map (deref h)) cs) with (map (map (deref h1)) cs); auto. apply map_ext_in. intros x Ix. apply map_ext_in. intros a Ia. apply K. apply in_concat. eauto.
  - intros a L I. rewrite in_app_iff in I. rewrite K2; [apply K1; auto|lia|auto].
Qed.
End Table2.
Lemma books_looked books st : good_table books -> Forall (closed (fst st)) (snd st) -> NoDup (List.concat (snd st)) ->
  (forall a, In a (List.concat (snd st)) -> one_to_one (e_misc (deref (fst st) a))) ->
  exists st', look_for_undetected_books books st = Ok st' /\ Forall2 (book_searched books) (values st) (values st')
  /\ (forall a, a < length (fst st) -> ~ In a (List.concat (snd st)) -> deref (fst st') a = deref (fst st) a).
Proof.
  intros G C N O. destruct (looked_ok books G (snd st) (fst st) C N O) as (h' & cs' & E & F & _ & K).
  exists (h', cs'). split; auto.
Qed.
Lemma built_good rows kb : build_books_kb rows = Ok kb -> Forall full_row rows -> good_table kb.
Proof.
  intros H F t x I. pose proof (books_fit rows kb H F) as Fit. pose proof Fit as Fi. unfold fit_books in Fi. rewrite forallb_forall in Fi. specialize (Fi _ I). cbn [fst snd] in Fi.
  apply andb_true_iff in Fi as (Fi & A). apply andb_true_iff in Fi as (_ & Nk). split; [intros K; rewrite clean_key, K in Nk; discriminate|].
  destruct (assoc_str (upper t) kb) as [line|] eqn:E; [|discriminate]. exists line. split; auto. destruct (fit_row _ _ _ Fit E) as (a & b & c & r & ->). cbn. lia.
Qed.
