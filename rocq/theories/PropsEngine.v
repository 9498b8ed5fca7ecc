(** Final theorems for C01-C07 and C11-C13: reference lines to references.
    [parse_references E K cb f lines] models engine.parse_references on the reference
    lines [lines], with environment [E] (unidecode, unquote, author patterns, ...),
    knowledge bases [K], linker callback [cb] and reference format [f]. *)
From Coq Require Import List Arith NArith Bool String Permutation Lia.
From Verif Require Import PyStr Regex RegexParse Patterns AuthorPatterns Elements Record Transform Split Post ParseTagged
  DocText Tag Find RefText Kbs Engine Demo
  RecordProofs SplitProofs PostProofs EngineProofs ComposeProofs YearProofs LinkProofs CleanupProofs SplitMore.
Import ListNotations.
Open Scope nat_scope.
Local Notation length := List.length.
Local Notation concat := List.concat.

(** ** C01 *)
Theorem C01_line_blocks : forall E K cb f lines refs stats,
  parse_references E K cb f lines = Ok (refs, stats) ->
  exists blocks, refs = concat blocks
    /\ Forall2 (fun line b => b <> [] /\ Forall (fun r => fget Fraw_ref r = Some [line]) b) lines blocks.
Proof.
  intros E K cb f lines refs stats H. destruct (parse_references_blocks _ _ _ _ _ _ _ H) as (b & -> & F).
  exists b. split; auto. eapply Forall2_impl; [|exact F]. unfold block_of. intros l bl [N A]. split; auto.
  eapply Forall_impl; [|exact A]. cbn. tauto.
Qed.
Print Assumptions C01_line_blocks.
(** two lines, the second of which gives two references *)
Example C01_case : exists refs stats, parse_references demo_env demo_kbs None default_format demo_lines = Ok (refs, stats)
  /\ map (fun r => fget Fraw_ref r) refs
     = [Some [nth 0 demo_lines []]; Some [nth 1 demo_lines []]; Some [nth 1 demo_lines []]].
Proof. vm_compute. eauto. Qed.

(** ** C02.  The condition on the key "key" excludes knowledge bases with a journal title
    spelled "key" in lower case, which makes sum_2_dictionaries raise KeyError. *)
Theorem C02_compositional : forall E K cb f l1 l2 rs,
  (forall g n m e, cb = Some g -> g n e = g m e) -> ~ In (py "key") (jk_keys (k_journals K)) ->
  ((exists st, parse_references E K cb f (l1 ++ l2) = Ok (rs, st)) <->
   exists r1 r2 st1 st2, parse_references E K cb f l1 = Ok (r1, st1) /\ parse_references E K cb f l2 = Ok (r2, st2)
     /\ rs = r1 ++ r2).
Proof.
  intros E K cb f l1 l2 rs P N.
  assert (forall l r, (exists st, parse_references E K cb f l = Ok (r, st)) <-> references E K cb f l = Ok r) as R.
  { intros l r. unfold references. destruct (parse_references E K cb f l) as [[r' st]|]; cbn; split.
    - intros (s & X). now inversion X.
    - intros X. inversion X; subst; eauto.
    - now intros (s & X).
    - discriminate. }
  rewrite R, references_app by auto. split.
  - intros (r1 & r2 & H1 & H2 & ->). apply R in H1 as [s1 H1]. apply R in H2 as [s2 H2]. eauto 8.
  - intros (r1 & r2 & s1 & s2 & H1 & H2 & ->). exists r1, r2. rewrite <- !R. eauto.
Qed.
Print Assumptions C02_compositional.
Example C02_case : ~ In (py "key") (jk_keys (k_journals demo_kbs)).
Proof. vm_compute. intuition discriminate. Qed.

(** ** C03 *)
Theorem C03_clean : forall E K cb f lines refs stats r k l,
  parse_references E K cb f lines = Ok (refs, stats) -> In r refs -> In (k, l) r -> k <> Fraw_ref ->
  l <> [] /\ Forall (fun v => v <> []) l
  /\ (k = Fmisc -> Forall (fun v => (forall c t, v = c :: t -> ~ In c (py "])} ,."))
                                  /\ (forall t c, v = t ++ [c] -> ~ In c (py "[({ ,."))) l)
  /\ (k = Flinemarker -> exists v, l = [v] /\ (forall c t, v = c :: t -> ~ In c (py "[](){}. "))
                                  /\ (forall t c, v = t ++ [c] -> ~ In c (py "[](){}. "))).
Proof.
  intros E K cb f lines refs stats r k l H I Ik Nk. destruct (parse_references_blocks _ _ _ _ _ _ _ H) as (bs & -> & F).
  assert (clean_ref r) as [_ C].
  { clear H. induction F as [|x b ls bs [_ A] F IH]; cbn in I; [easy|]. apply in_app_iff in I as [I|I]; auto.
    rewrite Forall_forall in A. now apply A. }
  destruct (C _ _ Ik Nk) as (C1 & C2 & C3 & C4). split; auto. split; auto.
  assert (forall cs v, ~ starts_in cs v -> forall c t, v = c :: t -> ~ In c cs) as S.
  { intros cs v X c t -> Y. apply X. exists c, t. auto. }
  assert (forall cs v, ~ ends_in cs v -> forall t c, v = t ++ [c] -> ~ In c cs) as D.
  { intros cs v X t c -> Y. apply X. exists c, t. auto. }
  split.
  - intros Hk. specialize (C3 Hk). eapply Forall_impl; [|exact C3]. intros v [A B]. split; [apply S|apply D]; auto.
  - intros Hk. destruct (C4 Hk) as (v & -> & A & B). exists v. split; [reflexivity|]. split; [apply S|apply D]; auto.
Qed.
Print Assumptions C03_clean.

(** ** C04.  The natural claim is false: the counters of the first line are lost. *)
Definition stats_of_lines E K cb f lines : option (list nat) :=
  match parse_references E K cb f lines with Ok (_, st) => Some st | Err _ => None end.
Theorem C04_totals_refuted : exists E K f l1 l2 s1 s2 s,
  stats_of_lines E K None f [l1] = Some s1 /\ stats_of_lines E K None f [l2] = Some s2
  /\ stats_of_lines E K None f [l1; l2] = Some s /\ s <> map (fun p => fst p + snd p) (combine s1 s2).
Proof.
  exists plain_env, demo_kbs, default_format, (nth 0 demo_lines []), (nth 1 demo_lines []).
  eexists _, _, _. split; [vm_compute; reflexivity|]. split; [vm_compute; reflexivity|]. split; [vm_compute; reflexivity|].
  vm_compute. discriminate.
Qed.
Print Assumptions C04_totals_refuted.
(** What holds: they are the counters of the last line. *)
Theorem C04_last_line : forall E K cb f lines raw refs stats,
  (forall g n m e, cb = Some g -> g n e = g m e) -> ~ In (py "key") (jk_keys (k_journals K)) ->
  parse_references E K cb f (lines ++ [raw]) = Ok (refs, stats) ->
  exists refs', parse_references E K cb f [raw] = Ok (refs', stats).
Proof. exact stats_last_line. Qed.
Print Assumptions C04_last_line.

(** ** C05.  [citations els]: the citations a line with elements [els] is split into.
    An element whose text contains ';' is cut there: [cut] is the line after the cuts. *)
Theorem C05_nothing_lost : forall els, exists cut,
  Forall2 (fun e l => (~ In 59%N (e_misc e) /\ l = [e])
                      \/ exists before after, e_misc e = before ++ 59%N :: after /\ ~ In 59%N before
                         /\ l = [mkel MISC before []; mkel (e_type e) after (e_dict e)]) els cut
  /\ filter (fun e => negb (is_type AUTH e)) (concat (citations els))
     = filter (fun e => negb (is_type AUTH e)) (concat cut).
Proof.
  intros els. exists (map cut_of els). split.
  - induction els as [|e els IH]; cbn; constructor; auto. pose proof (cut_of_spec e) as C. inversion C; subst; [auto|].
    right. eauto 8.
  - rewrite <- flat_map_concat_map. apply citations_keep.
Qed.
Print Assumptions C05_nothing_lost.
Theorem C05_at_least_one : forall els, citations els <> [].
Proof. exact citations_nonempty. Qed.
Print Assumptions C05_at_least_one.
(** authors only move between citations: every element of a citation comes from the line *)
Theorem C05_nothing_invented : forall els c e, In c (citations els) -> In e c ->
  exists e0, In e0 els /\
   (e = e0 \/ exists before after, e_misc e0 = before ++ 59%N :: after
      /\ (e = mkel MISC before [] \/ e = mkel (e_type e0) after (e_dict e0))).
Proof.
  intros els c e Hc He. destruct (citations_from_line _ _ _ Hc He) as (e0 & I & C). exists e0. split; auto.
  pose proof (cut_of_spec e0) as S. inversion S as [x N Q R|x b a N M Q R]; subst.
  - rewrite <- R in C. destruct C as [<-|[]]. auto.
  - rewrite <- R in C. right. exists b, a. split; auto. destruct C as [<-|[<-|[]]]; auto.
Qed.
Print Assumptions C05_nothing_invented.
Definition J t v y p := mkel JOURNAL t [(Ktitle, VS (py "Phys.Lett.")); (Kvolume, VS (py v)); (Kyear, VS (py y)); (Kpage, VS (py p))].
Definition A t n := mkel AUTH (py t) [(Kauth_txt, VS (py n)); (Kauth_type, VS (py "stnd"))].
Definition R t n := mkel REPORTNUMBER (py t) [(Kreport_num, VS (py n))].
Example C05_case : length (citations [A "" "A. B."; J (py "see ") "B1" "1999" "2"; J (py "; also ") "B2" "2000" "3"; R "" "X-1"]) = 2.
Proof. reflexivity. Qed.

(** ** C06.  Two report numbers with a journal between them stay together. *)
Definition nonadjacent_ok (c : list el) : Prop :=
  forall l x m y r, c = l ++ x :: m ++ y :: r -> m <> [] -> Forall (fun e => is_type (e_type x) e = false) m ->
  e_type x = REPORTNUMBER \/ e_type x = COLLABORATION -> e_type y <> e_type x.
Theorem C06_nonadjacent_refuted : exists els c, In c (citations els) /\ ~ nonadjacent_ok c.
Proof.
  exists [R "" "X-1"; J (py ", ") "B1" "1999" "2"; R ", " "Y-2"], [R "" "X-1"; J (py ", ") "B1" "1999" "2"; R ", " "Y-2"].
  split; [vm_compute; auto|]. intros H.
  apply (H [] (R "" "X-1") [J (py ", ") "B1" "1999" "2"] (R ", " "Y-2") []); vm_compute; auto. discriminate.
Qed.
Print Assumptions C06_nonadjacent_refuted.
(** the same from a line of text *)
Definition refs_of E K f l : option (list ref) :=
  match parse_references E K None f l with Ok (rs, _) => Some rs | Err _ => None end.
Example C06_text : option_map (map (fun r => (fget Freportnumber r, fget Fjournal_page r)))
  (refs_of plain_env demo_kbs default_format
     [py "[1] ATLAS-CONF-2012-001, Phys. Lett. B1 (2000) 2, ATLAS-CONF-2012-002"])
  = Some [(Some [py "ATLAS-CONF-2012-001"; py "ATLAS-CONF-2012-002"], Some [py "2"])].
Proof. vm_compute. reflexivity. Qed.
(** What holds: only report numbers and collaborations can repeat (is_arxiv elements are
    one kind, whatever their type). *)
Definition arxiv (e : el) : bool := truthy_opt (get Kis_arxiv e).
Definition same_kind (x y : el) : Prop := (arxiv x = true /\ arxiv y = true) \/ (arxiv x = false /\ arxiv y = false /\ e_type x = e_type y).
Theorem C06_one_of_each : forall els c i j x y,
  In c (citations els) -> i < j -> nth_error c i = Some x -> nth_error c j = Some y ->
  e_type x <> MISC -> e_type x <> AUTH -> e_type y <> MISC -> e_type y <> AUTH -> same_kind x y ->
  arxiv x = false /\ (e_type x = REPORTNUMBER \/ e_type x = COLLABORATION).
Proof.
  intros els c i j x y Hc Hij Hx Hy X1 X2 Y1 Y2 S. pose proof (citations_pure _ _ Hc i j x y Hij Hx Hy) as P.
  assert (counts_for_split x = true) as Cx by (unfold counts_for_split; destruct (e_type x); congruence).
  assert (counts_for_split y = true) as Cy by (unfold counts_for_split; destruct (e_type y); congruence).
  specialize (P Cx Cy). unfold ctype_of, repeatable, same_kind, arxiv in *.
  destruct S as [[Sx Sy]|(Sx & Sy & T)]; rewrite Sx, Sy in P.
  - specialize (P eq_refl). discriminate.
  - rewrite T in P. specialize (P eq_refl). rewrite T. split; auto. destruct (e_type y); try discriminate; auto.
Qed.
Print Assumptions C06_one_of_each.
Example C06_case : length (citations [J [] "B1" "1999" "2"; R "" "X-1"; R "" "X-2"; J [] "B2" "2000" "3"]) = 2.
Proof. reflexivity. Qed.

(** And a line is split nowhere else.  Without semicolons, a line in which nothing is repeated that a citation has only once
    is one citation; and without authors, each further citation begins with an element that repeats one of the citation before. *)
Definition only_once (e : el) : Prop := arxiv e = true \/ (e_type e <> REPORTNUMBER /\ e_type e <> COLLABORATION).
Lemma repeats_kind x y : repeats x y <-> e_type x <> MISC /\ e_type x <> AUTH /\ same_kind x y /\ only_once y.
Proof.
  unfold repeats, counts_for_split, ctype_of, repeatable, same_kind, only_once, arxiv.
  destruct (truthy_opt (get Kis_arxiv x)), (truthy_opt (get Kis_arxiv y)); split.
  - intros (A & _ & _). destruct (e_type x); try discriminate A; intuition discriminate.
  - intros (A & B & _). destruct (e_type x); intuition.
  - intros (_ & E & _). discriminate.
  - intros (_ & _ & [[_ E]|[E _]] & _); discriminate.
  - intros (_ & E & _). discriminate.
  - intros (_ & _ & [[E _]|(_ & E & _)] & _); discriminate.
  - intros (A & E & R). injection E as E. rewrite E in *. destruct (e_type y); try discriminate; repeat split; try discriminate; right; repeat split; auto; discriminate.
  - intros (A & B & [[E _]|(_ & _ & E)] & [O|[O1 O2]]); try discriminate. rewrite E in *. destruct (e_type y); intuition.
Qed.
Theorem C06_together : forall els, (forall e, In e els -> ~ In 59%N (e_misc e)) ->
  (forall i j x y, i < j -> nth_error els i = Some x -> nth_error els j = Some y ->
     e_type x <> MISC -> e_type x <> AUTH -> same_kind x y -> ~ only_once y) -> citations els = [els].
Proof. intros els N H. apply together; auto. intros i j x y L X Y R. apply repeats_kind in R as (A & B & S & O). eapply H; eauto. Qed.
Print Assumptions C06_together.
Definition C t n := mkel COLLABORATION (py t) [(Kcollaboration, VS (py n))].
Example C06_together_case : let els := [A "" "A. B."; C ", " "ATLAS"; C ", " "CMS"; R ", " "X-1"; J (py ", ") "B1" "1999" "2"; R ", " "X-2"] in
  (forall e, In e els -> ~ In 59%N (e_misc e))
  /\ (forall i j x y, i < j -> nth_error els i = Some x -> nth_error els j = Some y ->
     e_type x <> MISC -> e_type x <> AUTH -> same_kind x y -> ~ only_once y).
Proof.
  cbn zeta. split.
  - intros e I. cbn in I. repeat (destruct I as [<-|I]; [vm_compute; intuition discriminate|]). contradiction.
  - intros i j x y L X Y. destruct i as [|[|[|[|[|[|i]]]]]]; cbn in X; try (destruct i; discriminate); injection X as <-;
      (destruct j as [|[|[|[|[|[|j]]]]]]; [lia| | | | |  |destruct j; discriminate]); try lia; cbn in Y; injection Y as <-;
      intros _ Na Sk [O|[O1 O2]]; try discriminate O; try (now apply Na); try (now apply O1); try (now apply O2);
      destruct Sk as [[Sk _]|(_ & _ & Sk)]; discriminate.
Qed.
Theorem C06_begins : forall els, (forall e, In e els -> ~ In 59%N (e_misc e)) -> (forall e, In e els -> e_type e <> AUTH) ->
  forall l c c' r, citations els = l ++ c :: c' :: r ->
  exists y t x, c' = y :: t /\ In x c /\ e_type x <> MISC /\ same_kind x y /\ only_once y.
Proof.
  intros els N A l c c' r E. destruct (split_begin els N A l c c' r E) as (y & t & x & -> & I & R). apply repeats_kind in R as (M & _ & S & O). exists y, t, x. auto.
Qed.
Print Assumptions C06_begins.
Example C06_begins_case : citations [J [] "B1" "1999" "2"; R "" "X-1"; J (py ", ") "B2" "2000" "3"; R "" "X-2"]
  = [] ++ [J [] "B1" "1999" "2"; R "" "X-1"] :: [J (py ", ") "B2" "2000" "3"; R "" "X-2"] :: [].
Proof. reflexivity. Qed.

(** ** C07.  An author group popped at a semicolon is lost when the next citation has an
    author of its own. *)
Theorem C07_author_lost_refuted : exists els a, In a els /\ e_type a = AUTH
  /\ forall c, In c (citations els) -> ~ In a c.
Proof.
  exists [A "" "A. Smith"; mkel DOI [] [(Kdoi_string, VS (py "10.1/x"))]; A ", " "B. Jones"; A "; " "C. Brown"; J (py ", ") "B1" "2000" "2"],
         (A ", " "B. Jones").
  split; [cbn; auto|]. split; [reflexivity|]. intros c Hc Ha. vm_compute in Hc.
  repeat match goal with H : _ \/ _ |- _ => destruct H | H : False |- _ => destruct H end; subst; vm_compute in Ha;
    repeat match goal with H : _ \/ _ |- _ => destruct H | H : False |- _ => destruct H end; discriminate.
Qed.
Print Assumptions C07_author_lost_refuted.
Example C07_text : option_map (map (fun r => (fget Fauthor r, fget Fmisc r)))
  (refs_of demo_env demo_kbs default_format
     [py "[1] A. Smith, doi:10.1000/abc, B. Jones; C. Brown, Phys. Lett. B1 (2000) 2"])
  = Some [(Some [py "A. Smith"], None); (Some [py "C. Brown"], Some [py ";"])].
Proof. vm_compute. reflexivity. Qed.
(** What holds: without semicolons every author is in some citation. *)
Theorem C07_authors_kept : forall els, (forall e, In e els -> ~ In 59%N (e_misc e)) ->
  forall a, In a els -> e_type a = AUTH -> exists c, In c (citations els) /\ In a c.
Proof. exact authors_kept. Qed.
Print Assumptions C07_authors_kept.
Example C07_case : map (fun c => length (filter (is_type AUTH) c))
   (citations [A "" "A. Smith"; J (py ", ") "B1" "2000" "2"; A ", " "B. Jones"; J (py ", ") "B2" "2000" "2"]) = [1; 1].
Proof. reflexivity. Qed.

(** ** C11 *)
Theorem C11_at_most_one_year : forall E K cb f lines refs stats r,
  parse_references E K cb f lines = Ok (refs, stats) -> In r refs -> length (flist Fyear r) <= 1.
Proof.
  intros E K cb f lines refs stats r H I. destruct (parse_references_blocks _ _ _ _ _ _ _ H) as (bs & -> & F).
  clear H. induction F as [|x b ls bs [_ Q] F IH]; cbn in I; [easy|]. apply in_app_iff in I as [I|I]; auto.
  rewrite Forall_forall in Q. now apply Q.
Qed.
Print Assumptions C11_at_most_one_year.
(** The year is not invented: the reference comes from a citation [cit]; [l] is that
    citation when its year is chosen (its journals and books are still those of [cit]). *)
Theorem C11_year_source : forall E K cb f lines refs stats,
  parse_references E K cb f lines = Ok (refs, stats) ->
  Forall (fun r => exists cit l ys extra, origin cb f r cit /\ chosen_year l ys /\ flist Fyear r = ys
    /\ dates cit = dates l ++ map (fun y => (YEAR, Some (VS y))) ys ++ extra
    /\ (extra = [] \/ (is_unknown_citation l = true /\ exists y, extra = [(BOOK, Some (VS y))]))) refs.
Proof. exact reference_years. Qed.
Print Assumptions C11_year_source.
(** The part "the first year of a journal or book is used" is false: a journal without a
    year hides the year of a book after it. *)
Definition book_kbs : kbs :=
  mkkbs (k_journals demo_kbs) [] (mkrk [] []) [] [] [] [(py "A BOOK OF FIELDS", [py "J. Doe"; py "A Book of Fields"; py "1990"])] [].
Definition book_line : str := py "[1] Phys. Lett. B12, 34, ""A Book of Fields""".
Theorem C11_first_year_refuted : exists E K f line r authors title year,
  refs_of E K f [line] = Some [r] /\ In (upper title, [authors; title; year]) (k_books K) /\ year <> []
  /\ fget Ftitle r = Some [title] /\ fget Fyear r = None.
Proof.
  exists plain_env, book_kbs, default_format, book_line. eexists _, (py "J. Doe"), (py "A Book of Fields"), (py "1990").
  split; [vm_compute; reflexivity|]. split; [left; vm_compute; reflexivity|]. split; [discriminate|]. split; vm_compute; reflexivity.
Qed.
Print Assumptions C11_first_year_refuted.
Example C11_case : option_map (map (fget Fyear)) (refs_of plain_env demo_kbs default_format demo_lines)
  = Some [Some [py "1999"]; Some [py "2001"]; Some [py "2002"]].
Proof. vm_compute. reflexivity. Qed.

(** ** C12 *)
Theorem C12_tidy : forall E K cb f lines refs stats r,
  parse_references E K cb f lines = Ok (refs, stats) -> In r refs ->
  length (flist Fauthor r) <= 1 /\ length (flist Fdoi r) <= 1 /\ NoDup (flist Fcollaboration r).
Proof.
  intros E K cb f lines refs stats r H I. destruct (parse_references_blocks _ _ _ _ _ _ _ H) as (bs & -> & F).
  clear H. induction F as [|x b ls bs [_ Q] F IH]; cbn in I; [easy|]. apply in_app_iff in I as [I|I]; auto.
  rewrite Forall_forall in Q. destruct (Q _ I) as (_ & _ & T). unfold tidy_ref, at_most_one in T. tauto.
Qed.
Print Assumptions C12_tidy.
(** Surplus author groups become misc text that ends with the author's text; all other
    elements except repeated DOIs and collaborations are kept. *)
Theorem C12_surplus_kept : forall st4 st5 st7 st8, Forall (closed (fst st4)) (snd st4) ->
  remove_duplicated_authors st4 = Ok st5 -> remove_duplicated_collaborations (remove_duplicated_dois st5) = Ok st7 ->
  add_recid_elements st7 = Ok st8 ->
  Forall2 (fun c4 c8 => exists c5 body,
      Forall2 (fun e e' => e' = e \/ (e_type e = AUTH /\ exists txt, get Kauth_txt e = Some (VS txt)
                              /\ e' = mkel MISC (e_misc e ++ 32%N :: txt) (e_dict e))) c4 c5
      /\ Permutation (filter no_doi_collab body) (filter no_doi_collab c5)
      /\ (c8 = body \/ exists v, c8 = body ++ [recid_el v])) (values st4) (values st8).
Proof. exact late_cleanup. Qed.
Print Assumptions C12_surplus_kept.
Example C12_case : option_map (map (fun r => (fget Fauthor r, fget Fmisc r)))
  (refs_of demo_env demo_kbs default_format [py "[1] A. Smith, see text, B. Jones, Phys. Lett. B1 (2000) 2"])
  = Some [(Some [py "A. Smith"], Some [py "see text, B. Jones"])].
Proof. vm_compute. reflexivity. Qed.

(** ** C13 *)
Theorem C13_recid_is_answer : forall E K g f lines refs stats,
  parse_references E K (Some g) f lines = Ok (refs, stats) ->
  Forall (fun r => length (flist Frecid r) <= 1 /\
    Forall (fun s => exists m e v, g m e = Ok v /\ truthy v = true /\ str_of_val v = Ok s) (flist Frecid r)) refs.
Proof.
  intros E K g f lines refs stats H. pose proof (recid_with_callback _ _ _ _ _ _ _ H) as R.
  destruct (parse_references_blocks _ _ _ _ _ _ _ H) as (bs & -> & F). rewrite Forall_forall in *. intros r I. split; auto.
  clear H R. induction F as [|x b ls bs [_ Q] F IH]; cbn in I; [easy|]. apply in_app_iff in I as [I|I]; auto.
  rewrite Forall_forall in Q. now apply Q.
Qed.
Print Assumptions C13_recid_is_answer.
Theorem C13_no_callback_no_recid : forall E K f lines refs stats,
  parse_references E K None f lines = Ok (refs, stats) -> Forall (fun r => flist Frecid r = []) refs.
Proof. exact recid_without_callback. Qed.
Print Assumptions C13_no_callback_no_recid.
(** the recid is the first truthy answer among the elements of the citation *)
Theorem C13_first_answer : forall K g n els cits n',
  Forall (fun e => e_type e <> YEAR /\ e_type e <> RECID) els -> cite K (Some g) n els = Ok (cits, n') ->
  n <= n' /\ Forall (fun cit => exists body,
     Forall (fun e => e_type e <> RECID /\ asked g n n' e) body
     /\ match find (fun e => truthy_opt (get Krecid e)) body with
        | Some e => exists v, get Krecid e = Some v /\ cit = body ++ [recid_el v]
        | None => cit = body
        end) cits.
Proof. exact cite_recid. Qed.
Print Assumptions C13_first_answer.
(** IndexError and KeyError count as no recid, every other exception is raised *)
Theorem C13_exceptions : forall g l n,
  (forall l' n', associate_recids g n l = Ok (l', n') <->
     n' = n + length l /\ length l' = length l /\
     forall i e e', nth_error l i = Some e -> nth_error l' i = Some e' ->
       exists v, (g (n + i) e = Ok v \/ ((g (n + i) e = Err IndexError \/ g (n + i) e = Err KeyError) /\ v = VNone))
                 /\ e' = set Krecid v e) /\
  (forall x, associate_recids g n l = Err x <->
     exists i e, nth_error l i = Some e /\ g (n + i) e = Err x /\ (x <> IndexError /\ x <> KeyError) /\
       forall j d, j < i -> nth_error l j = Some d ->
         exists v, g (n + j) d = Ok v \/ ((g (n + j) d = Err IndexError \/ g (n + j) d = Err KeyError) /\ v = VNone)).
Proof. intros g l n. split; intros; [apply associate_ok|apply associate_err]. Qed.
Print Assumptions C13_exceptions.
Definition demo_cb : callback := fun n e => match e_type e with
  | AUTH => Err KeyError | JOURNAL => Ok (VS (py "12")) | DOI => Ok (VS (py "7")) | _ => Ok VNone end.
Example C13_case : match parse_references demo_env demo_kbs (Some demo_cb) default_format demo_lines with
  | Ok (rs, _) => map (fget Frecid) rs = [Some [py "12"]; Some [py "7"]; Some [py "12"]] | Err _ => False end.
Proof. vm_compute. reflexivity. Qed.
