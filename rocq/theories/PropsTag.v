(** Properties C18-C23: positions, masking, recognised spans, identifiers. *)
From Coq Require Import List Arith NArith Bool String Lia.
From Verif Require Import PyStr ListFacts Elements Record Regex Patterns DocText Tag Kbs Engine Api Demo
  RegexMeta SpaceProofs StripProofs SpanProofs ShippedReports UrlProofs.
Import ListNotations.
Local Open Scope nat_scope.
Local Notation length := List.length.
Local Notation concat := List.concat.

(** ** C18 *)
(** The line is cut into pieces, each one character or a run of at least two white spaces ([unit_]), no two
    neighbours blank; the squeezed line has one character for each piece.  A match of [len]
    characters at [i] of the squeezed line then is [len] pieces, and the translated start and end enclose
    exactly these pieces. *)
Theorem C18_positions : forall line spaces sq, remove_and_record_multiple_spaces_in_line line = (spaces, sq) ->
  exists bs, concat bs = line /\ sq = map squeezed bs /\ Forall unit_ bs
    /\ (forall u b1 b2 v, bs = u ++ b1 :: b2 :: v -> ~ (blank b1 /\ blank b2))
    /\ forall i len idx extras, i + len <= length sq -> account_for_stripped_whitespace spaces (Some len) i = (idx, extras) ->
         firstn idx line = concat (firstn i bs)
         /\ slice idx (idx + len + extras) line = concat (firstn len (skipn i bs))
         /\ skipn (idx + len + extras) line = concat (skipn (i + len) bs).
Proof. exact squeeze_positions. Qed.
Print Assumptions C18_positions.
(** ... and for publishers, where the length is not used, the start *)
Theorem C18_start : forall line spaces sq, remove_and_record_multiple_spaces_in_line line = (spaces, sq) ->
  exists bs, concat bs = line /\ sq = map squeezed bs /\ Forall unit_ bs
    /\ forall i, i <= length sq -> exists idx, account_for_stripped_whitespace spaces None i = (idx, 0)
         /\ firstn idx line = concat (firstn i bs).
Proof. exact squeeze_start. Qed.
Print Assumptions C18_start.
Example C18_case : exists spaces, remove_and_record_multiple_spaces_in_line (py "a   b  cd e") = (spaces, py "a b cd e")
  /\ account_for_stripped_whitespace spaces (Some 4) 2 = (4, 1).
Proof. eexists. split; vm_compute; reflexivity. Qed.
(** the end of a publisher is not translated: with a run of white space (or punctuation) inside its name the last
    letters of the name are left in the line *)
Definition publisher_kbs : kbs :=
  mkkbs (k_journals demo_kbs) [] (mkrk [] []) (match build_publishers_kb [(py "North Holland", py "NH")] with Ok k => k | Err _ => [] end) [] [] [] [].
Theorem C18_publisher_refuted : exists c std,
  tag_reference_line plain_env (py "in North- Holland 1999") publisher_kbs [] = Ok (py "in <cds.PUBLISHER>NH</cds.PUBLISHER>d 1999", c, std).
Proof. eexists. eexists. vm_compute. reflexivity. Qed.
Print Assumptions C18_publisher_refuted.
(** the positions are those of the line in upper case, which can be longer than the line *)
Theorem C18_upper_refuted : exists c std,
  tag_reference_line plain_env (223%N :: py " x y Phys. Lett. B12 (1999) 34") demo_kbs []
  = Ok (223%N :: py " x y P<cds.JOURNAL>Phys.Lett.</cds.JOURNAL> <cds.VOL>B12</cds.VOL> <cds.YR>(1999)</cds.YR> <cds.PG>34</cds.PG>", c, std).
Proof. eexists. eexists. vm_compute. reflexivity. Qed.
Print Assumptions C18_upper_refuted.
(** titles found by the regular expressions of the knowledge base (the package ships one, DAN) are placed by their
    position in the line itself, which is then taken for a position of the squeezed line *)
Theorem C18_regex_titles_refuted :
  let K := mkkbs (k_journals demo_kbs) [(py "DAN", py "Dokl.Akad.Nauk Ser.Fiz.")]%string (mkrk [] []) [] [] [] [] [] in
  (exists c std, tag_reference_line plain_env (py "see A Author DAN 12 (1990) 34") K []
     = Ok (py "see A Author <cds.JOURNAL>Dokl.Akad.Nauk Ser.Fiz.</cds.JOURNAL> <cds.VOL>12</cds.VOL> <cds.YR>(1990)</cds.YR> <cds.PG>34</cds.PG>", c, std))
  /\ (exists c std, tag_reference_line plain_env (py "see A. Author, DAN 12 (1990) 34") K []
     = Ok (py "see A. Author, DA<cds.JOURNAL>Dokl.Akad.Nauk Ser.Fiz.</cds.JOURNAL> <cds.VOL>2</cds.VOL> <cds.YR>(1990)</cds.YR> <cds.PG>34</cds.PG>", c, std)).
Proof. cbv zeta. split; eexists; eexists; vm_compute; reflexivity. Qed.
Print Assumptions C18_regex_titles_refuted.

(** ** C19 *)
(** A tag ([tag_text]) is "<cds.X />" or "<cds.X>...</cds.Y>" with capital letters X, Y and no "<" between; a line is
    [not_nested] if every opening "<cds.X>" is closed before the next "<".  Then the line is some pieces of text
    and some tags in turn, the result is the same with as many underscores in place of every tag, and no tag
    is left. *)
Theorem C19_masked : forall line, not_nested line -> exists ps last,
  line = concat (map (fun q => fst q ++ snd q) ps) ++ last
  /\ strip_tags line = concat (map (fun q => fst q ++ underscores (length (snd q))) ps) ++ last
  /\ Forall (fun q => tag_text (snd q)) ps
  /\ (forall a w b, strip_tags line = a ++ w ++ b -> ~ tag_text w).
Proof. exact strip_spec. Qed.
Print Assumptions C19_masked.
Theorem C19_length : forall line, not_nested line -> length (strip_tags line) = length line.
Proof. exact strip_length. Qed.
Print Assumptions C19_length.
Example C19_case : let line := py "a <cds.QUOTED>some text</cds.QUOTED>, <cds.URL /> b <cds.ISBN>1</cds.ISBN" ++ py ">" in
  not_nested line /\ strip_tags line = py "a " ++ underscores 34 ++ py ", " ++ underscores 11 ++ py " b " ++ underscores 22.
Proof. cbv zeta. split; [apply nest_check_ok|]; vm_compute; reflexivity. Qed.
(** A URL inside quotes makes a tag inside a tag; if another tag follows, the masked line is shorter and the journal
    is lost, which is recognised without the quotes. *)
Definition dq : str := [34%N].
Definition in_quotes (a u b : str) : str := py "A. Bee, " ++ a ++ py "see " ++ u ++ py " here" ++ b ++ py ", <cds.DOI />, Phys. Lett. B12 (1999) 34".
Theorem C19_nested_refuted :
  length (strip_tags (in_quotes (py "<cds.QUOTED>") (py "<cds.URL />") (py "</cds.QUOTED>")))
    < length (in_quotes (py "<cds.QUOTED>") (py "<cds.URL />") (py "</cds.QUOTED>"))
  /\ (exists c s, tag_reference_line plain_env (in_quotes dq (py "<cds.URL />") dq) demo_kbs []
      = Ok (in_quotes (py "<cds.QUOTED>") (py "<cds.URL />") (py "</cds.QUOTED>"), c, s))
  /\ (exists c s, tag_reference_line plain_env (in_quotes [] (py "<cds.URL />") []) demo_kbs []
      = Ok (py "A. Bee, see <cds.URL /> here, <cds.DOI />, <cds.JOURNAL>Phys.Lett.</cds.JOURNAL> <cds.VOL>B12</cds.VOL> <cds.YR>(1999)</cds.YR> <cds.PG>34</cds.PG>", c, s)).
Proof. split; [vm_compute; lia|split; eexists; eexists; vm_compute; reflexivity]. Qed.
Print Assumptions C19_nested_refuted.

(** ** C20 *)
(** [marked len line m line']: the spans [m] (start, and what was found, of length [len]) are not empty, within the line and
    pairwise disjoint, and [line'] is the line with underscores on the spans and unchanged elsewhere. *)
Remark marked_means : forall A (len : A -> nat) line m line', marked len line m line' <->
  length line' = length line
  /\ (forall i v, In (i, v) m -> 1 <= len v /\ i + len v <= length line)
  /\ NoDup (map fst m)
  /\ (forall i v j w, In (i, v) m -> In (j, w) m -> i < j -> i + len v <= j)
  /\ (forall p c, nth_error line p = Some c -> nth_error line' p =
        Some (if existsb (fun e => (fst e <=? p) && (p <? fst e + len (snd e))) m then 95%N else c)).
Proof. intros. split; [intros [H1 H2 H3 H4 H5]|intros (H1 & H2 & H3 & H4 & H5); split]; auto. Qed.
(** Titles: for every knowledge base whose titles are not empty and have no underscore.  The counts are right. *)
Theorem C20_titles : forall rows line, (forall t, In t (jk_keys (build_journals_kb rows)) -> t <> [] /\ ~ In 95%N t) ->
  exists s, identify_journals line (build_journals_kb rows) = Ok s
  /\ marked (@length ch) line (j_matches s) (j_line s)
  /\ (forall i t, In (i, t) (j_matches s) -> In t (jk_keys (build_journals_kb rows)) /\ slice i (i + length t) line = t)
  /\ (forall t, (match assoc_str t (j_count s) with Some n => n | None => 0 end) = length (filter (fun e => eqs (snd e) t) (j_matches s))).
Proof. intros rows line U. destruct (journals_spec rows line U) as (s & A & B & C & D & _). exists s. auto. Qed.
Print Assumptions C20_titles.
Theorem C20_ibids : forall line, let (m, line') := identify_ibids line in
  marked (@length ch) line m line'
  /\ (forall i w, In (i, w) m -> slice i (i + length w) line = w
       /\ exists a b c, (a = [] \/ a = py "-") /\ (b = [] \/ b = py "EM") /\ (c = [] \/ c = py ".") /\ w = a ++ py "IBID" ++ b ++ c)
  /\ (forall a b, line' <> a ++ py "IBID" ++ b).
Proof. exact ibids_spec. Qed.
Print Assumptions C20_ibids.
(** Report numbers: for patterns of the shape the builder makes ([rep_ok]: a lead without groups, then group 1 with the number)
    that read no underscore.  The line is the line with blanks for slashes.  Each span is replaced by the
    standard category and the cleaned number, which is part of the span. *)
Theorem C20_reports : forall kb line,
  (forall key, In key (map fst (rk_std kb)) -> exists p std, assoc_rep key (rk_search kb) = Some p /\ assoc_rep key (rk_std kb) = Some std /\ rep_ok p = true) ->
  let line0 := map (fun c => if N.eqb c 47 then 32%N else c) line in
  exists s, identify_report_numbers line kb = Ok s
  /\ marked (fun n => n) line0 (r_len s) (r_line s)
  /\ (forall i n, In (i, n) (r_len s) -> ~ In 95%N (slice i (i + n) line0))
  /\ map fst (r_repl s) = map fst (r_len s)
  /\ (forall i n v, In (i, n) (r_len s) -> In (i, v) (r_repl s) -> exists key p std u w,
        assoc_rep key (rk_search kb) = Some p /\ assoc_rep key (rk_std kb) = Some std
        /\ v = std ++ clean_numeration (slice u w line0) /\ i <= u /\ u <= w /\ w <= i + n).
Proof. intros kb line H line0. destruct (reports_spec kb line H) as (s & E & [A B C D]). exists s. auto 6. Qed.
Print Assumptions C20_reports.
(** the three passes of one line: no place is in two spans *)
Theorem C20_apart : forall kb rows line, reports_fine kb -> (forall t, In t (jk_keys (build_journals_kb rows)) -> t <> [] /\ ~ In 95%N t) ->
  exists r j, identify_report_numbers line kb = Ok r /\ identify_journals (r_line r) (build_journals_kb rows) = Ok j
  /\ let ib := fst (identify_ibids (j_line j)) in
     forall p, ~ (inside (fun n => n) (r_len r) p = true /\ inside (@length ch) (j_matches j) p = true)
            /\ ~ (inside (fun n => n) (r_len r) p = true /\ inside (@length ch) ib p = true)
            /\ ~ (inside (@length ch) (j_matches j) p = true /\ inside (@length ch) ib p = true).
Proof. exact passes_spec. Qed.
Print Assumptions C20_apart.
(** the shipped report number knowledge base meets the hypothesis, but for one category with an underscore *)
Definition shipped_reports_kb : repnum_kb := Eval vm_compute in match build_reportnum_kb shipped_reports with Ok kb => kb | Err _ => mkrk [] [] end.
Definition odd_category (key : repkey) : bool := eqs (snd key) (py "CDF PUB SEC_VTX PUBLIC    ").
Example C20_case_reports : length (rk_std shipped_reports_kb) = 335
  /\ reports_fine (mkrk (filter (fun e => negb (odd_category (fst e))) (rk_search shipped_reports_kb)) (filter (fun e => negb (odd_category (fst e))) (rk_std shipped_reports_kb))).
Proof.
  split; [vm_compute; reflexivity|]. set (kb := mkrk _ _).
  assert (forallb (fun key => match assoc_rep key (rk_search kb), assoc_rep key (rk_std kb) with Some p, Some _ => rep_ok p | _, _ => false end) (map fst (rk_std kb)) = true) as H by (vm_compute; reflexivity).
  intros key I. rewrite forallb_forall in H. apply H in I. destruct (assoc_rep key (rk_search kb)) as [p|]; [|discriminate]. destruct (assoc_rep key (rk_std kb)) as [std|]; [|discriminate]. eauto.
Qed.
Definition span_rows : list (str * str) := [(py "PHYS REV", py "Phys.Rev."); (py "PHYS REV LETT", py "Phys.Rev.Lett."); (py "REV", py "Rev.")].
Example C20_case : (forall t, In t (jk_keys (build_journals_kb span_rows)) -> t <> [] /\ ~ In 95%N t)
  /\ exists r j, identify_report_numbers (py "X CERN/TH 99 123 PHYS REV LETT 5 REV 6 IBID 7") (match build_reportnum_kb (map py ["*****CERN*****"; "<s99s999>"; "CERN TH ---CERN-TH"]%string) with Ok k => k | Err _ => mkrk [] [] end) = Ok r
  /\ r_len r = [(2, 14)] /\ r_repl r = [(2, py "CERN-TH-99-123")]
  /\ identify_journals (r_line r) (build_journals_kb span_rows) = Ok j /\ j_matches j = [(17, py "PHYS REV LETT"); (33, py "REV")]
  /\ identify_ibids (j_line j) = ([(39, py "IBID")], py "X ______________ _____________ 5 ___ 6 ____ 7").
Proof.
  split.
  - assert (forallb (fun t => nonempty t && negb (mem_ch 95%N t)) (jk_keys (build_journals_kb span_rows)) = true) as H by (vm_compute; reflexivity).
    intros t I. rewrite forallb_forall in H. apply H in I. apply andb_true_iff in I as (I1 & I2). split; [intros ->; discriminate|]. intros I. apply negb_true_iff in I2. apply mem_ch_in in I. congruence.
  - eexists. eexists. split; [vm_compute; reflexivity|]. split; [vm_compute; reflexivity|]. split; [vm_compute; reflexivity|]. split; [vm_compute; reflexivity|]. split; vm_compute; reflexivity.
Qed.
(** a numeration that reads any word character reads the underscores of another report number *)
Theorem C20_word_numbers_refuted : exists kb s, build_reportnum_kb (map py ["*****A*****"; "<s w+>"; "AA ---AA"; "*****B*****"; "<s9999>"; "LONG CAT ---LC"]%string) = Ok kb
  /\ identify_report_numbers (py "SEE AA LONG CAT 1234 X") kb = Ok s
  /\ r_len s = [(4, 16); (7, 13)] /\ r_repl s = [(4, py "AA-_____________"); (7, py "LC-1234")].
Proof. eexists. eexists. split; [vm_compute; reflexivity|]. split; [vm_compute; reflexivity|]. split; vm_compute; reflexivity. Qed.
Print Assumptions C20_word_numbers_refuted.

(** ** C21 *)
(** A phrase of the left column can be recognised ([recognisable]) between characters that are no word characters, any other title
    behind a word boundary but not behind a slash, and before a character other than A-Z and 0-9.  Wherever a title can be
    recognised in a line, a title at least as long is reported that overlaps or touches it. *)
Theorem C21_longest : forall rows line, (forall t, In t (jk_keys (build_journals_kb rows)) -> t <> [] /\ ~ In 95%N t) ->
  exists s, identify_journals line (build_journals_kb rows) = Ok s
  /\ forall t a c b, In t (jk_keys (build_journals_kb rows)) -> line = a ++ t ++ c :: b -> recognisable rows a t c b ->
       exists i t', In (i, t') (j_matches s) /\ length t <= length t' /\ i <= length a + length t /\ length a <= i + length t'.
Proof. intros rows line U. destruct (journals_spec rows line U) as (s & A & B & C & D & E). exists s. auto. Qed.
Print Assumptions C21_longest.
(** ... so a reported title gives way to a longer one at its place, unless a still longer one takes part of that *)
Theorem C21_same_place : forall rows line s, (forall t, In t (jk_keys (build_journals_kb rows)) -> t <> [] /\ ~ In 95%N t) ->
  identify_journals line (build_journals_kb rows) = Ok s ->
  forall a t, In (length a, t) (j_matches s) ->
  forall t' c b, In t' (jk_keys (build_journals_kb rows)) -> length t < length t' -> line = a ++ t' ++ c :: b -> recognisable rows a t' c b ->
  exists i u, In (i, u) (j_matches s) /\ length t' <= length u /\ (i + length u = length a \/ length a + length t <= i <= length a + length t').
Proof.
  intros rows line s U E a t I t' c b K L El R. destruct (journals_spec rows line U) as (s' & E' & M & _ & _ & Q). rewrite E in E'. injection E' as <-.
  destruct (Q t' a c b K El R) as (i & u & Iu & Lu & B1 & B2). exists i, u. split; auto. split; auto.
  destruct (Nat.lt_trichotomy i (length a)) as [H|[H|H]].
  - left. pose proof (mk_disjoint _ _ _ _ M _ _ _ _ Iu I H). lia.
  - subst i. assert (u = t) by (pose proof (mk_keys _ _ _ _ M) as D; clear - D Iu I; induction (j_matches s) as [|(k, v) m IH]; [destruct I|];
      cbn [map fst] in D; inversion D as [|? ? D1 D2]; subst; destruct I as [I|I], Iu as [Iu|Iu]; [congruence| | |auto]; exfalso; apply D1; apply in_map_iff;
      [exists (length a, u)|exists (length a, t)]; cbn [fst]; split; auto; congruence). subst u. lia.
  - right. pose proof (mk_disjoint _ _ _ _ M _ _ _ _ I Iu H). lia.
Qed.
Print Assumptions C21_same_place.
Example C21_case : recognisable span_rows (py "IN ") (py "PHYS REV LETT") 32%N (py "5 REV 6")
  /\ recognisable span_rows (py "IN ") (py "PHYS REV") 32%N (py "LETT 5 REV 6")
  /\ exists s, identify_journals (py "IN PHYS REV LETT 5 REV 6") (build_journals_kb span_rows) = Ok s /\ j_matches s = [(3, py "PHYS REV LETT"); (19, py "REV")].
Proof.
  split; [|split].
  - left. split; [|split; vm_compute; reflexivity]. exists (py "PHYS REV LETT", py "Phys.Rev.Lett."). split; [right; now left|vm_compute; reflexivity].
  - left. split; [|split; vm_compute; reflexivity]. exists (py "PHYS REV", py "Phys.Rev."). split; [now left|vm_compute; reflexivity].
  - eexists. split; vm_compute; reflexivity.
Qed.
(** One expects the longest title at a place to be the one reported there; a longer one further on can take its end. *)
Theorem C21_overlap_refuted : exists rows s, identify_journals (py "ANN PHYS REV LETT SUPPL 5") (build_journals_kb rows) = Ok s
  /\ j_matches s = [(0, py "ANN"); (4, py "PHYS REV LETT SUPPL")]
  /\ recognisable rows [] (py "ANN PHYS") 32%N (py "REV LETT SUPPL 5").
Proof.
  exists [(py "ANN", py "A"); (py "ANN PHYS", py "AP"); (py "PHYS REV LETT SUPPL", py "P")]. eexists. split; [vm_compute; reflexivity|]. split; [vm_compute; reflexivity|].
  left. split; [|split; vm_compute; reflexivity]. exists (py "ANN PHYS", py "AP"). split; [right; now left|vm_compute; reflexivity].
Qed.
Print Assumptions C21_overlap_refuted.

(** ** C22 *)
(** [weave [k0; k1; k2] [t1; t2]] is the text k0 t1 k1 t2 k2, and [replaced_at] says that a place of it lies in one of the t.
    The text of a DOI ([doi_text]) is a lead without a "1" and then the DOI, which begins with "10."; the DOI is
    returned as it stands, or decoded if it contains "%2f". *)
Remark weave_means : forall k0 k1 k2 t1 t2, weave [k0; k1; k2] [t1; t2] = k0 ++ t1 ++ k1 ++ t2 ++ k2.
Proof. reflexivity. Qed.
Theorem C22_tagged : forall E line, exists kept found,
  length kept = S (length found) /\ line = weave kept found
  /\ fst (identify_and_tag_DOI E line) = weave kept (repeat (py "<cds.DOI />") (length found))
  /\ Forall2 (doi_text E) found (snd (identify_and_tag_DOI E line))
  /\ (forall a ds c d b, line = a ++ py "10." ++ ds ++ 47%N :: c :: d :: b -> 3 <= length ds <= 7 -> forallb is_digit ds = true ->
        doi_char c = true -> doi_end d = true -> replaced_at kept found (length a)).
Proof. exact doi_spec. Qed.
Print Assumptions C22_tagged.
Example C22_case : identify_and_tag_DOI plain_env (py "doi:10.1000/abc and 10.1016/S0370(1).5, http://dx.doi.org/10.1234%2Fxy.z.")
  = (py "<cds.DOI /> and <cds.DOI />, <cds.DOI />.", [py "10.1000/abc"; py "10.1016/S0370(1).5"; py "10.1234%2Fxy.z"])
  /\ doi_text plain_env (py "doi:10.1000/abc") (py "10.1000/abc").
Proof.
  split; [vm_compute; reflexivity|]. exists (py "doi:"), (py "10.1000/abc"), (py "1000/abc"). split; [reflexivity|]. split; [cbn; intuition discriminate|].
  split; [reflexivity|]. split; [cbn; lia|vm_compute; reflexivity].
Qed.

(** ** C23 *)
(** The text of a bare URL ([raw_text]) is the address, possibly in quotes, and the URL returned is the address without a final "." or ",", also
    as description; every place where an address begins ([url_begins]) lies in a text found.  Links are to stand at the beginning
    of the line, after a space or after an opening bracket, comma or the like.  The text of a link ([link_text]) is <a href="...">...</a> with the URL and the description returned. *)
Theorem C23_tagged : forall line, (forall a c d b, line = a ++ c :: 60%N :: d :: b -> d = 97%N \/ d = 65%N -> is_space c = true \/ In c (py "([{,;!")) -> exists kept found,
  length kept = S (length found) /\ line = weave kept found
  /\ fst (identify_and_tag_URLs line) = weave kept (repeat (py "<cds.URL />") (length found))
  /\ Forall2 (fun t r => raw_text t r \/ link_text t r) found (snd (identify_and_tag_URLs line))
  /\ (forall a s, line = a ++ s -> url_begins s -> replaced_at kept found (length a)).
Proof.
  intros line H. apply urls_spec. intros a c d b E S. unfold stopper. apply orb_true_iff. destruct (H a c d b E) as [Q|Q]; [destruct S as [->|(_ & ->)]; auto|now left|right].
  unfold mem_ch. apply existsb_exists. exists c. split; auto. apply N.eqb_refl.
Qed.
Print Assumptions C23_tagged.
Definition url_line : str := py "'http://a.b/c.', <a href='http://c.d'>text</a> (ftp://x)".
Example C23_case : identify_and_tag_URLs url_line
  = (py "<cds.URL />, <cds.URL /> (<cds.URL />)", [(py "http://a.b/c", py "http://a.b/c"); (py "http://c.d", py "text"); (py "ftp://x", py "ftp://x")])
  /\ (forall a c d b, url_line = a ++ c :: 60%N :: d :: b -> d = 97%N \/ d = 65%N -> is_space c = true \/ In c (py "([{,;!")).
Proof.
  split; [vm_compute; reflexivity|]. intros a c d b E D. assert (clear_tags url_line) as C by (apply clear_check_ok; vm_compute; reflexivity).
  assert (stopper c = true) as S by (apply (C a c d b E); destruct D as [->| ->]; [now left|right; split; [lia|reflexivity]]).
  unfold stopper in S. apply orb_true_iff in S as [S|S]; [now left|right; now apply UrlProofs.mem_ch_inv].
Qed.
(** One expects this of every line, but a bare URL directly before a link takes the underscores that hide the link: one tag for two URLs,
    one of which is made up, and text after the link is lost. *)
Theorem C23_adjacent_refuted :
  identify_and_tag_URLs (py "see http://a.b<a href='http://c.d/ef'>text</a> and J. Bee, Phys. Lett. B12 (1999) 34")
  = (py "see <cds.URL />tt. B12 (1999) 34",
     [(py "http://a.b________________________________", py "http://a.b________________________________"); (py "http://c.d/ef", py "text")]).
Proof. vm_compute. reflexivity. Qed.
Print Assumptions C23_adjacent_refuted.
