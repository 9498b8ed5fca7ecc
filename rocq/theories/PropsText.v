(** C24-C29, C40, C42, C43: from the lines of a document to its references. *)
From Coq Require Import List Arith NArith Bool String Lia.
From Verif Require Import PyStr ListFacts Regex RegexParse RegexMeta RegexLang Patterns DocText ParseTagged Tag Find RefText
  RecordProofs RefTextProofs MarkerProofs WashProofs PageProofs FindProofs.
Import ListNotations.
Local Notation length := List.length.
Local Notation concat := List.concat.
Local Open Scope nat_scope.
Local Open Scope string_scope.

(** ** C24 *)
Theorem C24_marker_split :
  forall line, exists mark rest, remove_reference_line_marker line = Ok (mark, rest) /\
  ((mark = [32%N] /\ rest = lstrip line /\ regex_match_list (lstrip line) marker_patterns = None)
   \/ exists p o s, regex_match_list (lstrip line) marker_patterns = Some (p, o) /\ forallb is_space s = true
       /\ lstrip line = (mark ++ s ++ rest)%list /\ rest = lstrip rest /\ length mark = m_end o).
Proof. exact marker_split. Qed.
Print Assumptions C24_marker_split.
Example C24_example : remove_reference_line_marker (py "  [12]  J. Doe") = Ok (py "[12]", py "J. Doe")
  /\ remove_reference_line_marker (py "J. Doe") = Ok (py " ", py "J. Doe").
Proof. split; vm_compute; reflexivity. Qed.

(** ** C25 *)
(** The section is cut into blocks whose concatenation is the whole text; every reference
    is made of the first 25 pieces of its block, which lose nothing but white space and
    hyphens at their ends. *)
Theorem C25_blocks :
  forall lines ptn out, rebuild_reference_lines lines ptn = Ok out ->
  exists blocks, concat (concat blocks) = concat lines
    /\ Forall2 (fun b r => exists pieces, Forall2 trimmed (firstn 25 b) pieces /\ squash r = concat pieces) blocks out
    /\ Forall (fun b => b <> [] /\ length b <= length lines) blocks.
Proof.
  intros lines ptn out H. apply rebuild_blocks in H as (blocks & A & -> & F). exists blocks. split; auto. split; auto.
  clear. induction blocks as [|b bs IH]; cbn [map]; constructor; auto. apply prepare_joined.
Qed.
Print Assumptions C25_blocks.
Theorem C25_letters_kept :
  forall lines ptn out, rebuild_reference_lines lines ptn = Ok out -> length lines <= 25 -> letters (concat out) = letters (concat lines).
Proof. exact rebuild_letters. Qed.
Print Assumptions C25_letters_kept.
(** No failure: without a marker pattern, with a pattern without numbers, and with the
    patterns of the code when no line is longer than the limit of int(). *)
Theorem C25_never_fails :
  forall lines ptn,
  match ptn with Some p => ~ numbered p \/ (marker_ok p = true /\ Forall short lines) | None => True end ->
  exists out, rebuild_reference_lines lines ptn = Ok out.
Proof. exact rebuild_total. Qed.
Print Assumptions C25_never_fails.
Definition demo_refs : list str := [py "[1] J. Doe, Phys. Lett. B 1 (1999)"; py "  12, hep-"; py "th/9901001"; py "[2] R. Roe"].
Example C25_example : rebuild_reference_lines demo_refs (Some re_bracket_markers)
  = Ok [py "[1] J. Doe, Phys. Lett. B 1 (1999) 12, hepth/9901001"; py "[2] R. Roe"] /\ marker_ok re_bracket_markers = true /\ Forall short demo_refs.
Proof. split; [vm_compute; reflexivity|]. split; [vm_compute; reflexivity|]. repeat constructor; intros H; discriminate H. Qed.
Example C25_patterns : forallb marker_ok (marker_patterns ++ [re_bracket_markers; re_dot_markers; re_number_markers]) = true.
Proof. vm_compute. reflexivity. Qed.
(** lines after the 25th of a reference are lost *)
Theorem C25_long_reference_refuted :
  exists lines out, rebuild_reference_lines lines (Some re_bracket_markers) = Ok out /\ letters (concat out) <> letters (concat lines).
Proof.
  set (lines := (py "[1] x" :: repeat (py "y") 25)%list). set (o := rebuild_reference_lines lines (Some re_bracket_markers)).
  assert (o = Ok [py "[1] x y y y y y y y y y y y y y y y y y y y y y y y y"]) as E by (vm_compute; reflexivity).
  exists lines. eexists. split; [exact E|]. vm_compute. discriminate.
Qed.
Print Assumptions C25_long_reference_refuted.
(** the number of a marker cannot be read *)
Theorem C25_fails_refuted :
  exists lines, rebuild_reference_lines lines (Some re_bracket_markers) = Err UnboundLocalError.
Proof. exists [(py "[" ++ repeat 49%N (N.to_nat 4301) ++ py "]")%list]. vm_compute. reflexivity. Qed.
Print Assumptions C25_fails_refuted.

(** ** C26 *)
(** With a numbered pattern the section is cut exactly at the markers 1, 2, 3, ... *)
Theorem C26_consecutive :
  forall p lines out, numbered p -> re_search (rx_re p) [] = None -> rebuild_reference_lines lines (Some p) = Ok out ->
  exists blocks, cut_from p 0 lines blocks /\ out = map prepare_ref (present blocks).
Proof. exact rebuild_numbered. Qed.
Print Assumptions C26_consecutive.
Example C26_patterns : forallb (fun p => match re_search (rx_re p) [] with None => true | Some _ => false end)
  (marker_patterns ++ [re_bracket_markers; re_dot_markers; re_number_markers]) = true.
Proof. vm_compute. reflexivity. Qed.
Example C26_example : numbered re_bracket_markers /\
  rebuild_reference_lines [py "[1] A"; py "[3] no"; py "see [2] B"; py "[2] again"; py "[3] C"] (Some re_bracket_markers)
  = Ok [py "[1] A [3] no see"; py "[2] B [2] again"; py "[3] C"].
Proof. split; [discriminate|vm_compute; reflexivity]. Qed.

(** ** C27 *)
Theorem C27_end :
  forall body start marker ptn, (forall p, ptn = Some p -> marker_ok p = true) ->
  let mk := match marker, ptn with Some _, Some p => [p] | _, _ => marker_patterns end in
  (body = [] \/ length body < start) /\ find_end_of_reference_section body start marker ptn = Ok None
  \/ exists n, find_end_of_reference_section body start marker ptn = Ok (Some (start + n)) /\ start <= length body
       /\ section_length mk (skipn start body) n.
Proof. exact end_spec. Qed.
Print Assumptions C27_end.
Definition demo_body : list str :=
  [py "Some text"; py "References"; py "[1] A"; py "[2] B"; py "Appendix A"; py "[3] C"; py "Appendix B"; py "More text"].
Example C27_example : find_end_of_reference_section demo_body 2 (Some (py "[1]")) (Some re_bracket_markers) = Ok (Some 6).
Proof. vm_compute. reflexivity. Qed.
(** The keyword patterns never end a section: the code assigns their match and ignores it. *)
Theorem C27_keywords_refuted :
  exists body start k line n, nth_error body k = Some line /\ regex_match_list (strip line) post_reference_keyword_patterns <> None
    /\ find_end_of_reference_section body start None None = Ok (Some n) /\ start <= k < n.
Proof.
  exists [py "[1] A"; py "This paper has been produced using ABC"; py "Other text"], 0, 1, (py "This paper has been produced using ABC"), 3.
  split; [reflexivity|]. split; [vm_compute; discriminate|]. split; [vm_compute; reflexivity|lia].
Qed.
Print Assumptions C27_keywords_refuted.
(** The axis of a graph in a text with blank lines between the lines does not end it,
    though the code has a case for blank lines. *)
Theorem C27_double_spacing_refuted :
  exists a body, axis_line a /\ find_end_of_reference_section ([a; a; a; a; py "Text"] ++ body) 0 None None = Ok (Some 1)
   /\ find_end_of_reference_section ([a; py " "; a; py " "; a; py " "; a; py " "; a; py " "; py "Text"] ++ body) 0 None None = Ok (Some (11 + length body)).
Proof.
  exists (py "10 12 14 16 18 20"), [py "More text"]. split; [split; vm_compute; auto; lia|]. split; vm_compute; reflexivity.
Qed.
Print Assumptions C27_double_spacing_refuted.

(** ** C28 *)
Theorem C28_beginning : forall body, exists r, get_reference_section_beginning body = Ok r /\ beginning body r.
Proof. exact beginning_spec. Qed.
Print Assumptions C28_beginning.
Theorem C28_start_inside :
  forall body s, get_reference_section_beginning body = Ok (Some s) -> s_line s < length body.
Proof.
  intros body s H. destruct (beginning_spec body) as (r & E & B). rewrite H in E. injection E as <-. apply (beginning_ok body s B).
Qed.
Print Assumptions C28_start_inside.
Example C28_example : exists d, get_reference_section_beginning demo_body = Ok (Some (mksec 1 (Some (py "References")) d)) /\ d_marker d = Some (py "[1]").
Proof.
  set (r := get_reference_section_beginning demo_body).
  assert (match r with Ok (Some s) => s_line s = 1 /\ s_title s = Some (py "References") /\ d_marker (s_details s) = Some (py "[1]") | _ => False end) as H
    by (vm_compute; auto).
  clearbody r. destruct r as [[[l t d]|]|]; cbn in H; try tauto. destruct H as (-> & -> & H). exists d. auto.
Qed.
Example C28_example_numbers : exists d, get_reference_section_beginning [py "Text"; py "[1] A"; py "[2] B"] = Ok (Some (mksec 1 None d)).
Proof.
  set (r := get_reference_section_beginning _).
  assert (match r with Ok (Some s) => s_line s = 1 /\ s_title s = None | _ => False end) as H by (vm_compute; auto).
  clearbody r. destruct r as [[[l t d]|]|]; cbn in H; try tauto. destruct H as (-> & ->). eauto.
Qed.
(** One expects the last title of the document to be taken; without markers it is the
    first. *)
Theorem C28_last_title_refuted :
  exists body s k title, get_reference_section_beginning body = Ok (Some s) /\ s_title s = Some title /\ nth_error body k = Some title /\ s_line s < k.
Proof.
  set (body := [py "Contents"; py "References"; py "Introduction"; py "Text"; py "References"; py "A. Author, a book"]).
  set (r := get_reference_section_beginning body).
  assert (match r with Ok (Some s) => s_line s = 1 /\ s_title s = Some (py "References") | _ => False end) as H by (vm_compute; auto).
  assert (get_reference_section_beginning body = r) as R by reflexivity. clearbody r.
  destruct r as [[s|]|]; cbn in H; try tauto. destruct H as (L & T). exists body, s, 4, (py "References"). rewrite L. repeat (split; auto); lia.
Qed.
Print Assumptions C28_last_title_refuted.

(** ** C29 *)
Theorem C29_removed :
  forall body, exists out, remove_page_boundary_lines body = Ok out /\
  (Forall (fun l => isspace l = true) body /\ out = body
   \/ exists nh nf, header_count body nh /\ footer_count body nf
        /\ (long_pages body nh nf -> removed (furniture body nh nf) 0 body out) /\ (~ long_pages body nh nf -> out = body)).
Proof. exact removed_lines. Qed.
Print Assumptions C29_removed.
Definition ff : str := [12%N].
Definition demo_page (header : str) (n : string) : list str := [header; (py "first" ++ py n)%list; (py n ++ py "text")%list; (py "last" ++ py n)%list].
Definition demo_doc : list str :=
  (demo_page (py "Title") "a" ++ [ff] ++ demo_page (py "A Journal 2") "bc" ++ [ff] ++ demo_page (py "A Journal 3") "cd" ++ [ff]
   ++ demo_page (py "A Journal 4") "ef" ++ [ff] ++ demo_page (py "A Journal 5") "gh")%list.
Example C29_example : remove_page_boundary_lines demo_doc =
  Ok (demo_page (py "Title") "a" ++ tl (demo_page [] "bc") ++ tl (demo_page [] "cd") ++ tl (demo_page [] "ef") ++ demo_page (py "A Journal 5") "gh")%list.
Proof. vm_compute. reflexivity. Qed.
(** With more than four page breaks only every other page is compared: a line of text that
    stands first on another page is deleted. *)
Definition unlike (l l' : str) : Prop := forall w, In w (words l) -> ~ In w (words l').
Theorem C29_only_furniture_refuted :
  exists body out line header, remove_page_boundary_lines body = Ok out /\ In line body /\ ~ In line out /\ break_line line = false
    /\ In header body /\ ~ In header out /\ break_line header = false /\ unlike line header.
Proof.
  set (body := (demo_page (py "Title") "a" ++ [ff] ++ demo_page (py "Important words about physics") "bc" ++ [ff] ++ demo_page (py "A Journal 3") "cd" ++ [ff]
   ++ demo_page (py "A Journal 4") "ef" ++ [ff] ++ demo_page (py "A Journal 5") "gh" ++ [ff] ++ demo_page (py "A Journal 6") "ij" ++ [ff] ++ demo_page (py "A Journal 7") "kl")%list).
  set (r := remove_page_boundary_lines body).
  assert (match r with Ok out => forallb (fun l => negb (mem_str l out)) [py "Important words about physics"; py "A Journal 3"] = true | _ => False end) as H by (vm_compute; reflexivity).
  assert (remove_page_boundary_lines body = r) as R by reflexivity. clearbody r. destruct r as [out|]; [|tauto].
  cbn [forallb] in H. apply andb_true_iff in H as [H1 H]. apply andb_true_iff in H as [H2 _]. apply negb_true_iff in H1, H2.
  exists body, out, (py "Important words about physics"), (py "A Journal 3"). split; auto.
  split; [apply mem_str_in; vm_compute; reflexivity|]. split; [intros I; apply mem_str_in in I; congruence|]. split; [reflexivity|].
  split; [apply mem_str_in; vm_compute; reflexivity|]. split; [intros I; apply mem_str_in in I; congruence|]. split; [reflexivity|].
  intros w I I'. apply mem_str_in in I'.
  assert (forallb (fun w => negb (mem_str w (words (py "A Journal 3")))) (words (py "Important words about physics")) = true) as F by (vm_compute; reflexivity).
  rewrite forallb_forall in F. apply F in I. rewrite I' in I. discriminate.
Qed.
Print Assumptions C29_only_furniture_refuted.

(** ** C40 *)
Theorem C40_wash_words : forall line, ~ In 92%N line -> words_of (wash_line line) = words_of line.
Proof. exact wash_line_words. Qed.
Print Assumptions C40_wash_words.
Theorem C40_wash_shorter : forall line, length (wash_line line) <= length line.
Proof. exact wash_line_shorter. Qed.
Print Assumptions C40_wash_shorter.
Theorem C40_repair :
  forall line, filter (fun c => negb (N.eqb c 32)) (repair_broken_urls line) = filter (fun c => negb (N.eqb c 32)) line
    /\ length (repair_broken_urls line) <= length line.
Proof. exact repair_keeps. Qed.
Print Assumptions C40_repair.
Example C40_example : wash_line (py "Phys . Rev. [ 12 ] ,  1") = py "Phys. Rev. [12], 1" /\ repair_broken_urls (py "see http : // cern .ch/a") = py "see http://cern.ch/a".
Proof. split; vm_compute; reflexivity. Qed.
(** a colon and a comma are dropped, so not only white space and dashes change *)
Theorem C40_only_spaces_refuted : exists line, ~ In 92%N line /\ letters (wash_line line) <> letters line.
Proof. exists (py "a: : b, : c"). split; [cbn; intuition discriminate|vm_compute; discriminate]. Qed.
Print Assumptions C40_only_spaces_refuted.
(** the text \255 is taken for a dash *)
Theorem C40_backslash_refuted : exists line, words_of (wash_line line) <> words_of line.
Proof. exists (py "C:\255"). vm_compute. discriminate. Qed.
Print Assumptions C40_backslash_refuted.
Theorem C40_idempotent_refuted : exists line, wash_line (wash_line line) <> wash_line line.
Proof. exists (py "a  , b"). vm_compute. discriminate. Qed.
Print Assumptions C40_idempotent_refuted.

(** ** C42 *)
(** A text whose lines are not longer than the limit of int() (4300): never an exception;
    the status is 4, with no references, or 0. *)
Theorem C42_never_fails :
  forall fulltext, Forall short fulltext ->
  (exists refs, extract_references_from_fulltext fulltext = Ok (refs, 0)) \/ extract_references_from_fulltext fulltext = Ok ([], 4).
Proof. exact extract_total. Qed.
Print Assumptions C42_never_fails.
(** Which lines become references. *)
Theorem C42_section :
  forall fulltext, exists body r, remove_page_boundary_lines fulltext = Ok body /\ get_reference_section_beginning body = Ok r /\ beginning body r /\
  match r with
  | None => extract_references_from_fulltext fulltext = Ok ([], 4)
  | Some s => exists n, section_length (section_markers s) (skipn (s_line s) body) n /\
      extract_references_from_fulltext fulltext =
      (let* refs := rebuild_reference_lines (section_lines body s n) (d_pattern (s_details s)) in Ok (refs, 0))
      /\ (Forall short fulltext -> exists refs, rebuild_reference_lines (section_lines body s n) (d_pattern (s_details s)) = Ok refs)
  end.
Proof. exact extract_spec. Qed.
Print Assumptions C42_section.
Example C42_example : Forall short demo_body /\
  extract_references_from_fulltext demo_body = Ok ([py "[1] A"; py "[2] B Appendix A"; py "[3] C"], 0) /\ extract_references_from_fulltext [py "Text"] = Ok ([], 4).
Proof. split; [repeat constructor; intros H; discriminate H|]. split; vm_compute; reflexivity. Qed.
Theorem C42_long_line_refuted : exists fulltext, extract_references_from_fulltext fulltext = Err UnboundLocalError.
Proof. exists [py "References"; (py "[" ++ repeat 49%N (N.to_nat 4301) ++ py "]")%list; py "[1] A"]. vm_compute. reflexivity. Qed.
Print Assumptions C42_long_line_refuted.

(** ** C43 *)
(** One expects the references to be separated also when the title and the first marker
    are on the same line. *)
Theorem C43_same_line_refuted :
  exists fulltext refs, extract_references_from_fulltext fulltext = Ok (refs, 0) /\ length refs = 1
    /\ In (py "[2] B. Author, Nucl. Phys. B 2 (2000) 2") fulltext /\ In (py "[3] C. Author, Nucl. Phys. B 3 (2000) 3") fulltext.
Proof.
  exists [py "Text"; py "References [1] A. Author, Nucl. Phys. B 1 (2000) 1"; py "[2] B. Author, Nucl. Phys. B 2 (2000) 2"; py "[3] C. Author, Nucl. Phys. B 3 (2000) 3"].
  exists [py "[1] A. Author, Nucl. Phys. B 1 (2000) 1 [2] B. Author, Nucl. Phys. B 2 (2000) 2 [3] C. Author, Nucl. Phys. B 3 (2000) 3"].
  split; [vm_compute; reflexivity|]. split; [reflexivity|]. split; [right; right; left|right; right; right; left]; reflexivity.
Qed.
Print Assumptions C43_same_line_refuted.
Theorem C43_same_line_merged :
  forall fulltext body s, remove_page_boundary_lines fulltext = Ok body -> get_reference_section_beginning body = Ok (Some s) ->
  d_same_line (s_details s) = true ->
  (forall t line, s_title s = Some t -> In line (skipn (S (s_line s)) body) -> ~ contains_ci t line) ->
  (forall t line, s_title s = Some t -> nth_error body (s_line s) = Some line -> ~ contains_ci t (after_title t line)) ->
  exists refs, extract_references_from_fulltext fulltext = Ok (refs, 0) /\ length refs <= 1.
Proof. exact extract_merged. Qed.
Print Assumptions C43_same_line_merged.
