(** C58: markers of references, titles of their section and of the sections after it. *)
From Coq Require Import List Arith NArith Bool String Lia.
From Verif Require Import PyStr Regex Find RefText RefTextProofs FindProofs DocText ParseTagged NumGrammar SectGrammar SectUse SectForms SectEnd SectCut.
Import ListNotations.
Local Open Scope nat_scope.
Local Open Scope string_scope.
Local Open Scope list_scope.

(** ** C58 *)
(** The marker removed from a line is exactly the text that the first fitting of the fourteen forms of SectGrammar describes, and
    the line that is left is the rest without the white space in front; a line that begins with none of the forms is kept. *)
Theorem C58_marker : forall line mark rest, remove_reference_line_marker line = Ok (mark, rest) <->
  (no_marker (lstrip line) /\ mark = py " " /\ rest = lstrip line)
  \/ exists k b fs, marker_of (lstrip line) k mark b fs /\ rest = lstrip b.
Proof. exact marker_exact. Qed.
Print Assumptions C58_marker.
(** The usual markers, for all numbers and all texts after them: "[12]" and "12." *)
Theorem C58_brackets : forall n rest, forallb is_digit n = true -> n <> [] ->
  remove_reference_line_marker (py "[" ++ n ++ py "]" ++ rest) = Ok (py "[" ++ n ++ py "]", lstrip rest).
Proof. exact brackets_removed. Qed.
Print Assumptions C58_brackets.
Theorem C58_dot : forall n rest, forallb is_digit n = true -> n <> [] -> ~ first_is is_digit rest ->
  remove_reference_line_marker (n ++ py "." ++ rest) = Ok (n ++ py ".", lstrip rest).
Proof. exact dot_removed. Qed.
Print Assumptions C58_dot.
(** The section begins at a title of the first of the 28 forms that some line has; without a title it begins at the last line
    numbered 1 in the first of the three ways of numbering that has the number 2 (or the end of the text) soon after; without such
    a line there is no section. *)
Theorem C58_beginning : forall body, exists r, get_reference_section_beginning body = Ok r /\ match r with
  | Some s => match s_title s with
    | Some t => exists k line, k < 28 /\ nth_error body (s_line s) = Some line /\ has_title k t line /\ untitled k body
    | None => untitled 28 body /\ exists i line m, i < 3 /\ (forall i' j, i' < i -> ~ starts_at i' body j)
        /\ starts_at i body (s_line s) /\ (forall j, starts_at i body j -> j <= s_line s)
        /\ nth_error body (s_line s) = Some line /\ has_number i (py "1") m (strip line) /\ d_marker (s_details s) = Some (strip m)
    end
  | None => untitled 28 body /\ forall i j, i < 3 -> ~ starts_at i body j end.
Proof. exact beginning_exact. Qed.
Print Assumptions C58_beginning.
(** The first marker of a section with a title stands directly after the title; otherwise it is the first
    marker among the six lines from the title on that has the number 1 or none.  Without a title it is the
    number of the line at which the section begins.  [M] is the form of markers that is looked for from then on. *)
Theorem C58_first_marker : forall body s, get_reference_section_beginning body = Ok (Some s) -> exists M, match s_title s with
  | Some t => exists line, nth_error body (s_line s) = Some line /\
      if d_same_line (s_details s) then exists k m, d_marker (s_details s) = Some m /\ mark_after same_letter t line k m /\ M = title_form same_letter t k
      else (forall k, k < 14 -> ~ SectGrammar.begins (nth k (title_marks same_letter t) nothing) line)
           /\ exists r, first_mark (firstn 6 (skipn (s_line s) body)) r /\ d_marker (s_details s) = option_map snd r
                /\ M = match r with Some (k, _) => mark_form k | None => any_mark end
  | None => exists i line m, i < 3 /\ (forall i' j, i' < i -> ~ starts_at i' body j) /\ starts_at i body (s_line s) /\ (forall j, starts_at i body j -> j <= s_line s)
      /\ nth_error body (s_line s) = Some line /\ has_number i (py "1") m (strip line) /\ d_marker (s_details s) = Some (strip m) /\ M = plain_form i
  end.
Proof. exact marked_form. Qed.
Print Assumptions C58_first_marker.
(** When the whole text is taken for references, the marker is the first such one of the text. *)
Theorem C58_body_marker : forall body, exists r, find_numeration_in_body body = Ok (mkdet (option_map snd r) (form_rx r) false) /\ first_mark body r.
Proof. exact body_mark. Qed.
Print Assumptions C58_body_marker.
(** The section ends before the first line with a title of another section after which the references do not continue, or
    inside the first four consecutive lines of an axis of a graph, or with the text; the references continue when one of the
    next 199 lines has a marker of the form looked for with the next number.  The lines of the section are cut into references
    exactly at the first marker of a line when it has the next number (or no number). *)
Theorem C58_references : forall fulltext, exists body r, remove_page_boundary_lines fulltext = Ok body /\ get_reference_section_beginning body = Ok r /\ match r with
  | None => extract_references_from_fulltext fulltext = Ok ([], 4)
  | Some s => exists M n, marked_by body s M /\
      (let lines := skipn (s_line s) body in n <= List.length lines /\ (forall j, j < n -> ~ next_title M lines j) /\ (forall j, S j < n -> ~ axis_at lines j)
       /\ (n = List.length lines \/ next_title M lines n \/ exists j, n = S j /\ axis_at lines j)) /\
      match d_marker (s_details s) with
      | Some _ => forall refs st, extract_references_from_fulltext fulltext = Ok (refs, st) ->
          st = 0 /\ exists blocks, cut_at M 0 (section_lines body s n) blocks /\ refs = map prepare_ref (present blocks)
      | None => exists refs, rebuild_reference_lines (section_lines body s n) None = Ok refs /\ extract_references_from_fulltext fulltext = Ok (refs, 0)
      end end.
Proof. exact section_cut. Qed.
Print Assumptions C58_references.
(** The lines of the section that are left out: those that repeat the title, with or without a number in front. *)
Theorem C58_title_again : forall t l, is_footer t l = true <-> SectGrammar.begins (title_again t) l.
Proof. exact footer_iff. Qed.
Print Assumptions C58_title_again.
(** The same end for the whole of a text, which may be asked for with no marker known. *)
Theorem C58_end : forall body start marker,
  (body = [] \/ List.length body < start) /\ find_end_of_reference_section body start marker None = Ok None
  \/ exists n, let lines := skipn start body in
     find_end_of_reference_section body start marker None = Ok (Some (start + n)) /\ start <= List.length body /\ n <= List.length lines
     /\ (forall j, j < n -> ~ next_title any_mark lines j) /\ (forall j, S j < n -> ~ axis_at lines j)
     /\ (n = List.length lines \/ next_title any_mark lines n \/ exists j, n = S j /\ axis_at lines j).
Proof. exact end_exact. Qed.
Print Assumptions C58_end.

(** *** Cases *)
Example C58_numbers : forallb is_digit (py "12") = true /\ py "12" <> [] /\ ~ first_is is_digit (py " J. Doe").
Proof. split; [reflexivity|]. split; [discriminate|]. intros (c & t & E & D). injection E as <- _. discriminate. Qed.
Example C58_lines :
  remove_reference_line_marker (py " [Do+ 07a] J. Doe") = Ok (py "[Do+ 07a]", py "J. Doe")
  /\ remove_reference_line_marker (py "12  J. Doe") = Ok (py "12  ", py "J. Doe")
  /\ remove_reference_line_marker (py "12.5 J. Doe") = Ok (py " ", py "12.5 J. Doe").
Proof. split; [|split]; vm_compute; reflexivity. Qed.
Example C58_section :
  let body := [py "5 References"; py "3 R E F E R E N C E S [1]"; py "text"; py "6. References:"; py ""; py "[1] J. Doe"; py "[2] A. Roe"; py "Appendix A"; py "text"] in
  exists s, get_reference_section_beginning body = Ok (Some s) /\ s_line s = 3 /\ s_title s = Some (py "References")
    /\ d_marker (s_details s) = Some (py "[1]") /\ d_same_line (s_details s) = false
    /\ find_end_of_reference_section body 5 None None = Ok (Some 7).
Proof. eexists. do 5 (split; [vm_compute; reflexivity|]). vm_compute. reflexivity. Qed.
Example C58_same_line :
  exists s, get_reference_section_beginning [py "text"; py "Bibliography [1] J. Doe"; py "[2] A. Roe"] = Ok (Some s) /\ s_line s = 1
    /\ d_same_line (s_details s) = true /\ d_marker (s_details s) = Some (py "[1]").
Proof. eexists. do 3 (split; [vm_compute; reflexivity|]). vm_compute. reflexivity. Qed.
Example C58_numbered :
  exists s, get_reference_section_beginning [py "1. Introduction"; py "1. J. Doe"; py "2. A. Roe"] = Ok (Some s) /\ s_line s = 1 /\ s_title s = None.
Proof. eexists. do 2 (split; [vm_compute; reflexivity|]). vm_compute. reflexivity. Qed.
(** a text whose references are marked and continue after a title, and one whose markers have no numbers *)
Example C58_cut :
  extract_references_from_fulltext [py "text"; py "References"; py "[1] J. Doe, see"; py "there [3] A. Roe"; py "Figure 1"; py "[2] B. Poe"; py "Appendix"; py "text"]
  = Ok ([py "[1] J. Doe, see there [3] A. Roe Figure 1"; py "[2] B. Poe"], 0)
  /\ extract_references_from_fulltext [py "References"; py "[Do+ 07a] J. Doe,"; py "Phys. Lett. [Ro99] A. Roe"; py "12. References "]
  = Ok ([py "[Do+ 07a] J. Doe, Phys. Lett."; py "[Ro99] A. Roe"], 0)
  /\ is_footer (py "References") (py "12. References ") = true.
Proof. split; [|split]; vm_compute; reflexivity. Qed.
