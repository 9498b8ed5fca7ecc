(** Properties C48 to C51: lines that are no references, quoted titles of books, sections without markers, handles. *)
From Coq Require Import List Arith NArith Bool String Lia Permutation.
From Verif Require Import PyStr ListFacts Regex Patterns Elements Numeration Transform Tag Find RefText Kbs Engine Api Demo
  DocText RecordProofs UrlProofs RefTextProofs SectionProofs HandleProofs WashMore ScanProofs UrlRepair.
Import ListNotations.
Local Open Scope nat_scope.
Local Notation length := List.length.
Local Notation concat := List.concat.

(** ** C48 *)
(** only lines of white space and lines beginning with "email" or "e-mail" are dropped, and all of them before the first other one *)
Theorem C48_leading_lines : forall l, exists dropped, l = dropped ++ remove_leading_garbage_lines l /\ Forall garbage dropped
  /\ match remove_leading_garbage_lines l with x :: _ => ~ garbage x | [] => True end.
Proof. exact remove_leading_ok. Qed.
Print Assumptions C48_leading_lines.
Example C48_case : remove_leading_garbage_lines [py "  "; py " e-mail: a@b.c"; py "email me"; py "A. Smith"; py " "; py "B"] = [py "A. Smith"; py " "; py "B"].
Proof. vm_compute. reflexivity. Qed.
(** One expects empty lines and all e-mail lines to be dropped.  False of the code: the empty line is not white space for
    Python and the pattern is case-sensitive. *)
Theorem C48_all_dropped_refuted : remove_leading_garbage_lines [[]; py "A. Smith"] = [[]; py "A. Smith"]
  /\ remove_leading_garbage_lines [py "Email: a@b.c"; py "A. Smith"] = [py "Email: a@b.c"; py "A. Smith"].
Proof. split; vm_compute; reflexivity. Qed.
Print Assumptions C48_all_dropped_refuted.

(** ** C49 *)
(** the first quoted title, if it is in the table of books, is removed and a book element with the fields of its row is
    put at the end; otherwise nothing changes *)
Theorem C49_books : forall books l l', look_for_books books l = Ok l' -> book_looked_up books l l'.
Proof. exact books_ok. Qed.
Print Assumptions C49_books.
Theorem C49_no_failure : forall books l,
  (forall e, In e l -> e_type e = QUOTED -> exists t, get Ktitle e = Some (VS t) /\ forall row, assoc_str (upper t) books = Some row -> 3 <= length row) ->
  exists l', look_for_books books l = Ok l'.
Proof. exact books_total. Qed.
Print Assumptions C49_no_failure.
Definition c49_books : books_kb := [(py "QUANTUM FIELDS", [py "Weinberg"; py "Quantum Fields"; py "1995;"])].
Definition c49_line : list el := [mkel AUTH (py "") [(Kauth_txt, VS (py "S. Weinberg"))]; mkel QUOTED (py "in ") [(Ktitle, VS (py "Quantum fields"))]; mkel MISC (py "p. 3") []].
Example C49_case : look_for_books c49_books c49_line
  = Ok [mkel AUTH (py "") [(Kauth_txt, VS (py "S. Weinberg"))]; mkel MISC (py "p. 3") []; set_str Kauthors (py "Weinberg") (set_str Ktitle (py "Quantum Fields") (set_str Kyear (py "1995") (mkel BOOK [] [])))].
Proof. vm_compute. reflexivity. Qed.
(** One expects the text of the line to be kept.  False of the code: the text in front of the quoted title goes with its element. *)
Theorem C49_text_kept_refuted : exists q l', look_for_books c49_books c49_line = Ok l' /\ In q c49_line /\ e_misc q = py "in " /\ forall e, In e l' -> e_misc e <> py "in ".
Proof.
  exists (mkel QUOTED (py "in ") [(Ktitle, VS (py "Quantum fields"))]). eexists. split; [vm_compute; reflexivity|]. split; [right; now left|]. split; [reflexivity|].
  intros e [<-|[<-|[<-|[]]]]; discriminate.
Qed.
Print Assumptions C49_text_kept_refuted.

(** ** C50 *)
(** blank lines separate references iff there are more than three blocks of text lines, one of them of two lines or more *)
Theorem C50_blank_lines_count : forall l, blank_lines_separate l = true <-> 3 < text_blocks true l /\ adjacent l.
Proof. exact blank_lines_ok. Qed.
Print Assumptions C50_blank_lines_count.
(** then a reference begins at every blank line *)
Theorem C50_cut_at_blank_lines : forall lines, ~ In [] lines -> 3 < text_blocks true lines -> adjacent lines ->
  exists blocks, cut after_blank lines blocks /\ rebuild_reference_lines lines None = Ok (map prepare_ref blocks).
Proof. exact blank_cut. Qed.
Print Assumptions C50_cut_at_blank_lines.
(** otherwise at every line that begins with neither white space nor a lower case letter and does not continue the one before *)
Theorem C50_cut_by_indentation : forall lines, ~ (3 < text_blocks true lines /\ adjacent lines) ->
  exists blocks, cut unindented (full lines) blocks /\ rebuild_reference_lines lines None = Ok (map prepare_ref blocks).
Proof. exact indent_cut. Qed.
Print Assumptions C50_cut_by_indentation.
(** the same blocks, with and without the ends of the lines *)
Definition nl (l : list string) : list str := map (fun s => py s ++ [10%N]) l.
Definition c50_text : list string := ["A. Smith, Phys. Lett."; "B 12 (1999) 34"; ""; "C. Brown, Nucl. Phys."; "B 1 (1998) 5"; ""; "D. White, Phys. Rev."; "D 7 (1990) 9"; ""; "E. Black,"; "J. Phys. A 3 (1991) 6"]%string.
Definition c50_refs : list str := map py ["A. Smith, Phys. Lett. B 12 (1999) 34"; "C. Brown, Nucl. Phys. B 1 (1998) 5"; "D. White, Phys. Rev. D 7 (1990) 9"; "E. Black, J. Phys. A 3 (1991) 6"]%string.
Example C50_case : rebuild_reference_lines (nl c50_text) None = Ok c50_refs /\ ~ In [] (nl c50_text) /\ text_blocks true (nl c50_text) = 4 /\ adjacent (nl c50_text).
Proof.
  split; [vm_compute; reflexivity|]. split; [intros H; vm_compute in H; intuition discriminate|]. split; [vm_compute; reflexivity|].
  apply adjacent_b_iff. vm_compute. reflexivity.
Qed.
(** One expects paragraphs separated by blank lines to be one reference each.  False of the code: in lines split at their
    ends, as by extract_references_from_string, a blank line is the empty string and counts as text; and a second blank line
    is a reference without text. *)
Theorem C50_paragraphs_refuted :
  rebuild_reference_lines (map py c50_text) None
  = Ok (map py ["A. Smith, Phys. Lett."; "B 12 (1999) 34"; "C. Brown, Nucl. Phys."; "B 1 (1998) 5"; "D. White, Phys. Rev."; "D 7 (1990) 9"; "E. Black, J. Phys. A 3 (1991) 6"]%string)
  /\ exists refs, rebuild_reference_lines (nl (c50_text ++ [""; ""]%string)) None = Ok refs /\ In [] refs.
Proof. split; [vm_compute; reflexivity|]. eexists. split; [vm_compute; reflexivity|]. vm_compute. tauto. Qed.
Print Assumptions C50_paragraphs_refuted.

(** ** C51 *)
(** [expanded e l]: the text of [e] is cut at its handles, and every handle is an element of its own with the text behind it *)
Theorem C51_handles : forall l, exists ls, Forall2 expanded l ls /\ Permutation (look_for_hdl l) (concat ls).
Proof. exact look_for_hdl_perm. Qed.
Print Assumptions C51_handles.
Theorem C51_in_order : forall l, (forall e, In e l -> is_type HDL e = false) -> ForallOrdPairs (fun x y => ~ alike x y) l ->
  exists ls, Forall2 expanded l ls /\ look_for_hdl l = concat ls.
Proof. exact look_for_hdl_order. Qed.
Print Assumptions C51_in_order.
Theorem C51_addresses : forall l l', look_for_hdl_urls l = Ok l' -> Forall2 url_treated l l'.
Proof. exact hdl_urls_ok. Qed.
Print Assumptions C51_addresses.
Definition c51_line : list el :=
  [mkel MISC (py "see hdl:2027/pst.000012 and HDL:1/2 etc.") []; mkel URL (py "or ") [(Kurl_string, VS (py "http://hdl.handle.net/10/a")); (Kurl_desc, VS (py "x"))]].
Definition c51_parts : list el :=
  [mkel MISC (py "see ") []; mkel HDL (py " and ") [(Khdl_id, VS (py "2027/pst.000012"))]; mkel HDL (py " etc.") [(Khdl_id, VS (py "1/2"))];
   mkel URL (py "or ") [(Kurl_string, VS (py "http://hdl.handle.net/10/a")); (Kurl_desc, VS (py "x"))]].
Example C51_case : look_for_hdl c51_line = c51_parts
  /\ look_for_hdl_urls c51_parts = Ok (firstn 3 c51_parts ++ [mkel HDL (py "or ") [(Khdl_id, VS (py "10/a"))]])
  /\ (forall e, In e c51_line -> is_type HDL e = false) /\ ForallOrdPairs (fun x y => ~ alike x y) c51_line.
Proof.
  split; [vm_compute; reflexivity|]. split; [vm_compute; reflexivity|]. split; [intros e [<-|[<-|[]]]; reflexivity|]. repeat constructor. discriminate.
Qed.
(** One expects the identifier without the punctuation behind it, and the elements in the order of the line.  False of the
    code: the identifier goes on up to white space, and the place of an element is that of the first equal one. *)
Theorem C51_identifier_refuted : look_for_hdl [mkel MISC (py "hdl:2027/pst.000012, p. 3") []] = [mkel MISC [] []; mkel HDL (py " p. 3") [(Khdl_id, VS (py "2027/pst.000012,"))]].
Proof. vm_compute. reflexivity. Qed.
Print Assumptions C51_identifier_refuted.
Theorem C51_order_refuted : let j := mkel JOURNAL [] [(Ktitle, VS (py "J.Phys.")); (Kvolume, VS (py "1"))] in
  look_for_hdl [mkel MISC [] []; j; mkel MISC (py "hdl:1/2") []] = [mkel MISC [] []; mkel HDL [] [(Khdl_id, VS (py "1/2"))]; j; mkel MISC [] []].
Proof. vm_compute. reflexivity. Qed.
Print Assumptions C51_order_refuted.

(** ** C40, the reference line *)
(** the broken addresses are repaired and the undesirable characters replaced; then every comma inside closing quotes is put
    behind them; then undesirable characters are replaced again and every run of white space is one space; nothing else changes *)
Theorem C40_reference_line : forall E line, exists moved, swapped comma_inside comma_outside (undesirable E (repair_broken_urls line)) moved
  /\ squeezed (undesirable E moved) (wash_and_repair_reference_line E line).
Proof. exact wash_reference_ok. Qed.
Print Assumptions C40_reference_line.
Definition quoted (s : string) : str := map (fun c => if N.eqb c 39 then 34%N else c) (py s).
Example C40_reference_case : wash_and_repair_reference_line plain_env (quoted "see http : // cern.ch/a  and 'Fields,' by 'A, B'   or 'Quanta,'") = quoted "see http://cern.ch/a and 'Fields', by 'A, B' or 'Quanta',".
Proof. vm_compute. reflexivity. Qed.
(** washing a line is this chain of passes over its characters ([washed], ScanProofs.v): white space before a comma, a
    semicolon and a full stop goes, then white space between a colon or comma and a colon, white space inside brackets, every
    dash becomes a hyphen and every run of white space one space *)
Theorem C40_washed : forall line, wash_line line = washed line.
Proof. exact wash_line_ok. Qed.
Print Assumptions C40_washed.
Example C40_washed_case : washed (py "Phys . Rev. [ 12 ] ,  1 ; 3 \255 4") = py "Phys. Rev. [12], 1; 3 - 4".
Proof. vm_compute. reflexivity. Qed.
(** repairing deletes spaces and nothing else *)
Theorem C40_repair_deletes : forall line, thinned line (repair_broken_urls line).
Proof. exact repair_thinned. Qed.
Print Assumptions C40_repair_deletes.
(** after it no "http://" and no "ftp://", in capitals or not, has a space between its letters, wherever it stands in the line *)
Theorem C40_scheme_joined : forall line a w b, repair_broken_urls line = a ++ w ++ b ->
  spaced (py "http://") w \/ spaced (py "ftp://") w -> ~ In 32%N w.
Proof. intros line a w b E [W|W]; [exact (proj1 (repair_joins line) a w b E W)|exact (proj2 (repair_joins line) a w b E W)]. Qed.
Print Assumptions C40_scheme_joined.
Example C40_scheme_case : spaced (py "http://") (py "h TT p: //") /\ repair_broken_urls (py "ah TT p: // ! f tp : // !") = py "ahTTp:// ! ftp://!".
Proof. split; [|vm_compute; reflexivity]. apply (ahead_word_spaced (py "http://") (py "h TT p: //")). vm_compute. reflexivity. Qed.
(** no two characters of white space stand side by side in a washed line *)
Theorem C40_no_runs : forall line a x y b, wash_line line = a ++ x :: y :: b -> ~ (is_space x = true /\ is_space y = true).
Proof. intros line a x y b E. exact (no_runs_at _ a x y b (wash_no_runs line) E). Qed.
Print Assumptions C40_no_runs.
Example C40_no_runs_case : wash_line (py "A   B") = py "A B".
Proof. vm_compute. reflexivity. Qed.
