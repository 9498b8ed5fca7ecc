(** Model of refextract/references/text.py: from a document to its reference lines. *)
From Coq Require Import List Arith NArith Bool String.
From Verif Require Import PyStr Regex RegexParse Patterns DocText Tag Find.
Import ListNotations.
Open Scope nat_scope.

(** strip_footer, 160-164; re.escape makes the title a literal *)
Definition re_footer_pre := Eval vm_compute in the_rx (compile noflags (py "\(?\[?\d{0,4}\]?\)?\.?\s*")).
Definition re_footer_post := Eval vm_compute in the_rx (compile noflags (py "\s*$")).
Definition footer_re (title : str) : re := Cat (rx_re re_footer_pre) (Cat (re_lits noflags title) (rx_re re_footer_post)).
Definition is_footer (title line : str) : bool :=
  match re_match (footer_re title) line with Some _ => true | None => false end.
Definition strip_footer (lines : list str) (title : str) : list str :=
  filter (fun l => negb (is_footer title l)) lines.

(** test_for_blank_lines_separating_reference_lines, 325-371.  The scan goes from block to
    block: number of blocks of non-blank lines, number of blocks of blank lines not at the
    end, is there a block of two non-blank lines. *)
Fixpoint skip_block (blank : bool) (l : list str) : nat * list str :=
  match l with
  | x :: t => if Bool.eqb (isspace x) blank then let (n, r) := skip_block blank t in (S n, r) else (0, l)
  | [] => (0, [])
  end.
Fixpoint blank_scan (fuel : nat) (l : list str) (lines blanks : nat) (multi : bool) : nat * nat * bool :=
  match fuel with
  | O => (lines, blanks, multi)
  | S f =>
    match l with
    | [] => (lines, blanks, multi)
    | x :: t =>
      let (n, r) := skip_block (isspace x) t in
      if isspace x
      then blank_scan f r lines (match r with [] => blanks | _ => S blanks end) multi
      else blank_scan f r (S lines) blanks (multi || (0 <? n))
    end
  end.
Definition blank_lines_separate (l : list str) : bool :=
  let '(lines, blanks, multi) := blank_scan (List.length l) l 0 0 false in
  (3 <? lines) && ((blanks =? lines) || (blanks + 1 =? lines)) && multi.

(** rebuild_reference_lines, 167-302 *)
Definition re_blank_line := Eval vm_compute in the_rx (compile fI (py "^\s*$")).
Definition re_no_indent := Eval vm_compute in the_rx (compile fI (py "^[^\s]")).
Definition re_lower_start := Eval vm_compute in the_rx (compile noflags (py "[a-z]")).
Definition re_continuing := Eval vm_compute in the_rx (compile noflags (py "[,&-]$")).
Definition max_lines : nat := 25.      (* CFG_REFEXTRACT_MAX_LINES, config.py *)
(** prepare_ref, 226-231 *)
Definition prepare_ref (working : list str) : str :=
  rstrip (fold_left (fun acc l => join_lines acc (strip l)) (firstn max_lines working) []).

(** The variables of the loop.  [w_current]: current_ref ([None] is Python's None);
    [w_marknum]: [None] when the variable is not bound yet. *)
Record rbst := mkrb {
  w_current : option N; w_marknum : option (option N); w_working : list str; w_out : list str }.
Definition rb_init : rbst := mkrb (Some 0%N) None [] [].
(** 250-260: marknum after the try statement *)
Definition read_marknum (p : rx) (line : str) (o : mobj) (old : option (option N)) : res (option (option N)) :=
  match group_named p line o (py "marknum") with
  | Err _ => Ok (Some None)
  | Ok None => Err TypeError
  | Ok (Some t) => match int_of_str t with
                   | Ok n => Ok (Some (Some n))
                   | Err _ => Ok old
                   end
  end.
Definition new_line_detected (current marknum : option N) : res bool :=
  match marknum with
  | None => Ok true
  | Some n => match current with
              | Some c => Ok (N.eqb (c + 1) n)
              | None => Err TypeError
              end
  end.
Definition last_opt (l : list str) : option str := match rev l with x :: _ => Some x | [] => None end.
Definition add_nonempty (s : str) (l : list str) : list str := match s with [] => l | _ => l ++ [s] end.
Definition flush (working out : list str) : list str :=
  match working with [] => out | _ => out ++ [prepare_ref working] end.
Definition rebuild_step (p : rx) (indent : bool) (s : rbst) (line : str) : res rbst :=
  match re_search (rx_re p) line with
  | Some o =>
    let* mn := read_marknum p line o (w_marknum s) in
    match mn with
    | None => Err UnboundLocalError
    | Some n =>
      let* det := new_line_detected (w_current s) n in
      let det := det && negb (indent &&
        ((match re_match (rx_re re_lower_start) (strip line) with Some _ => true | None => false end)
         || (match last_opt (w_working s) with
             | Some l => match re_search (rx_re re_continuing) (strip l) with Some _ => true | None => false end
             | None => false
             end))) in
      if det then
        let out := flush (add_nonempty (firstn (m_start o) line) (w_working s)) (w_out s) in
        Ok (mkrb n mn (add_nonempty (skipn (m_start o) line) []) out)
      else Ok (mkrb (w_current s) mn (w_working s ++ [line]) (w_out s))
    end
  | None => Ok (mkrb (w_current s) (w_marknum s) (add_nonempty line (w_working s)) (w_out s))
  end.
Fixpoint rebuild_steps (p : rx) (indent : bool) (s : rbst) (lines : list str) : res rbst :=
  match lines with
  | [] => Ok s
  | l :: t => let* s' := rebuild_step p indent s l in rebuild_steps p indent s' t
  end.
Definition separator (lines : list str) (ptn : option rx) : rx * bool :=
  match ptn with
  | Some p => (p, false)
  | None => if blank_lines_separate lines then (re_blank_line, false) else (re_no_indent, true)
  end.
Definition rebuild_reference_lines (lines : list str) (ptn : option rx) : res (list str) :=
  let (p, indent) := separator lines ptn in
  let* s := rebuild_steps p indent rb_init lines in
  Ok (flush (w_working s) (w_out s)).

(** get_reference_lines, 95-147; [end_] is one more than the code's ref_sect_end_line *)
Definition get_reference_lines (body : list str) (start end_ : nat) (title : option str) (ptn : option rx)
           (same_line : bool) : res (list str) :=
  let* (body, start) :=
    (if same_line then
       match title, nth_error body start with
       | Some t, Some l =>
         Ok (match find_sub t l with
             | Some i => firstn start body ++ skipn (i + List.length t) l :: skipn (S start) body
             | None => body
             end, start)
       | None, Some _ => Err TypeError
       | _, None => Err IndexError
       end
     else match title with
          | Some _ => Ok (body, S start)
          | None => Ok (body, start)
          end) in
  let lines := skipn start (firstn end_ body) in
  let lines := match title with Some (c :: t) => strip_footer lines (c :: t) | _ => lines end in
  rebuild_reference_lines lines ptn.

(** extract_references_from_fulltext, 44-92: the reference lines and the status *)
Definition extract_references_from_fulltext (fulltext : list str) : res (list str * nat) :=
  let* body := remove_page_boundary_lines fulltext in
  let* start := get_reference_section_beginning body in
  match start with
  | None => Ok ([], 4)
  | Some s =>
    let d := s_details s in
    let* e := find_end_of_reference_section body (s_line s) (d_marker d) (d_pattern d) in
    match e with
    | None => Ok ([], 5)
    | Some e => let* refs := get_reference_lines body (s_line s) e (s_title s) (d_pattern d) (d_same_line d) in
                Ok (refs, 0)
    end
  end.

(** wash_and_repair_reference_line, 305-322 *)
Definition re_title_comma := Eval vm_compute in the_rx (compile noflags ([34; 40; 91; 94; 34; 93; 43; 41; 44; 34]%N)).
Definition wash_and_repair_reference_line (E : env) (line : str) : str :=
  let line := repair_broken_urls line in
  let line := undesirable E line in
  let line := re_sub (rx_re re_title_comma) (fun o => [34%N] ++ g_str line o 1 ++ [34%N; 44%N]) line in
  let line := undesirable E line in
  sub_text re_multiple_space (py " ") line.
