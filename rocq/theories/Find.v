(** Model of refextract/references/find.py: where the reference section starts and
    ends. *)
From Coq Require Import List Arith NArith Bool String.
From Verif Require Import PyStr Regex RegexParse Patterns.
Import ListNotations.
Open Scope nat_scope.

(** The dict describing a reference section.  [d_pattern] is the compiled marker pattern:
    the code keeps its source and compiles it again with the same flags. *)
Record details := mkdet { d_marker : option str; d_pattern : option rx; d_same_line : bool }.
Record section_start := mksec { s_line : nat; s_title : option str; s_details : details }.

(** find_numeration_in_body, 112-152 (the second component of the result is always False) *)
Fixpoint find_numeration_in_body (body : list str) : res details :=
  match body with
  | [] => Ok (mkdet None None false)
  | line :: t =>
    if isspace line then find_numeration_in_body t
    else match regex_match_list line marker_patterns with
         | None => find_numeration_in_body t
         | Some (p, o) =>
           match group_named p line o (py "marknum") with
           | Ok n =>
             if (match n with Some x => eqs x (py "1") | None => false end)
             then let* mk := group_named p line o (py "mark") in Ok (mkdet mk (Some p) false)
             else find_numeration_in_body t
           | Err _ => let* mk := group_named p line o (py "mark") in Ok (mkdet mk (Some p) false)
           end
         end
  end.

(** get_reference_line_numeration_marker_patterns(re.escape(title)): re.escape makes the
    title a literal, so the abstract syntax is built directly *)
Definition marker_body_rxs : list rx :=
  Eval vm_compute in map (fun b => the_rx (compile fI (py "(?P<mark>" ++ py b ++ py ")"))) marker_bodies.
Definition title_marker (title : str) (p : rx) : rx :=
  mkrx (Cat (Rep true 0 None (cls1 (CSpace true))) (Cat (re_lits fI title) (rx_re p))) (rx_names p).
Definition re_num := Eval vm_compute in the_rx (compile noflags (py "(\d+)")).

(** find_numeration_in_title, 155-188 *)
Definition find_numeration_in_title (body : list str) (title : str) : res (option details * bool) :=
  match body with
  | [] => Ok (None, false)
  | first :: _ =>
    match regex_match_list first (map (title_marker title) marker_body_rxs) with
    | None => Ok (None, false)
    | Some (p, o) =>
      let* mk := group_named p first o (py "mark") in
      match mk with
      | None => Err TypeError
      | Some mk =>
        let found := match re_search (rx_re re_num) mk with
                     | Some n => eqs (slice (m_start n) (m_end n) mk) (py "1")
                     | None => false
                     end in
        Ok (Some (mkdet (Some mk) (Some p) true), found)
      end
    end
  end.

(** find_numeration, 191-213 *)
Definition find_numeration_of_section (body : list str) (title : str) : res (details * bool) :=
  let* (d, found) := find_numeration_in_title body title in
  match d with
  | Some d => Ok (d, found)
  | None => let* d := find_numeration_in_body body in Ok (d, false)
  end.

(** The inner loop of find_reference_section, 77-104: [i] is the index of the last line
    not yet visited, plus one.  The test on "title" is always false, as the dicts have
    no such key. *)
Fixpoint title_scan (p : rx) (body : list str) (i : nat) (best : option section_start) : res (option section_start) :=
  match i with
  | O => Ok best
  | S j =>
    match nth_error body j with
    | None => Err IndexError
    | Some line =>
      match re_match (rx_re p) line with
      | None => title_scan p body j best
      | Some o =>
        let* title := group_named p line o (py "title") in
        match title with
        | None => Err TypeError
        | Some title =>
          let* (d, found) := find_numeration_of_section (firstn 6 (skipn j body)) title in
          let keep := match best with
                      | Some b => (match d_marker (s_details b) with Some (_ :: _) => true | _ => false end)
                                  && (match d_marker d with Some (_ :: _) => false | _ => true end)
                      | None => false
                      end in
          if keep then title_scan p body j best      (* continue: the break is skipped *)
          else let best' := Some (mksec j (Some title) d) in
               if found then Ok best' else title_scan p body j best'
        end
      end
    end
  end.
(** find_reference_section, 45-109 *)
Fixpoint find_reference_section_from (ps : list rx) (body : list str) : res (option section_start) :=
  match ps with
  | [] => Ok None
  | p :: t =>
    let* r := title_scan p body (List.length body) None in
    match r with
    | Some s => Ok (Some s)
    | None => find_reference_section_from t body
    end
  end.
Definition find_reference_section (body : list str) : res (option section_start) :=
  find_reference_section_from reference_section_title_patterns body.

(** find_reference_section_no_title_generic, 294-364, with one pattern *)
Definition marknum_is (p : rx) (line n : str) : res bool :=
  match re_match (rx_re p) line with
  | None => Ok false
  | Some o => let* v := group_named p line o (py "marknum") in
              Ok (match v with Some x => eqs x n | None => false end)
  end.
Fixpoint any_marknum (p : rx) (n : str) (lines : list str) : res bool :=
  match lines with
  | [] => Ok false
  | l :: t => let* b := marknum_is p (strip l) n in if b then Ok true else any_marknum p n t
  end.
Fixpoint number_scan (p : rx) (body : list str) (i : nat) : res (option section_start) :=
  match i with
  | O => Ok None
  | S j =>
    match nth_error body j with
    | None => Err IndexError
    | Some line =>
      let line := strip line in
      let* one := marknum_is p line (py "1") in
      if one then
        let zone := firstn 10 (skipn i body) in
        let* found := (if List.length zone <? 5 then Ok true else any_marknum p (py "2") zone) in
        if found then
          match re_match (rx_re p) line with
          | None => Err AttributeError
          | Some o =>
            let* mk := group_named p line o (py "mark") in
            match mk with
            | None => Err AttributeError
            | Some mk => Ok (Some (mksec j None (mkdet (Some (strip mk)) (Some p) false)))
            end
          end
        else number_scan p body j
      else number_scan p body j
    end
  end.
Definition find_reference_section_no_title (p : rx) (body : list str) : res (option section_start) :=
  number_scan p body (List.length body).

(** get_reference_section_beginning, 483-523 *)
Definition get_reference_section_beginning (body : list str) : res (option section_start) :=
  let* r := find_reference_section body in
  match r with
  | Some s => Ok (Some s)
  | None =>
    let* r := find_reference_section_no_title re_bracket_markers body in
    match r with
    | Some s => Ok (Some s)
    | None =>
      let* r := find_reference_section_no_title re_dot_markers body in
      match r with
      | Some s => Ok (Some s)
      | None => find_reference_section_no_title re_number_markers body
      end
    end
  end.

(** ** find_end_of_reference_section, 367-480 *)
(** int(match.group("marknum")); [None] for ValueError and IndexError, which are caught *)
Definition marknum_value (p : rx) (s : str) (o : mobj) : res (option N) :=
  match group_named p s o (py "marknum") with
  | Ok (Some t) => match int_of_str t with
                   | Ok n => Ok (Some n)
                   | Err _ => Ok None
                   end
  | Ok None => Err TypeError
  | Err _ => Ok None
  end.
Definition has_marknum (p : rx) : bool := match assoc_str (py "marknum") (rx_names p) with Some _ => true | None => false end.
(** 417-437: is there a reference marker in the following lines? *)
Fixpoint marker_follows (mk : list rx) (count : N) (lines : list str) : res bool :=
  match lines with
  | [] => Ok false
  | l :: t =>
    let l := strip l in
    match regex_match_list l mk with
    | Some (p, o) =>
      if isdigit (slice (m_start o) (m_end o) l) then marker_follows mk count t
      else if has_marknum p then
        let* v := marknum_value p l o in
        match v with
        | Some n => if N.eqb (count + 1) n then Ok true else marker_follows mk count t
        | None => marker_follows mk count t
        end
      else Ok true
    | None => marker_follows mk count t
    end
  end.
(** 441-450 *)
Definition digit_test_str (l : str) : str :=
  strip (filter (fun c => negb (mem_ch c [32; 46; 45; 43; 215; 8722]%N)) l).
Definition digit_line (l : str) : bool := let d := digit_test_str l in (10 <? List.length d) && isdigit d.
(** 456-473: num_digit_lines, digit_lines.  [k] = y - x. *)
Fixpoint digit_scan (lines : list str) (k limit num : nat) : nat * nat :=
  match lines with
  | [] => (num, limit)
  | l :: t =>
    if k <? limit then
      if digit_line l then digit_scan t (S k) limit (S num)
      else match digit_test_str l with
           | [] => digit_scan t (S k) (S limit) num
           | _ => digit_scan t (S k) limit num
           end
    else (num, limit)
  end.
Definition graph_axis (line : str) (next : list str) : bool :=
  digit_line line && (let (num, limit) := digit_scan next 1 4 1 in num =? limit).

(** The main loop on the lines from [ref_start_line]: number of lines consumed (x -
    ref_start_line at the end).  When a following section title ends the section x is not
    incremented; a graph axis ends it after the increment. *)
Fixpoint end_scan (mk : list rx) (count : N) (lines : list str) : res nat :=
  match lines with
  | [] => Ok 0
  | line :: t =>
    let l := strip line in
    let* count := (match regex_match_list l mk with
                   | Some (p, o) => let* v := marknum_value p l o in
                                    Ok (match v with Some n => n | None => count end)
                   | None => Ok count
                   end) in
    let* ended := (match regex_match_list l post_reference_title_patterns with
                   | Some _ => let* f := marker_follows mk count (firstn 199 t) in Ok (negb f)
                   | None => Ok false
                   end) in
    if ended then Ok 0
    else if graph_axis line t then Ok 1
    else let* n := end_scan mk count t in Ok (S n)
  end.
(** [None] when the start is invalid; the result is the index of the last line plus one,
    x, the code returning x - 1 (which is -1 for an empty section at line 0) *)
Definition find_end_of_reference_section (body : list str) (start : nat) (marker : option str) (ptn : option rx)
  : res (option nat) :=
  if (List.length body <? start) || (List.length body <? 1) then Ok None
  else
    let mk := match marker, ptn with Some _, Some p => [p] | _, _ => marker_patterns end in
    let* n := end_scan mk 0 (skipn start body) in
    Ok (Some (start + n)).
