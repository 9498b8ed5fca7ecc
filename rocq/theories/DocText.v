(** Model of refextract/documents/text.py *)
From Coq Require Import List Arith NArith Bool String.
From Verif Require Import PyStr Regex RegexParse Patterns.
Import ListNotations.
Open Scope nat_scope.

(** ** Patterns, 28-43 *)
Definition re_space_comma := Eval vm_compute in the_rx (compile noflags (py "\s,")).
Definition re_space_semicolon := Eval vm_compute in the_rx (compile noflags (py "\s;")).
Definition re_space_period := Eval vm_compute in the_rx (compile noflags (py "\s\.")).
Definition re_colon_space_colon := Eval vm_compute in the_rx (compile noflags (py ":\s:")).
Definition re_comma_space_colon := Eval vm_compute in the_rx (compile noflags (py ",\s:")).
Definition re_space_closing_square_bracket := Eval vm_compute in the_rx (compile noflags (py "\s\]")).
Definition re_opening_square_bracket_space := Eval vm_compute in the_rx (compile noflags (py "\[\s")).
(** the bytes of 35-37 after raw_unicode_escape: the first alternative is a backslash
    followed by 255 *)
Definition re_hyphens_src : str :=
  py "(\\255|" ++ [727; 124; 821; 124; 822; 124; 8722; 124; 45; 124; 65123; 124; 65293]%N ++ py ")".
Definition re_hyphens := Eval vm_compute in the_rx (compile noflags re_hyphens_src).
Definition re_multiple_space := Eval vm_compute in the_rx (compile noflags (py "\s{2,}")).
Definition re_group_captured_multiple_space := Eval vm_compute in the_rx (compile noflags (py "(\s{2,})")).

(** ** URL repair, 46-97 *)
Definition url_file_types : list string :=
  ["h\s*t\s*m"; "h\s*t\s*m\s*l"; "t\s*x\s*t"; "p\s*h\s*p"; "a\s*s\s*p\s*"; "j\s*s\s*p"; "p\s*y"; "p\s*l";
   "x\s*m\s*l"; "j\s*p\s*g"; "g\s*i\s*f"; "m\s*o\s*v"; "s\s*w\s*f"; "p\s*d\s*f"; "p\s*s"; "d\s*o\s*c";
   "t\s*e\s*x"; "s\s*h\s*t\s*m\s*l"]%string.
Definition url_repair_srcs : list string :=
  ((["(h\s*t\s*t\s*p\s*\:\s*\/\s*\/)";
    "(f\s*t\s*p\s*\:\s*\/\s*\/\s*)";
    "((http|ftp):\/\/\s*[\w\d])";
    "((http|ftp):\/\/([\w\d\s\._\-])+?\s*\/)";
    "((http|ftp):\/\/([\w\d\_\.\-])+\/(([\w\d\_\s\.\-])+?\/)+)";
    "((http|ftp):\/\/([\w\d\_\.\-])+\/(([\w\d\_\s\.\-])+?\/)*([\w\d\_\s\-]+\.\s?[\w\d]+))"]%string)
   ++ map (fun e => ("((http|ftp):\/\/([\w\d\_\.\-])+\/(([\w\d\_\.\-])+?\/)*([\w\d\_\-]+\." +++ e +++ "))")%string)
          url_file_types
   ++ ["((http|ftp):\/\/([\w\d\_\.\-])+\/(([\w\d\_\.\-])+?\/)*\s*?([\w\d\_\.\-]\s?){1,10}\s*)$"%string])%list.
Definition url_repair_patterns : list rx :=
  Eval vm_compute in map (fun s => the_rx (compile fI (py s))) url_repair_srcs.

(** join_lines, 104-122 *)
Definition join_lines (a b : str) : str :=
  match rev a with
  | [] => b
  | c :: t => if N.eqb c 45 then rev t ++ b
              else if N.eqb c 32 then a ++ b else a ++ [32%N] ++ b
  end.

(** repair_broken_urls, 125-140 *)
Definition chop_spaces (s : str) (o : mobj) : str := filter (fun c => negb (N.eqb c 32)) (g_str s o 1).
Definition repair_with (line : str) (p : rx) : str := re_sub (rx_re p) (chop_spaces line) line.
Definition repair_broken_urls (line : str) : str := fold_left repair_with url_repair_patterns line.

(** remove_and_record_multiple_spaces_in_line, 143-167; the dictionary as the list of
    its entries by ascending key *)
Definition remove_and_record_multiple_spaces_in_line (line : str) : list (nat * nat) * str :=
  let r := rx_re re_group_captured_multiple_space in
  (map (fun o => (m_start o, m_end o - m_start o - 1)) (re_finditer r line),
   re_sub r (fun _ => py " ") line).

(** wash_line, 170-186 *)
Definition sub_text (p : rx) (repl : str) (s : str) : str := re_sub (rx_re p) (fun _ => repl) s.
Definition wash_line (line : str) : str :=
  let line := sub_text re_space_comma (py ",") line in
  let line := sub_text re_space_semicolon (py ";") line in
  let line := sub_text re_space_period (py ".") line in
  let line := sub_text re_colon_space_colon (py ":") line in
  let line := sub_text re_comma_space_colon (py ":") line in
  let line := sub_text re_space_closing_square_bracket (py "]") line in
  let line := sub_text re_opening_square_bracket_space (py "[") line in
  let line := sub_text re_hyphens (py "-") line in
  sub_text re_multiple_space (py " ") line.

(** ** Page boundaries, 189-450.  Lists of lines; an index outside the list is an
    IndexError. *)
Definition at_index (l : list str) (i : nat) : res str :=
  match nth_error l i with Some s => Ok s | None => Err IndexError end.
Definition pos_at (l : list nat) (i : nat) : res nat :=
  match nth_error l i with Some s => Ok s | None => Err IndexError end.

(** document_contains_text, 222-236 *)
Definition document_contains_text (body : list str) : bool := existsb (fun l => negb (isspace l)) body.

(** get_page_break_positions, 239-253 *)
Definition re_page_break := Eval vm_compute in the_rx (compile noflags (py "^\s*\f\s*$")).
Definition is_page_break (l : str) : bool :=
  match re_match (rx_re re_page_break) l with Some _ => true | None => false end.
Fixpoint page_breaks_from (i : nat) (body : list str) : list nat :=
  match body with
  | [] => []
  | l :: t => if is_page_break l then i :: page_breaks_from (S i) t else page_breaks_from (S i) t
  end.
Definition get_page_break_positions (body : list str) : list nat := page_breaks_from 0 body.

Definition re_word_search := Eval vm_compute in the_rx (compile noflags (py "([A-Za-z0-9-]+)")).
Definition words (l : str) : list str := re_findall (rx_re re_word_search) l.

(** check_boundary_lines_similar, 424-450.  The words are non-empty (they are matches
    of the word pattern); [hd 0] is only applied to such words. *)
Definition similar_word (a b : str) : bool :=
  if isdigit a && isdigit b then true
  else let a := lower a in let b := lower b in
       N.eqb (hd 0%N a) (hd 0%N b) && N.eqb (last a 0%N) (last b 0%N).
Definition count_similar (l1 l2 : list str) : nat :=
  List.length (filter (fun p => similar_word (fst p) (snd p)) (combine l1 l2)).
Definition check_boundary_lines_similar (l1 l2 : list str) : bool :=
  if negb (List.length l1 =? List.length l2) then false
  else match l1 with
       | [] => false
       (* num_matches / len >= 0.9 *)
       | _ => 9 * List.length l1 <=? 10 * count_similar l1 l2
       end.

(** comparison of one line of a page with the corresponding line of the reference page,
    282-303 and 345-368 *)
Definition line_agrees (empty_line : bool) (head this : list str) : bool :=
  if empty_line then List.length this =? 0
  else if (List.length this =? 0) || negb (List.length head =? List.length this) then false
  else check_boundary_lines_similar head this.

(** inner loop of get_number_header_lines, 287-310: is the line number
    [num] + 1 after each of the remaining breaks similar? *)
Fixpoint header_inner (fuel : nat) (body : list str) (breaks : list nat) (remaining next num cur : nat)
         (empty_line : bool) (head : list str) : res bool :=
  if cur <? remaining then
    match fuel with
    | O => Err OutOfFuel
    | S f =>
      let* b := pos_at breaks cur in
      let lineno := b + num + 1 in
      if List.length body <=? lineno then Ok false
      else let* l := at_index body lineno in
           if line_agrees empty_line head (words l)
           then header_inner f body breaks remaining next num (cur + next) empty_line head
           else Ok false
    end
  else Ok true.
(** outer loop, 273-315 *)
Fixpoint header_outer (fuel : nat) (body : list str) (breaks : list nat) (remaining next num : nat) : res nat :=
  match fuel with
  | O => Err OutOfFuel
  | S f =>
    let* b1 := pos_at breaks 1 in
    let* l := at_index body (b1 + num + 1) in
    let* b2 := pos_at breaks 2 in
    if b1 + num + 1 =? b2 then Ok num
    else
      let* keep := header_inner (List.length breaks) body breaks remaining next num (1 + next) (isspace l) (words l) in
      if keep then header_outer f body breaks remaining next (S num) else Ok num
  end.
(** get_number_header_lines, 256-317 *)
Definition get_number_header_lines (body : list str) (breaks : list nat) : res nat :=
  let remaining := List.length breaks - 1 in
  if 2 <? remaining
  then header_outer (S (List.length body)) body breaks remaining (if 3 <? remaining then 2 else 1) 0
  else Ok 0.

(** docbody[p - n - 1]: a negative index counts from the end in Python *)
Definition at_before (body : list str) (p n : nat) : res str :=
  if n + 1 <=? p then at_index body (p - n - 1)
  else let k := n + 1 - p in
       if k <=? List.length body then at_index body (List.length body - k) else Err IndexError.
Fixpoint footer_inner (body : list str) (breaks : list nat) (num : nat) (empty_line : bool) (head : list str) : res bool :=
  match breaks with
  | [] => Ok true
  | b :: t =>
    let* l := at_before body b num in
    if line_agrees empty_line head (words l) then footer_inner body t num empty_line head else Ok false
  end.
Fixpoint footer_outer (fuel : nat) (body : list str) (breaks : list nat) (num : nat) : res nat :=
  match fuel with
  | O => Err OutOfFuel
  | S f =>
    let* b1 := pos_at breaks 1 in
    if (b1 <? num + 1) || (List.length body - 1 <? b1 - num - 1) then Ok num
    else
      let* l := at_index body (b1 - num - 1) in
      let* keep := footer_inner body (skipn 2 breaks) num (isspace l) (words l) in
      if keep then footer_outer f body breaks (S num) else Ok num
  end.
(** get_number_footer_lines, 320-375 *)
Definition get_number_footer_lines (body : list str) (breaks : list nat) : res nat :=
  if 2 <? List.length breaks then footer_outer (S (List.length body)) body breaks 0 else Ok 0.

(** del docbody[i:i+1] *)
Definition del_at (i : nat) (l : list str) : list str := firstn i l ++ skipn (S i) l.
Fixpoint del_times (n i : nat) (l : list str) : list str :=
  match n with O => l | S k => del_times k i (del_at i l) end.
(** min(page_lens), 398-404 *)
Fixpoint page_lens (breaks : list nat) : list nat :=
  match breaks with
  | a :: (b :: _) as t => (b - a) :: page_lens t
  | _ => []
  end.
Definition min_list (l : list nat) : nat := match l with [] => 0 | a :: t => fold_left Nat.min t a end.
(** one page break, 409-420; breaks are treated from the last to the first.  [p -
    num_foot] is non-negative there (proved), [first]: the last break of the document,
    [final]: the first one. *)
Definition strip_one (nh nf : nat) (first final : bool) (p : nat) (body : list str) : list str :=
  let body := if first then body else del_times nh (p + 1) body in
  let body := del_at p body in
  if final then body else del_times nf (p - nf) body.
Fixpoint strip_loop (nh nf : nat) (first : bool) (rbreaks : list nat) (body : list str) : list str :=
  match rbreaks with
  | [] => body
  | p :: t => strip_loop nh nf false t (strip_one nh nf first (negb (nonempty t)) p body)
  end.
(** strip_headers_footers_pagebreaks, 378-421 *)
Definition strip_headers_footers_pagebreaks (body : list str) (breaks : list nat) (nh nf : nat) : list str :=
  let lens := page_lens breaks in
  if nonempty lens && (nh + nf + 1 <? min_list lens)
  then strip_loop nh nf true (rev breaks) body
  else body.

(** remove_page_boundary_lines, 189-219 *)
Definition remove_page_boundary_lines (body : list str) : res (list str) :=
  if negb (document_contains_text body) then Ok body
  else
    let breaks := get_page_break_positions body in
    let* nh := get_number_header_lines body breaks in
    let* nf := get_number_footer_lines body breaks in
    Ok (strip_headers_footers_pagebreaks body breaks nh nf).
