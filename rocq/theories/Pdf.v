(** Model of refextract/references/pdf.py (keys and links of a PDF) and of the text part of
    refextract/documents/pdf.py.  pypdf and pdftotext are outside: the model starts
    from what they return. *)
From Coq Require Import List Arith ZArith NArith Bool String.
From Verif Require Import PyStr Regex RegexParse Patterns.
Import ListNotations.
Open Scope Z_scope.

(** Coordinates: pypdf gives numbers that are only compared with each other, and divided
    once to find the column; the model uses integers. *)
Record position := mkpos { p_page : Z; p_col : Z; p_y : Z; p_x : Z }.

(** A named destination: its name, the page number and page width pypdf finds for it, and
    its coordinates ([None] when absent). *)
Record dest := mkdest { n_key : str; n_page : Z; n_width : Z; n_left : option Z; n_top : option Z }.
(** A link annotation: /A /URI, page number, page width, /Rect entries 0 and 3 *)
Record link := mklink { l_uri : str; l_page : Z; l_width : Z; l_left : Z; l_top : Z }.

(** [a // b]: ZeroDivisionError *)
Definition floordiv (a b : Z) : res Z := if b =? 0 then Err (OtherError 2) else Ok (a / b).
Definition falsy (v : option Z) : bool := match v with None => true | Some z => z =? 0 end.
(** _destination_position, 221-242 *)
Definition destination_position (d : dest) : res position :=
  match n_left d, n_top d with
  | Some x, Some y =>
    if (x =? 0) || (y =? 0) then Err (OtherError 3)
    else let* c := floordiv (2 * x) (n_width d) in Ok (mkpos (n_page d) c (- y) x)
  | _, _ => Err (OtherError 3)                    (* IncompleteCoordinatesError *)
  end.
(** _uri_position, 245-254 *)
Definition uri_position (u : link) : res position :=
  let* c := floordiv (2 * l_left u) (l_width u) in Ok (mkpos (l_page u) c (- l_top u) (l_left u)).

(** _destinations_in_two_columns, 197-218 *)
Fixpoint zcount (x : Z) (l : list Z) : nat :=
  match l with [] => O | y :: t => if x =? y then Datatypes.S (zcount x t) else zcount x t end.
Fixpoint some_thrice (seen l : list Z) : bool :=
  match l with
  | [] => false
  | x :: t => Nat.leb 3 (Datatypes.S (zcount x seen)) || some_thrice (x :: seen) t
  end.
(** the generator is lazy: a failure after the third repetition is not seen there, but
    then in the list comprehension of line 84 *)
Definition in_two_columns (ps : list position) : bool :=
  some_thrice [] (map p_x (filter (fun p => p_col p =? 1) ps)).

(** Sorting keys: (page, column, y, x) or (page, y, x) *)
Definition lex (a b : Z) (k : bool) : bool := (a <? b) || ((a =? b) && k).
Definition pos_leb (two : bool) (a b : position) : bool :=
  if two
  then lex (p_page a) (p_page b) (lex (p_col a) (p_col b) (lex (p_y a) (p_y b) (p_x a <=? p_x b)))
  else lex (p_page a) (p_page b) (lex (p_y a) (p_y b) (p_x a <=? p_x b)).
Fixpoint insert_pos {A} (two : bool) (x : A * position) (l : list (A * position)) : list (A * position) :=
  match l with
  | [] => [x]
  | y :: t => if pos_leb two (snd x) (snd y) then x :: l else y :: insert_pos two x t
  end.
(** stable ascending sort *)
Definition sort_pos {A} (two : bool) (l : list (A * position)) : list (A * position) :=
  fold_right (insert_pos two) [] l.

(** _match_urls_with_reference, 119-194.  What happens to one url: taken, skipped, or the
    loop stops and the rest of the list from this url is kept. *)
Inductive verdict := Take | Skip | Stop.
Definition url_verdict (two : bool) (ref : position) (next : option position) (u : position) : verdict :=
  let under := p_y ref <=? p_y u in
  let same_col := p_col ref =? p_col u in
  let next_col := p_col ref <? p_col u in
  let same_page := p_page ref =? p_page u in
  let prev_page := p_page ref + 1 =? p_page u in
  match next with
  | None => if ((same_page && (same_col || next_col)) || prev_page) && under then Take else Skip
  | Some nx =>
    let between := (same_page || prev_page) && ((p_y ref <=? p_y u) && (p_y u <=? p_y nx)) in
    let next_same_page := p_page nx =? p_page u in
    let last_in_page := same_page && (p_page u <? p_page nx) && under in
    let last_two_col := same_page && next_same_page && under && (p_col u <? p_col nx)
                        && (p_y nx <? p_y u) && (p_y ref <=? p_y u) && (same_col || next_col) in
    let in_new_column := same_page && next_same_page && (p_y u <? p_y ref) && (p_col ref <? p_col nx)
                         && (p_y u <? p_y nx) in
    let other_new_column := same_page && next_same_page && (p_col nx =? p_col ref) && (p_col ref <? p_col u)
                            && (p_y u <? p_y nx) in
    let unrelated := p_page u <? p_page ref in
    let for_next := p_y nx <=? p_y u in
    if between then (if negb two || (p_col u =? p_col ref) then Take else Skip)
    else if last_in_page || last_two_col || in_new_column then Take
    else if unrelated then Skip
    else if for_next || other_new_column then Stop
    else Skip
  end.
(** the urls taken (a set in the code: order and duplicates are not observable), and the
    list left *)
Fixpoint match_loop (two : bool) (ref : position) (next : option position) (all todo : list (str * position))
  : list str * list (str * position) :=
  match todo with
  | [] => ([], all)
  | u :: t =>
    match url_verdict two ref next (snd u) with
    | Take => let (taken, left) := match_loop two ref next all t in (fst u :: taken, left)
    | Skip => match_loop two ref next all t
    | Stop => ([], todo)
    end
  end.
Definition match_urls_with_reference (two : bool) (urls : list (str * position)) (ref : position) (next : option position)
  : list str * list (str * position) :=
  let (taken, left) := match_loop two ref next urls urls in
  (taken, match next with None => [] | Some _ => left end).

(** lines 89-112: one entry per destination *)
Fixpoint match_all (two : bool) (refs urls : list (str * position)) : list (str * list str) :=
  match refs with
  | [] => []
  | r :: t =>
    let next := match t with n :: _ => Some (snd n) | [] => None end in
    let (taken, left) := match_urls_with_reference two urls (snd r) next in
    (fst r, taken) :: match_all two t left
  end.

(** the texkey of a destination name: what follows "cite." *)
Definition texkey_of (name : str) : option str :=
  match re_match (rx_re re_reference_in_dest) name with
  | Some o => Some (g_str name o 1)
  | None => None
  end.
Fixpoint filter_map {A B} (f : A -> option B) (l : list A) : list B :=
  match l with
  | [] => []
  | x :: t => match f x with Some y => y :: filter_map f t | None => filter_map f t end
  end.
(** extract_texkeys_and_urls_from_pdf, 42-116.  [read]: what pypdf returns, or its failure.
    Names given as bytes are not modelled (decoded names). *)
Definition locate {A B} (f : A -> res position) (g : A -> B) (l : list A) : res (list (B * position)) :=
  mapM (fun a => let* p := f a in Ok (g a, p)) l.
Definition texkeys_and_urls (dests : list dest) (links : list link) : res (list (str * list str)) :=
  let cited := filter (fun d => match texkey_of (n_key d) with Some _ => true | None => false end) dests in
  let* refs := locate destination_position (fun d => n_key d) cited in
  let two := in_two_columns (map snd refs) in
  let* urls := locate uri_position l_uri links in
  Ok (map (fun e => (match texkey_of (fst e) with Some k => k | None => [] end, snd e))
          (match_all two (sort_pos two refs) (sort_pos two urls))).
Definition extract_texkeys_and_urls_from_pdf (read : res (list dest * list link)) : list (str * list str) :=
  match read with
  | Err _ => []
  | Ok (dests, links) => match texkeys_and_urls dests links with Ok l => l | Err _ => [] end
  end.

(** ** convert_PDF_to_plaintext, documents/pdf.py 47-97: page breaks get their own line.
    [out]: the decoded lines pdftotext prints. *)
Definition re_break_in_line := Eval vm_compute in the_rx (compile noflags (py "^\s*\f(.+)$")).
Fixpoint split_page_breaks (out : list str) : list str :=
  match out with
  | [] => []
  | l :: t => match re_match (rx_re re_break_in_line) l with
              | Some o => [12%N] :: g_str l o 1 :: split_page_breaks t
              | None => l :: split_page_breaks t
              end
  end.
