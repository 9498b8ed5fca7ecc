(** Model of refextract/references/engine.py 438-557 and 692-827, regexs.py 1105-1110:
    the functions applied to the citations of a line after splitting. *)
From Coq Require Import List Arith NArith Bool String.
From Verif Require Import PyStr Elements Regex RegexParse Patterns Numeration Transform.
Import ListNotations.
Open Scope nat_scope.

Definition citation := list addr.
Definition state := (heap * list citation)%type.

(** ** remove_year, regexs.py 1105-1110 *)
Definition spaces_re : re := Rep true 0 None (cls1 (CSpace true)).
Definition year_any : re := Eval vm_compute in rx_re (the_rx (compile noflags (py "(?:19|20)\d{2}"))).
Definition year_re (y : str) : re := match y with [] => year_any | _ => re_lits noflags y end.
Definition delim_year (a b : option N) (y : str) : re :=
  let opt o := match o with Some c => lit noflags c | None => Eps end in
  cat (opt a) (cat spaces_re (cat (year_re y) (cat spaces_re (opt b)))).
Definition remove_year (s y : str) : str :=
  let s := re_sub (delim_year (Some 91%N) (Some 93%N) y) (fun _ => []) s in
  let s := re_sub (delim_year (Some 40%N) (Some 41%N) y) (fun _ => []) s in
  re_sub (delim_year None None y) (fun _ => []) s.

(** ** add_year_elements, engine.py 438-468 *)
(** the value of the first JOURNAL element, or BOOK element with a year: 444-448 *)
Fixpoint journal_year (l : list el) : res (option str) :=
  match l with
  | [] => Ok None
  | e :: t =>
    if is_type JOURNAL e || (is_type BOOK e && match get Kyear e with Some _ => true | None => false end)
    then match get Kyear e with
         | Some (VS y) => Ok (Some y)
         | Some VNone => Ok None
         | Some _ => Err TypeError
         | None => Err KeyError
         end
    else journal_year t
  end.
(** the last year found in the misc texts: 450-454 *)
Fixpoint misc_year (acc : option str) (l : list el) : option str :=
  match l with
  | [] => acc
  | e :: t =>
    match re_search (rx_re re_year_in_misc_txt) (e_misc e) with
    | Some o => misc_year (Some (slice (m_start o) (m_end o) (e_misc e))) t
    | None => misc_year acc t
    end
  end.
Definition find_year (l : list el) : res (option str) :=
  let* y := journal_year l in
  Ok (if truthy_str y then y else misc_year (match y with Some _ => y | None => None end) l).
Definition year_el (y : str) : el := set_str Kyear y (mkel YEAR [] []).
Definition drop_year (y : str) (e : el) : el :=
  if contains y (e_misc e) then set_misc (remove_year (e_misc e) y) e else e.
Definition add_year_one (h : heap) (c : citation) : res (heap * citation) :=
  let* y := find_year (map (deref h) c) in
  match y with
  | Some ((_ :: _) as y) =>
    let (h1, a) := alloc h (year_el y) in
    let c1 := c ++ [a] in
    Ok (fold_left (fun h a => store h a (drop_year y)) c1 h1, c1)
  | _ => Ok (h, c)
  end.

(** a loop over the citations that may mutate the heap *)
Fixpoint each (f : heap -> citation -> res (heap * citation)) (h : heap) (cs : list citation)
  : res state :=
  match cs with
  | [] => Ok (h, [])
  | c :: t => let* (h1, c1) := f h c in let* (h2, t2) := each f h1 t in Ok (h2, c1 :: t2)
  end.
Definition add_year_elements (st : state) : res state := each add_year_one (fst st) (snd st).

(** ** look_for_implied_ibids, engine.py 471-509 *)
Definition opt_val (v : option str) : val := match v with Some s => VS s | None => VNone end.
Definition ibid_el (title : val) (volume : str) (i : numinfo) (page : option str) : el :=
  set Kextra_ibids (VIbids []) (set Kis_ibid (VB true) (set Kpage_end (opt_val (n_page_end i))
   (set Kpage (opt_val page) (set Kyear (opt_val (n_year i)) (set_str Kvolume volume
   (set Ktitle title (mkel JOURNAL [] []))))))).
(** lines 479-503, for the elements of the citation one after the other *)
Fixpoint implied_loop (j : addr) (h : heap) (c : citation) (todo : list addr) : res (heap * citation) :=
  match todo with
  | [] => Ok (h, c)
  | a :: t =>
    let e := deref h a in
    if is_type MISC e then
      let* i := find_numeration (e_misc e) in
      match i with
      | None => implied_loop j h c t
      | Some i =>
        let* series := (if truthy_str (n_series i) then Ok (n_series i)
                        else let* v := get_str Kvolume (deref h j) in Ok (extract_series_from_volume v)) in
        let* volume := (if truthy_str series
                        then let* v := need (n_volume i) in Ok (show series ++ v)
                        else need (n_volume i)) in
        match get Ktitle (deref h j) with
        | None => Err KeyError
        | Some title =>
          if truthy_str (n_page i) then
            let (h1, x) := alloc h (ibid_el title volume i (n_page i)) in
            implied_loop j (store h1 a (set_misc (skipn (n_len i) (e_misc e)))) (c ++ [x]) t
          else Err KeyError                       (* numeration["jinst_page"] *)
        end
      end
    else implied_loop j h c t
  end.
(** the last JOURNAL of a citation: 505-508 *)
Definition last_journal (h : heap) (c : citation) : option addr :=
  find (fun a => is_type JOURNAL (deref h a)) (rev c).
Fixpoint implied_ibids (j : option addr) (h : heap) (cs : list citation) : res state :=
  match cs with
  | [] => Ok (h, [])
  | c :: t =>
    let* (h1, c1) :=
      (match j with
       | Some ja => if existsb (fun a => is_type JOURNAL (deref h a)) c then Ok (h, c)
                    else implied_loop ja h c c
       | None => Ok (h, c)
       end) in
    let* (h2, t2) := implied_ibids (last_journal h1 c1) h1 t in
    Ok (h2, c1 :: t2)
  end.
Definition look_for_implied_ibids (st : state) : res state := implied_ibids None (fst st) (snd st).

(** ** remove_duplicated_authors, engine.py 512-523 *)
Fixpoint dup_authors (found : bool) (h : heap) (c : list addr) : res heap :=
  match c with
  | [] => Ok h
  | a :: t =>
    let e := deref h a in
    if is_type AUTH e then
      if found then
        let* txt := get_str Kauth_txt e in
        dup_authors true (store h a (fun e => set_misc (e_misc e ++ py " " ++ txt) (set_type MISC e))) t
      else dup_authors true h t
    else dup_authors found h t
  end.
Definition remove_duplicated_authors (st : state) : res state :=
  each (fun h c => let* h' := dup_authors false h c in Ok (h', c)) (fst st) (snd st).

(** citation.remove(el): the first equal element *)
Fixpoint remove_addr (h : heap) (e : el) (c : citation) : citation :=
  match c with
  | [] => []
  | a :: t => if el_eqb e (deref h a) then t else a :: remove_addr h e t
  end.

(** ** remove_duplicated_dois, engine.py 526-536 *)
Fixpoint dup_dois (found : bool) (h : heap) (snapshot : list addr) (c : citation) : citation :=
  match snapshot with
  | [] => c
  | a :: t =>
    let e := deref h a in
    if is_type DOI e then
      if found then dup_dois true h t (remove_addr h e c) else dup_dois true h t c
    else dup_dois found h t c
  end.
Definition remove_duplicated_dois (st : state) : state :=
  (fst st, map (fun c => dup_dois false (fst st) c c) (snd st)).

(** ** remove_duplicated_collaborations, engine.py 539-549 *)
Fixpoint dup_collabs (seen : list str) (h : heap) (snapshot : list addr) (c : citation) : res citation :=
  match snapshot with
  | [] => Ok c
  | a :: t =>
    let e := deref h a in
    if is_type COLLABORATION e then
      let* name := get_str Kcollaboration e in
      if mem_str name seen then dup_collabs seen h t (remove_addr h e c)
      else dup_collabs (seen ++ [name]) h t c
    else dup_collabs seen h t c
  end.
Definition remove_duplicated_collaborations (st : state) : res state :=
  each (fun h c => let* c' := dup_collabs [] h c c in Ok (h, c')) (fst st) (snd st).

(** ** add_recid_elements, engine.py 552-557 *)
Definition recid_el (v : val) : el := set Krecid v (mkel RECID [] []).
Definition add_recid_one (h : heap) (c : citation) : res (heap * citation) :=
  match find (fun a => truthy_opt (get Krecid (deref h a))) c with
  | Some a => match get Krecid (deref h a) with
              | Some v => let (h1, x) := alloc h (recid_el v) in Ok (h1, c ++ [x])
              | None => Ok (h, c)
              end
  | None => Ok (h, c)
  end.
Definition add_recid_elements (st : state) : res state := each add_recid_one (fst st) (snd st).

(** associate_recids applied to every citation, engine.py 663-666 *)
Fixpoint associate_heap (cb : callback) (n : nat) (h : heap) (c : list addr) : res (heap * nat) :=
  match c with
  | [] => Ok (h, n)
  | a :: t => let* e := associate_one cb n (deref h a) in
              associate_heap cb (S n) (store h a (fun _ => e)) t
  end.
Fixpoint associate_citations (cb : callback) (n : nat) (h : heap) (cs : list citation) : res (heap * nat) :=
  match cs with
  | [] => Ok (h, n)
  | c :: t => let* (h1, n1) := associate_heap cb n h c in associate_citations cb n1 h1 t
  end.

(** ** Books in the misc text, engine.py 692-827 *)
Definition is_alnum_upper (c : N) : bool := is_upper_ascii c || is_ascii_digit c.
(** re.sub("[^A-Z0-9]", "", s) *)
Definition clean (s : str) : str := filter is_alnum_upper s.

(** the loop of find_substring_ignore_special_chars: index of the character of [s] that
    is the ([start]+1)-th kept one *)
Fixpoint real_index (start i : nat) (s : str) : nat :=
  match s with
  | [] => 0
  | c :: t => let i' := if is_alnum_upper c then S i else i in
              if start <? i' then 0 else S (real_index start i' t)
  end.
(** engine.py 779-798; [None] is -1 *)
Definition find_substring_ignore_special_chars (s sub : str) : option nat :=
  let s := upper s in
  match find_sub (clean (upper sub)) (clean s) with
  | Some start => Some (real_index start 0 s)
  | None => None
  end.

(** engine.py 801-819: [Ok None] is the implicit return of None *)
Fixpoint cut_loop (rest clean_sub : str) (counter : nat) : res (option nat) :=
  match rest with
  | [] => Ok None
  | c :: t =>
    match clean_sub with
    | [] => Err IndexError
    | d :: sub' =>
      let sub1 := if N.eqb c d then sub' else clean_sub in
      match sub1 with
      | [] => Ok (Some (S counter))
      | _ => cut_loop t sub1 (S counter)
      end
    end
  end.
(** len(re.split("[ [{(a-zA-Z0-9]", t, maxsplit=1)[0]) *)
Definition skip_to_word (t : str) : nat :=
  match re_search (rx_re re_cut_split) t with Some o => m_start o | None => List.length t end.
Definition cut_substring_with_special_chars (s sub : str) (start : nat) : res (option str) :=
  let* c := cut_loop (skipn start (upper s)) (clean (upper sub)) 0 in
  match c with
  | None => Ok None
  | Some counter =>
    let stop := start + counter + skip_to_word (skipn (start + counter) s) in
    Ok (Some (strip (firstn start s) ++ py " " ++ strip (skipn stop s)))
  end.

(** year_from_citation, engine.py 692-700 *)
Definition year_from_citation (l : list el) : option val :=
  match find (is_type YEAR) l with Some e => get Kyear e | None => None end.
(** is_unknown_citation, engine.py 822-827 *)
Definition known_type (t : ety) : bool :=
  match t with BOOK | JOURNAL | DOI | ISBN | RECID => true | _ => false end.
Definition is_unknown_citation (l : list el) : bool := forallb (fun e => negb (known_type (e_type e))) l.

(** the loop over the titles, engine.py 717-765: [Some (line, new misc text)] when a
    book was found.  The loops over author names (739-752) only assign a variable that
    is True already and are left out. *)
Fixpoint search_titles (books all : books_kb) (year : option val) (misc : str)
  : res (option (list str * str)) :=
  match books with
  | [] => Ok None
  | (title, _) :: t =>
    match find_substring_ignore_special_chars misc title with
    | None => search_titles t all year misc
    | Some start =>
      match assoc_str (upper title) all with
      | None => Err KeyError
      | Some line =>
        match nth_error line 2 with
        | None => Err IndexError
        | Some y =>
          let book_year := strip_chars (py ";") y in
          if match year with Some (VS cy) => eqs cy book_year | _ => false end then
            let* cut := cut_substring_with_special_chars misc title start in
            match cut with
            | None => Err TypeError
            | Some m' => Ok (Some (line, remove_year m' book_year))
            end
          else search_titles t all year misc
        end
      end
    end
  end.
Definition book_el (line : list str) : el :=
  set_str Kauthors (nth 0 line []) (set_str Ktitle (nth 1 line [])
    (set_str Kyear (strip_chars (py ";") (nth 2 line [])) (mkel BOOK [] []))).
Fixpoint search_elements (books : books_kb) (year : option val) (h : heap) (c : citation) (todo : list addr)
  : res (heap * citation) :=
  match todo with
  | [] => Ok (h, c)
  | a :: t =>
    let* r := search_titles books books year (e_misc (deref h a)) in
    match r with
    | Some (line, m') =>
      let (h1, x) := alloc h (book_el line) in
      Ok (store h1 a (set_misc m'), c ++ [x])
    | None => search_elements books year h c t
    end
  end.
(** search_for_book_in_misc, engine.py 709-769 *)
Definition search_for_book_in_misc (books : books_kb) (h : heap) (c : citation) : res (heap * citation) :=
  search_elements books (year_from_citation (map (deref h) c)) h c c.
(** look_for_undetected_books, engine.py 703-706 *)
Definition look_for_undetected_books (books : books_kb) (st : state) : res state :=
  each (fun h c => if is_unknown_citation (map (deref h) c) then search_for_book_in_misc books h c
                   else Ok (h, c)) (fst st) (snd st).

(** The citations as values *)
Definition values (st : state) : list (list el) := map (map (deref (fst st))) (snd st).

(** ** The post-split part of parse_reference_line, engine.py 651-681.  [n] is the number
    of calls of the callback made before. *)
Definition post_split (books : books_kb) (cb : option callback) (n : nat) (st : state)
  : res (state * nat) :=
  let* st := look_for_implied_ibids st in
  let* st := add_year_elements st in
  let* st := look_for_undetected_books books st in
  let* (st, n) := (match cb with
                   | Some f => let* (h, n') := associate_citations f n (fst st) (snd st) in
                               Ok ((h, snd st), n')
                   | None => Ok (st, n)
                   end) in
  let* st := remove_duplicated_authors st in
  let st := remove_duplicated_dois st in
  let* st := remove_duplicated_collaborations st in
  let* st := add_recid_elements st in
  Ok (st, n).
