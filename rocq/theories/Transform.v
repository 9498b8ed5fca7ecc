(** Model of refextract/references/engine.py 113-298 and 560-599: the transformations
    applied to the elements of one line before it is split into citations.  A function
    that mutates its list argument in place is modelled as returning the new list. *)
From Coq Require Import List Arith NArith Bool String.
From Verif Require Import PyStr Elements Regex Patterns.
Import ListNotations.
Open Scope nat_scope.

(** roman2arabic, engine.py 113-125; [c] is ord(r) *)
Definition roman_digit (c : N) : N := (10 ^ (205558 mod c mod 7) mod 9995)%N.
Fixpoint roman_loop (t p : N) (s : str) : N :=
  match s with
  | [] => t
  | r :: rest => let n := roman_digit r in roman_loop (t + (n - (2 * p) mod n)) n rest
  end%N.
Definition roman2arabic (s : str) : N := roman_loop 0 0 s.

Definition matches (p : rx) (s : str) : bool :=
  match re_match (rx_re p) s with Some _ => true | None => false end.

(** format_volume, engine.py 131-141 *)
Definition format_volume_el (e : el) : res el :=
  if is_type JOURNAL e then
    let* v := get_str Kvolume e in
    if matches re_roman_full v then Ok (set_str Kvolume (str_of_N (roman2arabic (upper v))) e) else Ok e
  else Ok e.
Definition format_volume (l : list el) : res (list el) := mapM format_volume_el l.

(** handle_special_journals, engine.py 144-168; [special] is kbs["special_journals"] *)
Definition handle_special_journals_el (special : list str) (e : el) : res el :=
  if is_type JOURNAL e then
    let* title := get_str Ktitle e in
    if mem_str title special then
      let* vol := get_str Kvolume e in
      let* e1 :=
        (if matches re_vol_1_2 vol then
           let* year := get_str Kyear e in
           let* e' :=
             (if eqs year [] then
                let* page := get_str Kpage e in
                if matches re_page_year page
                then Ok (set_misc (title ++ py "," ++ vol ++ py "," ++ page) (set_type MISC e))
                else Ok e
              else Ok e) in
           let* n := int_of_str vol in
           Ok (set_str Kvolume (last_n 2 year ++ pad_zero 2 n) e')
         else Ok e) in
      let* page := get_str Kpage e1 in
      if isdigit page then
        let* n := int_of_str page in
        Ok (set_str Kpage (pad_zero 3 n) e1)
      else Ok e1
    else Ok e
  else Ok e.
Definition handle_special_journals (special : list str) (l : list el) : res (list el) :=
  mapM (handle_special_journals_el special) l.

(** format_report_number, engine.py 171-184 *)
Definition format_report_number_el (e : el) : res el :=
  if is_type REPORTNUMBER e then
    let* num := get_str Kreport_num e in
    match re_match (rx_re re_report) num with
    | Some o =>
      let name := g_str num o 1 in
      let nums := g_str num o 2 in
      if negb (endswith name (py "-")) then Ok (set_str Kreport_num (name ++ py "-" ++ nums) e) else Ok e
    | None => Ok e
    end
  else Ok e.
Definition format_report_number (l : list el) : res (list el) := mapM format_report_number_el l.

(** format_hep, engine.py 187-202 *)
Definition hep_prefixes : list str :=
  map py ["astro-ph-"; "hep-th-"; "hep-ph-"; "hep-ex-"; "hep-lat-"; "math-ph-"]%string.
Definition hep_step (num p : str) : str :=
  if startswith num p then firstn (List.length p - 1) num ++ py "/" ++ skipn (List.length p) num else num.
Definition format_hep_el (e : el) : res el :=
  if is_type REPORTNUMBER e then
    let* num := get_str Kreport_num e in
    Ok (set_str Kreport_num (fold_left hep_step hep_prefixes num) e)
  else Ok e.
Definition format_hep (l : list el) : res (list el) := mapM format_hep_el l.

(** format_author_ed, engine.py 205-214 *)
Definition format_author_ed_el (e : el) : res el :=
  if is_type AUTH e then
    let* a := get_str Kauth_txt e in
    Ok (set_str Kauth_txt
          (replace (py "(eds. )") (py "(eds.)") (replace (py "(ed. )") (py "(ed.)") a)) e)
  else Ok e.
Definition format_author_ed (l : list el) : res (list el) := mapM format_author_ed_el l.

(** The books KB: upper-case title -> the columns of the row (build_books_kb,
    kbs.py 401-407). *)
Definition books_kb := list (str * list str).

(** look_for_books, engine.py 217-243 *)
Definition first_of_type (t : ety) (l : list el) : option el := find (is_type t) l.
Definition look_for_books (books : books_kb) (l : list el) : res (list el) :=
  match first_of_type QUOTED l with
  | None => Ok l
  | Some q =>
    let* t := get_str Ktitle q in
    match assoc_str (upper t) books with
    | None => Ok l
    | Some line =>
      match nth_error line 0, nth_error line 1, nth_error line 2 with
      | Some a, Some ti, Some y =>
        let b := set_str Kauthors a (set_str Ktitle ti (set_str Kyear (strip_chars (py ";") y) (mkel BOOK [] []))) in
        Ok (remove_first q (l ++ [b]))
      | _, _, _ => Err IndexError
      end
    end
  end.

(** split_volume_from_journal, engine.py 246-257 *)
Definition split_volume_el (e : el) : res el :=
  if is_type JOURNAL e then
    let* t := get_str Ktitle e in
    match rsplit1 59%N t with
    | Some (t', series) =>
      let* v := get_str Kvolume e in
      Ok (set_str Kvolume (series ++ v) (set_str Ktitle t' e))
    | None => Ok e
    end
  else Ok e.
Definition split_volume_from_journal (l : list el) : res (list el) := mapM split_volume_el l.

(** remove_b_for_nucl_phys, engine.py 260-274 *)
Definition remove_b_el (e : el) : res el :=
  if is_type JOURNAL e then
    let* t := get_str Ktitle e in
    if eqs t (py "Nucl.Phys.Proc.Suppl.") then
      match get Kvolume e with
      | Some (VS v) => if startswith v (py "b") || startswith v (py "B")
                       then Ok (set_str Kvolume (skipn 1 v) e) else Ok e
      | Some _ => Err AttributeError
      | None => Ok e
      end
    else Ok e
  else Ok e.
Definition remove_b_for_nucl_phys (l : list el) : res (list el) := mapM remove_b_el l.

(** mangle_volume, engine.py 277-289 *)
Definition mangle_volume_el (e : el) : res el :=
  if is_type JOURNAL e then
    let* v := get_str Kvolume e in
    match re_match (rx_re re_volume_letter) v with
    | Some o => Ok (set_str Kvolume (g_str v o 2 ++ g_str v o 1) e)
    | None => Ok e
    end
  else Ok e.
Definition mangle_volume (l : list el) : res (list el) := mapM mangle_volume_el l.

(** associate_recids, engine.py 292-298.  The callback is an arbitrary function of the
    number of calls made before and of the element; it is assumed not to modify the
    element. *)
Definition callback := nat -> el -> res val.
Definition associate_one (cb : callback) (n : nat) (e : el) : res el :=
  match cb n e with
  | Ok v => Ok (set Krecid v e)
  | Err IndexError | Err KeyError => Ok (set Krecid VNone e)
  | Err x => Err x
  end.
Fixpoint associate_recids (cb : callback) (n : nat) (l : list el) : res (list el * nat) :=
  match l with
  | [] => Ok ([], n)
  | e :: t =>
    let* e' := associate_one cb n e in
    let* (t', n') := associate_recids cb (S n) t in
    Ok (e' :: t', n')
  end.

(** arxiv_urls_to_report_numbers, engine.py 560-565 *)
Definition arxiv_url_prefix := py "http://arxiv.org/abs/".
Definition arxiv_url_el (e : el) : res el :=
  if is_type URL e then
    let* u := get_str Kurl_string e in
    if startswith u arxiv_url_prefix
    then Ok (set_str Kreport_num (replace arxiv_url_prefix (py "arXiv:") u) (set_type REPORTNUMBER e))
    else Ok e
  else Ok e.
Definition arxiv_urls_to_report_numbers (l : list el) : res (list el) := mapM arxiv_url_el l.

(** look_for_hdl, engine.py 568-583.  [p] is the current index of the element under
    treatment; list.index compares by equality and may return an earlier index. *)
Definition hdl_el (id misc : str) : el := set_str Khdl_id id (mkel HDL misc []).
Definition hdl_insert (st : list el * nat) (o : mobj) : list el * nat :=
  let (l, p) := st in
  match nth_error l p with
  | None => st
  | Some e =>
    let misc := e_misc e in
    let h := hdl_el (g_str misc o 2) (skipn (m_end o) misc) in
    let e' := set_misc (firstn (m_start o) misc) e in
    let l' := update_at p (fun _ => e') l in
    let idx := match index_of e' l' with Some i => i | None => p end in
    (insert_at (S idx) h l', if idx <? p then S p else p)
  end.
Fixpoint look_for_hdl_from (todo : nat) (l : list el) (p : nat) : list el :=
  match todo with
  | O => l
  | S t =>
    match nth_error l p with
    | None => l
    | Some e =>
      let ms := rev (re_finditer (rx_re re_hdl) (e_misc e)) in
      let (l', _) := fold_left hdl_insert ms (l, p) in
      look_for_hdl_from t l' (p + List.length ms + 1)
    end
  end.
(** After the element at [p] has been treated, with [k] insertions before or directly
    after it, the next element of the original list is at [p + k + 1]. *)
Definition look_for_hdl (l : list el) : list el := look_for_hdl_from (List.length l) l 0.

(** look_for_hdl_urls, engine.py 586-599 *)
Definition hdl_url_el (e : el) : res el :=
  if is_type URL e then
    let* u := get_str Kurl_string e in
    match re_match (rx_re re_hdl) u with
    | Some o => Ok (del Kurl_string (del Kurl_desc (set_str Khdl_id (g_str u o 2) (set_type HDL e))))
    | None => Ok e
    end
  else Ok e.
Definition look_for_hdl_urls (l : list el) : res (list el) := mapM hdl_url_el l.
