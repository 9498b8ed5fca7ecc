(** Model of refextract/references/record.py *)
From Coq Require Import List Arith NArith Bool String.
From Verif Require Import PyStr Elements.
Import ListNotations.
Open Scope nat_scope.

(** Keys of the output dictionaries. *)
Inductive fkey :=
| Flinemarker | Fraw_ref | Fmisc | Fjournal_title | Fjournal_volume | Fjournal_year
| Fjournal_page | Fjournal_reference | Freportnumber | Furl | Furldesc | Fdoi | Fhdl
| Fauthor | Ftitle | Fisbn | Fpublisher | Fyear | Fcollaboration | Frecid
| Ftexkey.
Definition fkey_code (k : fkey) : nat :=
  match k with
  | Flinemarker => 0 | Fraw_ref => 1 | Fmisc => 2 | Fjournal_title => 3
  | Fjournal_volume => 4 | Fjournal_year => 5 | Fjournal_page => 6
  | Fjournal_reference => 7 | Freportnumber => 8 | Furl => 9 | Furldesc => 10
  | Fdoi => 11 | Fhdl => 12 | Fauthor => 13 | Ftitle => 14 | Fisbn => 15
  | Fpublisher => 16 | Fyear => 17 | Fcollaboration => 18 | Frecid => 19 | Ftexkey => 20
  end.
Definition fkey_eqb (a b : fkey) : bool := fkey_code a =? fkey_code b.

(** A reference: dict of lists of strings, in insertion order. *)
Definition ref := list (fkey * list str).
Fixpoint fget (k : fkey) (r : ref) : option (list str) :=
  match r with
  | [] => None
  | (k', v) :: t => if fkey_eqb k k' then Some v else fget k t
  end.
Fixpoint fset (k : fkey) (v : list str) (r : ref) : ref :=
  match r with
  | [] => [(k, v)]
  | (k', v') :: t => if fkey_eqb k k' then (k, v) :: t else (k', v') :: fset k v t
  end.

(** record.py 25-26 *)
Definition format_marker (m : str) : str := strip_chars (py "[](){}. ") m.

(** record.py 52-54.  The value is a string or None ([None] below). *)
Definition add_subfield (r : ref) (k : fkey) (v : str) : ref :=
  if nonempty v
  then fset k (match fget k r with Some l => l | None => [] end ++ [v]) r
  else r.
Definition add_subfield_opt (r : ref) (k : fkey) (v : option val) : ref :=
  match v with Some (VS s) => add_subfield r k s | _ => r end.

(** The reference format: a str.format template restricted to literal text and plain
    replacement fields {name} (both formats used in the code base are of this form). *)
Inductive piece := Lit (s : str) | Field (k : key).
Definition template := list piece.
(** "{title} {volume} ({year}) {page}": engine.py 1504, api.py 105, 170 *)
Definition default_format : template :=
  [Field Ktitle; Lit (py " "); Field Kvolume; Lit (py " ("); Field Kyear; Lit (py ") "); Field Kpage].
(** "{title},{volume},{page}": extract.py 39, 54, 71 *)
Definition comma_format : template := [Field Ktitle; Lit (py ","); Field Kvolume; Lit (py ","); Field Kpage].

(** str(v) inside a format; the text of a list of extra ibids is not modelled and is
    reported as the error [OtherError 0]. *)
Definition str_of_val (v : val) : res str :=
  match v with
  | VS s => Ok s
  | VNone => Ok (py "None")
  | VB true => Ok (py "True")
  | VB false => Ok (py "False")
  | VIbids _ => Err (OtherError 0)
  | VLink _ t => Ok t
  end.
(** reference_format.format( **element ) *)
Fixpoint format_el (f : template) (e : el) : res str :=
  match f with
  | [] => Ok []
  | Lit s :: t => let* r := format_el t e in Ok (s ++ r)
  | Field k :: t =>
    match get k e with
    | None => Err KeyError
    | Some v => let* a := str_of_val v in let* r := format_el t e in Ok (a ++ r)
    end
  end.

(** record.py 57-62 *)
Definition add_journal_subfield (r : ref) (e : el) (f : template) : res ref :=
  let r := add_subfield_opt r Fjournal_title (get Ktitle e) in
  let r := add_subfield_opt r Fjournal_volume (get Kvolume e) in
  let r := add_subfield_opt r Fjournal_year (get Kyear e) in
  let r := add_subfield_opt r Fjournal_page (get Kpage e) in
  let* s := format_el f e in
  Ok (add_subfield r Fjournal_reference s).

(** record.py 65-69 *)
Definition create_reference_field (line_marker : str) : ref :=
  if nonempty (strip_chars (py "., [](){}") line_marker)
  then add_subfield [] Flinemarker (format_marker line_marker)
  else [].

(** body of the loop, record.py 90-157 *)
Definition add_element (f : template) (r : ref) (e : el) : res ref :=
  let misc := e_misc e in
  let r := if nonempty (strip_chars (py "., [](){}") misc)
           then add_subfield r Fmisc
                  (rstrip_chars (py "[({ ,.") (lstrip_chars (py "])} ,.") misc))
           else r in
  match e_type e with
  | JOURNAL => add_journal_subfield r e f
  | REPORTNUMBER => let* v := get_str Kreport_num e in Ok (add_subfield r Freportnumber v)
  | URL =>
    let* s := get_str Kurl_string e in
    let* d := get_str Kurl_desc e in
    if eqs s d then Ok (add_subfield r Furl s)
    else Ok (add_subfield (add_subfield r Furl s) Furldesc d)
  | DOI => let* v := get_str Kdoi_string e in Ok (add_subfield r Fdoi (py "doi:" ++ v))
  | HDL => let* v := get_str Khdl_id e in Ok (add_subfield r Fhdl (py "hdl:" ++ v))
  | AUTH =>
    let* v := get_str Kauth_txt e in
    let* t := get_str Kauth_type e in
    let v' := if eqs t (py "incl") then py "(" ++ v ++ py ")" else v in
    Ok (add_subfield r Fauthor v')
  | QUOTED => let* v := get_str Ktitle e in Ok (add_subfield r Ftitle v)
  | ISBN => let* v := get_str KISBN e in Ok (add_subfield r Fisbn v)
  | BOOK => let* v := get_str Ktitle e in Ok (add_subfield r Ftitle v)
  | PUBLISHER => let* v := get_str Kpublisher e in Ok (add_subfield r Fpublisher v)
  | YEAR => let* v := get_str Kyear e in Ok (add_subfield r Fyear v)
  | COLLABORATION => let* v := get_str Kcollaboration e in Ok (add_subfield r Fcollaboration v)
  | RECID =>
    match get Krecid e with
    | Some v => let* s := str_of_val v in Ok (add_subfield r Frecid s)
    | None => Err KeyError
    end
  | MISC => Ok r
  end.

Fixpoint add_elements (f : template) (r : ref) (l : list el) : res ref :=
  match l with
  | [] => Ok r
  | e :: t => let* r' := add_element f r e in add_elements f r' t
  end.

(** build_reference_fields, record.py 72-159 (the returned list has one dict) *)
Definition build_reference_fields (l : list el) (line_marker raw_ref : str) (f : template) : res (list ref) :=
  let r := fset Fraw_ref [raw_ref] (create_reference_field line_marker) in
  let* r := add_elements f r l in Ok [r].

(** One processed reference line: engine.py 892-899. *)
Record processed := mkproc { p_elements : list (list el); p_marker : str; p_raw : str }.

(** build_references, record.py 29-49 *)
Definition build_line (f : template) (c : processed) : res (list ref) :=
  let* rs := mapM (fun els => build_reference_fields els (p_marker c) (p_raw c) f) (p_elements c) in
  Ok (List.concat rs).
Definition build_references (cs : list processed) (f : template) : res (list ref) :=
  let* rs := mapM (build_line f) cs in Ok (List.concat rs).

(** update_reference_with_urls, record.py 162-164.  The argument is a Python set; the
    order of iteration is the order of the list. *)
Fixpoint update_reference_with_urls (r : ref) (urls : list str) : ref :=
  match urls with
  | [] => r
  | u :: t => update_reference_with_urls (add_subfield r Furl u) t
  end.
