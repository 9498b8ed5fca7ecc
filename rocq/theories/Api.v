(** Model of refextract/references/api.py, refextract/extract.py and
    engine.py 1474-1497 (get_plaintext_document_body). *)
From Coq Require Import List Arith NArith Bool String.
From Verif Require Import PyStr Regex Elements Record Transform Tag Find RefText Kbs Pdf Engine.
Import ListNotations.
Open Scope nat_scope.

(** External services, as functions of the content of the file (any functions) *)
Record services := mksrv {
  mime_type : bytes -> res str;                       (* magic.from_file(path, mime=True) *)
  read_lines : bytes -> res (list str);               (* open(path).readlines() *)
  pdftotext : bool -> bytes -> res (list str);        (* the lines pdftotext prints, decoded *)
  pypdf : bytes -> res (list dest * list link);       (* PdfReader *)
  set_order : list str -> list str }.                 (* iteration order of a set of these strings *)

(** get_plaintext_document_body, engine.py 1474-1497: content of the file afterwards,
    lines *)
Definition get_plaintext_document_body (W : services) (layout : bool) (b : bytes) : bytes * res (list str) :=
  match clean_pdf_file b with
  | (b', Err e) => (b', Err e)
  | (b', Ok _) =>
    (b', let* mime := mime_type W b' in
         if eqs mime (py "text/plain") then read_lines W b'
         else if eqs mime (py "application/pdf") then let* out := pdftotext W layout b' in Ok (split_page_breaks out)
         else Err UnknownDocumentTypeError)
  end.

(** inspire_utils.helpers.dedupe_list: removes duplicates, keeps the order *)
Fixpoint dedupe_from (seen l : list str) : list str :=
  match l with
  | [] => []
  | x :: t => if mem_str x seen then dedupe_from seen t else x :: dedupe_from (x :: seen) t
  end.
Definition dedupe_list (l : list str) : list str := dedupe_from [] l.

(** api.py 147-160 *)
Definition attach (W : services) (r : ref) (e : str * list str) : ref :=
  let r := update_reference_with_urls r (set_order W (snd e)) in
  let r := match fget Furl r with
           | Some (u :: us) => fset Furl (dedupe_list (u :: us)) r
           | _ => r
           end in
  fset Ftexkey [fst e] r.
Fixpoint zip_with {A B C} (f : A -> B -> C) (a : list A) (b : list B) : list C :=
  match a, b with x :: a', y :: b' => f x y :: zip_with f a' b' | _, _ => [] end.
Definition attach_all (W : services) (refs : list ref) (keys : list (str * list str)) : list ref :=
  if List.length keys =? List.length refs then zip_with (attach W) refs keys else refs.

(** What every entry point is given: the environment, the loaded knowledge bases
    (parse_references calls get_kbs, which is modelled in Kbs.v), the linker callback and
    the format *)
Record options := mkopt { o_env : env; o_kbs : res kbs; o_cb : option callback; o_format : template }.
Definition parse_with (O : options) (lines : list str) : res (list ref) :=
  let* K := o_kbs O in
  let* (refs, _) := parse_references (o_env O) K (o_cb O) (o_format O) lines in
  Ok refs.

(** extract_references_from_file, 102-164; [None]: not a file.  The first component is the
    content of the file afterwards. *)
Definition extract_references_from_file (W : services) (O : options) (file : option bytes)
  : option bytes * res (list ref) :=
  match file with
  | None => (None, Err FullTextNotAvailableError)
  | Some b =>
    match get_plaintext_document_body W false b with
    | (b1, Err e) => (Some b1, Err e)
    | (b1, Ok body) =>
      match extract_references_from_fulltext body with
      | Err e => (Some b1, Err e)
      | Ok (reflines, _) =>
        let '(b2, lines) :=
          match reflines with
          | [] => match get_plaintext_document_body W true b1 with
                  | (b2, Err e) => (b2, Err e)
                  | (b2, Ok body) => (b2, let* (l, _) := extract_references_from_fulltext body in Ok l)
                  end
          | _ => (b1, Ok reflines)
          end in
        (Some b2,
         let* lines := lines in
         let* refs := parse_with O lines in
         let* mime := mime_type W b2 in
         if eqs mime (py "application/pdf")
         then Ok (attach_all W refs (extract_texkeys_and_urls_from_pdf (pypdf W b2)))
         else Ok refs)
      end
    end
  end.

(** source.split("\n") *)
Fixpoint split_lines (s cur : str) : list str :=
  match s with
  | [] => [rev cur]
  | c :: t => if N.eqb c 10 then rev cur :: split_lines t [] else split_lines t (c :: cur)
  end.
(** extract_references_from_string, 167-216 *)
Definition extract_references_from_string (O : options) (only_refs : bool) (source : str) : res (list ref) :=
  let body := split_lines source [] in
  let* lines :=
    (if only_refs then
       let* s := get_reference_section_beginning body in
       let* d := (match s with
                  | Some s => Ok (s_details s)
                  | None => find_numeration_in_body body
                  end) in
       rebuild_reference_lines body (d_pattern d)
     else let* (l, _) := extract_references_from_fulltext body in Ok l) in
  parse_with O lines.

(** extract_journal_reference, 219-231 *)
Fixpoint first_journal (cits : list (list el)) : option el :=
  match cits with
  | [] => None
  | c :: t => match first_of_type JOURNAL c with Some e => Some e | None => first_journal t end
  end.
Definition extract_journal_reference (E : env) (K : res kbs) (line : str) : res (option el) :=
  let* K := K in
  let* (cits, _, _, _) := parse_reference_line E (mkctx K [] 0) None line in
  Ok (first_journal cits).

(** ** extract_references_from_url, 57-99.
    The temporary directory: the files in it with their contents.  A step may change the
    directory and fails or gives a value. *)
Definition dir := list (nat * bytes).
Definition prog (A : Type) := dir -> dir * res A.
Definition ret {A} (r : res A) : prog A := fun s => (s, r).
Definition andthen {A B} (p : prog A) (k : A -> prog B) : prog B :=
  fun s => match p s with (s1, Ok a) => k a s1 | (s1, Err e) => (s1, Err e) end.
(** try: p except HTTPError: raise e *)
Definition except_http {A} (p : prog A) (e : exn) : prog A :=
  fun s => match p s with (s1, Err HTTPError) => (s1, Err e) | r => r end.
(** try: p finally: q *)
Definition finally_ {A} (p : prog A) (q : prog unit) : prog A :=
  fun s => let (s1, r) := p s in let (s2, c) := q s1 in (s2, match c with Ok _ => r | Err e => Err e end).
Fixpoint dir_get (name : nat) (s : dir) : option bytes :=
  match s with [] => None | (n, b) :: t => if n =? name then Some b else dir_get name t end.
Definition dir_del (name : nat) (s : dir) : dir := filter (fun e => negb (fst e =? name)) s.
Definition dir_set (name : nat) (b : bytes) (s : dir) : dir := (name, b) :: dir_del name s.
Definition write_file (name : nat) (b : bytes) : prog unit := fun s => (dir_set name b s, Ok tt).
(** os.remove: FileNotFoundError is an OSError *)
Definition remove_file (name : nat) : prog unit :=
  fun s => match dir_get name s with Some _ => (dir_del name s, Ok tt) | None => (s, Err OSError) end.
(** What the outside world answers: the name mkstemp makes (or its failure), the results of
    os.close, requests.get, raise_for_status, open, and of every chunk of iter_content
    and its write *)
Record download := mkdl { dl_mkstemp : res nat; dl_close : res unit; dl_get : res unit; dl_status : res unit;
                          dl_open : res unit; dl_chunks : list (res bytes) }.
Fixpoint write_chunks (name : nat) (acc : bytes) (l : list (res bytes)) : prog unit :=
  match l with
  | [] => write_file name acc
  | Ok c :: t => andthen (write_file name (acc ++ c)) (fun _ => write_chunks name (acc ++ c) t)
  | Err e :: _ => ret (Err e)
  end.
(** [extract]: extract_references_from_file on the file of this content; content afterwards *)
Definition on_file {A} (extract : option bytes -> option bytes * res A) (name : nat) : prog A :=
  fun s => let (b, r) := extract (dir_get name s) in
           (match b with Some b => dir_set name b s | None => s end, r).
Definition extract_references_from_url (extract : option bytes -> option bytes * res (list ref)) (d : download) : prog (list ref) :=
  andthen (fun s => match dl_mkstemp d with
                    | Ok name => (dir_set name [] s, Ok name)
                    | Err e => (s, Err e)
                    end) (fun name =>
  andthen (ret (dl_close d)) (fun _ =>
  finally_
    (except_http
       (andthen (ret (dl_get d)) (fun _ =>
        andthen (ret (dl_status d)) (fun _ =>
        andthen (ret (dl_open d)) (fun _ =>
        andthen (write_file name []) (fun _ =>
        andthen (write_chunks name [] (dl_chunks d)) (fun _ =>
        on_file extract name))))))
       FullTextNotAvailableError)
    (remove_file name))).

(** ** extract.py *)
(** extract_references_from_list, 63-80: [extract] is extract_references_from_string *)
Definition raw_only (raw : str) : ref := [(Fraw_ref, [raw])].
Definition extract_references_from_list (extract : str -> res (list ref)) (raws : list str) : list ref :=
  map (fun raw => match extract raw with
                  | Ok (r :: _) => r
                  | Ok [] => raw_only raw
                  | Err _ => raw_only raw
                  end) raws.
(** extract_journal_info, 12-30.  [None] in the input: no pubinfo_freetext; an empty text is
    treated in the same way.  [None] in an output entry is the empty dict. *)
Fixpoint journal_infos (extract : str -> res (option el)) (infos : list (option str)) : res (list (option el)) :=
  match infos with
  | [] => Ok []
  | i :: t =>
    let* e := (match i with Some (c :: s) => extract (c :: s) | _ => Ok None end) in
    let* r := journal_infos extract t in Ok (e :: r)
  end.
Definition extract_journal_info (extract : str -> res (option el)) (infos : list (option str)) : option (list (option el)) :=
  match journal_infos extract infos with Ok l => Some l | Err _ => None end.
(** extract_references_from_text, 33-44, and extract_references_from_file_url, 47-60 *)
Definition or_none {A} (r : res A) : option A := match r with Ok a => Some a | Err _ => None end.
