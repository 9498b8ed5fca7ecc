(** Model of refextract/references/kbs.py. *)
From Coq Require Import List Arith NArith Bool String.
From Verif Require Import PyStr Regex RegexParse Patterns DocText Tag.
Import ListNotations.
Open Scope nat_scope.

(** ** Stable sort by decreasing key: list.sort(key=..., reverse=True) keeps the order of
    equal elements *)
Fixpoint insert_by {A} (key : A -> nat) (x : A) (l : list A) : list A :=
  match l with
  | [] => [x]
  | y :: t => if key y <=? key x then x :: l else y :: insert_by key x t
  end.
Definition sort_by {A} (key : A -> nat) (l : list A) : list A := fold_right (insert_by key) [] l.

(** ** Report numbers *)
(** order_reportnum_patterns_bylen, 98-114 *)
Definition base_len (p : str) : nat := List.length (sub_text re_regexp_character_class (py "1") p).
Definition order_reportnum_patterns_bylen (ps : list str) : list (nat * str) :=
  sort_by fst (map (fun p => (base_len p, p)) ps).
(** institute_num_pattern_to_regex, 135-174 *)
Definition simple_replacements : list (str * str) :=
  map (fun e => (py (fst e), py (snd e)))
    [("9", "\d"); ("w+", "\w+"); ("a", "[A-Za-z]"); ("v", "[Vv]"); ("mm", "(0[1-9]|1[0-2])");
     ("yyyy", "[12]\d{3}"); ("yy", "\d\d"); ("s", "\s*"); ("/", "\/")]%string.
Definition institute_num_pattern_to_regex (p : str) : str :=
  let p := fold_left (fun p e => replace (fst e) (snd e) p) simple_replacements p in
  let p := re_sub (rx_re re_extract_quoted_text) (fun o => g_str p o 1) p in
  re_sub (rx_re re_extract_char_class) (fun o => py "( [" ++ g_str p o 1 ++ py "])?") p.
(** create_institute_numeration_group_regexp_pattern, 117-132 *)
Definition numeration_group (ps : list (nat * str)) : str :=
  py "(?P<numn>" ++ join (py "|") (map (fun e => institute_num_pattern_to_regex (snd e)) ps) ++ py ")".
(** _add_institute_preprint_patterns, 218-287 *)
Definition repnum_src (categ numeration : str) : str :=
  py "(?:^|[^a-zA-Z0-9\/\.\-])([\[\(]?(?P<categ>" ++ strip categ ++ py ")" ++ numeration ++ py "[\]\)]?)".
Definition put_rep {A} (k : repkey) (v : A) (l : list (repkey * A)) : list (repkey * A) :=
  (fix go l := match l with
               | [] => [(k, v)]
               | (k', v') :: t => if repkey_eqb k k' then (k', v) :: t else (k', v') :: go t
               end) l.
Fixpoint add_categs (num : nat) (numeration : str) (cs : list (str * str)) (kb : repnum_kb) : res repnum_kb :=
  match cs with
  | [] => Ok kb
  | (c, std) :: t =>
    let* p := compile noflags (repnum_src c numeration) in
    add_categs num numeration t (mkrk (put_rep (num, c) p (rk_search kb)) (put_rep (num, c) std (rk_std kb)))
  end.
Definition add_institute (num : nat) (cs : list (str * str)) (ns : list str) (kb : repnum_kb) : res repnum_kb :=
  match cs, ns with
  | [], _ | _, [] => Ok kb
  | _, _ => add_categs num (numeration_group (order_reportnum_patterns_bylen ns)) cs kb
  end.
(** build_reportnum_kb, 177-377 *)
Definition re_institute_name := Eval vm_compute in the_rx (compile noflags (py "^\*{5}\s*(.+)\s*\*{5}$")).
Definition re_preprint_classification := Eval vm_compute in
  the_rx (compile noflags (py "^\s*(\w.*)\s*---\s*(\w.*)\s*$")).
Definition re_numeration_pattern := Eval vm_compute in the_rx (compile noflags (py "^\<(.+)\>$")).
Record repst := mkrepst { q_num : nat; q_cs : list (str * str); q_ns : list str; q_kb : repnum_kb }.
Definition is_comment (l : str) : bool := startswith l (py "#").
Definition repnum_line (s : repst) (l : str) : res repst :=
  if is_comment l then Ok s
  else
    let num := S (q_num s) in
    match re_search (rx_re re_institute_name) l with
    | Some _ => let* kb := add_institute num (q_cs s) (q_ns s) (q_kb s) in Ok (mkrepst num [] [] kb)
    | None =>
      match re_search (rx_re re_preprint_classification) l with
      | Some o => Ok (mkrepst num (q_cs s ++ [(g_str l o 1, g_str l o 2)]) (q_ns s) (q_kb s))
      | None =>
        match re_search (rx_re re_numeration_pattern) l with
        | Some o => Ok (mkrepst num (q_cs s) (q_ns s ++ [g_str l o 1]) (q_kb s))
        | None => Ok (mkrepst num (q_cs s) (q_ns s) (q_kb s))
        end
      end
    end.
Fixpoint foldM {A B} (f : A -> B -> res A) (a : A) (l : list B) : res A :=
  match l with
  | [] => Ok a
  | x :: t => let* a' := f a x in foldM f a' t
  end.
Definition build_reportnum_kb (lines : list str) : res repnum_kb :=
  let* s := foldM repnum_line (mkrepst 0 [] [] (mkrk [] [])) lines in
  add_institute (q_num s) (q_cs s) (q_ns s) (q_kb s).

(** ** Line based knowledge bases *)
(** build_special_journals_kb, 380-398 (a set; only membership is used) *)
Definition build_special_journals_kb (lines : list str) : list str :=
  map strip (filter (fun l => negb (is_comment l) && nonempty (strip l)) lines).
(** build_books_kb, 401-407; the rows are those of csv.reader *)
Fixpoint build_books_kb_from (rows : list (list str)) (kb : list (str * list str)) : res (list (str * list str)) :=
  match rows with
  | [] => Ok kb
  | row :: t => match nth_error row 1 with
                | Some title => build_books_kb_from t (sput (upper title) row kb)
                | None => Err IndexError
                end
  end.
Definition build_books_kb (rows : list (list str)) : res (list (str * list str)) := build_books_kb_from rows [].
(** seek and replace terms of a line *)
Definition kb_line (l : str) : option (str * str) :=
  match re_search (rx_re re_kb_line) l with
  | Some o => Some (tgrp re_kb_line l o "seek", tgrp re_kb_line l o "repl")
  | None => None
  end.
(** build_authors_kb, 420-434 *)
Fixpoint build_authors_kb (lines : list str) : list (str * str) :=
  match lines with
  | [] => []
  | l :: t => if is_comment l then build_authors_kb t
              else match kb_line l with
                   | Some p => p :: build_authors_kb t
                   | None => build_authors_kb t
                   end
  end.
(** build_journals_re_kb, 437-458 *)
Fixpoint build_journals_re_kb (lines : list str) : res (list (str * str)) :=
  match lines with
  | [] => Ok []
  | l :: t => if is_comment l then build_journals_re_kb t
              else match kb_line l with
                   | Some p => let* r := build_journals_re_kb t in Ok (p :: r)
                   | None => Err AttributeError
                   end
  end.
(** load_kb_from_file, 465-481: the generator is consumed by the builder; the model reads
    all lines first (a difference only in which of two exceptions is raised) *)
Definition chomp (l : str) : str := rstrip_chars [10%N] l.
Fixpoint parse_kb_file (lines : list str) : res (list (str * str)) :=
  match lines with
  | [] => Ok []
  | l :: t => if is_comment l then parse_kb_file t
              else match kb_line (chomp l) with
                   | Some p => let* r := parse_kb_file t in Ok (p :: r)
                   | None => Err ValueError
                   end
  end.
(** build_publishers_kb, 410-417 *)
Fixpoint build_publishers_kb_from (rows : list (str * str)) (kb : publishers_kb) : res publishers_kb :=
  match rows with
  | [] => Ok kb
  | (name, repl) :: t =>
    let* p := compile fI (py "(\b|^)" ++ name ++ py "(\b|$)") in
    build_publishers_kb_from t (sput name (p, repl) kb)
  end.
Definition build_publishers_kb (rows : list (str * str)) : res publishers_kb := build_publishers_kb_from rows [].
(** build_collaborations_kb, 563-574 *)
Definition collab_prefix : str := py "(?:^|[\(\""\[\s]|(?<=\W))\s*(?:(?:the|and)\s+)?".
Definition collab_suffix : str := py "(?=$|[><\]\)\""\s.,:])".
Definition collab_src (pattern : str) : str :=
  collab_prefix ++ py "("
  ++ replace (py "Collaboration") (py "(?:\s*coll(?:aborations?|\.)?)?") (replace (py " ") (py "\s") pattern)
  ++ py ")" ++ collab_suffix.
Fixpoint build_collaborations_kb_from (rows : list (str * str)) (kb : list (str * rx)) : res (list (str * rx)) :=
  match rows with
  | [] => Ok kb
  | (pattern, collab) :: t =>
    let* p := compile fI (collab_src pattern) in build_collaborations_kb_from t (sput collab p kb)
  end.
Definition build_collaborations_kb (rows : list (str * str)) : res (list (str * rx)) :=
  build_collaborations_kb_from rows [].

(** ** build_journals_kb, 484-560.  re.escape makes the phrases literals, so the abstract
    syntax is built directly. *)
(** (?<!\w)(PHRASE)\W *)
Definition seek_re (phrase : str) : re :=
  Cat (Look false true 1 (cls1 (CWord true))) (Cat (Grp 1 (re_lits noflags phrase)) (cls1 (CWord false))).
(** (?<!\/)\b(PHRASE)[^A-Z0-9] *)
Definition repl_re (phrase : str) : re :=
  Cat (Look false true 1 (lit noflags 47%N))
      (Cat Wordb (Cat (Grp 1 (re_lits noflags phrase))
                      (Cls (mkcls true false [CRange 65 90; CRange 48 57]%N)))).
Definition seek_phrase (s : str) : str := upper (replace (py ".") (py " ") s).
Definition repl_phrase (s : str) : str :=
  strip (sub_text re_group_captured_multiple_space (py " ") (sub_text re_punctuation (py " ") (upper s))).
Record jb := mkjb { jb_kb : list (str * re); jb_std : list (str * str); jb_keys : list str }.
Definition add_seek (b : jb) (row : str * str) : jb :=
  let s := seek_phrase (fst row) in
  mkjb (sput s (seek_re s) (jb_kb b)) (sput s (snd row) (jb_std b)) (jb_keys b ++ [s]).
Definition add_repl (b : jb) (term : str) : jb :=
  let s := repl_phrase term in
  match assoc_str s (jb_kb b) with
  | Some _ => b
  | None => mkjb (sput s (repl_re s) (jb_kb b)) (sput s term (jb_std b)) (jb_keys b ++ [s])
  end.
(** repl_terms: a dict, its keys in order of first insertion *)
Fixpoint distinct (seen l : list str) : list str :=
  match l with
  | [] => []
  | x :: t => if mem_str x seen then distinct seen t else x :: distinct (x :: seen) t
  end.
Definition build_journals_kb (rows : list (str * str)) : journals_kb :=
  let b := fold_left add_seek rows (mkjb [] [] []) in
  let b := fold_left add_repl (distinct [] (map snd rows)) b in
  mkjk (jb_kb b) (jb_std b) (sort_by (@List.length N) (jb_keys b)).

(** ** Sources and loaders *)
(** What a user passes for one knowledge base: a path, pairs (a dict or an iterable of
    pairs), lines, or rows of columns. *)
Inductive source := Path (p : str) | Pairs (l : list (str * str)) | Lines (l : list str) | Rows (l : list (list str)).
(** the file system: the lines of a text file, and the rows csv.reader makes of it *)
Record files := mkfiles { f_lines : str -> res (list str); f_rows : str -> res (list (list str)) }.

Inductive kbtype := Tjournals | Tjournals_re | Treports | Tauthors | Tcollabs | Tbooks | Tpublishers | Tspecial.
(** load_kb 90-95 *)
Definition load_pairs (F : files) (s : source) : res (list (str * str)) :=
  match s with
  | Path p => let* ls := f_lines F p in parse_kb_file ls
  | Pairs l => Ok l
  | Lines _ | Rows _ => Err ValueError      (* rows that are not pairs: not modelled further *)
  end.
(** file_resolving, 40-52 *)
Definition load_lines (F : files) (s : source) : res (list str) :=
  match s with
  | Path p => f_lines F p
  | Lines l => Ok l
  | Pairs _ | Rows _ => Err AttributeError  (* tuples have no startswith *)
  end.
Definition load_rows (F : files) (s : source) : res (list (list str)) :=
  match s with
  | Path p => f_rows F p
  | Rows l => Ok l
  | Pairs l => Ok (map (fun e => [fst e; snd e]) l)
  | Lines _ => Err IndexError               (* strings as rows: not modelled further *)
  end.

Inductive loaded :=
| Ljournals (k : journals_kb) | Ljournals_re (k : list (str * str)) | Lreports (k : repnum_kb)
| Lauthors (k : list (str * str)) | Lcollabs (k : list (str * rx)) | Lbooks (k : list (str * list str))
| Lpublishers (k : publishers_kb) | Lspecial (k : list str).
(** load_kb_by_type, 73-87 *)
Definition load_kb_by_type (F : files) (t : kbtype) (s : source) : res loaded :=
  match t with
  | Tjournals => let* l := load_pairs F s in Ok (Ljournals (build_journals_kb l))
  | Tjournals_re => let* l := load_lines F s in let* k := build_journals_re_kb l in Ok (Ljournals_re k)
  | Treports => let* l := load_lines F s in let* k := build_reportnum_kb l in Ok (Lreports k)
  | Tauthors => let* l := load_lines F s in Ok (Lauthors (build_authors_kb l))
  | Tcollabs => let* l := load_pairs F s in let* k := build_collaborations_kb l in Ok (Lcollabs k)
  | Tbooks => let* l := load_rows F s in let* k := build_books_kb l in Ok (Lbooks k)
  | Tpublishers => let* l := load_pairs F s in let* k := build_publishers_kb l in Ok (Lpublishers k)
  | Tspecial => let* l := load_lines F s in Ok (Lspecial (build_special_journals_kb l))
  end.

(** ** get_kbs, 55-70.  The two dictionaries are default arguments, so they live as long as
    the process.  [S]: the sources, compared with Python's [==]; [L]: what a loader
    returns; the keys are those of CFG_REFEXTRACT_KBS (other keys: KeyError). *)
Definition kbtype_eqb (a b : kbtype) : bool :=
  match a, b with
  | Tjournals, Tjournals | Tjournals_re, Tjournals_re | Treports, Treports | Tauthors, Tauthors
  | Tcollabs, Tcollabs | Tbooks, Tbooks | Tpublishers, Tpublishers | Tspecial, Tspecial => true
  | _, _ => false
  end.
(** order of CFG_REFEXTRACT_KBS, config.py *)
Definition kb_order : list kbtype :=
  [Tjournals; Tjournals_re; Treports; Tauthors; Tcollabs; Tbooks; Tpublishers; Tspecial].
Section Cache.
Context {S L : Type} (eqb : S -> S -> bool) (truthy : S -> bool) (load : kbtype -> S -> res L) (default : kbtype -> S).
Record cache := mkcache { ca_inputs : kbtype -> option S; ca_loaded : kbtype -> option L }.
Definition cache0 : cache := mkcache (fun _ => None) (fun _ => None).
Definition upd {A} (f : kbtype -> option A) (t : kbtype) (v : A) : kbtype -> option A :=
  fun t' => if kbtype_eqb t t' then Some v else f t'.
(** CFG_REFEXTRACT_KBS.copy() updated with the truthy custom entries *)
Definition effective (custom : kbtype -> option S) (t : kbtype) : S :=
  match custom t with Some s => if truthy s then s else default t | None => default t end.
(** one type: the input is recorded before the load *)
Definition refresh (want : kbtype -> S) (c : cache) (t : kbtype) : cache * res unit :=
  let hit := match ca_inputs c t with Some s => eqb (want t) s | None => false end in
  if hit then (c, Ok tt)
  else
    let c1 := mkcache (upd (ca_inputs c) t (want t)) (ca_loaded c) in
    match load t (want t) with
    | Ok l => (mkcache (ca_inputs c1) (upd (ca_loaded c1) t l), Ok tt)
    | Err e => (c1, Err e)
    end.
Fixpoint refresh_all (want : kbtype -> S) (c : cache) (ts : list kbtype) : cache * res unit :=
  match ts with
  | [] => (c, Ok tt)
  | t :: r => match refresh want c t with
              | (c', Ok _) => refresh_all want c' r
              | (c', Err e) => (c', Err e)
              end
  end.
(** the cache after the call and, on success, the returned dictionary (as its content) *)
Definition get_kbs (custom : kbtype -> option S) (c : cache) : cache * res (kbtype -> option L) :=
  match refresh_all (effective custom) c kb_order with
  | (c', Ok _) => (c', Ok (ca_loaded c'))
  | (c', Err e) => (c', Err e)
  end.
End Cache.
