(** Model of the top of refextract/references/engine.py: parse_reference_line,
    parse_references_elements, parse_references, build_stats,
    remove_leading_garbage_lines_from_reference_section, clean_pdf_file. *)
From Coq Require Import List Arith NArith Bool String.
From Verif Require Import PyStr Regex RegexParse Patterns Elements Record Transform Split Post
  ParseTagged DocText Tag Find RefText.
Import ListNotations.
Open Scope nat_scope.

(** The transformations of lines 640-651, in order *)
Definition transform (K : kbs) (l : list el) : res (list el) :=
  let* l := split_volume_from_journal l in
  let* l := format_volume l in
  let* l := handle_special_journals (k_special K) l in
  let* l := format_report_number l in
  let* l := format_author_ed l in
  let* l := look_for_books (k_books K) l in
  let* l := format_hep l in
  let* l := remove_b_for_nucl_phys l in
  let* l := mangle_volume l in
  let* l := arxiv_urls_to_report_numbers l in
  let l := look_for_hdl l in
  look_for_hdl_urls l.

(** kbs["journals"][1] is updated in place by tag_reference_line *)
Definition set_std (K : kbs) (std : list (str * str)) : kbs :=
  mkkbs (mkjk (jk_search (k_journals K)) std (jk_keys (k_journals K))) (k_journals_re K) (k_reports K)
        (k_publishers K) (k_authors K) (k_collabs K) (k_books K) (k_special K).

(** Everything a line depends on besides its text: the knowledge bases, the counts of
    titles, and the number of calls of the linker callback made so far. *)
Record context := mkctx { x_kbs : kbs; x_titles : list (str * nat); x_calls : nat }.

(** From the elements of a line to its citations *)
Definition cite (K : kbs) (cb : option callback) (n : nat) (els : list el) : res (list (list el) * nat) :=
  let* els := transform K els in
  let* (els, n) := (match cb with Some f => associate_recids f n els | None => Ok (els, n) end) in
  let* (st, n) := post_split (k_books K) cb n (split_citations els) in
  Ok (values st, n).

(** parse_reference_line, 614-689: citations, marker, counts, context *)
Definition parse_reference_line (E : env) (x : context) (cb : option callback) (line : str)
  : res (list (list el) * str * counts * context) :=
  let* (marker, line) := remove_reference_line_marker line in
  let (line, dois) := identify_and_tag_DOI E line in
  let (line, urls) := identify_and_tag_URLs line in
  let* (tagged, titles, std) := tag_reference_line E line (x_kbs x) (x_titles x) in
  let K := set_std (x_kbs x) std in
  let* (els, cnt) := parse_tagged_reference_line tagged dois urls in
  let* (cits, n) := cite K cb (x_calls x) els in
  Ok (cits, marker, cnt, mkctx K titles n).

(** counts as the dict the code uses *)
Definition counts_dict (c : counts) : list (str * nat) :=
  [(py "misc", c_misc c); (py "title", c_title c); (py "reportnum", c_reportnum c);
   (py "url", c_url c); (py "doi", c_doi c); (py "auth_group", c_auth c)].

(** parse_references_elements, 830-902 *)
Fixpoint parse_lines (E : env) (x : context) (cb : option callback) (cnt : list (str * nat)) (lines : list str)
  : res (list processed * list (str * nat) * context) :=
  match lines with
  | [] => Ok ([], cnt, x)
  | raw :: t =>
    let* (cits, marker, c, x') := parse_reference_line E x cb (wash_and_repair_reference_line E raw) in
    let* cnt' := sum_2_dictionaries cnt (counts_dict c) in
    let* (ps, cnt'', x'') := parse_lines E x' cb cnt' t in
    Ok (mkproc cits marker raw :: ps, cnt'', x'')
  end.
Definition parse_references_elements (E : env) (K : kbs) (cb : option callback) (lines : list str)
  : res (list processed * list (str * nat) * context) :=
  parse_lines E (mkctx K [] 0) cb (counts_dict counts0) lines.

(** build_stats, 1525-1541 (without the date): the numbers in the order of old_stats_str
    after the status *)
Definition stat_keys : list str :=
  map py ["reportnum"; "title"; "auth_group"; "url"; "doi"; "misc"]%string.
Definition build_stats (cnt : list (str * nat)) : res (list nat) :=
  mapM (fun k => match assoc_str k cnt with Some n => Ok n | None => Err KeyError end) stat_keys.

(** parse_references, 1500-1522, after get_kbs *)
Definition parse_references (E : env) (K : kbs) (cb : option callback) (f : template) (lines : list str)
  : res (list ref * list nat) :=
  let* (ps, cnt, _) := parse_references_elements E K cb lines in
  let* refs := build_references ps f in
  let* stats := build_stats cnt in
  Ok (refs, stats).

(** remove_leading_garbage_lines_from_reference_section, 1428-1439 *)
Fixpoint remove_leading_garbage_lines (lines : list str) : list str :=
  match lines with
  | l :: t => if isspace l || (match re_match (rx_re re_email) l with Some _ => true | None => false end)
              then remove_leading_garbage_lines t else lines
  | [] => []
  end.

(** ** clean_pdf_file, 1448-1471: the file content after the call, and the outcome *)
Definition bytes := list N.
(** bytes.rfind: the last occurrence *)
Fixpoint rfind_sub (needle s : str) : option nat :=
  match s with
  | [] => if prefixb needle [] then Some 0 else None
  | _ :: t => match rfind_sub needle t with
              | Some i => Some (S i)
              | None => if prefixb needle s then Some 0 else None
              end
  end.
(** mmap.resize(n) on Linux: ftruncate, then mremap, which fails for length 0 *)
Definition resize (b : bytes) (n : nat) : bytes * res unit :=
  (firstn n b ++ repeat 0%N (n - List.length b), if n =? 0 then Err OSError else Ok tt).
(** mmap.move(0, start, n) *)
Definition move_front (b : bytes) (start n : nat) : bytes := slice start (start + n) b ++ skipn n b.
Definition pdf_marker : bytes := py "%PDF-".
Definition eof_marker : bytes := py "%%EOF".
Definition clean_pdf_file (b : bytes) : bytes * res unit :=
  match b with
  | [] => (b, Err ValueError)                          (* cannot mmap an empty file *)
  | _ =>
    match find_sub pdf_marker b with
    | None => (b, Ok tt)
    | Some start =>
      (* end + offset; 4 when %%EOF is absent, as rfind gives -1 *)
      let fin := match rfind_sub eof_marker b with Some e => e + 5 | None => 4 end in
      if 0 <? start then
        if fin <? start then (b, Err ValueError)       (* negative count *)
        else if List.length b <? fin then (b, Err ValueError)
        else resize (move_front b start (fin - start)) (fin - start)
      else match rfind_sub eof_marker b with
           | Some (S e) => if S e + 5 =? List.length b then (b, Ok tt) else resize b (S e + 5)
           | _ => (b, Ok tt)
           end
    end
  end.
