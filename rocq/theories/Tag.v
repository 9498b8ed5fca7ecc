(** Model of refextract/references/tag.py (all functions except the numeration ones,
    which are in Numeration.v). *)
From Coq Require Import List Arith NArith Bool String.
From Verif Require Import PyStr Regex RegexParse Patterns Numeration DocText.
Import ListNotations.
Open Scope nat_scope.

(** ** What the code takes from outside: universally quantified in the theorems *)
Record env := mkenv {
  unidecode : str -> str;          (* unidecode.unidecode *)
  unquote : str -> str;            (* urllib.parse.unquote *)
  re_auth : rx;                    (* authors/regexs.py 508-541, get_author_regexps *)
  re_auth_near_miss : rx;
  now_year : N;                    (* datetime.now().year when regexs.py is imported *)
  undesirable : str -> str }.      (* inspire_utils.record.replace_undesirable_characters *)

(** ** Dictionaries with integer keys, as lists by ascending key *)
Definition imap (A : Type) := list (nat * A).
Fixpoint iput {A} (k : nat) (v : A) (m : imap A) : imap A :=
  match m with
  | [] => [(k, v)]
  | (k', v') :: t => if k =? k' then (k, v) :: t
                     else if k <? k' then (k, v) :: m
                     else (k', v') :: iput k v t
  end.
Fixpoint iget {A} (k : nat) (m : imap A) : option A :=
  match m with
  | [] => None
  | (k', v) :: t => if k =? k' then Some v else iget k t
  end.
(** a.update(b) *)
Definition iupdate {A} (a b : imap A) : imap A := fold_left (fun m e => iput (fst e) (snd e) m) b a.
Definition ikeys {A} (m : imap A) : list nat := map fst m.

(** Dictionaries with string keys in insertion order *)
Fixpoint sput {A} (k : str) (v : A) (m : list (str * A)) : list (str * A) :=
  match m with
  | [] => [(k, v)]
  | (k', v') :: t => if eqs k k' then (k', v) :: t else (k', v') :: sput k v t
  end.
Definition supdate {A} (a b : list (str * A)) : list (str * A) := fold_left (fun m e => sput (fst e) (snd e) m) b a.

(** ** Knowledge bases (built in kbs.py) *)
Record journals_kb := mkjk {
  jk_search : list (str * re); jk_std : list (str * str); jk_keys : list str }.
(** report numbers: the dictionary key is (line number, category) *)
Definition repkey := (nat * str)%type.
Record repnum_kb := mkrk { rk_search : list (repkey * rx); rk_std : list (repkey * str) }.
Definition publishers_kb := list (str * (rx * str)).

Record kbs := mkkbs {
  k_journals : journals_kb;
  k_journals_re : list (str * str);          (* pattern text, title *)
  k_reports : repnum_kb;
  k_publishers : publishers_kb;
  k_authors : list (str * str);
  k_collabs : list (str * rx);
  k_books : list (str * list str);
  k_special : list str }.

(** ** Simple taggers *)
Definition wrap (tag : string) (s : str) : str :=
  py "<cds." ++ py tag ++ py ">" ++ s ++ py "</cds." ++ py tag ++ py ">".
(** \g<name> in a template *)
Definition tgrp (p : rx) (s : str) (o : mobj) (n : string) : str :=
  match assoc_str (py n) (rx_names p) with Some i => g_str s o i | None => [] end.
Definition sub_with (p : rx) (f : str -> mobj -> str) (s : str) : str := re_sub (rx_re p) (f s) s.

(** tag_isbn, 339-341 *)
Definition tag_isbn (line : str) : str := sub_with re_isbn (fun s o => wrap "ISBN" (tgrp re_isbn s o "code")) line.
(** tag_quoted_text, 344-351 *)
Definition tag_quoted_text (line : str) : str :=
  sub_with re_quoted (fun s o => wrap "QUOTED" (tgrp re_quoted s o "title")) line.
(** tag_arxiv, 354-379 *)
Definition arxiv_tagger (p : rx) (s : str) (o : mobj) : str :=
  let suffix := gd_get p s o "suffix" in
  wrap "ARXIV" (py "arXiv:" ++ show (gd_get p s o "year") ++ show (gd_get p s o "month") ++ py "."
                ++ show (gd_get p s o "num")
                ++ match suffix with Some (c :: t) => 32%N :: c :: t | _ => [] end).
Definition tag_arxiv (E : env) (line : str) : str :=
  let line := sub_with re_arxiv_5digits (arxiv_tagger re_arxiv_5digits) line in
  let line := sub_with re_arxiv (arxiv_tagger re_arxiv) line in
  let p5 := re_new_arxiv_5digits (now_year E) in
  let line := sub_with p5 (arxiv_tagger p5) line in
  let p4 := re_new_arxiv (now_year E) in
  sub_with p4 (arxiv_tagger p4) line.
(** tag_arxiv_more, 382-394 *)
Definition old_arxiv_repl (p : rx) (repl : option str) (s : str) (o : mobj) : str :=
  wrap "ARXIV" (match repl with Some r => r | None => tgrp p s o "name" end ++ py "/" ++ tgrp p s o "num").
Definition tag_arxiv_more (line : str) : str :=
  let line := sub_with re_arxiv_catchup (fun s o =>
    tgrp re_arxiv_catchup s o "suffix" ++ py "/" ++ tgrp re_arxiv_catchup s o "year"
    ++ tgrp re_arxiv_catchup s o "month" ++ tgrp re_arxiv_catchup s o "num") line in
  fold_left (fun line e => sub_with (fst e) (old_arxiv_repl (fst e) (snd e)) line) re_old_arxiv line.
(** tag_pos_volume, 397-429.  match.group("year") raises IndexError when the pattern has
    no such group; the year inside the volume number is then used (always found, as
    the volume number is matched by the same expression; proved in the proofs). *)
Definition pos_year (p : rx) (s : str) (o : mobj) : option str :=
  match group_named p s o (py "year") with
  | Ok y => y
  | Err _ => let v := show (gd_get p s o "volume_num") in
             match re_search (rx_re re_pos_year_num_rx) v with
             | Some g => Some (slice (m_start g) (m_end g) v)
             | None => None
             end
  end.
Definition pos_tagger (p : rx) (s : str) (o : mobj) : str :=
  let year := pos_year p s o in
  wrap "JOURNAL" (py "PoS") ++ py " "
  ++ wrap "VOL" (show (gd_get p s o "volume_name") ++ show (gd_get p s o "volume_num"))
  ++ match year with
     | Some (c :: t) => py " " ++ wrap "YR" (py "(" ++ strip_chars (py "()") (strip (c :: t)) ++ py ")")
     | _ => []
     end
  ++ py " " ++ wrap "PG" (show (gd_get p s o "page")).
Definition tag_pos_volume (line : str) : str := fold_left (fun l p => sub_with p (pos_tagger p) l) re_pos line.
(** tag_atlas_conf, 432-439 *)
Definition tag_atlas_conf (line : str) : str :=
  let line := sub_with re_atlas_pre (fun s o => wrap "REPORTNUMBER" (py "ATL-CONF-" ++ tgrp re_atlas_pre s o "code")) line in
  sub_with re_atlas_post (fun s o => wrap "REPORTNUMBER" (py "ATLAS-CONF-" ++ tgrp re_atlas_post s o "code")) line.
(** wash_volume_tag, 335-336 *)
Definition wash_volume_tag (line : str) : str :=
  sub_with re_wash_volume_tag (fun s o => wrap "VOL" (g_str s o 1 ++ g_str s o 2)) line.

(** identifiy_journals_re, 442-448 *)
Fixpoint identify_journals_re (line : str) (kb : list (str * str)) (acc : imap str) : res (imap str) :=
  match kb with
  | [] => Ok acc
  | (pattern, _) :: t =>
    let* p := compile noflags pattern in
    match re_search (rx_re p) line with
    | Some o => identify_journals_re line t (iput (m_start o) (slice (m_start o) (m_end o) line) acc)
    | None => identify_journals_re line t acc
    end
  end.

(** ** Masking *)
(** line[:a] + "_" * n + line[b:] *)
Definition mask (a b n : nat) (line : str) : str := firstn a line ++ underscores n ++ skipn b line.

(** strip_tags, 850-859: finditer runs on the line as it was at the start *)
Definition strip_tags (line : str) : str :=
  fold_left (fun l o => re_sub1 (rx_re re_tag) (fun _ => underscores (m_end o - m_start o)) l)
            (re_finditer (rx_re re_tag) line) line.

(** identify_ibids, 1077-1095 *)
Definition identify_ibids (line : str) : imap str * str :=
  fold_left (fun st o =>
      (iput (m_start o) (slice (m_start o) (m_end o) line) (fst st),
       mask (m_start o) (m_end o) (m_end o - m_start o) (snd st)))
    (re_finditer (rx_re re_ibid) line) ([], line).

(** identify_journals, 1157-1222 *)
Fixpoint bump (k : str) (m : list (str * nat)) : list (str * nat) :=
  match m with
  | [] => [(k, 1)]
  | (k', v) :: t => if eqs k k' then (k', S v) :: t else (k', v) :: bump k t
  end.
Record jst := mkjst { j_matches : imap str; j_line : str; j_count : list (str * nat) }.
Definition journal_hit (title : str) (s : jst) (o : mobj) : jst :=
  mkjst (iput (m_start o) title (j_matches s))
        (mask (m_start o) (m_start o + List.length title) (List.length title) (j_line s))
        (bump title (j_count s)).
Fixpoint identify_journals_from (kb : list (str * re)) (titles : list str) (s : jst) : res jst :=
  match titles with
  | [] => Ok s
  | title :: t =>
    match assoc_str title kb with
    | None => Err KeyError
    | Some r => identify_journals_from kb t (fold_left (journal_hit title) (re_finditer r (j_line s)) s)
    end
  end.
Definition identify_journals (line : str) (kb : journals_kb) : res jst :=
  identify_journals_from (jk_search kb) (jk_keys kb) (mkjst [] line []).

(** identify_report_numbers, 1225-1313 *)
Fixpoint str_ltb (a b : str) : bool :=
  match a, b with
  | _, [] => false
  | [], _ :: _ => true
  | x :: a', y :: b' => (x <? y)%N || (N.eqb x y && str_ltb a' b')
  end.
(** (len(x[1]), x) < (len(y[1]), y) *)
Definition repkey_ltb (x y : repkey) : bool :=
  let lx := List.length (snd x) in let ly := List.length (snd y) in
  (lx <? ly) || ((lx =? ly) && ((fst x <? fst y) || ((fst x =? fst y) && str_ltb (snd x) (snd y)))).
Definition repkey_eqb (x y : repkey) : bool := (fst x =? fst y) && eqs (snd x) (snd y).
Fixpoint insert_desc (x : repkey) (l : list repkey) : list repkey :=
  match l with
  | [] => [x]
  | y :: t => if repkey_ltb y x then x :: l else y :: insert_desc x t
  end.
(** sorted(keys, key=..., reverse=True); the keys are distinct *)
Definition sort_desc (l : list repkey) : list repkey := fold_right insert_desc [] l.
Fixpoint assoc_rep {A} (k : repkey) (l : list (repkey * A)) : option A :=
  match l with
  | [] => None
  | (k', v) :: t => if repkey_eqb k k' then Some v else assoc_rep k t
  end.
(** 1283-1288 *)
Definition clean_numeration (s : str) : str :=
  let s := replace (py " ") (py "-") s in
  let s := sub_text re_multiple_hyphens (py "-") s in
  let s := replace (py "/-") (py "/") s in
  let s := replace (py "-/") (py "/") s in
  replace (py "-/-") (py "/") s.
Record rst := mkrst { r_len : imap nat; r_repl : imap str; r_line : str }.
Fixpoint repnum_hits (p : rx) (std subject : str) (ms : list mobj) (s : rst) : res rst :=
  match ms with
  | [] => Ok s
  | o :: t =>
    let* numn := group_named p subject o (py "numn") in
    match numn with
    | None => Err AttributeError
    | Some n =>
      match g_span o 1 with
      | None => Err TypeError
      | Some (a, b) =>
        repnum_hits p std subject t
          (mkrst (iput a (b - a) (r_len s)) (iput a (std ++ clean_numeration n) (r_repl s))
                 (mask a b (b - a) (r_line s)))
      end
    end
  end.
Fixpoint repnum_categs (kb : repnum_kb) (cs : list repkey) (s : rst) : res rst :=
  match cs with
  | [] => Ok s
  | c :: t =>
    match assoc_rep c (rk_search kb), assoc_rep c (rk_std kb) with
    | Some p, Some std =>
      let* s' := repnum_hits p std (r_line s) (re_finditer (rx_re p) (r_line s)) s in
      repnum_categs kb t s'
    | _, _ => Err KeyError
    end
  end.
Definition identify_report_numbers (line : str) (kb : repnum_kb) : res rst :=
  repnum_categs kb (sort_desc (map fst (rk_std kb))) (mkrst [] [] (replace (py "/") (py " ") line)).

(** identify_publishers, 1316-1325 *)
Definition identify_publishers (line : str) (kb : publishers_kb) : imap str :=
  fold_left (fun acc e =>
      fold_left (fun acc o => iput (m_start o) (fst e) acc) (re_finditer (rx_re (fst (snd e))) line) acc)
    kb [].

(** ** Rebuilding the line *)
Inductive kind := KJournal | KReport | KPublisher.
(** get_replacement_types, 734-759 *)
Definition put_kind (k : kind) (m : imap kind) (l : list nat) : imap kind := fold_left (fun m i => iput i k m) l m.
Definition get_replacement_types (titles reports publishers : list nat) : imap kind :=
  put_kind KPublisher (put_kind KReport (put_kind KJournal [] titles) reports) publishers.

(** account_for_stripped_whitespace, 762-847: [len] is the length of the matched journal
    title or report number, [None] for a publisher *)
Fixpoint account_loop (spaces : list (nat * nat)) (len : option nat) (true_idx spare extras : nat) : nat * nat :=
  match spaces with
  | [] => (true_idx, extras)
  | (sp, n) :: t =>
    if sp <? true_idx then account_loop t len (true_idx + n) (spare + n) extras
    else match len with
         | Some l => if (spare <=? sp) && (sp <? spare + l)
                     then account_loop t len true_idx (spare + n) (extras + n)
                     else account_loop t len true_idx spare extras
         | None => account_loop t len true_idx spare extras
         end
  end.
Definition account_for_stripped_whitespace (spaces : list (nat * nat)) (len : option nat) (idx : nat) : nat * nat :=
  account_loop spaces len idx idx 0.

(** add_tagged_report_number, 481-530: chunk, new start position *)
Definition closing_brace (c : option N) : bool :=
  match c with Some c => N.eqb c 93 || N.eqb c 41 | None => false end.
Definition add_tagged_report_number (line : str) (len : nat) (num : str) (startpos idx extras : nat) : str * nat :=
  let before := if startpos + 1 <=? idx then slice startpos (idx - 1) line else slice startpos idx line in
  let e := idx + len + extras in
  (before ++ wrap "REPORTNUMBER" num, if closing_brace (nth_error line e) then e + 1 else e).

(** skip_ponctuation, 610-621 *)
Fixpoint count_punct (s : str) : nat :=
  match s with
  | c :: t => if mem_ch c (py ".:-)") then S (count_punct t) else 0
  | [] => 0
  end.
Definition skip_ponctuation (line : str) (pos : nat) : nat := pos + count_punct (skipn pos line).

(** {"title": ..., "series": ...}; [None] is the empty dict *)
Definition prev := option (str * option str).
Definition is_ibid_text (s : str) : bool := contains (py "IBID") (upper s).

(** lines 656-679: numeration after the title; [None] when none is found *)
Definition journal_numeration (line chunk : str) (startpos : nat) (series : option str) : res (option (str * nat * option str)) :=
  let nline := skipn startpos line in
  let* n1 := find_numeration nline in
  let* n := (match n1 with
             | Some _ => Ok n1
             | None => find_numeration_more (chunk ++ py " " ++ nline)
             end) in
  match n with
  | None => Ok None
  | Some i =>
    let s := if truthy_str series && negb (truthy_str (n_series i)) then series else n_series i in
    let i := mknum (n_year i) s (n_volume i) (n_page i) (n_page_end i) (n_len i) in
    let* tag := create_numeration_tag i in
    Ok (Some (chunk ++ tag, startpos + n_len i, s))
  end.

(** add_tagged_journal, 578-684: chunk, new start position, previous match *)
Definition add_tagged_journal (line info : str) (previous : prev) (startpos idx extras : nat)
           (std : list (str * str)) : res (str * nat * prev) :=
  let before := slice startpos idx line in
  let after := skip_ponctuation line (idx + List.length info + extras) in
  let finish chunk series title :=
    let* r := journal_numeration line chunk after series in
    match r with
    | None => Ok ([], startpos, previous)
    | Some (chunk', sp, s) => Ok (chunk', sp, Some (title, s))
    end in
  if is_ibid_text info then
    match previous with
    | Some (title, series) =>
      finish (before ++ py " " ++ wrap "JOURNALibid" title) series title
    | None => Ok ([], startpos, previous)
    end
  else
    match assoc_str info std with
    | None => Err KeyError
    | Some t =>
      match rsplit1 59%N t with
      | Some (title, series) => finish (before ++ wrap "JOURNAL" title) (Some (strip series)) title
      | None => finish (before ++ wrap "JOURNAL" t) None t
      end
    end.

(** add_tagged_publisher, 687-731 *)
Definition add_tagged_publisher (line name : str) (startpos idx extras : nat) (kb : publishers_kb) : res (str * nat) :=
  match assoc_str name kb with
  | None => Err KeyError
  | Some (_, repl) => Ok (slice startpos idx line ++ wrap "PUBLISHER" repl, idx + List.length name + extras)
  end.

(** The loop of process_reference_line, 259-308 *)
Record lmatches := mklm {
  lm_journals : imap str; lm_replen : imap nat; lm_reprepl : imap str; lm_publishers : imap str;
  lm_spaces : list (nat * nat) }.
Definition key_err {A} (o : option A) : res A := match o with Some a => Ok a | None => Err KeyError end.
Fixpoint rebuild_loop (line : str) (M : lmatches) (std : list (str * str)) (pk : publishers_kb)
         (todo : imap kind) (startpos : nat) (previous : prev) : res str :=
  match todo with
  | [] => Ok (skipn startpos line)
  | (i, k) :: t =>
    match k with
    | KJournal =>
      let* info := key_err (iget i (lm_journals M)) in
      let (idx, extras) := account_for_stripped_whitespace (lm_spaces M) (Some (List.length info)) i in
      let* (chunk, sp, previous') := add_tagged_journal line info previous startpos idx extras std in
      let* rest := rebuild_loop line M std pk t sp previous' in
      Ok (chunk ++ rest)
    | KReport =>
      let* len := key_err (iget i (lm_replen M)) in
      let* repl := key_err (iget i (lm_reprepl M)) in
      let (idx, extras) := account_for_stripped_whitespace (lm_spaces M) (Some len) i in
      let (chunk, sp) := add_tagged_report_number line len repl startpos idx extras in
      let* rest := rebuild_loop line M std pk t sp previous in
      Ok (chunk ++ rest)
    | KPublisher =>
      let* name := key_err (iget i (lm_publishers M)) in
      let (idx, extras) := account_for_stripped_whitespace (lm_spaces M) None i in
      let* (chunk, sp) := add_tagged_publisher line name startpos idx extras pk in
      let* rest := rebuild_loop line M std pk t sp previous in
      Ok (chunk ++ rest)
    end
  end.

(** ** Authors, 888-1053 *)
Definition re_etal_ci := Eval vm_compute in the_rx (compile fI (py re_etal_src)).
(** re_ed_notation is applied without re.VERBOSE, so its white space is literal *)
Definition re_ed_notation_ci := Eval vm_compute in the_rx (compile fI (py re_ed_notation_src)).
Definition etal_matches : list str :=
  map py [" et al.,"; " et. al.,"; " et. al."; " et.al.,"; " et al."; " et al"]%string.

Record apos := mkapos {
  a_start : nat; a_end : nat; a_etal : bool; a_ed : bool; a_multi : bool;
  a_before : str; a_names : option str }.
(** 920-951: the matches without underscores *)
Fixpoint author_positions (p : rx) (subject line : str) (ms : list mobj) (from : nat) : res (list apos) :=
  match ms with
  | [] => Ok []
  | o :: t =>
    if mem_ch 95%N (slice (m_start o) (m_end o) line) then author_positions p subject line t from
    else
      let* et := group_named p subject o (py "et") in
      let* et2 := (if truthy_str et then Ok None else group_named p subject o (py "et2")) in
      let* es := group_named p subject o (py "es") in
      let* ee := group_named p subject o (py "ee") in
      let* ma := group_named p subject o (py "multi_auth") in
      let* ms' := group_named p subject o (py "multi_surs") in
      let* names := group_named p subject o (py "author_names") in
      let* rest := author_positions p subject line t (m_end o) in
      Ok (mkapos (m_start o) (m_end o) (truthy_str et || truthy_str et2) (truthy_str es || truthy_str ee)
            (truthy_str ma || truthy_str ms') (slice from (m_start o) line) names :: rest)
  end.
(** 958-1051: one author group, from the last to the first *)
Definition author_text (s : str) : str :=
  let s := sub_text re_ed_notation_ci (py "(ed.)") s in
  let s := sub_text re_etal_ci (py "et al.") s in
  let s := strip_chars (py ",:;- [](") (lstrip_chars (py ".") s) in
  if endswith s (py "(ed.)") then s else strip_chars (py ")") s.
Definition tag_author (near : rx) (out : str) (a : apos) : res str :=
  let ltb := lower (strip (a_before a)) in
  let bad_etal := existsb (endswith ltb) etal_matches in
  let* (start, dump) :=
    (if bad_etal then Ok (a_start a, true)
     else if negb (a_multi a) && endswith ltb (py " and") then
       match re_match (rx_re near) (a_before a) with
       | Some w =>
         let* es := group_named near (a_before a) w (py "es") in
         let* ee := (if truthy_str es then Ok None else group_named near (a_before a) w (py "ee")) in
         if truthy_str es || truthy_str ee then Ok (a_start a, true)
         else Ok (a_start a - (List.length (a_before a) - m_start w), false)
       | None => Ok (a_start a, true)
       end
     else Ok (a_start a, false)) in
  let semi := match nth_error out (a_end a) with Some c => if N.eqb c 59 then py ";" else [] | None => [] end in
  if a_ed a then
    let* names := need (a_names a) in
    Ok (firstn start out
        ++ wrap "AUTHincl" (strip_chars (py ",:;- [](") (sub_text re_etal_ci (py "et al.") names) ++ py " (eds.)")
        ++ semi ++ skipn (a_end a) out)
  else if dump then Ok out
  else
    let body := author_text (slice start (a_end a) out) in
    Ok (firstn start out ++ (if a_etal a then wrap "AUTHetal" body else wrap "AUTHstnd" body)
        ++ semi ++ skipn (a_end a) out).
Fixpoint tag_authors (near : rx) (out : str) (l : list apos) : res str :=
  match l with
  | [] => Ok out
  | a :: t => let* out' := tag_author near out a in tag_authors near out' t
  end.
(** identify_and_tag_authors *)
Definition identify_and_tag_authors (E : env) (line : str) (kb : list (str * str)) : res str :=
  let out := fold_left (fun l e => replace (fst e) (snd e) l) kb line in
  let line := strip_tags out in
  let ms := re_finditer (rx_re (re_auth E)) line in
  let uline := strip_tags (unidecode E out) in
  let ums := re_finditer (rx_re (re_auth E)) uline in
  let '(out, ms, subject) :=
    if List.length ms <? List.length ums then (unidecode E out, ums, uline) else (out, ms, line) in
  let* ps := author_positions (re_auth E) subject line ms 0 in
  tag_authors (re_auth_near_miss E) out (rev ps).

(** ** Collaborations, 862-885 *)
Fixpoint tag_collab (subject : str) (ms : list mobj) (line : str) : res str :=
  match ms with
  | [] => Ok line
  | o :: t =>
    match g_text subject o 1 with
    | None => Err AttributeError
    | Some g =>
      tag_collab subject t
        (firstn (m_start o) line ++ wrap "COLLABORATION" (strip_chars (py ".,:;- [](){}") g) ++ skipn (m_end o) line)
    end
  end.
Fixpoint identify_and_tag_collaborations (line : str) (kb : list (str * rx)) : res str :=
  match kb with
  | [] => Ok line
  | (_, p) :: t =>
    let subject := strip_tags line in
    let* line' := tag_collab subject (rev (re_finditer (rx_re p) subject)) line in
    identify_and_tag_collaborations line' t
  end.

(** process_reference_line, 182-332 *)
Definition remove_newlines (s : str) : str := filter (fun c => negb (N.eqb c 10)) s.
Definition process_reference_line (E : env) (line : str) (M : lmatches) (std : list (str * str)) (K : kbs) : res str :=
  let* tagged :=
    (if List.length (lm_journals M) + List.length (lm_replen M) + List.length (lm_publishers M) =? 0
     then Ok line
     else
       let types := get_replacement_types (ikeys (lm_journals M)) (ikeys (lm_reprepl M)) (ikeys (lm_publishers M)) in
       let* l := rebuild_loop line M std (k_publishers K) types 0 None in
       Ok (wash_volume_tag l)) in
  let* tagged := identify_and_tag_authors E tagged (k_authors K) in
  let* tagged := identify_and_tag_collaborations tagged (k_collabs K) in
  Ok (remove_newlines tagged).

(** sum_2_dictionaries, 1056-1074: the membership test is on the constant "key" *)
Fixpoint sum_2_dictionaries (a b : list (str * nat)) : res (list (str * nat)) :=
  match b with
  | [] => Ok a
  | (k, v) :: t =>
    match assoc_str (py "key") a with
    | Some _ => match assoc_str k a with
                | Some w => sum_2_dictionaries (sput k (w + v) a) t
                | None => Err KeyError
                end
    | None => sum_2_dictionaries (sput k v a) t
    end
  end.

(** tag_reference_line, 88-179.  Besides the tagged line and the title counts the model
    returns the dictionary of standardised titles, which the code mutates in place:
    [standardised_titles.update(kbs["journals_re"])]. *)
Definition working_line1 (E : env) (line : str) : str :=
  let l := wash_line line in
  let l := tag_pos_volume l in
  let l := wash_line l in
  let l := tag_quoted_text l in
  let l := tag_isbn l in
  let l := tag_arxiv E l in
  let l := tag_arxiv_more l in
  let l := tag_pos_volume l in
  tag_atlas_conf l.
Definition tag_reference_line (E : env) (line : str) (K : kbs) (titles : list (str * nat))
  : res (str * list (str * nat) * list (str * str)) :=
  let l1 := working_line1 E line in
  let std := supdate (jk_std (k_journals K)) (k_journals_re K) in
  let* jm := identify_journals_re l1 (k_journals_re K) [] in
  let l2 := sub_text re_punctuation (py " ") (upper (strip_tags l1)) in
  let (spaces, l2) := remove_and_record_multiple_spaces_in_line l2 in
  let* r := identify_report_numbers l2 (k_reports K) in
  let* j := identify_journals (r_line r) (k_journals K) in
  let jm := iupdate jm (j_matches j) in
  let* titles := sum_2_dictionaries titles (j_count j) in
  let (jm, l2) :=
    if contains (py "IBID") (upper (j_line j))
    then let (ib, l) := identify_ibids (j_line j) in (iupdate jm ib, l)
    else (jm, j_line j) in
  let pm := identify_publishers l2 (k_publishers K) in
  let* tagged := process_reference_line E l1 (mklm jm (r_len r) (r_repl r) pm spaces) std K in
  Ok (tagged, titles, std).

(** ** URLs, 1328-1440 *)
Record uinfo := mku { u_len : nat; u_str : str; u_desc : str }.
Definition tagged_url_hit (st : imap uinfo * str) (subject : str) (o : mobj) : imap uinfo * str :=
  (iput (m_start o) (mku (m_end o - m_start o) (tgrp re_html_tagged_url subject o "url")
                         (tgrp re_html_tagged_url subject o "desc")) (fst st),
   mask (m_start o) (m_end o) (m_end o - m_start o) (snd st)).
(** matched_url[:-1] when it ends with "." or "," *)
Definition trim_url (u : str) : str :=
  match rev u with c :: t => if N.eqb c 46 || N.eqb c 44 then rev t else u | [] => u end.
Definition raw_url_hit (st : imap uinfo * str) (subject : str) (o : mobj) : imap uinfo * str :=
  let u := trim_url (tgrp re_raw_url subject o "url") in
  (iput (m_start o) (mku (m_end o - m_start o) u u) (fst st),
   mask (m_start o) (m_end o) (m_end o - m_start o) (snd st)).
Definition url_tag : str := py "<cds.URL />".
Definition doi_tag : str := py "<cds.DOI />".
Definition insert_url (line : str) (e : nat * uinfo) : str :=
  firstn (fst e) line ++ url_tag ++ skipn (fst e + u_len (snd e)) line.
Definition find_urls (line : str) : imap uinfo * str :=
  let st := fold_left (fun st o => tagged_url_hit st line o) (re_finditer (rx_re re_html_tagged_url) line) ([], line) in
  let l1 := snd st in
  fold_left (fun st o => raw_url_hit st l1 o) (re_finditer (rx_re re_raw_url) l1) st.
Definition identify_and_tag_URLs (line : str) : str * list (str * str) :=
  let (urls, l) := find_urls line in
  (fold_left insert_url (rev urls) l, map (fun e => (u_str (snd e), u_desc (snd e))) urls).

(** ** DOIs, 1443-1471 *)
Definition doi_of (E : env) (line : str) (o : mobj) : str :=
  let d := tgrp re_doi line o "doi" in
  if contains (py "%2f") (lower d) then unquote E d else d.
Definition insert_doi (line : str) (o : mobj) : str := firstn (m_start o) line ++ doi_tag ++ skipn (m_end o) line.
Definition identify_and_tag_DOI (E : env) (line : str) : str * list str :=
  let ms := re_finditer (rx_re re_doi) line in
  (fold_left insert_doi (rev ms) line, map (doi_of E line) ms).
