(** Model of refextract/references/engine.py 905-1415: parse_tagged_reference_line,
    map_tag_to_subfield, convert_unusable_tag_to_misc; and of
    remove_reference_line_marker (88-110). *)
From Coq Require Import List Arith NArith Bool String.
From Verif Require Import PyStr Elements Regex Patterns.
Import ListNotations.
Open Scope nat_scope.

(** remove_reference_line_marker, engine.py 88-110 *)
Definition remove_reference_line_marker (line : str) : res (str * str) :=
  let line := lstrip line in
  match regex_match_list line marker_patterns with
  | Some (p, o) =>
    let* m := group_named p line o (py "mark") in
    match m with
    | Some mark => Ok (mark, lstrip (skipn (m_end o) line))
    | None => Err TypeError
    end
  | None => Ok (py " ", line)
  end.

(** the dict of counters *)
Record counts := mkcounts {
  c_misc : nat; c_title : nat; c_reportnum : nat; c_url : nat; c_doi : nat; c_auth : nat }.
Definition counts0 : counts := mkcounts 0 0 0 0 0 0.
Definition add_title (n : nat) (c : counts) : counts :=
  mkcounts (c_misc c) (n + c_title c) (c_reportnum c) (c_url c) (c_doi c) (c_auth c).
Definition add_reportnum (c : counts) : counts :=
  mkcounts (c_misc c) (c_title c) (S (c_reportnum c)) (c_url c) (c_doi c) (c_auth c).
Definition add_url (c : counts) : counts :=
  mkcounts (c_misc c) (c_title c) (c_reportnum c) (S (c_url c)) (c_doi c) (c_auth c).
Definition add_doi (c : counts) : counts :=
  mkcounts (c_misc c) (c_title c) (c_reportnum c) (c_url c) (S (c_doi c)) (c_auth c).
Definition add_auth (c : counts) : counts :=
  mkcounts (c_misc c) (c_title c) (c_reportnum c) (c_url c) (c_doi c) (S (c_auth c)).
Definition add_misc (c : counts) : counts :=
  mkcounts (S (c_misc c)) (c_title c) (c_reportnum c) (c_url c) (c_doi c) (c_auth c).

(** The variables of the loop *)
Record pstate := mkps {
  ps_line : str; ps_misc : str; ps_urls : list (str * str); ps_dois : list str;
  ps_counts : counts; ps_els : list el }.

(** map_tag_to_subfield, 1356-1378: element, line, misc text.  [t]: the element type,
    [tag]: its name, [line] starts after the opening tag. *)
Definition map_tag_to_subfield (t : ety) (tag line misc : str) (dest : key) : option el * str * str :=
  let closing := py "</cds." ++ tag ++ py ">" in
  match find_sub closing line with
  | None => (None, skipn (List.length (py "<cds." ++ tag ++ py ">")) line, misc)
  | Some i => (Some (set_str dest (firstn i line) (mkel t misc [])), skipn (i + List.length closing) line, [])
  end.

(** convert_unusable_tag_to_misc, 1381-1415: misc text, line *)
Definition convert_unusable_tag_to_misc (line misc : str) (e : nat) (closing : str) : str * str :=
  match find_from closing line e with
  | None => (misc, skipn e line)
  | Some i => (misc ++ slice e i line, skipn (i + List.length closing) line)
  end.

(** named group of a match: the group exists in the pattern (checked by [names_ok]
    in the proofs), absent groups give the empty string where the code tests them *)
Definition grp (p : rx) (s : str) (o : mobj) (n : string) : option str :=
  match group_named p s o (py n) with Ok v => v | Err _ => None end.
Definition grp_or_empty (p : rx) (s : str) (o : mobj) (n : string) : str :=
  match grp p s o n with Some v => v | None => [] end.
(** the group text used as a string *)
Definition grp_need (p : rx) (s : str) (o : mobj) (n : string) : res str :=
  match group_named p s o (py n) with
  | Ok (Some v) => Ok v
  | Ok None => Err TypeError
  | Err e => Err e
  end.

(** The loop over numerations without "ibid", 1037-1071: the extra ibids, the rest of the line *)
Fixpoint extra_ibids_loop (fuel : nat) (title line : str) : res (list (str * str * str * str) * str) :=
  match re_match (rx_re re_numeration_no_ibid_txt) line with
  | None => Ok ([], line)
  | Some o =>
    match fuel with
    | O => Err OutOfFuel
    | S f =>
      let* vol := grp_need re_numeration_no_ibid_txt line o "vol" in
      let* yr := grp_need re_numeration_no_ibid_txt line o "yr" in
      let* pg := grp_need re_numeration_no_ibid_txt line o "pg" in
      let vol := grp_or_empty re_numeration_no_ibid_txt line o "series" ++ vol in
      let* (more, rest) := extra_ibids_loop f [] (skipn (m_end o) line) in
      Ok ((title, vol, yr, pg) :: more, rest)
    end
  end.

Definition journal_el (misc title vol yr pg : str) (ibid : bool) (extra : list (str * str * str * str)) : el :=
  set Kextra_ibids (VIbids extra) (set Kis_ibid (VB ibid)
    (set_str Kpage pg (set_str Kyear yr (set_str Kvolume vol (set_str Ktitle title (mkel JOURNAL misc [])))))).

(** the JOURNAL branch, 956-1076; [misc] already contains the text before the tag *)
Definition journal_step (s : pstate) (o : mobj) (misc : str) : res pstate :=
  let line := ps_line s in
  let is_ibid := nonempty (grp_or_empty re_tagged_citation line o "ibid") in
  let closing := if is_ibid then py "</cds.JOURNALibid>" else py "</cds.JOURNAL>" in
  match find_from closing line (m_end o) with
  | None => Ok (mkps (skipn (m_end o) line) misc (ps_urls s) (ps_dois s) (ps_counts s) (ps_els s))
  | Some i =>
    let title := slice (m_end o) i line in
    let rest := skipn (i + List.length closing) line in
    match re_search (rx_re re_recognised_numeration) rest with
    | Some n =>
      let* vol := grp_need re_recognised_numeration rest n "vol" in
      let yr := grp_or_empty re_recognised_numeration rest n "yr" in
      let* pg := grp_need re_recognised_numeration rest n "pg" in
      let vol := grp_or_empty re_recognised_numeration rest n "series" ++ vol in
      let rest1 := skipn (m_end n) rest in
      let* (extra, rest2) := extra_ibids_loop (List.length rest1) title rest1 in
      Ok (mkps rest2 [] (ps_urls s) (ps_dois s) (add_title (S (List.length extra)) (ps_counts s))
            (ps_els s ++ [journal_el misc title vol yr pg is_ibid extra]))
    | None => Ok (mkps rest (misc ++ title) (ps_urls s) (ps_dois s) (ps_counts s) (ps_els s))
    end
  end.

(** the REPORTNUMBER and ARXIV branches, 1078-1141 *)
Definition report_step (s : pstate) (o : mobj) (misc closing : str) (arxiv : bool) : pstate :=
  let line := ps_line s in
  match find_from closing line (m_end o) with
  | None => mkps (skipn (m_end o) line) misc (ps_urls s) (ps_dois s) (ps_counts s) (ps_els s)
  | Some i =>
    let e := set_str Kreport_num (slice (m_end o) i line) (mkel REPORTNUMBER misc []) in
    let e := if arxiv then set Kis_arxiv (VB true) e else e in
    mkps (skipn (i + List.length closing) line) [] (ps_urls s) (ps_dois s)
         (add_reportnum (ps_counts s)) (ps_els s ++ [e])
  end.

(** the URL branch, 1143-1167 *)
Definition url_step (s : pstate) (o : mobj) (misc : str) : res pstate :=
  match ps_urls s with
  | [] => Err IndexError
  | (u, d) :: urls =>
    let e := set_str Kurl_desc d (set_str Kurl_string u (mkel URL misc [])) in
    Ok (mkps (skipn (m_end o) (ps_line s)) [] urls (ps_dois s) (add_url (ps_counts s)) (ps_els s ++ [e]))
  end.

(** the DOI branch, 1169-1191 *)
Definition doi_step (s : pstate) (o : mobj) (misc : str) : res pstate :=
  match ps_dois s with
  | [] => Err IndexError
  | d :: dois =>
    let e := set_str Kdoi_string d (mkel DOI misc []) in
    Ok (mkps (skipn (m_end o) (ps_line s)) [] (ps_urls s) dois (add_doi (ps_counts s)) (ps_els s ++ [e]))
  end.

(** the AUTH branch, 1193-1235 *)
Definition auth_step (s : pstate) (o : mobj) (misc ty : str) : pstate :=
  let line := ps_line s in
  let closing := py "</cds.AUTH" ++ ty ++ py ">" in
  match find_from closing line (m_end o) with
  | None => mkps (skipn (m_end o) line) misc (ps_urls s) (ps_dois s) (ps_counts s) (ps_els s)
  | Some i =>
    let e := set_str Kauth_type ty (set_str Kauth_txt (slice (m_end o) i line) (mkel AUTH misc [])) in
    mkps (skipn (i + List.length (py "</cds.AUTHxxxx>")) line) [] (ps_urls s) (ps_dois s)
         (add_auth (ps_counts s)) (ps_els s ++ [e])
  end.

(** the SER, VOL, YR and PG branches, 1242-1286 *)
Definition misc_step (s : pstate) (o : mobj) (misc closing : str) : pstate :=
  let (misc', line') := convert_unusable_tag_to_misc (ps_line s) misc (m_end o) closing in
  mkps line' misc' (ps_urls s) (ps_dois s) (ps_counts s) (ps_els s).

(** the QUOTED, ISBN, PUBLISHER and COLLABORATION branches, 1288-1317 *)
Definition subfield_step (s : pstate) (o : mobj) (misc : str) (t : ety) (tag : str) (dest : key) : pstate :=
  let '(e, line', misc') := map_tag_to_subfield t tag (skipn (m_end o) (ps_line s)) misc dest in
  mkps line' misc' (ps_urls s) (ps_dois s) (ps_counts s)
       (ps_els s ++ match e with Some e => [e] | None => [] end).

(** One iteration, 949-1322.  In the last case no branch of the code applies: the tags
    of the pattern are exactly those treated (proved in the proofs). *)
Definition tag_step (s : pstate) (o : mobj) : res pstate :=
  let line := ps_line s in
  let tag := g_str line o 1 in
  let misc := ps_misc s ++ firstn (m_start o) line in
  if contains (py "JOURNAL") tag then journal_step s o misc
  else if eqs tag (py "REPORTNUMBER") then Ok (report_step s o misc (py "</cds.REPORTNUMBER>") false)
  else if eqs tag (py "ARXIV") then Ok (report_step s o misc (py "</cds.ARXIV>") true)
  else if eqs tag (py "URL") then url_step s o misc
  else if eqs tag (py "DOI") then doi_step s o misc
  else if contains (py "AUTH") tag then
    if contains (py "stnd") tag then Ok (auth_step s o misc (py "stnd"))
    else if contains (py "etal") tag then Ok (auth_step s o misc (py "etal"))
    else if contains (py "incl") tag then Ok (auth_step s o misc (py "incl"))
    else Err UnboundLocalError
  else if eqs tag (py "SER") then Ok (misc_step s o misc (py "</cds.SER>"))
  else if eqs tag (py "VOL") then Ok (misc_step s o misc (py "</cds.VOL>"))
  else if eqs tag (py "YR") then Ok (misc_step s o misc (py "</cds.YR>"))
  else if eqs tag (py "PG") then Ok (misc_step s o misc (py "</cds.PG>"))
  else if eqs tag (py "QUOTED") then Ok (subfield_step s o misc QUOTED tag Ktitle)
  else if eqs tag (py "ISBN") then Ok (subfield_step s o misc ISBN tag KISBN)
  else if eqs tag (py "PUBLISHER") then Ok (subfield_step s o misc PUBLISHER tag Kpublisher)
  else if eqs tag (py "COLLABORATION") then Ok (subfield_step s o misc COLLABORATION tag Kcollaboration)
  else Err (OtherError 1).

Fixpoint tag_loop (fuel : nat) (s : pstate) : res pstate :=
  match re_search (rx_re re_tagged_citation) (ps_line s) with
  | None => Ok s
  | Some o => match fuel with
              | O => Err OutOfFuel
              | S f => let* s' := tag_step s o in tag_loop f s'
              end
  end.

(** parse_tagged_reference_line, 905-1353 (the line marker is passed through) *)
Definition parse_tagged_reference_line (line : str) (dois : list str) (urls : list (str * str))
  : res (list el * counts) :=
  let* s := tag_loop (List.length line) (mkps line [] urls dois counts0 []) in
  let misc := ps_misc s ++ ps_line s in
  if nonempty (strip_chars (py " .;,") misc)
  then Ok (ps_els s ++ [mkel MISC misc []], add_misc (ps_counts s))
  else Ok (ps_els s, ps_counts s).
