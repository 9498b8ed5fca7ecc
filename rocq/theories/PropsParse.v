(** Properties C14-C17: the parser of tagged lines. *)
From Coq Require Import List Arith NArith Bool String Lia.
From Verif Require Import PyStr ListFacts Elements Record Transform Post ParseTagged Tag RefText Engine Api Demo
  RegexWords ParseProofs.
Import ListNotations.
Local Open Scope nat_scope.
Local Notation length := List.length.
Local Notation concat := List.concat.

(** ** C14 *)
(** [count_tags n s] counts the places where "<cds.n>" or "<cds.n />" stands in s *)
Theorem C14_never_fails : forall line dois urls,
  count_tags (py "URL") line <= length urls -> count_tags (py "DOI") line <= length dois ->
  exists els c, parse_tagged_reference_line line dois urls = Ok (els, c).
Proof. intros line dois urls U D. destruct (parse_total _ _ _ U D) as [[els c] H]. eauto. Qed.
Print Assumptions C14_never_fails.
(** the fuel of the loop always suffices, and taking from an empty list of identifiers is the only failure *)
Theorem C14_terminates : forall line dois urls e, parse_tagged_reference_line line dois urls = Err e -> e = IndexError.
Proof. exact parse_errors. Qed.
Print Assumptions C14_terminates.
Definition tagged_demo : str :=
  py "A <cds.JOURNAL>Phys.Lett.</cds.JOURNAL> <cds.VOL>B12</cds.VOL> <cds.YR>(1999)</cds.YR> <cds.PG>34</cds.PG>, <cds.DOI /> and <cds.URL /> <cds.VOL>7 x <cds.AUTHstnd>J. Doe</cds.AUTHstnd>, in <cds.QUOTED>A title</cds.QUOTED> and".
Example C14_case : count_tags (py "URL") tagged_demo = 1 /\ count_tags (py "DOI") tagged_demo = 1.
Proof. vm_compute. auto. Qed.

(** ** C15 *)
(** false of the code: a text that contains one of the internal tags makes the extraction raise *)
Theorem C15_no_crash_refuted :
  extract_references_from_string (mkopt plain_env (Ok demo_kbs) None default_format) true (py "[1] see <cds.URL />") = Err IndexError
  /\ extract_references_from_string (mkopt plain_env (Ok demo_kbs) None default_format) true (py "[1] see <cds.DOI />") = Err IndexError.
Proof. split; vm_compute; reflexivity. Qed.
Print Assumptions C15_no_crash_refuted.

(** ** C16 *)
(** [number ty els] elements have type ty; a journal element carries a list of further "ibid" journals, [ibids els] in all *)
Theorem C16_counters : forall line dois urls els c, parse_tagged_reference_line line dois urls = Ok (els, c) ->
  c_title c = number JOURNAL els + ibids els /\ c_reportnum c = number REPORTNUMBER els /\ c_url c = number URL els
  /\ c_doi c = number DOI els /\ c_auth c = number AUTH els /\ c_misc c = number MISC els.
Proof. exact parse_counts. Qed.
Print Assumptions C16_counters.

(** ** C17 *)
(** The line is a sequence of pieces, each some text before a tag ([p_before]) and the text removed
    for the tag ([p_text]), and a last part without any tag.  What every piece may be is [removed]
    when each tag is closed.  The misc texts of the elements, in order, are the texts before the tags
    with what a tag passes on ([p_kept]), and only separators are lost at the very end. *)
Theorem C17_text_kept : forall line dois urls els c, closed_tags line -> parse_tagged_reference_line line dois urls = Ok (els, c) ->
  exists ps last lost,
    line = concat (map (fun p => p_before p ++ p_text p) ps) ++ last
    /\ pieces removed line ps last /\ untagged last
    /\ concat (map e_misc els) ++ lost = concat (map (fun p => p_before p ++ p_kept p) ps) ++ last
    /\ only_separators lost.
Proof.
  intros line dois urls els c C H. destruct (parse_text _ _ _ _ _ H) as (ps & last & P & R & U & (lost & L & O) & _).
  exists ps, last, lost. split; [now apply (pieces_line _ _ _ _ P)|]. auto.
Qed.
Print Assumptions C17_text_kept.
(** element by element: every tag with a content gives one element with this content, which takes the text gathered before it *)
Theorem C17_elements : forall line dois urls els c, closed_tags line -> parse_tagged_reference_line line dois urls = Ok (els, c) ->
  exists ps last, pieces removed line ps last /\ untagged last
    /\ (exists us, map fst urls = values_of URL ps ++ us) /\ (exists ds, dois = values_of DOI ps ++ ds)
    /\ let (l, rest) := gather [] ps in
       map (fun e => (e_misc e, (e_type e, content e))) els = l ++ [(rest ++ last, (MISC, []))]
       \/ map (fun e => (e_misc e, (e_type e, content e))) els = l /\ only_separators (rest ++ last).
Proof.
  intros line dois urls els c C H. destruct (parse_text _ _ _ _ _ H) as (ps & last & P & R & U & _ & G & I1 & I2).
  exists ps, last. auto 6.
Qed.
Print Assumptions C17_elements.
Example C17_case : closed_tags tagged_demo /\ exists els c, parse_tagged_reference_line tagged_demo [py "10.1/x"] [(py "http://a", [])] = Ok (els, c)
  /\ map (fun e => (e_misc e, (e_type e, content e))) els
     = [(py "A ", (JOURNAL, py "Phys.Lett.")); (py ", ", (DOI, py "10.1/x")); (py " and ", (URL, py "http://a"));
        (py " 7 x ", (AUTH, py "J. Doe")); (py ", in ", (QUOTED, py "A title")); (py " and", (MISC, []))].
Proof. split; [apply closed_check_ok; vm_compute; reflexivity|]. eexists. eexists. split; vm_compute; reflexivity. Qed.
(** false of the code for every text: characters after an unclosed tag of these four kinds are lost *)
Theorem C17_unclosed_refuted : exists els c, parse_tagged_reference_line (py "<cds.QUOTED>ABCDEFGHIJKLMNOP") [] [] = Ok (els, c)
  /\ map e_misc els = [py "MNOP"] /\ map content els = [[]].
Proof. eexists. eexists. split; [vm_compute; reflexivity|]. vm_compute. auto. Qed.
Print Assumptions C17_unclosed_refuted.
(** and for every line: what is lost more is only such a run of at most as many characters as the tag has ([dropped]) *)
Theorem C17_any_line : forall line dois urls els c, parse_tagged_reference_line line dois urls = Ok (els, c) ->
  exists ps last lost,
    pieces (fun p k e rest => removed p k e rest \/ k = [] /\ e = None /\ dropped p rest) line ps last /\ untagged last
    /\ concat (map e_misc els) ++ lost = concat (map (fun p => p_before p ++ p_kept p) ps) ++ last
    /\ only_separators lost.
Proof.
  intros line dois urls els c H. destruct (parse_text _ _ _ _ _ H) as (ps & last & P & _ & U & (lost & L & O) & _).
  exists ps, last, lost. auto.
Qed.
Print Assumptions C17_any_line.
