(** C66: what is recognised in a line, all passes together. *)
From Coq Require Import Arith NArith Bool String Lia List.
From Verif Require Import PyStr Regex Patterns DocText Kbs Tag KbFit Engine Demo SpanProofs ReportProofs PubGrammar TitleFound LineFound PropsCrash.
Import ListNotations.
Local Open Scope string_scope.
Local Open Scope list_scope.

(** ** C66 *)
(** There is an ibid w at a place of the line exactly when one of IBID, IBID., IBIDEM, IBIDEM. with or without a hyphen before it
    stands there ([ibid_text]), with the hyphen if there is one and with as much behind it as possible ([whole_ibid]). *)
Theorem C66_ibids : forall line i w, In (i, w) (fst (identify_ibids line)) <-> exists a b, line = a ++ w ++ b /\ i = List.length a /\ whole_ibid a w b.
Proof. exact ibids_exact. Qed.
Print Assumptions C66_ibids.
(** With the shipped knowledge bases and any table of journal titles: the regular expressions of journals look at the line itself
    (dans). In the line l2 in capitals, with blanks for punctuation and single blanks, report numbers are found first (r, see C63),
    then the titles in what the report numbers leave (hits, see C65), then the ibids in what the titles leave, then the publishers in
    what the ibids leave (see C64). At one place an ibid counts more than a title, and a title more than what the regular expressions
    find. The tagged line is made from these and the recorded blanks. *)
Theorem C66_recognised : forall E line rows books titles out ti std, (forall t, In t (jk_keys (build_journals_kb rows)) -> t <> [] /\ ~ In 95%N t) ->
  tag_reference_line E line (shipped_with rows books) titles = Ok (out, ti, std) ->
  let l1 := working_line1 E line in
  let (spaces, l2) := remove_and_record_multiple_spaces_in_line (sub_text re_punctuation (py " ") (upper (strip_tags l1))) in
  exists dans r hits l4 l5 M,
    identify_journals_re l1 shipped_re_kb [] = Ok dans
    /\ identify_report_numbers l2 shipped_reports_kb = Ok r
    /\ titles_marked rows (jk_keys (build_journals_kb rows)) (r_line r) hits l4
    /\ blanked (fun q => exists i w, ibid_at l4 i w /\ i <= q < i + List.length w) l4 l5
    /\ (forall a b, l5 <> a ++ py "IBID" ++ b)
    /\ (forall i t, iget i (lm_journals M) = Some t <-> ibid_at l4 i t \/ (forall w, ~ ibid_at l4 i w) /\ (In (i, t) hits \/ (forall u, ~ In (i, u) hits) /\ iget i dans = Some t))
    /\ lm_replen M = r_len r /\ lm_reprepl M = r_repl r
    /\ (forall i X, iget i (lm_publishers M) = Some X <-> publisher_at (map fst shipped_publishers_kb) l5 i X)
    /\ lm_spaces M = spaces /\ std = supdate (jk_std (build_journals_kb rows)) shipped_re_kb
    /\ process_reference_line E l1 M std (shipped_with rows books) = Ok out.
Proof. exact line_passes. Qed.
Print Assumptions C66_recognised.
(** The shipped table of regular expressions has one entry: dans is the first DAN of the line, if there is one. *)
Theorem C66_dan : forall line, exists dans, identify_journals_re line shipped_re_kb [] = Ok dans
  /\ forall i t, iget i dans = Some t <-> t = py "DAN" /\ exists a b, line = a ++ py "DAN" ++ b /\ i = List.length a /\ forall a' b', line = a' ++ py "DAN" ++ b' -> List.length a <= List.length a'.
Proof. exact dan_exact. Qed.
Print Assumptions C66_dan.
(** What is recognised is put into the line from the left to the right, one thing at each place: a publisher if there is one, else a
    report number, else a journal. *)
Theorem C66_kinds : forall js rs ps, let types := get_replacement_types js rs ps in
  (forall i, iget i types = Some KPublisher <-> In i ps) /\ (forall i, iget i types = Some KReport <-> In i rs /\ ~ In i ps)
  /\ (forall i, iget i types = Some KJournal <-> In i js /\ ~ In i rs /\ ~ In i ps) /\ forall t1 e t2 f t3, types = t1 ++ e :: t2 ++ f :: t3 -> fst e < fst f.
Proof. exact kinds. Qed.
Print Assumptions C66_kinds.

(** *** Cases *)
Definition c66_rows : list (str * str) := [(py "PHYS LETT", py "Phys.Lett."); (py "PHYS", py "Physics")].
Definition c66_line : str := py "A. Bee, Phys. Lett. B12 (1999) 34, ibid. 13 (2000) 5, CERN-TH-98-12, Springer, 1999".
Example C66_case :
  (forall t, In t (jk_keys (build_journals_kb c66_rows)) -> t <> [] /\ ~ In 95%N t)
  /\ exists ti std, tag_reference_line plain_env c66_line (shipped_with c66_rows []) []
  = Ok (py "A. Bee, <cds.JOURNAL>Phys.Lett.</cds.JOURNAL> <cds.VOL>B12</cds.VOL> <cds.YR>(1999)</cds.YR> <cds.PG>34</cds.PG>,  <cds.JOURNALibid>Phys.Lett.</cds.JOURNALibid> <cds.VOL>B13</cds.VOL> <cds.YR>(2000)</cds.YR> <cds.PG>5</cds.PG>,<cds.REPORTNUMBER>CERN-TH-98-12</cds.REPORTNUMBER>, <cds.PUBLISHER>Springer</cds.PUBLISHER>, 1999", ti, std).
Proof.
  split.
  - assert (forall t : str, In t (jk_keys (build_journals_kb c66_rows)) -> negb (existsb (N.eqb 95) t) && negb (eqs t []) = true) as H by (apply forallb_forall; vm_compute; reflexivity).
    intros t I. specialize (H t I). apply andb_true_iff in H as [H1 H2]. split; [intros ->; discriminate|]. intros J. apply negb_true_iff in H1. assert (existsb (N.eqb 95) t = true); [|congruence]. apply existsb_exists. exists 95%N. split; auto.
  - eexists. eexists. vm_compute. reflexivity.
Qed.
Example C66_ibids_case : identify_ibids (py "SEE -IBID. 5 IBIDEM 7 --IBIDIBID") = ([(4, py "-IBID."); (13, py "IBIDEM"); (23, py "-IBID"); (28, py "IBID")], py "SEE ______ 5 ______ 7 -_________").
Proof. vm_compute. reflexivity. Qed.
Example C66_kinds_case : get_replacement_types [3; 9; 20] [9; 4] [20; 1] = [(1, KPublisher); (3, KJournal); (4, KReport); (9, KReport); (20, KPublisher)].
Proof. vm_compute. reflexivity. Qed.
Example C66_dan_case : identify_journals_re (py "J DAN 5 DAN 6") shipped_re_kb [] = Ok [(2, py "DAN")].
Proof. vm_compute. reflexivity. Qed.
(** One expects an ibid to be a word of its own; the pattern asks for a hyphen or the beginning of a word. But this part of it may be
    missing: the end of a name is taken as an ibid, and the name is cut. *)
Theorem C66_word_refuted : exists ti std, tag_reference_line plain_env (py "A. Bee, Phys. Lett. B12 (1999) 34, T. Shibid 13 (2000) 5") (shipped_with c66_rows []) []
  = Ok (py "A. Bee, <cds.JOURNAL>Phys.Lett.</cds.JOURNAL> <cds.VOL>B12</cds.VOL> <cds.YR>(1999)</cds.YR> <cds.PG>34</cds.PG>, T. Sh <cds.JOURNALibid>Phys.Lett.</cds.JOURNALibid> <cds.VOL>B13</cds.VOL> <cds.YR>(2000)</cds.YR> <cds.PG>5</cds.PG>", ti, std).
Proof. eexists. eexists. vm_compute. reflexivity. Qed.
Print Assumptions C66_word_refuted.
