(** C56: references to PoS; C29: the words that are compared. *)
From Coq Require Import List Arith NArith Bool String Lia.
From Verif Require Import PyStr Regex DocText Tag TaggerProofs CaptureLang FoundProofs PosProofs.
Import ListNotations.
Local Open Scope nat_scope.
Local Open Scope string_scope.

(** ** C56 *)
(** Four passes over the line, one for each form: year, volume, page; volume, year, page; volume, page, year; (volume), page.
    In each pass exactly the texts of the form are replaced, from the left to the right; the name of the volume is as long as
    it can be, and so is the page. *)
Theorem C56_pos : forall line, exists l1 l2 l3, pos_pass begin1 mid1 end1 line l1 /\ pos_pass begin2 mid2 end1 l1 l2
  /\ pos_pass begin2 mid1 end3 l2 l3 /\ pos_pass begin4 mid4 end1 l3 (tag_pos_volume line).
Proof. exact tag_pos_exact. Qed.
Print Assumptions C56_pos.
(** one expects the year before the volume to be read when it is set off by blanks; a second blank is needed *)
Theorem C56_year_first_refuted :
  tag_pos_volume (py "PoS 2007 LAT2007 369") = py "PoS 2007 LAT2007 369"
  /\ tag_pos_volume (py "PoS 2007  LAT2007 369") = py "<cds.JOURNAL>PoS</cds.JOURNAL> <cds.VOL>LAT2007</cds.VOL> <cds.YR>(2007)</cds.YR> <cds.PG>369</cds.PG>".
Proof. split; vm_compute; reflexivity. Qed.
Print Assumptions C56_year_first_refuted.
(** and only the word PoS to be taken for the journal; the end of a name will do *)
Theorem C56_word_refuted :
  tag_pos_volume (py "M. Campos, QCD2007 (2007) 369") = py "M. Cam<cds.JOURNAL>PoS</cds.JOURNAL> <cds.VOL>QCD2007</cds.VOL> <cds.YR>(2007)</cds.YR> <cds.PG>369</cds.PG>".
Proof. vm_compute; reflexivity. Qed.
Print Assumptions C56_word_refuted.
Example C56_case :
  tag_pos_volume (py "A, PoS LAT2007 (2007) 369; PoS(LAT 2006)12, pos: EPS2005, 17 (2005).")
  = py "A, <cds.JOURNAL>PoS</cds.JOURNAL> <cds.VOL>LAT2007</cds.VOL> <cds.YR>(2007)</cds.YR> <cds.PG>369</cds.PG>; <cds.JOURNAL>PoS</cds.JOURNAL> <cds.VOL>LAT2006</cds.VOL> <cds.YR>(2006)</cds.YR> <cds.PG>12</cds.PG>, <cds.JOURNAL>PoS</cds.JOURNAL> <cds.VOL>EPS2005</cds.VOL> <cds.YR>(2005)</cds.YR> <cds.PG>17</cds.PG>.".
Proof. vm_compute; reflexivity. Qed.
Example C56_reading : exists f k, pos_text begin2 mid2 end1 (py "PoS LAT2007 (2007) 369") f (py "LAT") k (py "369") [] (py "2007") (py "(2007)").
Proof.
  exists (py "PoS "), (py "2007 (2007) "), [], (py "(2007)"), []. split; [reflexivity|]. split.
  - exists (py "PoS"), (py " "). repeat split; [repeat constructor; vm_compute; tauto|]. exists [], 32%N, []. repeat split.
  - split; [split; [reflexivity|cbn; lia]|]. split; [|split; [split; [reflexivity|cbn; lia]|repeat split]].
    assert (year_num (py "2007")) as Y by (exists 48%N, 55%N; repeat split; auto).
    exists [], (py " "), (py " "), (py "2007"). split; [reflexivity|]. split; [right; reflexivity|]. split; auto. split; [right; reflexivity|]. split; [split; auto|right; reflexivity].
Qed.

(** ** C29 *)
(** the words compared at the boundaries of the pages are the maximal runs of letters, digits and hyphens *)
Theorem C29_words : forall line, runs_of word_char line (words line).
Proof. exact words_exact. Qed.
Print Assumptions C29_words.
Example C29_words_case : words (py "Phys. Rev. D-7, p. 12") = map py ["Phys"; "Rev"; "D-7"; "p"; "12"].
Proof. vm_compute; reflexivity. Qed.
