(** Properties from C53 on: the fields of a reference; texts that become tags. *)
From Coq Require Import List Arith NArith Bool String.
From Verif Require Import PyStr Elements Record Transform Patterns Tag Kbs Engine Demo FieldProofs CaptureLang TaggerProofs ArxivProofs ArxivNew.
Import ListNotations.
Open Scope nat_scope.
Local Notation length := List.length.
Local Notation concat := List.concat.

(** ** C53 *)
(** The references are, in order, those of the citations of the lines.  [built] says: raw_ref is the line, linemarker the
    marker without brackets, dots and spaces, and every other field has exactly the non-empty texts that the elements of the
    citation contribute to it ([contributions], the table of FieldProofs.v), in the order of the elements; no field is empty. *)
Theorem C53_fields : forall E K cb f lines refs stats, parse_references E K cb f lines = Ok (refs, stats) -> exists ps cnt x,
  parse_references_elements E K cb lines = Ok (ps, cnt, x)
  /\ Forall2 (fun c r => built f (p_marker (fst c)) (p_raw (fst c)) (snd c) r) (cited ps) refs.
Proof. exact parse_references_fields. Qed.
Print Assumptions C53_fields.
(** a value is in a field exactly if an element contributes it *)
Theorem C53_values : forall f k els v, In v (values f k els) <-> v <> [] /\ exists e, In e els /\ In (k, v) (contributions f e).
Proof. exact values_in. Qed.
Print Assumptions C53_values.
Theorem C53_schemes : forall E K cb f lines refs stats r, parse_references E K cb f lines = Ok (refs, stats) -> In r refs ->
  (forall v, In v (field Fdoi r) -> exists d, v = py "doi:" ++ d) /\ (forall v, In v (field Fhdl r) -> exists d, v = py "hdl:" ++ d).
Proof. exact schemes. Qed.
Print Assumptions C53_schemes.
Example C53_case : exists r1 r2 r3 stats, parse_references demo_env demo_kbs None default_format demo_lines = Ok ([r1; r2; r3], stats)
  /\ field Fjournal_reference r1 = [py "Phys.Lett. B12 (1999) 34"] /\ field Fdoi r1 = [py "doi:10.1000/abc"] /\ field Fauthor r1 = [py "A. Smith"]
  /\ field Fjournal_reference r3 = [py "Phys.Lett. A7 (2002) 8"] /\ field Flinemarker r3 = [py "2"] /\ field Fdoi r3 = [].
Proof. vm_compute. do 4 eexists. repeat split. Qed.

(** ** C54 *)
(** [tagged P R [] line out]: [out] is [line] with pieces replaced from left to right; a replaced piece [w] between [a] and [b] becomes [v] with [R a w b v];
    no text [w] with [P a w b] begins in a part that is kept. *)
Theorem C54_quoted : forall line, tagged (fun a w b => exists t, quoted a w b t) (fun a w b v => exists t, quoted a w b t /\ v = wrap "QUOTED" t) [] line (tag_quoted_text line).
Proof. exact tag_quoted_exact. Qed.
Print Assumptions C54_quoted.
Theorem C54_isbn : forall line, tagged (fun a w b => exists code, isbn w code)
  (fun a w b v => exists code, isbn w code /\ (length code = 25 \/ no_more isbn_char b) /\ v = wrap "ISBN" code) [] line (tag_isbn line).
Proof. exact tag_isbn_exact. Qed.
Print Assumptions C54_isbn.
Theorem C54_atlas : forall line, exists mid, atlas_step old_note (py "ATL-CONF-") line mid /\ atlas_step new_note (py "ATLAS-CONF-") mid (tag_atlas_conf line).
Proof. exact tag_atlas_exact. Qed.
Print Assumptions C54_atlas.
Theorem C54_volume : forall line, tagged (fun a w b => exists l n, loose_volume w l n) (fun a w b v => exists l n, loose_volume w l n /\ v = wrap "VOL" (l :: n)) [] line (wash_volume_tag line).
Proof. exact wash_volume_exact. Qed.
Print Assumptions C54_volume.
(** the words "International Standard Book Number" are not recognised: the pattern is verbose, its spaces are ignored *)
Theorem C54_words_refuted : exists line, line = py "International Standard Book Number 0-306-40615-2" /\ tag_isbn line = line.
Proof. eexists. split; [reflexivity|]. vm_compute. reflexivity. Qed.
Print Assumptions C54_words_refuted.
(** the "13" of "ISBN-13" can become a part of the number *)
Theorem C54_thirteen_refuted : exists line, line = py "ISBN-13-9780306406157" /\ tag_isbn line = wrap "ISBN" (py "13-9780306406157").
Proof. eexists. split; [reflexivity|]. vm_compute. reflexivity. Qed.
Print Assumptions C54_thirteen_refuted.
Example C54_case : tag_quoted_text (py "A, ""On it"", B") = py "A, <cds.QUOTED>On it</cds.QUOTED>, B"
  /\ tag_isbn (py "Book, ISBN-13: 978-0-306-40615-7.") = py "Book, <cds.ISBN>978-0-306-40615-7</cds.ISBN>."
  /\ tag_atlas_conf (py "ATLAS-CONF-2007-012 ATL-CONF-2011-057") = py "<cds.REPORTNUMBER>ATL-CONF-2007-012</cds.REPORTNUMBER> <cds.REPORTNUMBER>ATLAS-CONF-2011-057</cds.REPORTNUMBER>"
  /\ wash_volume_tag (py "<cds.VOL>B 12</cds.VOL>") = py "<cds.VOL>B12</cds.VOL>".
Proof. vm_compute. auto. Qed.

(** ** C55 *)
Theorem C55_arxiv : forall E line, (2013 <= now_year E <= 2100)%N -> exists l1 l2 l3, arxiv_pass year5 month12 5 line l1 /\ arxiv_pass (digits 2) (digits 2) 4 l1 l2
  /\ bare_pass (year_of 2013 (now_year E)) 5 l2 l3 /\ bare_pass (year_of 1991 (now_year E)) 4 l3 (tag_arxiv E line).
Proof. exact tag_arxiv_exact. Qed.
Print Assumptions C55_arxiv.
Theorem C55_old : forall line, exists mid, catchup_pass line mid /\ old_passes old_arxiv mid (tag_arxiv_more line).
Proof. exact tag_arxiv_more_exact. Qed.
Print Assumptions C55_old.
(** a version of two digits leaves one of them behind *)
Theorem C55_version_refuted : exists line, line = py "arXiv:1207.1234v12, p. 3" /\ tag_arxiv demo_env line = py "<cds.ARXIV>arXiv:1207.1234</cds.ARXIV>2, p. 3".
Proof. eexists. split; [reflexivity|]. vm_compute. reflexivity. Qed.
Print Assumptions C55_version_refuted.
(** a misspelt archive becomes another archive *)
Theorem C55_archive_refuted : exists line, line = py "ep-th/9901001" /\ tag_arxiv_more line = py "<cds.ARXIV>hep-ph/9901001</cds.ARXIV>".
Proof. eexists. split; [reflexivity|]. vm_compute. reflexivity. Qed.
Print Assumptions C55_archive_refuted.
Example C55_case : (2013 <= now_year demo_env <= 2100)%N /\ tag_arxiv demo_env (py "A arXiv:1407.12345v2 [hep-th], 0704.0001.") = py "A <cds.ARXIV>arXiv:1407.12345 [hep-th]</cds.ARXIV>, <cds.ARXIV>arXiv:0704.0001</cds.ARXIV>."
  /\ tag_arxiv_more (py "hepth 9901001v3, arXiv:9901.002 [gr-qc]") = py "<cds.ARXIV>hep-th/9901001</cds.ARXIV>, <cds.ARXIV>gr-qc/9901002</cds.ARXIV>".
Proof. vm_compute. intuition congruence. Qed.
