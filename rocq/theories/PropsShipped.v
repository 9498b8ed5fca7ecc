(** C52: the knowledge bases made by the builders and those that are shipped. *)
From Coq Require Import List Arith NArith Bool String Lia.
From Verif Require Import PyStr Regex Elements Record Numeration Transform Post Tag RefText MarkerProofs Kbs Engine Api Demo ElementsOk TagOk LinesOk BookProofs ShippedReports ShippedKbs KbFit.
Import ListNotations.
Local Open Scope nat_scope.
Local Notation length := List.length.

(** ** C52 *)
(** a table of journals, from a file or given, always has a pattern and a title for each of its phrases *)
Theorem C52_journals : forall F s kb, load_kb_by_type F Tjournals s = Ok (Ljournals kb) -> forall phrase, In phrase (jk_keys kb) ->
  (exists p, assoc_str phrase (jk_search kb) = Some p) /\ (exists t, assoc_str phrase (jk_std kb) = Some t) /\ forall c, In c phrase -> is_lower_ascii c = false.
Proof. exact journals_loaded. Qed.
Print Assumptions C52_journals.
(** capitals of capitals: a book is found under its own key *)
Theorem C52_capitals : forall s, upper (upper s) = upper s.
Proof. exact upper_upper. Qed.
Print Assumptions C52_capitals.
(** with the other tables as shipped, no table of journals and no table of books with full rows leads to an exception but
    IndexError and ValueError *)
Theorem C52_extraction : forall E cb format journals rows books only source,
  fit_env E = true -> (forall f, cb = Some f -> fit_callback f) -> fit_format format = true ->
  Forall full_row rows -> build_books_kb rows = Ok books -> Forall short (split_lines source []) ->
  match extract_references_from_string (mkopt E (Ok (shipped_with journals books)) cb format) only source with Ok _ => True | Err e => e = IndexError \/ e = ValueError end.
Proof. exact shipped_exceptions. Qed.
Print Assumptions C52_extraction.
Definition c52_rows : list (list str) := [[py "Weinberg, S."; py "Gravitation and cosmology"; py "1972;"]].
Definition c52_text : str := py "[1] S. Weinberg, ""Gravitation and cosmology"", 1972; J. Smith, CERN-TH/98-12; Rev. Mod. Phys. 61 (1989) 1".
Example C52_case : fit_env demo_env = true /\ Forall full_row c52_rows /\ Forall short (split_lines c52_text [])
  /\ exists books refs, build_books_kb c52_rows = Ok books
     /\ extract_references_from_string (mkopt demo_env (Ok (shipped_with [(py "REV MOD PHYS", py "Rev.Mod.Phys.")] books)) None default_format) true c52_text = Ok refs /\ length refs = 3.
Proof.
  split; [vm_compute; reflexivity|]. split.
  - repeat constructor. exists (py "Weinberg, S."), (py "Gravitation and cosmology"), (py "1972;"), []. split; [reflexivity|]. exists 71%N. split; [vm_compute; auto|reflexivity].
  - split; [repeat constructor; unfold short; vm_compute; discriminate|]. eexists. eexists. split; [vm_compute; reflexivity|]. split; vm_compute; reflexivity.
Qed.
(** the shipped tables themselves: they load, and every one of them is consistent *)
Example C52_shipped : build_reportnum_kb shipped_reports = Ok shipped_reports_kb /\ length (rk_std shipped_reports_kb) = 335
  /\ length shipped_collabs_kb = 27 /\ length shipped_publishers_kb = 85 /\ shipped_special_kb = [py "JHEP"; py "JCAP"].
Proof. split; [apply shipped_ok|]. vm_compute. auto. Qed.
