(** C63: the report numbers the shipped knowledge base knows. *)
From Coq Require Import List Arith NArith Bool String Lia.
From Verif Require Import PyStr Regex Tag Kbs ShippedReports KbFit CollabGrammar ReportGrammar ShippedForms ReportProofs ReportForms ReportFound ReportLine.
Import ListNotations.
Local Open Scope nat_scope.
Local Open Scope string_scope.
Local Open Scope list_scope.

(** ** C63 *)
(** For any line without "C_V" (it is in one of the 335 categories, "CDF PUB SEC_VTX PUBLIC", alone): for every institute and
    category of the table [shipped_institutes], the report numbers found are those of the grammar [ReportGrammar] in the line with
    blanks for slashes and underscores for what the categories with longer names (of equal length: listed later) have found. Each is
    written as the standard category and its number, with hyphens. Nothing else is found. *)
Theorem C63_found : forall line, (forall a b, line <> a ++ py "C_V" ++ b) -> exists es s, identify_report_numbers line shipped_reports_kb = Ok s
  /\ (forall num cs fs c, In (num, cs, fs) shipped_institutes -> In c cs -> exists std l h, assoc_rep (num, c) (rk_std shipped_reports_kb) = Some std
        /\ blanked (fun q => exists k e, In k (map fst (rk_std shipped_reports_kb)) /\ goes_first k (num, c) /\ In e (es k) /\ covers_place e q) (no_slash line) l
        /\ report_list (strip c) fs [] l h
        /\ forall e, In e (es (num, c)) <-> exists i n d, In (i, n, d) h /\ e = (i, n, std ++ hyphened d))
  /\ (forall i n v, (In (i, n) (r_len s) /\ In (i, v) (r_repl s)) <-> exists num cs fs c, In (num, cs, fs) shipped_institutes /\ In c cs /\ In (i, n, v) (es (num, c)))
  /\ blanked (fun q => exists k e, In k (map fst (rk_std shipped_reports_kb)) /\ In e (es k) /\ covers_place e q) (no_slash line) (r_line s).
Proof. exact shipped_found. Qed.
Print Assumptions C63_found.
(** The knowledge base is the one built from the shipped file, and the table has all its categories. *)
Theorem C63_table : build_reportnum_kb shipped_reports = Ok shipped_reports_kb
  /\ (forall num cs fs c, In (num, cs, fs) shipped_institutes -> In c cs -> In (num, c) (map fst (rk_std shipped_reports_kb)))
  /\ (forall key, In key (map fst (rk_std shipped_reports_kb)) -> exists cs fs, In (fst key, cs, fs) shipped_institutes /\ In (snd key) cs).
Proof. exact table_exact. Qed.
Print Assumptions C63_table.
(** The readings are the texts of the grammar, and a text has one list of report numbers. *)
Theorem C63_readings : forall cat fs a s l br n cl, In (l, br, n, cl) (report_readings cat fs a s) <-> exists b, s = l ++ br ++ cat ++ n ++ cl ++ b /\ report_text cat fs a l br n cl b.
Proof. exact report_said. Qed.
Print Assumptions C63_readings.
Theorem C63_one : forall cat fs a s h h', cat <> [] -> report_list cat fs a s h -> report_list cat fs a s h' -> h = h'.
Proof. exact report_list_det. Qed.
Print Assumptions C63_one.

(** *** Cases *)
Example C63_fermilab : exists s, identify_report_numbers (py "SEE [FERMILAB PUB 2003/045 E] AND CERN TH 99 12 34") shipped_reports_kb = Ok s
  /\ r_repl s = [(4, py "FERMILAB-Pub-2003-045-E"); (34, py "CERN-TH-99-12")]
  /\ forall a b, py "SEE [FERMILAB PUB 2003/045 E] AND CERN TH 99 12 34" <> a ++ py "C_V" ++ b.
Proof.
  eexists. split; [vm_compute; reflexivity|]. split; [vm_compute; reflexivity|]. intros a b E. assert (In 95%N (py "SEE [FERMILAB PUB 2003/045 E] AND CERN TH 99 12 34")) as I by (rewrite E; apply in_app_iff; right; right; now left).
  vm_compute in I. repeat (destruct I as [I|I]; [discriminate|]). destruct I.
Qed.
Example C63_number : exists cs fs, In (43, cs, fs) shipped_institutes /\ In (py "FERMILAB PUB    ") cs
  /\ hd_error (report_readings (py "FERMILAB PUB") fs (py "X") (py "FERMILAB PUB 2003 045 E AND")) = None
  /\ hd_error (report_readings (py "FERMILAB PUB") fs (py "SEE") (py " [FERMILAB PUB 2003 045 E] AND")) = Some (py " ", py "[", py " 2003 045 E", py "]").
Proof. eexists. eexists. split; [right; left; reflexivity|]. split; [vm_compute; tauto|]. split; vm_compute; reflexivity. Qed.
