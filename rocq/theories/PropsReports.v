(** C59: the report numbers of a line. *)
From Coq Require Import List Arith NArith Bool String Lia.
From Verif Require Import PyStr Regex Tag Kbs SpanProofs ReportProofs.
Import ListNotations.
Local Open Scope nat_scope.
Local Open Scope string_scope.
Local Open Scope list_scope.

(** ** C59 *)
(** The report numbers of a category are exactly those its pattern finds in the line with blanks for slashes and underscores for
    what the categories with longer names (of equal length: listed later) have found. Each is written as the standard category and
    its number, with one hyphen for every run of blanks and hyphens; the line returned has underscores for all of them. The keys of
    the knowledge base are its lines' numbers and names; [reports_fine] is the hypothesis of C20. *)
Theorem C59_found : forall rows kb line, build_reportnum_kb rows = Ok kb -> reports_fine kb -> exists es s, identify_report_numbers line kb = Ok s
  /\ (forall key p std, In key (map fst (rk_std kb)) -> assoc_rep key (rk_search kb) = Some p -> assoc_rep key (rk_std kb) = Some std -> exists l,
        blanked (fun q => exists k e, In k (map fst (rk_std kb)) /\ goes_first k key /\ In e (es k) /\ covers_place e q) (no_slash line) l
        /\ forall e, In e (es key) <-> hit p std l e)
  /\ (forall i n v, (In (i, n) (r_len s) /\ In (i, v) (r_repl s)) <-> exists key, In key (map fst (rk_std kb)) /\ In (i, n, v) (es key))
  /\ blanked (fun q => exists k e, In k (map fst (rk_std kb)) /\ In e (es k) /\ covers_place e q) (no_slash line) (r_line s).
Proof. exact report_numbers_exact. Qed.
Print Assumptions C59_found.
(** No report number is reported exactly when no pattern finds one in the line with blanks for slashes. *)
Theorem C59_none : forall rows kb line, build_reportnum_kb rows = Ok kb -> reports_fine kb -> exists s, identify_report_numbers line kb = Ok s
  /\ (r_len s = [] <-> forall key p, In key (map fst (rk_std kb)) -> assoc_rep key (rk_search kb) = Some p -> re_finditer (rx_re p) (no_slash line) = []).
Proof. exact report_numbers_none. Qed.
Print Assumptions C59_none.
(** The code also removes the hyphens beside slashes; there are none left in a number, so that this never happens. *)
Theorem C59_slashes_idle : forall n, ~ In 47%N n -> clean_numeration n = hyphened n.
Proof. exact clean_hyphened. Qed.
Print Assumptions C59_slashes_idle.

(** *** Cases *)
Definition c59_rows : list str := map py ["*****CERN*****"; "<s99s999>"; "TH ---TH"; "CERN TH ---CERN-TH"; "CERN EP ---CERN-EP"].
Definition c59_kb : repnum_kb := Eval vm_compute in match build_reportnum_kb c59_rows with Ok k => k | Err _ => mkrk [] [] end.
Example C59_kb : build_reportnum_kb c59_rows = Ok c59_kb /\ List.length (rk_std c59_kb) = 3 /\ reports_fine c59_kb.
Proof.
  split; [vm_compute; reflexivity|]. split; [reflexivity|].
  assert (forallb (fun key => match assoc_rep key (rk_search c59_kb), assoc_rep key (rk_std c59_kb) with Some p, Some _ => rep_ok p | _, _ => false end) (map fst (rk_std c59_kb)) = true) as H by (vm_compute; reflexivity).
  intros key I. rewrite forallb_forall in H. apply H in I. destruct (assoc_rep key (rk_search c59_kb)) as [p|]; [|discriminate]. destruct (assoc_rep key (rk_std c59_kb)) as [std|]; [|discriminate]. eauto.
Qed.
Example C59_longest : exists s, identify_report_numbers (py "SEE CERN/TH 99 123 AND TH 98/001") c59_kb = Ok s
  /\ r_repl s = [(4, py "CERN-TH-99-123"); (23, py "TH-98-001")] /\ r_line s = py "SEE ______________ AND _________".
Proof. eexists. split; [vm_compute; reflexivity|]. split; vm_compute; reflexivity. Qed.
Example C59_no_number : exists s, identify_report_numbers (py "SEE CERN TH") c59_kb = Ok s /\ r_len s = [].
Proof. eexists. split; vm_compute; reflexivity. Qed.
Example C59_hyphens : hyphened (py "99 - 12--3 ") = py "99-12-3-".
Proof. vm_compute. reflexivity. Qed.
