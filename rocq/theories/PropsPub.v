(** C64: exactly the publishers of the knowledge base are found. *)
From Coq Require Import Arith NArith Bool String Lia List.
From Verif Require Import PyStr Regex Patterns Kbs Tag KbFit Engine Demo CollabNest PubGrammar PubProofs PropsCrash.
Import ListNotations.
Local Open Scope string_scope.
Local Open Scope list_scope.

(** ** C64 *)
(** The table has for each name of the file the publisher of the last line with this name. *)
Theorem C64_table : forall rows kb, build_publishers_kb rows = Ok kb -> forall n t,
  (exists p, assoc_str n kb = Some (p, t)) <-> exists r1 r2, rows = r1 ++ (n, t) :: r2 /\ ~ In n (map fst r2).
Proof. exact publishers_table. Qed.
Print Assumptions C64_table.
(** With the shipped table there is a publisher at a place of the line exactly when a name of the table stands there as words of
    its own, in any case; it is the one with the longest name. *)
Theorem C64_found : forall line i X,
  iget i (identify_publishers line shipped_publishers_kb) = Some X <-> publisher_at (map fst shipped_publishers_kb) line i X.
Proof. exact publishers_exact. Qed.
Print Assumptions C64_found.
(** What was recognised before is masked with underscores: no publisher is found in it. *)
Theorem C64_unmasked : forall line i X, iget i (identify_publishers line shipped_publishers_kb) = Some X ->
  forall q, i <= q < i + List.length X -> nth_error line q <> Some 95%N.
Proof. exact publishers_unmasked. Qed.
Print Assumptions C64_unmasked.
Example C64_case :
  List.length shipped_publishers_kb = 85
  /\ identify_publishers (py "J SMITH WILEY VCH 1999 ___ SPRINGERS SPRINGER , WILEY _IOP") shipped_publishers_kb
     = [(8, py "WILEY VCH"); (37, py "SPRINGER"); (48, py "WILEY")].
Proof. split; vm_compute; reflexivity. Qed.
(** One expects that a name of a publisher gives one publisher. But a shorter name at its end is found as well, and both are put
    into the line. *)
Theorem C64_once_refuted :
  identify_publishers (py "KLUWER ACADEMIC 1999") shipped_publishers_kb = [(0, py "KLUWER ACADEMIC"); (7, py "ACADEMIC")]
  /\ exists c std, tag_reference_line plain_env (py "A. Bee, Kluwer Academic, 1999") (shipped_with [] []) []
  = Ok (py "A. Bee, <cds.PUBLISHER>Kluwer Academic</cds.PUBLISHER><cds.PUBLISHER>Academic</cds.PUBLISHER>, 1999", c, std).
Proof. split; [vm_compute; reflexivity|]. eexists _, _. vm_compute. reflexivity. Qed.
Print Assumptions C64_once_refuted.
