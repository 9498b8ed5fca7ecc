(** C65: which journal titles are found in a line. *)
From Coq Require Import Arith NArith Bool String Lia List.
From Verif Require Import PyStr Regex Kbs Tag KbProofs SpanProofs TitleFound.
Import ListNotations.
Local Open Scope string_scope.
Local Open Scope list_scope.

(** ** C65 *)
(** For every table whose titles are not empty and have no underscore: the titles are looked for one after the other, longest
    first (C31), each in the line the titles before it have left ([titles_marked]). A title is looked for from the left to the
    right; where it can be recognised ([recognisable], see C21) it is noted and masked, and nowhere else ([title_marked]). *)
Theorem C65_found : forall rows line, (forall t, In t (jk_keys (build_journals_kb rows)) -> t <> [] /\ ~ In 95%N t) -> exists s hits,
  identify_journals line (build_journals_kb rows) = Ok s /\ titles_marked rows (jk_keys (build_journals_kb rows)) line hits (j_line s)
  /\ forall i t, iget i (j_matches s) = Some t <-> In (i, t) hits.
Proof. exact journals_exact. Qed.
Print Assumptions C65_found.
(** The result is determined: two readings of a line agree. *)
Theorem C65_one : forall rows ts line h1 o1 h2 o2, titles_marked rows ts line h1 o1 -> titles_marked rows ts line h2 o2 -> h1 = h2 /\ o1 = o2.
Proof. exact titles_one. Qed.
Print Assumptions C65_one.
Definition c65_rows : list (str * str) := [(py "PHYS LETT", py "Phys. Lett."); (py "PHYS", py "Physics"); (py "PL", py "Phys. Lett.")].
Example C65_case :
  (forall t, In t (jk_keys (build_journals_kb c65_rows)) -> t <> [] /\ ~ In 95%N t)
  /\ exists s, identify_journals (py "PHYS LETT 5, PHYS 6 XPHYS 7 PHYS") (build_journals_kb c65_rows) = Ok s
     /\ j_matches s = [(0, py "PHYS LETT"); (13, py "PHYS")] /\ j_line s = py "_________ 5, ____ 6 XPHYS 7 PHYS".
Proof.
  split.
  - intros t I. vm_compute in I. assert (forall t : str, In t (jk_keys (build_journals_kb c65_rows)) -> negb (existsb (N.eqb 95) t) && negb (eqs t []) = true) as H by (apply forallb_forall; vm_compute; reflexivity).
    specialize (H t I). apply andb_true_iff in H as [H1 H2]. split; [intros ->; discriminate|]. intros J. apply negb_true_iff in H1. assert (existsb (N.eqb 95) t = true); [|congruence]. apply existsb_exists. exists 95%N. split; auto.
  - eexists. split; [vm_compute; reflexivity|]. split; vm_compute; reflexivity.
Qed.
(** One expects that a title is found at the end of a line too. But a character must stand behind it. *)
Theorem C65_end_refuted : exists s, identify_journals (py "SEE PHYS LETT") (build_journals_kb c65_rows) = Ok s /\ ~ In (4, py "PHYS LETT") (j_matches s)
  /\ j_matches s = [(4, py "PHYS")].
Proof. eexists. split; [vm_compute; reflexivity|]. split; [vm_compute; intuition discriminate|vm_compute; reflexivity]. Qed.
Print Assumptions C65_end_refuted.
