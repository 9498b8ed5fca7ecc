(** C22: exactly which texts of a line are DOIs, and what is returned for them. *)
From Coq Require Import NArith Arith Bool String Lia List.
From Verif Require Import PyStr Regex Patterns CaptureLang TaggerProofs Tag UrlProofs DoiProofs Demo.
Import ListNotations.
Local Open Scope string_scope. Local Open Scope list_scope. Local Open Scope nat_scope.

(** [doi_there w]: [w] is a lead and a DOI.  The lead is nothing, or "doi" with optional
    parentheses, colon and spaces, or "http://doi.org/" with optional "s" and "dx.".
    The DOI is "10.", three to seven digits, any number of parts "." and letters or digits, a slash (or "%2f"),
    and at least two characters of [doi_char], the last one not a full stop.
    The line is read from the left: in what is kept no such text begins, and the DOI is as long as it can be: behind it
    are only full stops and then no character of [doi_char] ([ends_here]).
    Each text becomes one tag, and the DOI is returned, decoded if it contains "%2f".
    [doi_scan] allows one result for each line, and it is the one computed. *)
Remark doi_there_means : forall w, doi_there w <-> exists lead pre t, w = lead ++ pre ++ t /\ lead_of_doi lead /\ registrant pre /\ doi_suffix t.
Proof.
  intros w. split; [intros (body & lead & pre & t & -> & -> & H); exists lead, pre, t; auto|intros (lead & pre & t & -> & H); exists (pre ++ t), lead, pre, t; auto].
Qed.
Theorem C22_exact : forall E line tagged dois, identify_and_tag_DOI E line = (tagged, dois) <-> doi_scan E line tagged dois.
Proof. exact doi_only. Qed.
Print Assumptions C22_exact.
(** sub-parts, capital letters, an escaped slash and final full stops *)
Example C22_exact_case : doi_there (py "(DOI) 10.1000.12/ab.c") /\ ends_here (py ".. x")
  /\ identify_and_tag_DOI plain_env (py "A (DOI) 10.1000.12/ab.c.. x 10.12/abc https://DX.doi.org/10.12345%2Fa.b,")
     = (py "A <cds.DOI />.. x 10.12/abc <cds.DOI />,", [py "10.1000.12/ab.c"; py "10.12345%2Fa.b"]).
Proof.
  split; [|split; [exists (py ".."), (py " x"); split; [reflexivity|split; reflexivity]|vm_compute; reflexivity]].
  exists (py "10.1000.12/ab.c"), (py "(DOI) "), (py "10.1000.12/"), (py "ab.c"). split; [reflexivity|]. split; [reflexivity|]. split.
  - right. left. exists (py "("), (py "DOI"), [], (py ")"), [], (py " "). split; [reflexivity|]. split; [right; reflexivity|]. split; [|split; [reflexivity|split; [right; reflexivity|split; [left; reflexivity|reflexivity]]]].
    unfold caseless, letters. change (py "doi") with [100; 111; 105]%N. change (py "DOI") with [68; 79; 73]%N. repeat constructor; vm_compute; auto 10.
  - split.
    + exists (py "1000"), [py "12"], (py "/"). split; [reflexivity|]. split; [split; vm_compute; lia|]. split; [reflexivity|]. split; [repeat constructor; discriminate|left; reflexivity].
    + exists (py "ab."), 99%N. split; [reflexivity|]. split; [discriminate|]. split; reflexivity.
Qed.
