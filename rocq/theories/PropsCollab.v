(** C61: exactly the collaborations of the knowledge base are tagged. *)
From Coq Require Import Arith NArith Bool String List Lia.
From Verif Require Import PyStr Regex Patterns Kbs Tag KbFit StripProofs CollabGrammar CollabProofs CollabNest.
Import ListNotations.
Local Open Scope string_scope.
Local Open Scope list_scope.

(** ** C61 *)
(** The names are those of the shipped table without " Collaboration". *)
Theorem C61_names : map fst shipped_collabs_kb = map (fun X => X ++ py " Collaboration") shipped_names.
Proof. exact (proj1 shipped_form). Qed.
Print Assumptions C61_names.
(** A line without nested tags (C19) is tagged without error, one collaboration after the other. For each, the texts that name it
    ([collab_text]) are looked for from the left to the right in the line with its tags masked; each is taken with what leads to
    it, in its longest form, and its place is taken by the trimmed name between tags ([collab_put]); what is kept has no further
    text that names it; and all else stays as it is. *)
Theorem C61_tagged : forall line, not_nested line -> exists out,
  identify_and_tag_collaborations line shipped_collabs_kb = Ok out /\ collabs_tagged shipped_names line out.
Proof. exact shipped_tagged. Qed.
Print Assumptions C61_tagged.
(** No tag that is put in makes the line nested. *)
Theorem C61_not_nested : forall X line out, calm X = true -> not_nested line -> replaced (collab_text X) (collab_put X) [] (strip_tags line) line out -> not_nested out.
Proof. exact (fun X line out C N R => nested_kept _ _ (put_calm X C) _ _ _ _ R (strip_covered line N) N). Qed.
Print Assumptions C61_not_nested.
Definition c61_line : str := py "<cds.AUTHstnd>A. Bee</cds.AUTHstnd> (the cms  Collaborations), D0 coll., <cds.URL /> and ATLAS , (Atlas Coll) CMS_ Collaboration".
Example C61_case :
  not_nested c61_line
  /\ identify_and_tag_collaborations c61_line shipped_collabs_kb
   = Ok (py "<cds.AUTHstnd>A. Bee</cds.AUTHstnd> <cds.COLLABORATION>cms  Collaborations</cds.COLLABORATION>),<cds.COLLABORATION>D0 coll</cds.COLLABORATION>, <cds.URL /><cds.COLLABORATION>ATLAS</cds.COLLABORATION>, <cds.COLLABORATION>Atlas Coll</cds.COLLABORATION>) CMS_ Collaboration").
Proof. split; [apply nest_check_ok; vm_compute; reflexivity|]. vm_compute. reflexivity. Qed.
(** One expects that the word "Collaboration" can be left out. But the white space before it cannot, so that "CMS" before a comma
    is not found. *)
Theorem C61_bare_refuted :
  identify_and_tag_collaborations (py "A. Bee [CMS], title") shipped_collabs_kb = Ok (py "A. Bee [CMS], title")
  /\ identify_and_tag_collaborations (py "A. Bee [CMS ], title") shipped_collabs_kb = Ok (py "A. Bee <cds.COLLABORATION>CMS</cds.COLLABORATION>], title").
Proof. split; vm_compute; reflexivity. Qed.
Print Assumptions C61_bare_refuted.
