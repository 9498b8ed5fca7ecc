(** C67: which text of a file, a string or a line is read. *)
From Coq Require Import NArith Arith Bool String Lia List.
From Verif Require Import PyStr Elements Record Transform Tag Find RefText Kbs Pdf Engine Api Demo FileText PropsApi.
Import ListNotations.
Local Open Scope string_scope. Local Open Scope list_scope. Local Open Scope nat_scope.

(** A line of pdftotext is the text of the line and perhaps a newline ([one_line]).  If white space, a page break and more text are found
    ([break_at]), the line gives two lines: the page break, and the text behind the last such page break, without the newline.
    Any other line stays as it is ([page_line]). *)
Theorem C67_page_breaks : forall W layout b b' lines out,
  get_plaintext_document_body W layout b = (b', Ok lines) -> mime_type W b' = Ok (py "application/pdf") -> pdftotext W layout b' = Ok out ->
  (forall l, In l out -> exists body nl, one_line l body nl) -> exists parts, lines = List.concat parts /\ Forall2 page_line out parts.
Proof. exact pdf_lines. Qed.
Print Assumptions C67_page_breaks.
Example C67_page_breaks_case : split_page_breaks [py "end" ++ [10%N]; [12%N; 32%N; 12%N] ++ py "Page 2" ++ [10%N]; [12%N; 10%N]; py "a" ++ [12%N] ++ py "b"]
    = [py "end" ++ [10%N]; [12%N]; py "Page 2"; [12%N; 10%N]; py "a" ++ [12%N] ++ py "b"]
  /\ page_line ([12%N; 32%N; 12%N] ++ py "Page 2" ++ [10%N]) [[12%N]; py "Page 2"].
Proof.
  split; [vm_compute; reflexivity|]. exists ([12%N; 32%N; 12%N] ++ py "Page 2"), [10%N]. split; [split; [reflexivity|split; [vm_compute; intuition discriminate|now right]]|].
  left. exists [12%N; 32%N], (py "Page 2"). split; [split; [reflexivity|split; [reflexivity|discriminate]]|]. split; [|reflexivity].
  intros sp rest (E & _ & _). change ([12%N; 32%N; 12%N] ++ py "Page 2") with [12; 32; 12; 80; 97; 103; 101; 32; 50]%N in E. destruct sp as [|a [|b [|c [|d sp]]]]; cbn [List.length]; try lia; exfalso; cbn [app] in E.
  - injection E as _ _ _ E. discriminate E.
  - injection E as _ _ _ _ E. assert (In 12%N [97; 103; 101; 32; 50]%N) as I by (rewrite E; apply in_or_app; right; now left). cbn in I. intuition discriminate.
Qed.

(** If lines of references are found in the text of the first try, what pdftotext would print with the layout kept makes no difference. *)
Theorem C67_first_try : forall W O b body l ls d f, snd (get_plaintext_document_body W false b) = Ok body -> extract_references_from_fulltext body = Ok (l :: ls, d) ->
  f false = pdftotext W false -> extract_references_from_file (with_pdftotext f W) O (Some b) = extract_references_from_file W O (Some b).
Proof. exact first_try. Qed.
Print Assumptions C67_first_try.
(** If none are found, the result is the same as if pdftotext had kept the layout from the beginning.  The hypothesis on
    clean_pdf_file holds for the files of C33_idempotent and C33_others_kept. *)
Theorem C67_second_try : forall W O b body d, clean_pdf_file (fst (clean_pdf_file b)) = clean_pdf_file b ->
  snd (get_plaintext_document_body W false b) = Ok body -> extract_references_from_fulltext body = Ok ([], d) ->
  extract_references_from_file W O (Some b) = extract_references_from_file (with_pdftotext (fun _ => pdftotext W true) W) O (Some b).
Proof. exact second_try. Qed.
Print Assumptions C67_second_try.
Definition broken_services : services := with_pdftotext (fun layout b => if layout then pdftotext demo_services true b else Ok [py "nothing"]) demo_services.
Example C67_second_try_case : (exists body d, clean_pdf_file (fst (clean_pdf_file demo_pdf)) = clean_pdf_file demo_pdf
    /\ snd (get_plaintext_document_body broken_services false demo_pdf) = Ok body /\ extract_references_from_fulltext body = Ok ([], d))
  /\ exists b2 r, extract_references_from_file broken_services demo_options (Some demo_pdf) = (Some b2, Ok [r]) /\ fget Fauthor r = Some [py "J. Doe"].
Proof.
  split. { eexists. eexists. split; [vm_compute; reflexivity|]. split; [vm_compute; reflexivity|]. vm_compute. reflexivity. } eexists. eexists. split; [vm_compute; reflexivity|]. vm_compute. reflexivity.
Qed.
Example C67_first_try_case : exists body l ls d, snd (get_plaintext_document_body demo_services false demo_pdf) = Ok body /\ extract_references_from_fulltext body = Ok (l :: ls, d).
Proof. eexists. eexists. eexists. eexists. split; [vm_compute; reflexivity|]. vm_compute. reflexivity. Qed.

(** The lines of a string: [joined L] is the lines with a newline between each two. *)
Theorem C67_lines : forall s L, split_lines s [] = L <-> L <> [] /\ joined L = s /\ Forall (fun l => ~ In 10%N l) L.
Proof. exact split_exact. Qed.
Print Assumptions C67_lines.
Example C67_lines_case : split_lines ([10%N] ++ py "a" ++ [13%N; 10%N]) [] = [[]; py "a" ++ [13%N]; []].
Proof. reflexivity. Qed.

(** The journal of a line is the first one of all its references, in order. *)
Theorem C67_journal : forall E K line cits m n o r, parse_reference_line E (mkctx K [] 0) None line = Ok (cits, m, n, o) -> extract_journal_reference E (Ok K) line = Ok r ->
  match r with
  | Some e => e_type e = JOURNAL /\ exists before after, List.concat cits = before ++ e :: after /\ Forall (fun x => e_type x <> JOURNAL) before
  | None => Forall (fun x => e_type x <> JOURNAL) (List.concat cits)
  end.
Proof. exact journal_spec. Qed.
Print Assumptions C67_journal.
Example C67_journal_case : exists cits m n o e, parse_reference_line demo_env (mkctx demo_kbs [] 0) None (py "A. Smith; Phys. Rev. Lett. 13 (2001) 5; Phys. Lett. A7 (2002) 8") = Ok (cits, m, n, o)
  /\ List.length (filter (is_type JOURNAL) (List.concat cits)) = 2
  /\ extract_journal_reference demo_env (Ok demo_kbs) (py "A. Smith; Phys. Rev. Lett. 13 (2001) 5; Phys. Lett. A7 (2002) 8") = Ok (Some e) /\ get Ktitle e = Some (VS (py "Phys.Rev.Lett.")).
Proof. eexists. eexists. eexists. eexists. eexists. split; [vm_compute; reflexivity|]. split; [vm_compute; reflexivity|]. split; [vm_compute; reflexivity|]. vm_compute. reflexivity. Qed.
