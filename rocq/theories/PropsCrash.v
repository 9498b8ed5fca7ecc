(** Property C15: which exceptions extraction from a text can raise. *)
From Coq Require Import List Arith NArith Bool String Lia.
From Verif Require Import PyStr ListFacts Regex RegexParse Elements Record Transform Post ParseTagged Tag RefText Kbs Engine Api Demo
  MarkerProofs ElementsOk TagOk LinesOk.
Import ListNotations.
Local Open Scope nat_scope.
Local Notation length := List.length.

(** a small knowledge base of every kind, built by the loaders *)
Definition ok_or {A} (d : A) (r : res A) : A := match r with Ok a => a | Err _ => d end.
Definition rich_reports := Eval vm_compute in
  ok_or (mkrk [] []) (build_reportnum_kb (map py ["*****CERN*****"; "<syyyys9?9?9>"; "<syys99?9?>"; "CERN TH---CERN-TH"; "CERN PPE---CERN-PPE"]%string)).
Definition rich_publishers := Eval vm_compute in ok_or [] (build_publishers_kb [(py "NORTH HOLLAND", py "North-Holland")]).
Definition rich_collabs := Eval vm_compute in ok_or [] (build_collaborations_kb [(py "CMS Collaboration", py "CMS Collaboration"); (py "Particle Data Group Collaboration", py "Particle Data Group Collaboration")]).
Definition rich_books := Eval vm_compute in
  ok_or [] (build_books_kb (map (map py) [["'t Hooft, G., (ed.)"; "Fifty years of Yang-Mills theory"; "2005;"]; ["Weinberg, S."; "Gravitation"; "1972;"]]%string)).
Definition rich_kbs (special : list str) : kbs :=
  mkkbs (build_journals_kb (map (fun e => (py (fst e), py (snd e)))
           [("PHYS LETT", "Phys.Lett."); ("NUCL PHYS", "Nucl.Phys."); ("JHEP", "JHEP"); ("IBID", "ibid")]%string))
        [(py "DAN", py "Dokl.Akad.Nauk Ser.Fiz.")] rich_reports rich_publishers [(py "Du hrssen", py "Duhrssen")] rich_collabs rich_books special.

(** ** C15 *)
(** [fit_options]: the knowledge bases are consistent ([fit_kbs]: every search phrase has a pattern and a title, patterns
    for titles are plain words, a report number pattern always has its numeration, a collaboration pattern its
    first group, a book has three columns and a title with a letter or digit), the author patterns have their groups,
    a linker raises IndexError or KeyError only and the format names fields of a journal *)
Theorem C15_exceptions : forall O only source, fit_options O -> Forall short (split_lines source []) ->
  match extract_references_from_string O only source with Ok _ => True | Err e => e = IndexError \/ e = ValueError end.
Proof.
  intros O only source F S. assert (good [IndexError; ValueError] (fun _ => True) (extract_references_from_string O only source)) as G.
  { apply string_good; auto; [now left|]. intros K _. right. cbn; auto. }
  destruct (extract_references_from_string O only source); auto. cbn in G. intuition congruence.
Qed.
Print Assumptions C15_exceptions.
(** ValueError comes from the special journals only *)
Theorem C15_exceptions_no_special : forall O only source, fit_options O -> Forall short (split_lines source []) ->
  (forall K, o_kbs O = Ok K -> k_special K = []) ->
  match extract_references_from_string O only source with Ok _ => True | Err e => e = IndexError end.
Proof.
  intros O only source F S Sp. assert (good [IndexError] (fun _ => True) (extract_references_from_string O only source)) as G.
  { apply string_good; auto. now left. }
  destruct (extract_references_from_string O only source); auto. cbn in G. intuition congruence.
Qed.
Print Assumptions C15_exceptions_no_special.
Theorem C15_journal_exceptions : forall E K line, fit_env E = true -> fit_kbs K = true ->
  match extract_journal_reference E (Ok K) line with Ok _ => True | Err e => e = IndexError \/ e = ValueError end.
Proof.
  intros E K line F Fk. assert (good [IndexError; ValueError] (fun _ => True) (extract_journal_reference E (Ok K) line)) as G.
  { apply journal_good; auto; [now left|]. right. cbn; auto. }
  destruct (extract_journal_reference E (Ok K) line); auto. cbn in G. intuition congruence.
Qed.
Print Assumptions C15_journal_exceptions.
Definition rich_linker : callback := fun n e => match e_type e with JOURNAL => Ok (VLink true (py "1")) | REPORTNUMBER => Err IndexError | _ => Err KeyError end.
Definition rich_options (special : list str) := mkopt demo_env (Ok (rich_kbs special)) (Some rich_linker) default_format.
Definition rich_text : str :=
  py "[1] A. Smith, CMS Collaboration, Phys. Lett. B12 (1999) 34, CERN-TH/98-12, http://a.b/c; ibid. 13 (2000) 5" ++ [10%N]
  ++ py "[2] G. 't Hooft, ""Fifty years of Yang-Mills theory"", North Holland 2005; JHEP 0512 (2005) 7 <cds.VOL>".
Example C15_case : fit_options (rich_options [py "JHEP"]) /\ Forall short (split_lines rich_text [])
  /\ exists refs, extract_references_from_string (rich_options [py "JHEP"]) true rich_text = Ok refs /\ length refs = 4.
Proof.
  split; [|split].
  - exists (rich_kbs [py "JHEP"]). split; [reflexivity|]. split; [vm_compute; reflexivity|]. split; [vm_compute; reflexivity|]. split; [|vm_compute; reflexivity].
    intros f [= <-] n e. unfold rich_linker. destruct (e_type e); exact I.
  - repeat constructor; unfold short; vm_compute; discriminate.
  - eexists. split; vm_compute; reflexivity.
Qed.

(** *** Each exception and each condition is needed *)
(** ValueError: digits that are no decimal digits as the page of a special journal *)
Theorem C15_value_error_refuted :
  extract_references_from_string (mkopt plain_env (Ok (rich_kbs [py "Phys.Lett."])) None default_format) true
    (py "[1] <cds.JOURNAL>Phys.Lett.</cds.JOURNAL> <cds.VOL>B12</cds.VOL> <cds.YR>(1999)</cds.YR> <cds.PG>" ++ [178%N] ++ py "</cds.PG>") = Err ValueError.
Proof. vm_compute. reflexivity. Qed.
Print Assumptions C15_value_error_refuted.
(** a row of two columns, as the shipped books.kb has on 13 lines: a reference to this book raises IndexError *)
Definition short_row : list str :=
  [py "Blaha, S."; py "Quantum theory of the third kind: A new type of divergence-free quantum field theory supporting a unified standard model of elementary particles and quantum gravity based on a new method in the calculus of"].
Definition kbs_with_books (rows : list (list str)) : kbs :=
  mkkbs (k_journals demo_kbs) [] (mkrk [] []) [] [] [] (ok_or [] (build_books_kb rows)) [].
Theorem C15_shipped_books_refuted :
  extract_references_from_string (mkopt plain_env (Ok (kbs_with_books [short_row])) None default_format) true
    (py "[1] S. Blaha, Quantum theory of the third kind: A new type of divergence-free quantum field theory supporting a unified standard model of elementary particles and quantum gravity based on a new method in the calculus of variations, 2005") = Err IndexError.
Proof. vm_compute. reflexivity. Qed.
Print Assumptions C15_shipped_books_refuted.
(** a pattern for titles that is no plain word *)
Theorem C15_title_pattern_refuted :
  extract_references_from_string
    (mkopt plain_env (Ok (mkkbs (k_journals demo_kbs) [(py "DAN[0-9]", py "Dokl.Akad.Nauk")] (mkrk [] []) [] [] [] [] [])) None default_format) true
    (py "[1] DAN5 12 (2000) 34") = Err KeyError.
Proof. vm_compute. reflexivity. Qed.
Print Assumptions C15_title_pattern_refuted.
