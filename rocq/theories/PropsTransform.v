(** Properties C08-C10 and C41: volumes, pages and report numbers. *)
From Coq Require Import List Arith NArith ZArith Bool String Permutation.
From Verif Require Import PyStr ListFacts Elements Transform NumberFacts SplitProofs PostProofs TransformProofs NormalProofs EdProofs.
Import ListNotations.
Local Open Scope nat_scope.
Local Notation length := List.length.

Definition jr (title volume year page : string) : el :=
  set_str Ktitle (py title) (set_str Kvolume (py volume) (set_str Kyear (py year) (set_str Kpage (py page) (mkel JOURNAL [] [])))).
Definition field (k : key) (r : res (list el)) : res (list (option val)) :=
  match r with Ok l => Ok (map (get k) l) | Err x => Err x end.

(** ** C08 *)
(** format_volume succeeds on elements that have volumes and does this to each: a volume
    made of the letters I, V, X in either case becomes the decimal numeral of the sum of
    its letters, less two for each I directly before V or X; other volumes stay.  (The
    middle case of [roman_step]: the pattern also accepts a line feed after the letters.) *)
Theorem C08_volumes : forall l, Forall (journal_with [Kvolume]) l ->
  exists l', format_volume l = Ok l' /\ Forall2 roman_step l l'.
Proof. exact format_volume_spec. Qed.
Print Assumptions C08_volumes.
Example C08_case : Forall (journal_with [Kvolume]) [jr "Phys.Rev." "xliV" "1999" "12"; jr "Phys.Rev." "xxxiV" "1999" "12"; jr "Phys.Rev." "C" "" ""]
  /\ field Kvolume (format_volume [jr "Phys.Rev." "xliV" "1999" "12"; jr "Phys.Rev." "xxxiV" "1999" "12"; jr "Phys.Rev." "C" "" ""])
     = Ok [Some (VS (py "xliV")); Some (VS (py "34")); Some (VS (py "C"))].
Proof.
  split; [|reflexivity]. repeat constructor; intros _ k [<-|[]]; eexists; reflexivity.
Qed.

(** the numeral written is that of the number: [str_of_N] *)
Theorem C08_numeral : forall n, digits_value 0 (str_of_N n) = Some n /\ forallb is_ascii_digit (str_of_N n) = true
  /\ forall c t, str_of_N n = c :: t -> n <> 0%N -> c <> 48%N.
Proof. intros n. split; [apply str_of_N_value|]. split; [apply str_of_N_ascii|apply str_of_N_hd]. Qed.
Print Assumptions C08_numeral.

(** on canonical numerals, tens before units, in any case of the letters, the number is
    the one written *)
Theorem C08_canonical : forall n, 0 < n -> forall v e, any_case v (to_roman n) -> e_type e = JOURNAL -> get Kvolume e = Some (VS v) ->
  exists e', format_volume_el e = Ok e' /\ get Kvolume e' = Some (VS (str_of_N (N.of_nat n))).
Proof. exact to_roman_step. Qed.
Print Assumptions C08_canonical.
Example C08_canonical_case : map to_roman [1; 4; 9; 14; 19; 39] = map py ["I"; "IV"; "IX"; "XIV"; "XIX"; "XXXIX"]%string
  /\ any_case (py "xXxIx") (to_roman 39).
Proof. split; [reflexivity|]. repeat (constructor; [first [now left|now right]|]). constructor. Qed.

(** the usual rule, in which a smaller letter before a larger one is subtracted, is not
    the one implemented: V before X counts as 5 more *)
Fixpoint usual_value (s : str) : Z :=
  match s with
  | [] => 0
  | c :: t => (match t with d :: _ => if (letter_value c <? letter_value d)%N then - Z.of_N (letter_value c) else Z.of_N (letter_value c)
               | [] => Z.of_N (letter_value c) end + usual_value t)%Z
  end.
Theorem C08_usual_rule_refuted : exists v, is_roman v /\ forall e, e_type e = JOURNAL -> get Kvolume e = Some (VS v) ->
  forall e' n, format_volume_el e = Ok e' -> get Kvolume e' = Some (VS (str_of_N n)) -> Z.of_N n <> usual_value v.
Proof.
  exists (py "VX"). split; [split; [discriminate|repeat constructor; discriminate]|]. intros e T G e' n F W.
  unfold format_volume_el in F. apply is_type_true in T. rewrite T, (get_str_ok _ _ _ G) in F. cbn in F. inversion F; subst.
  fold (set_str Kvolume [49%N; 53%N] e) in W. rewrite get_set_str in W. inversion W as [W'].
  pose proof (str_of_N_value n) as V. rewrite <- W' in V. cbn in V. inversion V. discriminate.
Qed.
Print Assumptions C08_usual_rule_refuted.

(** ** C09 *)
(** handle_special_journals, for all elements whose page int() accepts whenever isdigit()
    does: see [special_step] for what happens to each element. *)
Theorem C09_special_journals : forall special l, Forall (journal_with [Ktitle; Kvolume; Kyear; Kpage]) l -> Forall page_ok l ->
  exists l', handle_special_journals special l = Ok l' /\ Forall2 (special_step special) l l'.
Proof. exact handle_special_spec. Qed.
Print Assumptions C09_special_journals.
Definition c09_elements := [jr "JHEP" "3" "2005" "7"; jr "JHEP" "0503" "2005" "1234"; jr "Phys.Rev." "3" "2005" "7"; jr "JHEP" "3" "" "1998"].
Example C09_case : Forall (journal_with [Ktitle; Kvolume; Kyear; Kpage]) c09_elements /\ Forall page_ok c09_elements
  /\ field Kvolume (handle_special_journals [py "JHEP"] c09_elements) = Ok (map (fun s => Some (VS (py s))) ["0503"; "0503"; "3"; "03"]%string)
  /\ field Kpage (handle_special_journals [py "JHEP"] c09_elements) = Ok (map (fun s => Some (VS (py s))) ["007"; "1234"; "7"; "1998"]%string).
Proof.
  split; [repeat constructor; intros _ k K; cbn in K; repeat (destruct K as [<-|K]; [eexists; reflexivity|]); contradiction|].
  split; [|split; reflexivity].
  repeat (apply Forall_cons; [intros p G D; vm_compute in G; inversion G; subst; split; [reflexivity|vm_compute; discriminate]|]). constructor.
Qed.

(** "the step never raises" is false: a page for which isdigit() holds and int() does
    not work ends the extraction with a ValueError, *)
Theorem C09_raises : forall special e t p, e_type e = JOURNAL -> journal_with [Ktitle; Kvolume; Kyear; Kpage] e -> get Ktitle e = Some (VS t) -> In t special ->
  get Kpage e = Some (VS p) -> isdigit p = true -> forallb is_digit p = false \/ (int_max_str_digits < N.of_nat (length p))%N ->
  forall l1 l2, Forall (journal_with [Ktitle; Kvolume; Kyear; Kpage]) l1 -> Forall page_ok l1 -> handle_special_journals special (l1 ++ e :: l2) = Err ValueError.
Proof. exact handle_special_fails. Qed.
Print Assumptions C09_raises.
(** and there is such a page: superscript two *)
Theorem C09_never_raises_refuted : exists special l, Forall (journal_with [Ktitle; Kvolume; Kyear; Kpage]) l
  /\ handle_special_journals special l = Err ValueError.
Proof.
  exists [py "JHEP"], [jr "JHEP" "3" "2005" "²12"]. split; [|reflexivity].
  repeat constructor; intros _ k K; cbn in K; repeat (destruct K as [<-|K]; [eexists; reflexivity|]); contradiction.
Qed.
Print Assumptions C09_never_raises_refuted.
(** the text collected so far is lost when the page looks like a year *)
Theorem C09_text_kept_refuted : exists special e e', e_misc e <> [] /\ handle_special_journals_el special e = Ok e'
  /\ ~ exists a b, e_misc e' = a ++ e_misc e ++ b.
Proof.
  exists [py "JHEP"], (set_misc (py "see") (jr "JHEP" "3" "" "1998")), (set_str Kpage (py "1998") (set_str Kvolume (py "03") (set_misc (py "JHEP,3,1998") (set_type MISC (jr "JHEP" "3" "" "1998"))))).
  split; [discriminate|]. split; [reflexivity|]. intros (a & b & E). 
  assert (In 115%N (py "JHEP,3,1998")) as I by (change (py "JHEP,3,1998" = a ++ py "see" ++ b) in E; rewrite E; apply in_app_iff; right; left; reflexivity).
  cbn in I. repeat (destruct I as [I|I]; [discriminate|]). contradiction.
Qed.
Print Assumptions C09_text_kept_refuted.

(** ** C10 *)
(** mangle_volume puts the letter after the leading digits in front of them and drops what
    follows the letter; other volumes stay *)
Theorem C10_series_letter : forall l, Forall (journal_with [Kvolume]) l ->
  exists l', mangle_volume l = Ok l' /\ Forall2 letter_step l l'.
Proof. exact mangle_volume_spec. Qed.
Print Assumptions C10_series_letter.
Example C10_case : field Kvolume (mangle_volume [jr "Phys.Rev." "100B" "" ""; jr "Phys.Rev." "B100" "" ""; jr "Phys.Rev." "12" "" ""])
  = Ok (map (fun s => Some (VS (py s))) ["B100"; "B100"; "12"]%string).
Proof. reflexivity. Qed.
(** so the characters are kept when nothing follows the letter *)
Theorem C10_rearranged : forall e e' v, letter_step e e' -> get Kvolume e = Some (VS v) ->
  (forall ds l r rest, v = ds ++ l :: r :: rest -> digits ds -> ~ series_letter l) ->
  exists v', get Kvolume e' = Some (VS v') /\ Permutation v v'.
Proof.
  intros e e' v [(ds & l & rest & T & G & D & L & G' & _)|(_ & ->)] Gv H.
  - assert (v = ds ++ l :: rest) as -> by congruence. destruct rest as [|r rest].
    + exists (l :: ds). split; auto. apply Permutation_sym, Permutation_cons_append.
    + exfalso. eapply H; eauto.
  - exists v. split; auto.
Qed.
Print Assumptions C10_rearranged.
(** but not in general: the second number of a double volume is lost *)
Theorem C10_rearrangement_refuted : exists e e' v v', get Kvolume e = Some (VS v) /\ mangle_volume_el e = Ok e' /\ get Kvolume e' = Some (VS v')
  /\ ~ Permutation v v'.
Proof.
  exists (jr "Nucl.Phys." "100B-200" "" ""), (set_str Kvolume (py "B100") (jr "Nucl.Phys." "100B-200" "" "")), (py "100B-200"), (py "B100").
  split; [reflexivity|]. split; [reflexivity|]. split; [reflexivity|]. intros P. apply Permutation_length in P. discriminate.
Qed.
Print Assumptions C10_rearrangement_refuted.
(** split_volume_from_journal moves the part of the title after the last semicolon in front
    of the volume; only the semicolon disappears *)
Theorem C10_series_from_title : forall l, Forall (journal_with [Ktitle; Kvolume]) l ->
  exists l', split_volume_from_journal l = Ok l' /\ Forall2 series_step l l'.
Proof. exact split_volume_spec. Qed.
Print Assumptions C10_series_from_title.
Example C10_series_case : field Kvolume (split_volume_from_journal [jr "Phys.Rev.;D" "45" "" ""; jr "Phys.Rev." "45" "" ""])
  = Ok (map (fun s => Some (VS (py s))) ["D45"; "45"]%string).
Proof. reflexivity. Qed.
(** remove_b_for_nucl_phys drops one B or b at the start of the volume, only for the
    supplements of Nuclear Physics *)
Theorem C10_remove_b : forall l, Forall (journal_with [Ktitle; Kvolume]) l ->
  exists l', remove_b_for_nucl_phys l = Ok l' /\ Forall2 remove_b_step l l'.
Proof. exact remove_b_spec. Qed.
Print Assumptions C10_remove_b.
Example C10_remove_b_case : field Kvolume (remove_b_for_nucl_phys [jr "Nucl.Phys.Proc.Suppl." "B100" "" ""; jr "Nucl.Phys." "B100" "" ""])
  = Ok (map (fun s => Some (VS (py s))) ["100"; "B100"]%string).
Proof. reflexivity. Qed.

(** ** C41 *)
Definition rn (s : string) : el := set_str Kreport_num (py s) (mkel REPORTNUMBER [] []).
(** format_report_number only inserts a dash after the letters of a report number *)
Theorem C41_dash : forall l, Forall has_report l -> exists l', format_report_number l = Ok l' /\ Forall2 report_step l l'.
Proof. exact format_report_spec. Qed.
Print Assumptions C41_dash.
Example C41_dash_case : field Kreport_num (format_report_number [rn "CERN-LHCC2003-01"; rn "CERN-LHCC-2003-01"; rn "CERN-TH"])
  = Ok (map (fun s => Some (VS (py s))) ["CERN-LHCC-2003-01"; "CERN-LHCC-2003-01"; "CERN-TH"]%string).
Proof. reflexivity. Qed.
(** format_hep only replaces the dash after an archive name by a slash *)
Theorem C41_archive : forall l, Forall has_report l -> exists l', format_hep l = Ok l' /\ Forall2 hep_el_step l l'.
Proof. exact format_hep_spec. Qed.
Print Assumptions C41_archive.
Example C41_archive_case : field Kreport_num (format_hep [rn "hep-th-9711200"; rn "hep-th/9711200"; rn "math-ph-0101001"])
  = Ok (map (fun s => Some (VS (py s))) ["hep-th/9711200"; "hep-th/9711200"; "math-ph/0101001"]%string).
Proof. reflexivity. Qed.
(** doing it again changes nothing *)
Theorem C41_archive_idempotent : forall s s' s'', hep_value s s' -> hep_value s' s'' -> s'' = s'.
Proof.
  intros s s' s'' [(c & n & I & -> & ->)|(N & ->)] [(c' & n' & I' & E & ->)|(_ & ->)]; auto.
  - exfalso. unfold hep_categories in I, I'. cbn [map In] in I, I'.
    repeat (destruct I as [<-|I]; [repeat (destruct I' as [<-|I']; [discriminate|]); contradiction|]). contradiction.
  - exfalso. eapply N; eauto.
Qed.
Print Assumptions C41_archive_idempotent.
(** format_author_ed only takes the blank out of every "(ed. )" and "(eds. )" of the authors; [tight] is that relation, and it
    determines its result *)
Theorem C41_editors : forall l, Forall has_author l -> exists l', format_author_ed l = Ok l' /\ Forall2 ed_step l l'.
Proof. exact format_ed_spec. Qed.
Print Assumptions C41_editors.
Theorem C41_editors_once : forall s a b, tight s a -> tight s b -> b = a.
Proof. intros s a b A B. exact (tight_fun s a A b B). Qed.
Print Assumptions C41_editors_once.
Definition au (s : string) : el := set_str Kauth_txt (py s) (mkel AUTH [] []).
Example C41_editors_case : field Kauth_txt (format_author_ed [au "A. Smith (ed. ), B. Jones (ed. )"; au "C. Brown (eds. )"; au "D. Green (ed.)"])
  = Ok (map (fun s => Some (VS (py s))) ["A. Smith (ed.), B. Jones (ed.)"; "C. Brown (eds.)"; "D. Green (ed.)"]%string).
Proof. reflexivity. Qed.
