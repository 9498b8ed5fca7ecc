(** C15, C52: a text without "<" raises no IndexError. *)
From Coq Require Import List Arith NArith Bool String Lia.
From Verif Require Import PyStr ListFacts Regex RegexParse AuthorPatterns Elements Record Transform Post ParseTagged Tag RefText Kbs Engine Api Demo
  MarkerProofs ElementsOk TagOk LinesOk BookProofs KbFit TagRebuild LateNames LateLine TagLine PlainText PlainKbs PropsCrash PropsShipped.
Import ListNotations.
Local Open Scope nat_scope.
Local Notation length := List.length.

(** ** C15 *)
(** [plain_options O P]: unidecode works character by character and leaves ASCII alone; P is a set of characters with all of
    ASCII, closed under taking capitals, and no other character than "<" in it is written as a text with "<" by unidecode
    ([writing]); replace_undesirable_characters brings in characters of P only and no "<" ([replaces_plainly]); the author expression does not
    take up tags as names and the year is at most 2100 ([sound_env]); no title, publisher or standard report number of the knowledge
    bases has a "<" and no correction of a name begins or ends a tag ([plain_kbs]), and all of them are written in P ([written]). *)
Theorem C15_no_index_error : forall O P only source, fit_options O -> plain_options O P -> Forall short (split_lines source []) ->
  Forall P source -> ~ In 60%N source ->
  match extract_references_from_string O only source with Ok _ => True | Err e => e = ValueError end.
Proof.
  intros O P only source F Pl S A N. assert (good [ValueError] (fun _ => True) (extract_references_from_string O only source)) as G.
  { apply (string_plain [ValueError] O P); auto. intros K _. right. cbn; auto. }
  destruct (extract_references_from_string O only source); auto. cbn in G. intuition congruence.
Qed.
Print Assumptions C15_no_index_error.
(** and without special journals nothing is raised at all *)
Theorem C15_no_exception : forall O P only source, fit_options O -> plain_options O P -> Forall short (split_lines source []) ->
  Forall P source -> ~ In 60%N source -> (forall K, o_kbs O = Ok K -> k_special K = []) ->
  exists refs, extract_references_from_string O only source = Ok refs.
Proof.
  intros O P only source F Pl S A N Sp. assert (good [] (fun _ => True) (extract_references_from_string O only source)) as G.
  { apply (string_plain [] O P); auto. }
  destruct (extract_references_from_string O only source); [eauto|destruct G].
Qed.
Print Assumptions C15_no_exception.
Theorem C15_journal_no_exception : forall E P K line, fit_env E = true -> fit_kbs K = true -> writing E P -> sound_env E = true -> plain_kbs K = true -> written P K ->
  Forall P line -> ~ In 60%N line -> k_special K = [] -> exists r, extract_journal_reference E (Ok K) line = Ok r.
Proof.
  intros E P K line Fe Fk Wr Se Pk Wn A N Sp. pose proof (journal_plain [] E P K line (or_introl Sp) Fe Fk Wr Se Pk Wn A N) as G.
  destruct (extract_journal_reference E (Ok K) line); [eauto|destruct G].
Qed.
Print Assumptions C15_journal_no_exception.
(** a table as unidecode has: guillemets, a diaeresis that stands alone, some letters *)
Definition table (c : N) : str :=
  if N.eqb c 171 then py "<<" else if N.eqb c 187 then py ">>" else if N.eqb c 252 then py "u" else if N.eqb c 220 then py "U" else if N.eqb c 776 then [] else [c].
Definition table_env : env := mkenv (flat_map table) (fun s => s) re_auth_real re_auth_near_miss_real 2026 (filter (fun c => negb (N.eqb c 160))).
Definition letters_of (c : N) : Prop := (c < 128)%N \/ In c [252; 220; 776]%N.
Definition table_options (special : list str) := mkopt table_env (Ok (rich_kbs special)) (Some rich_linker) default_format.
Definition table_text : str :=
  py "[1] J. M" ++ [252%N] ++ py "ller, CMS Collaboration, Phys. Lett. B12 (1999) 34, CERN-TH/98-12, http://a.b/c; doi:10.1000/182" ++ [10%N]
  ++ py "[2] J. Mu" ++ [776%N] ++ py "ller, ""Fifty years of Yang-Mills theory"", North Holland 2005; JHEP 0512 (2005) 7 > 3".
Lemma table_writing : writing table_env letters_of.
Proof.
  assert (forall c, (c < 128)%N -> table c = [c]) as A.
  { intros c L. unfold table. repeat (match goal with |- context [N.eqb c ?k] => destruct (N.eqb_spec c k); [lia|] end). reflexivity. }
  constructor.
  - exists table. split; [split; [reflexivity|exact A]|]. intros c [L|I]; [now left|]. right. cbn in I. destruct I as [<-|[<-|[<-|[]]]]; vm_compute; intuition discriminate.
  - intros c L. now left.
  - intros c [L|I].
    + apply Forall_forall. intros d J. left. unfold upper_ch in J. apply N.ltb_lt in L as L'. rewrite L' in J. destruct (is_lower_ascii c); destruct J as [<-|[]]; lia.
    + cbn in I. destruct I as [<-|[<-|[<-|[]]]]; vm_compute; (constructor; [right; cbn; tauto|constructor]).
Qed.
Example C15_plain_case : fit_options (table_options [py "JHEP"]) /\ plain_options (table_options [py "JHEP"]) letters_of /\ Forall short (split_lines table_text []) /\ Forall letters_of table_text /\ ~ In 60%N table_text
  /\ exists refs, extract_references_from_string (table_options [py "JHEP"]) true table_text = Ok refs /\ length refs = 4.
Proof.
  split; [|split; [|split; [repeat constructor; unfold short; vm_compute; discriminate|split; [|split; [vm_compute; intuition discriminate|]]]]].
  - exists (rich_kbs [py "JHEP"]). split; [reflexivity|]. split; [vm_compute; reflexivity|]. split; [vm_compute; reflexivity|]. split; [|vm_compute; reflexivity].
    intros f [= <-]. intros n e. unfold rich_linker. destruct (e_type e); cbn; auto.
  - split; [exact table_writing|]. split.
    { intros s c I. cbn in I. apply filter_In in I as [I _]. now left. }
    split; [vm_compute; reflexivity|]. intros K [= <-]. split; [vm_compute; reflexivity|].
    assert (forall s, forallb (fun c => (c <? 128)%N) s = true -> Forall letters_of s) as L by (intros s H; rewrite forallb_forall in H; apply Forall_forall; intros c I; left; now apply N.ltb_lt, H).
    constructor.
    + intros k t I. apply L. assert (forallb (fun e : str * str => forallb (fun c => (c <? 128)%N) (snd e)) (jk_std (k_journals (rich_kbs []))) = true) as H by (vm_compute; reflexivity). rewrite forallb_forall in H. exact (H _ I).
    + intros k t I. apply L. assert (forallb (fun e : str * str => forallb (fun c => (c <? 128)%N) (snd e)) (k_journals_re (rich_kbs [])) = true) as H by (vm_compute; reflexivity). rewrite forallb_forall in H. exact (H _ I).
    + intros k p t I. apply L. assert (forallb (fun e : str * (rx * str) => forallb (fun c => (c <? 128)%N) (snd (snd e))) (k_publishers (rich_kbs [])) = true) as H by (vm_compute; reflexivity). rewrite forallb_forall in H. exact (H _ I).
    + intros k t I. apply L. assert (forallb (fun e : repkey * str => forallb (fun c => (c <? 128)%N) (snd e)) (rk_std (k_reports (rich_kbs []))) = true) as H by (vm_compute; reflexivity). rewrite forallb_forall in H. exact (H _ I).
    + intros k t I. apply L. assert (forallb (fun e : str * str => forallb (fun c => (c <? 128)%N) (snd e)) (k_authors (rich_kbs [])) = true) as H by (vm_compute; reflexivity). rewrite forallb_forall in H. exact (H _ I).
  - assert (forallb (fun c => (c <? 128)%N || mem_ch c [252; 220; 776]%N) table_text = true) as H by (vm_compute; reflexivity). rewrite forallb_forall in H. apply Forall_forall. intros c I. specialize (H c I).
    apply orb_true_iff in H as [H|H]; [left; now apply N.ltb_lt|right]. now apply mem_ch_in.
  - eexists. split; vm_compute; reflexivity.
Qed.
(** One expects that a text without "<" cannot look like the internal tags.  It can: unidecode writes a left guillemet as "<<", and the
    line in ASCII is taken when more authors are found in it. *)
Theorem C15_guillemet_refuted : exists O source, fit_options O /\ (forall K, o_kbs O = Ok K -> k_special K = []) /\ Forall short (split_lines source []) /\ ~ In 60%N source
  /\ (forall s, unidecode (o_env O) s = flat_map table s) /\ extract_references_from_string O true source = Err IndexError.
Proof.
  exists (table_options []), (py "[1] J. Mu" ++ [776%N] ++ py "ller, Phys. Lett. B12 (1999) 34, " ++ [171%N] ++ py "cds.URL />").
  split; [|split; [intros K [= <-]; reflexivity|split; [repeat constructor; unfold short; vm_compute; discriminate|split; [vm_compute; intuition discriminate|split; [reflexivity|vm_compute; reflexivity]]]]].
  exists (rich_kbs []). split; [reflexivity|]. split; [vm_compute; reflexivity|]. split; [vm_compute; reflexivity|]. split; [|vm_compute; reflexivity].
  intros f [= <-]. intros n e. unfold rich_linker. destruct (e_type e); cbn; auto.
Qed.
Print Assumptions C15_guillemet_refuted.

(** ** C52 *)
(** with the shipped tables, any table of journals without "<" and any table of books with full rows, a text without "<" raises nothing
    but ValueError *)
Theorem C52_no_index_error : forall E P cb format journals rows books only source,
  fit_env E = true -> sound_env E = true -> writing E P -> replaces_plainly E P -> P 252%N -> (forall f, cb = Some f -> fit_callback f) -> fit_format format = true ->
  (forall row, In row journals -> Forall P (snd row) /\ ~ In 60%N (snd row)) ->
  Forall full_row rows -> build_books_kb rows = Ok books -> Forall short (split_lines source []) -> Forall P source -> ~ In 60%N source ->
  match extract_references_from_string (mkopt E (Ok (shipped_with journals books)) cb format) only source with Ok _ => True | Err e => e = ValueError end.
Proof. exact shipped_no_index. Qed.
Print Assumptions C52_no_index_error.
Example C52_plain_case : fit_env table_env = true /\ sound_env table_env = true /\ writing table_env letters_of /\ replaces_plainly table_env letters_of /\ letters_of 252%N
  /\ Forall letters_of c52_text /\ ~ In 60%N c52_text.
Proof.
  split; [vm_compute; reflexivity|]. split; [vm_compute; reflexivity|]. split; [exact table_writing|]. split; [intros s c I; cbn in I; apply filter_In in I as [I _]; now left|]. split; [right; cbn; tauto|].
  split; [|vm_compute; intuition discriminate]. assert (forallb (fun c => (c <? 128)%N) c52_text = true) as H by (vm_compute; reflexivity). rewrite forallb_forall in H. apply Forall_forall. intros c I. left. now apply N.ltb_lt, H.
Qed.
