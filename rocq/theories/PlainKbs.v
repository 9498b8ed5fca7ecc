(** The shipped tables in texts without "<". *)
From Coq Require Import List Arith NArith Bool String Lia.
From Verif Require Import PyStr ListFacts Regex RegexParse Elements Record Numeration Transform Post Tag RefText MarkerProofs Kbs Engine Api ElementsOk TagOk LinesOk BookProofs ShippedReports ShippedKbs KbFit
  TagRebuild LateNames LateLine Chars TagLine PlainText.
Import ListNotations.
Local Open Scope nat_scope.
Local Notation length := List.length.

(** ** Every title of a table of journals is a title of its rows *)
Lemma distinct_in x l : forall seen, In x (distinct seen l) -> In x l.
Proof. induction l as [|y l IH]; intros seen; cbn [distinct]; auto. destruct (mem_str y seen); cbn [In]; intros I; [right; eauto|]. destruct I as [I|I]; eauto. Qed.
Lemma titles_from_rows rows k t : In (k, t) (jk_std (build_journals_kb rows)) -> In t (map snd rows).
Proof.
  unfold build_journals_kb. cbn [jk_std].
  assert (forall l b, (forall r, In r l -> In (snd r) (map snd rows)) -> (forall e, In e (jb_std b) -> In (snd e) (map snd rows)) -> forall e, In e (jb_std (fold_left add_seek l b)) -> In (snd e) (map snd rows)) as A.
  { induction l as [|r l IH]; intros b L B; cbn [fold_left]; auto. apply IH; [intros; apply L; now right|]. intros e I. cbn [add_seek jb_std] in I. apply KbFit.sput_in in I as [->|I]; auto. exact (L r (or_introl eq_refl)). }
  assert (forall l b, (forall x, In x l -> In x (map snd rows)) -> (forall e, In e (jb_std b) -> In (snd e) (map snd rows)) -> forall e, In e (jb_std (fold_left add_repl l b)) -> In (snd e) (map snd rows)) as B.
  { induction l as [|r l IH]; intros b L B; cbn [fold_left]; auto. apply IH; [intros; apply L; now right|]. intros e I. unfold add_repl in I. destruct (assoc_str _ _); auto. cbn [jb_std] in I. apply KbFit.sput_in in I as [->|I]; auto. exact (L r (or_introl eq_refl)). }
  intros I. refine (B _ _ _ _ (k, t) I); [intros x J; eapply distinct_in; eauto|]. apply A; [intros; now apply in_map|]. cbn. tauto.
Qed.
(** ** The shipped tables *)
Definition ascii (s : str) : bool := forallb (fun c => (c <? 128)%N) s.
(** "Dührssen" is the only name that is corrected to one with a letter outside ASCII *)
Definition shipped_char (c : N) : bool := (c <? 128)%N || N.eqb c 252.
Lemma shipped_written (P : N -> Prop) journals books : (forall c, (c < 128)%N -> P c) -> P 252%N -> (forall row, In row journals -> Forall P (snd row)) -> written P (shipped_with journals books).
Proof.
  intros Pa Pu J. assert (forall s, forallb shipped_char s = true -> Forall P s) as L.
  { intros s H. rewrite forallb_forall in H. apply Forall_forall. intros c I. specialize (H c I). apply orb_true_iff in H as [H|H]; [apply Pa; now apply N.ltb_lt|]. apply N.eqb_eq in H. now subst. }
  constructor; unfold shipped_with; cbn [k_journals k_journals_re k_reports k_publishers k_authors].
  - intros k t I. apply titles_from_rows in I. apply in_map_iff in I as (r & <- & I). auto.
  - intros k t I. apply L. assert (forallb (fun e : str * str => forallb shipped_char (snd e)) shipped_re_kb = true) as F by (vm_compute; reflexivity). rewrite forallb_forall in F. exact (F _ I).
  - intros k p t I. apply L. assert (forallb (fun e : str * (rx * str) => forallb shipped_char (snd (snd e))) shipped_publishers_kb = true) as F by (vm_compute; reflexivity). rewrite forallb_forall in F. exact (F _ I).
  - intros k t I. apply L. assert (forallb (fun e : repkey * str => forallb shipped_char (snd e)) (rk_std shipped_reports_kb) = true) as F by (vm_compute; reflexivity). rewrite forallb_forall in F. exact (F _ I).
  - intros a b I. apply L. assert (forallb (fun e : str * str => forallb shipped_char (snd e)) shipped_authors_kb = true) as F by (vm_compute; reflexivity). rewrite forallb_forall in F. exact (F _ I).
Qed.
Lemma shipped_plain journals books : (forall row, In row journals -> ~ In 60%N (snd row)) -> plain_kbs (shipped_with journals books) = true.
Proof.
  intros J. unfold plain_kbs, shipped_with. cbn [k_journals k_journals_re k_reports k_publishers k_authors k_collabs].
  assert (forallb (fun e => no_lt (snd e)) (jk_std (build_journals_kb journals)) = true) as ->.
  { apply forallb_forall. intros (k, t) I. apply titles_from_rows in I. apply in_map_iff in I as (r & <- & I). apply mem_lt. exact (J r I). }
  assert (forallb (fun e => no_lt (snd e)) shipped_re_kb = true) as -> by (vm_compute; reflexivity).
  assert (forallb (fun e => no_lt (snd (snd e))) shipped_publishers_kb = true) as -> by (vm_compute; reflexivity).
  assert (clean_reports shipped_reports_kb = true) as -> by (vm_compute; reflexivity).
  assert (clean_names 85 shipped_authors_kb = true) as -> by (vm_compute; reflexivity).
  assert (clean_names 68 shipped_authors_kb = true) as -> by (vm_compute; reflexivity).
  assert (clean_collabs shipped_collabs_kb = true) as -> by (vm_compute; reflexivity). reflexivity.
Qed.
Lemma shipped_no_index E P cb format journals rows books only source :
  fit_env E = true -> sound_env E = true -> writing E P -> replaces_plainly E P -> P 252%N -> (forall f, cb = Some f -> fit_callback f) -> fit_format format = true ->
  (forall row, In row journals -> Forall P (snd row) /\ ~ In 60%N (snd row)) ->
  Forall full_row rows -> build_books_kb rows = Ok books -> Forall short (split_lines source []) -> Forall P source -> ~ In 60%N source ->
  match extract_references_from_string (mkopt E (Ok (shipped_with journals books)) cb format) only source with Ok _ => True | Err e => e = ValueError end.
Proof.
  intros Fe Se Wr Up Pu Fc Ff J R B S A N. set (O := mkopt _ _ _ _). assert (good [ValueError] (fun _ => True) (extract_references_from_string O only source)) as G.
  { apply (string_plain [ValueError] O P); auto; [intros K _; right; cbn; auto| |].
    - exists (shipped_with journals books). split; [reflexivity|]. split; auto. split; [apply shipped_fit; eapply books_fit; eauto|]. auto.
    - split; [exact Wr|]. split; [exact Up|]. split; [exact Se|]. intros K [= <-]. split; [apply shipped_plain; intros; now apply J|]. apply shipped_written; [apply (wr_ascii _ _ Wr)|exact Pu|]. intros. now apply J. }
  destruct (extract_references_from_string O only source); auto. cbn in G. intuition congruence.
Qed.
