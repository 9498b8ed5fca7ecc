(** What parsing lines of references can raise, when the knowledge bases fit together. *)
From Coq Require Import List Arith NArith Bool String Lia.
From Verif Require Import PyStr ListFacts Regex RegexMeta Elements Record Transform Split Post ParseTagged DocText Tag Find RefText Kbs Pdf Engine Api
  RecordProofs ComposeProofs ParseProofs MarkerProofs FindProofs NumTotal ElementsOk TagOk.
Import ListNotations.
Local Open Scope nat_scope.
Local Notation length := List.length.

Lemma set_std_fit K : fit_kbs K = true -> fit_kbs (set_std K (supdate (jk_std (k_journals K)) (k_journals_re K))) = true.
Proof.
  unfold fit_kbs. cbn [set_std k_journals k_journals_re k_reports k_collabs k_books]. rewrite !andb_true_iff. intros ((((F1 & F2) & F3) & F4) & F5). repeat split; auto.
  unfold fit_journals in *. cbn [jk_search jk_std jk_keys]. rewrite andb_true_iff in *. destruct F1 as [F1 F6]. split; auto. rewrite forallb_forall in *. intros t I. specialize (F1 t I).
  rewrite andb_true_iff in *. destruct F1 as [F1 F7]. split; auto. rewrite orb_true_iff in *. destruct F7 as [F7|F7]; auto. right.
  assert (assoc_str t (supdate (jk_std (k_journals K)) (k_journals_re K)) <> None) as P.
  { apply assoc_supdate_present. destruct (assoc_str t (jk_std (k_journals K))); [discriminate|discriminate F7]. }
  destruct (assoc_str t (supdate (jk_std (k_journals K)) (k_journals_re K))); [reflexivity|congruence].
Qed.

Section Es.
Variable es : list exn.
Definition ctx_ok (x : context) : Prop := fit_kbs (x_kbs x) = true /\ nokey (x_titles x) /\ (k_special (x_kbs x) = [] \/ In ValueError es).

Lemma line_good E x cb line : In IndexError es -> fit_env E = true -> ctx_ok x -> (forall f, cb = Some f -> fit_callback f) ->
  good es (fun r => let '(cits, _, _, x') := r in Forall (Forall wf) cits /\ ctx_ok x') (parse_reference_line E x cb line).
Proof.
  intros Ix Fe (Fk & Nk & V) Cb. unfold parse_reference_line. destruct (marker_split line) as (mark & rest & -> & _). cbn [bind].
  destruct (identify_and_tag_DOI E rest) as (l1, dois). destruct (identify_and_tag_URLs l1) as (l2, urls).
  eapply good_bind; [apply tag_good; eauto|]. intros ((tagged & titles) & std) (Nk' & ->).
  destruct (parse_tagged_reference_line tagged dois urls) as [(els, cnt)|e] eqn:P; cbn [bind good]; [|now rewrite (parse_errors _ _ _ _ P)].
  apply parse_tagged_wf in P. eapply good_bind; [apply cite_good; eauto|].
  - cbn [set_std k_books]. unfold fit_kbs in Fk. now apply andb_true_iff in Fk as [_ Fk].
  - intros (cits, n) W. cbn [good fst] in *. split; auto. split; [now apply set_std_fit|]. split; auto.
Qed.
Lemma lines_good E cb : In IndexError es -> fit_env E = true -> (forall f, cb = Some f -> fit_callback f) -> forall lines x c, ctx_ok x ->
  good es (fun r => let '(ps, cnt, _) := r in Forall (fun p => Forall (Forall wf) (p_elements p)) ps /\ exists c', cnt = counts_dict c') (parse_lines E x cb (counts_dict c) lines).
Proof.
  intros Ix Fe Cb. induction lines as [|raw t IH]; intros x c X; cbn [parse_lines]; [cbn; split; eauto|].
  eapply good_bind; [apply line_good; eauto|]. intros (((cits & mk) & c1) & x1) (W & X1). rewrite sum_counts. cbn [bind].
  eapply good_bind; [apply IH; exact X1|]. intros ((ps & cnt) & x2) (Wp & Ec). cbn [good]. split; auto.
Qed.
Lemma references_good E K cb f lines : In IndexError es -> (k_special K = [] \/ In ValueError es) -> fit_env E = true -> fit_kbs K = true -> (forall f, cb = Some f -> fit_callback f) -> fit_format f = true ->
  good es (fun _ => True) (parse_references E K cb f lines).
Proof.
  intros Ix V Fe Fk Cb Ff. unfold parse_references, parse_references_elements. eapply good_bind; [apply lines_good; auto; split; auto; split; [reflexivity|exact V]|].
  intros ((ps & cnt) & x) (W & c & ->). eapply good_bind; [apply build_good; auto|]. intros refs _. rewrite build_stats_of. exact I.
Qed.
End Es.

(** ** The functions of the API *)
Definition fit_options (O : options) : Prop :=
  exists K, o_kbs O = Ok K /\ fit_env (o_env O) = true /\ fit_kbs K = true /\ (forall f, o_cb O = Some f -> fit_callback f) /\ fit_format (o_format O) = true.
Lemma lines_only_refs body : Forall short body -> exists lines,
  (let* s := get_reference_section_beginning body in
   let* d := (match s with Some s => Ok (s_details s) | None => find_numeration_in_body body end) in
   rebuild_reference_lines body (d_pattern d)) = Ok lines.
Proof.
  intros S. destruct (beginning_spec body) as (r & -> & B). cbn [bind]. destruct r as [s|]; cbn [bind].
  - destruct (beginning_ok _ _ B) as (_ & M & _). apply rebuild_total. destruct (d_pattern (s_details s)) as [p|]; auto.
  - destruct (numeration_in_body body) as (d & -> & _ & M). cbn [bind]. apply rebuild_total. destruct (d_pattern d) as [p|]; auto.
Qed.
Lemma split_lines_short : forall s cur, (N.of_nat (length cur + length s) <= int_max_str_digits)%N -> Forall short (split_lines s cur).
Proof.
  induction s as [|c s IH]; cbn [split_lines List.length]; intros cur H.
  - constructor; auto. unfold short. rewrite rev_length. lia.
  - destruct (N.eqb c 10).
    + constructor; [unfold short; rewrite rev_length; lia|]. apply IH. cbn. lia.
    + apply IH. cbn [List.length]. lia.
Qed.
Lemma string_good es O only source : In IndexError es -> (forall K, o_kbs O = Ok K -> k_special K = [] \/ In ValueError es) -> fit_options O -> Forall short (split_lines source []) ->
  good es (fun _ => True) (extract_references_from_string O only source).
Proof.
  intros Ix V (K & Ek & Fe & Fk & Cb & Ff) S. unfold extract_references_from_string.
  assert (exists lines, (if only then
       let* s := get_reference_section_beginning (split_lines source []) in
       let* d := (match s with Some s => Ok (s_details s) | None => find_numeration_in_body (split_lines source []) end) in
       rebuild_reference_lines (split_lines source []) (d_pattern d)
     else let* (l, _) := extract_references_from_fulltext (split_lines source []) in Ok l) = Ok lines) as (lines & ->).
  { destruct only; [now apply lines_only_refs|]. destruct (extract_total _ S) as [(refs & ->)| ->]; cbn; eauto. }
  cbn [bind]. unfold parse_with. rewrite Ek. cbn [bind]. eapply good_bind; [apply references_good; auto|]. intros (refs, st) _. exact I.
Qed.
Lemma journal_good es E K line : In IndexError es -> k_special K = [] \/ In ValueError es -> fit_env E = true -> fit_kbs K = true ->
  good es (fun _ => True) (extract_journal_reference E (Ok K) line).
Proof.
  intros Ix V Fe Fk. unfold extract_journal_reference. cbn [bind]. eapply good_bind; [apply line_good; auto; [repeat split; auto|discriminate]|].
  intros (((cits & m) & c) & x) _. exact I.
Qed.
