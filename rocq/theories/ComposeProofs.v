(** Independence of the lines of one another: statistics and composition (Engine.v). *)
From Coq Require Import List Arith NArith Bool Lia String.
From Verif Require Import PyStr ListFacts Elements Record Regex RegexParse Patterns Transform Split Post ParseTagged DocText
  Tag Find RefText Engine RecordProofs SplitProofs PostProofs EngineProofs.
Import ListNotations.
Local Open Scope nat_scope.
Local Notation length := List.length.
Local Notation concat := List.concat.

(** ** Dictionaries with string keys *)
Lemma assoc_sput {A} k k' (v : A) m : assoc_str k (sput k' v m) = if eqs k k' then Some v else assoc_str k m.
Proof.
  induction m as [|[k2 v2] m IH]; cbn; [reflexivity|].
  destruct (eqs_spec k' k2) as [->|N]; cbn.
  - destruct (eqs k k2); auto.
  - destruct (eqs_spec k k2) as [->|N2]; [|apply IH]. destruct (eqs_spec k2 k'); congruence.
Qed.
Lemma sput_same {A} k (v : A) m : assoc_str k m = Some v -> sput k v m = m.
Proof.
  induction m as [|[k2 v2] m IH]; cbn; [discriminate|]. destruct (eqs k k2); intros H; [inversion H; auto|]. now rewrite IH.
Qed.
Lemma sput_sput {A} k (v w : A) m : sput k v (sput k w m) = sput k v m.
Proof.
  induction m as [|[k2 v2] m IH]; cbn.
  - destruct (eqs_spec k k); congruence.
  - destruct (eqs k k2) eqn:E; cbn; rewrite E; auto. now rewrite IH.
Qed.
Lemma sput_comm {A} k k' (v w : A) m : k <> k' -> assoc_str k m <> None -> sput k' w (sput k v m) = sput k v (sput k' w m).
Proof.
  intros N. induction m as [|[k2 v2] m IH]; cbn; [congruence|].
  destruct (eqs_spec k k2) as [->|N1]; cbn; intros H.
  - destruct (eqs_spec k' k2) as [->|N2]; cbn; [congruence|]. now destruct (eqs_spec k2 k2).
  - destruct (eqs_spec k' k2) as [->|N2]; cbn.
    + destruct (eqs_spec k k2); congruence.
    + destruct (eqs_spec k k2); [congruence|]. now rewrite IH.
Qed.
Lemma assoc_supdate_other {A} k (re m : list (str * A)) : ~ In k (map fst re) -> assoc_str k (supdate m re) = assoc_str k m.
Proof.
  unfold supdate. revert m. induction re as [|[k2 v2] re IH]; cbn; intros m H; auto.
  rewrite IH by tauto. rewrite assoc_sput. destruct (eqs_spec k k2); subst; tauto.
Qed.
Lemma supdate_overwrite {A} k (v : A) : forall re m, In k (map fst re) -> assoc_str k m <> None ->
  supdate (sput k v m) re = supdate m re.
Proof.
  unfold supdate. induction re as [|[k2 v2] re IH]; cbn; intros m H P; [easy|].
  destruct (eqs_spec k k2) as [->|N].
  - now rewrite sput_sput.
  - destruct H as [->|H]; [congruence|]. rewrite sput_comm by auto. apply IH; auto.
    rewrite assoc_sput. destruct (eqs k k2); [discriminate|auto].
Qed.
Lemma assoc_supdate_present {A} k : forall (re m : list (str * A)), assoc_str k m <> None -> assoc_str k (supdate m re) <> None.
Proof.
  unfold supdate. induction re as [|[k2 v2] re IH]; cbn; intros m P; auto. apply IH. rewrite assoc_sput.
  destruct (eqs k k2); [discriminate|auto].
Qed.
Lemma supdate_idem {A} : forall (re m : list (str * A)), supdate (supdate m re) re = supdate m re.
Proof.
  induction re as [|[k v] re IH]; intros m; auto.
  change (supdate m ((k, v) :: re)) with (supdate (sput k v m) re).
  change (supdate (supdate (sput k v m) re) ((k, v) :: re)) with (supdate (sput k v (supdate (sput k v m) re)) re).
  assert (assoc_str k (sput k v m) = Some v) as P by (rewrite assoc_sput; destruct (eqs_spec k k); congruence).
  destruct (in_dec (list_eq_dec N.eq_dec) k (map fst re)) as [I|I].
  - rewrite supdate_overwrite; auto. apply assoc_supdate_present. congruence.
  - rewrite sput_same; auto. now rewrite assoc_supdate_other.
Qed.

(** ** sum_2_dictionaries *)
(** no key of the dictionary is the word "key" *)
Definition nokey {A} (m : list (str * A)) : Prop := assoc_str (py "key") m = None.
Lemma assoc_none {A} k (m : list (str * A)) : assoc_str k m = None <-> ~ In k (map fst m).
Proof.
  induction m as [|[k2 v2] m IH]; cbn; [tauto|]. destruct (eqs_spec k k2) as [->|N].
  - split; [discriminate|tauto].
  - rewrite IH. split; [intros H [?|?]; auto|tauto].
Qed.
Lemma sum_2_nokey : forall b a, nokey a -> ~ In (py "key") (map fst b) -> sum_2_dictionaries a b = Ok (supdate a b) /\ nokey (supdate a b).
Proof.
  unfold supdate. induction b as [|[k v] b IH]; intros a Na Nb; cbn [sum_2_dictionaries fold_left fst snd]; auto.
  unfold nokey in Na. rewrite Na. apply IH.
  - unfold nokey. rewrite assoc_sput. destruct (eqs_spec (py "key") k) as [E|]; auto. subst. cbn in Nb. tauto.
  - cbn in Nb. tauto.
Qed.
Lemma counts_nokey c : ~ In (py "key") (map fst (counts_dict c)).
Proof. apply assoc_none. reflexivity. Qed.
(** the counters of one line replace the counters accumulated so far *)
Lemma sum_counts c c' : sum_2_dictionaries (counts_dict c) (counts_dict c') = Ok (counts_dict c').
Proof. reflexivity. Qed.

(** ** Statistics *)
Lemma parse_lines_counts E cb : forall lines x cnt ps cnt' x', parse_lines E x cb cnt lines = Ok (ps, cnt', x') ->
  (exists c, cnt = counts_dict c) -> exists c, cnt' = counts_dict c.
Proof.
  induction lines as [|raw t IH]; cbn [parse_lines]; intros x cnt ps cnt' x' H C; [inversion H; subst; auto|].
  inv_ok H. destruct a as [[[cits m] c] x1]. inv_ok H. inv_ok H. destruct a0 as [[ps1 c1] x2]. inversion H; subst.
  destruct C as [c0 ->]. rewrite sum_counts in E1. inversion E1; subst. eapply IH; eauto.
Qed.
(** counters of the last line *)
Definition line_counts E x cb raw : res counts :=
  let* (_, _, c, _) := parse_reference_line E x cb (wash_and_repair_reference_line E raw) in Ok c.
Definition stats_of (c : counts) : list nat :=
  [c_reportnum c; c_title c; c_auth c; c_url c; c_doi c; c_misc c].
Lemma build_stats_of c : build_stats (counts_dict c) = Ok (stats_of c). Proof. reflexivity. Qed.
Lemma parse_lines_app E cb : forall l1 x cnt l2, parse_lines E x cb cnt (l1 ++ l2) =
  let* (p1, c1, x1) := parse_lines E x cb cnt l1 in
  let* (p2, c2, x2) := parse_lines E x1 cb c1 l2 in Ok (p1 ++ p2, c2, x2).
Proof.
  induction l1 as [|raw t IH]; cbn [parse_lines app]; intros x cnt l2.
  - cbn [bind]. destruct (parse_lines E x cb cnt l2) as [[[a b] c]|]; auto.
  - destruct (parse_reference_line _ _ _ _) as [[[[cits m] c] x1]|]; cbn [bind]; auto.
    destruct (sum_2_dictionaries _ _); cbn [bind]; auto. rewrite IH.
    destruct (parse_lines E x1 cb a t) as [[[p1 c1] y1]|]; cbn [bind]; auto.
    destruct (parse_lines E y1 cb c1 l2) as [[[p2 c2] x2]|]; cbn [bind]; auto.
Qed.

(** ** Pure callbacks: the answer depends on the element only *)
Definition pure (cb : option callback) : Prop := forall f n m e, cb = Some f -> f n e = f m e.
Lemma associate_one_pure f n m e : (forall n m e, f n e = f m e) -> associate_one f n e = associate_one f m e.
Proof. intros P. unfold associate_one. now rewrite (P n m). Qed.
Definition fst_res {A B} (r : res (A * B)) : res A := let* (a, _) := r in Ok a.
Lemma associate_recids_pure f : (forall n m e, f n e = f m e) -> forall l n m,
  fst_res (associate_recids f n l) = fst_res (associate_recids f m l).
Proof.
  intros P. induction l as [|e l IH]; cbn; intros n m; auto. rewrite (associate_one_pure f n m e P).
  destruct (associate_one f m e); cbn; auto. specialize (IH (S n) (S m)).
  destruct (associate_recids f (S n) l) as [[]|], (associate_recids f (S m) l) as [[]|]; cbn in *; inversion IH; subst; auto.
Qed.
Lemma associate_heap_pure f : (forall n m e, f n e = f m e) -> forall c n m h,
  fst_res (associate_heap f n h c) = fst_res (associate_heap f m h c).
Proof.
  intros P. induction c as [|a c IH]; cbn; intros n m h; auto. rewrite (associate_one_pure f n m _ P).
  destruct (associate_one f m _); cbn; auto.
Qed.
Lemma associate_citations_pure f : (forall n m e, f n e = f m e) -> forall cs n m h,
  fst_res (associate_citations f n h cs) = fst_res (associate_citations f m h cs).
Proof.
  intros P. induction cs as [|c cs IH]; cbn; intros n m h; auto. pose proof (associate_heap_pure f P c n m h) as H.
  destruct (associate_heap f n h c) as [[h1 n1]|], (associate_heap f m h c) as [[h2 n2]|]; cbn in *; inversion H; subst; auto.
Qed.
Lemma post_split_pure books cb : pure cb -> forall n m st,
  fst_res (post_split books cb n st) = fst_res (post_split books cb m st).
Proof.
  intros P n m st. unfold post_split.
  destruct (look_for_implied_ibids st) as [st1|]; cbn [bind fst_res]; auto.
  destruct (add_year_elements st1) as [st2|]; cbn [bind fst_res]; auto.
  destruct (look_for_undetected_books books st2) as [st3|]; cbn [bind fst_res]; auto.
  destruct cb as [f|].
  - assert (forall n m e, f n e = f m e) as Pf by (intros; now apply P).
    pose proof (associate_citations_pure f Pf (snd st3) n m (fst st3)) as H.
    destruct (associate_citations f n _ _) as [[h1 n1]|], (associate_citations f m _ _) as [[h2 n2]|]; cbn in H; inversion H; subst; auto.
    cbn [bind fst_res].
    destruct (remove_duplicated_authors _); cbn [bind fst_res]; auto.
    destruct (remove_duplicated_collaborations _); cbn [bind fst_res]; auto.
    destruct (add_recid_elements _); cbn [bind fst_res]; auto.
  - cbn [bind]. destruct (remove_duplicated_authors _); cbn [bind fst_res]; auto.
    destruct (remove_duplicated_collaborations _); cbn [bind fst_res]; auto.
    destruct (add_recid_elements _); cbn [bind fst_res]; auto.
Qed.
Lemma cite_pure K cb : pure cb -> forall n m els, fst_res (cite K cb n els) = fst_res (cite K cb m els).
Proof.
  intros P n m els. unfold cite. destruct (transform K els) as [els1|]; cbn [bind fst_res]; auto.
  assert (forall n els1, fst_res (let* (st, n0) := post_split (k_books K) cb n (split_citations els1) in Ok (values st, n0))
          = let* st := fst_res (post_split (k_books K) cb n (split_citations els1)) in Ok (values st)) as G.
  { intros. destruct (post_split _ _ _ _) as [[]|]; auto. }
  destruct cb as [f|].
  - assert (forall n m e, f n e = f m e) as Pf by (intros; now apply P).
    pose proof (associate_recids_pure f Pf els1 n m) as H.
    destruct (associate_recids f n els1) as [[e1 n1]|], (associate_recids f m els1) as [[e2 n2]|]; cbn in H; inversion H; subst; auto.
    cbn [bind]. rewrite !G. f_equal. now apply post_split_pure.
  - cbn [bind]. rewrite !G. f_equal. now apply post_split_pure.
Qed.

(** ** The context of a line *)
Definition norm (K : kbs) : kbs := set_std K (supdate (jk_std (k_journals K)) (k_journals_re K)).
Lemma norm_idem K : norm (norm K) = norm K.
Proof. unfold norm, set_std. cbn [k_journals k_journals_re jk_std jk_search jk_keys k_reports k_publishers k_authors k_collabs k_books k_special]. now rewrite supdate_idem. Qed.
Lemma bump_keys k m : forall x, In x (map fst (bump k m)) -> x = k \/ In x (map fst m).
Proof. induction m as [|[k2 v2] m IH]; cbn; intros x; [intuition|]. destruct (eqs k k2); cbn; [intuition|]. intros [->|H]; auto. apply IH in H. tauto. Qed.
Lemma identify_journals_count kb : forall titles s j, identify_journals_from kb titles s = Ok j ->
  forall x, In x (map fst (j_count j)) -> In x titles \/ In x (map fst (j_count s)).
Proof.
  induction titles as [|t titles IH]; cbn [identify_journals_from]; intros s j H x Hx; [inversion H; subst; auto|].
  destruct (assoc_str t kb) as [r|]; [|discriminate]. destruct (IH _ _ H x Hx) as [I|I]; [left; now right|].
  assert (forall ms s, In x (map fst (j_count (fold_left (journal_hit t) ms s))) -> x = t \/ In x (map fst (j_count s))) as G.
  { induction ms as [|o ms IHm]; cbn [fold_left]; intros s0 Hi; auto. apply IHm in Hi as [->|Hi]; auto.
    cbn in Hi. now apply bump_keys in Hi. }
  apply G in I as [->|I]; auto. left. now left.
Qed.
Definition tag_core E line K : res str := let* (t, _, _) := tag_reference_line E line K [] in Ok t.
Lemma tag_reference_line_titles E line K titles :
  ~ In (py "key") (jk_keys (k_journals K)) -> nokey titles ->
  match tag_reference_line E line K titles with
  | Ok (t, titles', std) => tag_core E line (norm K) = Ok t /\ nokey titles' /\ std = supdate (jk_std (k_journals K)) (k_journals_re K)
  | Err x => tag_core E line (norm K) = Err x
  end.
Proof.
  intros Nk Nt. unfold tag_core.
  unfold tag_reference_line.
  change (jk_std (k_journals (norm K))) with (supdate (jk_std (k_journals K)) (k_journals_re K)).
  change (k_journals_re (norm K)) with (k_journals_re K). rewrite supdate_idem.
  destruct (identify_journals_re _ _ _) as [jm|]; cbn [bind]; auto.
  destruct (remove_and_record_multiple_spaces_in_line _) as [sp l2].
  change (k_reports (norm K)) with (k_reports K).
  destruct (identify_report_numbers _ _) as [r|]; cbn [bind]; auto.
  change (identify_journals (r_line r) (k_journals (norm K)))
    with (identify_journals (r_line r) (k_journals K)).
  destruct (identify_journals (r_line r) (k_journals K)) as [j|] eqn:Ej; cbn [bind]; auto.
  assert (~ In (py "key") (map fst (j_count j))) as Nj.
  { intros I. apply (identify_journals_count _ _ _ _ Ej) in I as [I|[]]. auto. }
  destruct (sum_2_nokey (j_count j) titles Nt Nj) as [-> N1].
  destruct (sum_2_nokey (j_count j) [] eq_refl Nj) as [-> _]. cbn [bind].
  destruct (contains _ _).
  - destruct (identify_ibids _) as [ib l3].
    match goal with |- context [process_reference_line E ?a ?b ?c (norm K)] =>
      change (process_reference_line E a b c (norm K)) with (process_reference_line E a b c K) end.
    change (k_publishers (norm K)) with (k_publishers K).
    destruct (process_reference_line _ _ _ _ _); cbn [bind]; auto.
  - match goal with |- context [process_reference_line E ?a ?b ?c (norm K)] =>
      change (process_reference_line E a b c (norm K)) with (process_reference_line E a b c K) end.
    change (k_publishers (norm K)) with (k_publishers K).
    destruct (process_reference_line _ _ _ _ _); cbn [bind]; auto.
Qed.

(** the outcome of a line alone *)
Definition line_core E K cb raw : res (list (list el) * str * counts) :=
  let* (cits, m, c, _) := parse_reference_line E (mkctx K [] 0) cb (wash_and_repair_reference_line E raw) in Ok (cits, m, c).
Definition good_ctx K x : Prop :=
  norm (x_kbs x) = norm K /\ nokey (x_titles x).
Lemma cite_norm K1 K2 cb n els : norm K1 = norm K2 -> cite (norm K1) cb n els = cite (norm K2) cb n els.
Proof. now intros ->. Qed.
Lemma parse_reference_line_core E K cb x line :
  pure cb -> ~ In (py "key") (jk_keys (k_journals K)) -> good_ctx K x ->
  match parse_reference_line E x cb line with
  | Ok (cits, m, c, x') => (exists y, parse_reference_line E (mkctx K [] 0) cb line = Ok (cits, m, c, y)) /\ good_ctx K x'
  | Err e => parse_reference_line E (mkctx K [] 0) cb line = Err e
  end.
Proof.
  intros P Nk [Hn Ht]. unfold parse_reference_line. cbn [x_kbs x_titles x_calls].
  destruct (remove_reference_line_marker line) as [[mk l]|]; cbn [bind]; auto.
  destruct (identify_and_tag_DOI E l) as [l1 dois]. destruct (identify_and_tag_URLs l1) as [l2 urls].
  assert (~ In (py "key") (jk_keys (k_journals (x_kbs x)))) as Nk'.
  { assert (jk_keys (k_journals (norm (x_kbs x))) = jk_keys (k_journals (norm K))) as Q by now rewrite Hn.
    cbn in Q. now rewrite Q. }
  pose proof (tag_reference_line_titles E l2 K [] Nk eq_refl) as T1.
  pose proof (tag_reference_line_titles E l2 (x_kbs x) (x_titles x) Nk' Ht) as T2.
  destruct (tag_reference_line E l2 K []) as [[[t1 ti1] sd1]|e1], (tag_reference_line E l2 (x_kbs x) (x_titles x)) as [[[t2 ti2] sd2]|e2]; cbn [bind].
  - destruct T1 as (T1 & N1 & ->), T2 as (T2 & N2 & ->). rewrite Hn in T2. rewrite T1 in T2. inversion T2; subst.
    destruct (parse_tagged_reference_line t2 dois urls) as [[els cnt]|]; cbn [bind]; auto.
    fold (norm K). fold (norm (x_kbs x)). rewrite Hn. pose proof (cite_pure (norm K) cb P (x_calls x) 0 els) as C.
    destruct (cite (norm K) cb (x_calls x) els) as [[c1 n1]|], (cite (norm K) cb 0 els) as [[c2 n2]|]; cbn in C; inversion C; subst; cbn [bind]; auto.
    split; [eauto|]. split; cbn; auto. apply norm_idem.
  - destruct T1 as (T1 & _). rewrite Hn in T2. congruence.
  - destruct T2 as (T2 & _). rewrite Hn in T2. congruence.
  - rewrite Hn in T2. congruence.
Qed.
Definition with_raw (raw : str) (r : list (list el) * str * counts) : processed :=
  let '(cits, m, _) := r in mkproc cits m raw.
Lemma parse_lines_core E K cb : pure cb -> ~ In (py "key") (jk_keys (k_journals K)) -> forall lines x cnt c0,
  good_ctx K x -> cnt = counts_dict c0 ->
  match parse_lines E x cb cnt lines with
  | Ok (ps, cnt', x') => good_ctx K x' /\ mapM (fun raw => let* r := line_core E K cb raw in Ok (with_raw raw r)) lines = Ok ps
  | Err e => mapM (fun raw => let* r := line_core E K cb raw in Ok (with_raw raw r)) lines = Err e
  end.
Proof.
  intros P Nk. induction lines as [|raw t IH]; cbn [parse_lines mapM]; intros x cnt c0 G Hc; [auto|].
  pose proof (parse_reference_line_core E K cb x (wash_and_repair_reference_line E raw) P Nk G) as C. unfold line_core at 1 3.
  destruct (parse_reference_line E x cb _) as [[[[cits m] c] x1]|e]; cbn [bind].
  - destruct C as [[y ->] G1]. cbn [bind]. subst cnt. rewrite sum_counts. cbn [bind].
    specialize (IH x1 _ c G1 eq_refl). destruct (parse_lines E x1 cb (counts_dict c) t) as [[[ps c1] x2]|]; cbn [bind].
    + destruct IH as [G2 ->]. cbn [bind]. auto.
    + rewrite IH. auto.
  - rewrite C. auto.
Qed.
(** the references of a list of lines *)
Definition references E K cb f lines : res (list ref) :=
  let* (refs, _) := parse_references E K cb f lines in Ok refs.
Lemma references_core E K cb f lines rs : pure cb -> ~ In (py "key") (jk_keys (k_journals K)) ->
  references E K cb f lines = Ok rs <->
  exists blocks, rs = concat blocks /\
    Forall2 (fun raw b => exists r, line_core E K cb raw = Ok r /\ build_line f (with_raw raw r) = Ok b) lines blocks.
Proof.
  intros P Nk. unfold references, parse_references, parse_references_elements.
  pose proof (parse_lines_core E K cb P Nk lines (mkctx K [] 0) _ counts0 (conj eq_refl eq_refl) eq_refl) as C.
  pose proof (fun ps cnt' x' (H : parse_lines E (mkctx K [] 0) cb (counts_dict counts0) lines = Ok (ps, cnt', x')) =>
    parse_lines_counts E cb _ _ _ _ _ _ H (ex_intro _ counts0 eq_refl)) as Q.
  assert (forall ps lines, mapM (fun raw => let* r := line_core E K cb raw in Ok (with_raw raw r)) lines = Ok ps ->
     forall blocks, Forall2 (fun c b => build_line f c = Ok b) ps blocks <->
     Forall2 (fun raw b => exists r, line_core E K cb raw = Ok r /\ build_line f (with_raw raw r) = Ok b) lines blocks) as Z.
  { intros ps l M. apply mapM_ok in M. induction M as [|raw p l ps H M IH]; intros blocks.
    - split; intros F; inversion F; constructor.
    - inv_ok H. inversion H; subst. split; intros F; inversion F; subst; constructor; eauto.
      + now apply IH.
      + destruct H2 as (r & H2 & H3). congruence.
      + now apply IH. }
  destruct (parse_lines _ _ _ _ _) as [[[ps cnt] x]|]; cbn [bind].
  - destruct (Q _ _ _ eq_refl) as [c ->]. destruct C as [_ C]. specialize (Z _ _ C). split.
    + intros H. inv_ok H. destruct a as [rs0 st]. inversion H; subst. inv_ok E0. inv_ok E0. inversion E0; subst.
      apply build_references_spec in E1 as (blocks & -> & F). exists blocks. split; auto. now apply Z.
    + intros (blocks & -> & F). apply Z in F. unfold build_references. apply mapM_ok in F. rewrite F. reflexivity.
  - split; [discriminate|]. intros (blocks & -> & F). exfalso.
    assert (exists ps, mapM (fun raw => let* r := line_core E K cb raw in Ok (with_raw raw r)) lines = Ok ps) as [ps X]; [|congruence].
    clear - F. induction F as [|raw b l bs (r & H & _) F [ps IH]]; [now exists []|].
    exists (with_raw raw r :: ps). cbn [mapM]. rewrite H. cbn [bind]. now rewrite IH.
Qed.
Lemma references_app E K cb f l1 l2 rs : pure cb -> ~ In (py "key") (jk_keys (k_journals K)) ->
  references E K cb f (l1 ++ l2) = Ok rs <->
  exists r1 r2, references E K cb f l1 = Ok r1 /\ references E K cb f l2 = Ok r2 /\ rs = r1 ++ r2.
Proof.
  intros P Nk. rewrite references_core by auto. split.
  - intros (blocks & -> & F). apply Forall2_app_inv_l in F as (b1 & b2 & F1 & F2 & ->).
    exists (concat b1), (concat b2). rewrite !references_core by auto. rewrite concat_app. eauto 10.
  - intros (r1 & r2 & H1 & H2 & ->). apply references_core in H1 as (b1 & -> & F1); auto.
    apply references_core in H2 as (b2 & -> & F2); auto. exists (b1 ++ b2). rewrite concat_app. split; auto.
    now apply Forall2_app.
Qed.
(** the statistics of a list of lines are the counters of its last line *)
Lemma parse_references_stats E K cb f lines refs stats :
  pure cb -> ~ In (py "key") (jk_keys (k_journals K)) ->
  parse_references E K cb f lines = Ok (refs, stats) ->
  match rev lines with
  | [] => stats = stats_of counts0
  | raw :: _ => exists cits m c, line_core E K cb raw = Ok (cits, m, c) /\ stats = stats_of c
  end.
Proof.
  intros P Nk H. unfold parse_references, parse_references_elements in H.
  inv_ok H. destruct a as [[ps cnt] x]. inv_ok H. inv_ok H. inversion H; subst; clear H.
  destruct lines as [|raw l] using rev_ind.
  - cbn in E0. inversion E0; subst. cbn in E2. inversion E2. reflexivity.
  - clear IHl. rewrite rev_app_distr. cbn [rev app]. rewrite parse_lines_app in E0.
    inv_ok E0. destruct a as [[p1 c1] x1]. inv_ok E0. destruct a as [[p2 c2] x2]. inversion E0; subst; clear E0.
    pose proof (parse_lines_core E K cb P Nk l (mkctx K [] 0) _ counts0 (conj eq_refl eq_refl) eq_refl) as C.
    rewrite E3 in C. destruct C as [G _].
    destruct (parse_lines_counts _ _ _ _ _ _ _ _ E3 (ex_intro _ counts0 eq_refl)) as [c0 ->].
    cbn [parse_lines] in E4. inv_ok E4. destruct a as [[[cits m] c] y]. inv_ok E4. rewrite sum_counts in E5. inversion E5; subst.
    cbn [bind] in E4. inversion E4; subst. rewrite build_stats_of in E2. inversion E2; subst.
    pose proof (parse_reference_line_core E K cb x1 (wash_and_repair_reference_line E raw) P Nk G) as C. rewrite E0 in C.
    destruct C as [[z C] _]. exists cits, m, c. unfold line_core. rewrite C. auto.
Qed.
