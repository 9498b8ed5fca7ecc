(** Knowledge bases made by the builders are consistent (C52). *)
From Coq Require Import List Arith NArith ZArith Bool String Lia.
From Verif Require Import UnicodeTables PyStr ListFacts Regex RegexParse RegexMeta Patterns Elements DocText Numeration Transform Post Tag Kbs Engine KbProofs WashProofs BookProofs ElementsOk TagOk RefText MarkerProofs LinesOk Api ShippedReports ShippedKbs.
Import ListNotations.
Local Open Scope nat_scope.
Local Notation length := List.length.

(** ** No lower case letter is left in capitals *)
Lemma run_map_in c rs d : run_map c rs = Some d -> exists lo hi k z, In (lo, hi, k, z) rs /\ (lo <= c <= hi)%N /\ d = Z.to_N (Z.of_N c + z).
Proof.
  induction rs as [|[[[lo hi] k] z] rs IH]; cbn [run_map]; [discriminate|]. destruct (N.ltb_spec c lo); [discriminate|]. destruct (N.leb_spec c hi); cbn [andb].
  - destruct (N.eqb ((c - lo) mod k) 0); intros H1; [injection H1 as <-; exists lo, hi, k, z; cbn; auto|]. destruct (IH H1) as (a & b & e & f & I & R). exists a, b, e, f. cbn. auto.
  - intros H1. destruct (IH H1) as (a & b & e & f & I & R). exists a, b, e, f. cbn. auto.
Qed.
Lemma upper_no_lower c d : In d (upper_ch c) -> is_lower_ascii d = false.
Proof.
  unfold upper_ch. destruct (N.ltb_spec c 128).
  - destruct (is_lower_ascii c) eqn:L; intros [<-|[]]; auto. unfold is_lower_ascii in *. apply andb_true_iff in L as [L1 L2]. apply N.leb_le in L1, L2. apply andb_false_iff. left. apply N.leb_gt. lia.
  - destruct (run_map c upper_runs) as [e|] eqn:R.
    + intros [<-|[]]. apply run_map_in in R as (lo & hi & k & z & I & B & ->).
      assert (forallb (fun '(lo, hi, k, z) => ((Z.of_N hi + z <? 97) || (122 <? Z.of_N lo + z))%Z) upper_runs = true) as F by (vm_compute; reflexivity).
      rewrite forallb_forall in F. specialize (F _ I). cbn in F. apply orb_true_iff in F. rewrite !Z.ltb_lt in F.
      unfold is_lower_ascii. apply andb_false_iff. rewrite !N.leb_gt. lia.
    + destruct (assoc_N c upper_multi) as [l|] eqn:A.
      * intros I. assert (forallb (fun e => forallb (fun d => negb (is_lower_ascii d)) (snd e)) upper_multi = true) as F by (vm_compute; reflexivity).
        assert (exists k, In (k, l) upper_multi) as (k & J). { clear -A. induction upper_multi as [|(k, v) t IH]; cbn in A; [discriminate|]. destruct (N.eqb c k); [injection A as ->; exists k; now left|]. destruct (IH A) as (k' & J). exists k'. now right. }
        rewrite forallb_forall in F. specialize (F _ J). cbn in F. rewrite forallb_forall in F. specialize (F _ I). now apply negb_true_iff.
      * intros [<-|[]]. unfold is_lower_ascii. apply andb_false_iff. right. apply N.leb_gt. lia.
Qed.
(** capitals of capitals *)
Definition fixed (d : N) : bool := match upper_ch d with [e] => N.eqb e d | _ => false end.
Lemma upper_fixed l : forallb fixed l = true -> upper l = l.
Proof.
  induction l as [|d l IH]; cbn [forallb]; auto. intros H. apply andb_true_iff in H as [H1 H2]. cbn [upper flat_map]. fold (upper l). rewrite (IH H2). unfold fixed in H1. destruct (upper_ch d) as [|e [|]]; try discriminate. apply N.eqb_eq in H1 as ->. reflexivity.
Qed.
Definition in_run (e : N * N * N * Z) : list N := let '(lo, hi, k, z) := e in map (fun i => (lo + N.of_nat i)%N) (seq 0 (S (N.to_nat (hi - lo)))).
Lemma run_fixed : forallb (fun e => let '(lo, hi, k, z) := e in forallb (fun c => negb (N.eqb ((c - lo) mod k) 0) || fixed (Z.to_N (Z.of_N c + z))) (in_run e)) upper_runs = true.
Proof. vm_compute. reflexivity. Qed.
Lemma run_map_in' c rs d : run_map c rs = Some d -> exists lo hi k z, In (lo, hi, k, z) rs /\ (lo <= c <= hi)%N /\ N.eqb ((c - lo) mod k) 0 = true /\ d = Z.to_N (Z.of_N c + z).
Proof.
  induction rs as [|[[[lo hi] k] z] rs IH]; cbn [run_map]; [discriminate|]. destruct (N.ltb_spec c lo); [discriminate|]. destruct (N.leb_spec c hi); cbn [andb].
  - destruct (N.eqb ((c - lo) mod k) 0) eqn:M; intros H1; [injection H1 as <-; exists lo, hi, k, z; cbn; auto|]. destruct (IH H1) as (a & b & e & f & I & R). exists a, b, e, f. cbn. auto.
  - intros H1. destruct (IH H1) as (a & b & e & f & I & R). exists a, b, e, f. cbn. auto.
Qed.
Lemma upper_ch_fixed c : forallb fixed (upper_ch c) = true.
Proof.
  unfold upper_ch. destruct (N.ltb_spec c 128) as [L|L].
  - assert (forallb (fun i => forallb fixed (if is_lower_ascii (N.of_nat i) then [(N.of_nat i - 32)%N] else [N.of_nat i])) (seq 0 128) = true) as F by (vm_compute; reflexivity).
    rewrite forallb_forall in F. specialize (F (N.to_nat c)). rewrite N2Nat.id in F. apply F. apply in_seq. lia.
  - destruct (run_map c upper_runs) as [e|] eqn:R.
    + apply run_map_in' in R as (lo & hi & k & z & I & B & M & ->). pose proof run_fixed as F. rewrite forallb_forall in F. specialize (F _ I). cbn [fst snd] in F. rewrite forallb_forall in F.
      assert (In c (in_run (lo, hi, k, z))) as J. { unfold in_run. apply in_map_iff. exists (N.to_nat (c - lo)). split; [lia|]. apply in_seq. lia. }
      specialize (F _ J). rewrite M in F. cbn [negb orb] in F. cbn [forallb]. now rewrite F.
    + destruct (assoc_N c upper_multi) as [l|] eqn:A.
      * assert (forallb (fun e => forallb fixed (snd e)) upper_multi = true) as F by (vm_compute; reflexivity).
        assert (exists k, In (k, l) upper_multi) as (k & J). { clear -A. induction upper_multi as [|(k, v) t IH]; cbn in A; [discriminate|]. destruct (N.eqb c k); [injection A as ->; exists k; now left|]. destruct (IH A) as (k' & J). exists k'. now right. }
        rewrite forallb_forall in F. apply (F _ J).
      * cbn [forallb]. unfold fixed, upper_ch. rewrite (proj2 (N.ltb_ge _ _) L), R, A. now rewrite N.eqb_refl.
Qed.
Lemma upper_upper s : upper (upper s) = upper s.
Proof. apply upper_fixed. induction s as [|c s IH]; auto. cbn [upper flat_map]. rewrite forallb_app, upper_ch_fixed. exact IH. Qed.

(** ** The table of journals *)
Lemma sub_in r t s d : In d (re_sub r (fun _ => t) s) -> In d t \/ In d s.
Proof.
  unfold re_sub. generalize (re_finditer r s) as ms. intros ms. generalize 0 as p. induction ms as [|o ms IH]; intros p; cbn [sub_from].
  - intros H. right. rewrite <- (firstn_skipn p s). apply in_app_iff. auto.
  - rewrite !in_app_iff. intros [H|[H|H]]; auto; [|eauto]. right. unfold slice in H. rewrite <- (firstn_skipn p s). apply in_app_iff. right. rewrite <- (firstn_skipn (m_start o - p) (skipn p s)). apply in_app_iff. auto.
Qed.
Lemma upper_all_no_lower s d : In d (upper s) -> is_lower_ascii d = false.
Proof. unfold upper. rewrite in_flat_map. intros (c & _ & I). eapply upper_no_lower; eauto. Qed.
Lemma seek_no_lower s d : In d (seek_phrase s) -> is_lower_ascii d = false.
Proof. apply upper_all_no_lower. Qed.
Lemma strip_in' (s : str) c : In c (strip s) -> In c s.
Proof.
  unfold strip, strip_by. intros H. assert (forall f (l : str), In c (drop_while f l) -> In c l) as D. { intros f. induction l as [|x l IH]; cbn; auto. destruct (f x); cbn; auto. }
  unfold rstrip_by in H. apply in_rev in H. apply D in H. apply in_rev in H. apply D in H. exact H.
Qed.
Lemma repl_no_lower s d : In d (repl_phrase s) -> is_lower_ascii d = false.
Proof.
  unfold repl_phrase, sub_text. intros H. apply strip_in' in H. apply sub_in in H as [[<-|[]]|H]; [reflexivity|]. apply sub_in in H as [[<-|[]]|H]; [reflexivity|]. eapply upper_all_no_lower; eauto.
Qed.
Lemma journals_fit rows : fit_journals (build_journals_kb rows) = true.
Proof.
  unfold fit_journals. apply andb_true_iff. split.
  - apply forallb_forall. intros t I. destruct (journals_assoc rows t) as (A & B & C). apply C in I. rewrite A, B. destruct (last_seek t rows); [now rewrite orb_true_r|]. destruct (first_repl t (map snd rows)); [now rewrite orb_true_r|]. destruct I; congruence.
  - apply negb_true_iff. destruct (mem_str _ _) eqn:M; auto. apply mem_str_in in M. apply journals_keys in M as (r & _ & [E|E]).
    + assert (is_lower_ascii 107%N = false) as X; [|discriminate X]. apply (seek_no_lower (fst r)). rewrite <- E. now left.
    + assert (is_lower_ascii 107%N = false) as X; [|discriminate X]. apply (repl_no_lower (snd r)). rewrite <- E. now left.
Qed.

(** ** The table of books *)
(** a row with authors, a title with a letter or a digit and a year *)
Definition full_row (row : list str) : Prop := exists a t y more, row = a :: t :: y :: more /\ exists c, In c (upper t) /\ alnum c = true.
Lemma sput_in {A} k (v : A) l e : In e (sput k v l) -> e = (k, v) \/ In e l.
Proof. induction l as [|(a, w) l IH]; cbn; [intuition|]. destruct (eqs_spec k a) as [->|]; cbn; intuition. Qed.
Lemma books_from_fit : forall rows kb kb', build_books_kb_from rows kb = Ok kb' -> Forall full_row rows ->
  (forall e, In e kb -> full_row (snd e) /\ exists t, fst e = upper t /\ exists c, In c (upper t) /\ alnum c = true) ->
  forall e, In e kb' -> full_row (snd e) /\ exists t, fst e = upper t /\ exists c, In c (upper t) /\ alnum c = true.
Proof.
  induction rows as [|row rows IH]; intros kb kb' H F K; cbn [build_books_kb_from] in H; [now injection H as <-|].
  inversion F as [|? ? R F']; subst. destruct R as (a & t & y & more & -> & c & Ic & Ac). cbn [nth_error] in H. eapply IH; [exact H|exact F'|].
  intros e I. apply sput_in in I as [->|I]; auto. cbn [fst snd]. split; [exists a, t, y, more; split; auto; eauto|]. exists t. split; eauto.
Qed.
Lemma assoc_key_in {A} k (v : A) l : In (k, v) l -> exists w, assoc_str k l = Some w.
Proof. induction l as [|(a, w) l IH]; cbn; [easy|]. intros [E|I]; [injection E as -> ->; rewrite eqs_refl; eauto|]. destruct (eqs k a); eauto. Qed.
Lemma books_fit rows kb : build_books_kb rows = Ok kb -> Forall full_row rows -> fit_books kb = true.
Proof.
  intros H F. unfold fit_books. apply forallb_forall. intros (k, row) I. destruct (books_from_fit rows [] kb H F ltac:(easy) _ I) as ((a & t & y & more & E & _) & t' & Et & c & Ic & Ac). cbn [fst snd] in *. subst k row. rewrite upper_upper.
  destruct (assoc_key_in _ _ _ I) as (w & ->). cbn [length]. rewrite andb_true_r. apply andb_true_iff. split; [now apply Nat.leb_le; lia|].
  assert (In c (clean (upper t'))) as J by (apply filter_In; split; [exact Ic|exact Ac]). destruct (clean (upper t')); [destruct J|reflexivity].
Qed.
Lemma books_loaded rows : Forall full_row rows -> exists kb, build_books_kb rows = Ok kb.
Proof.
  unfold build_books_kb. generalize (@nil (str * list str)) as kb. induction rows as [|row rows IH]; intros kb F; cbn [build_books_kb_from]; [eauto|].
  inversion F as [|? ? R F']; subst. destruct R as (a & t & y & more & -> & _). cbn [nth_error]. auto.
Qed.

(** ** What is shipped *)
Definition ok_or {A} (d : A) (r : res A) : A := match r with Ok a => a | Err _ => d end.
Definition shipped_reports_kb : repnum_kb := Eval vm_compute in ok_or (mkrk [] []) (build_reportnum_kb shipped_reports).
Definition shipped_re_kb := Eval vm_compute in ok_or [] (build_journals_re_kb shipped_journals_re).
Definition shipped_collabs_kb := Eval vm_compute in ok_or [] (let* l := parse_kb_file shipped_collabs in build_collaborations_kb l).
Definition shipped_publishers_kb := Eval vm_compute in ok_or [] (let* l := parse_kb_file shipped_publishers in build_publishers_kb l).
Definition shipped_authors_kb := Eval vm_compute in build_authors_kb shipped_authors.
Definition shipped_special_kb := Eval vm_compute in build_special_journals_kb shipped_special.
(** the shipped tables with a table of journals and one of books *)
Definition shipped_with (journals : list (str * str)) (books : books_kb) : kbs :=
  mkkbs (build_journals_kb journals) shipped_re_kb shipped_reports_kb shipped_publishers_kb shipped_authors_kb shipped_collabs_kb books shipped_special_kb.
Lemma shipped_ok : build_reportnum_kb shipped_reports = Ok shipped_reports_kb /\ build_journals_re_kb shipped_journals_re = Ok shipped_re_kb
  /\ (let* l := parse_kb_file shipped_collabs in build_collaborations_kb l) = Ok shipped_collabs_kb
  /\ (let* l := parse_kb_file shipped_publishers in build_publishers_kb l) = Ok shipped_publishers_kb
  /\ build_authors_kb shipped_authors = shipped_authors_kb /\ build_special_journals_kb shipped_special = shipped_special_kb.
Proof. vm_compute. auto 10. Qed.
Lemma shipped_fit journals books : fit_books books = true -> fit_kbs (shipped_with journals books) = true.
Proof.
  intros B. unfold fit_kbs, shipped_with. cbn [k_journals k_journals_re k_reports k_collabs k_books]. rewrite journals_fit, B.
  assert (fit_journals_re shipped_re_kb = true) as -> by (vm_compute; reflexivity). assert (fit_reports shipped_reports_kb = true) as -> by (vm_compute; reflexivity).
  assert (fit_collabs shipped_collabs_kb = true) as -> by (vm_compute; reflexivity). reflexivity.
Qed.
Lemma journals_loaded F s kb : load_kb_by_type F Tjournals s = Ok (Ljournals kb) -> forall phrase, In phrase (jk_keys kb) ->
  (exists p, assoc_str phrase (jk_search kb) = Some p) /\ (exists t, assoc_str phrase (jk_std kb) = Some t) /\ forall c, In c phrase -> is_lower_ascii c = false.
Proof.
  cbn [load_kb_by_type]. intros H t I. destruct (load_pairs F s) as [rows|]; [|discriminate]. cbn [bind] in H. injection H as <-. destruct (journals_assoc rows t) as (A & B & C). pose proof I as J. apply C in I. rewrite A, B.
  apply journals_keys in J as (r & _ & J). split; [|split].
  - destruct (last_seek t rows); [eauto|]. destruct (first_repl t (map snd rows)); [eauto|]. destruct I; congruence.
  - destruct (last_seek t rows); [eauto|]. destruct (first_repl t (map snd rows)); [eauto|]. destruct I; congruence.
  - intros c Ic. destruct J as [->| ->]; [eapply seek_no_lower|eapply repl_no_lower]; eauto.
Qed.
Lemma shipped_exceptions E cb format journals rows books only source :
  fit_env E = true -> (forall f, cb = Some f -> fit_callback f) -> fit_format format = true ->
  Forall full_row rows -> build_books_kb rows = Ok books -> Forall short (split_lines source []) ->
  match extract_references_from_string (mkopt E (Ok (shipped_with journals books)) cb format) only source with Ok _ => True | Err e => e = IndexError \/ e = ValueError end.
Proof.
  intros Fe Fc Ff R B S. set (O := mkopt _ _ _ _). assert (good [IndexError; ValueError] (fun _ => True) (extract_references_from_string O only source)) as G.
  { apply string_good; auto; [now left|intros K _; right; cbn; auto|].
    exists (shipped_with journals books). split; [reflexivity|]. split; auto. split; [apply shipped_fit; eapply books_fit; eauto|]. auto. }
  destruct (extract_references_from_string O only source); auto. cbn in G. intuition congruence.
Qed.
