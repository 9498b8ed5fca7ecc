(** The readings of a report number are the texts of the grammar, and the patterns of the shipped knowledge base find them (C63). *)
From Coq Require Import Arith NArith Bool String Lia List.
From Verif Require Import PyStr ListFacts Regex RegexMeta RegexLang RegexParse CaptureLang TaggerProofs Kbs Tag KbFit CollabGrammar ReportGrammar ShippedForms ReportProofs ReportForms.
Import ListNotations.
Local Open Scope nat_scope.
Local Open Scope list_scope.
Local Notation length := List.length.

(** ** Readings and texts *)
Lemma skip_front {A} (u b : list A) : skipn (length u) (u ++ b) = b.
Proof. rewrite skipn_app, skipn_all, Nat.sub_diag. reflexivity. Qed.
Lemma is_in_one l c : is_in l c = true <-> one_of l c.
Proof. unfold is_in, one_of. rewrite existsb_exists. split; [intros (x & I & E); apply N.eqb_eq in E; now subst|]. intros I. exists c. now rewrite N.eqb_refl. Qed.
Lemma first_if_text (P : ch -> Prop) f w s : (forall d, f d = true <-> P d) -> In w (first_if f s) <-> exists b, s = w ++ b /\ exists d, w = [d] /\ P d.
Proof.
  intros F. rewrite first_if_in. split.
  - intros (d & t & -> & -> & E). exists t. split; auto. exists d. split; auto. now apply F.
  - intros (b & -> & d & -> & E). exists d, b. rewrite F. auto.
Qed.
Lemma while_in f w : forall s, In w (all_while f s) <-> forallb f w = true /\ exists b, s = w ++ b.
Proof.
  induction w as [|c w IH]; intros s.
  - split; [intros _; split; [auto|now exists s]|]. intros _. destruct s as [|d s]; cbn; auto. destruct (f d); [apply in_app_iff; right|]; now left.
  - destruct s as [|d s]; cbn.
    + split; [intros [H|[]]; discriminate|]. intros (_ & b & H). discriminate.
    + destruct (f d) eqn:E.
      * rewrite in_app_iff, in_map_iff. split.
        -- intros [(x & H & I)|[H|[]]]; [|discriminate]. injection H as <- <-. apply IH in I as (F & b & ->). split; [now rewrite E|now exists b].
        -- intros (F & b & H). injection H as -> ->. apply andb_true_iff in F as (F1 & F2). left. exists w. split; auto. apply IH. split; auto. now exists b.
      * split; [intros [H|[]]; discriminate|]. intros (F & b & H). injection H as -> ->. rewrite E in F. discriminate.
Qed.
Lemma piece_said p a w s : In w (piece_readings p a s) <-> exists b, s = w ++ b /\ piece_text p a w b.
Proof.
  destruct p; cbn [piece_readings piece_text].
  - apply first_if_text. tauto.
  - rewrite in_app_iff, (first_if_text (fun d => is_digit d = true)) by tauto. cbn [In]. split.
    + intros [(b & E & H)|[<-|[]]]; [exists b; auto|exists s; auto].
    + intros (b & -> & [->|H]); auto. left. eauto.
  - rewrite while_in. split.
    + intros (F & b & ->). exists b. split; auto.
    + intros (b & -> & F). split; auto. now exists b.
  - split.
    + destruct s as [|c [|x [|y [|z s]]]]; try contradiction. destruct (is_in "12" c && is_digit x && is_digit y && is_digit z) eqn:E; [|contradiction]. intros [<-|[]].
      apply andb_true_iff in E as (E & E4). apply andb_true_iff in E as (E & E3). apply andb_true_iff in E as (E1 & E2). apply is_in_one in E1. exists s. split; auto. exists c, x, y, z. auto.
    + intros (b & -> & c & x & y & z & -> & E1 & E2 & E3 & E4). apply is_in_one in E1. cbn [app]. rewrite E1, E2, E3, E4. now left.
  - split.
    + destruct s as [|x [|y s]]; try contradiction. destruct (is_digit x && is_digit y) eqn:E; [|contradiction]. intros [<-|[]]. apply andb_true_iff in E as (E1 & E2). exists s. split; auto. exists x, y. auto.
    + intros (b & -> & x & y & -> & E1 & E2). cbn [app]. rewrite E1, E2. now left.
  - split.
    + destruct s as [|x [|y s]]; try contradiction. match goal with |- In _ (if ?t then _ else _) -> _ => destruct t eqn:E end; [|contradiction]. intros [<-|[]]. apply existsb_exists in E as (m & I & E). destruct (list_eq_dec N.eq_dec m [x; y]) as [->|]; [|discriminate]. exists s. auto.
    + intros (b & -> & I). assert (exists x y, w = [x; y]) as (x & y & ->) by (vm_compute in I; repeat (destruct I as [I|I]; [subst w; eauto|]); destruct I). cbn [app].
      assert (existsb (fun m => if list_eq_dec N.eq_dec m [x; y] then true else false) months = true) as ->; [|now left]. apply existsb_exists. exists [x; y]. split; auto. now destruct (list_eq_dec N.eq_dec [x; y] [x; y]).
  - apply first_if_text. tauto.
  - apply first_if_text. apply is_in_one.
  - rewrite exactly_in. split; [intros (-> & b & ->); now exists b|intros (b & -> & ->); split; [auto|now exists b]].
  - rewrite !in_app_iff. assert (In w (match py o with [] => [] | _ => exactly (py w0 ++ py o) s end) <-> py o <> [] /\ w = py w0 ++ py o /\ exists b, s = w ++ b) as ->.
    { destruct (py o) as [|c v]; [cbn; split; [tauto|intros (H & _); congruence]|]. rewrite exactly_in. split; [intros (-> & H)|intros (_ & -> & H)]; intuition discriminate. }
    rewrite exactly_in. cbn [In]. split.
    + intros [(_ & -> & b & E)|[(-> & b & E)|[<-|[]]]]; [exists b|exists b|exists s]; auto.
    + intros (b & -> & [->|[->|E]]); auto; [right; left; split; [auto|now exists b]|]. destruct (py o) as [|c v] eqn:Eo.
      * right. left. rewrite app_nil_r in E. rewrite E. split; [auto|now exists b].
      * left. split; [discriminate|]. split; [auto|now exists b].
  - rewrite in_app_iff, !exactly_in. split.
    + intros [(-> & b & ->)|(-> & b & ->)]; exists b; auto.
    + intros (b & -> & [->| ->]); [left|right]; (split; [auto|now exists b]).
  - destruct (xorb (wordy (rev a)) (wordy s)) eqn:E; cbn [In].
    + split; [intros [<-|[]]; exists s; repeat split; auto; intros F; rewrite F, xorb_nilpotent in E; discriminate|]. intros (b & _ & -> & _). auto.
    + apply xorb_eq in E. split; [tauto|]. intros (b & -> & -> & H). cbn [app] in E. congruence.
Qed.
Lemma number_said f : forall a w s, In w (number_readings f a s) <-> exists b, s = w ++ b /\ number_text f a w b.
Proof.
  induction f as [|p f IH]; intros a w s; cbn [number_readings number_text].
  - cbn. split; [intros [<-|[]]; now exists s|]. intros (b & -> & ->). auto.
  - rewrite in_flat_map. split.
    + intros (u & I & J). apply in_map_iff in J as (v & <- & J). apply piece_said in I as (b & -> & H). rewrite skip_front in J. apply IH in J as (b' & -> & J). exists b'. rewrite <- app_assoc. split; auto. exists u, v. auto.
    + intros (b & -> & u & v & -> & H & J). exists u. split; [apply piece_said; exists (v ++ b); now rewrite <- app_assoc|]. apply in_map. rewrite <- app_assoc, skip_front. apply IH. now exists b.
Qed.
Lemma maybe_said l w s : In w (first_if (is_in l) s ++ [[]]) <-> exists b, s = w ++ b /\ maybe_one l w.
Proof.
  rewrite in_app_iff, (first_if_text (one_of l)) by (intros; apply is_in_one). cbn [In]. split.
  - intros [(b & E & H)|[<-|[]]]; [exists b; split; [auto|now right]|exists s; split; [auto|now left]].
  - intros (b & -> & [->|H]); auto. left. eauto.
Qed.
Lemma lead_said a l s : In l (lead_readings a s) <-> exists b, s = l ++ b /\ lead_text a l.
Proof.
  unfold lead_readings. rewrite in_app_iff, (first_if_text (fun c => alnum_az c = false /\ ~ one_of "/.-" c)).
  2: { intros d. rewrite negb_true_iff, orb_false_iff, <- is_in_one, not_true_iff_false. reflexivity. }
  unfold lead_text. split.
  - intros [H|(b & E & H)]; [|exists b; auto]. destruct a; [|destruct H]. destruct H as [<-|[]]. exists s. auto.
  - intros (b & -> & [(-> & ->)|H]); [left; now left|right; eauto].
Qed.
Lemma report_said cat fs a s l br n cl : In (l, br, n, cl) (report_readings cat fs a s) <-> exists b, s = l ++ br ++ cat ++ n ++ cl ++ b /\ report_text cat fs a l br n cl b.
Proof.
  unfold report_readings, report_text. split.
  - intros I. apply in_flat_map in I as (l' & I1 & I). apply in_flat_map in I as (br' & I2 & I). apply in_flat_map in I as (c & I3 & I). apply in_flat_map in I as (f & I4 & I). apply in_flat_map in I as (n' & I5 & I). apply in_map_iff in I as (cl' & E & I6). injection E as -> -> -> ->.
    apply lead_said in I1 as (b1 & -> & H1). rewrite !skip_front in *. apply maybe_said in I2 as (b2 & -> & H2). rewrite !skip_front in *. apply exactly_in in I3 as (-> & b3 & ->). rewrite !skip_front in *.
    apply number_said in I5 as (b4 & -> & H5). rewrite !skip_front in *. apply maybe_said in I6 as (b & -> & H6). exists b. split; auto. split; auto. split; auto. split; auto. now exists f.
  - intros (b & -> & H1 & H2 & (f & H4 & H5) & H6). apply in_flat_map. exists l. split; [apply lead_said; eauto|]. rewrite skip_front. apply in_flat_map. exists br. split; [apply maybe_said; eauto|]. rewrite skip_front.
    apply in_flat_map. exists cat. split; [apply exactly_in; eauto|]. rewrite skip_front. apply in_flat_map. exists f. split; auto. apply in_flat_map. exists n. split; [apply number_said; eauto|]. rewrite skip_front. apply in_map_iff. exists cl. split; auto. apply maybe_said. eauto.
Qed.

(** ** The match *)
Definition as_read (cat a : str) (c : cand) (o : str * str * str * str) : Prop :=
  let '(l, br, n, cl) := o in fst c = l ++ br ++ cat ++ n ++ cl
  /\ lookup_group 1 (snd c) = Some (length a + length l, length a + length l + length (br ++ cat ++ n ++ cl))
  /\ lookup_group 3 (snd c) = Some (length (a ++ l ++ br ++ cat), length (a ++ l ++ br ++ cat) + length n).
Definition like (c : cand) (w : str) : Prop := fst c = w /\ Forall (fun h => 4 <= fst h) (snd c).
Lemma reads_like r R : reads r R -> exists Q, runs r Q /\ forall a s, Forall2 like (Q a s) (R a s).
Proof.
  intros (Q & H & K). exists Q. split; auto. intros a s. destruct (K a s) as (<- & G). clear K H. induction (Q a s) as [|c l IH]; constructor; [split; [auto|apply G; now left]|]. apply IH. intros d I. apply G. now right.
Qed.
Lemma flat_two {A B C D} (P : A -> B -> Prop) (S : C -> D -> Prop) f g l l' : Forall2 P l l' -> (forall x y, P x y -> Forall2 S (f x) (g y)) -> Forall2 S (flat_map f l) (flat_map g l').
Proof. intros F H. induction F; cbn; auto. apply Forall2_app; auto. Qed.
Lemma map_two {A B C} (S : B -> C -> Prop) (f : A -> B) l l' : Forall2 (fun x y => S (f x) y) l l' -> Forall2 S (map f l) l'.
Proof. induction 1; cbn; constructor; auto. Qed.
Lemma two_map {A B C} (S : A -> C -> Prop) (f : B -> C) l l' : Forall2 (fun x y => S x (f y)) l l' -> Forall2 S l (map f l').
Proof. induction 1; cbn; constructor; auto. Qed.
Lemma two_imp {A B} (P S : A -> B -> Prop) l l' : Forall2 P l l' -> (forall x y, P x y -> S x y) -> Forall2 S l l'.
Proof. induction 1; constructor; auto. Qed.
Lemma skip_high i g h : i < 4 -> Forall (fun h => 4 <= fst h) g -> lookup_group i (g ++ h) = lookup_group i h.
Proof. intros L. induction 1 as [|(j, v) g J F IH]; cbn; auto. cbn in J. destruct (Nat.eqb_spec i j); [lia|auto]. Qed.
Lemma grouped_flat {A} i Q a s (f : cand -> list A) : flat_map f (grouped i Q a s) = flat_map (fun c => f (fst c, (i, (length a, length a + length (fst c))) :: snd c)) (Q a s).
Proof. apply flat_of_map. Qed.
Lemma two_both {A B} (P : A -> B -> Prop) (S : B -> Prop) l l' : Forall2 P l l' -> (forall y, In y l' -> S y) -> Forall2 (fun x y => P x y /\ S y) l l'.
Proof. induction 1 as [|x y l l' H F IH]; intros K; constructor; [split; [auto|apply K; now left]|]. apply IH. intros z I. apply K. now right. Qed.
Lemma report_runs cat fs : forms_ok fs = true -> exists Q, runs (report_re cat fs) Q /\ forall a s, Forall2 (as_read cat a) (Q a s) (report_readings cat fs a s).
Proof.
  intros Ok.
  assert (reads lead_re lead_readings) as L.
  { unfold lead_re. apply (reads_alt _ _ (fun a s => match a with [] => [[]] | _ => [] end) (fun a s => first_if (fun c => negb (alnum_az c || is_in "/.-" c)) s)).
    - apply (reads_bare _ (fun a s => match a with [] => [[]] | _ => [] end)). apply runs_bos.
    - apply reads_cls. apply mem_lead. }
  assert (forall l, reads (opt_re (any_cls l)) (fun _ s => first_if (is_in l) s ++ [[]])) as M.
  { intros l. apply (reads_opt _ (fun _ s => first_if (is_in l) s)); [apply reads_cls; intros d; apply mem_chars|]. intros a s w I. apply first_if_in in I as (d & t & -> & -> & _). split; [discriminate|now exists t]. }
  apply reads_like in L as (Ql & L & Ll). destruct (reads_like _ _ (M "[("%string)) as (Qb & B & Lb). destruct (reads_like _ _ (M "])"%string)) as (Qe & E & Le).
  destruct (reads_like _ _ (reads_exact cat)) as (Qc & C & Lc). destruct (reads_like _ _ (forms_run fs 4 (le_n 4) Ok)) as (Qn & N & Ln).
  eexists. split; [unfold report_re; apply runs_cat; [exact L|apply runs_grp, runs_cat; [exact B|apply runs_cat; [apply runs_grp; exact C|apply runs_cat; [apply runs_grp; exact N|exact E]]]]|].
  intros a s. unfold report_readings. unfold then_ at 1. eapply flat_two; [apply Ll|]. intros (u, gu) l (<- & Gl). cbn [fst snd] in *.
  apply map_two. unfold grouped at 1. apply map_two. unfold then_ at 1. eapply flat_two; [apply Lb|]. intros (v, gv) br (<- & Gb). cbn [fst snd] in *.
  apply map_two. unfold then_ at 1. rewrite grouped_flat. apply (flat_two (fun x y => like x y /\ y = cat)); [apply two_both; [apply Lc|intros y I; now apply exactly_in in I]|]. intros (w, gw) c ((<- & Gc) & Ec). cbn [fst snd] in *. subst w.
  apply map_two. unfold then_ at 1. rewrite grouped_flat. rewrite <- flat_flat. rewrite <- !app_assoc. eapply flat_two; [apply Ln|]. intros (x, gx) n (<- & Gn). cbn [fst snd] in *.
  apply map_two. apply two_map. eapply two_imp; [apply Le|]. intros (y, gy) cl (<- & Ge). cbn [fst snd] in *.
  unfold as_read. cbn [fst snd]. split; [auto|]. split.
  - cbn [app lookup_group Nat.eqb]. rewrite app_length. auto.
  - cbn [app lookup_group Nat.eqb]. rewrite <- !app_assoc. cbn [app]. rewrite <- ?app_assoc. rewrite skip_high; [|lia|auto]. cbn [app lookup_group Nat.eqb]. now rewrite <- ?app_assoc.
Qed.

(** ** The matches of a text *)
Definition found_as (l : str) (o : mobj) (h : nat * nat * str) : Prop :=
  let '(i, k, num) := h in g_span o 1 = Some (i, i + k) /\ g_text l o 3 = Some num.
Lemma report_run cat fs a s : forms_ok fs = true -> match run (report_re cat fs) false (here a s) with
  | None => report_readings cat fs a s = []
  | Some o => exists l br n cl, hd_error (report_readings cat fs a s) = Some (l, br, n, cl) /\ m_start o = length a /\ m_end o = length a + length (l ++ br ++ cat ++ n ++ cl)
      /\ g_span o 1 = Some (length a + length l, length a + length l + length (br ++ cat ++ n ++ cl))
      /\ g_span o 3 = Some (length (a ++ l ++ br ++ cat), length (a ++ l ++ br ++ cat) + length n)
  end.
Proof.
  intros Ok. destruct (report_runs cat fs Ok) as (Q & H & K). unfold run. rewrite H. specialize (K a s). cbn [andb].
  destruct K as [|(w, g) (((l, br), n), cl) q r (E & G1 & G3) K]; [reflexivity|]. cbn [firsts at_cand fst snd] in *. unfold at_cand. cbn [fst snd]. rewrite app_nil_r.
  exists l, br, n, cl. subst w. unfold g_span. cbn [m_start m_end m_groups Nat.eqb hd_error]. unfold here. cbn [pos]. rewrite app_length. auto.
Qed.
Lemma reports_found cat fs whole : forms_ok fs = true -> cat <> [] -> exists h, report_list cat fs [] whole h /\ Forall2 (found_as whole) (re_finditer (report_re cat fs) whole) h.
Proof.
  intros Ok Ne. enough (forall n s a, length s <= n -> whole = a ++ s -> exists h, report_list cat fs a s h /\ Forall2 (found_as whole) (iter_at (report_re cat fs) (length a) (rev a) s 0) h) as H by (apply (H (length whole) whole []); auto).
  induction n as [|n IH]; intros s a L W.
  - destruct s; [|cbn in L; lia]. cbn [iter_at]. change (mkst (length a) (rev a) []) with (here a []). pose proof (report_run cat fs a [] Ok) as R. destruct (run _ false (here a [])) as [o|].
    + destruct R as (l & br & m & cl & R & _). destruct (report_readings cat fs a []) as [|x t] eqn:E; [discriminate|]. injection R as ->. assert (In (l, br, m, cl) (report_readings cat fs a [])) as I by (rewrite E; now left).
      apply report_said in I as (b & I & _). symmetry in I. apply app_eq_nil in I as (_ & I). apply app_eq_nil in I as (_ & I). apply app_eq_nil in I as (I & _). congruence.
    + exists []. split; constructor.
  - destruct s as [|c t]; [apply (IH [] a); auto; cbn; lia|]. cbn [iter_at]. change (mkst (length a) (rev a) (c :: t)) with (here a (c :: t)). pose proof (report_run cat fs a (c :: t) Ok) as R. destruct (run _ false (here a (c :: t))) as [o|].
    + destruct R as (l & br & m & cl & R & S1 & S2 & G1 & G3). destruct (report_readings cat fs a (c :: t)) as [|x y] eqn:E; [discriminate|]. injection R as ->. assert (In (l, br, m, cl) (report_readings cat fs a (c :: t))) as I by (rewrite E; now left).
      apply report_said in I as (b & I & J). remember (l ++ br ++ cat ++ m ++ cl) as w eqn:Ew. assert (c :: t = w ++ b) as Wb by (rewrite I, Ew, <- !app_assoc; auto).
      assert (w <> []) as Nw. { intros ->. symmetry in Ew. apply app_eq_nil in Ew as (_ & Ew). apply app_eq_nil in Ew as (_ & Ew). apply app_eq_nil in Ew as (Ew & _). congruence. }
      destruct w as [|x w]; [congruence|]. injection Wb as <- ->. rewrite S2. destruct (Nat.eqb_spec (length a + length (c :: w)) (length a)) as [Q|_]; [cbn in Q; lia|].
      replace (length a + length (c :: w) - length a - 1) with (length w) by (cbn; lia). rewrite iter_skip.
      destruct (IH b (a ++ c :: w)) as (h & Hl & Hf). { cbn in L. rewrite app_length in L. lia. } { rewrite W, <- app_assoc. auto. }
      exists ((length a + length l, length (br ++ cat ++ m ++ cl), m) :: h). split.
      * rewrite I. apply report_here; auto; [|now rewrite <- Ew]. rewrite <- I, E. reflexivity.
      * constructor.
        -- split; auto. unfold g_text. rewrite G3. f_equal. rewrite W, I. replace (a ++ l ++ br ++ cat ++ m ++ cl ++ b) with ((a ++ l ++ br ++ cat) ++ m ++ cl ++ b) by (now rewrite <- !app_assoc). apply slice_mid.
        -- replace (S (length a) + length w) with (length (a ++ c :: w)) by (rewrite app_length; cbn; lia). replace (rev w ++ c :: rev a) with (rev (a ++ c :: w)) by (rewrite rev_app_distr; cbn; now rewrite <- app_assoc). auto.
    + destruct (IH t (a ++ [c])) as (h & Hl & Hf). { cbn in L. lia. } { rewrite W, <- app_assoc. auto. }
      exists h. split.
      * apply report_skip; auto. intros l br m cl b Eq T. assert (In (l, br, m, cl) (report_readings cat fs a (c :: t))) as I by (apply report_said; eauto). rewrite R in I. destruct I.
      * replace (S (length a)) with (length (a ++ [c])) by (rewrite app_length; cbn; lia). replace (c :: rev a) with (rev (a ++ [c])) by (rewrite rev_app_distr; auto). auto.
Qed.

(** ** The shipped knowledge base *)
Lemma shipped_forms_fine : forallb (fun e => forms_ok (snd e) && negb (length (strip (snd (fst e))) =? 0)) shipped_keys = true.
Proof. vm_compute. reflexivity. Qed.
Lemma shipped_pattern key fs : In (key, fs) shipped_keys -> exists p, assoc_rep key (rk_search shipped_reports_kb) = Some p
  /\ forall std l, exists h, report_list (strip (snd key)) fs [] l h /\ forall e, hit p std l e <-> exists i n num, In (i, n, num) h /\ e = (i, n, std ++ hyphened num).
Proof.
  intros I. pose proof (proj1 map_ext_in_iff shipped_shape _ I) as E. cbn [fst snd] in E. eexists. split; [exact E|]. intros std l.
  pose proof (proj1 (forallb_forall _ _) shipped_forms_fine _ I) as F. cbn [fst snd] in F. apply andb_true_iff in F as (F1 & F2). apply negb_true_iff, Nat.eqb_neq in F2.
  destruct (reports_found (strip (snd key)) fs l F1) as (h & H1 & H2); [intros Z; apply F2; now rewrite Z|]. exists h. split; auto. intros e. unfold hit. cbn [rx_re]. change (group_named _ l ?o (py "numn")) with (Ok (g_text l o 3)).
  split.
  - intros (o & a & b & n & J & G & T & ->). injection T as T. clear -H2 J G T. induction H2 as [|o' ((i, k), num) os h (G' & T') F IH]; [destruct J|]. destruct J as [->|J].
    + rewrite G in G'. injection G' as -> ->. rewrite T in T'. injection T' as ->. exists i, k, num. split; [now left|]. do 2 f_equal. lia.
    + destruct (IH J) as (i' & k' & num' & Ih & Eh). exists i', k', num'. split; [now right|auto].
  - intros (i & k & num & J & ->). clear -H2 J. induction H2 as [|o' ((i', k'), num') os h (G' & T') F IH]; [destruct J|]. destruct J as [J|J].
    + injection J as -> -> ->. exists o', i, (i + k), num. split; [now left|]. split; auto. split; [now rewrite <- T'|]. do 2 f_equal. lia.
    + destruct (IH J) as (o & a & b & n & Io & Go & To & Eo). exists o, a, b, n. split; [now right|auto].
Qed.
Lemma shipped_keys_all : forallb (fun k => existsb (fun e => repkey_eqb k (fst e)) shipped_keys) (map fst (rk_std shipped_reports_kb)) = true.
Proof. vm_compute. reflexivity. Qed.
Lemma every_key key : In key (map fst (rk_std shipped_reports_kb)) -> exists fs, In (key, fs) shipped_keys.
Proof.
  intros I. pose proof (proj1 (forallb_forall _ _) shipped_keys_all _ I) as E. apply existsb_exists in E as ((k, fs) & J & E). apply key_eqb_eq in E. cbn [fst] in E. subst. now exists fs.
Qed.
Lemma in_shipped num cs fs c : In (num, cs, fs) shipped_institutes -> In c cs -> In ((num, c), fs) shipped_keys.
Proof. intros I J. unfold shipped_keys. apply in_flat_map. exists (num, cs, fs). split; auto. apply in_map_iff. now exists c. Qed.
Lemma from_shipped key fs : In (key, fs) shipped_keys -> exists cs, In (fst key, cs, fs) shipped_institutes /\ In (snd key) cs.
Proof. intros I. apply in_flat_map in I as (((n, cs), fs') & I & J). apply in_map_iff in J as (c & E & J). injection E as <- <-. now exists cs. Qed.

(** the report numbers of a text are determined *)
Lemma report_list_nil cat fs a h : cat <> [] -> report_list cat fs a [] h -> h = [].
Proof.
  intros Ne H. inversion H; auto. match goal with E : _ = [] |- _ => apply app_eq_nil in E as (_ & E); apply app_eq_nil in E as (_ & E); apply app_eq_nil in E as (E & _) end. congruence.
Qed.
Lemma report_list_one cat fs : cat <> [] -> forall n a s h h', length s <= n -> report_list cat fs a s h -> report_list cat fs a s h' -> h = h'.
Proof.
  intros Ne. induction n as [|n IH]; intros a s h h' L H H'.
  - destruct s; [|cbn in L; lia]. apply report_list_nil in H, H'; auto. congruence.
  - destruct H as [a|a x s1 h N H|a l br m cl b h T R H].
    + apply report_list_nil in H'; auto.
    + remember (x :: s1) as s' eqn:Es. destruct H' as [a'|a' x' s2 h' N' H'|a' l br m cl b h' T' R' H']; [discriminate| |].
      * injection Es as -> ->. eapply IH; eauto. cbn in L. lia.
      * elim (N l br m cl b eq_refl). auto.
    + remember (l ++ br ++ cat ++ m ++ cl ++ b) as s' eqn:Es. destruct H' as [a'|a' x' s2 h' N' H'|a' l' br' m' cl' b' h' T' R' H'].
      * exfalso. symmetry in Es. apply app_eq_nil in Es as (_ & E). apply app_eq_nil in E as (_ & E). apply app_eq_nil in E as (E & _). congruence.
      * elim (N' l br m cl b Es). auto.
      * rewrite R in R'. injection R' as <- <- <- <-. do 4 apply app_inv_head in Es. apply app_inv_head in Es. subst b'. f_equal. eapply IH; [|exact H|exact H']. destruct cat; [congruence|]. rewrite !app_length in L. cbn in L. lia.
Qed.
