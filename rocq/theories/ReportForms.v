(** What the patterns of the shipped report numbers find (C63). *)
From Coq Require Import Arith NArith Bool String Lia List.
From Verif Require Import PyStr ListFacts Regex RegexMeta RegexLang RegexParse CaptureLang TaggerProofs Kbs Tag KbFit CollabGrammar ReportGrammar ShippedForms ReportProofs.
Import ListNotations.
Local Open Scope nat_scope.
Local Open Scope list_scope.
Local Notation length := List.length.

(** ** The matcher as a search through readings *)
Fixpoint firsts {A B} (f : A -> option B) (l : list A) : option B :=
  match l with [] => None | x :: t => match f x with Some y => Some y | None => firsts f t end end.
Lemma firsts_app {A B} (f : A -> option B) l k : firsts f (l ++ k) = match firsts f l with Some y => Some y | None => firsts f k end.
Proof. induction l as [|x l IH]; cbn; auto. destruct (f x); auto. Qed.
Lemma firsts_ext {A B} (f g : A -> option B) l : (forall x, In x l -> f x = g x) -> firsts f l = firsts g l.
Proof. induction l as [|x l IH]; cbn; intros H; auto. rewrite (H x) by auto. destruct (g x); auto. Qed.
Lemma firsts_map {A B C} (f : B -> option C) (g : A -> B) l : firsts f (map g l) = firsts (fun x => f (g x)) l.
Proof. induction l as [|x l IH]; cbn; auto. destruct (f (g x)); auto. Qed.
Lemma firsts_flat {A B C} (f : B -> option C) (g : A -> list B) l : firsts f (flat_map g l) = firsts (fun x => firsts f (g x)) l.
Proof. induction l as [|x l IH]; cbn; auto. rewrite firsts_app, IH. reflexivity. Qed.

Definition cand := (str * groups)%type.
Definition at_cand (a s : str) (g : groups) (k : cont) (c : cand) : option (st * groups) := k (here (a ++ fst c) (skipn (length (fst c)) s)) (snd c ++ g).
Definition runs (r : re) (R : str -> str -> list cand) : Prop := forall a s g k, m r (here a s) g k = firsts (at_cand a s g k) (R a s).
Definition bare (l : list str) : list cand := map (fun w => (w, [])) l.
Lemma bare_fst l : map fst (bare l) = l. Proof. unfold bare. rewrite map_map. cbn. apply map_id. Qed.
Definition then_ (R1 R2 : str -> str -> list cand) (a s : str) : list cand :=
  flat_map (fun c => map (fun d => (fst c ++ fst d, snd d ++ snd c)) (R2 (a ++ fst c) (skipn (length (fst c)) s))) (R1 a s).
Definition grouped (i : nat) (R : str -> str -> list cand) (a s : str) : list cand :=
  map (fun c => (fst c, (i, (length a, length a + length (fst c))) :: snd c)) (R a s).

Lemma here_step a c s : step (here a (c :: s)) = Some (c, here (a ++ [c]) s).
Proof. unfold step, here. cbn. rewrite app_length, rev_app_distr. cbn. now rewrite Nat.add_1_r. Qed.
Lemma runs_cls k f : (forall d, cls_mem k d = f d) -> runs (Cls k) (fun a s => bare (first_if f s)).
Proof.
  intros F a s g K. cbn [m]. destruct s as [|c s]; [reflexivity|]. rewrite here_step, F. cbn [first_if]. destruct (f c); auto.
  cbn. unfold at_cand. cbn. destruct (K _ _); auto.
Qed.
Lemma runs_cat r1 r2 R1 R2 : runs r1 R1 -> runs r2 R2 -> runs (Cat r1 r2) (then_ R1 R2).
Proof.
  intros H1 H2 a s g k. rewrite m_seq, H1. unfold then_. rewrite firsts_flat. apply firsts_ext. intros (u, gu) _. unfold at_cand at 1. cbn [fst snd].
  rewrite H2, firsts_map. apply firsts_ext. intros (v, gv) _. unfold at_cand. cbn [fst snd]. rewrite app_length, <- !app_assoc, skipn_skipn. f_equal. f_equal. f_equal. lia.
Qed.
Lemma runs_alt r1 r2 R1 R2 : runs r1 R1 -> runs r2 R2 -> runs (Alt r1 r2) (fun a s => R1 a s ++ R2 a s).
Proof. intros H1 H2 a s g k. cbn [m]. rewrite H1, H2, firsts_app. unfold orelse. destruct (firsts _ _); reflexivity. Qed.
Lemma runs_grp i r R : runs r R -> runs (Grp i r) (grouped i R).
Proof.
  intros H a s g k. rewrite m_group, H. unfold grouped. rewrite firsts_map. apply firsts_ext. intros (u, gu) _. unfold at_cand. cbn [fst snd].
  unfold here at 2 3. cbn [pos]. now rewrite app_length.
Qed.
Lemma runs_ext r R R' : (forall a s, R a s = R' a s) -> runs r R -> runs r R'.
Proof. intros E H a s g k. rewrite H, E. reflexivity. Qed.
Definition proper (R : str -> str -> list cand) : Prop := forall a s c, In c (R a s) -> fst c <> [] /\ exists b, s = fst c ++ b.
Lemma runs_opt r R : runs r R -> proper R -> runs (Rep true 0 (Some 1) r) (fun a s => R a s ++ [([], [])]).
Proof.
  intros H N a s g k. rewrite m_rep. cbn [rep_loop below plus orb]. change (0 <? 1) with true. cbv iota. change (0 <? 0) with false. cbn [orb]. change (suf (here a s)) with s. rewrite firsts_app, H.
  replace (firsts _ (R a s)) with (firsts (at_cand a s g k) (R a s)).
  - unfold orelse. destruct (firsts _ (R a s)); auto. cbn. unfold at_cand. cbn. rewrite app_nil_r. destruct (k _ _); auto.
  - apply firsts_ext. intros (u, gu) I. destruct (N a s _ I) as (Nu & b & E). cbn [fst] in *. unfold at_cand. cbn [fst snd].
    assert (pos (here a s) <? pos (here (a ++ u) (skipn (length u) s)) = true) as ->.
    { unfold here. cbn [pos]. rewrite app_length. apply Nat.ltb_lt. destruct u; [congruence|]. cbn. lia. }
    destruct s as [|c s]; [destruct u; [congruence|discriminate]|]. cbn [length rep_loop below Nat.ltb Nat.leb orelse]. reflexivity.
Qed.
Lemma runs_many k f : (forall d, cls_mem k d = f d) -> runs (Rep true 0 None (Cls k)) (fun a s => bare (all_while f s)).
Proof.
  intros F a s g K. rewrite m_rep. change (suf (here a s)) with s. cbn [plus].
  enough (forall s a n fuel, length s < fuel -> rep_loop true 0 None (Cls k) K fuel n (here a s) g = firsts (fun w => K (here (a ++ w) (skipn (length w) s)) g) (all_while f s)) as Q.
  { rewrite Q by lia. unfold bare. rewrite firsts_map. apply firsts_ext. intros w _. reflexivity. }
  clear a s. induction s as [|c s IH]; intros a n fuel L; (destruct fuel as [|fuel]; [cbn in L; lia|]); cbn [rep_loop below].
  - cbn [m]. cbn. rewrite app_nil_r. destruct (K _ _); auto.
  - cbn [m]. rewrite here_step, F. cbn [all_while].
    assert (pos (here a (c :: s)) <? pos (here (a ++ [c]) s) = true) as -> by (unfold here; cbn [pos]; rewrite app_length; apply Nat.ltb_lt; cbn; lia). rewrite orb_true_r.
    destruct (f c).
    + rewrite IH by (cbn in L; lia). rewrite firsts_app, firsts_map. unfold orelse.
      replace (firsts (fun x => K (here (a ++ c :: x) (skipn (length (c :: x)) (c :: s))) g) (all_while f s)) with (firsts (fun w => K (here ((a ++ [c]) ++ w) (skipn (length w) s)) g) (all_while f s)).
      2: { apply firsts_ext. intros w _. rewrite <- app_assoc. reflexivity. }
      destruct (firsts _ _); auto. cbn. rewrite app_nil_r. destruct (K _ _); auto.
    + unfold orelse. cbn. rewrite app_nil_r. destruct (K _ _); auto.
Qed.
Lemma m_three k a s g K : m (Cat (Cls k) (Cat (Cls k) (Cls k))) (here a s) g K = m (Rep true 3 (Some 3) (Cls k)) (here a s) g K.
Proof.
  rewrite m_rep. change (suf (here a s)) with s.
  cbn [m]. destruct s as [|x s]; [reflexivity|]. cbn [rep_loop below plus length Nat.ltb Nat.leb orb m]. rewrite !here_step. destruct (cls_mem k x); [|reflexivity].
  destruct s as [|y s]; [reflexivity|]. rewrite !here_step. destruct (cls_mem k y); [|reflexivity].
  destruct s as [|z s]; [reflexivity|]. rewrite !here_step. destruct (cls_mem k z); [|reflexivity].
  cbn. unfold orelse. destruct (K _ _); reflexivity.
Qed.
Lemma runs_eps : runs Eps (fun _ _ => [([], [])]).
Proof. intros a s g k. cbn. unfold at_cand. cbn. rewrite app_nil_r. destruct (k _ _); auto. Qed.
Lemma runs_wordb : runs Wordb (fun a s => bare (if xorb (wordy (rev a)) (wordy s) then [[]] else [])).
Proof.
  intros a s g k. cbn [m]. change (at_boundary (here a s)) with (xorb (wordy (rev a)) (wordy s)). destruct (xorb _ _); auto.
  cbn. unfold at_cand. cbn. rewrite app_nil_r. destruct (k _ _); auto.
Qed.
Lemma runs_bos : runs Bos (fun a s => bare (match a with [] => [[]] | _ => [] end)).
Proof.
  intros a s g k. cbn [m]. destruct a as [|c a].
  - cbn. unfold at_cand. cbn. destruct (k _ _); auto.
  - unfold here at 1. cbn. destruct (rev a ++ [c]) eqn:E; [destruct (rev a); discriminate|]. reflexivity.
Qed.

(** ** Readings without their groups *)
Definition reads (r : re) (R : str -> str -> list str) : Prop := exists Q, runs r Q /\ forall a s, map fst (Q a s) = R a s /\ forall c, In c (Q a s) -> Forall (fun h => 4 <= fst h) (snd c).
Definition both (R1 R2 : str -> str -> list str) (a s : str) : list str := flat_map (fun u => map (app u) (R2 (a ++ u) (skipn (length u) s))) (R1 a s).
Lemma reads_ext r R R' : (forall a s, R a s = R' a s) -> reads r R -> reads r R'.
Proof. intros E (Q & H & K). exists Q. split; auto. intros a s. rewrite <- E. apply K. Qed.
Lemma reads_bare r (R : str -> str -> list str) : runs r (fun a s => bare (R a s)) -> reads r R.
Proof.
  intros H. exists (fun a s => bare (R a s)). split; auto. intros a s. split; [apply bare_fst|].
  intros c I. unfold bare in I. apply in_map_iff in I as (w & <- & _). constructor.
Qed.
Lemma reads_cls k f : (forall d, cls_mem k d = f d) -> reads (Cls k) (fun a s => first_if f s).
Proof. intros F. apply reads_bare. now apply runs_cls. Qed.
Lemma map_flat {A B C} (f : B -> C) (g : A -> list B) l : map f (flat_map g l) = flat_map (fun x => map f (g x)) l.
Proof. induction l as [|x l IH]; cbn; auto. now rewrite map_app, IH. Qed.
Lemma flat_of_map {A B C} (f : B -> list C) (g : A -> B) l : flat_map f (map g l) = flat_map (fun x => f (g x)) l.
Proof. induction l as [|x l IH]; cbn; auto. now rewrite IH. Qed.
Lemma reads_cat r1 r2 R1 R2 : reads r1 R1 -> reads r2 R2 -> reads (Cat r1 r2) (both R1 R2).
Proof.
  intros (Q1 & H1 & K1) (Q2 & H2 & K2). exists (then_ Q1 Q2). split; [now apply runs_cat|]. intros a s. unfold then_, both. split.
  - rewrite map_flat. destruct (K1 a s) as (<- & _). rewrite flat_of_map. apply flat_map_ext. intros (u, gu). cbn [fst snd]. rewrite map_map. cbn [fst].
    destruct (K2 (a ++ u) (skipn (length u) s)) as (<- & _). now rewrite map_map.
  - intros c I. apply in_flat_map in I as (d & I & J). apply in_map_iff in J as (e & <- & J). cbn. apply Forall_app. split; [exact (proj2 (K2 _ _) _ J)|exact (proj2 (K1 _ _) _ I)].
Qed.
Lemma reads_alt r1 r2 R1 R2 : reads r1 R1 -> reads r2 R2 -> reads (Alt r1 r2) (fun a s => R1 a s ++ R2 a s).
Proof.
  intros (Q1 & H1 & K1) (Q2 & H2 & K2). exists (fun a s => Q1 a s ++ Q2 a s). split; [now apply runs_alt|]. intros a s. split.
  - rewrite map_app. f_equal; [apply K1|apply K2].
  - intros c I. apply in_app_iff in I as [I|I]; [now apply (K1 a s)|now apply (K2 a s)].
Qed.
Lemma reads_grp i r R : 4 <= i -> reads r R -> reads (Grp i r) R.
Proof.
  intros L (Q & H & K). exists (grouped i Q). split; [now apply runs_grp|]. intros a s. unfold grouped. split.
  - rewrite map_map. cbn. apply K.
  - intros c I. apply in_map_iff in I as (d & <- & I). cbn. constructor; auto. now apply (K a s).
Qed.
Definition prefixes (R : str -> str -> list str) : Prop := forall a s w, In w (R a s) -> w <> [] /\ exists b, s = w ++ b.
Lemma reads_opt r R : reads r R -> prefixes R -> reads (Rep true 0 (Some 1) r) (fun a s => R a s ++ [[]]).
Proof.
  intros (Q & H & K) N. exists (fun a s => Q a s ++ [([], [])]). split.
  - apply runs_opt; auto. intros a s c I. apply (N a s). destruct (K a s) as (<- & _). now apply in_map.
  - intros a s. split; [rewrite map_app; f_equal; apply K|]. intros c I. apply in_app_iff in I as [I|[<-|[]]]; [now apply (K a s)|constructor].
Qed.
Lemma reads_m r r' R : (forall a s g k, m r (here a s) g k = m r' (here a s) g k) -> reads r R -> reads r' R.
Proof. intros E (Q & H & K). exists Q. split; auto. intros a s g k. rewrite <- E. apply H. Qed.
Lemma reads_eps : reads Eps (fun _ _ => [[]]).
Proof. apply (reads_bare Eps (fun _ _ => [[]])). apply runs_eps. Qed.

(** ** Sequences *)
Fixpoint seqs (l : list re) : re := match l with [] => Eps | [r] => r | r :: t => Cat r (seqs t) end.
Lemma seqs_cons r l x g k : m (seqs (r :: l)) x g k = m r x g (fun y h => m (seqs l) y h k).
Proof. destruct l as [|r' l]; [|reflexivity]. reflexivity. Qed.
Definition none_ : str -> str -> list str := fun _ _ => [[]].
Definition all (Rs : list (str -> str -> list str)) : str -> str -> list str := fold_right both none_ Rs.
Lemma flat_single {A B} (f : A -> B) l : flat_map (fun x => [f x]) l = map f l.
Proof. induction l as [|x l IH]; cbn; congruence. Qed.
Lemma both_none R a s : both R none_ a s = R a s.
Proof. unfold both, none_. cbn. rewrite flat_single. rewrite <- (map_id (R a s)) at 2. apply map_ext. apply app_nil_r. Qed.
Lemma both_some R a s : both none_ R a s = R a s.
Proof. unfold both, none_. cbn. rewrite app_nil_r, app_nil_r. apply map_id. Qed.
Lemma both_ext R1 R2 R1' R2' : (forall a s, R1 a s = R1' a s) -> (forall a s, R2 a s = R2' a s) -> forall a s, both R1 R2 a s = both R1' R2' a s.
Proof. intros H1 H2 a s. unfold both. rewrite H1. apply flat_map_ext. intros u. now rewrite H2. Qed.
Lemma flat_flat {A B C} (f : B -> list C) (g : A -> list B) l : flat_map f (flat_map g l) = flat_map (fun x => flat_map f (g x)) l.
Proof. induction l as [|x l IH]; cbn; auto. now rewrite flat_map_app, IH. Qed.
Lemma both_assoc R1 R2 R3 a s : both (both R1 R2) R3 a s = both R1 (both R2 R3) a s.
Proof.
  unfold both. rewrite flat_flat. apply flat_map_ext. intros u. rewrite flat_of_map, map_flat. apply flat_map_ext. intros v.
  rewrite map_map, app_length, app_assoc, skipn_skipn. replace (length u + length v) with (length v + length u) by lia. apply map_ext. intros w. now rewrite app_assoc.
Qed.
Lemma all_app A B a s : all (A ++ B) a s = both (all A) (all B) a s.
Proof.
  revert a s. induction A as [|R A IH]; intros a s; cbn [app all fold_right].
  - now rewrite both_some.
  - rewrite both_assoc. apply both_ext; auto.
Qed.
Lemma reads_seqs l Rs : Forall2 reads l Rs -> reads (seqs l) (all Rs).
Proof.
  induction 1 as [|r R l Rs H F IH]; [apply reads_eps|]. destruct F as [|r' R' l Rs' H' F].
  - apply (reads_ext r R); auto. intros a s. symmetry. apply both_none.
  - now apply reads_cat.
Qed.

(** ** The pieces *)
Definition one_cls (c : ch) : re := Cls (mkcls false false [CRange c c]).
Definition any_cls (l : string) : re := Cls (mkcls false false (map (fun c => CRange c c) (py l))).
Definition lit_atoms (w : str) : list re := map one_cls w.
Definition digit_re : re := Cls (mkcls false false [CDigit true]).
Definition opt_re (r : re) : re := Rep true 0 (Some 1) r.
Definition span_re (a b : ch) : re := Cls (mkcls false false [CRange a b]).
Definition month_re : re := Alt (seqs [one_cls 48%N; span_re 49%N 57%N]) (seqs [one_cls 49%N; span_re 48%N 50%N]).
Definition piece_atoms (n : nat) (p : piece) : list re :=
  match p with
  | Digit => [digit_re]
  | MaybeDigit => [opt_re digit_re]
  | Blanks => [Rep true 0 None (Cls (mkcls false false [CSpace true]))]
  | Year4 => [any_cls "12"; Rep true 3 (Some 3) digit_re]
  | Year2 => [digit_re; digit_re]
  | Month => [Grp n month_re]
  | Letter => [Cls (mkcls false false [CRange 65 90; CRange 97 122])]
  | OneChar l => [any_cls l]
  | Exact w => lit_atoms (py w)
  | Maybe u o => [opt_re (seqs (lit_atoms (py u) ++ match py o with [] => [] | _ => [opt_re (seqs (lit_atoms (py o)))] end))]
  | Either u v => [Alt (seqs (lit_atoms (py u))) (seqs (lit_atoms (py v)))]
  | WordEdge => [Wordb]
  end.
Definition next_group (n : nat) (p : piece) : nat := match p with Month => S n | _ => n end.
Fixpoint form_atoms (n : nat) (f : list piece) : list re * nat :=
  match f with [] => ([], n) | p :: f => let '(l, n') := form_atoms (next_group n p) f in (piece_atoms n p ++ l, n') end.
Fixpoint forms_re (n : nat) (fs : list (list piece)) : re :=
  match fs with
  | [] => Eps
  | [f] => seqs (fst (form_atoms n f))
  | f :: fs => let '(l, n') := form_atoms n f in Alt (seqs l) (forms_re n' fs)
  end.
Definition lead_re : re := Alt Bos (Cls (mkcls true false [CRange 97 122; CRange 65 90; CRange 48 57; CRange 47 47; CRange 46 46; CRange 45 45])).
Definition report_re (cat : str) (fs : list (list piece)) : re :=
  Cat lead_re (Grp 1 (Cat (opt_re (any_cls "[(")) (Cat (Grp 2 (seqs (lit_atoms cat))) (Cat (Grp 3 (forms_re 4 fs)) (opt_re (any_cls "])")))))).

Definition shipped_keys : list (repkey * list (list piece)) := flat_map (fun '(n, cs, fs) => map (fun c => ((n, c), fs)) cs) shipped_institutes.
Lemma shipped_shape : map (fun e => assoc_rep (fst e) (rk_search shipped_reports_kb)) shipped_keys
  = map (fun e => Some (mkrx (report_re (strip (snd (fst e))) (snd e)) [(py "numn", 3); (py "categ", 2)])) shipped_keys.
Proof. vm_compute. reflexivity. Qed.

(** ** What the pieces read *)
Lemma mem_digit d : cls_mem (mkcls false false [CDigit true]) d = is_digit d. Proof. classes. Qed.
Lemma mem_space d : cls_mem (mkcls false false [CSpace true]) d = is_space d. Proof. classes. Qed.
Lemma mem_chars l d : cls_mem (mkcls false false (map (fun c => CRange c c) l)) d = existsb (N.eqb d) l.
Proof. rewrite class_items. induction l as [|c l IH]; auto. cbn [map existsb item_mem]. now rewrite range_one, IH. Qed.
Lemma mem_span a b d : cls_mem (mkcls false false [CRange a b]) d = in_range a b d.
Proof. rewrite class_items. cbn. now rewrite orb_false_r. Qed.
Lemma mem_letter d : cls_mem (mkcls false false [CRange 65 90; CRange 97 122]) d = letter_az d.
Proof. rewrite class_items. cbn. unfold letter_az. now rewrite orb_false_r. Qed.
Lemma mem_one c d : cls_mem (mkcls false false [CRange c c]) d = N.eqb d c.
Proof. rewrite mem_span. apply range_one. Qed.
Lemma mem_lead d : cls_mem (mkcls true false [CRange 97 122; CRange 65 90; CRange 48 57; CRange 47 47; CRange 46 46; CRange 45 45]) d = negb (alnum_az d || is_in "/.-" d).
Proof.
  unfold cls_mem. cbn [c_neg c_ci c_items existsb item_mem xorb]. f_equal. unfold alnum_az, letter_az, is_in. rewrite !range_one. change (py "/.-") with [47; 46; 45]%N. cbn [existsb].
  destruct (in_range 97 122 d), (in_range 65 90 d), (in_range 48 57 d); reflexivity.
Qed.
Definition lit_reads (w : str) : list (str -> str -> list str) := map (fun c (_ s : str) => first_if (fun d => N.eqb d c) s) w.
Lemma lits_read w : Forall2 reads (lit_atoms w) (lit_reads w).
Proof. induction w as [|c w IH]; constructor; auto. apply reads_cls. intros d. apply mem_one. Qed.
Lemma lits_exact w : forall a s, all (lit_reads w) a s = exactly w s.
Proof.
  induction w as [|c w IH]; intros a s; [reflexivity|]. cbn [lit_reads map all fold_right]. unfold both. destruct s as [|d s]; [reflexivity|]. cbn [first_if].
  unfold exactly. cbn [prefixb]. rewrite (N.eqb_sym c d). destruct (N.eqb_spec d c) as [->|]; [|reflexivity]. cbn [flat_map length skipn andb]. rewrite app_nil_r.
  change (fold_right both none_ (map _ w)) with (all (lit_reads w)). rewrite IH. unfold exactly. destruct (prefixb w s); reflexivity.
Qed.
Lemma exactly_in w u s : In u (exactly w s) <-> u = w /\ exists b, s = w ++ b.
Proof. unfold exactly. destruct (prefixb w s) eqn:E; cbn; rewrite <- (prefixb_app w s), E; intuition congruence. Qed.
Lemma reads_exact w : reads (seqs (lit_atoms w)) (fun _ s => exactly w s).
Proof. apply (reads_ext _ (all (lit_reads w))); [intros; apply lits_exact|]. apply reads_seqs. apply lits_read. Qed.
Lemma first_if_in f w s : In w (first_if f s) <-> exists d t, s = d :: t /\ w = [d] /\ f d = true.
Proof.
  destruct s as [|d s]; cbn; [split; [tauto|intros (d & t & H & _); discriminate]|]. destruct (f d) eqn:E; cbn.
  - split; [intros [<-|[]]; eauto 6|]. intros (d' & t & H & -> & _). injection H as <- <-. auto.
  - split; [tauto|]. intros (d' & t & H & -> & F). injection H as <- <-. congruence.
Qed.
Lemma months_are x y : existsb (fun m => if list_eq_dec N.eq_dec m [x; y] then true else false) months = (N.eqb x 48 && in_range 49 57 y) || (N.eqb x 49 && in_range 48 50 y).
Proof.
  apply eq_iff_eq_true. rewrite existsb_exists, orb_true_iff, !andb_true_iff, !N.eqb_eq. unfold in_range. rewrite !andb_true_iff, !N.leb_le. split.
  - intros (w & I & E). destruct (list_eq_dec N.eq_dec w [x; y]) as [->|]; [|discriminate]. vm_compute in I.
    repeat (destruct I as [I|I]; [injection I as <- <-; lia|]). destruct I.
  - intros H. exists [x; y]. split; [|now destruct (list_eq_dec N.eq_dec [x; y] [x; y])].
    assert (forall q, x = 48%N -> y = q -> In [48%N; q] months -> In [x; y] months) as A by (intros q -> -> ?; auto).
    assert (forall q, x = 49%N -> y = q -> In [49%N; q] months -> In [x; y] months) as B by (intros q -> -> ?; auto).
    destruct H as [(X & L & U)|(X & L & U)].
    + assert (y = 49 \/ y = 50 \/ y = 51 \/ y = 52 \/ y = 53 \/ y = 54 \/ y = 55 \/ y = 56 \/ y = 57)%N as H by lia.
      repeat (destruct H as [H|H]; [eapply A; [auto|exact H|]; vm_compute; tauto|]). eapply A; [auto|exact H|]. vm_compute; tauto.
    + assert (y = 48 \/ y = 49 \/ y = 50)%N as H by lia.
      repeat (destruct H as [H|H]; [eapply B; [auto|exact H|]; vm_compute; tauto|]). eapply B; [auto|exact H|]. vm_compute; tauto.
Qed.
Lemma both_ones f h a s : both (fun _ s => first_if f s) (fun _ s => first_if h s) a s = match s with x :: y :: _ => if f x && h y then [[x; y]] else [] | _ => [] end.
Proof. unfold both. destruct s as [|x [|y s]]; cbn; auto; destruct (f x); cbn; auto. destruct (h y); auto. Qed.

Definition piece_reads (p : piece) : list (str -> str -> list str) :=
  match p with
  | Year4 => [fun _ s => first_if (is_in "12") s; both (fun _ s => first_if is_digit s) (both (fun _ s => first_if is_digit s) (fun _ s => first_if is_digit s))]
  | Year2 => [fun _ s => first_if is_digit s; fun _ s => first_if is_digit s]
  | Exact w => lit_reads (py w)
  | p => [piece_readings p]
  end.
Lemma both_exact u v a s : both (fun _ s => exactly u s) (fun _ s => exactly v s ++ [[]]) a s = exactly (u ++ v) s ++ exactly u s.
Proof.
  unfold both. assert (exactly u s = if prefixb u s then [u] else []) as -> by reflexivity. destruct (prefixb u s) eqn:E.
  - apply prefixb_app in E as (b & ->). cbn [flat_map]. rewrite app_nil_r, skipn_app, skipn_all, Nat.sub_diag, map_app. cbn [skipn app map]. rewrite app_nil_r. f_equal.
    unfold exactly. replace (prefixb (u ++ v) (u ++ b)) with (prefixb v b). { now destruct (prefixb v b). }
    apply eq_iff_eq_true. rewrite !prefixb_app. split; [intros (t & ->)|intros (t & H)]; exists t; [now rewrite app_assoc|]. rewrite <- app_assoc in H. now apply app_inv_head in H.
  - unfold exactly. destruct (prefixb (u ++ v) s) eqn:E2; auto. apply prefixb_app in E2 as (b & ->). assert (prefixb u ((u ++ v) ++ b) = true) as E3; [|congruence]. apply prefixb_app. exists (v ++ b). now rewrite app_assoc.
Qed.
Definition piece_ok (p : piece) : bool := match p with Maybe w _ => negb (length (py w) =? 0) | _ => true end.
Lemma piece_runs n p : 4 <= n -> piece_ok p = true -> Forall2 reads (piece_atoms n p) (piece_reads p).
Proof.
  intros L Ok. destruct p; cbn [piece_atoms piece_reads]; try (apply lits_read); repeat constructor; unfold piece_readings;
    try (apply reads_cls; first [apply mem_digit|apply mem_letter|intros d; apply mem_chars]).
  - apply reads_opt; [apply reads_cls, mem_digit|]. intros a s w I. apply first_if_in in I as (d & t & -> & -> & _). split; [discriminate|]. now exists t.
  - apply (reads_bare _ (fun _ s => all_while is_space s)). apply runs_many. apply mem_space.
  - eapply reads_m; [apply m_three|]. repeat apply reads_cat; apply reads_cls, mem_digit.
  - apply reads_grp; auto.
    apply (reads_ext _ (fun a s => both (fun _ s => first_if (fun d => N.eqb d 48) s) (fun _ s => first_if (in_range 49 57) s) a s ++ both (fun _ s => first_if (fun d => N.eqb d 49) s) (fun _ s => first_if (in_range 48 50) s) a s)).
    + intros a s. rewrite !both_ones. destruct s as [|x [|y s]]; auto. rewrite months_are. destruct (N.eqb_spec x 48) as [->|]; cbn; [|destruct (_ && _); auto]. destruct (in_range 49 57 y); auto.
    + apply reads_alt; cbn [seqs]; apply reads_cat; apply reads_cls; intros d; first [apply mem_one|apply mem_span].
  - cbn in Ok. apply negb_true_iff, Nat.eqb_neq in Ok.
    apply (reads_ext _ (fun a s => (match py o with [] => [] | _ => exactly (py w ++ py o) s end ++ exactly (py w) s) ++ [[]])); [intros a s; now rewrite app_assoc|].
    apply (reads_opt _ (fun a s => (match py o with [] => [] | _ => exactly (py w ++ py o) s end ++ exactly (py w) s))).
    + destruct (py o) as [|c v] eqn:E.
      * rewrite app_nil_r. apply reads_exact.
      * rewrite <- E. apply (reads_ext _ (all (lit_reads (py w) ++ [fun _ s => exactly (py o) s ++ [[]]]))).
        -- intros a s. rewrite all_app. rewrite <- both_exact with (a := a). apply both_ext; [apply lits_exact|]. intros a' s'. apply both_none.
        -- apply reads_seqs. apply Forall2_app; [apply lits_read|]. repeat constructor. apply (reads_opt _ (fun _ s => exactly (py o) s)); [apply reads_exact|].
           intros a s x I. apply exactly_in in I as (-> & b & ->). split; [rewrite E; discriminate|eauto].
    + intros a s x I. apply in_app_iff in I as [I|I].
      * destruct (py o); [destruct I|]. apply exactly_in in I as (-> & b & ->). split; [|eauto]. destruct (py w); [cbn in Ok; congruence|discriminate].
      * apply exactly_in in I as (-> & b & ->). split; [|eauto]. destruct (py w); [cbn in Ok; congruence|discriminate].
  - apply reads_alt; apply reads_exact.
  - apply (reads_bare _ (fun a s => if xorb (wordy (rev a)) (wordy s) then [[]] else [])). apply runs_wordb.
Qed.

Lemma piece_all p a s : all (piece_reads p) a s = piece_readings p a s.
Proof.
  destruct p; try (apply both_none).
  - cbn [piece_reads all fold_right]. rewrite (both_ext _ _ _ (both (fun _ s => first_if is_digit s) (both (fun _ s => first_if is_digit s) (fun _ s => first_if is_digit s))) (fun _ _ => eq_refl) (both_none _)).
    unfold both. destruct s as [|c [|x [|y [|z s]]]]; cbn; auto; repeat (match goal with |- context [if ?b then _ else _] => destruct b end; cbn; auto).
  - cbn [piece_reads all fold_right]. rewrite (both_ext _ _ _ _ (fun _ _ => eq_refl) (both_none _)). apply both_ones.
  - apply lits_exact.
Qed.
Fixpoint form_reads (f : list piece) : list (str -> str -> list str) := match f with [] => [] | p :: f => piece_reads p ++ form_reads f end.
Definition form_ok (f : list piece) : bool := forallb piece_ok f.
Lemma form_runs f : forall n, 4 <= n -> form_ok f = true -> Forall2 reads (fst (form_atoms n f)) (form_reads f) /\ n <= snd (form_atoms n f).
Proof.
  induction f as [|p f IH]; intros n L Ok; [split; [constructor|auto]|]. cbn [form_ok forallb] in Ok. apply andb_true_iff in Ok as (O1 & O2). cbn [form_atoms form_reads].
  assert (n <= next_group n p) as N by (destruct p; cbn; lia). destruct (IH (next_group n p)) as (H & G); [lia|auto|]. destruct (form_atoms (next_group n p) f) as (l, n'). cbn [fst snd] in *.
  split; [|lia]. apply Forall2_app; auto. now apply piece_runs.
Qed.
Lemma form_all f : forall a s, all (form_reads f) a s = number_readings f a s.
Proof.
  induction f as [|p f IH]; intros a s; [reflexivity|]. cbn [form_reads number_readings]. rewrite all_app. change (flat_map _ (piece_readings p a s)) with (both (piece_readings p) (number_readings f) a s).
  apply both_ext; [apply piece_all|auto].
Qed.
Definition forms_ok (fs : list (list piece)) : bool := negb (length fs =? 0) && forallb form_ok fs.
Lemma forms_run fs : forall n, 4 <= n -> forms_ok fs = true -> reads (forms_re n fs) (fun a s => flat_map (fun f => number_readings f a s) fs).
Proof.
  induction fs as [|f fs IH]; intros n L Ok; [discriminate|]. cbn [forms_ok forallb length Nat.eqb negb andb] in Ok. apply andb_true_iff in Ok as (O1 & O2).
  destruct (form_runs f n L O1) as (H & G). destruct fs as [|f' fs].
  - cbn [forms_re]. apply (reads_ext _ (all (form_reads f))); [|now apply reads_seqs]. intros a s. cbn. rewrite app_nil_r. apply form_all.
  - cbn [forms_re]. fold forms_re. destruct (form_atoms n f) as (l, n') eqn:E. cbn [fst snd] in *.
    apply (reads_ext _ (fun a s => all (form_reads f) a s ++ flat_map (fun f => number_readings f a s) (f' :: fs))); [intros a s; cbn [flat_map]; now rewrite form_all|].
    apply reads_alt; [now apply reads_seqs|]. apply IH; [lia|]. unfold forms_ok. rewrite O2. reflexivity.
Qed.
