(** Finding and cutting out book titles (engine.py 779-819). *)
From Coq Require Import List Arith NArith Bool String Lia.
From Verif Require Import PyStr ListFacts Elements Regex RegexParse Patterns RegexMeta RegexLang RegexWords Post ParseProofs.
Import ListNotations.
Local Open Scope nat_scope.
Local Notation length := List.length.

(** the capital letters A-Z and digits of a text in capitals *)
Definition alnum (c : N) : bool := ((65 <=? c) && (c <=? 90) || (48 <=? c) && (c <=? 57))%N.
Definition key (s : str) : str := filter alnum (upper s).
Lemma clean_key s : clean (upper s) = key s. Proof. reflexivity. Qed.
(** no character of the text has two characters as its capital *)
Definition one_to_one (s : str) : Prop := forall c, In c s -> length (upper_ch c) = 1.

Lemma upper_app s t : upper (s ++ t) = upper s ++ upper t. Proof. apply flat_map_app. Qed.
Lemma key_app s t : key (s ++ t) = key s ++ key t. Proof. unfold key. now rewrite upper_app, filter_app. Qed.
Lemma one_app s t : one_to_one (s ++ t) -> one_to_one s /\ one_to_one t.
Proof. intros H. split; intros c I; apply H; apply in_or_app; auto. Qed.
Lemma one_length s : one_to_one s -> length (upper s) = length s.
Proof. induction s as [|c s IH]; intros H; auto. cbn [upper flat_map]. rewrite app_length, (H c) by now left. cbn. f_equal. apply IH. intros d I. apply H. now right. Qed.
Lemma one_split s u v : one_to_one s -> upper s = u ++ v -> exists a b, s = a ++ b /\ upper a = u /\ upper b = v /\ length a = length u.
Proof.
  revert u. induction s as [|c s IH]; intros u H E.
  - destruct u; [|discriminate]. exists [], []. cbn in E. subst v. auto.
  - destruct u as [|d u].
    + exists [], (c :: s). cbn in E. repeat split; auto.
    + pose proof (H c (or_introl eq_refl)) as L. cbn [upper flat_map] in E. destruct (upper_ch c) as [|e [|]] eqn:Ec; try discriminate. cbn [app] in E. injection E as -> E.
      destruct (IH u) as (a & b & -> & A & B & Ln); auto; [intros x I; apply H; now right|]. exists (c :: a), b. cbn [upper flat_map length app]. rewrite Ec. cbn [app]. split; auto. split; [f_equal; exact A|]. auto.
Qed.
Lemma real_index_spec start : forall s i, i <= start -> start - i < length (filter alnum s) ->
  exists a c b, s = a ++ c :: b /\ length a = real_index start i s /\ alnum c = true /\ length (filter alnum a) = start - i.
Proof.
  induction s as [|c s IH]; intros i Hi L; [cbn in L; lia|]. cbn [real_index]. change (is_alnum_upper c) with (alnum c). cbn [filter] in L.
  destruct (alnum c) eqn:A.
  - destruct (Nat.ltb_spec start (S i)) as [H|H].
    + exists [], c, s. cbn. repeat split; auto. lia.
    + destruct (IH (S i)) as (a & d & b & -> & La & D & K); [lia|cbn in L; lia|]. exists (c :: a), d, b. cbn [app length filter]. rewrite A. cbn [length]. repeat split; auto. lia.
  - destruct (Nat.ltb_spec start i) as [H|H]; [lia|]. destruct (IH i) as (a & d & b & -> & La & D & K); auto. exists (c :: a), d, b. cbn [app length filter]. rewrite A. repeat split; auto.
Qed.
Lemma cut_loop_spec : forall r t y k, filter alnum r = t ++ y -> t <> [] -> exists body d rest,
  r = (body ++ [d]) ++ rest /\ alnum d = true /\ filter alnum (body ++ [d]) = t /\ cut_loop r t k = Ok (Some (k + length (body ++ [d]))).
Proof.
  induction r as [|c r IH]; intros t y k E N; [destruct t; [congruence|discriminate]|]. destruct t as [|d t]; [congruence|]. cbn [filter] in E. cbn [cut_loop].
  destruct (alnum c) eqn:A.
  - cbn [app] in E. injection E as -> E. rewrite N.eqb_refl. destruct t as [|e t].
    + exists [], d, r. cbn [app filter length]. rewrite A. repeat split; auto. do 2 f_equal. lia.
    + destruct (IH (e :: t) y (S k) E) as (body & x & rest & -> & X & B & C); [discriminate|]. exists (d :: body), x, rest. cbn [app filter length]. rewrite A, B, C. repeat split; auto. do 2 f_equal. lia.
  - assert (alnum d = true) as D. { assert (In d (filter alnum r)) as I by (rewrite E; now left). now apply filter_In in I. }
    destruct (N.eqb_spec c d) as [->|_]; [congruence|]. destruct (IH (d :: t) y (S k) E N) as (body & x & rest & -> & X & B & C). exists (c :: body), x, rest. cbn [app filter length]. rewrite A, B, C. repeat split; auto. do 2 f_equal. lia.
Qed.
(** where the text goes on after the title *)
Definition goes_on (c : N) : bool := mem_ch c (py " [{(") || in_range 97 122 c || in_range 65 90 c || in_range 48 57 c.
Lemma split_cls : exists c, rx_re re_cut_split = Cls c /\ forall d, cls_mem c d = goes_on d.
Proof.
  eexists. split; [reflexivity|]. intros d. unfold cls_mem, goes_on, mem_ch. cbn [c_neg c_ci c_items existsb item_mem py]. rewrite xorb_false_l.
  assert (forall n, in_range n n d = N.eqb d n) as R by (intros n; unfold in_range; destruct (N.eqb_spec d n) as [->|D]; [now rewrite N.leb_refl|]; destruct (N.leb_spec n d), (N.leb_spec d n); cbn; auto; lia).
  rewrite !R. change (py " [{(") with [32; 91; 123; 40]%N. cbn [existsb]. rewrite !orb_false_r, !orb_assoc. reflexivity.
Qed.
Lemma skip_spec t : exists junk rest, t = junk ++ rest /\ length junk = skip_to_word t /\ forallb (fun c => negb (goes_on c)) junk = true /\ (rest = [] \/ exists c r, rest = c :: r /\ goes_on c = true).
Proof.
  destruct split_cls as (k & K & Km). unfold skip_to_word. assert (productive (rx_re re_cut_split) = true) as P by reflexivity.
  assert (forall n, (forall a b x' g', t = a ++ b -> length a < n -> ~ mt (rx_re re_cut_split) (here a b) [] x' g') -> forallb (fun c => negb (goes_on c)) (firstn n t) = true) as Q.
  { intros n H. apply forallb_forall. intros c I. apply in_split in I as (u & v & I). apply negb_true_iff. destruct (goes_on c) eqn:G; auto. exfalso.
    assert (t = u ++ (c :: v) ++ skipn n t) as Et by (rewrite app_assoc, <- I; symmetry; apply firstn_skipn).
    apply (H u ((c :: v) ++ skipn n t) (here (u ++ [c]) (v ++ skipn n t)) []); auto.
    - assert (length (firstn n t) <= n) by apply firstn_le_length. rewrite I, app_length in H0. cbn in H0. unfold str, ch in *. lia.
    - rewrite K. apply mt_cls_fwd. exists c. split; [apply (fwd_here u [c])|]. rewrite Km. auto. }
  destruct (re_search (rx_re re_cut_split) t) as [o|] eqn:E.
  - pose proof (re_search_first _ _ _ E P) as F. apply re_search_some in E as (a & w & b & x' & -> & Fw & M & S & T). rewrite S in *. exists a, (w ++ b). split; auto. split; auto.
    rewrite K in M. apply mt_cls_fwd in M as (d & D & C & _). pose proof (fwd_fun _ _ _ _ Fw D) as ->. split.
    + specialize (Q (length a)). rewrite firstn_app, firstn_all, Nat.sub_diag, firstn_O, app_nil_r in Q. apply Q. exact F.
    + right. exists d, b. split; auto. now rewrite <- Km.
  - exists t, []. rewrite app_nil_r. split; auto. split; auto. split; auto. specialize (Q (length t)). rewrite firstn_all in Q. apply Q. intros a b x' g' Et _. eapply re_search_none; eauto.
Qed.
Lemma app_inj_len {A} (a b c d : list A) : length a = length c -> a ++ b = c ++ d -> a = c /\ b = d.
Proof. revert c. induction a as [|x a IH]; intros [|y c] L E; try discriminate; auto. injection E as -> E. destruct (IH c) as (-> & ->); auto. Qed.
Lemma book_spec s title : one_to_one s -> key title <> [] ->
  match find_substring_ignore_special_chars s title with
  | Some i => exists pre body post junk rest, s = pre ++ body ++ post /\ length pre = i /\ key body = key title
      /\ (exists c m, body = c :: m /\ key [c] <> []) /\ (exists m c, body = m ++ [c] /\ key [c] <> [])
      /\ (forall p b q, s = p ++ b ++ q -> key b = key title -> length (key pre) <= length (key p))
      /\ post = junk ++ rest /\ forallb (fun c => negb (goes_on c)) junk = true /\ (rest = [] \/ exists c r, rest = c :: r /\ goes_on c = true)
      /\ cut_substring_with_special_chars s title i = Ok (Some (strip pre ++ py " " ++ strip rest))
  | None => forall p b q, s = p ++ b ++ q -> key b <> key title
  end.
Proof.
  intros O Nk. unfold find_substring_ignore_special_chars. rewrite !clean_key. destruct (find_sub (key title) (key s)) as [i|] eqn:F.
  - pose proof F as F0. apply find_sub_some in F as (L & F). set (t := key title) in *.
    assert (key s = firstn i (key s) ++ t ++ skipn (i + length t) (key s)) as Ek.
    { rewrite <- (firstn_skipn i (key s)) at 1. f_equal. rewrite <- (firstn_skipn (length t) (skipn i (key s))) at 1. rewrite F. f_equal. now rewrite skipn_skipn, Nat.add_comm. }
    set (y := skipn (i + length t) (key s)) in *. assert (0 < length t) as Lt by (destruct t; [congruence|cbn; lia]).
    destruct (real_index_spec i (upper s) 0) as (a & c & b & Eu & La & Ac & Ka); [lia|rewrite Nat.sub_0_r; apply Nat.lt_le_trans with (length (key s)); [lia|apply Nat.le_refl]|]. rewrite Nat.sub_0_r in Ka.
    assert (filter alnum a = firstn i (key s) /\ filter alnum (c :: b) = t ++ y) as (K1 & K2).
    { assert (filter alnum a ++ filter alnum (c :: b) = firstn i (key s) ++ t ++ y) as E by (rewrite <- filter_app, <- Eu; exact Ek).
      apply app_inj_len in E; auto. rewrite firstn_length. unfold str, ch in *. lia. }
    destruct (cut_loop_spec (c :: b) t y 0 K2) as (m & d & rest & Er & Ad & Kb & Cl); [destruct t; [cbn in Lt; lia|discriminate]|].
    destruct (one_split s a (c :: b) O Eu) as (pre & tl & Es & Up & Ut & Lp). assert (one_to_one tl) as Ot by (rewrite Es in O; now apply one_app in O).
    rewrite Er in Ut. destruct (one_split tl (m ++ [d]) rest Ot Ut) as (body & post & El & Ub & Upo & Lb). subst tl.
    destruct (skip_spec post) as (junk & rst & Ep & Lj & Fj & Rj).
    assert (one_to_one body) as Ob by now apply one_app in Ot.
    exists pre, body, post, junk, rst. split; auto. split; [now rewrite Lp|]. split; [unfold key; now rewrite Ub|].
    assert (forall x e, one_to_one [x] -> upper [x] = [e] -> alnum e = true -> key [x] <> []) as One by (intros x e _ Ux Ax; unfold key; rewrite Ux; cbn [filter]; rewrite Ax; discriminate).
    split.
    { destruct m as [|c' m].
      - cbn [app] in Ub, Er. destruct (one_split body [d] [] Ob Ub) as (b1 & b2 & Eb & U1 & U2 & L1). assert (b2 = []) as -> by (apply length_zero_iff_nil; rewrite <- (one_length b2); [now rewrite U2|rewrite Eb in Ob; now apply one_app in Ob]).
        destruct b1 as [|x [|]]; try discriminate. rewrite app_nil_r in Eb. subst body. exists x, []. split; auto. apply (One x d); auto.
      - injection Er as <- Er. destruct (one_split body [c] (m ++ [d]) Ob Ub) as (b1 & b2 & Eb & U1 & U2 & L1). destruct b1 as [|x [|]]; try discriminate. subst body. exists x, b2. split; auto. apply (One x c); auto. now apply one_app in Ob. }
    split.
    { destruct (one_split body m [d] Ob Ub) as (b1 & b2 & Eb & U1 & U2 & L1). assert (length b2 = 1) as L2 by (rewrite <- (one_length b2); [now rewrite U2|rewrite Eb in Ob; now apply one_app in Ob]).
      destruct b2 as [|x [|]]; try discriminate. subst body. exists b1, x. split; auto. apply (One x d); auto. now apply one_app in Ob. }
    split.
    { intros p b' q E Kk. assert (length (key pre) = i) as -> by (rewrite <- Ka, <- Up; reflexivity). apply (find_sub_least _ _ _ F0 (key p) (key q)). rewrite E, !key_app, Kk. reflexivity. }
    split; auto. split; auto. split; auto.
    unfold cut_substring_with_special_chars. rewrite clean_key. fold t. assert (skipn (real_index i 0 (upper s)) (upper s) = c :: b) as -> by (rewrite <- La, Eu, skipn_app, skipn_all, Nat.sub_diag; reflexivity).
    rewrite Cl. cbn [bind]. cbv zeta. rewrite Nat.add_0_l. unfold str, ch in *. rewrite <- Lb, <- La, <- Lp.
    assert (skipn (length pre + length body) s = post) as -> by (rewrite Es, app_assoc, <- app_length, skipn_app, skipn_all, Nat.sub_diag; reflexivity).
    rewrite <- Lj. assert (skipn (length pre + length body + length junk) s = rst) as -> by (rewrite Es, Ep, !app_assoc, <- !app_length, skipn_app, skipn_all, Nat.sub_diag; reflexivity).
    assert (firstn (length pre) s = pre) as -> by (rewrite Es, firstn_app, firstn_all, Nat.sub_diag, firstn_O, app_nil_r; reflexivity). reflexivity.
  - intros p b q E Kk. apply (find_sub_none _ _ F (key p) (key q)). rewrite E, !key_app, Kk. reflexivity.
Qed.
