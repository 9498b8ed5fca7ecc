(** str(n) and int(s): the decimal numeral of a number. *)
From Coq Require Import List Arith NArith Bool Lia.
From Verif Require Import UnicodeTables PyStr ListFacts.
Import ListNotations.
Local Open Scope N_scope.

Lemma ascii_digit_value c : is_ascii_digit c = true -> digit_value c = Some (c - 48).
Proof.
  unfold is_ascii_digit, in_range. intros H. apply andb_true_iff in H as [A B].
  apply N.leb_le in A, B. assert (c = 48 \/ c = 49 \/ c = 50 \/ c = 51 \/ c = 52 \/ c = 53 \/ c = 54 \/ c = 55 \/ c = 56 \/ c = 57) as C by lia.
  repeat (destruct C as [->|C]; [reflexivity|]). now subst.
Qed.
Lemma ascii_digit_of d : d < 10 -> is_ascii_digit (48 + d) = true.
Proof. intros H. unfold is_ascii_digit, in_range. apply andb_true_iff. split; apply N.leb_le; lia. Qed.
Lemma digits_value_app a u v : digits_value a (u ++ v) = match digits_value a u with Some n => digits_value n v | None => None end.
Proof. revert a. induction u as [|c u IH]; cbn; intros a; auto. destruct (digit_value c); auto. Qed.
Lemma dec_digits_app f : forall n acc, dec_digits f n acc = dec_digits f n [] ++ acc.
Proof.
  induction f as [|f IH]; cbn; intros n acc; auto. destruct (N.eqb (n / 10) 0); auto.
  rewrite (IH _ (_ :: acc)), (IH _ [_]), <- app_assoc. reflexivity.
Qed.
Lemma div10_lt n f : n < 2 ^ N.of_nat (S f) -> n / 10 < 2 ^ N.of_nat f.
Proof.
  intros H. rewrite Nat2N.inj_succ, N.pow_succ_r' in H. apply N.div_lt_upper_bound; [lia|].
  assert (0 < 2 ^ N.of_nat f) by (apply N.neq_0_lt_0, N.pow_nonzero; lia). lia.
Qed.
Lemma dec_digits_value f : forall n, n < 2 ^ N.of_nat f -> digits_value 0 (dec_digits (S f) n []) = Some n.
Proof.
  induction f as [|f IH]; intros n H.
  - cbn in H. assert (n = 0) as -> by lia. reflexivity.
  - cbn [dec_digits]. assert (n mod 10 < 10) as M by (apply N.mod_lt; lia).
    destruct (N.eqb_spec (n / 10) 0) as [Q|Q].
    + cbn [digits_value]. rewrite ascii_digit_value by (apply ascii_digit_of; auto). f_equal.
      pose proof (N.div_mod n 10 ltac:(lia)) as D. revert D Q. generalize (n / 10) (n mod 10). intros; lia.
    + change (digits_value 0 (dec_digits (S f) (n / 10) [48 + n mod 10]) = Some n).
      rewrite dec_digits_app, digits_value_app, IH by (apply div10_lt; auto).
      cbn [digits_value]. rewrite ascii_digit_value by (apply ascii_digit_of; auto). f_equal.
      pose proof (N.div_mod n 10 ltac:(lia)) as D. revert D Q. generalize (n / 10) (n mod 10). intros; lia.
Qed.
Lemma size_nat_bound n : n < 2 ^ N.of_nat (N.size_nat n).
Proof. destruct n as [|p]; cbn; [lia|]. 
  induction p as [p IH|p IH|]; cbn [Pos.size_nat]; rewrite ?Nat2N.inj_succ, ?N.pow_succ_r'; [| |reflexivity]; lia. Qed.
(** str_of_N n is a decimal numeral of n, *)
Lemma str_of_N_value n : digits_value 0 (str_of_N n) = Some n.
Proof. unfold str_of_N. apply dec_digits_value, size_nat_bound. Qed.
(** made of ASCII digits *)
Lemma dec_digits_ascii f : forall n acc, forallb is_ascii_digit acc = true -> forallb is_ascii_digit (dec_digits f n acc) = true.
Proof.
  induction f as [|f IH]; cbn [dec_digits]; intros n acc H; auto.
  assert (forallb is_ascii_digit ((48 + n mod 10) :: acc) = true) as A.
  { cbn [forallb]. rewrite ascii_digit_of by (apply N.mod_lt; lia). auto. }
  destruct (N.eqb _ 0); auto.
Qed.
Lemma str_of_N_ascii n : forallb is_ascii_digit (str_of_N n) = true.
Proof. now apply dec_digits_ascii. Qed.
(** without superfluous zeros in front *)
Lemma dec_digits_hd f : forall n acc c t, n < 2 ^ N.of_nat f -> dec_digits (S f) n acc = c :: t -> n <> 0 -> c <> 48.
Proof.
  induction f as [|f IH]; intros n acc c t H E Nz.
  - cbn in H. lia.
  - cbn [dec_digits] in E. destruct (N.eqb_spec (n / 10) 0) as [Q|Q].
    + assert (48 + n mod 10 = c) as <- by congruence. pose proof (N.div_mod n 10 ltac:(lia)) as D. revert D Q Nz. clear. generalize (n / 10) (n mod 10). intros; lia.
    + eapply IH; [|exact E|auto]. now apply div10_lt.
Qed.
Lemma str_of_N_hd n c t : str_of_N n = c :: t -> n <> 0 -> c <> 48.
Proof. intros. eapply dec_digits_hd; [apply size_nat_bound| |]; eauto. Qed.
Lemma str_of_N_nonempty n : str_of_N n <> [].
Proof. intros E. pose proof (str_of_N_value n) as V. rewrite E in V. cbn in V. inversion V; subst. discriminate. Qed.
Lemma digits_value_zeros k : forall s, digits_value 0 (repeat 48 k ++ s) = digits_value 0 s.
Proof. induction k; intros s; auto. cbn [repeat app digits_value]. change (digit_value 48) with (Some 0). cbn. auto. Qed.
(** "%0wd" % n: a numeral of n with at least w digits, and zeros in front only to reach w *)
Lemma pad_zero_spec w n : digits_value 0 (pad_zero w n) = Some n /\ forallb is_ascii_digit (pad_zero w n) = true
  /\ (w <= length (pad_zero w n))%nat /\ ((w < length (pad_zero w n))%nat -> pad_zero w n = str_of_N n).
Proof.
  unfold pad_zero. split; [rewrite digits_value_zeros; apply str_of_N_value|]. split.
  - rewrite forallb_app, str_of_N_ascii, andb_true_r. induction (w - _)%nat; auto.
  - rewrite app_length, repeat_length. generalize (str_of_N n). unfold str, ch. intros l. split; [lia|].
    intros H. replace (w - length l)%nat with 0%nat by lia. reflexivity.
Qed.

(** ** Digits and white space *)
Fixpoint below (n : N) (rs : list (N * N)) : bool :=
  match rs with [] => true | (lo, hi) :: t => (n <? lo) && below n t end.
Lemma in_ranges_some c rs : in_ranges c rs = true -> exists lo hi, In (lo, hi) rs /\ lo <= c /\ c <= hi.
Proof.
  induction rs as [|(lo, hi) rs IH]; cbn; [discriminate|]. destruct (N.ltb_spec c lo); [discriminate|].
  destruct (N.leb_spec c hi); [exists lo, hi; auto|]. intros H'. destruct (IH H') as (a & b & I & B). exists a, b. auto.
Qed.
Definition disjoint_ranges (r1 r2 : list (N * N)) : bool :=
  forallb (fun a => forallb (fun b => (snd a <? fst b) || (snd b <? fst a)) r2) r1.
Lemma ranges_disjoint r1 r2 c : disjoint_ranges r1 r2 = true -> in_ranges c r1 = true -> in_ranges c r2 = false.
Proof.
  intros D H1. destruct (in_ranges c r2) eqn:H2; auto. exfalso.
  apply in_ranges_some in H1 as (a & b & I1 & A1 & B1). apply in_ranges_some in H2 as (a' & b' & I2 & A2 & B2).
  unfold disjoint_ranges in D. rewrite forallb_forall in D. specialize (D _ I1). rewrite forallb_forall in D. specialize (D _ I2).
  cbn in D. apply orb_true_iff in D as [D|D]; apply N.ltb_lt in D; lia.
Qed.
Lemma is_digit_value c : is_digit c = true <-> digit_value c <> None.
Proof.
  unfold is_digit, digit_value. destruct (c <? 128); [destruct (is_ascii_digit c); split; intros; congruence|].
  induction digit_ranges as [|(lo, hi) rs IH]; cbn; [split; congruence|].
  destruct (c <? lo); [split; congruence|]. destruct (c <=? hi); auto. split; congruence.
Qed.
Lemma isdigit_not_space c : is_isdigit c = true -> is_space c = false.
Proof.
  unfold is_isdigit, is_digit. intros H.
  destruct (N.ltb_spec c 128) as [L|L].
  - apply orb_true_iff in H as [H|H].
    + unfold is_ascii_digit, in_range in H. apply andb_true_iff in H as [A B]. apply N.leb_le in A, B.
      apply (ranges_disjoint [(48, 57)]); [reflexivity|]. cbn. destruct (N.ltb_spec c 48); [lia|]. destruct (N.leb_spec c 57); auto; lia.
    + now apply (ranges_disjoint other_isdigit_ranges).
  - apply orb_true_iff in H as [H|H]; [apply (ranges_disjoint digit_ranges)|apply (ranges_disjoint other_isdigit_ranges)]; auto.
Qed.
Lemma digit_isdigit c : is_digit c = true -> is_isdigit c = true.
Proof. unfold is_isdigit. now intros ->. Qed.
Lemma digits_value_some s : forall a, forallb is_digit s = true <-> exists n, digits_value a s = Some n.
Proof.
  induction s as [|c s IH]; intros a; cbn; [split; eauto|]. rewrite andb_true_iff, (IH (a * 10 + match digit_value c with Some d => d | None => 0 end)), is_digit_value.
  destruct (digit_value c) as [d|]; split.
  - intros [_ H]; auto.
  - intros H. split; auto. congruence.
  - intros [H _]; congruence.
  - intros (n & H); discriminate.
Qed.
Lemma drop_while_none {A} (f : A -> bool) s : forallb (fun c => negb (f c)) s = true -> drop_while f s = s.
Proof. destruct s as [|c s]; cbn; auto. intros H. apply andb_true_iff in H as [H _]. now destruct (f c). Qed.
Lemma forallb_rev {A} (f : A -> bool) s : forallb f (rev s) = forallb f s.
Proof. induction s; cbn; auto. rewrite forallb_app, IHs. cbn. rewrite andb_true_r. apply andb_comm. Qed.
Lemma strip_none f s : forallb (fun c => negb (f c)) s = true -> strip_by f s = s.
Proof.
  intros H. unfold strip_by, rstrip_by, lstrip_by. rewrite (drop_while_none f s) by auto.
  rewrite drop_while_none by now rewrite forallb_rev. apply rev_involutive.
Qed.
Lemma strip_isdigits s : forallb is_isdigit s = true -> strip s = s.
Proof.
  intros H. apply strip_none. apply forallb_forall. intros c Hc. rewrite forallb_forall in H. now rewrite isdigit_not_space by auto.
Qed.
Lemma digits_isdigits s : forallb is_digit s = true -> forallb is_isdigit s = true.
Proof. rewrite !forallb_forall. intros H c Hc. now apply digit_isdigit, H. Qed.
(** int() of a text for which isdigit() holds *)
Lemma int_of_isdigits s : isdigit s = true -> int_of_str s
  = if int_max_str_digits <? N.of_nat (List.length s) then Err ValueError
    else match digits_value 0 s with Some n => Ok n | None => Err ValueError end.
Proof.
  intros H. unfold int_of_str. unfold isdigit in H. destruct s as [|c s]; [discriminate|]. rewrite strip_isdigits by auto. reflexivity.
Qed.
