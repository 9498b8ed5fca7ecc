(** The usual numerations are found with exactly their numbers (C57). *)
From Coq Require Import List Arith NArith Bool String Lia.
From Verif Require Import UnicodeTables PyStr ListFacts NumberFacts Regex RegexMeta RegexLang Numeration CaptureLang TaggerProofs PosProofs NumGrammar NumProofs NumFind NumTail.
Import ListNotations.
Local Open Scope nat_scope.
Local Notation length := List.length.
Local Notation sep_char := NumGrammar.sep_char.

(** ** Characters *)
Definition range_list (q : N * N) : list N := map (fun i => (fst q + N.of_nat i)%N) (List.seq 0 (N.to_nat (snd q - fst q + 1)%N)).
Lemma range_listed lo hi c : (lo <= c <= hi)%N -> In c (range_list (lo, hi)).
Proof. intros H. unfold range_list. cbn [fst snd]. apply in_map_iff. exists (N.to_nat (c - lo)). split; [lia|]. apply in_seq. lia. Qed.
Lemma digit_ranges_word : forallb (fun q => forallb is_word (range_list q)) digit_ranges = true. Proof. vm_compute. reflexivity. Qed.
Lemma digit_word c : is_digit c = true -> is_word c = true.
Proof.
  intros H. unfold is_digit in H. destruct (N.ltb_spec c 128) as [L|L].
  - unfold is_word. destruct (N.ltb_spec c 128); [|lia]. now rewrite H.
  - apply in_ranges_some in H as (lo & hi & I & A & B). pose proof digit_ranges_word as W. rewrite forallb_forall in W. specialize (W _ I). rewrite forallb_forall in W. apply W, range_listed. lia.
Qed.
Lemma digit_big c : is_digit c = true -> (48 <= c <= 57)%N \/ (128 <= c)%N.
Proof. unfold is_digit, is_ascii_digit, in_range. destruct (N.ltb_spec c 128); auto. rewrite andb_true_iff, !N.leb_le. auto. Qed.
Lemma digit_not_letter c : is_digit c = true -> is_letter c = false.
Proof. intros H. apply digit_big in H. unfold is_letter, in_range. apply orb_false_iff. rewrite !andb_false_iff, !N.leb_gt. lia. Qed.
Lemma letter_not_digit c : is_letter c = true -> is_digit c = false.
Proof. intros H. destruct (is_digit c) eqn:E; auto. apply digit_not_letter in E. congruence. Qed.
Lemma letter_bounds c : is_letter c = true -> (65 <= c <= 90)%N \/ (97 <= c <= 122)%N.
Proof. unfold is_letter, in_range. rewrite orb_true_iff, !andb_true_iff, !N.leb_le. tauto. Qed.
Lemma letter_word c : is_letter c = true -> is_word c = true.
Proof. intros H. apply letter_bounds in H. unfold is_word, is_upper_ascii, is_lower_ascii, in_range. destruct (N.ltb_spec c 128); [|lia]. rewrite !orb_true_iff, !andb_true_iff, !N.leb_le. lia. Qed.
Lemma letter_not_sep c : is_letter c = true -> sep_char c = false.
Proof.
  intros H. apply letter_bounds in H. unfold sep_char. rewrite !orb_false_iff, !N.eqb_neq. repeat split; try lia. unfold is_space.
  cbn [in_ranges]. repeat match goal with |- context [(c <? ?n)%N] => destruct (N.ltb_spec c n) | |- context [(c <=? ?n)%N] => destruct (N.leb_spec c n) end; auto; lia.
Qed.
Lemma digit_not_sep c : is_digit c = true -> sep_char c = false.
Proof. intros H. unfold sep_char. rewrite !orb_false_iff, !N.eqb_neq. pose proof (digit_no_space c H). apply digit_big in H. repeat split; auto; lia. Qed.
Lemma space_sep c : is_space c = true -> sep_char c = true. Proof. intros H. unfold sep_char. rewrite H. now rewrite orb_true_r. Qed.
Lemma some_of_in l c : some_of l c = true <-> In c l.
Proof. unfold some_of. rewrite existsb_exists. split; [intros (x & I & E); apply N.eqb_eq in E; rewrite E; exact I|intros I; exists c; split; auto; apply N.eqb_refl]. Qed.

(** ** Texts *)
Lemma run_prefix (P : ch -> bool) : forall u r v t, u ++ r = v ++ t -> forallb P u = true -> forallb P v = true -> ~ first_is P t -> exists v', v = u ++ v' /\ r = v' ++ t.
Proof.
  induction u as [|x u IH]; intros r v t E U V T; [exists v; auto|]. destruct v as [|y v].
  - cbn in E. subst t. exfalso. apply T. cbn [forallb] in U. apply andb_true_iff in U as [U _]. now apply first_is_cons.
  - cbn in E. injection E as <- E. cbn [forallb] in U, V. apply andb_true_iff in U as [_ U], V as [V0 V]. destruct (IH r v t E U V T) as (v' & -> & ->). now exists v'.
Qed.
Lemma forallb_imp {A} (P Q : A -> bool) l : (forall x, P x = true -> Q x = true) -> forallb P l = true -> forallb Q l = true.
Proof. rewrite !forallb_forall. auto. Qed.
Lemma forallb_both {A} (P : A -> bool) u v : forallb P (u ++ v) = true <-> forallb P u = true /\ forallb P v = true.
Proof. rewrite forallb_app. apply andb_true_iff. Qed.
Lemma first_app P u b : u <> [] -> first_is P (u ++ b) <-> first_is P u.
Proof. destruct u as [|x u]; [congruence|]. intros _. cbn [app]. now rewrite !first_is_cons. Qed.
Lemma last_app P a u : u <> [] -> last_is P (a ++ u) <-> last_is P u.
Proof.
  intros N. destruct (exists_last N) as (t & c & ->). rewrite app_assoc. now rewrite !last_is_snoc.
Qed.
Lemma first_all P (u : str) : u <> [] -> forallb P u = true -> first_is P u.
Proof. destruct u as [|x u]; [congruence|]. cbn. intros _ H. apply andb_true_iff in H as [H _]. now apply first_is_cons. Qed.
Lemma last_all P (u : str) : u <> [] -> forallb P u = true -> last_is P u.
Proof. intros N H. destruct (exists_last N) as (t & c & ->). apply forallb_both in H as [_ H]. cbn [forallb] in H. apply andb_true_iff in H as [H _]. now apply last_is_snoc. Qed.

(** ** Parts *)
Lemma mk_seq (p q : part) a u v b f1 f2 : p a u (v ++ b) f1 -> q (a ++ u) v b f2 -> (p ;; q) a (u ++ v) b (f2 ++ f1).
Proof. intros H1 H2. exists u, v, f1, f2. auto. Qed.
Lemma start_all a w b fs : start a w b fs -> fs = [] /\ forallb sep_char w = true.
Proof.
  intros (u & v & f1 & f2 & -> & -> & ((H1 & _) & ->) & x & y & f3 & f4 & -> & -> & H2 & ((H3 & _) & ->)). assert (forallb sep_char x = true /\ f3 = []) as (X & ->).
  { destruct H2 as [(-> & ->)|((c & -> & C) & ->)]; auto. cbn. now rewrite C. }
  split; auto. rewrite !forallb_both. repeat split; auto; eapply forallb_imp; try eassumption; apply space_sep.
Qed.
Lemma separator_all a w b fs : separator a w b fs -> fs = [] /\ w <> [] /\ forallb sep_char w = true.
Proof.
  intros (u & v & f1 & f2 & -> & -> & ((H1 & _) & ->) & x & y & f3 & f4 & -> & -> & ((c & -> & C) & ->) & ((H3 & _) & ->)). split; auto. split; [intros E; apply app_eq_nil in E as (_ & E); discriminate|].
  rewrite !forallb_both. cbn [forallb]. rewrite C. repeat split; auto; eapply forallb_imp; try eassumption; apply space_sep.
Qed.
Lemma blanks_all a w b fs : blanks a w b fs -> fs = [] /\ forallb is_space w = true. Proof. intros ((H & _) & ->). auto. Qed.
Lemma any_inv l a w b fs : any_of l a w b fs -> fs = [] /\ exists c, w = [c] /\ In c (py l).
Proof. intros ((c & -> & C) & ->). split; auto. exists c. split; auto. now apply some_of_in. Qed.
Lemma one_inv P a w b fs : one P a w b fs -> fs = [] /\ exists c, w = [c] /\ P c = true. Proof. intros ((c & -> & C) & ->). eauto. Qed.
Lemma many_inv lo hi P a w b fs : many lo hi P a w b fs -> fs = [] /\ forallb P w = true /\ lo <= length w /\ match hi with Some k => length w <= k | None => True end.
Proof. intros ((H & L & M) & ->). auto. Qed.

(** ** A volume that is a number, with a letter before it or without *)
Definition lead (l : option ch) : str := match l with Some c => [c] | None => [] end.
Definition lead_ok (l : option ch) : Prop := match l with Some c => is_letter c = true /\ c <> 86%N /\ c <> 118%N | None => True end.
Definition number (v : str) : Prop := v <> [] /\ forallb is_digit v = true.
Lemma number_cons v : number v -> exists d r, v = d :: r /\ is_digit d = true.
Proof. intros (N & D). destruct v as [|d r]; [congruence|]. cbn [forallb] in D. apply andb_true_iff in D as [D _]. eauto. Qed.
Definition ends_number (t : str) : Prop := ~ first_is is_digit t.
Lemma roman_letters c : In c (py "XxVvIi") -> is_letter c = true.
Proof. intros I. cbn in I. intuition subst; reflexivity. Qed.
Lemma not_digit_in d l : is_digit d = true -> forallb (fun c => negb (is_digit c)) l = true -> ~ In d l.
Proof. intros D F I. rewrite forallb_forall in F. specialize (F _ I). rewrite D in F. discriminate. Qed.
Lemma vol_word_not l v t a w b fs : lead_ok l -> number v -> vol_word a w b fs -> w ++ b <> lead l ++ v ++ t.
Proof.
  intros Lo V H E. apply number_cons in V as (d & r & -> & D). destruct H as [H|H].
  - destruct H as (u & x & f1 & f2 & -> & -> & H & _). apply any_inv in H as (_ & c & -> & C). destruct l as [c'|]; cbn in E; injection E as -> _.
    + destruct Lo as (_ & N1 & N2). cbn in C. intuition congruence.
    + revert C. apply not_digit_in; auto.
  - destruct H as (u & x & f1 & f2 & -> & -> & H & u2 & x2 & f3 & f4 & -> & -> & H2 & _). apply any_inv in H as (_ & c & -> & C), H2 as (_ & c2 & -> & C2). destruct l as [c'|]; cbn in E; injection E as -> E.
    + subst c2. revert C2. apply not_digit_in; auto.
    + revert C. apply not_digit_in; auto.
Qed.
Lemma vol_number_inv v t a w b fs : number v -> ends_number t -> vol_number a w b fs -> w ++ b = v ++ t -> fs = [] /\ w <> [] /\ exists v', v = w ++ v' /\ b = v' ++ t.
Proof.
  intros V T [H|H] E.
  - apply many_inv in H as (-> & H & L & _). split; auto. split; [destruct w; [cbn in L; lia|discriminate]|]. eapply run_prefix; eauto. apply V.
  - exfalso. destruct H as (u & x & f1 & f2 & -> & -> & (-> & _) & u2 & x2 & f3 & f4 & -> & -> & H & _). apply many_inv in H as (_ & H & L & _). destruct u2 as [|c u2]; [cbn in L; lia|]. apply number_cons in V as (d & r & -> & D). cbn in E. injection E as -> _.
    cbn [forallb] in H. apply andb_true_iff in H as [H _]. apply some_of_in in H. revert H. apply not_digit_in; auto.
Qed.
Lemma vol_number_not c v t a w b fs : is_letter c = true -> number v -> vol_number a w b fs -> w ++ b <> c :: v ++ t.
Proof.
  intros C V [H|H] E.
  - apply many_inv in H as (-> & H & L & _). destruct w as [|x w]; [cbn in L; lia|]. cbn in E. injection E as -> _. cbn [forallb] in H. apply andb_true_iff in H as [H _]. apply letter_not_digit in C. congruence.
  - destruct H as (u & x & f1 & f2 & -> & -> & (-> & _) & u2 & x2 & f3 & f4 & -> & -> & H & H2). apply many_inv in H as (_ & H & L & _). destruct u2 as [|y u2]; [cbn in L; lia|]. destruct H2 as (-> & _ & N). rewrite app_nil_r in E. cbn in E. injection E as -> E. apply number_cons in V as (d & r & -> & D).
    destruct u2 as [|z u2]; cbn in E.
    + apply N. subst b. apply first_is_cons. now apply digit_word.
    + injection E as -> _. cbn [forallb] in H. rewrite !andb_true_iff in H. destruct H as (_ & H & _). apply some_of_in in H. revert H. apply not_digit_in; auto.
Qed.
Definition no_dash (t : str) : Prop := forall z r, forallb is_space z = true -> t <> z ++ [45%N] ++ r.
Lemma start_skip a w b fs x r : start a w b fs -> w ++ b = x :: r -> sep_char x = false -> w = [] /\ fs = [] /\ b = x :: r.
Proof. intros H E N. apply start_all in H as (-> & H). destruct w as [|y w]; auto. cbn in E. injection E as -> _. cbn [forallb] in H. rewrite N in H. discriminate. Qed.
Lemma blanks_skip a w b fs x r : blanks a w b fs -> w ++ b = x :: r -> is_space x = false -> w = [] /\ fs = [] /\ b = x :: r.
Proof. intros H E N. apply blanks_all in H as (-> & H). destruct w as [|y w]; auto. cbn in E. injection E as -> _. cbn [forallb] in H. rewrite N in H. discriminate. Qed.
Lemma vol_text_inv l v t a w b fs : lead_ok l -> number v -> ends_number t -> ~ first_is is_letter t -> no_dash t -> vol_text a w b fs -> w ++ b = lead l ++ v ++ t ->
  exists u v', v = u ++ v' /\ u <> [] /\ w = lead l ++ u /\ b = v' ++ t /\ fs = [(Fnumber, u)].
Proof.
  intros Lo V T Tl Td H E. destruct H as [H|[H|H]].
  - destruct H as (u & x & f1 & f2 & -> & -> & H & f3 & -> & H2). destruct H as [(-> & ->)|H].
    + cbn [app] in E. destruct l as [c|]; [destruct Lo as (C & _); exfalso; exact (vol_number_not c v t _ _ _ _ C V H2 E)|]. cbn in E. apply (vol_number_inv v t) in H2 as (-> & N & v' & -> & ->); auto. exists x, v'. auto.
    + destruct H as (y & z & f4 & f5 & -> & -> & H & H3). apply one_inv in H as (-> & c & -> & C). destruct l as [c'|]; cbn in E.
      * injection E as -> E. pose proof (number_cons _ V) as (d & r & Ev & D). rewrite Ev in E. rewrite <- app_assoc in E. cbn in E. eapply start_skip in H3 as (-> & -> & E'); [|exact E|now apply digit_not_sep]. cbn in E. change (d :: r ++ t) with ((d :: r) ++ t) in E. rewrite <- Ev in E.
        apply (vol_number_inv v t) in H2 as (-> & N & v' & E1 & ->); auto. exists x, v'. auto.
      * apply number_cons in V as (d & r & -> & D). cbn in E. injection E as -> _. apply digit_not_letter in D. congruence.
  - exfalso. destruct H as (u & x & f1 & f2 & -> & -> & (f3 & -> & H) & H2). apply one_inv in H2 as (-> & c & -> & C). rewrite <- app_assoc in E. destruct l as [c'|]; [destruct Lo as (C' & _); exact (vol_number_not c' v t _ _ _ _ C' V H E)|]. cbn in E.
    apply (vol_number_inv v t) in H as (-> & N & v' & -> & E'); auto. cbn in E'. destruct v' as [|d v']; cbn in E'.
    + apply Tl. subst t. now apply first_is_cons.
    + injection E' as -> _. destruct V as (_ & V). apply forallb_both in V as (_ & V). cbn [forallb] in V. apply andb_true_iff in V as [V _]. apply digit_not_letter in V. congruence.
  - exfalso. destruct H as (u & x & f1 & f2 & -> & -> & H & y & z & f3 & f4 & -> & -> & (f5 & -> & Hd) & u2 & x2 & f6 & f7 & -> & -> & Hb & u3 & x3 & f8 & f9 & -> & -> & Hm & _).
    apply many_inv in Hd as (-> & Hd & Ld & _). apply any_inv in Hm as (_ & m & -> & [<-|[]]). apply blanks_all in Hb as (_ & Hb).
    assert (y ++ u2 ++ [45%N] ++ x3 ++ b = v ++ t) as E2.
    { destruct H as [(-> & ->)|H].
      - rewrite <- !app_assoc in E. cbn [app] in E |- *. destruct l as [c|]; auto. exfalso. destruct Lo as (C & _). destruct y as [|q y]; [cbn in Ld; lia|]. cbn in E. injection E as -> _. cbn [forallb] in Hd. apply andb_true_iff in Hd as [Hd _]. apply letter_not_digit in C. congruence.
      - destruct H as (p & q & f4 & f10 & -> & -> & H & H3). apply one_inv in H as (_ & c & -> & C). rewrite <- !app_assoc in E. pose proof (number_cons _ V) as (d & r & Ev & D). destruct l as [c'|]; cbn in E.
        + injection E as -> E. destruct H3 as [(-> & _)|H3]; auto. apply one_inv in H3 as (_ & c & -> & Hs). exfalso. rewrite Ev in E. cbn in E. injection E as -> _. apply digit_no_space in D. congruence.
        + exfalso. rewrite Ev in E. cbn in E. injection E as -> _. apply digit_not_letter in D. congruence. }
    destruct V as (Vn & V). pose proof E2 as E3. apply run_prefix with (P := is_digit) in E3 as (v' & -> & E3); auto. destruct v' as [|d v'].
    + cbn in E3. apply (Td u2 (x3 ++ b)); auto.
    + apply forallb_both in V as (_ & V). cbn [forallb] in V. apply andb_true_iff in V as [V _]. destruct u2 as [|c u2]; cbn in E3; injection E3 as Ed _; [rewrite <- Ed in V; discriminate|]. rewrite <- Ed in V. cbn [forallb] in Hb. apply andb_true_iff in Hb as [Hb _]. apply digit_no_space in V. congruence.
Qed.
Lemma volume_inv l v t a w b fs : lead_ok l -> number v -> ends_number t -> ~ first_is is_letter t -> no_dash t -> (forall a' u r fs', t = u ++ r -> ~ vol_part a' u r fs') -> volume a w b fs -> w ++ b = lead l ++ v ++ t ->
  exists u v', v = u ++ v' /\ u <> [] /\ w = lead l ++ u /\ b = v' ++ t /\ fs = [(Fvolume, lead l ++ u); (Fnumber, u)].
Proof.
  intros Lo V T Tl Td Tp (w0 & w1 & f1 & f2 & -> & -> & (-> & -> & _) & w2 & w3 & f3 & f4 & -> & -> & H & w4 & w5 & f5 & f6 & -> & -> & Hb & w6 & w7 & f7 & f8 & -> & -> & (-> & -> & _) & w8 & w9 & f9 & f10 & -> & -> & (f11 & -> & Ht) & Hp) E.
  cbn [app] in E. assert (w2 = [] /\ f3 = []) as (-> & ->). { destruct H as [H|H]; auto. exfalso. rewrite <- app_assoc in E. exact (vol_word_not l v t _ _ _ _ Lo V H E). }
  cbn [app] in E. assert (exists x r, lead l ++ v ++ t = x :: r /\ is_space x = false) as (x & r & Ex & Nx).
  { pose proof (number_cons _ V) as (d & r & -> & D). destruct l as [c|]; cbn; do 2 eexists; (split; [reflexivity|]); [|now apply digit_no_space]. destruct Lo as (C & _). apply letter_not_sep in C. destruct (is_space c) eqn:S; auto. apply space_sep in S. congruence. }
  rewrite <- !app_assoc in E. rewrite Ex in E. eapply blanks_skip in Hb as (-> & -> & _); [|cbn [app]; rewrite <- !app_assoc; exact E|exact Nx]. cbn [app] in E. rewrite <- Ex in E.
  apply (vol_text_inv l v t) in Ht as (u & v' & -> & N & -> & E' & ->); auto. assert (w9 = [] /\ f10 = []) as (-> & ->).
  { destruct Hp as [Hp|Hp]; auto. exfalso. destruct v' as [|d v'].
    - cbn in E'. revert Hp. apply Tp. now symmetry.
    - destruct V as (_ & V). apply forallb_both in V as (_ & V). cbn [forallb] in V. apply andb_true_iff in V as [V _]. destruct Hp as (p & q & f12 & f13 & -> & -> & Hs & p2 & q2 & f14 & f15 & -> & -> & Hq & _). rewrite <- !app_assoc in E'. eapply blanks_skip in Hs as (-> & -> & _); [|cbn [app]; rewrite <- !app_assoc; exact E'|now apply digit_no_space].
      apply any_inv in Hq as (_ & c & -> & [<-|[]]). cbn in E'. injection E' as <- _. discriminate. }
  exists u, v'. rewrite app_nil_r. cbn [app] in *. auto.
Qed.

(** ** A page that is a number *)
Definition ends_page_number (t : str) : Prop := ~ first_is (fun c => is_digit c || some_of (py "cC") c) t.
Lemma ends_page_digit t : ends_page_number t -> ends_number t.
Proof. intros H (c & r & -> & C). apply H. apply first_is_cons. now rewrite C. Qed.
Lemma app_one {A} (w b r : list A) c x : w = [c] -> w ++ b = x :: r -> c = x /\ b = r.
Proof. intros -> E. injection E as -> ->. auto. Qed.
Lemma page_number_inv p t a w b fs : number p -> ends_page_number t -> page_number a w b fs -> w ++ b = p ++ t -> fs = [] /\ w <> [] /\ exists p', p = w ++ p' /\ b = p' ++ t.
Proof.
  intros V T (w0 & w1 & f1 & f2 & -> & -> & Hr & w2 & w3 & f3 & f4 & -> & -> & Hw & w4 & w5 & f5 & f6 & -> & -> & Hd & Hc) E. pose proof (number_cons _ V) as (d & r & Ep & D). pose proof E as E0. rewrite Ep in E0. cbn [app] in E0.
  assert (w0 = [] /\ f1 = []) as (-> & ->). { destruct Hr as [Hr|Hr]; auto. apply any_inv in Hr as (_ & c & -> & C). exfalso. cbn in E0. injection E0 as -> _. revert C. apply not_digit_in; auto. }
  apply many_inv in Hd as (-> & Hd & Ld & _). cbn [app] in E, E0. assert (forallb is_digit w2 = true /\ f3 = []) as (Dw & ->). { destruct Hw as [(-> & ->)|Hw]; auto. apply one_inv in Hw as (-> & c & -> & C). cbn in E0. injection E0 as -> _. split; auto. cbn [forallb]. now rewrite D. }
  destruct V as (Vn & V). assert ((w2 ++ w4) ++ w5 ++ b = p ++ t) as E1 by (rewrite <- !app_assoc in *; exact E). apply run_prefix with (P := is_digit) in E1 as (p' & -> & E1); [|now apply forallb_both|auto|now apply ends_page_digit].
  assert (w5 = [] /\ f6 = []) as (-> & ->).
  { destruct Hc as [Hc|Hc]; auto. apply any_inv in Hc as (_ & c & -> & C). exfalso. destruct p' as [|q p']; cbn in E1.
    - apply T. subst t. apply first_is_cons. apply orb_true_iff. right. now apply some_of_in.
    - injection E1 as -> _. apply forallb_both in V as (_ & V). cbn [forallb] in V. apply andb_true_iff in V as [V _]. revert C. apply not_digit_in; auto. }
  cbn [app] in *. rewrite !app_nil_r. split; auto. split; [intros N; apply app_eq_nil in N as (_ & ->); cbn in Ld; lia|]. exists p'. auto.
Qed.
(** the blanks and the dash of a range *)
Definition dash (e : str) : Prop := exists x y, e = x ++ [45%N] ++ y /\ forallb is_space x = true /\ forallb is_space y = true.
(** [g] is empty or one space *)
Lemma page_inv g p t a w b fs : (g = [] \/ g = [32%N]) -> number p -> ends_page_number t -> page a w b fs -> w ++ b = g ++ p ++ t ->
  (exists p1 p2, p = p1 ++ p2 /\ p1 <> [] /\ w = g ++ p1 /\ b = p2 ++ t /\ fs = [(Fpages, w); (Fpage, p1)])
  \/ (exists e q, w = g ++ p ++ e ++ q /\ t = e ++ q ++ b /\ dash e /\ page_number (a ++ g ++ p ++ e) q b [] /\ fs = [(Fpages, w); (Fpage_end, q); (Fpage, p)]).
Proof.
  intros G V T (f0 & -> & H) E. pose proof (number_cons _ V) as (d & r & Ep & D). destruct H as [(f1 & -> & H)|H].
  - exfalso. destruct H as (u & x & f2 & f3 & -> & -> & H & _). apply any_inv in H as (_ & c & -> & C). destruct G as [-> | ->]; rewrite Ep in E; cbn in E; injection E as -> _; [revert C; apply not_digit_in; auto|]. cbn in C. intuition discriminate.
  - destruct H as (w0 & w1 & f1 & f2 & -> & -> & H0 & w2 & w3 & f3 & f4 & -> & -> & H2 & w4 & w5 & f5 & f6 & -> & -> & H4 & w6 & w7 & f7 & f8 & -> & -> & H6 & w8 & w9 & f9 & f10 & -> & -> & (f11 & -> & H8) & H9).
    assert (forall l a w b fs, any_of l a w b fs -> forallb (fun c => negb (is_digit c)) (32%N :: py l) = true -> ~ In 32%N (py l) -> forall z, w ++ z <> g ++ p ++ t) as Q.
    { intros l a' w' b' fs' A N1 N2 z Ez. apply any_inv in A as (_ & c & -> & C). cbn in Ez. destruct G as [-> | ->]; rewrite Ep in Ez; cbn in Ez; injection Ez as -> _; auto. revert C. apply not_digit_in; auto. }
    assert (w0 = [] /\ f1 = []) as (-> & ->). { destruct H0 as [H0|H0]; auto. exfalso. rewrite <- app_assoc in E. revert E. eapply Q; [exact H0|reflexivity|cbn; intuition discriminate]. } cbn [app] in E.
    assert (w2 = [] /\ f3 = []) as (-> & ->). { destruct H2 as [H2|H2]; auto. exfalso. rewrite <- app_assoc in E. revert E. eapply Q; [exact H2|reflexivity|cbn; intuition discriminate]. } cbn [app] in E.
    assert (w4 = [] /\ f5 = []) as (-> & ->). { destruct H4 as [H4|H4]; auto. exfalso. rewrite <- app_assoc in E. revert E. eapply Q; [exact H4|reflexivity|cbn; intuition discriminate]. } cbn [app] in E.
    assert (w6 = g /\ f7 = []) as (-> & ->).
    { destruct H6 as [(-> & ->)|H6].
      - split; auto. destruct G as [-> | ->]; auto. exfalso. cbn in E. destruct H8 as (x0 & x1 & g1 & g2 & -> & _ & Hr & x2 & x3 & g3 & g4 & -> & _ & Hw & x4 & x5 & g5 & g6 & -> & _ & Hd & _). apply many_inv in Hd as (_ & Hd & Ld & _). destruct x4 as [|y x4]; [cbn in Ld; lia|]. cbn [forallb] in Hd. apply andb_true_iff in Hd as [Hd _].
        destruct Hr as [(-> & _)|Hr]; [|apply any_inv in Hr as (_ & c & -> & C); cbn in E; injection E as -> _; cbn in C; intuition discriminate]. destruct Hw as [(-> & _)|Hw]; [cbn in E; injection E as -> _; discriminate|]. apply one_inv in Hw as (_ & c & -> & C). cbn in E. injection E as -> _. discriminate.
      - apply one_inv in H6 as (-> & c & -> & C). split; auto. destruct G as [-> | ->]; [exfalso; rewrite Ep in E; cbn in E; injection E as -> _; apply digit_no_space in D; congruence|]. cbn in E. now injection E as ->. }
    rewrite <- !app_assoc in E. apply app_inv_head in E. apply (page_number_inv p t) in H8 as (-> & Nw & p2 & -> & E9); auto. cbn [app] in *. destruct H9 as [(-> & ->)|H9].
    + left. exists w8, p2. rewrite !app_nil_r. cbn in E9. repeat split; auto.
    + right. destruct H9 as (x0 & x1 & g1 & g2 & -> & -> & Hb & x2 & x3 & g3 & g4 & -> & -> & Hm & x4 & x5 & g5 & g6 & -> & -> & Hb2 & (g7 & -> & Hq)). apply blanks_all in Hb as (-> & Hb), Hb2 as (-> & Hb2). apply any_inv in Hm as (-> & c & -> & [<-|[]]).
      assert (p2 = []) as ->. { destruct p2 as [|y p2]; auto. exfalso. destruct V as (_ & V). apply forallb_both in V as (_ & V). cbn [forallb] in V. apply andb_true_iff in V as [V _]. destruct x0 as [|z x0]; cbn in E9; injection E9 as Ed _; [rewrite <- Ed in V; discriminate|]. rewrite <- Ed in V. cbn [forallb] in Hb. apply andb_true_iff in Hb as [Hb _]. apply digit_no_space in V. congruence. }
      rewrite app_nil_r in *. cbn [app] in E9. assert (g7 = []) as ->. { destruct Hq as (y0 & y1 & h1 & h2 & _ & -> & Hr & y2 & y3 & h3 & h4 & _ & -> & Hw & y4 & y5 & h5 & h6 & _ & -> & Hd & Hc). apply many_inv in Hd as (-> & _). assert (h1 = []) as -> by (destruct Hr as [(_ & ->)|((? & _) & ->)]; auto). assert (h3 = []) as -> by (destruct Hw as [(_ & ->)|((? & _) & ->)]; auto). destruct Hc as [(_ & ->)|((? & _) & ->)]; auto. }
      exists (x0 ++ [45%N] ++ x4), x5. rewrite <- !app_assoc in *. cbn [app] in *. split; auto. split; [rewrite <- E9, <- !app_assoc; reflexivity|]. split; [exists x0, x4; auto|]. split; [|reflexivity]. exact Hq.
Qed.
(** no page begins with a parenthesis *)
Lemma page_not a w b fs r : page a w b fs -> w ++ b <> 40%N :: r.
Proof.
  intros (f0 & -> & H) E. destruct H as [(f1 & -> & H)|H].
  - destruct H as (u & x & f2 & f3 & -> & -> & H & _). apply any_inv in H as (_ & c & -> & C). cbn in E. injection E as -> _. cbn in C. intuition discriminate.
  - destruct H as (w0 & w1 & f1 & f2 & -> & -> & H0 & w2 & w3 & f3 & f4 & -> & -> & H2 & w4 & w5 & f5 & f6 & -> & -> & H4 & w6 & w7 & f7 & f8 & -> & -> & H6 & w8 & w9 & f9 & f10 & -> & -> & (f11 & -> & H8) & _).
    destruct H8 as (x0 & x1 & g1 & g2 & -> & _ & Hr & x2 & x3 & g3 & g4 & -> & _ & Hw & x4 & x5 & g5 & g6 & -> & _ & Hd & _). apply many_inv in Hd as (_ & Hd & Ld & _). destruct x4 as [|y x4]; [cbn in Ld; lia|]. cbn [forallb] in Hd. apply andb_true_iff in Hd as [Hd _].
    destruct H0 as [(-> & _)|H0]; [|apply any_inv in H0 as (_ & c & -> & C); cbn in E; injection E as -> _; cbn in C; intuition discriminate]. destruct H2 as [(-> & _)|H2]; [|apply any_inv in H2 as (_ & c & -> & C); cbn in E; injection E as -> _; cbn in C; intuition discriminate].
    destruct H4 as [(-> & _)|H4]; [|apply any_inv in H4 as (_ & c & -> & C); cbn in E; injection E as -> _; cbn in C; intuition discriminate]. destruct H6 as [(-> & _)|H6]; [|apply one_inv in H6 as (_ & c & -> & C); cbn in E; injection E as -> _; discriminate].
    destruct Hr as [(-> & _)|Hr]; [|apply any_inv in Hr as (_ & c & -> & C); cbn in E; injection E as -> _; cbn in C; intuition discriminate]. destruct Hw as [(-> & _)|Hw]; [cbn in E; injection E as -> _; discriminate|]. apply one_inv in Hw as (_ & c & -> & C). cbn in E. injection E as -> _. discriminate.
Qed.

(** ** A year in parentheses *)
Definition a_year (y : str) : Prop := exists d e, (y = py "19" ++ [d; e] \/ y = py "20" ++ [d; e]) /\ is_digit d = true /\ is_digit e = true.
Lemma month_head l a w b fs x r : forallb (fun v => match py v with c :: _ => in_range 97 122 c | [] => false end) l = true -> month_of l a w b fs -> w ++ b = x :: r -> is_letter x = false -> w = [] /\ fs = [].
Proof.
  intros L [H|H] E N; auto. exfalso. destruct H as (u & v & f1 & f2 & -> & _ & (u1 & v1 & f3 & f4 & -> & _ & ((v0 & c & t & I & Ev & C) & _) & _) & _). rewrite forallb_forall in L. specialize (L _ I). rewrite Ev in L. unfold in_range in L. apply andb_true_iff in L as [L1 L2]. apply N.leb_le in L1, L2.
  unfold is_letter, in_range in N. apply orb_false_iff in N as (N1 & N2). rewrite !andb_false_iff, !N.leb_gt in N1, N2. destruct C as [-> | ->]; cbn in E; injection E as E _; lia.
Qed.
Lemma year_length y : a_year y -> exists x d e f, y = [x; d; e; f] /\ (x = 49%N \/ x = 50%N) /\ forallb is_digit y = true.
Proof. intros (d & e & [-> | ->] & D & E); do 4 eexists; (split; [reflexivity|]); (split; [auto|]); apply forallb_both; (split; [reflexivity|]); cbn [forallb]; now rewrite D, E. Qed.
Lemma year_inv y t a w b fs : a_year y -> year a w b fs -> w ++ b = [40%N] ++ y ++ [41%N] ++ t -> fs = [(Fyear, y)] /\ ((w = [40%N] ++ y /\ b = [41%N] ++ t) \/ (w = [40%N] ++ y ++ [41%N] /\ b = t)).
Proof.
  intros Y (w0 & w1 & f1 & f2 & -> & -> & H0 & w2 & w3 & f3 & f4 & -> & -> & H2 & w4 & w5 & f5 & f6 & -> & -> & H4 & w6 & w7 & f7 & f8 & -> & -> & (-> & -> & _) & w8 & w9 & f9 & f10 & -> & -> & (f11 & -> & H8) & w10 & w11 & f12 & f13 & -> & -> & H10 & w12 & w13 & f14 & f15 & -> & -> & (-> & -> & _) & H13) E.
  pose proof (year_length y Y) as (x & d & e & f & Ey & X & Dy). destruct H8 as (u0 & u1 & g1 & g2 & -> & -> & Hl & (Yr & ->)).
  assert (forall l a w b fs r, month_of l a w b fs -> l = short_months \/ l = months -> w ++ b = 40%N :: r \/ w ++ b = x :: r -> w = [] /\ fs = []) as M.
  { intros l a' w' b' fs' r H L E'. assert (forallb (fun v => match py v with c :: _ => in_range 97 122 c | [] => false end) l = true) as Q by (destruct L as [-> | ->]; reflexivity). destruct E' as [E'|E']; (eapply month_head; [exact Q|exact H|exact E'|]); [reflexivity|]. destruct X as [-> | ->]; reflexivity. }
  rewrite <- !app_assoc in E. assert (w0 = [40%N] /\ f1 = []) as (-> & ->).
  { destruct H0 as [(-> & ->)|H0]; [exfalso|apply any_inv in H0 as (-> & c & -> & [<-|[]]); auto]. cbn [app] in E. eapply M in H2 as (-> & ->); [|auto|left; rewrite <- !app_assoc; exact E]. cbn [app] in E. eapply M in H4 as (-> & ->); [|auto|left; rewrite <- !app_assoc; exact E]. cbn [app] in E.
    destruct Hl as [(-> & _)|Hl]; [|apply one_inv in Hl as (_ & c & -> & C); cbn in E; injection E as -> _; discriminate]. destruct Yr as (d' & e' & [-> | ->] & _); discriminate. }
  apply app_inv_head in E. rewrite Ey in E. cbn [app] in E. eapply M in H2 as (-> & ->); [|auto|right; rewrite <- !app_assoc; exact E]. cbn [app] in E. eapply M in H4 as (-> & ->); [|auto|right; rewrite <- !app_assoc; exact E]. cbn [app] in E.
  assert (u0 = [] /\ g1 = []) as (-> & ->). { destruct Hl as [Hl|Hl]; auto. apply one_inv in Hl as (_ & c & -> & C). cbn in E. injection E as -> _. destruct X as [-> | ->]; discriminate. }
  cbn [app] in E. assert (u1 = y /\ w10 ++ w13 ++ b = 41%N :: t) as (-> & E').
  { rewrite Ey. destruct Yr as (d' & e' & [-> | ->] & _); cbn in E; injection E as <- <- <- <- E; auto. }
  assert (w10 = [] /\ f12 = []) as (-> & ->). { destruct H10 as [H10|H10]; auto. apply one_inv in H10 as (_ & c & -> & C). cbn in E'. injection E' as -> _. discriminate. }
  cbn [app] in E'. assert (f15 = []) as -> by (destruct H13 as [(_ & ->)|((? & _) & ->)]; auto). cbn [app]. split; auto. destruct H13 as [(-> & _)|H13].
  - left. rewrite app_nil_r. auto.
  - right. apply any_inv in H13 as (_ & c & -> & [<-|[]]). cbn in E'. injection E' as ->. auto.
Qed.
Lemma subtitle_not a w b fs x r : subtitle a w b fs -> w ++ b = x :: r -> (x <> 40%N /\ x <> 91%N) \/ (x = 40%N /\ exists d r', r = d :: r' /\ is_digit d = true) -> False.
Proof.
  intros (w0 & w1 & f1 & f2 & -> & _ & H0 & w2 & w3 & f3 & f4 & -> & _ & H2 & w4 & w5 & f5 & f6 & -> & _ & H4 & _) E N. apply any_inv in H0 as (_ & c & -> & C). cbn in E. injection E as -> E. destruct N as [N|(-> & d & r' & -> & D)].
  - cbn in C. intuition congruence.
  - rewrite <- !app_assoc in E. eapply blanks_skip in H2 as (-> & -> & _); [|rewrite <- !app_assoc; exact E|now apply digit_no_space]. cbn [app] in E. destruct H4 as [H4|H4]; destruct H4 as (y & z & f7 & f8 & -> & _ & H & _); apply any_inv in H as (_ & c & -> & C'); cbn in E; injection E as -> _; revert C'; apply not_digit_in; auto.
Qed.

(** ** What may stand between *)
Lemma sep_not_in l c : sep_char c = true -> forallb (fun x => negb (sep_char x)) l = true -> In c l -> False.
Proof. intros S F I. rewrite forallb_forall in F. specialize (F _ I). rewrite S in F. discriminate. Qed.
Lemma issue_none z r a w b fs : forallb sep_char z = true -> ~ first_is sep_char r -> ~ first_is (some_of (py "Nn")) r -> issue a w b fs -> w ++ b = z ++ r -> w = [] /\ fs = [].
Proof.
  intros Z R N [H|H] E; auto. exfalso. destruct H as (u & x & f1 & f2 & -> & -> & H & (f3 & -> & x0 & x1 & f4 & f5 & -> & -> & H1 & _)). apply separator_all in H as (_ & _ & H). rewrite <- !app_assoc in E. apply run_prefix with (P := sep_char) in E as (z' & -> & E); auto. apply any_inv in H1 as (_ & c & -> & C). destruct z' as [|y z']; cbn in E.
  - apply N. subst r. apply first_is_cons. now apply some_of_in.
  - injection E as -> _. apply forallb_both in Z as (_ & Z). cbn [forallb] in Z. apply andb_true_iff in Z as [Z _]. revert C. now apply sep_not_in.
Qed.
Lemma subtitle_opt_none z r a w b fs : forallb sep_char z = true -> ~ first_is sep_char r -> (forall a w b fs, subtitle a w b fs -> w ++ b <> r) -> subtitle_opt a w b fs -> w ++ b = z ++ r -> w = [] /\ fs = [].
Proof.
  intros Z R N [H|H] E; auto. exfalso. destruct H as (u & x & f1 & f2 & -> & -> & H & H1). apply separator_all in H as (_ & _ & H). rewrite <- !app_assoc in E. apply run_prefix with (P := sep_char) in E as (z' & -> & E); auto. destruct z' as [|y z']; [exact (N _ _ _ _ H1 E)|]. eapply subtitle_not; [exact H1|exact E|]. left.
  apply forallb_both in Z as (_ & Z). cbn [forallb] in Z. apply andb_true_iff in Z as [Z _]. split; intros ->; discriminate.
Qed.
Lemma separator_part z r a w b fs : forallb sep_char z = true -> ~ first_is sep_char r -> separator a w b fs -> w ++ b = z ++ r -> fs = [] /\ w <> [] /\ exists z', z = w ++ z' /\ b = z' ++ r.
Proof. intros Z R H E. apply separator_all in H as (-> & N & H). split; auto. split; auto. eapply run_prefix; eauto. Qed.
Lemma number_first v t P : number v -> (forall c, is_digit c = true -> P c = false) -> ~ first_is P (v ++ t).
Proof. intros V H F. apply number_cons in V as (d & r & -> & D). cbn in F. apply first_is_cons in F. rewrite H in F; [discriminate|auto]. Qed.
Lemma lead_first l v t P : lead_ok l -> number v -> (forall c, is_digit c = true \/ is_letter c = true -> P c = false) -> ~ first_is P (lead l ++ v ++ t).
Proof. intros L V H. destruct l as [c|]; [|apply (number_first v t P); auto]. intros F. apply first_is_cons in F. destruct L as (C & _). rewrite H in F; [discriminate|auto]. Qed.
Lemma word_not_sep c : is_digit c = true \/ is_letter c = true -> sep_char c = false. Proof. intros [H|H]; [now apply digit_not_sep|now apply letter_not_sep]. Qed.
(** a volume does not begin between two characters that are not of words *)
Lemma volume_not a w b fs x r : ~ last_is is_word a -> is_word x = false -> volume a w b fs -> w ++ b <> x :: r.
Proof. intros A X (w0 & w1 & f1 & f2 & -> & -> & (-> & -> & H) & _) E. cbn [app] in *. destruct H as [(H & _)|(_ & H)]; [now apply A|]. rewrite E in H. apply first_is_cons in H. congruence. Qed.
(** the space at the beginning *)
Lemma start_space p x r a w b fs : (start ;; p) a w b fs -> w ++ b = [32%N] ++ x :: r -> sep_char x = false -> (forall w b fs, p a w b fs -> w ++ b <> [32%N] ++ x :: r) -> exists w', w = [32%N] ++ w' /\ p (a ++ [32%N]) w' b fs /\ w' ++ b = x :: r.
Proof.
  intros (u & v & f1 & f2 & -> & -> & H & H2) E X N. apply start_all in H as (-> & H). rewrite app_nil_r. rewrite <- app_assoc in E. destruct u as [|c u].
  - cbn [app] in E, H2. rewrite app_nil_r in H2. now apply (N _ _ _ H2) in E.
  - cbn in E. injection E as -> E. destruct u as [|c u]; [exists v; cbn in E |- *; auto|]. cbn in E. injection E as -> _. cbn [forallb] in H. rewrite X in H. rewrite andb_comm in H. cbn in H. discriminate.
Qed.
Lemma unique_order k s : k < 11 -> begins (nth k orders no_part) s -> (forall j, j < k -> ~ begins (nth j orders no_part) s) ->
  exists i w b fs, find_numeration s = Ok (Some i) /\ s = w ++ b /\ nth k orders no_part [] w b fs /\ whole k w b fs /\ reported false fs (length w) i.
Proof.
  intros K B N. assert (length orders = 11) as L by reflexivity. assert (forall j p, nth_error orders j = Some p -> p = nth j orders no_part) as Nth by (intros j p E; symmetry; now apply nth_error_nth).
  assert (nth_error orders k = Some (nth k orders no_part)) as Ek by (apply nth_error_nth'; lia).
  destruct (find_numeration_whole s) as ([i|] & E & H).
  - destruct H as (k' & p & w & b & fs & E1 & N' & H). pose proof (Nth _ _ E1) as ->. assert (k' = k) as ->.
    { destruct (Nat.lt_trichotomy k' k) as [Lt|[Eq|Lt]]; auto; exfalso.
      - apply (N k' Lt). exists w, b, fs. intuition.
      - now apply (N' k _ Lt Ek). }
    exists i, w, b, fs. intuition.
  - exfalso. apply (H (nth k orders no_part)); auto. apply nth_In. lia.
Qed.
(** ** Making the parts *)
Lemma mk_blanks a b : blanks a [] b []. Proof. split; auto. Qed.
Lemma mk_none (p : part) a b : maybe p a [] b []. Proof. left. auto. Qed.
Lemma mk_start a b : start a [32%N] b [].
Proof. apply (mk_seq _ _ a [32%N] [] b [] []); [split; auto; cbn; repeat split; auto; lia|]. apply (mk_seq _ _ _ [] [] b [] []); [apply mk_none|apply mk_blanks]. Qed.
Lemma mk_sep a c w b : sep_char c = true -> (w = [] \/ w = [32%N]) -> separator a ([c] ++ w) b [].
Proof. intros C W. apply (mk_seq _ _ a [] ([c] ++ w) b [] []); [apply mk_blanks|]. apply (mk_seq _ _ _ [c] w b [] []); [split; eauto|]. destruct W as [-> | ->]; [apply mk_blanks|]. split; auto. cbn. repeat split; auto. Qed.
Lemma mk_vol_number a v b : number v -> vol_number a v b [].
Proof. intros (N & D). left. split; auto. split; auto. split; auto. destruct v; [congruence|cbn; lia]. Qed.
Lemma mk_volume a l v b : lead_ok l -> number v -> ~ last_is (fun c => is_word c || N.eqb c 47 || is_digit c) a -> volume a (lead l ++ v) b [(Fvolume, lead l ++ v); (Fnumber, v)].
Proof.
  intros L V A. assert (~ last_is is_word a) as A1 by (intros (u & c & -> & C); apply A, last_is_snoc; now rewrite C). assert (~ last_is (fun c => N.eqb c 47 || is_digit c) a) as A2 by (intros (u & c & -> & C); apply A, last_is_snoc; now rewrite <- orb_assoc, C, orb_true_r).
  assert (first_is is_word (lead l ++ v ++ b)) as F. { destruct l as [c|]; [apply first_is_cons, letter_word, L|]. destruct (number_cons _ V) as (d & r & -> & D). apply first_is_cons. now apply digit_word. }
  apply (mk_seq _ _ a [] (lead l ++ v) b [] [(Fvolume, lead l ++ v); (Fnumber, v)]); [split; auto; split; auto; right; rewrite <- app_assoc; auto|]. rewrite app_nil_r.
  apply (mk_seq _ _ a [] (lead l ++ v) b [] [(Fvolume, lead l ++ v); (Fnumber, v)]); [apply mk_none|]. rewrite app_nil_r.
  apply (mk_seq _ _ a [] (lead l ++ v) b [] [(Fvolume, lead l ++ v); (Fnumber, v)]); [apply mk_blanks|]. rewrite app_nil_r.
  apply (mk_seq _ _ a [] (lead l ++ v) b [] [(Fvolume, lead l ++ v); (Fnumber, v)]); [split; auto; split; auto|]. rewrite app_nil_r. rewrite <- (app_nil_r (lead l ++ v)) at 1.
  apply (mk_seq _ _ a (lead l ++ v) [] b [(Fvolume, lead l ++ v); (Fnumber, v)] []); [|apply mk_none]. exists [(Fnumber, v)]. split; auto. left.
  apply (mk_seq _ _ a (lead l) v b [] [(Fnumber, v)]); [|exists []; split; auto; now apply mk_vol_number]. destruct l as [c|]; [|apply mk_none]. right. apply (mk_seq _ _ a [c] [] (v ++ b) [] []); [split; auto; exists c; split; auto; apply L|].
  apply (mk_seq _ _ _ [] [] _ [] []); [apply mk_blanks|]. apply (mk_seq _ _ _ [] [] _ [] []); [apply mk_none|apply mk_blanks].
Qed.
Lemma mk_year a y b : a_year y -> year a ([40%N] ++ y ++ [41%N]) b [(Fyear, y)].
Proof.
  intros Y. apply (mk_seq _ _ a [40%N] (y ++ [41%N]) b [] [(Fyear, y)]); [right; split; auto; exists 40%N; auto|]. do 2 (apply (mk_seq _ _ _ [] (y ++ [41%N]) b [] [(Fyear, y)]); [apply mk_none|]).
  apply (mk_seq _ _ _ [] (y ++ [41%N]) b [] [(Fyear, y)]); [split; auto; split; auto; rewrite !app_nil_r; intros H; apply last_is_snoc in H; discriminate|].
  apply (mk_seq _ _ _ y [41%N] b [(Fyear, y)] []); [exists []; split; auto; apply (mk_seq _ _ _ [] y _ [] []); [apply mk_none|split; auto]|]. apply (mk_seq _ _ _ [] [41%N] b [] []); [apply mk_none|]. apply (mk_seq _ _ _ [] [41%N] b [] []).
  - split; auto. split; auto. intros H. apply first_is_cons in H. discriminate.
  - right. split; auto. exists 41%N. auto.
Qed.
Definition range (q : option str) : str := match q with Some q => [45%N] ++ q | None => [] end.
Definition range_fields (q : option str) : fields := match q with Some q => [(Fpage_end, q)] | None => [] end.
Lemma mk_page_number a p b : number p -> page_number a p b [].
Proof.
  intros (N & D). apply (mk_seq _ _ a [] p b [] []); [apply mk_none|]. apply (mk_seq _ _ _ [] p b [] []); [apply mk_none|]. rewrite <- (app_nil_r p). apply (mk_seq _ _ _ p [] b [] []); [|apply mk_none]. split; auto. split; auto. split; auto. destruct p; [congruence|cbn; lia].
Qed.
Lemma mk_page a p q b : number p -> match q with Some q => number q | None => True end -> page a (p ++ range q) b ((Fpages, p ++ range q) :: range_fields q ++ [(Fpage, p)]).
Proof.
  intros P Q. eexists. split; [reflexivity|]. right. do 4 (rewrite <- (app_nil_r (range_fields q ++ [(Fpage, p)])); apply (mk_seq _ _ _ [] (p ++ range q) b [] (range_fields q ++ [(Fpage, p)])); [apply mk_none|]).
  apply (mk_seq _ _ _ p (range q) b [(Fpage, p)] (range_fields q)); [exists []; split; auto; now apply mk_page_number|]. destruct q as [q|]; [|apply mk_none]. right. apply (mk_seq _ _ _ [] ([45%N] ++ q) b [] [(Fpage_end, q)]); [apply mk_blanks|].
  apply (mk_seq _ _ _ [45%N] q b [] [(Fpage_end, q)]); [split; auto; exists 45%N; auto|]. apply (mk_seq _ _ _ [] q b [] [(Fpage_end, q)]); [apply mk_blanks|]. exists []. split; auto. now apply mk_page_number.
Qed.

(** ** The page at the end *)
Lemma page_number_any a a' w b b' fs : page_number a w b fs -> page_number a' w b' fs.
Proof. intros (w0 & w1 & f1 & f2 & -> & -> & Hr & w2 & w3 & f3 & f4 & -> & -> & Hw & w4 & w5 & f5 & f6 & -> & -> & Hd & Hc). apply mk_seq; [exact Hr|]. apply mk_seq; [exact Hw|]. apply mk_seq; [exact Hd|exact Hc]. Qed.
(** behind the page: no digit and no letter c, and no dash with another page *)
Definition page_over (q : option str) (b : str) : Prop := ends_page_number b /\ (q = None -> forall a, ~ range_follows a b).
Lemma dash_follows a e q b : dash e -> page_number a q b [] -> range_follows a (e ++ q ++ b).
Proof.
  intros (x & y & -> & X & Y) P. exists (([] ++ x ++ [45%N] ++ y) ++ q), b. split; [cbn [app]; now rewrite <- !app_assoc|]. apply (mk_seq _ _ a _ q b [] []); [|eapply page_number_any; exact P]. cbn [app].
  apply (mk_seq _ _ _ x ([45%N] ++ y) _ [] []); [split; auto; cbn; repeat split; auto; lia|]. apply (mk_seq _ _ _ [45%N] y _ [] []); [split; auto; exists 45%N; auto|]. split; auto. repeat split; auto. lia.
Qed.
Definition numbers (q : option str) : Prop := match q with Some q => number q | None => True end.
Lemma range_over q b : numbers q -> ends_page_number b -> ends_page_number (range q ++ b).
Proof. intros Q B. destruct q as [q|]; auto. intros F. apply first_is_cons in F. discriminate. Qed.
Lemma page_final g p q b a A w b' fs rest : (g = [] \/ g = [32%N]) -> number p -> numbers q -> page_over q b -> page a w b' fs -> w ++ b' = g ++ p ++ range q ++ b -> no_cut (A ++ w) b' ->
  (field_of Fpage_end (fs ++ rest) = None -> field_of Fjinst (fs ++ rest) = None -> ~ range_follows (A ++ w) b') -> field_of Fpage_end rest = None -> field_of Fjinst rest = None ->
  w = g ++ p ++ range q /\ b' = b /\ fs = (Fpages, w) :: range_fields q ++ [(Fpage, p)].
Proof.
  intros G P Q (B1 & B2) H E C F R1 R2. destruct (page_inv g p (range q ++ b) a w b' fs G P (range_over q b Q B1) H E) as [(p1 & p2 & -> & N & -> & -> & ->)|(e & q' & -> & T & De & Pq & ->)].
  - assert (p2 = []) as ->. { destruct p2 as [|d p2]; auto. exfalso. apply C. destruct P as (_ & P). apply forallb_both in P as (P1 & P2). split; [rewrite app_assoc; apply last_app; auto; now apply last_all|]. cbn [app]. apply first_is_cons. cbn [forallb] in P2. now apply andb_true_iff in P2 as [P2 _]. }
    rewrite app_nil_r in *. cbn [app] in *. destruct q as [q|].
    + exfalso. apply F; cbn [field_of app]; auto. apply (dash_follows _ [45%N] q b); [exists [], []; auto|]. now apply mk_page_number.
    + cbn [range app range_fields]. rewrite app_nil_r. auto.
  - destruct q as [q|].
    + cbn [range] in T |- *. destruct De as (x & y & -> & X & Y). assert (x = []) as ->. { destruct x as [|c x]; auto. cbn in T. injection T as <- _. discriminate. } cbn in T. injection T as T. pose proof (number_cons _ Q) as (d & r & Eq & D).
      assert (y = []) as ->. { destruct y as [|c y]; auto. rewrite Eq in T. cbn in T. injection T as <- _. cbn [forallb] in Y. apply andb_true_iff in Y as [Y _]. apply digit_no_space in D. congruence. } cbn [app] in *.
      symmetry in T. apply (page_number_inv q b) in Pq as (_ & N & q2 & -> & ->); auto. assert (q2 = []) as ->.
      { destruct q2 as [|z q2]; auto. exfalso. apply C. destruct Q as (_ & Q). apply forallb_both in Q as (Q1 & Q2). split; [|cbn [app]; apply first_is_cons; cbn [forallb] in Q2; now apply andb_true_iff in Q2 as [Q2 _]]. assert (last_is is_digit ((A ++ g ++ p ++ [45%N]) ++ q')) as Z9 by (apply last_app; auto; now apply last_all). rewrite <- !app_assoc in Z9. exact Z9. }
      rewrite app_nil_r in *. cbn [range_fields app]. auto.
    + exfalso. cbn [range app] in T. apply (B2 eq_refl (a ++ g ++ p)). rewrite T. apply dash_follows; auto.
Qed.

(** ** The series *)
Definition series_of (l : option ch) : option str := match l with Some c => Some (upper [c]) | None => None end.
Lemma gap_sep u : gap u -> forallb sep_char u = true. Proof. intros H. now apply start_all in H. Qed.
Lemma series_found l v s : lead_ok l -> number v -> series_in (lead l ++ v) s -> s = series_of l.
Proof.
  intros L V H. pose proof (number_cons _ V) as (d & r & Ev & D). destruct l as [c|].
  - assert (series_before (lead (Some c) ++ v) c) as B. { exists [], d, r. rewrite Ev. cbn. split; auto. split; [apply L|]. split; auto. apply (mk_seq _ _ [] [] [] [] [] []); [apply mk_blanks|]. apply (mk_seq _ _ _ [] [] _ [] []); [apply mk_none|apply mk_blanks]. }
    destruct H as [(c' & H & ->)|[(H & _)|(H & _)]]; try (exfalso; now apply (H c)). destruct H as (u & d' & t & E & _). cbn in E. injection E as -> _. reflexivity.
  - cbn [lead app] in H. destruct H as [(c & H & _)|[(_ & c & H & _)|(_ & _ & ->)]]; auto; exfalso.
    + destruct H as (u & d' & t & E & C & _). rewrite Ev in E. cbn in E. injection E as -> _. apply digit_not_letter in D. congruence.
    + destruct H as (n & u & t & -> & _ & _ & _ & C). destruct V as (_ & V). apply forallb_both in V as (_ & V). apply forallb_both in V as (_ & V). cbn [app forallb] in V. apply andb_true_iff in V as [V _]. apply digit_not_letter in V. unfold is_letter in V. rewrite C in V. discriminate.
Qed.

(** ** 12 (2009) 345 *)
Definition form1 (l : option ch) (v y p : str) (q : option str) : str := [32%N] ++ (lead l ++ v) ++ [32%N] ++ ([40%N] ++ y ++ [41%N]) ++ [32%N] ++ p ++ range q.
Definition usual (l : option ch) (v y p : str) (q : option str) : Prop := lead_ok l /\ number v /\ a_year y /\ number p /\ numbers q.
Lemma lead_cons l v t : lead_ok l -> number v -> exists x r, lead l ++ v ++ t = x :: r /\ (is_digit x = true \/ is_letter x = true).
Proof. intros L V. destruct (number_cons _ V) as (d & r & -> & D). destruct l as [c|]; cbn; do 2 eexists; (split; [reflexivity|]); auto. right. apply L. Qed.
Lemma year_cons y t : a_year y -> exists d r, y ++ t = d :: r /\ is_digit d = true.
Proof. intros Y. apply year_length in Y as (x & d & e & f & -> & X & D). cbn [forallb] in D. apply andb_true_iff in D as [D _]. cbn. eauto. Qed.
Lemma word_char x : is_digit x = true \/ is_letter x = true -> is_word x = true. Proof. intros [H|H]; [now apply digit_word|now apply letter_word]. Qed.
(** the volume behind the space *)
Lemma nothing_last P : ~ last_is P []. Proof. intros (u & c & E & _). now apply app_cons_not_nil in E. Qed.
Lemma volume_space p w b fs r : (volume ;; p) [] w b fs -> w ++ b <> 32%N :: r.
Proof. intros (u & v & f1 & f2 & -> & -> & H & _) E. rewrite <- app_assoc in E. revert E. eapply volume_not; [apply nothing_last|reflexivity|exact H]. Qed.
Lemma volume_behind l v t p w b fs : lead_ok l -> number v -> ends_number t -> ~ first_is is_letter t -> no_dash t -> (forall a' u r fs', t = u ++ r -> ~ vol_part a' u r fs') ->
  (start ;; volume ;; p) [] w b fs -> w ++ b = [32%N] ++ (lead l ++ v) ++ t -> exists u v' w' f, v = u ++ v' /\ u <> [] /\ w = [32%N] ++ (lead l ++ u) ++ w' /\ p ([32%N] ++ (lead l ++ u)) w' b f /\ w' ++ b = v' ++ t /\ fs = f ++ [(Fvolume, lead l ++ u); (Fnumber, u)].
Proof.
  intros L V T1 T2 T3 T4 H E. rewrite <- app_assoc in E. destruct (lead_cons l v t L V) as (x & r & Ex & X). rewrite Ex in E. eapply start_space in H as (w' & -> & H & E'); [|exact E|now apply word_not_sep|intros w1 b1 fs1 H1; eapply volume_space; exact H1].
  pose proof (eq_trans E' (eq_sym Ex)) as E2. clear E'. rename E2 into E'. destruct H as (u & w2 & f1 & f2 & -> & -> & H & H2). rewrite <- app_assoc in E'. apply (volume_inv l v t) in H as (u' & v' & -> & N & -> & E2 & ->); auto. exists u', v', w2, f2. repeat (split; auto).
Qed.
(** no subtitle behind the space *)
Lemma subtitle_behind p w b fs x r : (start ;; subtitle ;; p) [] w b fs -> w ++ b = [32%N] ++ x :: r -> sep_char x = false -> (x <> 40%N /\ x <> 91%N) \/ (x = 40%N /\ exists d r', r = d :: r' /\ is_digit d = true) -> False.
Proof.
  intros H E X N. eapply start_space in H as (w' & -> & H & E'); [|exact E|exact X|].
  - destruct H as (u & v & f1 & f2 & -> & _ & H & _). rewrite <- app_assoc in E'. eapply subtitle_not; eauto.
  - intros w1 b1 fs1 (u & v & f1 & f2 & -> & _ & H1 & _) E1. rewrite <- app_assoc in E1. eapply subtitle_not; [exact H1|exact E1|]. left. split; discriminate.
Qed.
Lemma word_not_paren x : is_digit x = true \/ is_letter x = true -> x <> 40%N /\ x <> 91%N.
Proof. intros [H|H]; split; intros ->; discriminate. Qed.
Lemma paren_tail y t : a_year y -> let b := [32%N] ++ ([40%N] ++ y ++ [41%N]) ++ t in ends_number b /\ ~ first_is is_letter b /\ no_dash b /\ (forall a' u r fs', b = u ++ r -> ~ vol_part a' u r fs').
Proof.
  intros Y. cbv zeta. split; [intros F; apply first_is_cons in F; discriminate|]. split; [intros F; apply first_is_cons in F; discriminate|]. split.
  - intros z r Z E. destruct z as [|c z]; [discriminate|]. cbn in E. injection E as <- E. destruct z as [|c z]; [discriminate|]. cbn in E. injection E as <- _. discriminate.
  - intros a u r fs E (w0 & w1 & f1 & f2 & -> & _ & H0 & w2 & w3 & f3 & f4 & -> & _ & H2 & w4 & w5 & f5 & f6 & -> & _ & H4 & w6 & w7 & f7 & f8 & -> & _ & H6 & H7). apply blanks_all in H0 as (_ & H0). apply any_inv in H2 as (_ & c & -> & [<-|[]]). apply many_inv in H4 as (_ & H4 & L4 & M4). rewrite <- !app_assoc in E.
    destruct w0 as [|c w0]; [discriminate|]. cbn in E. injection E as <- E. destruct w0 as [|c w0]; [|cbn in E; injection E as <- _; discriminate]. cbn in E. injection E as E. apply year_length in Y as (x & d & e & f & -> & _ & Y). cbn [forallb] in Y. rewrite !andb_true_iff in Y. destruct Y as (_ & Yd & Ye & _).
    assert (forall h R, is_digit h = true -> w6 ++ w7 ++ r <> h :: R) as Q.
    { intros h R Dh Eh. destruct H6 as [(-> & _)|(p1 & p2 & f9 & f10 & -> & _ & Hp & _)].
      - apply any_inv in H7 as (_ & c & -> & [<-|[]]). cbn in Eh. injection Eh as <- _. discriminate.
      - apply any_inv in Hp as (_ & c & -> & [<-|[]]). cbn in Eh. injection Eh as <- _. discriminate. }
    destruct w4 as [|x1 [|x2 [|x3 w4]]]; cbn in L4, M4; try lia; cbn in E; [injection E as E1 E|injection E as E1 E2 E]; symmetry in E; (eapply Q; [|exact E]); auto.
Qed.
(** behind a part of the volume *)
Lemma number_part u v' : number (u ++ v') -> v' = [] \/ number v'.
Proof. intros (_ & D). apply forallb_both in D as (_ & D). destruct v' as [|c v']; auto. right. split; [discriminate|auto]. Qed.
Lemma behind_volume u v' z r : number (u ++ v') -> forallb sep_char z = true -> ~ first_is sep_char r -> ~ first_is (some_of (py "Nn")) r -> (forall a w b fs, subtitle a w b fs -> w ++ b <> r) ->
  exists z' r', v' ++ z ++ r = z' ++ r' /\ forallb sep_char z' = true /\ ~ first_is sep_char r' /\ ~ first_is (some_of (py "Nn")) r' /\ (forall a w b fs, subtitle a w b fs -> w ++ b <> r') /\ (v' = [] -> z' = z /\ r' = r) /\ (v' <> [] -> z' = []).
Proof.
  intros V Z R1 R2 R3. destruct (number_part _ _ V) as [-> | V']; [exists z, r; cbn; repeat (split; auto); congruence|]. exists [], (v' ++ z ++ r). split; auto. split; auto. split; [apply number_first; auto; intros c C; now apply digit_not_sep|].
  split; [apply number_first; auto; intros c C; destruct (some_of (py "Nn") c) eqn:S; auto; apply some_of_in in S; exfalso; revert S; now apply not_digit_in|]. split; [|split; auto; destruct V'; congruence].
  intros a w b fs H E. destruct (number_cons _ V') as (d & x & -> & D). eapply subtitle_not; [exact H|exact E|]. left. split; intros ->; discriminate.
Qed.
Lemma paren_rest y t : a_year y -> let r := ([40%N] ++ y ++ [41%N]) ++ t in ~ first_is sep_char r /\ ~ first_is (some_of (py "Nn")) r /\ (forall a w b fs, subtitle a w b fs -> w ++ b <> r).
Proof.
  intros Y. cbv zeta. split; [intros F; apply first_is_cons in F; discriminate|]. split; [intros F; apply first_is_cons in F; discriminate|]. intros a w b fs H E. destruct (year_cons y ([41%N] ++ t) Y) as (d & r & Ed & D). eapply subtitle_not; [exact H| |right; split; [reflexivity|exists d, r; auto]].
  rewrite E. cbn [app]. f_equal. rewrite <- app_assoc. exact Ed.
Qed.
Lemma form1_begins l v y p q b : usual l v y p q -> begins (nth 3 orders no_part) (form1 l v y p q ++ b).
Proof.
  intros (L & V & Y & P & Q). eexists _, b, _. split; [reflexivity|]. cbn [nth orders]. unfold form1. apply mk_seq; [apply mk_start|]. apply mk_seq; [apply mk_volume; auto; intros F; apply last_is_snoc in F; discriminate|].
  apply (mk_seq _ _ _ [] ([32%N] ++ _)); [apply mk_none|]. apply (mk_seq _ _ _ [] ([32%N] ++ _)); [apply mk_none|]. apply mk_seq; [left; apply (mk_sep _ 32%N []); auto|]. apply mk_seq; [now apply mk_year|]. apply mk_seq; [left; apply (mk_sep _ 32%N []); auto|]. now apply mk_page.
Qed.
Lemma first_paren t : ~ first_is (some_of (py "(")) (32%N :: t). Proof. intros F. apply first_is_cons in F. discriminate. Qed.
Lemma single_sep (w z : str) : w <> [] -> [32%N] = w ++ z -> w = [32%N] /\ z = [].
Proof. intros N E. destruct w as [|c [|d w]]; [congruence| |discriminate]. injection E as <- <-. auto. Qed.
Lemma form1_not l v y p q b j : usual l v y p q -> j < 3 -> ~ begins (nth j orders no_part) (form1 l v y p q ++ b).
Proof.
  intros (L & V & Y & P & Q) J (w & b' & fs & E & H). unfold form1 in E. rewrite <- !app_assoc in E. rewrite (app_assoc (lead l)) in E. symmetry in E. set (t := [32%N] ++ p ++ range q ++ b) in E.
  assert ([32%N] ++ (lead l ++ v) ++ [32%N] ++ ([40%N] ++ y ++ [41%N]) ++ t = w ++ b') as E' by (rewrite E; rewrite <- !app_assoc; reflexivity). clear E. symmetry in E'. destruct (paren_tail y t Y) as (T1 & T2 & T3 & T4). destruct (paren_rest y t Y) as (R1 & R2 & R3).
  destruct j as [|[|[|j]]]; [| | |lia]; cbn [nth orders] in H.
  - destruct (volume_behind l v _ _ _ _ _ L V T1 T2 T3 T4 H E') as (u & v' & w1 & f & -> & N & -> & H1 & E & _); clear H; rename H1 into H. destruct (behind_volume u v' [32%N] _ V eq_refl R1 R2 R3) as (z & r & Ez & Z & Z1 & Z2 & Z3 & Z4 & Z5). apply (fun x => eq_trans x Ez) in E.
    destruct H as (w2 & w3 & f1 & f2 & -> & -> & H & w4 & w5 & f3 & f4 & -> & -> & H2 & w6 & w7 & f5 & f6 & -> & -> & H3 & _). rewrite <- !app_assoc in E. destruct (issue_none z r _ _ _ _ Z Z1 Z2 H ltac:(rewrite <- !app_assoc; exact E)) as (-> & ->). cbn [app] in E.
    destruct (separator_part z r _ _ _ _ Z Z1 H2 ltac:(rewrite <- !app_assoc; exact E)) as (-> & Nw & z' & -> & E2). destruct v' as [|d v']; [|exfalso; specialize (Z5 ltac:(discriminate)); now apply app_eq_nil in Z5 as (? & _)].
    destruct (Z4 eq_refl) as (Es & ->). symmetry in Es. apply single_sep in Es as (-> & ->); auto. rewrite <- app_assoc in E2. eapply page_not; [exact H3|exact E2].
  - destruct (volume_behind l v _ _ _ _ _ L V T1 T2 T3 T4 H E') as (u & v' & w1 & f & -> & N & -> & H1 & E & _); clear H; rename H1 into H. destruct (behind_volume u v' [32%N] _ V eq_refl R1 R2 R3) as (z & r & Ez & Z & Z1 & Z2 & Z3 & Z4 & Z5). apply (fun x => eq_trans x Ez) in E.
    destruct H as (w2 & w3 & f1 & f2 & -> & -> & H & w4 & w5 & f3 & f4 & -> & -> & H2 & w6 & w7 & f5 & f6 & -> & -> & H3 & _). rewrite <- !app_assoc in E. destruct (issue_none z r _ _ _ _ Z Z1 Z2 H ltac:(rewrite <- !app_assoc; exact E)) as (-> & ->). cbn [app] in E.
    destruct (separator_part z r _ _ _ _ Z Z1 H2 ltac:(rewrite <- !app_assoc; exact E)) as (-> & Nw & z' & -> & E2). destruct v' as [|d v']; [|exfalso; specialize (Z5 ltac:(discriminate)); now apply app_eq_nil in Z5 as (? & _)].
    destruct (Z4 eq_refl) as (Es & ->). symmetry in Es. apply single_sep in Es as (-> & ->); auto. rewrite <- app_assoc in E2. exact (R3 _ _ _ _ H3 E2).
  - destruct (lead_cons l v ([32%N] ++ ([40%N] ++ y ++ [41%N]) ++ t) L V) as (x & r & Ex & X). rewrite <- app_assoc in E'. cbn [app] in Ex, E'. rewrite Ex in E'. eapply subtitle_behind; [exact H|exact E'|now apply word_not_sep|left; now apply word_not_paren].
Qed.
Lemma last_year A y : a_year y -> ~ last_is (some_of (py ")")) (A ++ y).
Proof. intros Y F. apply year_length in Y as (x & d & e & f & -> & _ & D). cbn [forallb] in D. rewrite !andb_true_iff in D. destruct D as (_ & _ & _ & D & _). change [x; d; e; f] with ([x; d; e] ++ [f]) in F. rewrite app_assoc in F. apply last_is_snoc in F. apply some_of_in in F. revert F. now apply not_digit_in. Qed.
Lemma reported_usual fs n i y l v p q : reported false fs n i -> lead_ok l -> number v -> field_of Fyear fs = Some y -> field_of Fvolume fs = Some (lead l ++ v) -> field_of Fnumber fs = Some v -> field_of Fpage fs = Some p -> field_of Fpage_end fs = q -> field_of Fseries fs = None ->
  i = mknum (Some y) (series_of l) (Some v) (Some p) q n.
Proof.
  intros (H1 & H2 & H3 & H4 & H5 & v0 & H6 & H7) L V E1 E2 E3 E4 E5 E6. rewrite E1 in H1. rewrite E3 in H2. rewrite E4 in H3. rewrite E5 in H4. rewrite E2 in H6. injection H6 as <-. rewrite E6 in H7. apply series_found in H7; auto. destruct i as [i1 i2 i3 i4 i5 i6]. cbn in *. congruence.
Qed.
Theorem form1_found l v y p q b : usual l v y p q -> page_over q b -> find_numeration (form1 l v y p q ++ b) = Ok (Some (mknum (Some y) (series_of l) (Some v) (Some p) q (length (form1 l v y p q)))).
Proof.
  intros U B. destruct (unique_order 3 (form1 l v y p q ++ b)) as (i & w & b' & fs & -> & E & H & Wh & R); [lia|now apply form1_begins|intros j J; now apply form1_not|]. do 2 f_equal.
  destruct U as (L & V & Y & P & Q). cbn [nth orders] in H. unfold form1 in E. rewrite <- !app_assoc in E. rewrite (app_assoc (lead l)) in E. set (t := [32%N] ++ p ++ range q ++ b) in E.
  assert (w ++ b' = [32%N] ++ (lead l ++ v) ++ [32%N] ++ ([40%N] ++ y ++ [41%N]) ++ t) as E' by (rewrite <- E; rewrite <- !app_assoc; reflexivity). clear E. destruct (paren_tail y t Y) as (T1 & T2 & T3 & T4). destruct (paren_rest y t Y) as (R1 & R2 & R3).
  destruct (volume_behind l v _ _ _ _ _ L V T1 T2 T3 T4 H E') as (u & v' & w1 & f & -> & N & -> & H1 & E & ->). clear H. destruct (behind_volume u v' [32%N] _ V eq_refl R1 R2 R3) as (z & r & Ez & Z & Z1 & Z2 & Z3 & Z4 & Z5). pose proof (eq_trans E Ez) as E0.
  destruct H1 as (w2 & w3 & f1 & f2 & -> & -> & Hi & w4 & w5 & f3 & f4 & -> & -> & Hs & w6 & w7 & f5 & f6 & -> & -> & Ht & w8 & w9 & f7 & f8 & -> & -> & Hy & w10 & w11 & f9 & f10 & -> & -> & Hf & Hp). rewrite <- !app_assoc in E0.
  destruct (issue_none z r _ _ _ _ Z Z1 Z2 Hi ltac:(rewrite <- !app_assoc; exact E0)) as (-> & ->). cbn [app] in E0. destruct (subtitle_opt_none z r _ _ _ _ Z Z1 Z3 Hs ltac:(rewrite <- !app_assoc; exact E0)) as (-> & ->). cbn [app] in E0.
  assert (v' = [] /\ w6 = [32%N] /\ f5 = [] /\ w8 ++ w10 ++ w11 ++ b' = ([40%N] ++ y ++ [41%N]) ++ t) as (-> & -> & -> & Ey).
  { destruct Ht as [Ht|(-> & _ & F)].
    - destruct (separator_part z r _ _ _ _ Z Z1 Ht ltac:(rewrite <- !app_assoc; exact E0)) as (-> & Nw & z' & -> & E2). destruct v' as [|d v']; [|exfalso; specialize (Z5 ltac:(discriminate)); now apply app_eq_nil in Z5 as (? & _)].
      destruct (Z4 eq_refl) as (Es & ->). symmetry in Es. apply single_sep in Es as (-> & ->); auto. repeat (split; [reflexivity|]). etransitivity; [|exact E2]. unfold str, ch in *. now rewrite <- !app_assoc.
    - exfalso. rewrite <- !app_assoc in F. cbn [app] in E0. rewrite E0, <- Ez in F. destruct v' as [|d v']; [now apply first_paren in F|]. apply first_is_cons in F. destruct V as (_ & V). apply forallb_both in V as (_ & V). cbn [forallb] in V. apply andb_true_iff in V as [V _]. apply some_of_in in F. revert F. now apply not_digit_in. }
  destruct (year_inv y t _ w8 (w10 ++ w11 ++ b') f7 Y ltac:(rewrite <- !app_assoc in Hy; exact Hy) ltac:(rewrite Ey; rewrite <- !app_assoc; reflexivity)) as (-> & [(-> & Eb)|(-> & Eb)]).
  { exfalso. destruct Hf as [Hf|(_ & _ & F)].
    - apply separator_all in Hf as (_ & Nw & Hf). destruct w10 as [|c w10]; [congruence|]. cbn in Eb. injection Eb as -> _. cbn [forallb] in Hf. discriminate.
    - rewrite (app_assoc _ [40%N] y) in F. now apply last_year in F. }
  assert (exists g, (g = [] \/ g = [32%N]) /\ f9 = [] /\ w10 ++ g = [32%N] /\ w11 ++ b' = g ++ p ++ range q ++ b) as (g & G & -> & Eg & Ep).
  { unfold t in Eb. destruct Hf as [Hf|(-> & -> & _)]; [|exists [32%N]; auto]. assert (~ first_is sep_char (p ++ range q ++ b)) as Np by (apply number_first; auto; intros c C; now apply digit_not_sep). destruct (separator_part [32%N] _ _ _ _ _ eq_refl Np Hf Eb) as (-> & Nw & z' & Es & E2). apply single_sep in Es as (-> & ->); auto. exists []. auto. }
  destruct Wh as (Wc & Wr). change (page_last 3) with true in Wr. cbv iota in Wr. set (W := [32%N] ++ (lead l ++ u) ++ [] ++ [] ++ [32%N] ++ ([40%N] ++ y ++ [41%N]) ++ w10 ++ w11). change (no_cut W b') in Wc. match type of Wr with ?A1 -> ?A2 -> _ => change (A1 -> A2 -> ~ range_follows W b') in Wr end. match type of R with reported _ ?fs _ _ => change (reported false fs (length W) i) in R end. set (A := [32%N] ++ (lead l ++ u) ++ [32%N] ++ ([40%N] ++ y ++ [41%N]) ++ w10).
  assert (W = A ++ w11) as EA by (unfold W, A, str, ch; rewrite <- !app_assoc; reflexivity). rewrite EA in Wc, Wr.
  destruct (page_final g p q b _ A w11 b' f10 ([(Fyear, y)] ++ [(Fvolume, lead l ++ u); (Fnumber, u)]) G P Q B Hp Ep Wc) as (-> & -> & ->); auto.
  { intros F1 F2. apply Wr; [rewrite <- F1|rewrite <- F2]; f_equal; rewrite !app_nil_r, <- app_assoc; reflexivity. }
  rewrite app_nil_r in V |- *. replace (length (form1 l u y p q)) with (length W). 2: { rewrite EA. unfold A, form1. f_equal. unfold str, ch in *. rewrite <- !app_assoc. do 2 f_equal. rewrite (app_assoc w10 g), Eg. reflexivity. }
  eapply reported_usual; [exact R|exact L|exact V|..]; destruct q; reflexivity.
Qed.

(** ** 12, 345 (2009) *)
Definition form2 (l : option ch) (v y p : str) (q : option str) : str := [32%N] ++ (lead l ++ v) ++ [44%N; 32%N] ++ (p ++ range q) ++ [32%N] ++ [40%N] ++ y ++ [41%N].
Lemma comma_tail t : let b := [44%N; 32%N] ++ t in ends_number b /\ ~ first_is is_letter b /\ no_dash b /\ (forall a' u r fs', b = u ++ r -> ~ vol_part a' u r fs').
Proof.
  cbv zeta. split; [intros F; apply first_is_cons in F; discriminate|]. split; [intros F; apply first_is_cons in F; discriminate|]. split.
  - intros z r Z E. destruct z as [|c z]; [discriminate|]. cbn in E. injection E as <- E. discriminate.
  - intros a u r fs E (w0 & w1 & f1 & f2 & -> & _ & H0 & w2 & w3 & f3 & f4 & -> & _ & H2 & _). apply blanks_all in H0 as (_ & H0). apply any_inv in H2 as (_ & c & -> & [<-|[]]). destruct w0 as [|c w0]; [discriminate|]. cbn in E. injection E as <- E. discriminate.
Qed.
Lemma number_rest p t : number p -> ~ first_is sep_char (p ++ t) /\ ~ first_is (some_of (py "Nn")) (p ++ t) /\ (forall a w b fs, subtitle a w b fs -> w ++ b <> p ++ t).
Proof.
  intros P. split; [apply number_first; auto; intros c C; now apply digit_not_sep|]. split; [apply number_first; auto; intros c C; destruct (some_of (py "Nn") c) eqn:S; auto; apply some_of_in in S; exfalso; revert S; now apply not_digit_in|].
  intros a w b fs H E. destruct (number_cons _ P) as (d & x & -> & D). eapply subtitle_not; [exact H|exact E|]. left. split; intros ->; discriminate.
Qed.
Lemma form2_begins l v y p q b : usual l v y p q -> begins (nth 0 orders no_part) (form2 l v y p q ++ b).
Proof.
  intros (L & V & Y & P & Q). eexists _, b, _. split; [reflexivity|]. cbn [nth orders]. unfold form2. apply mk_seq; [apply mk_start|]. apply mk_seq; [apply mk_volume; auto; intros F; apply last_is_snoc in F; discriminate|].
  apply (mk_seq _ _ _ [] ([44%N; 32%N] ++ _)); [apply mk_none|]. apply mk_seq; [apply (mk_sep _ 44%N [32%N]); auto|]. apply mk_seq; [now apply mk_page|]. apply mk_seq; [left; apply (mk_sep _ 32%N []); auto|]. now apply mk_year.
Qed.
Lemma year_number q t a w b fs : number q -> ends_number t -> ~ first_is is_letter t -> year a w b fs -> w ++ b = q ++ t -> a_year q.
Proof.
  intros Q T1 T2 (w0 & w1 & f1 & f2 & -> & -> & H0 & w2 & w3 & f3 & f4 & -> & -> & H2 & w4 & w5 & f5 & f6 & -> & -> & H4 & w6 & w7 & f7 & f8 & -> & -> & (-> & -> & _) & w8 & w9 & f9 & f10 & -> & -> & (f11 & -> & H8) & w10 & w11 & f12 & f13 & -> & -> & H10 & w12 & w13 & f14 & f15 & -> & -> & (-> & -> & Nd) & H13) E.
  pose proof (number_cons _ Q) as (d & r & Eq & D). pose proof E as E0. rewrite Eq in E0. cbn [app] in E0. rewrite <- !app_assoc in E0. cbn [app] in E0.
  assert (w0 = []) as ->. { destruct H0 as [(-> & _)|H0]; auto. apply any_inv in H0 as (_ & c & -> & [<-|[]]). cbn in E0. injection E0 as <- _. discriminate. }
  assert (forall l a w b fs r, month_of l a w b fs -> l = short_months \/ l = months -> w ++ b = d :: r -> w = [] /\ fs = []) as M.
  { intros l a' w' b' fs' r' H L E'. assert (forallb (fun v => match py v with c :: _ => in_range 97 122 c | [] => false end) l = true) as Qm by (destruct L as [-> | ->]; reflexivity). eapply month_head; [exact Qm|exact H|exact E'|]. now apply digit_not_letter. }
  cbn [app] in *. destruct (M _ _ _ _ _ _ H2 (or_introl eq_refl) ltac:(rewrite <- !app_assoc; exact E0)) as (-> & ->). cbn [app] in *. destruct (M _ _ _ _ _ _ H4 (or_intror eq_refl) ltac:(rewrite <- !app_assoc; exact E0)) as (-> & ->). cbn [app] in *.
  destruct H8 as (u0 & u1 & g1 & g2 & -> & -> & Hl & (Yr & ->)). assert (u0 = []) as ->. { destruct Hl as [(-> & _)|Hl]; auto. apply one_inv in Hl as (_ & c & -> & C). cbn in E0. injection E0 as -> _. apply digit_not_letter in D. congruence. }
  cbn [app] in *. rewrite <- !app_assoc in E. pose proof (year_length u1 Yr) as (y1 & y2 & y3 & y4 & Ey & _ & Dy). destruct Q as (_ & Q). apply run_prefix with (P := is_digit) in E as (q1 & -> & E); auto. destruct q1 as [|c q1].
  - rewrite app_nil_r. exact Yr.
  - exfalso. apply forallb_both in Q as (_ & Q). cbn [forallb] in Q. apply andb_true_iff in Q as [Q _]. assert (w10 = []) as ->. { destruct H10 as [(-> & _)|H10]; auto. apply one_inv in H10 as (_ & c' & -> & C). cbn in E. injection E as -> _. apply digit_not_letter in Q. congruence. }
    cbn [app] in *. apply Nd. rewrite E. now apply first_is_cons.
Qed.
Theorem form2_found l v y p q b : usual l v y p q -> (forall q', q = Some q' -> ~ a_year q') ->
  find_numeration (form2 l v y p q ++ b) = Ok (Some (mknum (Some y) (series_of l) (Some v) (Some p) q (length (form2 l v y p q)))).
Proof.
  intros U Ny. destruct (unique_order 0 (form2 l v y p q ++ b)) as (i & w & b' & fs & -> & E & H & Wh & R); [lia|now apply form2_begins|lia|]. do 2 f_equal.
  destruct U as (L & V & Y & P & Q). cbn [nth orders] in H. set (t := [32%N] ++ ([40%N] ++ y ++ [41%N]) ++ b).
  assert (w ++ b' = [32%N] ++ (lead l ++ v) ++ [44%N; 32%N] ++ p ++ range q ++ t) as E' by (rewrite <- E; unfold form2, t, str, ch; rewrite <- !app_assoc; reflexivity). clear E. destruct (comma_tail (p ++ range q ++ t)) as (T1 & T2 & T3 & T4). destruct (number_rest p (range q ++ t) P) as (R1 & R2 & R3).
  destruct (volume_behind l v _ _ _ _ _ L V T1 T2 T3 T4 H E') as (u & v' & w1 & f & -> & N & -> & H1 & E & ->). clear H. destruct (behind_volume u v' [44%N; 32%N] _ V eq_refl R1 R2 R3) as (z & r & Ez & Z & Z1 & Z2 & Z3 & Z4 & Z5). pose proof (eq_trans E Ez) as E0.
  destruct H1 as (w2 & w3 & f1 & f2 & -> & -> & Hi & w4 & w5 & f3 & f4 & -> & -> & Hs & w6 & w7 & f5 & f6 & -> & -> & Hp & w8 & w9 & f7 & f8 & -> & -> & Ht & Hy). rewrite <- !app_assoc in E0.
  destruct (issue_none z r _ _ _ _ Z Z1 Z2 Hi ltac:(rewrite <- !app_assoc; exact E0)) as (-> & ->). cbn [app] in E0.
  assert (v' = [] /\ f3 = [] /\ exists g, (g = [] \/ g = [32%N]) /\ w4 ++ g = [44%N; 32%N] /\ w6 ++ w8 ++ w9 ++ b' = g ++ p ++ range q ++ t) as (-> & -> & g & G & Eg & Ep).
  { destruct (separator_part z r _ _ _ _ Z Z1 Hs ltac:(rewrite <- !app_assoc; exact E0)) as (-> & Nw & z' & -> & E2). destruct v' as [|d v']; [|exfalso; specialize (Z5 ltac:(discriminate)); now apply app_eq_nil in Z5 as (? & _)].
    destruct (Z4 eq_refl) as (Es & ->). split; auto. split; auto. exists z'. split; [|split; [exact Es|rewrite <- !app_assoc in E2; exact E2]]. destruct w4 as [|c1 w4]; [congruence|]. destruct w4 as [|c2 w4]; cbn in Es; [injection Es as _ Es; auto|]. apply (f_equal (@tl _)) in Es. apply (f_equal (@tl _)) in Es. cbn in Es. apply app_eq_nil in Es as (_ & ->). auto. }
  assert (ends_page_number t) as Tt by (intros F; apply first_is_cons in F; discriminate).
  assert (forall z0 r0 a w b fs, forallb sep_char z0 = true -> ~ first_is sep_char r0 -> to_parenthesis a w b fs -> w ++ b = z0 ++ r0 -> ~ first_is (some_of (py "(")) (z0 ++ r0) -> fs = [] /\ w <> [] /\ exists z', z0 = w ++ z' /\ b = z' ++ r0) as Tp.
  { intros z0 r0 a0 w0 b0 fs0 Hz Hr [Ht0|(-> & -> & F)] E1 F1; [exact (separator_part z0 r0 a0 w0 b0 fs0 Hz Hr Ht0 E1)|]. exfalso. apply F1. now rewrite <- E1. }
  assert (forall d x, is_digit d = true -> ~ first_is (some_of (py "(")) (d :: x)) as Nd. { intros d x D F. apply first_is_cons in F. apply some_of_in in F. revert F. now apply not_digit_in. }
  destruct (paren_rest y b Y) as (S1 & _ & _).
  assert (w6 = g ++ p ++ range q /\ f5 = (Fpages, w6) :: range_fields q ++ [(Fpage, p)] /\ w8 ++ w9 ++ b' = t) as (-> & -> & E8).
  { destruct (page_inv g p (range q ++ t) _ w6 (w8 ++ w9 ++ b') f5 G P (range_over q t Q Tt) ltac:(rewrite <- !app_assoc in Hp; exact Hp) Ep) as [(p1 & p2 & -> & Np & -> & E1 & ->)|(e & q' & -> & E1 & De & Pq & ->)].
    - assert (p2 = []) as ->. { destruct (number_part _ _ P) as [-> | P2]; auto. exfalso. destruct (number_cons _ P2) as (d & x & -> & D). destruct (Tp [] (d :: x ++ range q ++ t) _ _ _ _ eq_refl ltac:(intros F; apply first_is_cons in F; apply digit_not_sep in D; congruence) Ht E1 ltac:(now apply Nd)) as (_ & Nw & z' & Ez' & _). symmetry in Ez'. now apply app_eq_nil in Ez' as (? & _). }
      rewrite !app_nil_r in *. cbn [app] in E1. destruct q as [q|]; [exfalso|cbn [range app range_fields]; rewrite app_nil_r; auto]. destruct (number_rest q t Q) as (Q1 & _ & _).
      destruct (Tp [45%N] (q ++ t) _ _ _ _ eq_refl Q1 Ht E1 ltac:(intros F; apply first_is_cons in F; discriminate)) as (-> & Nw & z' & Ez' & E2). assert (w8 = [45%N] /\ z' = []) as (-> & ->). { destruct w8 as [|c [|c2 w8]]; [congruence| |discriminate]. injection Ez' as <- <-. auto. }
      apply (Ny q eq_refl). eapply (year_number q t); [exact Q|intros F; apply first_is_cons in F; discriminate|intros F; apply first_is_cons in F; discriminate|exact Hy|exact E2].
    - destruct De as (x & x' & -> & X & X'). destruct q as [q|].
      + cbn [range] in E1. assert (x = []) as ->. { destruct x as [|c x]; auto. cbn in E1. injection E1 as <- _. discriminate. } cbn in E1. injection E1 as E1. pose proof (number_cons _ Q) as (d & r0 & Eq & D).
        assert (x' = []) as ->. { destruct x' as [|c x']; auto. rewrite Eq in E1. cbn in E1. injection E1 as <- _. cbn [forallb] in X'. apply andb_true_iff in X' as [X' _]. apply digit_no_space in D. congruence. } cbn [app] in E1. symmetry in E1.
        apply (page_number_inv q t) in Pq as (_ & Nq & q2 & -> & E2); auto. assert (q2 = []) as ->.
        { destruct (number_part _ _ Q) as [-> | P2]; auto. exfalso. destruct (number_cons _ P2) as (d' & x & -> & D'). destruct (Tp [] (d' :: x ++ t) _ _ _ _ eq_refl ltac:(intros F; apply first_is_cons in F; apply digit_not_sep in D'; congruence) Ht E2 ltac:(now apply Nd)) as (_ & Nw & z' & Ez' & _). symmetry in Ez'. now apply app_eq_nil in Ez' as (? & _). }
        cbn [range range_fields app]. rewrite app_nil_r. split; [reflexivity|]. split; [reflexivity|exact E2].
      + exfalso. cbn [range app] in E1. unfold t in E1. destruct x as [|c x]; [discriminate|]. cbn in E1. injection E1 as <- E1. destruct x as [|c x]; [discriminate|]. cbn in E1. injection E1 as <- _. discriminate. }
  destruct (Tp [32%N] (([40%N] ++ y ++ [41%N]) ++ b) _ _ _ _ eq_refl S1 Ht E8 ltac:(intros F; apply first_is_cons in F; discriminate)) as (-> & Nw & z' & Ez' & E9). apply single_sep in Ez' as (-> & ->); auto. cbn [app] in E9.
  destruct (year_inv y b _ w9 b' f8 Y Hy ltac:(rewrite E9; unfold str, ch; rewrite <- !app_assoc; reflexivity)) as (-> & [(-> & Eb)|(-> & ->)]).
  { exfalso. destruct Wh as (_ & Wc). change (page_last 0) with false in Wc. cbv iota in Wc. pose proof (Wc ltac:(rewrite Eb; apply first_is_cons; reflexivity)) as F. unfold str, ch in *. rewrite !app_assoc in F.
    eapply (last_year _ y Y). destruct F as (x0 & c0 & E1 & C0). exists x0, c0. split; [exact E1|]. cbn. rewrite orb_false_r. now rewrite N.eqb_sym. }
  rewrite app_nil_r in V |- *. match type of R with reported _ _ ?n _ => replace (length (form2 l u y p q)) with n end.
  2: { unfold form2. f_equal. unfold str, ch in *. rewrite <- !app_assoc. cbn [app]. do 2 f_equal. rewrite (app_assoc w4 g), Eg. reflexivity. }
  eapply reported_usual; [exact R|exact L|exact V|..]; destruct q; reflexivity.
Qed.

(** ** (2009) 12, 345 *)
Definition form3 (l : option ch) (v y p : str) (q : option str) : str := [32%N] ++ ([40%N] ++ y ++ [41%N]) ++ [32%N] ++ (lead l ++ v) ++ [44%N; 32%N] ++ p ++ range q.
Lemma year_space a w b fs r : year a w b fs -> w ++ b <> 32%N :: r.
Proof.
  intros (w0 & w1 & f1 & f2 & -> & -> & H0 & w2 & w3 & f3 & f4 & -> & -> & H2 & w4 & w5 & f5 & f6 & -> & -> & H4 & w6 & w7 & f7 & f8 & -> & -> & (-> & -> & _) & w8 & w9 & f9 & f10 & -> & -> & (f11 & -> & H8) & _) E.
  rewrite <- !app_assoc in E. cbn [app] in E.
  assert (w0 = []) as ->. { destruct H0 as [(-> & _)|H0]; auto. apply any_inv in H0 as (_ & c & -> & [<-|[]]). discriminate. } cbn [app] in *.
  assert (forall l a w b fs r, month_of l a w b fs -> l = short_months \/ l = months -> w ++ b = 32%N :: r -> w = [] /\ fs = []) as M.
  { intros l a' w' b' fs' r' H L E'. assert (forallb (fun v => match py v with c :: _ => in_range 97 122 c | [] => false end) l = true) as Qm by (destruct L as [-> | ->]; reflexivity). eapply month_head; [exact Qm|exact H|exact E'|reflexivity]. }
  destruct (M _ _ _ _ _ _ H2 (or_introl eq_refl) ltac:(rewrite <- !app_assoc; exact E)) as (-> & ->). cbn [app] in *. destruct (M _ _ _ _ _ _ H4 (or_intror eq_refl) ltac:(rewrite <- !app_assoc; exact E)) as (-> & ->). cbn [app] in *.
  destruct H8 as (u0 & u1 & g1 & g2 & -> & -> & Hl & (Yr & ->)). assert (u0 = []) as ->. { destruct Hl as [(-> & _)|Hl]; auto. apply one_inv in Hl as (_ & c & -> & C). cbn in E. injection E as -> _. discriminate. }
  cbn [app] in *. destruct (year_length u1 Yr) as (y1 & y2 & y3 & y4 & -> & Ey & Dy). cbn in E. injection E as -> _. destruct Ey; discriminate.
Qed.
Lemma form3_begins l v y p q b : usual l v y p q -> begins (nth 10 orders no_part) (form3 l v y p q ++ b).
Proof.
  intros (L & V & Y & P & Q). eexists _, b, _. split; [reflexivity|]. cbn [nth orders]. unfold form3. apply mk_seq; [apply mk_start|]. apply mk_seq; [now apply mk_year|]. apply mk_seq; [left; apply (mk_sep _ 32%N []); auto|]. apply mk_seq; [apply mk_volume; auto; intros F; apply last_is_snoc in F; discriminate|].
  apply mk_seq; [apply (mk_sep _ 44%N [32%N]); auto|now apply mk_page].
Qed.
Lemma form3_not l v y p q b j : usual l v y p q -> j < 10 -> ~ begins (nth j orders no_part) (form3 l v y p q ++ b).
Proof.
  intros (L & V & Y & P & Q) J (w & b' & fs & E & H). assert (exists d r r', w ++ b' = [32%N] ++ 40%N :: r' /\ r' = d :: r /\ is_digit d = true) as (d & r & r' & E' & Er & D).
  { unfold form3 in E. rewrite <- !app_assoc in E. destruct (year_cons y ([41%N] ++ [32%N] ++ lead l ++ v ++ [44%N; 32%N] ++ p ++ range q ++ b) Y) as (d & r & Ey & D). exists d, r, (d :: r). split; auto. rewrite <- E, <- Ey. unfold str, ch. rewrite <- ?app_assoc. reflexivity. }
  assert (forall p', ~ (start ;; volume ;; p') [] w b' fs) as Hv.
  { intros p' F. eapply start_space in F as (w' & -> & F & E2); [|exact E'|reflexivity|intros w1 b1 fs1 F1; eapply volume_space; exact F1]. destruct F as (u & v0 & f1 & f2 & -> & _ & F & _). rewrite <- app_assoc in E2. revert E2. eapply volume_not; [|reflexivity|exact F]. intros F2. apply last_is_snoc with (a := []) in F2. discriminate. }
  assert (forall p', ~ (start ;; subtitle ;; p') [] w b' fs) as Hs by (intros p' F; eapply subtitle_behind; [exact F|exact E'|reflexivity|right; eauto]).
  do 10 (destruct j as [|j]; [first [exact (Hv _ H)|exact (Hs _ H)]|]). lia.
Qed.
Theorem form3_found l v y p q b : usual l v y p q -> page_over q b -> find_numeration (form3 l v y p q ++ b) = Ok (Some (mknum (Some y) (series_of l) (Some v) (Some p) q (length (form3 l v y p q)))).
Proof.
  intros U B. destruct (unique_order 10 (form3 l v y p q ++ b)) as (i & w & b' & fs & -> & E & H & Wh & R); [lia|now apply form3_begins|intros j J; now apply form3_not|]. do 2 f_equal.
  destruct U as (L & V & Y & P & Q). cbn [nth orders] in H. set (tl := p ++ range q ++ b). set (t := [32%N] ++ lead l ++ v ++ [44%N; 32%N] ++ tl).
  assert (w ++ b' = [32%N] ++ 40%N :: (y ++ [41%N] ++ t)) as E' by (rewrite <- E; unfold form3, t, tl, str, ch; rewrite <- !app_assoc; reflexivity). clear E. destruct (comma_tail tl) as (T1 & T2 & T3 & T4). destruct (number_rest p (range q ++ b) P) as (R1 & R2 & R3).
  eapply start_space in H as (w' & -> & H & E); [|exact E'|reflexivity|intros w1 b1 fs1 (u & v0 & f1 & f2 & -> & _ & F & _) E1; rewrite <- app_assoc in E1; eapply year_space; [exact F|exact E1]].
  destruct H as (w2 & w3 & f1 & f2 & -> & -> & Hy & w4 & w5 & f3 & f4 & -> & -> & Hf & w6 & w7 & f5 & f6 & -> & -> & Hv & w8 & w9 & f7 & f8 & -> & -> & Hs & Hp). rewrite <- !app_assoc in E.
  destruct (year_inv y t _ w2 (w4 ++ w6 ++ w8 ++ w9 ++ b') f1 Y ltac:(rewrite <- !app_assoc in Hy; exact Hy) E) as (-> & [(-> & Eb)|(-> & Eb)]).
  { exfalso. destruct Hf as [Hf|(_ & _ & F)].
    - apply separator_all in Hf as (_ & Nw & Hf). destruct w4 as [|c w4]; [congruence|]. cbn in Eb. injection Eb as -> _. cbn [forallb] in Hf. discriminate.
    - rewrite (app_assoc _ [40%N] y) in F. now apply last_year in F. }
  assert (~ first_is sep_char (lead l ++ v ++ [44%N; 32%N] ++ tl)) as Nl by (apply lead_first; auto; intros c C; now apply word_not_sep).
  assert (w4 = [32%N] /\ f3 = [] /\ w6 ++ w8 ++ w9 ++ b' = lead l ++ v ++ [44%N; 32%N] ++ tl) as (-> & -> & Ev).
  { destruct Hf as [Hf|(-> & -> & _)].
    - destruct (separator_part [32%N] _ _ _ _ _ eq_refl Nl Hf ltac:(rewrite <- !app_assoc; exact Eb)) as (-> & Nw & z' & Es & E2). apply single_sep in Es as (-> & ->); auto. rewrite <- !app_assoc in E2. auto.
    - exfalso. cbn [app] in Eb. eapply (volume_not _ _ _ _ 32%N); [|reflexivity|exact Hv|rewrite <- !app_assoc; exact Eb]. intros F. rewrite app_nil_r, !app_assoc in F. apply last_is_snoc in F. discriminate. }
  destruct (volume_inv l v _ _ _ _ _ L V T1 T2 T3 T4 Hv ltac:(rewrite <- !app_assoc; exact Ev)) as (u & v' & -> & Nu & -> & Eb' & ->). rewrite <- !app_assoc in Eb'.
  assert (v' = [] /\ f7 = [] /\ exists g, (g = [] \/ g = [32%N]) /\ w8 ++ g = [44%N; 32%N] /\ w9 ++ b' = g ++ p ++ range q ++ b) as (-> & -> & g & G & Eg & Ep).
  { destruct v' as [|d v'].
    - destruct (separator_part [44%N; 32%N] tl _ _ _ _ eq_refl R1 Hs Eb') as (-> & Nw & z' & Es & E2). split; auto. split; auto. exists z'. split; [|split; [now symmetry|exact E2]]. destruct w8 as [|c1 w8]; [congruence|]. destruct w8 as [|c2 w8]; cbn in Es; [injection Es as _ Es; auto|]. apply (f_equal (@List.tl _)) in Es. apply (f_equal (@List.tl _)) in Es. cbn in Es. symmetry in Es. apply app_eq_nil in Es as (_ & ->). auto.
    - exfalso. destruct V as (_ & V). apply forallb_both in V as (_ & V). cbn [forallb] in V. apply andb_true_iff in V as [V _]. apply digit_not_sep in V. apply separator_all in Hs as (_ & Nw & Hs). destruct w8 as [|c w8]; [congruence|]. cbn in Eb'. injection Eb' as -> _. cbn [forallb] in Hs. rewrite V in Hs. discriminate. }
  destruct Wh as (Wc & Wr). change (page_last 10) with true in Wr. cbv iota in Wr. set (A := [32%N] ++ ([40%N] ++ y ++ [41%N]) ++ [32%N] ++ (lead l ++ u) ++ w8). match type of Wc with no_cut ?W _ => set (W0 := W) in Wc, Wr, R end.
  assert (W0 = A ++ w9) as EA by (unfold W0, A, str, ch; rewrite <- !app_assoc; reflexivity). rewrite EA in Wc, Wr.
  destruct (page_final g p q b _ A w9 b' f8 ([(Fvolume, lead l ++ u); (Fnumber, u)] ++ [(Fyear, y)]) G P Q B Hp Ep Wc) as (-> & -> & ->); auto.
  { intros F1 F2. apply Wr; [rewrite <- F1|rewrite <- F2]; f_equal; rewrite !app_nil_r, <- ?app_assoc; reflexivity. }
  rewrite app_nil_r in V |- *. replace (length (form3 l u y p q)) with (length W0). 2: { rewrite EA. unfold A, form3. f_equal. unfold str, ch in *. rewrite <- !app_assoc. do 7 f_equal. rewrite (app_assoc w8 g), Eg. reflexivity. }
  eapply reported_usual; [exact R|exact L|exact V|..]; destruct q; reflexivity.
Qed.
