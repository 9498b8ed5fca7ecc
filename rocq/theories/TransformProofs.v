(** Volumes: Roman numerals, special journals, series letters (Transform.v). *)
From Coq Require Import List Arith NArith ZArith Bool Lia String.
From Verif Require Import UnicodeTables PyStr ListFacts Elements Regex RegexParse Patterns Transform RegexMeta RegexLang NumberFacts RecordProofs SplitProofs PostProofs.
Import ListNotations.
Local Open Scope nat_scope.
Local Notation length := List.length.
Local Arguments key_eqb : simpl never.
Local Arguments ety_eqb : simpl never.

Lemma matches_iff p s : productive (rx_re p) = true ->
  matches p s = true <-> exists x' g', mt (rx_re p) (init s) [] x' g'.
Proof.
  intros P. rewrite <- re_match_iff by auto. unfold matches. destruct (re_match (rx_re p) s); split; eauto; try discriminate.
  intros (o & H); discriminate.
Qed.

(** ** Roman numerals *)
Definition roman_letter (c : N) : option N :=
  if (N.eqb c 73 || N.eqb c 105)%N then Some 1%N
  else if (N.eqb c 86 || N.eqb c 118)%N then Some 5%N
  else if (N.eqb c 88 || N.eqb c 120)%N then Some 10%N else None.
Definition is_roman (s : str) : Prop := s <> [] /\ Forall (fun c => roman_letter c <> None) s.
Definition letter_value (c : N) : N := match roman_letter c with Some v => v | None => 0%N end.
(** the sum of the letters, and the number of letters I directly before a V or X *)
Fixpoint letters_sum (s : str) : N := match s with [] => 0 | c :: t => letter_value c + letters_sum t end%N.
Fixpoint subtractive (s : str) : N :=
  match s with
  | c :: (d :: _) as t => ((if (N.eqb (letter_value c) 1 && (1 <? letter_value d))%N then 1 else 0) + subtractive t)%N
  | _ => 0%N
  end.
Lemma subtractive_cons c d t : subtractive (c :: d :: t) = ((if (N.eqb (letter_value c) 1 && (1 <? letter_value d))%N then 1 else 0) + subtractive (d :: t))%N.
Proof. reflexivity. Qed.

Lemma roman_letters c : roman_letter c <> None -> In c [73; 105; 86; 118; 88; 120]%N.
Proof.
  unfold roman_letter. destruct (N.eqb_spec c 73), (N.eqb_spec c 105), (N.eqb_spec c 86), (N.eqb_spec c 118), (N.eqb_spec c 88), (N.eqb_spec c 120);
    cbn [orb]; intros H; subst; cbn; tauto.
Qed.
Lemma roman_cls c : cls_mem (mkcls false false (map (fun x => CRange x x) [88; 120; 86; 118; 73; 105]%N)) c = true <-> roman_letter c <> None.
Proof.
  split.
  - unfold cls_mem, item_mem, in_range. cbn [c_neg c_ci c_items map existsb xorb].
    intros H. assert (forall b : bool, (if b then true else false) = true -> b = true) as B by (intros []; auto). apply B in H. revert H.
    rewrite !orb_true_iff, !andb_true_iff, !N.leb_le.
    intros H. assert (c = 88 \/ c = 120 \/ c = 86 \/ c = 118 \/ c = 73 \/ c = 105)%N as D.
    { destruct H as [|[|[|[|[|[|]]]]]]; try lia. }
    repeat (destruct D as [->|D]; [discriminate|]). subst. discriminate.
  - intros H. apply roman_letters in H. cbn in H. repeat (destruct H as [<-|H]; [reflexivity|]). contradiction.
Qed.
Lemma roman_full_shape : rx_re re_roman_full
  = Cat (Rep true 1 None (Cls (mkcls false false (map (fun x => CRange x x) [88; 120; 86; 118; 73; 105]%N)))) Eos.
Proof. reflexivity. Qed.
(** the volumes that are treated as Roman numerals *)
Lemma roman_full_iff v : matches re_roman_full v = true <-> is_roman v \/ exists w, is_roman w /\ v = w ++ [10%N].
Proof.
  rewrite matches_iff by reflexivity. rewrite roman_full_shape. split.
  - intros (x' & g' & H). apply mt_cat_iff in H as (y & h & H1 & H2).
    apply mt_rep_cls in H1 as (w & (F & _) & A & B & _ & ->). apply mt_eos in H2 as (-> & -> & H2). cbn in F.
    assert (is_roman w) as R.
    { split; [intros ->; cbn in B; lia|]. apply Forall_forall. intros c Hc. rewrite forallb_forall in A. now apply roman_cls, A. }
    destruct H2 as [E|E]; rewrite E in F; subst.
    + rewrite app_nil_r. auto.
    + right. eauto.
  - assert (forall w t, is_roman w -> t = [] \/ t = [10%N] -> exists x' g', mt (Cat (Rep true 1 None (Cls (mkcls false false (map (fun x => CRange x x) [88; 120; 86; 118; 73; 105]%N)))) Eos) (init (w ++ t)) [] x' g') as G.
    { intros w t [N R] T. exists (after (init (w ++ t)) w), []. apply mt_cat_iff. exists (after (init (w ++ t)) w), []. split.
      - apply mt_rep_cls. exists w. split; [apply fwd_after with t; reflexivity|]. split.
        + apply forallb_forall. intros c Hc. rewrite Forall_forall in R. now apply roman_cls, R.
        + cbn. destruct w; [congruence|]. cbn. repeat split; auto. lia.
      - apply mt_eos. split; auto. split; auto. cbn. rewrite skipn_app, skipn_all, Nat.sub_diag. cbn. auto. }
    intros [R|(w & R & ->)].
    + rewrite <- (app_nil_r v). apply G; auto.
    + apply G; auto.
Qed.

Lemma upper_letter c : roman_letter c <> None -> exists u, upper_ch c = [u] /\ letter_value u = letter_value c
  /\ roman_digit u = letter_value c /\ In (letter_value c) [1; 5; 10]%N.
Proof.
  intros H. apply roman_letters in H. cbn in H.
  repeat (destruct H as [<-|H]; [eexists; split; [reflexivity|]; split; [reflexivity|]; split; [reflexivity|]; cbn; auto|]). contradiction.
Qed.
Definition pair_of (p n : N) : N := if (N.eqb p 1 && (1 <? n))%N then 1%N else 0%N.
Lemma roman_loop_spec : forall s t p, Forall (fun c => roman_letter c <> None) s -> In p [0; 1; 5; 10]%N ->
  (roman_loop t p (upper s)
    + 2 * ((match s with c :: _ => pair_of p (letter_value c) | [] => 0 end) + subtractive s) = t + letters_sum s)%N.
Proof.
  induction s as [|c s IH]; intros t p F P.
  - cbn. lia.
  - inversion F; subst. destruct (upper_letter c H1) as (u & U & V & D & I).
    unfold upper in *. cbn [flat_map]. rewrite U. cbn [app roman_loop]. rewrite D.
    specialize (IH (t + (letter_value c - (2 * p) mod letter_value c))%N (letter_value c) H2).
    assert (In (letter_value c) [0; 1; 5; 10]%N) as I' by (cbn in *; tauto). specialize (IH I').
    assert (match s with d :: _ => pair_of (letter_value c) (letter_value d) | [] => 0%N end + subtractive s = subtractive (c :: s))%N as E.
    { destruct s; [reflexivity|]. rewrite subtractive_cons. reflexivity. }
    rewrite E in IH. cbn [letters_sum].
    assert (letter_value c - (2 * p) mod letter_value c + 2 * pair_of p (letter_value c) = letter_value c)%N as Q.
    { clear - I P. cbn in I, P.
      repeat (destruct I as [I|I]; [rewrite <- I; repeat (destruct P as [P|P]; [rewrite <- P; reflexivity|]); contradiction|]). contradiction. }
    remember (roman_loop _ _ _) as z. remember (letter_value c - _)%N as d. remember (pair_of p _) as e.
    remember (letters_sum s) as l. remember (subtractive (c :: s)) as m. lia.
Qed.
Lemma roman2arabic_spec s : Forall (fun c => roman_letter c <> None) s ->
  (roman2arabic (upper s) + 2 * subtractive s = letters_sum s)%N.
Proof.
  intros F. pose proof (roman_loop_spec s 0 0 F ltac:(cbn; auto)) as H. unfold roman2arabic.
  assert ((match s with c :: _ => pair_of 0 (letter_value c) | [] => 0 end) = 0)%N as Z by (destruct s; reflexivity).
  rewrite Z in H. rewrite N.add_0_l in H. rewrite N.add_0_l in H. exact H.
Qed.
(** canonical numerals *)
Definition roman_unit (d : nat) : string :=
  nth d [""; "I"; "II"; "III"; "IV"; "V"; "VI"; "VII"; "VIII"; "IX"]%string ""%string.
Definition to_roman (n : nat) : str := repeat 88%N (n / 10) ++ py (roman_unit (n mod 10)).
Lemma letters_sum_app a b : letters_sum (a ++ b) = (letters_sum a + letters_sum b)%N.
Proof. induction a as [|c a IH]; cbn [letters_sum app]; [lia|]. rewrite IH. lia. Qed.
Lemma roman_unit_facts d : d < 10 -> upper (py (roman_unit d)) = py (roman_unit d)
  /\ Forall (fun c => roman_letter c <> None) (py (roman_unit d))
  /\ letters_sum (py (roman_unit d)) = (N.of_nat d + 2 * subtractive (py (roman_unit d)))%N.
Proof.
  intros H. do 10 (destruct d; [split; [reflexivity|]; split; [repeat constructor; discriminate|reflexivity]|]). lia.
Qed.
Lemma to_roman_value n : roman2arabic (to_roman n) = N.of_nat n.
Proof.
  assert (n mod 10 < 10) as M by (apply Nat.mod_upper_bound; lia).
  destruct (roman_unit_facts _ M) as (Q1 & Q2 & Q3). 
  assert (forall k u, subtractive (repeat 88%N k ++ u) = subtractive u) as Sb.
  { intros k u. induction k; auto. cbn [repeat app]. destruct (repeat 88%N k ++ u) eqn:Q; rewrite <- IHk; auto. }
  assert (forall k, letters_sum (repeat 88%N k) = 10 * N.of_nat k)%N as L.
  { induction k; [reflexivity|]. cbn [repeat letters_sum]. rewrite IHk. change (letter_value 88) with 10%N. lia. }
  assert (upper (to_roman n) = to_roman n) as U.
  { unfold to_roman, upper in *. rewrite flat_map_app. f_equal; [|exact Q1]. induction (n / 10); auto. cbn [repeat flat_map]. now rewrite IHn0. }
  assert (Forall (fun c => roman_letter c <> None) (to_roman n)) as F.
  { unfold to_roman. apply Forall_app. split; auto.
    apply Forall_forall. intros c Hc. apply repeat_spec in Hc as ->. discriminate. }
  pose proof (roman2arabic_spec _ F) as H. rewrite U in H. unfold to_roman in H at 2 3. rewrite Sb, letters_sum_app, L, Q3 in H.
  pose proof (Nat.div_mod n 10 ltac:(lia)) as D. 
  assert (roman2arabic (to_roman n) = N.of_nat (10 * (n / 10) + n mod 10)); [|congruence].
  rewrite Nat2N.inj_add, Nat2N.inj_mul. change (N.of_nat 10) with 10%N. lia.
Qed.

Lemma is_type_true t e : e_type e = t <-> is_type t e = true.
Proof. unfold is_type. destruct (ety_eqb_spec (e_type e) t); split; intros; congruence. Qed.
Lemma get_str_ok k e v : get k e = Some (VS v) -> get_str k e = Ok v.
Proof. unfold get_str. now intros ->. Qed.
Lemma format_volume_roman e v : e_type e = JOURNAL -> get Kvolume e = Some (VS v) -> is_roman v ->
  exists n, (n + 2 * subtractive v = letters_sum v)%N /\ format_volume_el e = Ok (set_str Kvolume (str_of_N n) e).
Proof.
  intros T G R. exists (roman2arabic (upper v)). split; [apply roman2arabic_spec, R|].
  unfold format_volume_el. apply is_type_true in T. rewrite T, (get_str_ok _ _ _ G). cbn [bind].
  assert (matches re_roman_full v = true) as -> by (apply roman_full_iff; auto). reflexivity.
Qed.
Lemma format_volume_other e : (forall v, e_type e = JOURNAL -> get Kvolume e = Some (VS v) -> ~ is_roman v /\ forall w, v = w ++ [10%N] -> ~ is_roman w) ->
  (e_type e = JOURNAL -> exists v, get Kvolume e = Some (VS v)) -> format_volume_el e = Ok e.
Proof.
  intros H X. unfold format_volume_el. destruct (is_type JOURNAL e) eqn:T; auto. apply is_type_true in T.
  destruct (X T) as (v & G). rewrite (get_str_ok _ _ _ G). cbn [bind]. destruct (matches re_roman_full v) eqn:M; auto.
  exfalso. destruct (H v T G) as [N1 N2]. apply roman_full_iff in M as [M|(w & M & ->)]; auto. eapply N2; eauto.
Qed.

(** ** Case-insensitive letters *)
Lemma run_map_some c : forall rs d, run_map c rs = Some d ->
  exists lo hi k z, In (lo, hi, k, z) rs /\ (lo <= c <= hi)%N /\ d = Z.to_N (Z.of_N c + z).
Proof.
  induction rs as [|[[[lo hi] k] z] rs IH]; cbn; intros d H; [discriminate|].
  destruct (N.ltb_spec c lo); [discriminate|]. destruct (N.leb_spec c hi) as [L|L]; cbn [andb] in H.
  - destruct (N.eqb ((c - lo) mod k) 0).
    + inversion H; subst. exists lo, hi, k, z. auto.
    + destruct (IH _ H) as (a & b & e & f & I & J). exists a, b, e, f. auto.
  - destruct (IH _ H) as (a & b & e & f & I & J). exists a, b, e, f. auto.
Qed.
Definition special_fold (c : N) : bool := N.eqb c 304 || N.eqb c 305 || N.eqb c 383 || N.eqb c 8490.
Definition runs_high (rs : list (N * N * N * Z)) : bool :=
  forallb (fun '(lo, hi, k, z) => (128 <=? Z.of_N lo + z)%Z || (N.eqb lo hi && special_fold lo)) rs.
Lemma run_map_high c rs d : runs_high rs = true -> special_fold c = false -> run_map c rs = Some d -> (128 <= d)%N.
Proof.
  intros R S H. apply run_map_some in H as (lo & hi & k & z & I & B & ->). unfold runs_high in R. rewrite forallb_forall in R.
  specialize (R _ I). cbn in R. apply orb_true_iff in R as [R|R].
  - apply Z.leb_le in R. lia.
  - apply andb_true_iff in R as [R1 R2]. apply N.eqb_eq in R1. assert (c = lo) by lia. congruence.
Qed.
Lemma case_variants_high c : (128 <= c)%N -> special_fold c = false -> Forall (fun d => 128 <= d)%N (case_variants c).
Proof.
  intros H S. pose proof S as S'. unfold special_fold in S'. apply orb_false_iff in S' as [S' S3]. apply orb_false_iff in S' as [S' S2].
  unfold case_variants, is_lower_ascii, is_upper_ascii, in_range.
  destruct (N.leb_spec c 122); [lia|]. rewrite andb_false_r. destruct (N.leb_spec c 90); [lia|]. rewrite andb_false_r.
  destruct (N.ltb_spec c 128); [lia|]. rewrite S', S2, S3.
  constructor; auto. apply Forall_app. split.
  - destruct (run_map c lower_runs) eqn:E; cbn; auto. constructor; auto. eapply run_map_high; [| |exact E]; auto.
  - destruct (run_map c upper_runs) eqn:E; cbn; auto. constructor; auto. eapply run_map_high; [| |exact E]; auto.
Qed.
Definition ascii_letter (c : N) : Prop := (65 <= c <= 90 \/ 97 <= c <= 122)%N.
Definition letter_cls := mkcls false true [CRange 65 90].
(** re.IGNORECASE adds the long s, the Kelvin sign and the two Turkish letters i *)
Lemma letter_cls_iff c : cls_mem letter_cls c = true <-> ascii_letter c \/ In c [304; 305; 383; 8490]%N.
Proof.
  unfold cls_mem, letter_cls. cbn [c_neg c_ci c_items existsb item_mem xorb]. rewrite orb_false_r.
  assert (forall b : bool, (if b then true else false) = b) as B by now intros []. rewrite B. clear B.
  destruct (N.ltb_spec c 128) as [L|L].
  - split.
    + intros H. left. unfold ascii_letter.
      destruct (N.leb_spec 65 c); [|exfalso]; destruct (N.leb_spec c 122).
      * destruct (N.leb_spec c 90); [left; lia|]. destruct (N.leb_spec 97 c); [right; lia|]. exfalso.
        assert (c = 91 \/ c = 92 \/ c = 93 \/ c = 94 \/ c = 95 \/ c = 96)%N as D by lia.
        repeat (destruct D as [->|D]; [discriminate|]). now subst.
      * exfalso. assert (c = 123 \/ c = 124 \/ c = 125 \/ c = 126 \/ c = 127)%N as D by lia.
        repeat (destruct D as [->|D]; [discriminate|]). now subst.
      * unfold case_variants, is_lower_ascii, is_upper_ascii, in_range in H.
        destruct (N.leb_spec 97 c); [lia|]. destruct (N.leb_spec 65 c); [lia|]. cbn [andb] in H.
        destruct (N.ltb_spec c 128); [|lia]. cbn [existsb] in H. rewrite orb_false_r in H. apply andb_true_iff in H as [H _]. apply N.leb_le in H. lia.
      * lia.
    + intros [[H|H]|H].
      * unfold case_variants, is_lower_ascii, is_upper_ascii.
        assert (in_range 97 122 c = false) as -> by (unfold in_range; destruct (N.leb_spec 97 c); [lia|auto]).
        assert (in_range 65 90 c = true) as -> by (unfold in_range; apply andb_true_iff; split; apply N.leb_le; lia).
        cbn [existsb]. replace (c + 32 - 32)%N with c by lia.
        assert (in_range 65 90 c = true) as -> by (unfold in_range; apply andb_true_iff; split; apply N.leb_le; lia).
        rewrite orb_true_r. reflexivity.
      * unfold case_variants, is_lower_ascii, is_upper_ascii.
        assert (in_range 97 122 c = true) as -> by (unfold in_range; apply andb_true_iff; split; apply N.leb_le; lia).
        cbn [existsb].
        assert (in_range 65 90 (c - 32) = true) as -> by (unfold in_range; apply andb_true_iff; split; apply N.leb_le; lia).
        rewrite orb_true_r. reflexivity.
      * cbn in H. exfalso. repeat (destruct H as [<-|H]; [lia|]). contradiction.
  - destruct (special_fold c) eqn:S.
    + unfold special_fold in S. rewrite !orb_true_iff, !N.eqb_eq in S. destruct S as [[[->| ->]| ->]| ->]; (split; [intros _; right; cbn; auto|reflexivity]).
    + split.
      * intros H. exfalso. apply existsb_exists in H as (d & I & D). pose proof (case_variants_high c L S) as F. rewrite Forall_forall in F.
        specialize (F _ I). unfold in_range in D. apply andb_true_iff in D as [_ D]. apply N.leb_le in D. lia.
      * intros [[H|H]|H]; [lia|lia|]. cbn in H. exfalso. repeat (destruct H as [<-|H]; [discriminate|]). contradiction.
Qed.
Lemma letter_not_digit c : cls_mem letter_cls c = true -> is_digit c = false.
Proof.
  rewrite letter_cls_iff. intros [[H|H]|H].
  - unfold is_digit. destruct (N.ltb_spec c 128); [|lia]. unfold is_ascii_digit, in_range. destruct (N.leb_spec c 57); [lia|]. apply andb_false_r.
  - unfold is_digit. destruct (N.ltb_spec c 128); [|lia]. unfold is_ascii_digit, in_range. destruct (N.leb_spec c 57); [lia|]. apply andb_false_r.
  - cbn in H. repeat (destruct H as [<-|H]; [reflexivity|]). contradiction.
Qed.

(** ** Series letters *)
Definition digits (s : str) : Prop := s <> [] /\ forallb is_digit s = true.
Definition series_letter (c : N) : Prop := ascii_letter c \/ In c [304; 305; 383; 8490]%N.
Definition digit_cls := mkcls false false [CDigit true].
Lemma digit_cls_mem c : cls_mem digit_cls c = is_digit c.
Proof. unfold cls_mem, digit_cls. cbn [c_neg c_ci c_items existsb item_mem xorb]. rewrite orb_false_r. destruct (is_digit c); reflexivity. Qed.
Lemma forallb_ext' {A} (f g : A -> bool) l : (forall x, f x = g x) -> forallb f l = forallb g l.
Proof. intros H. induction l; cbn; congruence. Qed.
Lemma digit_cls_all w : forallb (cls_mem digit_cls) w = forallb is_digit w.
Proof. apply forallb_ext'. apply digit_cls_mem. Qed.
Lemma volume_letter_shape : rx_re re_volume_letter = Cat (Grp 1 (Rep true 1 None (Cls digit_cls))) (Grp 2 (Cls letter_cls)).
Proof. reflexivity. Qed.
Lemma volume_letter_none v : re_match (rx_re re_volume_letter) v = None <->
  ~ exists ds l rest, v = ds ++ l :: rest /\ digits ds /\ series_letter l.
Proof.
  split.
  - intros H (ds & l & rest & -> & [N D] & L). eapply re_match_none in H; [|reflexivity]. apply H. rewrite volume_letter_shape.
    apply mt_cat_iff. exists (after (init (ds ++ l :: rest)) ds). eexists. split.
    + apply mt_grp_iff. exists []. split; [|reflexivity]. apply mt_rep_cls. exists ds. split; [eapply fwd_after; reflexivity|].
      rewrite digit_cls_all. repeat split; auto. destruct ds; [congruence|]. cbn. lia.
    + apply mt_grp_iff. eexists. split; [|reflexivity]. apply mt_cls_fwd. exists l. split; [|split; [now apply letter_cls_iff|reflexivity]].
      eapply (fwd_after _ [l] rest). cbn. rewrite skipn_app, skipn_all, Nat.sub_diag. reflexivity.
  - intros H. destruct (re_match (rx_re re_volume_letter) v) as [o|] eqn:E; auto. exfalso. apply H.
    apply re_match_some in E as (w & x' & F & M & _). rewrite volume_letter_shape in M.
    apply mt_cat_iff in M as (y & h & M1 & M2). apply mt_grp_iff in M1 as (h1 & M1 & _). apply mt_grp_iff in M2 as (h2 & M2 & _).
    apply mt_rep_cls in M1 as (ds & F1 & D & L1 & _). apply mt_cls_fwd in M2 as (l & F2 & L2 & _).
    rewrite digit_cls_all in D. destruct F1 as (F1 & _). destruct F2 as (F2 & _). cbn in F1. rewrite F2 in F1.
    exists ds, l, (suf x'). split; auto. split; [split; auto; destruct ds; cbn in L1; [lia|discriminate]|now apply letter_cls_iff].
Qed.
Lemma digits_split ds l rest ds' l' rest' : ds ++ l :: rest = ds' ++ l' :: rest' ->
  forallb is_digit ds = true -> is_digit l = false -> forallb is_digit ds' = true -> is_digit l' = false -> ds = ds' /\ l = l' /\ rest = rest'.
Proof.
  revert ds'. induction ds as [|a ds IH]; intros [|b ds']; cbn; intros E D L D' L'; inversion E; subst; auto.
  - apply andb_true_iff in D' as [D' _]. congruence.
  - apply andb_true_iff in D as [D _]. congruence.
  - apply andb_true_iff in D as [_ D]. apply andb_true_iff in D' as [_ D']. destruct (IH ds') as (A & B & C); auto. subst. auto.
Qed.
Lemma volume_letter_some v o : re_match (rx_re re_volume_letter) v = Some o ->
  exists ds l rest, v = ds ++ l :: rest /\ digits ds /\ series_letter l /\ g_str v o 1 = ds /\ g_str v o 2 = [l].
Proof.
  intros E. apply re_match_some in E as (w & x' & F & M & S & En & _). rewrite volume_letter_shape in M.
  apply mt_cat_iff in M as (y & h & M1 & M2). apply mt_grp_iff in M1 as (h1 & M1 & G1). apply mt_grp_iff in M2 as (h2 & M2 & G2).
  apply mt_rep_cls in M1 as (ds & F1 & D & L1 & _ & ->). apply mt_cls_fwd in M2 as (l & F2 & L2 & ->).
  rewrite digit_cls_all in D. destruct F1 as (F1 & _ & P1). destruct F2 as (F2 & _ & P2). cbn in F1, P1. rewrite F2 in F1.
  exists ds, l, (suf x'). split; auto. split; [split; auto; destruct ds; cbn in L1; [lia|discriminate]|]. split; [now apply letter_cls_iff|].
  cbn [length] in P2. subst h. unfold g_str, g_text, g_span. rewrite G2. cbn [Nat.eqb lookup_group]. rewrite P2, P1. cbn [init pos].
  subst v. unfold slice. split.
  - rewrite Nat.sub_0_r. cbn [skipn]. rewrite firstn_app, firstn_all, Nat.sub_diag. cbn. apply app_nil_r.
  - rewrite skipn_app, skipn_all, Nat.sub_diag. replace (length ds + 1 - length ds) with 1 by lia. reflexivity.
Qed.
(** mangle_volume on one element *)
Lemma mangle_volume_letter e ds l rest : e_type e = JOURNAL -> get Kvolume e = Some (VS (ds ++ l :: rest)) -> digits ds -> series_letter l ->
  mangle_volume_el e = Ok (set_str Kvolume (l :: ds) e).
Proof.
  intros T G [N D] L. unfold mangle_volume_el. apply is_type_true in T. rewrite T, (get_str_ok _ _ _ G). cbn [bind].
  destruct (re_match (rx_re re_volume_letter) (ds ++ l :: rest)) as [o|] eqn:E.
  - apply volume_letter_some in E as (ds' & l' & rest' & E & [N' D'] & L' & -> & ->).
    apply digits_split in E as (-> & -> & _); auto; apply letter_not_digit; now apply letter_cls_iff.
  - exfalso. apply (proj1 (volume_letter_none _) E). exists ds, l, rest. repeat split; auto.
Qed.
Lemma mangle_volume_other e : (e_type e = JOURNAL -> exists v, get Kvolume e = Some (VS v) /\ forall ds l rest, v = ds ++ l :: rest -> digits ds -> ~ series_letter l) ->
  mangle_volume_el e = Ok e.
Proof.
  intros H. unfold mangle_volume_el. destruct (is_type JOURNAL e) eqn:T; auto. apply is_type_true in T.
  destruct (H T) as (v & G & Q). rewrite (get_str_ok _ _ _ G). cbn [bind].
  destruct (re_match (rx_re re_volume_letter) v) as [o|] eqn:E; auto. exfalso.
  apply volume_letter_some in E as (ds' & l' & rest' & E & D' & L' & _). eapply Q; eauto.
Qed.

(** ** Special journals *)
(** a volume of one or two digits (a line feed may follow, as [$] allows) *)
Definition short_volume (v : str) (n : N) : Prop :=
  exists w, (v = w \/ v = w ++ [10%N]) /\ 1 <= length w <= 2 /\ digits_value 0 w = Some n.
Lemma vol_1_2_shape : rx_re re_vol_1_2 = Cat (Rep true 1 (Some 2) (Cls digit_cls)) Eos.
Proof. reflexivity. Qed.
Lemma vol_1_2_iff v : matches re_vol_1_2 v = true <-> exists n, short_volume v n.
Proof.
  rewrite matches_iff by reflexivity. rewrite vol_1_2_shape. split.
  - intros (x' & g' & H). apply mt_cat_iff in H as (y & h & H1 & H2).
    apply mt_rep_cls in H1 as (w & (F & _) & A & B & C & ->). apply mt_eos in H2 as (-> & -> & H2). cbn in F, C.
    rewrite digit_cls_all in A. apply (digits_value_some w 0%N) in A as (n & A). exists n, w. split; [|auto].
    destruct H2 as [E|E]; rewrite E in F; subst; rewrite ?app_nil_r; auto.
  - intros (n & w & V & L & D). exists (after (init v) w), []. apply mt_cat_iff. exists (after (init v) w), [].
    assert (exists t, v = w ++ t /\ (t = [] \/ t = [10%N])) as (t & -> & T) by (destruct V as [-> | ->]; [exists []; rewrite app_nil_r|exists [10%N]]; auto).
    split.
    + apply mt_rep_cls. exists w. split; [eapply fwd_after; reflexivity|]. rewrite digit_cls_all.
      split; [apply (digits_value_some w 0%N); eauto|]. cbn. repeat split; try apply L; auto.
    + apply mt_eos. split; auto. split; auto. cbn. rewrite skipn_app, skipn_all, Nat.sub_diag. cbn. auto.
Qed.
Lemma short_volume_int v n : short_volume v n -> int_of_str v = Ok n.
Proof.
  intros (w & V & L & D).
  assert (forallb is_digit w = true) as A by (apply (digits_value_some w 0%N); eauto).
  assert (strip v = w) as S.
  { destruct V as [-> | ->]; [now apply strip_isdigits, digits_isdigits|].
    unfold strip, strip_by, lstrip_by. 
    assert (forall c, In c w -> is_space c = false) as NS.
    { intros c Hc. apply isdigit_not_space, digit_isdigit. rewrite forallb_forall in A. auto. }
    destruct w as [|c w]; [cbn in L; lia|]. cbn [app drop_while]. rewrite (NS c) by (left; auto).
    unfold rstrip_by. change (c :: w ++ [10%N]) with ((c :: w) ++ [10%N]). rewrite rev_app_distr. cbn [rev app drop_while].
    change (is_space 10%N) with true. cbn iota. change (rev w ++ [c]) with (rev (c :: w)).
    rewrite drop_while_none; [apply rev_involutive|]. rewrite forallb_rev. apply forallb_forall. intros d Hd. now rewrite NS. }
  unfold int_of_str. rewrite S. destruct w as [|c w]; [cbn in L; lia|].
  assert ((int_max_str_digits <? N.of_nat (length (c :: w)))%N = false) as ->.
  { apply N.ltb_ge. unfold int_max_str_digits. cbn [length] in *. lia. }
  now rewrite D.
Qed.
(** pages that look like a year *)
Definition year_like (p : str) : Prop :=
  exists a b c d t, p = a :: b :: c :: d :: t /\ (a = 49 /\ b = 57 \/ a = 50 /\ b = 48)%N /\ is_digit c = true /\ is_digit d = true /\ (t = [] \/ t = [10%N]).
Lemma mt_ch c x g x' g' : mt (Cls (mkcls false false [CRange c c])) x g x' g' <-> fwd x [c] x' /\ g' = g.
Proof.
  rewrite mt_cls_fwd. unfold cls_mem. cbn [c_neg c_ci c_items existsb item_mem xorb]. unfold in_range.
  split.
  - intros (d & F & M & ->). rewrite orb_false_r in M. destruct (N.leb_spec c d), (N.leb_spec d c); cbn in M; try discriminate.
    assert (d = c) as -> by lia. auto.
  - intros (F & ->). exists c. rewrite !N.leb_refl. auto.
Qed.
Lemma page_year_shape : rx_re re_page_year = let ch c := Cls (mkcls false false [CRange c c]) in
  Cat (Grp 1 (Alt (Cat (ch 49%N) (ch 57%N)) (Cat (ch 50%N) (ch 48%N)))) (Cat (Rep true 2 (Some 2) (Cls digit_cls)) Eos).
Proof. reflexivity. Qed.
Lemma page_year_iff p : matches re_page_year p = true <-> year_like p.
Proof.
  rewrite matches_iff by reflexivity. rewrite page_year_shape. cbv zeta. split.
  - intros (x' & g' & H). apply mt_cat_iff in H as (y & h & H1 & H2). apply mt_grp_iff in H1 as (h1 & H1 & ->).
    apply mt_cat_iff in H2 as (z & h2 & H2 & H3).
    apply mt_rep_cls in H2 as (w & F2 & A & B & C & ->). apply mt_eos in H3 as (-> & -> & H3). rewrite digit_cls_all in A. cbn in C.
    assert (exists a b, (a = 49 /\ b = 57 \/ a = 50 /\ b = 48)%N /\ fwd (init p) [a; b] y) as (a & b & AB & F1).
    { apply mt_alt_iff in H1 as [H1|H1]; apply mt_cat_iff in H1 as (u & hu & M1 & M2); apply mt_ch in M1 as (M1 & ->); apply mt_ch in M2 as (M2 & ->).
      - exists 49%N, 57%N. split; auto. exact (fwd_app _ _ _ _ _ M1 M2).
      - exists 50%N, 48%N. split; auto. exact (fwd_app _ _ _ _ _ M1 M2). }
    destruct w as [|c [|d [|e w]]]; cbn in B, C; try lia. cbn in A. apply andb_true_iff in A as [A1 A]. apply andb_true_iff in A as [A2 _].
    pose proof (fwd_app _ _ _ _ _ F1 F2) as (F & _). cbn in F. exists a, b, c, d, (suf z). repeat split; auto.
  - intros (a & b & c & d & t & -> & AB & C & D & T).
    set (p := a :: b :: c :: d :: t).
    assert (mt (Cat (Rep true 2 (Some 2) (Cls digit_cls)) Eos) (after (init p) [a; b]) [(1, (0, 2))] (after (init p) [a; b; c; d]) [(1, (0, 2))]) as M2.
    { apply mt_cat_iff. exists (after (init p) [a; b; c; d]), [(1, (0, 2))]. split.
      - apply mt_rep_cls. exists [c; d]. split; [|rewrite digit_cls_all; cbn [forallb length le_max]; rewrite C, D; repeat split; auto].
        unfold fwd, after. cbn. auto.
      - apply mt_eos. cbn. auto. }
    exists (after (init p) [a; b; c; d]), [(1, (0, 2))]. apply mt_cat_iff. exists (after (init p) [a; b]), [(1, (0, 2))]. split; [|exact M2].
    apply mt_grp_iff. exists []. split; [|reflexivity].
    apply mt_alt_iff. destruct AB as [[-> ->]|[-> ->]]; [left|right]; apply mt_cat_iff; eexists (after (init p) [_]), []; split; apply mt_ch; (split; [|reflexivity]); unfold fwd, after; cbn; auto.
Qed.

(** the element after the step, for a special journal: first the volume, then the page *)
Definition with_volume (special_year : str) (n : N) (e : el) : el := set_str Kvolume (last_n 2 special_year ++ pad_zero 2 n) e.
Lemma special_plain special e t v y p n : e_type e = JOURNAL -> get Ktitle e = Some (VS t) -> In t special ->
  get Kvolume e = Some (VS v) -> get Kyear e = Some (VS y) -> get Kpage e = Some (VS p) ->
  short_volume v n -> y <> [] \/ ~ year_like p ->
  handle_special_journals_el special e =
    (let e1 := with_volume y n e in
     if isdigit p then let* m := int_of_str p in Ok (set_str Kpage (pad_zero 3 m) e1) else Ok e1).
Proof.
  intros T Gt It Gv Gy Gp V Y. unfold handle_special_journals_el. apply is_type_true in T. rewrite T, (get_str_ok _ _ _ Gt). cbn [bind].
  apply mem_str_in in It. rewrite It, (get_str_ok _ _ _ Gv). cbn [bind].
  rewrite (proj2 (vol_1_2_iff v)) by eauto. rewrite (get_str_ok _ _ _ Gy). cbn [bind].
  assert ((if eqs y [] then let* page := get_str Kpage e in
     if matches re_page_year page then Ok (set_misc (t ++ py "," ++ v ++ py "," ++ page) (set_type MISC e)) else Ok e else Ok e) = Ok e) as ->.
  { destruct (eqs_spec y []); auto. rewrite (get_str_ok _ _ _ Gp). cbn [bind]. destruct (matches re_page_year p) eqn:M; auto.
    apply page_year_iff in M. destruct Y; contradiction. }
  cbn [bind]. rewrite (short_volume_int _ _ V). cbn [bind]. unfold with_volume.
  assert (get Kpage (set_str Kvolume (last_n 2 y ++ pad_zero 2 n) e) = Some (VS p)) as G.
  { unfold set_str. rewrite get_set. exact Gp. }
  rewrite (get_str_ok _ _ _ G). reflexivity.
Qed.
Lemma special_year_page special e t v p n : e_type e = JOURNAL -> get Ktitle e = Some (VS t) -> In t special ->
  get Kvolume e = Some (VS v) -> get Kyear e = Some (VS []) -> get Kpage e = Some (VS p) ->
  short_volume v n -> year_like p ->
  handle_special_journals_el special e =
    (let e1 := with_volume [] n (set_misc (t ++ py "," ++ v ++ py "," ++ p) (set_type MISC e)) in
     if isdigit p then let* m := int_of_str p in Ok (set_str Kpage (pad_zero 3 m) e1) else Ok e1).
Proof.
  intros T Gt It Gv Gy Gp V Y. unfold handle_special_journals_el. apply is_type_true in T. rewrite T, (get_str_ok _ _ _ Gt). cbn [bind].
  apply mem_str_in in It. rewrite It, (get_str_ok _ _ _ Gv). cbn [bind].
  rewrite (proj2 (vol_1_2_iff v)) by eauto. rewrite (get_str_ok _ _ _ Gy). cbn [bind eqs].
  rewrite (get_str_ok _ _ _ Gp). cbn [bind]. apply page_year_iff in Y. rewrite Y. cbn [bind]. rewrite (short_volume_int _ _ V). cbn [bind].
  unfold with_volume. set (e0 := set_misc _ _).
  assert (get Kpage (set_str Kvolume (last_n 2 [] ++ pad_zero 2 n) e0) = Some (VS p)) as G.
  { unfold set_str. rewrite get_set. exact Gp. }
  rewrite (get_str_ok _ _ _ G). reflexivity.
Qed.
Lemma special_long_volume special e t v p : e_type e = JOURNAL -> get Ktitle e = Some (VS t) -> In t special ->
  get Kvolume e = Some (VS v) -> get Kpage e = Some (VS p) -> (forall n, ~ short_volume v n) ->
  handle_special_journals_el special e =
    (if isdigit p then let* m := int_of_str p in Ok (set_str Kpage (pad_zero 3 m) e) else Ok e).
Proof.
  intros T Gt It Gv Gp V. unfold handle_special_journals_el. apply is_type_true in T. rewrite T, (get_str_ok _ _ _ Gt). cbn [bind].
  apply mem_str_in in It. rewrite It, (get_str_ok _ _ _ Gv). cbn [bind].
  destruct (matches re_vol_1_2 v) eqn:M; [apply vol_1_2_iff in M as (n & M); exfalso; eapply V; eauto|]. cbn [bind].
  rewrite (get_str_ok _ _ _ Gp). reflexivity.
Qed.
Lemma special_other special e : (e_type e = JOURNAL -> exists t, get Ktitle e = Some (VS t) /\ ~ In t special) ->
  handle_special_journals_el special e = Ok e.
Proof.
  intros H. unfold handle_special_journals_el. destruct (is_type JOURNAL e) eqn:T; auto. apply is_type_true in T.
  destruct (H T) as (t & G & N). rewrite (get_str_ok _ _ _ G). cbn [bind]. destruct (mem_str t special) eqn:M; auto.
  apply mem_str_in in M. contradiction.
Qed.
(** where the step can fail *)
Lemma page_fails p : isdigit p = true -> (exists x, (let* m := int_of_str p in Ok (pad_zero 3 m)) = Err x) <->
  ~ (forallb is_digit p = true) \/ (int_max_str_digits < N.of_nat (length p))%N.
Proof.
  intros H. rewrite int_of_isdigits by auto. destruct (N.ltb_spec int_max_str_digits (N.of_nat (length p))) as [L|L].
  - cbn. split; eauto.
  - destruct (digits_value 0 p) as [n|] eqn:D; cbn.
    + split; [intros (x & E); discriminate|]. intros [E|E]; [|lia]. exfalso. apply E. apply (digits_value_some p 0%N). eauto.
    + split; [|eauto]. intros _. left. intros E. apply (digits_value_some p 0%N) in E as (n & E). congruence.
Qed.

(** ** The list functions work element by element *)
Lemma mapM_total {A B} (f : A -> res B) (R : A -> B -> Prop) : forall l, Forall (fun a => exists b, f a = Ok b /\ R a b) l ->
  exists l', mapM f l = Ok l' /\ Forall2 R l l'.
Proof.
  induction l as [|a l IH]; intros H; [exists []; auto|]. inversion H as [|? ? (b & E & Q) H']; subst. destruct (IH H') as (l' & E' & F).
  exists (b :: l'). cbn [mapM]. rewrite E. cbn [bind]. rewrite E'. auto.
Qed.

(** what one element has become: only field k changed *)
Definition only_changes (ks : list key) (e e' : el) : Prop :=
  e_type e' = e_type e /\ e_misc e' = e_misc e /\ forall k, ~ In k ks -> get k e' = get k e.
Lemma set_str_only k s e : only_changes [k] e (set_str k s e).
Proof.
  split; [reflexivity|]. split; [reflexivity|]. intros k' N. unfold set_str. rewrite get_set. destruct (key_eqb_spec k' k); auto.
  exfalso. apply N. left. auto.
Qed.
Lemma only_changes_trans a b x y z : only_changes a x y -> only_changes b y z -> only_changes (a ++ b) x z.
Proof.
  intros (A & B & C) (A' & B' & C'). split; [congruence|]. split; [congruence|]. intros k N.
  rewrite C', C; auto; intros I; apply N; apply in_app_iff; auto.
Qed.
Lemma get_set_str k s e : get k (set_str k s e) = Some (VS s).
Proof. unfold set_str. apply get_set_same. Qed.
Lemma get_set_str_other k k' s e : k <> k' -> get k (set_str k' s e) = get k e.
Proof. intros N. unfold set_str. rewrite get_set. destruct (key_eqb_spec k k'); congruence. Qed.

Definition journal_with (ks : list key) (e : el) : Prop := e_type e = JOURNAL -> forall k, In k ks -> exists s, get k e = Some (VS s).
(** format_volume *)
Definition denotes_roman (v : str) (n : N) : Prop := is_roman v /\ (n + 2 * subtractive v = letters_sum v)%N.
Definition roman_step (e e' : el) : Prop :=
  (exists v n, e_type e = JOURNAL /\ get Kvolume e = Some (VS v) /\ denotes_roman v n
     /\ get Kvolume e' = Some (VS (str_of_N n)) /\ only_changes [Kvolume] e e')
  \/ (exists w, e_type e = JOURNAL /\ get Kvolume e = Some (VS (w ++ [10%N])) /\ is_roman w /\ only_changes [Kvolume] e e')
  \/ ((forall v, e_type e = JOURNAL -> get Kvolume e = Some (VS v) -> ~ is_roman v) /\ e' = e).
Lemma format_volume_spec l : Forall (journal_with [Kvolume]) l ->
  exists l', format_volume l = Ok l' /\ Forall2 roman_step l l'.
Proof.
  intros H. unfold format_volume. apply mapM_total. apply Forall_forall. intros e He. rewrite Forall_forall in H. specialize (H _ He).
  assert (forall P Q : Prop, (P -> Q) -> ~ Q -> ~ P) as contra by tauto.
  destruct (is_type JOURNAL e) eqn:T; [apply is_type_true in T|].
  - destruct (H T Kvolume) as (v & G); [left; auto|]. destruct (matches re_roman_full v) eqn:M.
    + apply roman_full_iff in M as [M|(w & M & ->)].
      * destruct (format_volume_roman e v T G M) as (n & V & F). eexists. split; [exact F|]. left. exists v, n.
        split; auto. split; auto. split; [split; auto|]. split; [apply get_set_str|apply set_str_only].
      * eexists. split.
        { unfold format_volume_el. pose proof (proj1 (is_type_true _ _) T) as T'. rewrite T', (get_str_ok _ _ _ G). cbn [bind].
          rewrite (proj2 (roman_full_iff _)) by eauto. reflexivity. }
        right. left. exists w. split; auto. split; auto. split; auto. apply set_str_only.
    + exists e. split.
      * unfold format_volume_el. pose proof (proj1 (is_type_true _ _) T) as T'. rewrite T', (get_str_ok _ _ _ G). cbn [bind]. now rewrite M.
      * right. right. split; auto. intros v' _ G' R. assert (v' = v) by congruence. subst.
        rewrite (proj2 (roman_full_iff v)) in M; [discriminate|auto].
  - exists e. split; [unfold format_volume_el; now rewrite T|]. right. right. split; auto. intros v T' _ _. apply is_type_true in T'. congruence.
Qed.
Definition any_case (v w : str) : Prop := Forall2 (fun c d => c = d \/ c = (d + 32)%N) v w.
Lemma any_case_roman v n : 0 < n -> any_case v (to_roman n) -> denotes_roman v (N.of_nat n).
Proof.
  intros P A.
  assert (n mod 10 < 10) as M by (apply Nat.mod_upper_bound; lia).
  destruct (roman_unit_facts _ M) as (Q1 & Q2 & Q3).
  assert (Forall (fun c => In c [73; 86; 88]%N) (to_roman n)) as F.
  { unfold to_roman. apply Forall_app. split.
    - apply Forall_forall. intros c Hc. apply repeat_spec in Hc as ->. cbn. auto.
    - revert M. generalize (n mod 10). intros d M. do 10 (destruct d; [repeat (constructor; [cbn; tauto|]); constructor|]). lia. }
  assert (forall c d, c = d \/ c = (d + 32)%N -> In d [73; 86; 88]%N -> letter_value c = letter_value d /\ roman_letter c <> None) as L.
  { intros c d [->| ->] I; cbn in I; repeat (destruct I as [<-|I]; [split; [reflexivity|discriminate]|]); contradiction. }
  assert (Forall (fun c => roman_letter c <> None) v /\ letters_sum v = letters_sum (to_roman n) /\ subtractive v = subtractive (to_roman n)) as (R & S1 & S2).
  { revert F A. generalize (to_roman n). clear - L. intros w F A. induction A as [|c d v w C A IH]; [split; auto|].
    inversion F; subst. destruct (IH H2) as (R & S1 & S2). destruct (L c d C H1) as (V & N). split; [constructor; auto|].
    cbn [letters_sum]. split; [congruence|]. inversion A as [|c' d' v' w' C' A']; subst; auto. pose proof (subtractive_cons c c' v') as X1. pose proof (subtractive_cons d d' w') as X2. unfold str, ch in *. rewrite X1, X2, V, S2.
    inversion H2; subst. destruct (L c' d' C' H3) as (-> & _). reflexivity. }
  split; [split; auto|].
  - intros ->. assert (to_roman n = []) as Z by (inversion A; auto). pose proof (to_roman_value n) as W. rewrite Z in W. cbn in W. lia.
  - rewrite S1, S2. rewrite <- (to_roman_value n).
    assert (upper (to_roman n) = to_roman n) as U.
    { clear - F. induction F as [|c w I F IH]; [reflexivity|]. unfold upper in *. cbn [flat_map]. rewrite IH.
      cbn in I. repeat (destruct I as [<-|I]; [reflexivity|]). contradiction. }
    rewrite <- U at 1. apply roman2arabic_spec. apply Forall_forall. intros c Hc. rewrite Forall_forall in F. specialize (F _ Hc).
    destruct (L c c) as (_ & N); auto.
Qed.
Lemma to_roman_step n : 0 < n -> forall v e, any_case v (to_roman n) -> e_type e = JOURNAL -> get Kvolume e = Some (VS v) ->
  exists e', format_volume_el e = Ok e' /\ get Kvolume e' = Some (VS (str_of_N (N.of_nat n))).
Proof.
  intros P v e A T G. destruct (any_case_roman v n P A) as (R & V). destruct (format_volume_roman e v T G R) as (m & V' & F).
  eexists. split; [exact F|]. rewrite get_set_str. do 3 f_equal. lia.
Qed.

(** mangle_volume *)
Definition letter_step (e e' : el) : Prop :=
  (exists ds l rest, e_type e = JOURNAL /\ get Kvolume e = Some (VS (ds ++ l :: rest)) /\ digits ds /\ series_letter l
     /\ get Kvolume e' = Some (VS (l :: ds)) /\ only_changes [Kvolume] e e')
  \/ ((e_type e = JOURNAL -> forall ds l rest, get Kvolume e = Some (VS (ds ++ l :: rest)) -> digits ds -> ~ series_letter l) /\ e' = e).
Lemma mangle_volume_spec l : Forall (journal_with [Kvolume]) l ->
  exists l', mangle_volume l = Ok l' /\ Forall2 letter_step l l'.
Proof.
  intros H. unfold mangle_volume. apply mapM_total. apply Forall_forall. intros e He. rewrite Forall_forall in H. specialize (H _ He).
  destruct (is_type JOURNAL e) eqn:T; [apply is_type_true in T|].
  - destruct (H T Kvolume) as (v & G); [left; auto|]. destruct (re_match (rx_re re_volume_letter) v) as [o|] eqn:M.
    + apply volume_letter_some in M as (ds & l0 & rest & -> & D & L & _). eexists. split; [eapply mangle_volume_letter; eauto|].
      left. exists ds, l0, rest. repeat (split; auto). apply get_set_str. apply set_str_only.
    + exists e. split.
      * unfold mangle_volume_el. pose proof (proj1 (is_type_true _ _) T) as T'. rewrite T', (get_str_ok _ _ _ G). cbn [bind]. now rewrite M.
      * right. split; auto. intros _ ds l0 rest G' D L. apply (proj1 (volume_letter_none v) M). exists ds, l0, rest. split; [congruence|auto].
  - exists e. split; [unfold mangle_volume_el; now rewrite T|]. right. split; auto. intros T'. apply is_type_true in T'. congruence.
Qed.

(** handle_special_journals *)
Lemma digits_value_lower s : forall a n, digits_value a s = Some n -> (a * 10 ^ N.of_nat (length s) <= n)%N.
Proof.
  induction s as [|c s IH]; cbn [digits_value length]; intros a n H.
  - inversion H; subst. cbn. lia.
  - destruct (digit_value c) as [d|]; [|discriminate]. apply IH in H. rewrite Nat2N.inj_succ, N.pow_succ_r'.
    remember (10 ^ N.of_nat (length s))%N as q. nia.
Qed.
Lemma digit_value_small c d : digit_value c = Some d -> (d < 10)%N.
Proof.
  unfold digit_value. destruct (N.ltb_spec c 128).
  - unfold is_ascii_digit, in_range. destruct (N.leb_spec 48 c), (N.leb_spec c 57); cbn; intros E; inversion E; lia.
  - induction digit_ranges as [|(lo, hi) rs IH]; cbn; [discriminate|]. destruct (c <? lo)%N; [discriminate|].
    destruct (c <=? hi)%N; auto. intros E; inversion E. apply N.mod_lt. lia.
Qed.
Lemma digits_value_upper s : forall a n, digits_value a s = Some n -> (n < (a + 1) * 10 ^ N.of_nat (length s))%N.
Proof.
  induction s as [|c s IH]; cbn [digits_value length]; intros a n H.
  - inversion H; subst. cbn. lia.
  - destruct (digit_value c) as [d|] eqn:D; [|discriminate]. apply digit_value_small in D. apply IH in H. rewrite Nat2N.inj_succ, N.pow_succ_r'.
    remember (10 ^ N.of_nat (length s))%N as q. nia.
Qed.
Lemma str_of_N_short n k : (n < 10 ^ N.of_nat (S k))%N -> length (str_of_N n) <= S k.
Proof.
  intros H. destruct (N.eq_dec n 0) as [->|Z]; [cbn; lia|].
  pose proof (str_of_N_value n) as V. pose proof (str_of_N_hd n) as Hd. pose proof (str_of_N_ascii n) as A.
  destruct (str_of_N n) as [|c s]; [cbn; lia|]. specialize (Hd c s eq_refl Z).
  cbn [forallb] in A. apply andb_true_iff in A as [A _]. cbn [digits_value] in V. rewrite (ascii_digit_value _ A) in V.
  apply digits_value_lower in V. unfold is_ascii_digit, in_range in A. apply andb_true_iff in A as [A1 A2]. apply N.leb_le in A1, A2.
  cbn [length]. destruct (Nat.leb_spec (S (length s)) (S k)) as [L|L]; auto. exfalso.
  assert (10 ^ N.of_nat (S k) <= 10 ^ N.of_nat (length s))%N as P by (apply N.pow_le_mono_r; unfold str, ch in *; lia).
  remember (10 ^ N.of_nat (length s))%N as q. remember (10 ^ N.of_nat (S k))%N as r. nia.
Qed.
Lemma pad_zero_exact k n : (n < 10 ^ N.of_nat (S k))%N -> length (pad_zero (S k) n) = S k.
Proof.
  intros H. apply str_of_N_short in H. unfold pad_zero. rewrite app_length, repeat_length. unfold str, ch in *. lia.
Qed.
(** a numeral of n in ASCII digits *)
Definition numeral (s : str) (n : N) : Prop := forallb is_ascii_digit s = true /\ digits_value 0 s = Some n.
Record special_step (special : list str) (e e' : el) : Prop := {
  (* neither a journal nor another special title: nothing happens *)
  sp_other : (e_type e = JOURNAL -> forall t, get Ktitle e = Some (VS t) -> ~ In t special) -> e' = e;
  (* fields other than volume and page stay *)
  sp_fields : forall k, k <> Kvolume -> k <> Kpage -> get k e' = get k e;
  (* the volume *)
  sp_volume : forall t v y n, e_type e = JOURNAL -> get Ktitle e = Some (VS t) -> In t special ->
    get Kvolume e = Some (VS v) -> get Kyear e = Some (VS y) -> short_volume v n ->
    exists w, get Kvolume e' = Some (VS (last_n 2 y ++ w)) /\ numeral w n /\ length w = 2;
  sp_long : forall v, get Kvolume e = Some (VS v) -> (forall n, ~ short_volume v n) -> get Kvolume e' = get Kvolume e;
  (* the page *)
  sp_page : forall t p n, e_type e = JOURNAL -> get Ktitle e = Some (VS t) -> In t special ->
    get Kpage e = Some (VS p) -> p <> [] -> digits_value 0 p = Some n ->
    exists w, get Kpage e' = Some (VS w) /\ numeral w n /\ 3 <= length w /\ (3 < length w -> w = str_of_N n);
  sp_text_page : forall p, get Kpage e = Some (VS p) -> isdigit p = false -> get Kpage e' = get Kpage e;
  (* a page that can be a year, when there is no year: no longer a journal *)
  sp_year_page : forall t v p n, e_type e = JOURNAL -> get Ktitle e = Some (VS t) -> In t special ->
    get Kvolume e = Some (VS v) -> short_volume v n -> get Kyear e = Some (VS []) -> get Kpage e = Some (VS p) -> year_like p ->
    e_type e' = MISC /\ e_misc e' = t ++ py "," ++ v ++ py "," ++ p;
  sp_type : (forall v n p, e_type e = JOURNAL -> get Kvolume e = Some (VS v) -> short_volume v n -> get Kyear e = Some (VS []) ->
      get Kpage e = Some (VS p) -> ~ year_like p) -> e_type e' = e_type e /\ e_misc e' = e_misc e
}.
(** the pages for which int() works *)
Definition page_ok (e : el) : Prop := forall p, get Kpage e = Some (VS p) -> isdigit p = true ->
  forallb is_digit p = true /\ (N.of_nat (length p) <= int_max_str_digits)%N.
Lemma page_part p e1 : get Kpage e1 = Some (VS p) ->
  (isdigit p = true -> forallb is_digit p = true /\ (N.of_nat (length p) <= int_max_str_digits)%N) ->
  exists e', (if isdigit p then let* m := int_of_str p in Ok (set_str Kpage (pad_zero 3 m) e1) else Ok e1) = Ok e'
    /\ only_changes [Kpage] e1 e' /\ (isdigit p = false -> e' = e1)
    /\ (forall n, p <> [] -> digits_value 0 p = Some n -> get Kpage e' = Some (VS (pad_zero 3 n))).
Proof.
  intros G H. destruct (isdigit p) eqn:D.
  - destruct (H eq_refl) as (A & B). rewrite int_of_isdigits by auto. destruct (N.ltb_spec int_max_str_digits (N.of_nat (length p))); [lia|].
    pose proof A as A'. apply (digits_value_some p 0%N) in A as (n & A). rewrite A. cbn [bind]. eexists. split; [reflexivity|].
    split; [apply set_str_only|]. split; [discriminate|]. intros n' _ E. rewrite get_set_str. congruence.
  - exists e1. split; auto. split; [split; auto|]. split; auto. intros n Np E. exfalso.
    assert (exists n, digits_value 0 p = Some n) as X by eauto. apply digits_value_some in X. apply digits_isdigits in X.
    unfold isdigit in D. destruct p; congruence.
Qed.
Lemma short_volume_fun v n m : short_volume v n -> short_volume v m -> n = m.
Proof. intros A B. apply short_volume_int in A, B. congruence. Qed.
Lemma short_volume_small v n : short_volume v n -> (n < 100)%N.
Proof.
  intros (w & _ & L & D). apply digits_value_upper in D. assert (10 ^ N.of_nat (length w) <= 10 ^ 2)%N as P by (apply N.pow_le_mono_r; lia).
  change (10 ^ 2)%N with 100%N in P. lia.
Qed.
Lemma handle_special_spec special l : Forall (journal_with [Ktitle; Kvolume; Kyear; Kpage]) l -> Forall page_ok l ->
  exists l', handle_special_journals special l = Ok l' /\ Forall2 (special_step special) l l'.
Proof.
  intros H P. unfold handle_special_journals. apply mapM_total. apply Forall_forall. intros e He.
  rewrite Forall_forall in H, P. specialize (H _ He). specialize (P _ He).
  assert ((e_type e = JOURNAL -> exists t, get Ktitle e = Some (VS t) /\ ~ In t special) -> exists b, handle_special_journals_el special e = Ok b /\ special_step special e b) as Same.
  { intros X. exists e. split; [now apply special_other|].
    constructor; auto; intros; exfalso; match goal with T : e_type e = JOURNAL |- _ => destruct (X T) as (t' & G' & N'); congruence end. }
  destruct (is_type JOURNAL e) eqn:T; [apply is_type_true in T|apply Same; intros T'; apply is_type_true in T'; congruence].
  destruct (H T Ktitle) as (t & Gt); [cbn; auto|]. destruct (H T Kvolume) as (v & Gv); [cbn; auto|].
  destruct (H T Kyear) as (y & Gy); [cbn; auto|]. destruct (H T Kpage) as (p & Gp); [cbn; auto|].
  destruct (in_dec str_eq_dec t special) as [It|It]; [|apply Same; eauto].
  destruct (matches re_vol_1_2 v) eqn:M.
  - apply vol_1_2_iff in M as (n & V).
    assert (forall e0 e', get Kpage e0 = Some (VS p) -> (forall k, k <> Kvolume -> get k e0 = get k e) -> get Kvolume e0 = Some (VS (last_n 2 y ++ pad_zero 2 n)) ->
      only_changes [Kpage] e0 e' -> (isdigit p = false -> e' = e0) -> (forall n, p <> [] -> digits_value 0 p = Some n -> get Kpage e' = Some (VS (pad_zero 3 n))) ->
      (y = [] -> year_like p -> e_type e0 = MISC /\ e_misc e0 = t ++ py "," ++ v ++ py "," ++ p) ->
      (~ (y = [] /\ year_like p) -> e_type e0 = e_type e /\ e_misc e0 = e_misc e) -> special_step special e e') as Step.
    { intros e0 e' G0 K0 V0 (O1 & O2 & O3) D1 D2 Y1 Y2. constructor.
      - intros X. exfalso. eapply X; eauto.
      - intros k K1 K2. rewrite O3; auto. cbn. intros [K|[]]; congruence.
      - intros t' v' y' n' _ _ _ Gv' Gy' V'. assert (v' = v) as -> by congruence. assert (y' = y) as -> by congruence.
        rewrite (short_volume_fun _ _ _ V' V). exists (pad_zero 2 n). rewrite O3, V0 by (cbn; intros [K|[]]; discriminate).
        split; auto. pose proof (pad_zero_spec 2 n) as (S1 & S2 & _). split; [split; auto|]. apply (pad_zero_exact 1). apply short_volume_small in V. exact V.
      - intros v' Gv' X. exfalso. apply (X n). congruence.
      - intros t' p' n' _ _ _ Gp' Np D. assert (p' = p) as -> by congruence. exists (pad_zero 3 n'). split; [now apply D2|].
        pose proof (pad_zero_spec 3 n') as (S1 & S2 & S3 & S4). split; [split; auto|]. split; auto.
      - intros p' Gp' D. assert (p' = p) as -> by congruence. rewrite (D1 D). apply K0. discriminate.
      - intros t' v' p' n' _ Gt' _ Gv' _ Gy' Gp' Y. assert (t' = t) as -> by congruence. assert (v' = v) as -> by congruence.
        assert (y = []) as Ey by congruence. assert (p' = p) as -> by congruence. destruct (Y1 Ey Y). split; congruence.
      - intros X. destruct Y2 as (A & B); [|split; congruence]. intros (Ey & Y). subst y. eapply X; eauto. }
    destruct (eqs_spec y []) as [Ey|Ey].
    + destruct (matches re_page_year p) eqn:Y.
      * apply page_year_iff in Y. subst y. rewrite (special_year_page special e t v p n) by auto. cbv zeta.
        set (e0 := with_volume _ _ _).
        assert (get Kpage e0 = Some (VS p)) as G0 by (unfold e0, with_volume; rewrite get_set_str_other by discriminate; exact Gp).
        destruct (page_part p e0 G0 ltac:(intros; apply P; auto)) as (e' & E & O & D1 & D2). exists e'. split; auto.
        apply (Step e0 e'); auto; unfold e0, with_volume.
        -- intros k K. rewrite get_set_str_other by auto. reflexivity.
        -- apply get_set_str.
        -- intros X. exfalso. auto.
      * assert (~ year_like p) as Y' by (intros Y'; apply page_year_iff in Y'; congruence).
        rewrite (special_plain special e t v y p n) by auto. cbv zeta. set (e0 := with_volume _ _ _).
        assert (get Kpage e0 = Some (VS p)) as G0 by (unfold e0, with_volume; rewrite get_set_str_other by discriminate; exact Gp).
        destruct (page_part p e0 G0 ltac:(intros; apply P; auto)) as (e' & E & O & D1 & D2). exists e'. split; auto.
        apply (Step e0 e'); auto; unfold e0, with_volume.
        -- intros k K. rewrite get_set_str_other by auto. reflexivity.
        -- apply get_set_str.
        -- intros _ X. contradiction.
    + rewrite (special_plain special e t v y p n) by auto. cbv zeta. set (e0 := with_volume _ _ _).
      assert (get Kpage e0 = Some (VS p)) as G0 by (unfold e0, with_volume; rewrite get_set_str_other by discriminate; exact Gp).
      destruct (page_part p e0 G0 ltac:(intros; apply P; auto)) as (e' & E & O & D1 & D2). exists e'. split; auto.
      apply (Step e0 e'); auto; unfold e0, with_volume.
      * intros k K. rewrite get_set_str_other by auto. reflexivity.
      * apply get_set_str.
      * intros X. contradiction.
  - assert (forall n, ~ short_volume v n) as V by (intros n V; rewrite (proj2 (vol_1_2_iff v)) in M; [discriminate|eauto]).
    rewrite (special_long_volume special e t v p) by auto.
    destruct (page_part p e Gp ltac:(intros; apply P; auto)) as (e' & E & O & D1 & D2). exists e'. split; auto.
    destruct O as (O1 & O2 & O3). constructor.
    + intros X. exfalso. eapply X; eauto.
    + intros k K1 K2. apply O3. cbn. intros [K|[]]; congruence.
    + intros t' v' y' n' _ _ _ Gv' _ V'. exfalso. apply (V n'). congruence.
    + intros v' _ _. apply O3. cbn. intros [K|[]]; discriminate.
    + intros t' p' n' _ _ _ Gp' Np D. assert (p' = p) as -> by congruence. exists (pad_zero 3 n'). split; [now apply D2|].
      pose proof (pad_zero_spec 3 n') as (S1 & S2 & S3 & S4). split; [split; auto|]. split; auto.
    + intros p' Gp' D. assert (p' = p) as -> by congruence. now rewrite (D1 D).
    + intros t' v' p' n' _ _ _ Gv' V'. exfalso. apply (V n'). congruence.
    + intros _. auto.
Qed.
(** a page for which isdigit() and int() disagree stops the step *)
Lemma handle_special_fails special e t p : e_type e = JOURNAL -> journal_with [Ktitle; Kvolume; Kyear; Kpage] e -> get Ktitle e = Some (VS t) -> In t special ->
  get Kpage e = Some (VS p) -> isdigit p = true -> forallb is_digit p = false \/ (int_max_str_digits < N.of_nat (length p))%N ->
  forall l1 l2, Forall (journal_with [Ktitle; Kvolume; Kyear; Kpage]) l1 -> Forall page_ok l1 -> handle_special_journals special (l1 ++ e :: l2) = Err ValueError.
Proof.
  intros T H Gt It Gp D X l1 l2 H1 P1. destruct (handle_special_spec special l1 H1 P1) as (l1' & E1 & _).
  destruct (H T Kvolume) as (v & Gv); [cbn; auto|]. destruct (H T Kyear) as (y & Gy); [cbn; auto|].
  assert (int_of_str p = Err ValueError) as I.
  { rewrite int_of_isdigits by auto. destruct (N.ltb_spec int_max_str_digits (N.of_nat (length p))) as [L|L]; auto.
    destruct X as [X|X]; [|lia]. destruct (digits_value 0 p) as [n|] eqn:Q; auto. exfalso.
    assert (exists n, digits_value 0 p = Some n) as Y by eauto. apply digits_value_some in Y. congruence. }
  assert (handle_special_journals_el special e = Err ValueError) as E.
  { destruct (matches re_vol_1_2 v) eqn:M.
    - apply vol_1_2_iff in M as (n & V). destruct (eqs_spec y []) as [->|Ey]; [destruct (matches re_page_year p) eqn:Y|].
      + apply page_year_iff in Y. rewrite (special_year_page special e t v p n) by auto. cbv zeta. now rewrite D, I.
      + assert (~ year_like p) as Y' by (intros Y'; apply page_year_iff in Y'; congruence).
        rewrite (special_plain special e t v [] p n) by auto. cbv zeta. now rewrite D, I.
      + rewrite (special_plain special e t v y p n) by auto. cbv zeta. now rewrite D, I.
    - assert (forall n, ~ short_volume v n) as V by (intros n V; rewrite (proj2 (vol_1_2_iff v)) in M; [discriminate|eauto]).
      rewrite (special_long_volume special e t v p) by auto. now rewrite D, I. }
  unfold handle_special_journals in *. rewrite mapM_app, E1. cbn [bind mapM]. now rewrite E.
Qed.
