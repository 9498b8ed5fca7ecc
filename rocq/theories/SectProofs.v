(** The patterns for markers and section titles read exactly the grammars of SectGrammar (C58). *)
From Coq Require Import List Arith NArith ZArith Bool String Lia.
From Verif Require Import UnicodeTables PyStr ListFacts Regex RegexMeta RegexLang RegexParse Patterns CaptureLang TransformProofs TaggerProofs ArxivProofs NumGrammar NumProofs NumForms SectGrammar.
Import ListNotations.
Local Open Scope nat_scope.
Local Notation length := List.length.

(** ** Letters *)
Lemma table (f g : N -> bool) : forallb (fun d => Bool.eqb (f d) (g d)) (map N.of_nat (List.seq 0 128)) = true -> forall d, (d < 128)%N -> f d = g d.
Proof.
  intros H d L. rewrite forallb_forall in H. apply eqb_prop, H. apply in_map_iff. exists (N.to_nat d). split; [apply N2Nat.id|apply in_seq; lia].
Qed.
Definition low_item (i : citem) : bool := match i with CRange _ hi => (hi <? 128)%N | _ => false end.
Lemma low_class its f : forallb low_item its = true -> forallb (fun d => Bool.eqb (cls_mem (mkcls false true its) d) (f d)) (map N.of_nat (List.seq 0 128) ++ [304; 305; 383; 8490]%N) = true ->
  (forall d, (128 <= d)%N -> special_fold d = false -> f d = false) -> forall d, cls_mem (mkcls false true its) d = f d.
Proof.
  intros L T H d. rewrite forallb_app in T. apply andb_true_iff in T as (T1 & T2). destruct (N.ltb_spec d 128) as [B|B]; [revert d B; now apply table|]. destruct (special_fold d) eqn:S.
  - rewrite forallb_forall in T2. apply eqb_prop, T2. unfold special_fold in S. rewrite !orb_true_iff, !N.eqb_eq in S. cbn. intuition auto.
  - rewrite H by auto. rewrite class_items. pose proof (case_variants_high d B S) as F. rewrite Forall_forall in F. destruct (existsb _ its) eqn:E; auto. apply existsb_exists in E as (i & I & E).
    rewrite forallb_forall in L. specialize (L i I). destruct i as [lo hi| | |]; try discriminate. cbn [low_item item_mem] in *. apply N.ltb_lt in L. apply existsb_exists in E as (v & V & E). specialize (F v V).
    unfold in_range in E. apply andb_true_iff in E as (_ & E). apply N.leb_le in E. lia.
Qed.
(** a character beyond ASCII whose forms are [l] *)
Definition runs_to (v : N) (l : list N) (rs : list (N * N * N * Z)) : bool :=
  forallb (fun '(lo, hi, k, z) => let d := Z.to_N (Z.of_N v - z) in negb (in_range lo hi d && (0 <=? Z.of_N v - z)%Z) || some_of l d) rs.
Lemma runs_to_in v l rs d : (0 < v)%N -> runs_to v l rs = true -> run_map d rs = Some v -> some_of l d = true.
Proof.
  intros P R H. apply run_map_some in H as (lo & hi & k & z & I & B & E). unfold runs_to in R. rewrite forallb_forall in R. specialize (R _ I). cbn in R.
  assert (Z.of_N v - z = Z.of_N d)%Z as D by lia. rewrite D, N2Z.id in R. apply orb_true_iff in R as [R|R]; auto. exfalso. apply negb_true_iff in R. unfold in_range in R.
  assert ((lo <=? d)%N && (d <=? hi)%N && (0 <=? Z.of_N d)%Z = true) by (rewrite !andb_true_iff, !N.leb_le, Z.leb_le; lia). congruence.
Qed.
Lemma high_class v l d : (0 < v)%N -> runs_to v l lower_runs && runs_to v l upper_runs && some_of l v && forallb (fun d => (128 <=? d)%N && negb (special_fold d) && existsb (N.eqb v) (case_variants d)) l = true ->
  forallb (fun d => negb (existsb (N.eqb v) (case_variants d))) (map N.of_nat (List.seq 0 128) ++ [304; 305; 383; 8490]%N) = true ->
  cls_mem (mkcls false true [CRange v v]) d = some_of l d.
Proof.
  intros P R T. rewrite !andb_true_iff in R. destruct R as (((R1 & R2) & R3) & R4). rewrite class_items. cbn [existsb item_mem]. rewrite orb_false_r.
  assert (existsb (in_range v v) (case_variants d) = existsb (N.eqb v) (case_variants d)) as ->.
  { induction (case_variants d) as [|x t IH]; auto. cbn [existsb]. rewrite IH, range_one, N.eqb_sym. reflexivity. }
  assert (existsb (N.eqb v) (case_variants d) = true <-> some_of l d = true) as E; [|destruct (existsb (N.eqb v) (case_variants d)), (some_of l d); intuition congruence].
  rewrite forallb_app in T. apply andb_true_iff in T as (T1 & T2). split.
  - intros H. destruct (N.ltb_spec d 128) as [B|B].
    { exfalso. rewrite forallb_forall in T1. specialize (T1 d ltac:(apply in_map_iff; exists (N.to_nat d); split; [apply N2Nat.id|apply in_seq; lia])). rewrite H in T1. discriminate. }
    destruct (special_fold d) eqn:S.
    { exfalso. rewrite forallb_forall in T2. assert (In d [304; 305; 383; 8490]%N) as I by (unfold special_fold in S; rewrite !orb_true_iff, !N.eqb_eq in S; cbn; intuition auto). specialize (T2 d I). rewrite H in T2. discriminate. }
    pose proof S as S'. unfold special_fold in S'. apply orb_false_iff in S' as [S' S3]. apply orb_false_iff in S' as [S' S2].
    unfold case_variants, is_lower_ascii, is_upper_ascii, in_range in H. destruct (N.leb_spec d 122) in H; [lia|]. rewrite andb_false_r in H. destruct (N.leb_spec d 90) in H; [lia|]. rewrite andb_false_r in H.
    destruct (N.ltb_spec d 128) in H; [lia|]. rewrite S', S2, S3 in H. cbn [existsb] in H. rewrite existsb_app in H. rewrite !orb_true_iff in H. destruct H as [H|[H|H]].
    + apply N.eqb_eq in H as <-. exact R3.
    + destruct (run_map d lower_runs) as [x|] eqn:E; cbn in H; [|discriminate]. rewrite orb_false_r in H. apply N.eqb_eq in H as <-. eapply runs_to_in; [exact P|exact R1|exact E].
    + destruct (run_map d upper_runs) as [x|] eqn:E; cbn in H; [|discriminate]. rewrite orb_false_r in H. apply N.eqb_eq in H as <-. eapply runs_to_in; [exact P|exact R2|exact E].
  - intros H. unfold some_of in H. apply existsb_exists in H as (x & I & E). apply N.eqb_eq in E as <-. rewrite forallb_forall in R4. specialize (R4 _ I). apply andb_true_iff in R4 as (_ & R4). exact R4.
Qed.
Lemma high_some l d : forallb (fun x => (x <? 128)%N || special_fold x) l = true -> (128 <= d)%N -> special_fold d = false -> some_of l d = false.
Proof.
  intros H B S. unfold some_of. destruct (existsb _ l) eqn:E; auto. apply existsb_exists in E as (x & I & E). apply N.eqb_eq in E as <-. rewrite forallb_forall in H. specialize (H d I). apply orb_true_iff in H as [H|H]; [apply N.ltb_lt in H; lia|congruence].
Qed.
Lemma high_letter d : (128 <= d)%N -> is_letter d = false.
Proof. intros H. unfold is_letter, in_range. destruct (N.leb_spec d 90); [lia|]. destruct (N.leb_spec d 122); [lia|]. now rewrite !andb_false_r. Qed.
Lemma high_any d : (128 <= d)%N -> special_fold d = false -> any_letter d = false.
Proof. intros B S. unfold any_letter. rewrite high_letter by auto. now apply high_some. Qed.
(** the letter [x] of a pattern is one of the forms of [c] *)
Definition alike (x c : ch) : bool := (in_range 97 122 c && (N.eqb x c || N.eqb x (c - 32)))%N || (N.eqb c 233 && (N.eqb x 233 || N.eqb x 201))%N || (N.eqb c 180 && N.eqb x 180)%N.
Definition low_pairs : list (N * N) := flat_map (fun i => let c := N.of_nat i in [(c, c); (c - 32, c)]%N) (List.seq 97 26).
Lemma low_pairs_ok : forallb (fun q => forallb low_item [CRange (fst q) (fst q)] && forallb (fun d => Bool.eqb (cls_mem (mkcls false true [CRange (fst q) (fst q)]) d) (some_of (letter_forms (snd q)) d)) (map N.of_nat (List.seq 0 128) ++ [304; 305; 383; 8490]%N)
  && forallb (fun x => (x <? 128)%N || special_fold x) (letter_forms (snd q))) low_pairs = true.
Proof. vm_compute. reflexivity. Qed.
Lemma alike_mem x c d : alike x c = true -> cls_mem (mkcls false true [CRange x x]) d = some_of (letter_forms c) d.
Proof.
  intros A. unfold alike in A. rewrite !orb_true_iff in A. destruct A as [[A|A]|A].
  - apply andb_true_iff in A as (A & B). assert (In (x, c) low_pairs) as I.
    { unfold in_range in A. apply andb_true_iff in A as (A1 & A2). apply N.leb_le in A1, A2. unfold low_pairs. apply in_flat_map. exists (N.to_nat c). split; [apply in_seq; lia|]. rewrite N2Nat.id. apply orb_true_iff in B as [B|B]; apply N.eqb_eq in B as ->; cbn; auto. }
    pose proof low_pairs_ok as K. rewrite forallb_forall in K. specialize (K _ I). cbn [fst snd] in K. rewrite !andb_true_iff in K. destruct K as ((K1 & K2) & K3). apply low_class; auto. intros. now apply high_some.
  - apply andb_true_iff in A as (A & B). apply N.eqb_eq in A as ->. apply orb_true_iff in B as [B|B]; apply N.eqb_eq in B as ->; (apply high_class; [reflexivity|vm_compute; reflexivity|vm_compute; reflexivity]).
  - apply andb_true_iff in A as (A & B). apply N.eqb_eq in A as ->. apply N.eqb_eq in B as ->. apply high_class; [reflexivity|vm_compute; reflexivity|vm_compute; reflexivity].
Qed.

(** ** Patterns with groups that are not fields *)
Definition is_field (g : field -> nat) (i : nat) : bool := existsb (fun f => i =? g f) all_fields.
Definition kept (g : field -> nat) (c : caps) : caps := filter (fun q => is_field g (fst q)) c.
Definition reads_on (g : field -> nat) (r : re) (p : part) : Prop := forall a w b,
  (forall c, rd r a w b c -> exists fs, p a w b fs /\ kept g c = caps_of g fs) /\ (forall fs, p a w b fs -> exists c, rd r a w b c /\ kept g c = caps_of g fs).
Lemma is_field_of g f : is_field g (g f) = true.
Proof. apply existsb_exists. exists f. split; [apply all_fields_in|apply Nat.eqb_refl]. Qed.
Lemma kept_caps g fs : kept g (caps_of g fs) = caps_of g fs.
Proof. induction fs as [|[f t] fs IH]; auto. cbn [caps_of map kept filter fst snd]. rewrite is_field_of. f_equal. exact IH. Qed.
Lemma kept_app g c1 c2 : kept g (c1 ++ c2) = kept g c1 ++ kept g c2. Proof. apply filter_app. Qed.
Lemma on_reads g r p : reads g r p -> reads_on g r p.
Proof.
  intros H a w b. split; [intros c R; apply H in R as (fs & A & ->); exists fs; split; auto; apply kept_caps|]. intros fs A. exists (caps_of g fs). split; [apply H; eauto|apply kept_caps].
Qed.
Lemma on_cat g r1 r2 p q : reads_on g r1 p -> reads_on g r2 q -> reads_on g (Cat r1 r2) (seq p q).
Proof.
  intros H1 H2 a w b. split.
  - intros c R. apply rd_cat in R as (u & v & c1 & c2 & -> & -> & A & B). apply H1 in A as (f1 & A & E1). apply H2 in B as (f2 & B & E2). exists (f2 ++ f1). rewrite caps_app, kept_app, E1, E2. split; auto. exists u, v, f1, f2. auto.
  - intros fs (u & v & f1 & f2 & -> & -> & A & B). apply H1 in A as (c1 & A & E1). apply H2 in B as (c2 & B & E2). exists (c2 ++ c1). rewrite caps_app, kept_app, E1, E2. split; auto. apply rd_cat. exists u, v, c1, c2. auto.
Qed.
Lemma on_thn g r1 r2 p q : reads_on g r1 p -> reads_on g r2 q -> reads_on g (thn r1 r2) (seq p q).
Proof.
  intros H1 H2 a w b. destruct (on_cat _ _ _ _ _ H1 H2 a w b) as (A & B). split; [intros c R; apply A; now apply (rd_thn r1 r2)|].
  intros fs F. destruct (B fs F) as (c & R & E). exists c. split; auto. now apply (rd_thn r1 r2).
Qed.
Lemma on_alt g r1 r2 p q : reads_on g r1 p -> reads_on g r2 q -> reads_on g (Alt r1 r2) (either p q).
Proof.
  intros H1 H2 a w b. split.
  - intros c R. apply rd_alt in R as [R|R]; [apply H1 in R as (fs & A & E)|apply H2 in R as (fs & A & E)]; exists fs; split; auto; [left|right]; auto.
  - intros fs [A|A]; [apply H1 in A as (c & A & E)|apply H2 in A as (c & A & E)]; exists c; split; auto; apply rd_alt; auto.
Qed.
Lemma on_opt g gr r p : reads_on g r p -> reads_on g (Rep gr 0 (Some 1) r) (maybe p).
Proof.
  intros H a w b. split.
  - intros c R. apply rd_opt in R as [(-> & ->)|R]; [exists []; split; auto; left; auto|]. apply H in R as (fs & A & E). exists fs. split; auto. right. auto.
  - intros fs [(-> & ->)|A]; [exists []; split; auto; apply rd_opt; auto|]. apply H in A as (c & A & E). exists c. split; auto. apply rd_opt. auto.
Qed.
Lemma on_grp g f i r p : g f = i -> reads_on g r p -> reads_on g (Grp i r) (named f p).
Proof.
  intros <- H a w b. split.
  - intros c R. apply rd_grp in R as (c' & -> & A). apply H in A as (fs & A & E). exists ((f, w) :: fs). cbn [kept filter fst caps_of map snd]. rewrite is_field_of. split; [exists fs; auto|]. f_equal. exact E.
  - intros fs (fs' & -> & A). apply H in A as (c & A & E). exists ((g f, w) :: c). cbn [kept filter fst caps_of map snd]. rewrite is_field_of. split; [apply rd_grp; exists c; auto|]. f_equal. exact E.
Qed.
Lemma on_free g i r p : is_field g i = false -> reads_on g r p -> reads_on g (Grp i r) p.
Proof.
  intros N H a w b. split.
  - intros c R. apply rd_grp in R as (c' & -> & A). apply H in A as (fs & A & E). exists fs. cbn [kept filter fst]. rewrite N. auto.
  - intros fs A. apply H in A as (c & A & E). exists ((i, w) :: c). cbn [kept filter fst]. rewrite N. split; auto. apply rd_grp. exists c. auto.
Qed.
Lemma on_many g gr r p lo hi : reads_on g r (one p) -> reads_on g (Rep gr lo hi r) (many lo hi p).
Proof.
  intros H a w b. split.
  - intros c R. change (reps (rd r) lo hi a w b c) in R. exists []. cbn [caps_of map].
    assert ((forallb p w = true /\ lo <= length w /\ match hi with Some k => length w <= k | None => True end) /\ kept g c = []) as (A & B); [|split; auto; split; auto].
    induction R as [mx a b|mn mx a u v b c1 c2 N R1 R2 ((I1 & I2 & I3) & I4)]; [cbn; repeat split; auto; destruct mx; cbn; lia|].
    apply H in R1 as (fs & ((d & -> & D) & ->) & E). cbn [app forallb length]. rewrite D, I1, kept_app, I4, E. repeat split; [lia|]. destruct mx as [[|n]|]; cbn in *; try congruence; auto. lia.
  - intros fs ((A & L & M) & ->). cbn [caps_of map]. change (exists c, reps (rd r) lo hi a w b c /\ kept g c = []). revert lo hi a L M. induction w as [|d w IH]; intros lo hi a L M.
    + cbn in L. assert (lo = 0) as -> by lia. exists []. split; auto. constructor.
    + cbn [forallb] in A. apply andb_true_iff in A as (D & A). destruct (IH A (pred lo) (option_map pred hi) (a ++ [d])) as (c2 & R2 & E2); [cbn in L; lia|destruct hi as [[|n]|]; cbn in *; auto; lia|].
      destruct (proj2 (H a [d] (w ++ b)) []) as (c1 & R1 & E1); [split; eauto|]. exists (c2 ++ c1). rewrite kept_app, E1, E2. split; auto. change (d :: w) with ([d] ++ w). constructor; auto. intros ->. cbn in M. lia.
Qed.
Lemma on_weak g r p q : (forall a w b fs, p a w b fs <-> q a w b fs) -> reads_on g r p -> reads_on g r q.
Proof.
  intros E H a w b. destruct (H a w b) as (A & B). split; [intros c R; destruct (A c R) as (fs & F & K); exists fs; split; auto; now apply E|intros fs F; apply B; now apply E].
Qed.
Lemma on_either g r p q : reads_on g r (one p or one q) -> reads_on g r (one (fun c => p c || q c)).
Proof.
  apply on_weak. intros a w b fs. unfold either, one, text. split.
  - intros [((c & -> & D) & ->)|((c & -> & D) & ->)]; split; auto; exists c; split; auto; rewrite D; auto using orb_true_r.
  - intros ((c & -> & D) & ->). apply orb_true_iff in D as [D|D]; [left|right]; split; auto; exists c; auto.
Qed.
Lemma on_one g r p q : (forall c, p c = q c) -> reads_on g r (one p) -> reads_on g r (one q).
Proof. intros E. apply on_weak. intros a w b fs. unfold one, text. split; intros ((c & -> & D) & ->); split; auto; exists c; split; auto; [rewrite <- E|rewrite E]; auto. Qed.

(** ** Characters of the patterns *)
Definition ci_cls (its : list citem) : cls := mkcls false true its.
Lemma mem_plain l its d : its = map (fun c => CRange c c) l -> forallb (fun c => plain c c) l = true -> cls_mem (ci_cls its) d = some_of l d.
Proof.
  intros -> P. unfold ci_cls. rewrite class_items. induction l as [|c l IH]; auto. cbn [forallb] in P. apply andb_true_iff in P as (P1 & P2). cbn [map existsb]. rewrite item_plain, range_one by auto. rewrite IH by auto. reflexivity.
Qed.
Lemma label_mem d : cls_mem (ci_cls [CRange 97 122; CRange 65 90; CRange 58 58; CRange 45 45]) d = label_char d.
Proof.
  apply low_class; [reflexivity|vm_compute; reflexivity|]. intros x B S. unfold label_char. rewrite high_any by auto. destruct (N.eqb_spec x 58); [lia|]. destruct (N.eqb_spec x 45); [lia|]. reflexivity.
Qed.
Lemma label_mem' d : cls_mem (ci_cls [CRange 65 90; CRange 97 122; CRange 58 58; CRange 45 45]) d = label_char d.
Proof.
  apply low_class; [reflexivity|vm_compute; reflexivity|]. intros x B S. unfold label_char. rewrite high_any by auto. destruct (N.eqb_spec x 58); [lia|]. destruct (N.eqb_spec x 45); [lia|]. reflexivity.
Qed.
Lemma first_mem d : cls_mem (ci_cls [CRange 49 49; CRange 97 122]) d = N.eqb d 49 || any_letter d.
Proof. apply (low_class _ (fun d => N.eqb d 49 || any_letter d)); [reflexivity|vm_compute; reflexivity|]. intros x B S. rewrite high_any by auto. destruct (N.eqb_spec x 49); [lia|]. reflexivity. Qed.
Lemma any_mem d : cls_mem (ci_cls [CRange 65 90]) d = any_letter d.
Proof. apply low_class; [reflexivity|vm_compute; reflexivity|]. apply high_any. Qed.
Lemma any_mem' d : cls_mem (ci_cls [CRange 97 122; CRange 65 90]) d = any_letter d.
Proof. apply low_class; [reflexivity|vm_compute; reflexivity|]. apply high_any. Qed.
Lemma roman_mem d : cls_mem (ci_cls (map (fun c => CRange c c) (py "LVIX"))) d = existsb (fun x => some_of (letter_forms x) d) (py "lvix").
Proof.
  apply (low_class _ (fun d => existsb (fun x => some_of (letter_forms x) d) (py "lvix"))); [reflexivity|vm_compute; reflexivity|]. intros x B S. change (py "lvix") with [108; 118; 105; 120]%N. cbn [existsb].
  rewrite !high_some by (auto; reflexivity). reflexivity.
Qed.
Lemma c_mem d : cls_mem (ci_cls [CRange 67 67; CRange 99 99]) d = some_of (letter_forms 99%N) d.
Proof. apply (low_class _ (some_of (letter_forms 99%N))); [reflexivity|vm_compute; reflexivity|]. intros x. now apply high_some. Qed.
Lemma word_space_mem d : cls_mem (ci_cls [CWord true; CSpace true]) d = is_word d || is_space d.
Proof. unfold ci_cls. rewrite class_items. cbn [existsb item_mem]. now rewrite !eqb_true, orb_false_r. Qed.
Lemma space_mem d : cls_mem (mkcls false false [CSpace true]) d = is_space d. Proof. rewrite class_items. cbn [existsb item_mem]. now rewrite eqb_true, orb_false_r. Qed.
Lemma digit_mem' d : cls_mem (mkcls false false [CDigit true]) d = is_digit d. Proof. rewrite class_items. cbn [existsb item_mem]. now rewrite eqb_true, orb_false_r. Qed.
Lemma word_mem' d : cls_mem (mkcls false false [CWord true]) d = is_word d. Proof. rewrite class_items. cbn [existsb item_mem]. now rewrite eqb_true, orb_false_r. Qed.
Ltac ci_mem := intros; lazymatch goal with
  | |- cls_mem (mkcls false false [CSpace true]) _ = _ => apply space_mem
  | |- cls_mem (mkcls false false [CDigit true]) _ = _ => apply digit_mem'
  | |- cls_mem (mkcls false false [CWord true]) _ = _ => apply word_mem'
  | |- _ = label_char _ => first [apply label_mem | apply label_mem']
  | |- _ = any_letter _ => first [apply any_mem | apply any_mem']
  | |- cls_mem _ _ = some_of (letter_forms _) _ => first [apply alike_mem; reflexivity | apply c_mem]
  | |- cls_mem _ _ = some_of _ _ => apply mem_plain; reflexivity
  | |- _ => first [apply first_mem | apply roman_mem | apply word_space_mem]
  end.
Lemma reads_bos g : reads g Bos line_start. Proof. apply reads_place. intros a w b c. reflexivity. Qed.
Lemma reads_eos g : reads g Eos line_end. Proof. apply reads_place. intros a w b c. reflexivity. Qed.
Ltac ci_leaf := match goal with
  | |- reads_on _ (Cls _) _ => apply on_reads, reads_cls; ci_mem
  | |- reads_on _ (Rep _ _ _ (Cls _)) (many _ _ _) => apply on_reads, reads_rep; ci_mem
  | |- reads_on _ (Rep _ _ _ (Cls _)) blanks => apply on_reads, reads_rep; ci_mem
  | |- reads_on _ (Rep _ _ _ (Cls _)) digits => apply on_reads, reads_rep; ci_mem
  | |- reads_on _ (Look _ _ _ _) _ => apply on_reads, reads_not_ahead; ci_mem
  | |- reads_on _ Bos _ => apply on_reads, reads_bos
  | |- reads_on _ Eos _ => apply on_reads, reads_eos
  | |- reads_on _ Wordb _ => apply on_reads, reads_wordb
  end.
Ltac ci_tree := repeat first [ ci_leaf | match goal with
  | |- reads_on _ (Cat _ _) _ => apply on_cat
  | |- reads_on _ (Alt _ _) _ => apply on_alt
  | |- reads_on _ (Rep _ 0 (Some 1) _) (maybe _) => apply on_opt
  | |- reads_on _ (Grp _ _) (named _ _) => apply on_grp; [reflexivity|]
  | |- reads_on _ (Grp _ _) _ => apply on_free; [reflexivity|]
  end ].

(** ** The markers *)
Definition mark_no (p : rx) (f : field) : nat :=
  let no n := match assoc_str (py n) (rx_names p) with Some i => i | None => 100 + field_code f end in
  match f with Fmark => no "mark"%string | Fnumber => no "marknum"%string | Ftitle => no "title"%string | _ => 100 + field_code f end.
Lemma marks_read n : n < 14 -> reads_on (mark_no (nth n marker_patterns rx0)) (rx_re (nth n marker_patterns rx0)) (nth n marks no_part).
Proof.
  intros L. do 14 (destruct n as [|n]; [cbv [nth marker_patterns rx_re marks mark_texts map]; ci_tree|]). exfalso. lia.
Qed.
(** ** The titles *)
Definition lit (c : ch) : re := Cls (ci_cls [CRange c c]).
Definition sp : re := Rep true 0 None (Cls (mkcls false false [CSpace true])).
Definition some_re (l : string) : re := Cls (ci_cls (map (fun c => CRange c c) (py l))).
Fixpoint spaced_re (t : str) : re :=
  match t with
  | [] => Eps
  | c :: t' => if is_space c then Cat (lit c) (spaced_re t') else match t' with [] => Cat (lit c) sp | _ => Cat (lit c) (Cat sp (spaced_re t')) end
  end.
Definition fits (x c : ch) : bool := if is_space c then N.eqb x 32 && N.eqb c 32 else negb (is_space x) && alike x c.
Fixpoint fit (t' t : str) : bool := match t', t with [], [] => true | x :: t1, c :: t2 => fits x c && fit t1 t2 | _, _ => false end.
Lemma on_sp g : reads_on g sp blanks. Proof. apply on_reads, reads_rep. intros. apply space_mem. Qed.
Lemma on_spaced g : forall t' t, fit t' t = true -> reads_on g (spaced_re t') (spaced t).
Proof.
  induction t' as [|x t' IH]; intros [|c t] F; cbn [fit] in F; try discriminate.
  - apply on_reads, reads_text. intros a w b d. reflexivity.
  - apply andb_true_iff in F as (F1 & F2). cbn [spaced_re spaced]. unfold fits in F1. destruct (is_space c) eqn:S.
    + apply andb_true_iff in F1 as (F1 & F3). apply N.eqb_eq in F1 as ->. apply N.eqb_eq in F3 as ->. cbn [is_space]. rewrite S. apply on_cat; [|now apply IH]. apply on_reads, reads_cls. intros d. unfold ci_cls. rewrite class_items. cbn [existsb]. rewrite item_plain, range_one, orb_false_r by reflexivity. apply N.eqb_sym.
    + apply andb_true_iff in F1 as (F1 & F3). apply negb_true_iff in F1. rewrite F1. destruct t' as [|x' t'], t as [|c' t]; cbn [fit] in F2; try discriminate.
      * apply on_cat; [apply on_reads, reads_cls; intros; now apply alike_mem|apply on_sp].
      * apply on_cat; [apply on_reads, reads_cls; intros; now apply alike_mem|]. apply on_cat; [apply on_sp|]. now apply IH.
Qed.
Definition opt (r : re) : re := Rep true 0 (Some 1) r.
Definition dg : re := Cls (mkcls false false [CDigit true]).
Definition wd : re := Cls (mkcls false false [CWord true]).
Definition title_re (k : nat) (t : str) : re :=
  Cat (Grp k (thn (spaced_re t) (opt (Grp (S k) (Cat sp (spaced_re (py "section")))))))
    (Cat (opt (some_re ".")) (Cat (opt (Grp (S (S k)) (some_re ")}]")))
      (Grp (S (S (S k))) (Alt Eos (Alt (Cat sp (Cat (some_re "[{(<") (Cat sp (Cat (Cls (ci_cls [CRange 49 49; CRange 97 122])) (Cat sp (some_re "})>]")))))) (Cat (some_re ":") Eos)))))).
Definition title_res (t : string) : list re :=
  [ Cat Bos (Cat sp (Cat (opt (Grp 1 (some_re "[-{("))) (Cat sp (Cat (opt (Grp 2 (Cat (Rep true 1 (Some 5) (Grp 3 (Alt wd dg)))
      (Cat (opt (Grp 4 (Cat (some_re ".-,") (Rep true 1 (Some 5) (Grp 5 (Alt wd dg)))))) (Cat sp (Cat (some_re ".-})]") sp)))))) (title_re 6 (py t))))));
    Cat Bos (Cat (Rep true 1 (Some 3) (Grp 1 dg)) (Cat sp (title_re 2 (py t)))) ].
Lemma titles_shape : map rx_re reference_section_title_patterns = flat_map title_res Patterns.section_titles.
Proof. vm_compute. reflexivity. Qed.
Lemma on_word_or g i : is_field g i = false -> reads_on g (Grp i (Alt wd dg)) (one is_word).
Proof.
  intros H. apply on_free; auto. apply (on_one _ _ (fun c => is_word c || is_digit c)).
  - intros c. destruct (is_digit c) eqn:D; [rewrite (digit_word c D); auto|apply orb_false_r].
  - apply on_either. unfold wd, dg. ci_tree.
Qed.
Lemma on_title g k t' t : g Ftitle = k -> is_field g (S k) = false -> is_field g (S (S k)) = false -> is_field g (S (S (S k))) = false -> fit t' (py t) = true ->
  reads_on g (title_re k t') (title_text t ;; title_tail).
Proof.
  intros E N1 N2 N3 F. unfold title_re, title_text. apply on_cat.
  - apply on_grp; auto. apply on_thn; [now apply on_spaced|]. apply on_opt, on_free; auto. apply on_cat; [apply on_sp|]. now apply on_spaced.
  - unfold title_tail. apply on_cat; [unfold opt, some_re; ci_tree|]. apply on_cat; [apply on_opt, on_free; auto; unfold some_re; ci_tree|]. apply on_free; auto. unfold some_re, sp. ci_tree.
Qed.
Definition title_pairs := combine (map py Patterns.section_titles) (map py section_names).
Lemma title_pairs_fit : forallb (fun q => fit (fst q) (snd q)) title_pairs = true. Proof. vm_compute. reflexivity. Qed.
Definition free (g : field -> nat) (l : list nat) : bool := forallb (fun i => negb (is_field g i)) l.
Lemma free_in g l i : free g l = true -> In i l -> is_field g i = false.
Proof. intros H I. unfold free in H. rewrite forallb_forall in H. now apply negb_true_iff, H. Qed.
Ltac freely H := apply (free_in _ _ _ H); cbn; auto 12.
Lemma first_title g t' t : g Ftitle = 6 -> free g [1; 2; 3; 4; 5; 7; 8; 9] = true -> fit (py t') (py t) = true ->
  reads_on g (nth 0 (title_res t') Eps) (line_start ;; blanks ;; maybe (any_of "[-{(") ;; blanks ;; maybe section_number ;; title_text t ;; title_tail).
Proof.
  intros E F T. cbn [nth title_res]. apply on_cat; [apply on_reads, reads_bos|]. apply on_cat; [apply on_sp|]. apply on_cat; [apply on_opt, on_free; [freely F|unfold some_re; ci_tree]|]. apply on_cat; [apply on_sp|].
  apply on_cat; [|apply on_title; auto; freely F]. apply on_opt, on_free; [freely F|]. unfold section_number. apply on_cat; [apply on_many, on_word_or; freely F|].
  apply on_cat; [apply on_opt, on_free; [freely F|]; apply on_cat; [unfold some_re; ci_tree|apply on_many, on_word_or; freely F]|]. unfold some_re, sp. ci_tree.
Qed.
Lemma second_title g t' t : g Ftitle = 2 -> free g [1; 3; 4; 5] = true -> fit (py t') (py t) = true ->
  reads_on g (nth 1 (title_res t') Eps) (line_start ;; many 1 (Some 3) is_digit ;; blanks ;; title_text t ;; title_tail).
Proof.
  intros E F T. cbn [nth title_res]. apply on_cat; [apply on_reads, reads_bos|]. apply on_cat; [apply on_many, on_free; [freely F|unfold dg; ci_tree]|]. apply on_cat; [apply on_sp|]. apply on_title; auto; freely F.
Qed.
Lemma titles_nth n : rx_re (nth n reference_section_title_patterns rx0) = nth n (flat_map title_res Patterns.section_titles) Eps.
Proof. rewrite <- titles_shape. symmetry. exact (map_nth rx_re reference_section_title_patterns rx0 n). Qed.
Lemma titles_read n : n < 28 -> reads_on (mark_no (nth n reference_section_title_patterns rx0)) (rx_re (nth n reference_section_title_patterns rx0)) (nth n section_titles no_part).
Proof.
  intros L. rewrite titles_nth. do 14 (destruct n as [|n]; [eapply first_title; reflexivity|destruct n as [|n]; [eapply second_title; reflexivity|]]). exfalso. lia.
Qed.
Lemma titles_names n : n < 28 -> mark_no (nth n reference_section_title_patterns rx0) Ftitle <> 0.
Proof. intros L. do 28 (destruct n as [|n]; [discriminate|]). exfalso. lia. Qed.

(** ** The titles of the sections after it *)
Definition its_re (lo hi : nat) : re := Rep true lo (Some hi) (lit 105%N).
Definition head_re (r : re) : re := Cat Bos (Cat sp (Cat (opt (Grp 1 (Cat (opt (some_re "{(<[")) (Cat sp (Cat (Grp 2 (Alt wd dg)) (Cat sp (Cat (opt (some_re ")}>.-]")) sp))))))) r)).
Definition colon_re (k : nat) : re := opt (Grp k (Cat sp (Cat (some_re ":") sp))).
Definition plain_title (t : string) : re := head_re (thn (spaced_re (py t)) (colon_re 3)).
Definition plural_title (t : string) : re := head_re (thn (spaced_re (py t)) (Cat (opt (lit 115%N)) (colon_re 3))).
Definition figure_number_re : re :=
  Cat (Grp 1 (Alt (Rep true 1 None dg) (Alt (Cat wd Wordb) (Alt (Cat (its_re 1 3) (opt (lit 118%N))) (Cat (lit 118%N) (its_re 0 3)))))) (Cat (Rep true 0 (Some 2) (some_re ".,")) Wordb).
Definition one_figure_re : re := Cat dg (Cat (opt wd) Wordb).
Definition next_res : list re :=
  [ plain_title "appendix"; plain_title "appendices"; plural_title "acknowledgement"; plural_title "acknowledgment";
    head_re (thn (spaced_re (py "table")) (Cat (opt wd) (Cat (opt (lit 115%N)) (Cat (opt dg) (colon_re 3)))));
    plural_title "figure"; plural_title "list of figure"; plural_title "annex"; plural_title "discussion"; plural_title "remercie"; plural_title "index"; plural_title "summary";
    Cat Bos (Cat sp (thn (spaced_re (py "figure")) figure_number_re));
    Cat Bos (Cat sp (thn (spaced_re (py "fig")) (Cat (some_re ".") (Cat sp figure_number_re))));
    Cat Bos (Cat sp (thn (spaced_re (py "fig")) (Cat (opt (some_re ".")) (Cat sp one_figure_re))));
    Cat Bos (Cat sp (thn (spaced_re (py "table")) figure_number_re));
    Cat Bos (Cat sp (thn (spaced_re (py "tab")) (Cat (some_re ".") (Cat sp figure_number_re))));
    Cat Bos (Cat sp (thn (spaced_re (py "tab")) (Cat (opt (some_re ".")) (Cat sp one_figure_re)))) ].
Lemma next_shape : firstn 18 (map rx_re post_reference_title_patterns) = next_res.
Proof. vm_compute. reflexivity. Qed.
Lemma on_spelt_nil g r p : reads_on g r p -> reads_on g r (spelt [] ;; p).
Proof.
  apply on_weak. intros a w b fs. split.
  - intros H. exists [], w, [], fs. rewrite app_nil_r. rewrite app_nil_r. repeat split; auto.
  - intros (u & v & f1 & f2 & -> & -> & (F & ->) & H). inversion F; subst. rewrite app_nil_r in *. exact H.
Qed.
Lemma on_spelt_cons g k r c t p : (forall d, cls_mem k d = some_of (letter_forms c) d) -> reads_on g r (spelt t ;; p) -> reads_on g (Cat (Cls k) r) (spelt (c :: t) ;; p).
Proof.
  intros K H. apply (on_weak _ _ (a_letter c ;; spelt t ;; p)); [|apply on_cat; auto; apply on_reads; now apply reads_cls]. intros a w b fs. split.
  - intros (u & v & f1 & f2 & -> & -> & ((d & -> & D) & ->) & (u' & v' & f1' & f2' & -> & -> & (F & ->) & P)). exists ([d] ++ u'), v', [], f2'. rewrite <- !app_assoc in *. rewrite ?app_nil_r. repeat split; auto.
    constructor; auto. unfold some_of in D. apply existsb_exists in D as (x & X & E). apply N.eqb_eq in E as ->. exact X.
  - intros (u & v & f1 & f2 & -> & -> & (F & ->) & P). inversion F as [|? d ? u' D F']; subst. exists [d], (u' ++ v), [], f2. rewrite ?app_nil_r. split; auto. split; auto. split.
    + split; auto. exists d. split; auto. apply existsb_exists. exists d. split; auto. apply N.eqb_refl.
    + exists u', v, [], f2. rewrite ?app_nil_r. repeat split; auto. change (d :: u') with ([d] ++ u') in P. rewrite app_assoc in P. exact P.
Qed.
Lemma seq_cong (p p' q q' : part) : (forall a w b fs, p a w b fs <-> p' a w b fs) -> (forall a w b fs, q a w b fs <-> q' a w b fs) -> forall a w b fs, (p ;; q) a w b fs <-> (p' ;; q') a w b fs.
Proof.
  intros P Q a w b fs. split; intros (u & v & f1 & f2 & -> & -> & A & B); exists u, v, f1, f2; (split; [auto|split; [auto|split; [now apply P|now apply Q]]]).
Qed.
Lemma seq_assoc (p q r : part) a w b fs : (p ;; q ;; r) a w b fs <-> ((p ;; q) ;; r) a w b fs.
Proof.
  split.
  - intros (u & v & f1 & f2 & -> & -> & A & (u' & v' & f1' & f2' & -> & -> & B & C)). exists (u ++ u'), v', (f1' ++ f1), f2'. rewrite !app_assoc in *. repeat (split; [reflexivity|]). split; auto.
    exists u, u', f1, f1'. rewrite ?app_assoc in *. repeat (split; [reflexivity|]). auto.
  - intros (u & v & f1 & f2 & -> & -> & (u0 & v0 & f10 & f20 & -> & -> & A & B) & C). exists u0, (v0 ++ v), f10, (f2 ++ f20). rewrite <- ?app_assoc in *. repeat (split; [reflexivity|]). split; auto.
    exists v0, v, f20, f2. rewrite ?app_assoc in *. repeat (split; [reflexivity|]). auto.
Qed.
Lemma on_head g r p : free g [1; 2] = true -> reads_on g r p -> reads_on g (head_re r) (head ;; p).
Proof.
  intros F H. unfold head_re, head.
  apply (on_weak _ _ (line_start ;; blanks ;; maybe (maybe (any_of "{(<[") ;; blanks ;; one is_word ;; blanks ;; maybe (any_of ")}>.-]") ;; blanks) ;; p)).
  { intros a w b fs. rewrite <- seq_assoc. apply seq_cong; [reflexivity|]. intros. apply seq_assoc. }
  apply on_cat; [apply on_reads, reads_bos|]. apply on_cat; [apply on_sp|]. apply on_cat; auto. apply on_opt, on_free; [freely F|]. unfold some_re, sp, opt. apply on_cat; [ci_tree|]. apply on_cat; [ci_tree|]. apply on_cat; [apply on_word_or; freely F|]. ci_tree.
Qed.
Lemma on_colon g k : is_field g k = false -> reads_on g (colon_re k) colon.
Proof. intros F. apply on_opt, on_free; auto. unfold some_re, sp. ci_tree. Qed.
Lemma on_plural g : reads_on g (opt (lit 115%N)) plural. Proof. apply on_opt, on_reads, reads_cls. intros. now apply alike_mem. Qed.
Lemma on_its g lo hi : reads_on g (its_re lo hi) (its lo hi). Proof. apply on_reads, reads_rep. intros. now apply alike_mem. Qed.
Lemma on_lit g x c : alike x c = true -> reads_on g (lit x) (a_letter c). Proof. intros. apply on_reads, reads_cls. intros. now apply alike_mem. Qed.
Lemma on_plain_title g t : free g [1; 2; 3] = true -> fit (py t) (py t) = true -> reads_on g (plain_title t) (head ;; spaced (py t) ;; colon).
Proof. intros F T. apply on_head; [unfold free in *; cbn [forallb] in *; rewrite !andb_true_iff in *; intuition|]. apply on_thn; [now apply on_spaced|]. apply on_colon. freely F. Qed.
Lemma on_plural_title g t : free g [1; 2; 3] = true -> fit (py t) (py t) = true -> reads_on g (plural_title t) (head ;; spaced (py t) ;; plural ;; colon).
Proof. intros F T. apply on_head; [unfold free in *; cbn [forallb] in *; rewrite !andb_true_iff in *; intuition|]. apply on_thn; [now apply on_spaced|]. apply on_cat; [apply on_plural|]. apply on_colon. freely F. Qed.
Lemma on_figure_number g : free g [1] = true -> reads_on g figure_number_re figure_number.
Proof.
  intros F. apply on_cat.
  - apply on_free; [freely F|]. apply on_alt; [unfold dg; ci_tree|]. apply on_alt; [unfold wd; ci_tree|]. apply on_alt; [apply on_cat; [apply on_its|apply on_opt; now apply on_lit]|]. apply on_cat; [now apply on_lit|apply on_its].
  - unfold some_re. ci_tree.
Qed.
Lemma on_one_figure g : reads_on g one_figure_re one_figure. Proof. unfold one_figure_re, dg, wd, opt. ci_tree. Qed.
Lemma next_nth n : n < 18 -> rx_re (nth n post_reference_title_patterns rx0) = nth n next_res Eps.
Proof. intros L. rewrite <- next_shape. do 18 (destruct n as [|n]; [reflexivity|]). exfalso. lia. Qed.
Lemma next_read n : n < 20 -> reads_on (mark_no (nth n post_reference_title_patterns rx0)) (rx_re (nth n post_reference_title_patterns rx0)) (nth n next_titles no_part).
Proof.
  intros L. destruct (Nat.lt_ge_cases n 18) as [Ln|Ln].
  - rewrite next_nth by auto. set (g := mark_no _). assert (free g [1; 2; 3] = true) as F by (subst g; clear L; do 18 (destruct n as [|n]; [reflexivity|]); exfalso; lia).
    assert (free g [1] = true) as F1 by (unfold free in *; cbn [forallb] in *; rewrite !andb_true_iff in *; intuition). assert (free g [1; 2] = true) as F2 by (unfold free in *; cbn [forallb] in *; rewrite !andb_true_iff in *; intuition).
    clearbody g. clear L. do 18 (try (destruct n as [|n]; [cbv [nth next_res next_titles]|])); [..|exfalso; lia].
    all: first [now apply on_plain_title | now apply on_plural_title | idtac].
    + apply on_head; auto. apply on_thn; [now apply on_spaced|]. apply on_cat; [unfold wd, opt; ci_tree|]. apply on_cat; [apply on_plural|]. apply on_cat; [unfold dg, opt; ci_tree|]. apply on_colon. freely F.
    + apply on_cat; [apply on_reads, reads_bos|]. apply on_cat; [apply on_sp|]. apply on_thn; [now apply on_spaced|]. now apply on_figure_number.
    + apply on_cat; [apply on_reads, reads_bos|]. apply on_cat; [apply on_sp|]. apply on_thn; [now apply on_spaced|]. apply on_cat; [unfold some_re; ci_tree|]. apply on_cat; [apply on_sp|]. now apply on_figure_number.
    + apply on_cat; [apply on_reads, reads_bos|]. apply on_cat; [apply on_sp|]. apply on_thn; [now apply on_spaced|]. apply on_cat; [unfold some_re, opt; ci_tree|]. apply on_cat; [apply on_sp|]. apply on_one_figure.
    + apply on_cat; [apply on_reads, reads_bos|]. apply on_cat; [apply on_sp|]. apply on_thn; [now apply on_spaced|]. now apply on_figure_number.
    + apply on_cat; [apply on_reads, reads_bos|]. apply on_cat; [apply on_sp|]. apply on_thn; [now apply on_spaced|]. apply on_cat; [unfold some_re; ci_tree|]. apply on_cat; [apply on_sp|]. now apply on_figure_number.
    + apply on_cat; [apply on_reads, reads_bos|]. apply on_cat; [apply on_sp|]. apply on_thn; [now apply on_spaced|]. apply on_cat; [unfold some_re, opt; ci_tree|]. apply on_cat; [apply on_sp|]. apply on_one_figure.
  - do 18 (destruct n as [|n]; [exfalso; lia|]). destruct n as [|[|n]]; [| |exfalso; lia]; cbv [nth post_reference_title_patterns rx_re next_titles]; match goal with |- reads_on ?x _ _ => generalize x; intros g end.
    + change (py "conclusion") with [99; 111; 110; 99; 108; 117; 115; 105; 111; 110]%N. do 5 (apply on_cat; [ci_tree|]). do 10 (apply on_spelt_cons; [ci_mem|]). apply on_spelt_nil. ci_tree.
    + change (py "appendix") with [97; 112; 112; 101; 110; 100; 105; 120]%N. do 2 (apply on_cat; [ci_tree|]). do 8 (apply on_spelt_cons; [ci_mem|]). apply on_spelt_nil. ci_tree.
Qed.
