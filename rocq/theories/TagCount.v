(** No step of tagging adds a "<cds.URL" or "<cds.DOI": the steps before titles are looked up *)
From Coq Require Import List Arith NArith Bool String Lia.
From Verif Require Import PyStr ListFacts Regex RegexMeta RegexLang RegexParse Patterns Numeration DocText Tag ParseProofs WashProofs HitProofs.
Import ListNotations.
Local Open Scope nat_scope.
Local Notation length := List.length.

(** ** Groups without "<" *)
Definition g_avoids (i : nat) (r : re) : bool := forallb (fun e => negb (fst e =? i) || avoids 60 (snd e)) (sub_grps r).
Lemma slice_in (s : str) a b c : In c (slice a b s) -> In c s.
Proof. unfold slice. intros H. rewrite <- (firstn_skipn a s). apply in_or_app. right. rewrite <- (firstn_skipn (b - a) (skipn a s)). apply in_or_app. now left. Qed.
Lemma g_plain s r o i : obj_ok s r o -> plain r = true -> i <> 0 -> g_avoids i r = true -> ~ In 60%N (g_str s o i).
Proof.
  intros O Pl I G. unfold g_str, g_text. destruct (g_span o i) as [(a, b)|] eqn:S; [|cbn; tauto].
  destruct (obj_group s r o i a b O Pl I S) as (q & y & gy & y' & gy' & Iq & M & A & A' & -> & -> & _).
  unfold g_avoids in G. rewrite forallb_forall in G. specialize (G _ Iq). cbn [fst snd] in G. rewrite Nat.eqb_refl in G. cbn in G.
  exact (mt_avoids s _ _ _ _ _ _ M A G).
Qed.
(** every group of this name, if there is one *)
Definition name_avoids (p : rx) (n : string) : bool :=
  match assoc_str (py n) (rx_names p) with Some i => negb (i =? 0) && g_avoids i (rx_re p) | None => true end.
Definition names_avoid (p : rx) (ns : list string) : bool := plain (rx_re p) && forallb (name_avoids p) ns.
Lemma names_avoid_in p ns n : names_avoid p ns = true -> In n ns -> plain (rx_re p) = true /\ name_avoids p n = true.
Proof. unfold names_avoid. intros H I. apply andb_true_iff in H as [A B]. rewrite forallb_forall in B. auto. Qed.
Lemma name_tgrp p s o n : obj_ok s (rx_re p) o -> plain (rx_re p) = true -> name_avoids p n = true -> ~ In 60%N (tgrp p s o n).
Proof.
  intros O Pl H. unfold tgrp, name_avoids in *. destruct (assoc_str (py n) (rx_names p)) as [i|]; [|cbn; tauto].
  apply andb_true_iff in H as [H1 H2]. apply negb_true_iff, Nat.eqb_neq in H1. eapply g_plain; eauto.
Qed.
Lemma name_get p s o n t : obj_ok s (rx_re p) o -> plain (rx_re p) = true -> name_avoids p n = true -> gd_get p s o n = Some t -> ~ In 60%N t.
Proof.
  intros O Pl H. unfold gd_get. pose proof (name_tgrp p s o n O Pl H) as G. unfold tgrp, g_str in G.
  destruct (assoc_str (py n) (rx_names p)) as [i|]; [|discriminate]. destruct (g_text s o i); congruence.
Qed.
Lemma name_show p s o n : obj_ok s (rx_re p) o -> plain (rx_re p) = true -> name_avoids p n = true -> ~ In 60%N (show (gd_get p s o n)).
Proof.
  intros O Pl H. destruct (gd_get p s o n) as [t|] eqn:G; cbn [show]; [eapply name_get; eauto|]. vm_compute. intuition discriminate.
Qed.
Lemma not_in_app (c : N) (a b : str) : ~ In c a -> ~ In c b -> ~ In c (a ++ b).
Proof. rewrite in_app_iff. tauto. Qed.
Ltac no_lt := repeat apply not_in_app; auto; try (vm_compute; intuition discriminate).

(** ** First and last characters of a match *)
Fixpoint first_cls (r : re) : option cls :=
  match r with Cls k => Some k | Cat a _ => first_cls a | Grp _ a => first_cls a | _ => None end.
Fixpoint last_cls (r : re) : option cls :=
  match r with Cls k => Some k | Cat _ b => last_cls b | Grp _ a => last_cls a | _ => None end.
Lemma mt_first r k : first_cls r = Some k -> forall x g x' g', mt r x g x' g' -> exists d t, fwd x (d :: t) x' /\ cls_mem k d = true.
Proof.
  induction r; cbn [first_cls]; intros F x g x' g' M; try discriminate.
  - injection F as ->. apply mt_cls_fwd in M as (d & M & C & _). eauto.
  - apply mt_cat_iff in M as (y & h & M1 & M2). destruct (IHr1 F _ _ _ _ M1) as (d & t & A & B). destruct (mt_fwd _ _ _ _ _ M2) as (u & C).
    exists d, (t ++ u). split; auto. change (d :: t ++ u) with ((d :: t) ++ u). eapply fwd_app; eauto.
  - apply mt_grp_iff in M as (h & M & _). eauto.
Qed.
Lemma mt_last r k : last_cls r = Some k -> forall x g x' g', mt r x g x' g' -> exists d t, fwd x (t ++ [d]) x' /\ cls_mem k d = true.
Proof.
  induction r; cbn [last_cls]; intros F x g x' g' M; try discriminate.
  - injection F as ->. apply mt_cls_fwd in M as (d & M & C & _). exists d, []. auto.
  - apply mt_cat_iff in M as (y & h & M1 & M2). destruct (IHr2 F _ _ _ _ M2) as (d & t & A & B). destruct (mt_fwd _ _ _ _ _ M1) as (u & C).
    exists d, (u ++ t). split; auto. rewrite <- app_assoc. eapply fwd_app; eauto.
  - apply mt_grp_iff in M as (h & M & _). eauto.
Qed.
Lemma obj_first s r o k : first_cls r = Some k -> In o (re_finditer r s) -> exists d t, slice (m_start o) (m_end o) s = d :: t /\ cls_mem k d = true.
Proof.
  intros F I. apply finditer_text in I as (a & t & b & x' & E & Sl & Len & F' & M). destruct (mt_first _ _ F _ _ _ _ M) as (d & u & A & B).
  exists d, u. split; auto. rewrite Sl. eapply fwd_fun; eauto.
Qed.
Lemma obj_last s r o k : last_cls r = Some k -> In o (re_finditer r s) -> exists d t, slice (m_start o) (m_end o) s = t ++ [d] /\ cls_mem k d = true.
Proof.
  intros F I. apply finditer_text in I as (a & t & b & x' & E & Sl & Len & F' & M). destruct (mt_last _ _ F _ _ _ _ M) as (d & u & A & B).
  exists d, u. split; auto. rewrite Sl. eapply fwd_fun; eauto.
Qed.
(** the members of a class below 128 *)
Definition ascii_only (k : cls) (l : list N) : bool := forallb (fun c => negb (cls_mem k c) || mem_ch c l) (map N.of_nat (seq 0 128)).
Lemma ascii_members k l d : ascii_only k l = true -> cls_mem k d = true -> In d l \/ (128 <= d)%N.
Proof.
  intros A M. destruct (N.lt_ge_cases d 128) as [Lt|Ge]; auto. left. unfold ascii_only in A. rewrite forallb_forall in A.
  specialize (A d). rewrite M in A. cbn [negb orb] in A. apply ListFacts.mem_ch_in, A. apply in_map_iff. exists (N.to_nat d). split; [lia|]. apply in_seq. lia.
Qed.

(** ** Washing *)
Section Wash.
Variable x : N.
Hypothesis L : letter x.
Let X := letter_next x L.
Let W := phase_next w1 (or_introl eq_refl).
(** characters that no tag of these steps contains *)
Definition bland (c : N) : bool := negb (is_letter c || mem_ch c (py "<>/.")).
Lemma is_letter_in c : In c (py "cds") -> is_letter c = true.
Proof. cbn. intros [<-|[<-|[<-|[]]]]; reflexivity. Qed.
Lemma bland_strict c q : bland c = true -> strict q c = match q with Q0 | Q5 => false | _ => true end.
Proof.
  unfold bland. intros B. apply negb_true_iff, orb_false_iff in B as [B1 B2].
  assert (forall d, In d (py "<>/.cds") -> N.eqb c d = false) as M.
  { intros d I. apply N.eqb_neq. intros ->. cbn in I. destruct (in_dec N.eq_dec d (py "cds")) as [J|J]; [rewrite (is_letter_in _ J) in B1; discriminate|].
    assert (mem_ch d (py "<>/.") = true); [|congruence]. apply ListFacts.mem_ch_in. cbn in *. tauto. }
  destruct q; cbn [strict]; auto; rewrite ?B1; cbn; rewrite !M by (cbn; tauto); reflexivity.
Qed.
Lemma bland_hit c q : bland c = true -> 1 <= hit w1 x q c \/ q = Q0 \/ q = Q5.
Proof.
  intros B. destruct q; auto; left; unfold hit, w1; rewrite (bland_strict c _ B); cbn; rewrite !orb_true_r; lia.
Qed.
Definition dull (c : N) : bool := bland c && negb (odd c).
Lemma dull_hit c q : dull c = true -> hit w1 x q c <= match q with Q0 | Q5 => 0 | _ => 1 end /\ next q c = Q0.
Proof.
  unfold dull. intros D. apply andb_true_iff in D as [D1 D2]. apply negb_true_iff in D2. split.
  - destruct q; try (unfold hit; destruct (_ || _); lia); [reflexivity|]. unfold hit, w1. rewrite D2. cbn [strict orb state_eqb negb andb].
    destruct (N.eqb_spec c x); [|cbn; lia]. subst. destruct L as [->| ->]; discriminate.
  - unfold bland in D1. apply negb_true_iff, orb_false_iff in D1 as [B1 B2].
    destruct (N.eqb_spec c 60) as [->|N]; [discriminate|]. unfold next. destruct (N.eqb_spec c 60); [congruence|].
    destruct q; auto; rewrite ?B1; auto; destruct (N.eqb_spec c 46); subst; try discriminate; repeat match goal with |- context [N.eqb c ?k] => destruct (N.eqb_spec c k); subst; try discriminate end; auto.
Qed.
Lemma dull_cheap d m c : bland d = true -> dull c = true -> cheap w1 x (d :: m) [c].
Proof.
  intros B D. apply closed_cheap; intros q; cbn [hits ends]; destruct (dull_hit c q D) as (D1 & D2); auto.
  destruct (bland_hit d q B) as [H|[->| ->]]; [|lia|lia]. destruct q; lia.
Qed.
(** patterns that match only such characters *)
Definition all_bland (r : re) : bool :=
  (1 <=? minlen r) && forallb (fun c => avoids c r) (py "<>/." ++ map N.of_nat (seq 65 26) ++ map N.of_nat (seq 97 26)).
Lemma bland_match s p o : all_bland (rx_re p) = true -> obj_ok s (rx_re p) o ->
  exists d t, slice (m_start o) (m_end o) s = d :: t /\ bland d = true.
Proof.
  intros P (a & b & Aa & Ab & M & -> & -> & Le & Len). apply andb_true_iff in P as [P1 P2]. apply Nat.leb_le in P1.
  pose proof (mt_minlen s _ _ _ _ _ M Aa) as Ml. rewrite forallb_forall in P2.
  assert (forall c, In c (py "<>/." ++ map N.of_nat (seq 65 26) ++ map N.of_nat (seq 97 26)) -> ~ In c (slice (pos a) (pos b) s)) as Av
    by (intros c I; exact (mt_avoids s c _ _ _ _ _ M Aa (P2 c I))).
  destruct (slice (pos a) (pos b) s) as [|d t] eqn:E.
  - exfalso. apply (f_equal (@length N)) in E. rewrite slice_length in E by (unfold str, ch in *; lia). cbn in E. lia.
  - exists d, t. split; auto. unfold bland. destruct (is_letter d || mem_ch d (py "<>/.")) eqn:B; auto. exfalso. apply (Av d); [|now left].
    apply in_or_app. apply orb_true_iff in B as [B|B]; [right|left; now apply ListFacts.mem_ch_in].
    apply in_or_app. unfold is_letter in B. apply orb_true_iff in B as [B|B]; apply andb_true_iff in B as [B1 B2]; apply N.leb_le in B1, B2; [left|right];
      apply in_map_iff; exists (N.to_nat d); (split; [lia|]); apply in_seq; lia.
Qed.
Lemma sub_dull p c s q : all_bland (rx_re p) = true -> dull c = true -> hits w1 x q (sub_text p [c] s) <= hits w1 x q s.
Proof.
  intros P D. unfold sub_text. apply re_sub_hits; auto. intros o _ O. destruct (bland_match s p o P O) as (d & t & -> & B). now apply dull_cheap.
Qed.
Lemma odd_hit q c : odd c = true -> 1 <= hit w1 x q c \/ q = Q0.
Proof. intros O. destruct (state_eqb q Q0) eqn:E; [right; now apply state_eqb_eq|]. left. unfold hit, w1. rewrite O, E. cbn. rewrite orb_true_r. lia. Qed.
Lemma space_odd c : is_space c = true -> odd c = true. Proof. unfold odd. now intros ->. Qed.
Lemma hit_le1 q c : hit w1 x q c <= 1. Proof. unfold hit. destruct (_ || _); lia. Qed.
Lemma period_cheap c : is_space c = true -> cheap w1 x [c; 46%N] [46%N].
Proof.
  intros S q. unfold cost. cbn [hits ends]. pose proof (space_odd c S) as O. rewrite (odd_next q c O). change (next Q0 46) with Q0. change (hit w1 x Q0 46) with 0.
  destruct (odd_hit q c O) as [H| ->]; [|cbn; lia]. destruct (state_eqb q Q4) eqn:E.
  - apply state_eqb_eq in E. subst q. change (hit w1 x Q4 46) with 0. cbn. lia.
  - assert (next q 46 = Q0) as -> by (destruct q; cbn; auto; discriminate). pose proof (hit_le1 q 46). cbn. lia.
Qed.
Lemma sub_period s q : hits w1 x q (sub_text re_space_period (py ".") s) <= hits w1 x q s.
Proof.
  unfold sub_text. apply re_sub_hits; auto. intros o I _. apply finditer_text in I as (a & t & b & x' & E & Sl & Len & F & M).
  unfold str, ch in *. rewrite Sl. change (rx_re re_space_period) with (Cat (Cls spc) (Cls (chr 46%N))) in M.
  destruct (mt_two _ _ _ _ _ _ _ F M) as (c & d & -> & C & D). apply chr_mem in D. subst d. apply period_cheap. now apply spc_mem.
Qed.
Lemma sub_blank s q : hits w1 x q (sub_text re_multiple_space (py " ") s) <= hits w1 x q s.
Proof.
  unfold sub_text. apply re_sub_hits; auto. intros o I _. apply finditer_text in I as (a & t & b & x' & E & Sl & Len & F & M).
  unfold str, ch in *. rewrite Sl. change (rx_re re_multiple_space) with (Rep true 2 None (Cls spc)) in M.
  apply mt_rep_cls in M as (t' & F' & A & B & _). rewrite (fwd_fun _ _ _ _ F F').
  destruct t' as [|c t0]; [cbn in B; lia|]. cbn [forallb] in A. apply andb_true_iff in A as [A _]. apply spc_mem in A.
  apply closed_cheap; intros z; cbn [hits ends py]; [|now apply odd_next].
  change (hit w1 x z 32 + 0 <= hit w1 x z c + hits w1 x (next z c) t0). pose proof (hit_le1 z 32). destruct (odd_hit z c (space_odd c A)) as [G| ->]; [lia|]. cbn. lia.
Qed.
Lemma wash_hits s q : hits w1 x q (wash_line s) <= hits w1 x q s.
Proof.
  unfold wash_line.
  repeat match goal with
  | |- hits _ _ _ (sub_text re_space_period _ _) <= _ => eapply Nat.le_trans; [apply sub_period|]
  | |- hits _ _ _ (sub_text re_multiple_space _ _) <= _ => eapply Nat.le_trans; [apply sub_blank|]
  | |- hits _ _ _ (sub_text _ _ _) <= _ => eapply Nat.le_trans; [apply sub_dull; [vm_compute; reflexivity|reflexivity]|]
  end. lia.
Qed.

(** ** The simple taggers *)
Lemma sub_wrap p t f s q : In t tags -> (forall o, obj_ok s (rx_re p) o -> ~ In 60%N (f s o)) ->
  hits w1 x q (sub_with p (fun s o => wrap t (f s o)) s) <= hits w1 x q s.
Proof.
  intros T H. unfold sub_with. apply re_sub_hits; auto. intros o _ O. apply wrap_cheap; auto; [now left|]. intros z.
  destruct (plain_hits w1 x (f s o) (H o O)) as (-> & _). lia.
Qed.
Lemma isbn_hits s q : hits w1 x q (tag_isbn s) <= hits w1 x q s.
Proof.
  unfold tag_isbn. apply (sub_wrap re_isbn "ISBN" (fun s o => tgrp re_isbn s o "code")); [cbn; auto|].
  intros o O. apply name_tgrp; auto; vm_compute; reflexivity.
Qed.
Lemma quoted_hits s q : hits w1 x q (tag_quoted_text s) <= hits w1 x q s.
Proof.
  unfold tag_quoted_text, sub_with. apply re_sub_hits; auto. intros o _ O. apply wrap_cheap; [now left|auto|cbn; auto|]. intros z.
  unfold tgrp. change (assoc_str (py "title") (rx_names re_quoted)) with (Some 1). unfold g_str, g_text.
  destruct (g_span o 1) as [(a, b)|] eqn:S; [|cbn; lia].
  destruct (obj_group s _ o 1 a b O eq_refl ltac:(discriminate) S) as (_ & _ & _ & _ & _ & _ & _ & _ & _ & _ & _ & A & B & C).
  assert (slice a b s = slice (a - m_start o) (b - m_start o) (slice (m_start o) (m_end o) s)) as ->.
  { unfold slice. rewrite skipn_firstn_comm, skipn_skipn, firstn_firstn. f_equal; [lia|]. f_equal. lia. }
  apply hits_slice.
Qed.
Definition arxiv_names : list string := ["suffix"; "year"; "month"; "num"]%string.
Lemma arxiv_hits p s q : names_avoid p arxiv_names = true -> hits w1 x q (sub_with p (arxiv_tagger p) s) <= hits w1 x q s.
Proof.
  intros N. assert (forall n, In n arxiv_names -> plain (rx_re p) = true /\ name_avoids p n = true) as H by (intros n I; eapply names_avoid_in; eauto).
  unfold arxiv_tagger. apply (sub_wrap p "ARXIV" (fun s o => py "arXiv:" ++ show (gd_get p s o "year") ++ show (gd_get p s o "month") ++ py "."
                ++ show (gd_get p s o "num") ++ match gd_get p s o "suffix" with Some (c :: t) => 32%N :: c :: t | _ => [] end)); [cbn; auto|].
  intros o O.
  destruct (H "suffix"%string) as (Pl & A); [cbn; auto|]. destruct (H "year"%string) as (_ & B); [cbn; auto|]. destruct (H "month"%string) as (_ & C); [cbn; auto|].
  destruct (H "num"%string) as (_ & D); [cbn; auto 6|]. no_lt; try (apply name_show; auto).
  destruct (gd_get p s o "suffix") as [[|c t]|] eqn:G; try (cbn; tauto). apply (name_get _ _ _ _ _ O Pl A) in G.
  intros [E|E]; [discriminate|auto].
Qed.

(** a text without "<" and ">" in which something else than letters stands, read in a name *)
Lemma name_hit s d : ~ In 60%N s -> ~ In 62%N s -> In d s -> is_letter d = false -> 1 <= hits w1 x Q6 s.
Proof.
  induction s as [|c s IH]; intros A B I F; [contradiction|]. cbn [hits]. destruct (is_letter c) eqn:C.
  - destruct I as [->|I]; [congruence|]. assert (next Q6 c = Q6) as ->.
    { unfold next. destruct (N.eqb_spec c 60); [subst; discriminate|]. now rewrite C. }
    enough (1 <= hits w1 x Q6 s) by lia. apply IH; auto; intros J; [apply A|apply B]; now right.
  - enough (hit w1 x Q6 c = 1) by lia. unfold hit, w1. cbn [strict]. rewrite C.
    assert (mem_ch c (py "<>") = false) as ->; [|cbn; rewrite orb_true_r; reflexivity]. cbn. destruct (N.eqb_spec c 60); [exfalso; apply A; now left|]. destruct (N.eqb_spec c 62); [exfalso; apply B; now left|]. reflexivity.
Qed.
Lemma catchup_hits s q : hits w1 x q (sub_with re_arxiv_catchup (fun s o =>
    tgrp re_arxiv_catchup s o "suffix" ++ py "/" ++ tgrp re_arxiv_catchup s o "year"
    ++ tgrp re_arxiv_catchup s o "month" ++ tgrp re_arxiv_catchup s o "num") s) <= hits w1 x q s.
Proof.
  unfold sub_with. apply re_sub_hits; auto. intros o I O.
  assert (forall n, In n ["suffix"; "year"; "month"; "num"]%string -> ~ In 60%N (tgrp re_arxiv_catchup s o n)) as G.
  { intros n J. destruct (names_avoid_in re_arxiv_catchup ["suffix"; "year"; "month"; "num"]%string n ltac:(vm_compute; reflexivity) J). apply name_tgrp; auto. }
  set (r := tgrp _ s o "suffix" ++ _). assert (~ In 60%N r) as R.
  { subst r. no_lt; apply G; cbn; auto. }
  destruct (obj_first s (rx_re re_arxiv_catchup) o _ eq_refl I) as (c & t & Em & C). destruct (obj_last s (rx_re re_arxiv_catchup) o _ eq_refl I) as (d & u & Em' & D).
  apply (ascii_members _ [65; 97]%N) in C; [|vm_compute; reflexivity]. apply (ascii_members _ [93]%N) in D; [|vm_compute; reflexivity].
  assert (is_letter d = false) as Ld.
  { destruct D as [[<-|[]]|D]; [reflexivity|]. unfold is_letter. destruct (N.leb_spec d 90), (N.leb_spec d 122), (N.leb_spec 65 d), (N.leb_spec 97 d); auto; lia. }
  assert (forall k, avoids k (rx_re re_arxiv_catchup) = true -> ~ In k (slice (m_start o) (m_end o) s)) as Av.
  { destruct O as (a & b & Aa & Ab & M & -> & -> & _). intros k K. exact (mt_avoids s k _ _ _ _ _ M Aa K). }
  pose proof (Av 60%N eq_refl) as A60. pose proof (Av 62%N eq_refl) as A62.
  destruct (plain_hits w1 x r R) as (H0 & E0).
  assert (forall z, z <> Q0 -> 1 <= hits w1 x z (slice (m_start o) (m_end o) s)) as H1.
  { intros z Z. destruct (state_eqb z Q6) eqn:E6; [apply state_eqb_eq in E6; subst; apply (name_hit _ d); auto; rewrite Em'; apply in_or_app; right; now left|].
    rewrite Em. cbn [hits]. destruct C as [C|C].
    - destruct (state_eqb z Q5) eqn:E5.
      + apply state_eqb_eq in E5. subst z. assert (next Q5 c = Q6) as -> by (cbn in C; destruct C as [<-|[<-|[]]]; reflexivity).
        enough (1 <= hits w1 x Q6 t) by lia. apply (name_hit _ d); auto.
        * intros J. apply A60. rewrite Em. now right.
        * intros J. apply A62. rewrite Em. now right.
        * destruct u as [|c' u]; rewrite Em in Em'; [injection Em' as -> ->|injection Em' as -> ->; apply in_or_app; right; now left].
          cbn in C. destruct C as [<-|[<-|[]]]; discriminate.
      + enough (1 <= hit w1 x z c) by lia. unfold hit, w1. assert (strict z c = true) as ->; [|destruct z; try congruence; cbn; rewrite ?orb_true_r; lia].
        cbn in C. destruct C as [<-|[<-|[]]]; destruct z; try congruence; try discriminate; reflexivity.
    - enough (1 <= hit w1 x z c) by lia. destruct (odd_hit z c) as [H| ->]; [|exact H|congruence]. unfold odd. apply N.leb_le in C. rewrite C. apply orb_true_r. }
  apply closed_cheap; intros z.
  - destruct (state_eqb z Q0) eqn:E; [apply state_eqb_eq in E; subst; lia|]. assert (z <> Q0) as Z by (intros ->; discriminate).
    specialize (H1 z Z). pose proof (hits_one w1 x X W r z). lia.
  - subst r. revert G. generalize (tgrp re_arxiv_catchup s o "suffix"). intros v G. rewrite ends_app.
    assert (forall y, ends y (py "/" ++ tgrp re_arxiv_catchup s o "year" ++ tgrp re_arxiv_catchup s o "month" ++ tgrp re_arxiv_catchup s o "num") = Q0) as E.
    { intros y. change (py "/") with [47%N]. cbn [app ends]. assert (next y 47 = Q0) as -> by (destruct y; reflexivity).
      apply (plain_hits w1 x). no_lt; apply G; cbn; auto. }
    apply E.
Qed.

(** the two patterns that depend on the clock *)
Definition both_avoid (p q : rx) : bool := names_avoid p arxiv_names && names_avoid q arxiv_names.
Lemma both_split p q : both_avoid p q = true -> names_avoid p arxiv_names = true /\ names_avoid q arxiv_names = true.
Proof. apply andb_true_iff. Qed.
Lemma years_checked : forallb (fun i => both_avoid (re_new_arxiv_5digits (1990 + N.of_nat i)) (re_new_arxiv (1990 + N.of_nat i))) (seq 0 111) = true.
Proof. vm_compute. reflexivity. Qed.
Lemma years_from start y : (y < start)%N -> compute_years start y = [].
Proof. intros H. unfold compute_years. replace (y + 1 - start)%N with 0%N by lia. reflexivity. Qed.
Lemma year_late y : (1990 <= y <= 2100)%N -> both_avoid (re_new_arxiv_5digits y) (re_new_arxiv y) = true.
Proof.
  intros Z. replace y with (1990 + N.of_nat (N.to_nat (y - 1990)))%N by lia.
  refine (proj1 (forallb_forall _ _) years_checked (N.to_nat (y - 1990)) _). apply in_seq. lia.
Qed.
Lemma year_early y : (y < 1990)%N -> re_new_arxiv_5digits y = re_new_arxiv_5digits 1990 /\ re_new_arxiv y = re_new_arxiv 1990.
Proof.
  intros H. assert (compute_years 1991 y = compute_years 1991 1990) as A by (rewrite (years_from 1991 y), (years_from 1991 1990) by lia; exact eq_refl).
  assert (compute_years 2013 y = compute_years 2013 1990) as B by (rewrite (years_from 2013 y), (years_from 2013 1990) by lia; exact eq_refl).
  split; [exact (f_equal (fun c => the_rx (compile fXI (re_new_arxiv_5digits_src c))) B)|exact (f_equal (fun c => the_rx (compile fXI (re_new_arxiv_src c))) A)].
Qed.
Lemma year_ok y : (y <= 2100)%N -> both_avoid (re_new_arxiv_5digits y) (re_new_arxiv y) = true.
Proof.
  intros H. destruct (N.le_gt_cases 1990 y) as [G|G]; [apply year_late; lia|].
  destruct (year_early y G) as (-> & ->). apply year_late. lia.
Qed.
Definition arxiv_steps (p5 p4 : rx) (s : str) : str :=
  sub_with p4 (arxiv_tagger p4) (sub_with p5 (arxiv_tagger p5) (sub_with re_arxiv (arxiv_tagger re_arxiv) (sub_with re_arxiv_5digits (arxiv_tagger re_arxiv_5digits) s))).
Lemma tag_arxiv_steps E s : tag_arxiv E s = arxiv_steps (re_new_arxiv_5digits (now_year E)) (re_new_arxiv (now_year E)) s.
Proof. unfold tag_arxiv. cbv zeta. unfold arxiv_steps. exact eq_refl. Qed.
Lemma arxiv_steps_hits p5 p4 s q : names_avoid p5 arxiv_names = true -> names_avoid p4 arxiv_names = true -> hits w1 x q (arxiv_steps p5 p4 s) <= hits w1 x q s.
Proof.
  intros Y2 Y1. unfold arxiv_steps. eapply Nat.le_trans; [apply arxiv_hits; exact Y1|]. eapply Nat.le_trans; [apply arxiv_hits; exact Y2|].
  eapply Nat.le_trans; [apply arxiv_hits; vm_compute; reflexivity|]. apply arxiv_hits; vm_compute; reflexivity.
Qed.
Lemma tag_arxiv_hits E s q : (now_year E <= 2100)%N -> hits w1 x q (tag_arxiv E s) <= hits w1 x q s.
Proof. intros Y. destruct (both_split _ _ (year_ok _ Y)) as (A & B). rewrite tag_arxiv_steps. now apply arxiv_steps_hits. Qed.
Definition old_checked (e : rx * option str) : bool :=
  names_avoid (fst e) ["name"; "num"]%string && match snd e with Some r => negb (mem_ch 60%N r) | None => true end.
Lemma old_hits e s q : old_checked e = true -> hits w1 x q (sub_with (fst e) (old_arxiv_repl (fst e) (snd e)) s) <= hits w1 x q s.
Proof.
  intros C. apply andb_true_iff in C as [C1 C2]. unfold old_arxiv_repl.
  apply (sub_wrap (fst e) "ARXIV" (fun s o => match snd e with Some r => r | None => tgrp (fst e) s o "name" end ++ py "/" ++ tgrp (fst e) s o "num")); [cbn; auto|].
  intros o O. destruct (names_avoid_in _ _ "name" C1) as (P & A); [cbn; auto|]. destruct (names_avoid_in _ _ "num" C1) as (_ & B); [cbn; auto|].
  no_lt; try (apply name_tgrp; auto). destruct (snd e) as [r|]; [|apply name_tgrp; auto]. apply negb_true_iff in C2. intros I. apply ListFacts.mem_ch_in in I. congruence.
Qed.
Lemma arxiv_more_hits s q : hits w1 x q (tag_arxiv_more s) <= hits w1 x q s.
Proof.
  unfold tag_arxiv_more. eapply Nat.le_trans; [|apply catchup_hits].
  assert (forall l, forallb old_checked l = true -> forall s, hits w1 x q (fold_left (fun line e => sub_with (fst e) (old_arxiv_repl (fst e) (snd e)) line) l s) <= hits w1 x q s) as F.
  { induction l as [|e l IH]; intros H t; cbn [fold_left]; [lia|]. cbn [forallb] in H. apply andb_true_iff in H as [H1 H2].
    eapply Nat.le_trans; [apply IH; auto|]. now apply old_hits. }
  apply F. vm_compute. reflexivity.
Qed.
Lemma atlas_hits s q : hits w1 x q (tag_atlas_conf s) <= hits w1 x q s.
Proof.
  unfold tag_atlas_conf.
  assert (forall p (u : string), names_avoid p ["code"]%string = true -> ~ In 60%N (py u) -> forall s, hits w1 x q (sub_with p (fun s o => wrap "REPORTNUMBER" (py u ++ tgrp p s o "code")) s) <= hits w1 x q s) as A.
  { intros p u P U t. apply (sub_wrap p "REPORTNUMBER" (fun s o => py u ++ tgrp p s o "code")); [cbn; auto 10|].
    intros o O. destruct (names_avoid_in _ _ "code" P) as (Pl & C); [cbn; auto|]. apply not_in_app; auto. apply name_tgrp; auto. }
  eapply Nat.le_trans; [apply A|apply A]; try (vm_compute; reflexivity); vm_compute; intuition discriminate.
Qed.

(** ** Proceedings of science *)
Lemma wraps_hits t g r q : In t tags -> ~ In 60%N g -> (hits w1 x Q0 r = 0 /\ ends Q0 r = Q0) ->
  hits w1 x q (wrap t g ++ r) = 0 /\ ends q (wrap t g ++ r) = Q0.
Proof.
  intros T G (R1 & R2). destruct (wrap_hits w1 x (or_introl eq_refl) L t q g T) as (E1 & E2). destruct (plain_hits w1 x g G) as (E3 & _).
  revert E1 E2. generalize (wrap t g). intros u E1 E2. rewrite hits_app, ends_app, E1, E2, E3. auto.
Qed.
Lemma blank_hits r : hits w1 x Q0 r = 0 /\ ends Q0 r = Q0 -> hits w1 x Q0 (py " " ++ r) = 0 /\ ends Q0 (py " " ++ r) = Q0.
Proof. intros (A & B). change (py " ") with [32%N]. cbn [app hits ends]. change (hit w1 x Q0 32) with 0. change (next Q0 32) with Q0. auto. Qed.
Lemma strip_in cs (s : str) c : In c (strip_chars cs s) -> In c s.
Proof. unfold strip_chars. intros I. destruct (strip_by_split (fun c => mem_ch c cs) s) as (p & q & E & _). rewrite E. apply in_or_app. right. apply in_or_app. now left. Qed.
Lemma strip_in' (s : str) c : In c (strip s) -> In c s.
Proof. unfold strip. intros I. destruct (strip_by_split is_space s) as (p & q & E & _). rewrite E. apply in_or_app. right. apply in_or_app. now left. Qed.
Definition pos_names : list string := ["volume_name"; "volume_num"; "year"; "page"]%string.
Lemma pos_year_plain p s o y : obj_ok s (rx_re p) o -> names_avoid p pos_names = true -> pos_year p s o = Some y -> ~ In 60%N y.
Proof.
  intros O N. destruct (names_avoid_in _ _ "year" N) as (P & A); [cbn; auto|]. destruct (names_avoid_in _ _ "volume_num" N) as (_ & B); [cbn; auto|].
  unfold pos_year, group_named. destruct (assoc_str (py "year") (rx_names p)) as [i|] eqn:E.
  - intros G. apply (name_get p s o "year" y); auto. unfold gd_get. now rewrite E.
  - destruct (re_search _ _) as [g|]; [|discriminate]. intros [= <-] I. apply slice_in in I. revert I. now apply name_show.
Qed.
Lemma pos_hits p s q : names_avoid p pos_names = true -> hits w1 x q (sub_with p (pos_tagger p) s) <= hits w1 x q s.
Proof.
  intros N. unfold sub_with. apply re_sub_hits; auto. intros o _ O.
  assert (forall z, hits w1 x z (pos_tagger p s o) = 0 /\ ends z (pos_tagger p s o) = Q0) as H.
  { intros z. unfold pos_tagger.
    destruct (names_avoid_in _ _ "volume_name" N) as (P & A); [cbn; auto|]. destruct (names_avoid_in _ _ "volume_num" N) as (_ & B); [cbn; auto|].
    destruct (names_avoid_in _ _ "page" N) as (_ & C); [cbn; auto 6|].
    assert (hits w1 x Q0 (py " " ++ wrap "PG" (show (gd_get p s o "page"))) = 0 /\ ends Q0 (py " " ++ wrap "PG" (show (gd_get p s o "page"))) = Q0) as T.
    { apply blank_hits. rewrite <- (app_nil_r (wrap "PG" _)). apply wraps_hits; [cbn; auto 10|apply name_show; auto|split; reflexivity]. }
    apply wraps_hits; [cbn; auto 10|vm_compute; intuition discriminate|]. apply blank_hits.
    apply wraps_hits; [cbn; auto 10|no_lt; apply name_show; auto|].
    destruct (pos_year p s o) as [[|c t]|] eqn:Y; auto. rewrite <- app_assoc. apply blank_hits. apply wraps_hits; [cbn; auto 10| |auto].
    apply (pos_year_plain _ _ _ _ O N) in Y. no_lt. intros I. apply Y. apply strip_in in I. now apply strip_in' in I. }
  apply closed_cheap; intros z; destruct (H z) as (H1 & H2); auto. lia.
Qed.
Lemma pos_volume_hits s q : hits w1 x q (tag_pos_volume s) <= hits w1 x q s.
Proof.
  unfold tag_pos_volume. assert (forall l, forallb (fun p => names_avoid p pos_names) l = true -> forall s, hits w1 x q (fold_left (fun l p => sub_with p (pos_tagger p) l) l s) <= hits w1 x q s) as F.
  { induction l as [|p l IH]; intros H t; cbn [fold_left]; [lia|]. cbn [forallb] in H. apply andb_true_iff in H as [H1 H2].
    eapply Nat.le_trans; [apply IH; auto|]. now apply pos_hits. }
  apply F. vm_compute. reflexivity.
Qed.
Lemma working_line_hits E s q : (now_year E <= 2100)%N -> hits w1 x q (working_line1 E s) <= hits w1 x q s.
Proof.
  intros Y. unfold working_line1. eapply Nat.le_trans; [apply atlas_hits|]. eapply Nat.le_trans; [apply pos_volume_hits|]. eapply Nat.le_trans; [apply arxiv_more_hits|].
  eapply Nat.le_trans; [now apply tag_arxiv_hits|]. eapply Nat.le_trans; [apply isbn_hits|]. eapply Nat.le_trans; [apply quoted_hits|].
  eapply Nat.le_trans; [apply wash_hits|]. eapply Nat.le_trans; [apply pos_volume_hits|]. apply wash_hits.
Qed.
End Wash.
