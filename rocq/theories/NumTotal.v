(** find_numeration and find_numeration_more do not fail; what they return *)
From Coq Require Import List Arith NArith Bool String ZArith Lia.
From Verif Require Import PyStr ListFacts Regex RegexMeta RegexLang RegexParse Patterns Numeration DocText Tag ParseProofs WashProofs TransformProofs HitProofs TagCount.
Import ListNotations.
Local Open Scope nat_scope.
Local Notation length := List.length.

(** ** One of several groups is always set, and not empty *)
Fixpoint touches (gs : list nat) (r : re) : bool :=
  match r with
  | Cat a b | Alt a b => touches gs a || touches gs b
  | Rep _ _ _ a => touches gs a
  | Grp i a => existsb (Nat.eqb i) gs || touches gs a
  | Look _ _ _ a => touches gs a
  | _ => false
  end.
Fixpoint sets_one (gs : list nat) (r : re) : bool :=
  match r with
  | Cat a b => (sets_one gs a && negb (touches gs b)) || sets_one gs b
  | Alt a b => sets_one gs a && sets_one gs b
  | Rep _ mn _ a => (0 <? mn) && sets_one gs a
  | Grp i a => if existsb (Nat.eqb i) gs then 0 <? minlen a else sets_one gs a
  | _ => false
  end.
Definition one_set (gs : list nat) (g : groups) : Prop := exists i a b, In i gs /\ lookup_group i g = Some (a, b) /\ a < b.
Lemma mem_nat i gs : existsb (Nat.eqb i) gs = true <-> In i gs.
Proof. rewrite existsb_exists. split; [intros (j & I & E); apply Nat.eqb_eq in E; now subst|intros I; exists i; split; auto; apply Nat.eqb_refl]. Qed.
Lemma mt_untouched gs i r x g x' g' : In i gs -> touches gs r = false -> mt r x g x' g' -> lookup_group i g' = lookup_group i g.
Proof.
  intros I. revert x g x' g'.
  induction r as [| c | | a IHa b IHb | a IHa b IHb | gr mn mx a IHa | j a IHa | ah ng w a IHa | | | | ]; intros x g x' g' T M; cbn [touches] in T; try (inversion M; subst; reflexivity).
  - apply orb_false_iff in T as [T1 T2]. apply mt_cat_iff in M as (y & h & M1 & M2). rewrite (IHb _ _ _ _ T2 M2). eauto.
  - apply orb_false_iff in T as [T1 T2]. apply mt_alt_iff in M as [M|M]; eauto.
  - remember (Rep gr mn mx a) as q eqn:E. revert gr mn mx E. induction M; intros gr' mn' mx' E; inversion E; subst; auto. rewrite (IHM2 _ _ _ eq_refl). eauto.
  - apply orb_false_iff in T as [T1 T2]. apply mt_grp_iff in M as (h & M & ->). cbn. destruct (Nat.eqb_spec i j) as [->|N]; eauto.
    apply mem_nat in I. congruence.
  - inversion M; subst; auto; match goal with X : m _ _ _ _ = Some _ |- _ => apply m_sound in X as (? & ? & X & E) end.
    + inversion E; subst. eauto.
    + unfold accept_at in E. destruct (_ =? _) in E; inversion E; subst. eauto.
Qed.
Lemma mt_sets_one s gs r : forall x g x' g', sets_one gs r = true -> at_ s x -> mt r x g x' g' -> one_set gs g'.
Proof.
  induction r as [| c | | a IHa b IHb | a IHa b IHb | gr mn mx a IHa | j a IHa | ah ng w a IHa | | | | ]; intros x g x' g' T A M; cbn [sets_one] in T; try discriminate.
  - apply mt_cat_iff in M as (y & h & M1 & M2). destruct (mt_at s _ _ _ _ _ M1 A) as (A' & _). apply orb_true_iff in T as [T|T]; [|eauto].
    apply andb_true_iff in T as [T1 T2]. apply negb_true_iff in T2. destruct (IHa _ _ _ _ T1 A M1) as (i & p & q & I & E & Lt).
    exists i, p, q. split; auto. split; auto. rewrite (mt_untouched gs i b _ _ _ _ I T2 M2). exact E.
  - apply andb_true_iff in T as [T1 T2]. apply mt_alt_iff in M as [M|M]; eauto.
  - apply andb_true_iff in T as [T1 T2]. apply Nat.ltb_lt in T1.
    assert (forall x g x' g' mn' mx', mt (Rep gr mn' mx' a) x g x' g' -> at_ s x -> mn' > 0 \/ one_set gs g -> one_set gs g') as G; [|eapply G; eauto].
    clear x g x' g' A M. intros x g x' g' mn' mx' M. remember (Rep gr mn' mx' a) as q eqn:E. revert mn' mx' E.
    induction M; intros mn' mx' E A D; inversion E; subst.
    + destruct D as [D|D]; [lia|exact D].
    + destruct (mt_at s _ _ _ _ _ M1 A) as (A' & _). eapply IHM2; [reflexivity|auto|right; eauto].
  - apply mt_grp_iff in M as (h & M & ->). destruct (existsb (Nat.eqb j) gs) eqn:J.
    + apply mem_nat in J. apply Nat.ltb_lt in T. pose proof (mt_minlen s _ _ _ _ _ M A). exists j, (pos x), (pos x'). split; auto. cbn. rewrite Nat.eqb_refl. split; auto. lia.
    + destruct (IHa _ _ _ _ T A M) as (i & p & q & I & E & Lt). exists i, p, q. split; auto. cbn. destruct (Nat.eqb_spec i j) as [->|N]; auto.
      apply mem_nat in I. congruence.
Qed.
Definition gidx (p : rx) (ns : list string) : list nat := flat_map (fun n => match assoc_str (py n) (rx_names p) with Some i => [i] | None => [] end) ns.
Lemma one_named s p o ns : obj_ok s (rx_re p) o -> plain (rx_re p) = true -> sets_one (gidx p ns) (rx_re p) = true -> ~ In 0 (gidx p ns) ->
  exists n c t, In n ns /\ gd_get p s o n = Some (c :: t).
Proof.
  intros O Pl S Z. pose proof O as O'. destruct O as (x & x' & A & A' & M & E1 & E2 & Le & Len). destruct (mt_sets_one s _ _ _ _ _ _ S A M) as (i & a & b & I & E & Lt).
  pose proof I as I'. unfold gidx in I. apply in_flat_map in I as (n & J & K). exists n. unfold gd_get. destruct (assoc_str (py n) (rx_names p)) as [k|] eqn:F; [|contradiction].
  destruct K as [->|[]]. assert (g_span o i = Some (a, b)) as G by (unfold g_span; destruct (Nat.eqb_spec i 0); [subst; contradiction|exact E]).
  unfold g_text. rewrite G. assert (length (slice a b s) = b - a) as L.
  { apply slice_length. destruct (obj_group s _ o i a b O' Pl ltac:(intros ->; contradiction) G) as (_ & _ & _ & _ & _ & _ & _ & _ & _ & _ & _ & _ & _ & B). unfold str, ch in *. lia. }
  destruct (slice a b s) as [|c t] eqn:Sl; [cbn in L; lia|]. eauto.
Qed.

(** ** Upper case letters add no "<" *)
Lemma upper_ch_lt c : In 60%N (upper_ch c) -> c = 60%N.
Proof.
  unfold upper_ch. destruct (N.ltb_spec c 128) as [Lt|Ge].
  - destruct (is_lower_ascii c) eqn:E; cbn; intros [H|[]]; auto. unfold is_lower_ascii, in_range in E. apply andb_true_iff in E as [E1 E2]. apply N.leb_le in E1, E2. lia.
  - destruct (run_map c UnicodeTables.upper_runs) as [d|] eqn:R.
    + intros [->|[]]. exfalso. apply run_map_some in R as (lo & hi & k & z & I & B & D).
      assert (forallb (fun '(lo, hi, k, z) => (61 <=? Z.of_N lo + z)%Z) UnicodeTables.upper_runs = true) as F by (vm_compute; reflexivity).
      rewrite forallb_forall in F. specialize (F _ I). cbn in F. apply Z.leb_le in F. lia.
    + destruct (assoc_N c UnicodeTables.upper_multi) as [l|] eqn:A; [|intros [H|[]]; auto]. intros I. exfalso.
      assert (forall tb, forallb (fun e => negb (mem_ch 60%N (snd e))) tb = true -> assoc_N c tb = Some l -> False) as F.
      { induction tb as [|(k, v) tb IH]; cbn; [discriminate|]. intros H. apply andb_true_iff in H as [H1 H2]. destruct (N.eqb c k); auto. intros [= ->].
        apply negb_true_iff in H1. apply ListFacts.mem_ch_in in I. unfold mem_ch in I. cbn in H1. congruence. }
      apply (F UnicodeTables.upper_multi); auto.
Qed.
Lemma upper_lt s : In 60%N (upper s) -> In 60%N s.
Proof. unfold upper. intros I. apply in_flat_map in I as (c & I & J). apply upper_ch_lt in J. now subst. Qed.

(** ** What a numeration is *)
Definition clean_opt (v : option str) : Prop := forall t, v = Some t -> ~ In 60%N t.
Definition num_ok (i : numinfo) : Prop :=
  truthy_str (n_volume i) = true /\ truthy_str (n_page i) = true /\ clean_opt (n_volume i) /\ clean_opt (n_page i) /\ clean_opt (n_series i)
  /\ clean_opt (n_year i) /\ clean_opt (n_page_end i).
Definition num_names : list string := ["vol"; "page"; "page_end"; "vol_num"; "vol_num_alt"; "vol_num_alt2"; "jinst_page"]%string.
Definition num_rx (p : rx) : bool :=
  forallb (fun n => match assoc_str (py n) (rx_names p) with Some i => negb (i =? 0) | None => false end) num_names
  && names_avoid p ("series" :: "year" :: num_names)%string
  && sets_one (gidx p ["vol_num"; "vol_num_alt"; "vol_num_alt2"]%string) (rx_re p) && sets_one (gidx p ["page"; "jinst_page"]%string) (rx_re p)
  && match assoc_str (py "vol") (rx_names p) with Some i => always i (rx_re p) | None => false end.
Lemma series_plain v t : ~ In 60%N v -> extract_series_from_volume v = Some t -> ~ In 60%N t.
Proof.
  unfold extract_series_from_volume, g_str, g_text. intros V. destruct (re_search _ v) as [o|].
  - intros [= <-] I. apply upper_lt in I. destruct (g_span o 1) as [(a, b)|]; [|contradiction]. apply slice_in in I. auto.
  - destruct (re_search _ v) as [o|]; [|discriminate]. intros [= <-] I. apply upper_lt in I. destruct (g_span o 1) as [(a, b)|]; [|contradiction]. apply slice_in in I. auto.
Qed.
Section One.
Variables (p : rx) (s : str) (o : mobj).
Hypothesis R : num_rx p = true.
Hypothesis O : obj_ok s (rx_re p) o.
Lemma num_plain : plain (rx_re p) = true.
Proof. unfold num_rx in R. rewrite !andb_true_iff in R. destruct R as ((((_ & A) & _) & _) & _). unfold names_avoid in A. apply andb_true_iff in A. tauto. Qed.
Lemma num_idx n : In n num_names -> exists i, assoc_str (py n) (rx_names p) = Some i /\ i <> 0.
Proof.
  intros I. unfold num_rx in R. rewrite !andb_true_iff in R. destruct R as ((((A & _) & _) & _) & _). rewrite forallb_forall in A. specialize (A n I).
  destruct (assoc_str (py n) (rx_names p)) as [i|]; [|discriminate]. exists i. split; auto. apply negb_true_iff, Nat.eqb_neq in A. exact A.
Qed.
Lemma num_gd n : In n num_names -> gd p s o n = Ok (gd_get p s o n).
Proof. intros I. destruct (num_idx n I) as (i & E & _). unfold gd, gd_get. now rewrite E. Qed.
Lemma num_clean n : In n ("series" :: "year" :: num_names)%string -> clean_opt (gd_get p s o n).
Proof.
  intros I t E. unfold num_rx in R. rewrite !andb_true_iff in R. destruct R as ((((_ & A) & _) & _) & _). destruct (names_avoid_in _ _ n A I) as (Pl & B).
  eapply name_get; eauto.
Qed.
Lemma gidx_nz ns : incl ns num_names -> ~ In 0 (gidx p ns).
Proof.
  intros Inc I. apply in_flat_map in I as (n & I & J). destruct (num_idx n (Inc n I)) as (i & E & Z). rewrite E in J. destruct J as [J|[]]; auto.
Qed.
Lemma num_vol : exists v, vol_num_of p s o = Ok v /\ truthy_str v = true /\ clean_opt v.
Proof.
  destruct (one_named s p o ["vol_num"; "vol_num_alt"; "vol_num_alt2"]%string O num_plain) as (n & c & t & I & E).
  - unfold num_rx in R. rewrite !andb_true_iff in R. tauto.
  - apply gidx_nz. intros n I. cbn in I |- *. tauto.
  - unfold vol_num_of. rewrite !num_gd by (cbn; auto 10). cbn [bind].
    pose proof (num_clean "vol_num" ltac:(cbn; auto 10)) as C1. pose proof (num_clean "vol_num_alt" ltac:(cbn; auto 10)) as C2. pose proof (num_clean "vol_num_alt2" ltac:(cbn; auto 12)) as C3.
    destruct (truthy_str (gd_get p s o "vol_num")) eqn:T1; [eauto|]. cbn [bind]. destruct (truthy_str (gd_get p s o "vol_num_alt")) eqn:T2; [eauto|].
    exists (gd_get p s o "vol_num_alt2"). split; auto. split; auto. cbn in I. destruct I as [<-|[<-|[<-|[]]]]; rewrite E in *; try discriminate. reflexivity.
Qed.
Lemma num_page : exists v w, gd p s o "page" = Ok v /\ (if truthy_str v then Ok None else gd p s o "jinst_page") = Ok w /\ truthy_str (or_else v w) = true /\ clean_opt (or_else v w).
Proof.
  destruct (one_named s p o ["page"; "jinst_page"]%string O num_plain) as (n & c & t & I & E).
  - unfold num_rx in R. rewrite !andb_true_iff in R. tauto.
  - apply gidx_nz. intros n I. cbn in I |- *. tauto.
  - rewrite !num_gd by (cbn; auto 10).
    pose proof (num_clean "page" ltac:(cbn; auto 10)) as C1. pose proof (num_clean "jinst_page" ltac:(cbn; auto 12)) as C2.
    exists (gd_get p s o "page"). destruct (gd_get p s o "page") as [[|d u]|] eqn:T1; cbn [truthy_str or_else].
    + exists (gd_get p s o "jinst_page"). split; auto. split; auto. cbn in I. destruct I as [<-|[<-|[]]]; [congruence|]. rewrite E in *. auto.
    + exists None. auto.
    + exists (gd_get p s o "jinst_page"). split; auto. split; auto. cbn in I. destruct I as [<-|[<-|[]]]; [congruence|]. rewrite E in *. auto.
Qed.
Lemma num_vol_set : exists v, gd_get p s o "vol" = Some v /\ ~ In 60%N v.
Proof.
  destruct (num_idx "vol" ltac:(cbn; auto)) as (i & E & Z). pose proof (num_clean "vol" ltac:(cbn; auto)) as C. pose proof R as R'. unfold num_rx in R'. rewrite !andb_true_iff in R'. destruct R' as (_ & A). rewrite E in A.
  pose proof (obj_always s _ o i O A Z) as S. unfold gd_get in *. rewrite E in *. unfold g_text in *.
  destruct (g_span o i) as [(a, b)|]; [|congruence]. eauto.
Qed.
Lemma num_info : exists i, numeration_info p s o = Ok i /\ num_ok i /\ n_len i = m_end o.
Proof.
  destruct num_vol_set as (v & E & V). destruct num_vol as (vn & Ev & Tv & Cv). destruct num_page as (pg & pw & Ep & Ew & Tp & Cp).
  unfold numeration_info. rewrite (num_gd "vol") by (cbn; auto). cbn [bind]. rewrite E.
  assert (exists sr, (if truthy_str (gd_get p s o "series") then Ok (gd_get p s o "series") else let* v := need (Some v) in Ok (extract_series_from_volume v)) = Ok sr /\ clean_opt sr) as (sr & -> & Cs).
  { destruct (truthy_str (gd_get p s o "series")); [exists (gd_get p s o "series"); split; auto; apply num_clean; cbn; auto|].
    cbn [need bind]. eexists. split; [reflexivity|]. intros t T. eapply series_plain; eauto. }
  cbn [bind]. rewrite Ev. cbn [bind]. rewrite Ep. cbn [bind]. rewrite Ew. cbn [bind]. rewrite (num_gd "page_end") by (cbn; auto). cbn [bind].
  eexists. split; [reflexivity|]. split; [|reflexivity]. split; auto. split; auto. split; auto. split; auto. split; auto. split; apply num_clean; cbn; auto 10.
Qed.
Lemma num_info_more : match assoc_str (py "aftertitle") (rx_names p) with Some i => negb (i =? 0) && always i (rx_re p) | None => false end = true ->
  exists i, numeration_info_more p s o = Ok i /\ num_ok i.
Proof.
  intros H. destruct num_vol_set as (v & E & V). destruct num_vol as (vn & Ev & Tv & Cv). destruct num_page as (pg & pw & Ep & Ew & Tp & Cp).
  unfold numeration_info_more. rewrite (num_gd "vol") by (cbn; auto). cbn [bind]. rewrite E. cbn [need bind].
  rewrite Ev. cbn [bind]. rewrite Ep. cbn [bind]. rewrite Ew. cbn [bind]. rewrite (num_gd "page_end") by (cbn; auto). cbn [bind].
  unfold gd. destruct (assoc_str (py "aftertitle") (rx_names p)) as [i|] eqn:A; [|discriminate]. apply andb_true_iff in H as [Z H]. apply negb_true_iff, Nat.eqb_neq in Z.
  pose proof (obj_always s _ o i O H Z) as S. unfold g_text. destruct (g_span o i) as [(a, b)|]; [|congruence]. cbn [bind need].
  eexists. split; [reflexivity|]. split; auto. split; auto. split; auto. split; auto. split; [intros t T; eapply series_plain; eauto|]. split; apply num_clean; cbn; auto 10.
Qed.
End One.
Theorem find_numeration_ok s : exists r, find_numeration s = Ok r /\ forall i, r = Some i -> num_ok i /\ n_len i <= length s.
Proof.
  unfold find_numeration. assert (forallb num_rx numeration_rxs = true) as F by (vm_compute; reflexivity). revert F. generalize numeration_rxs.
  induction l as [|p l IH]; intros F; cbn [find_numeration_with]; [eexists; split; [reflexivity|discriminate]|]. cbn [forallb] in F. apply andb_true_iff in F as [F1 F2].
  destruct (re_match (rx_re p) s) as [o|] eqn:M; [|auto]. apply re_match_ok in M as (O & _). destruct (num_info p s o F1 O) as (i & E & N & Len). rewrite E. cbn [bind].
  eexists. split; [reflexivity|]. intros j [= <-]. split; auto. rewrite Len. now apply (obj_bounds s (rx_re p)).
Qed.
Theorem find_numeration_more_ok s : exists r, find_numeration_more s = Ok r /\ forall i, r = Some i -> num_ok i.
Proof.
  unfold find_numeration_more.
  assert (forallb (fun p => num_rx p && match assoc_str (py "aftertitle") (rx_names p) with Some i => negb (i =? 0) && always i (rx_re p) | None => false end) second_try = true) as F by (vm_compute; reflexivity).
  revert F. generalize second_try.
  induction l as [|p l IH]; intros F; cbn [find_numeration_more_with]; [eexists; split; [reflexivity|discriminate]|]. cbn [forallb] in F. apply andb_true_iff in F as [F1 F2].
  apply andb_true_iff in F1 as [F1 F3].
  destruct (re_search (rx_re p) s) as [o|] eqn:M; [|auto]. pose proof (re_search_ok _ _ _ M) as O.
  destruct (num_info_more p s o F1 O F3) as (i & E & N). rewrite E. cbn [bind].
  eexists. split; [reflexivity|]. now intros j [= <-].
Qed.
