(** Proofs about wash_and_repair_reference_line (C40). *)
From Coq Require Import List Arith NArith Bool String Lia.
From Verif Require Import PyStr ListFacts Regex RegexParse RegexMeta RegexLang RegexWords Patterns DocText Tag RefText WashProofs UrlProofs SpaceProofs RecordProofs PostProofs SplitProofs YearProofs DropYear.
Import ListNotations.
Local Open Scope nat_scope.
Local Notation length := List.length.
Local Notation concat := List.concat.

(** t is s with pieces related by R put for the pieces with P, none of which begins in a part that is kept *)
Definition swapped (P : str -> Prop) (R : str -> str -> Prop) (s t : str) : Prop := exists kept taken put,
  length kept = S (length taken) /\ s = weave kept taken /\ t = weave kept put /\ Forall2 (fun w v => P w /\ R w v) taken put
  /\ forall a w b, s = a ++ w ++ b -> P w -> replaced_at kept taken (length a).
Lemma sub_from_weave s f : forall ms p, sub_from s f p ms = weave (kept s p (map mspan ms)) (map f ms).
Proof. induction ms as [|o ms IH]; intros p; cbn; auto. now rewrite IH. Qed.
Lemma slice_found (s a w b : str) o : s = a ++ w ++ b -> m_start o = length a -> m_end o = length a + length w -> slice (m_start o) (m_end o) s = w.
Proof.
  intros -> -> ->. unfold slice. rewrite skipn_app, Nat.sub_diag, skipn_all. cbn [app skipn]. rewrite firstn_app. replace (length a + length w - length a) with (length w) by lia.
  rewrite Nat.sub_diag, firstn_O, app_nil_r. apply firstn_all.
Qed.
Lemma sub_swapped r (P : str -> Prop) (R : str -> str -> Prop) f s : productive r = true -> 1 <= minlen r ->
  (forall x x' g', mt r x [] x' g' -> exists w, fwd x w x' /\ P w) ->
  (forall x w x', fwd x w x' -> P w -> exists g', mt r x [] x' g') ->
  (forall o, In o (re_finditer r s) -> R (slice (m_start o) (m_end o) s) (f o)) -> swapped P R s (re_sub r f s).
Proof.
  intros Pr Mn M1 M2 Rf. unfold re_sub. set (ms := re_finditer r s). destruct (finditer_ok r s) as (_ & Ch). fold ms in Ch. pose proof (mspans _ _ _ Ch) as Sp.
  exists (kept s 0 (map mspan ms)), (taken s (map mspan ms)), (map f ms). rewrite kept_length. unfold taken at 1. rewrite !map_length. split; auto.
  split; [symmetry; apply (weave_back s _ 0 Sp)|]. split; [apply sub_from_weave|]. split.
  - unfold taken. rewrite map_map. assert (forall o, In o ms -> P (slice (m_start o) (m_end o) s) /\ R (slice (m_start o) (m_end o) s) (f o)) as H.
    { intros o I. split; [|now apply Rf]. apply finditer_in in I as (a & w & b & x' & E & F & M & S1 & S2). apply M1 in M as (w' & F' & Q). rewrite <- (fwd_fun _ _ _ _ F F') in Q.
      erewrite slice_found; eauto. }
    clear -H. induction ms as [|o ms IH]; cbn [map]; constructor; [apply H; now left|]. apply IH. intros; apply H; now right.
  - intros a w b E Q. destruct (M2 (here a (w ++ b)) w (here (a ++ w) b) (fwd_here _ _ _) Q) as (g' & M).
    destruct (finditer_complete r s a _ _ _ Pr E M) as (o & I & C). replace (length a) with (length a - 0) by lia.
    apply (replaced_in _ _ (m_start o) (m_end o) (length a) 0 Sp); [apply in_map_iff; exists o; split; [reflexivity|exact I]|].
    pose proof (finditer_in _ _ _ I) as (a' & w' & b' & y & E1 & F & M3 & S1 & S2). assert (m_start o < m_end o) as Lt; [|unfold covers in C; lia].
    pose proof (mt_minlen (a' ++ w' ++ b') _ _ _ _ _ M3 (at_here _ _)) as ML. destruct F as (_ & _ & F). rewrite F in ML. lia.
Qed.

(** ** Runs of white space *)
Definition wide (w : str) : Prop := blanks w /\ 2 <= length w.
Lemma blanks_iff w : forallb (cls_mem (mkcls false false [CSpace true])) w = true <-> blanks w.
Proof. exact (eq_ind_r (fun b => b = true <-> _) (iff_refl _) (space_cls_all w)). Qed.
(** every run of two or more is one space *)
Definition squeezed (s t : str) : Prop := exists kept taken,
  length kept = S (length taken) /\ s = weave kept taken /\ t = weave kept (map (fun _ => [32%N]) taken) /\ Forall wide taken
  /\ Forall (fun k => match k with c :: _ => is_space c = false | [] => True end) (tl kept)
  /\ forall a w b, s = a ++ w ++ b -> wide w -> replaced_at kept taken (length a).
Lemma space_squeezed s : squeezed s (sub_text re_multiple_space (py " ") s).
Proof.
  unfold sub_text, re_sub. set (r := rx_re re_multiple_space). set (ms := re_finditer r s). destruct (finditer_ok r s) as (_ & Ch). fold ms in Ch. pose proof (mspans _ _ _ Ch) as Sp.
  exists (kept s 0 (map mspan ms)), (taken s (map mspan ms)). rewrite kept_length. unfold taken at 1. rewrite !map_length. split; auto.
  split; [symmetry; apply (weave_back s _ 0 Sp)|]. split; [rewrite sub_from_weave; f_equal; unfold taken; rewrite !map_map; reflexivity|].
  assert (forall o, In o ms -> exists a w b, s = a ++ w ++ b /\ m_start o = length a /\ m_end o = length a + length w /\ wide w) as Fd.
  { intros o I. apply finditer_in in I as (a & w & b & x' & E & F & M & S1 & S2). apply mt_rep_cls in M as (w' & F' & W & L & _). rewrite <- (fwd_fun _ _ _ _ F F') in *. exists a, w, b. split; auto. split; auto. split; auto. split; auto. now apply blanks_iff. }
  split; [|split].
  - unfold taken. rewrite map_map. apply Forall_forall. intros w I. apply in_map_iff in I as (o & <- & I). cbn [mspan fst snd]. destruct (Fd o I) as (a & w & b & E & S1 & S2 & W). erewrite slice_found; eauto.
  - apply kept_next. intros o k t I E. apply finditer_run in I as (x & A & R); [|vm_compute; lia]. unfold run in R. destruct (m _ x [] _) as [[z g]|] eqn:Q; [|discriminate]. injection R as <-. cbn [m_end] in E. cbn [andb] in Q.
    change (m r x [] (fun y h => if false then None else Some (y, h))) with (m r x [] (fun y h => Some (y, h))) in Q.
    pose proof Q as Q0. apply m_sound in Q0 as (z' & h' & M & E0). injection E0 as -> <-.
    change (rep_loop true 2 None (Cls (mkcls false false [CSpace true])) (fun y h => Some (y, h)) (S (2 + length (suf x))) 0 x [] = Some (z, h')) in Q.
    apply rep_greedy_some in Q as (x' & E0 & St); [|discriminate|lia]. injection E0 as -> _.
    apply mt_rep_cls in M as (w & F & _). destruct (at_is_here _ _ A) as (a & b & -> & -> & _). apply fwd_here_iff in F as (r' & -> & ->). cbn [here pos suf] in *.
    rewrite app_length, app_assoc, skipn_app, <- app_length, skipn_all, Nat.sub_diag in E. cbn [app skipn] in E. subst r'. unfold stops in St. destruct k as [|c k]; auto. cbn [app] in St.
    unfold cls_mem in St. cbn [c_neg c_ci c_items existsb item_mem here suf] in St. now destruct (is_space c).
  - intros a w b E Q. assert (mt r (here a (w ++ b)) [] (here (a ++ w) b) []) as M. { apply mt_rep_cls. exists w. split; [apply fwd_here|]. destruct Q as (W & L). split; [now apply blanks_iff|]. cbn. auto. }
    destruct (finditer_complete r s a _ _ _ eq_refl E M) as (o & I & C). replace (length a) with (length a - 0) by lia.
    apply (replaced_in _ _ (m_start o) (m_end o) (length a) 0 Sp); [apply in_map_iff; exists o; split; [reflexivity|exact I]|]. destruct (Fd o I) as (a' & w' & b' & _ & S1 & S2 & _ & L2). unfold covers in C. lia.
Qed.

(** ** A comma inside closing quotes *)
Lemma fwd_split x u v z : fwd x (u ++ v) z -> exists y, fwd x u y /\ fwd y v z.
Proof.
  intros (F1 & F2 & F3). exists (after x u). split; [apply (fwd_after x u (v ++ suf z)); now rewrite F1, <- app_assoc|]. unfold fwd, after. cbn [suf pre pos]. rewrite F1, F2, F3, <- app_assoc, skipn_app, skipn_all, Nat.sub_diag, app_length, rev_app_distr.
  cbn [app skipn]. split; auto. split; [now rewrite <- app_assoc|lia].
Qed.
Definition no_quote (x : str) : Prop := x <> [] /\ ~ In 34%N x.
Definition comma_inside (w : str) : Prop := exists x, no_quote x /\ w = [34%N] ++ x ++ [44%N; 34%N].
Definition comma_outside (w v : str) : Prop := exists x, no_quote x /\ w = [34%N] ++ x ++ [44%N; 34%N] /\ v = [34%N] ++ x ++ [34%N; 44%N].
Definition nq : cls := mkcls true false [CRange 34 34].
Lemma nq_all x : forallb (cls_mem nq) x = true <-> ~ In 34%N x.
Proof.
  induction x as [|c x IH]; cbn [forallb In]; [tauto|]. rewrite andb_true_iff, IH. assert (cls_mem nq c = true <-> c <> 34%N) as ->; [|tauto].
  unfold cls_mem, nq. cbn [c_neg c_ci c_items existsb item_mem]. rewrite orb_false_r. unfold in_range. destruct (N.leb_spec 34 c), (N.leb_spec c 34); cbn; split; intros; try discriminate; try congruence; lia.
Qed.
Definition comma_parts : list re := [Cls (lit_cls 34); Grp 1 (Rep true 1 None (Cls nq)); Cls (lit_cls 44); Cls (lit_cls 34)].
Lemma comma_factors : factors (rx_re re_title_comma) = comma_parts. Proof. reflexivity. Qed.
Lemma comma_mt x x' g' : mt (rx_re re_title_comma) x [] x' g' <-> exists t, no_quote t /\ fwd x ([34%N] ++ t ++ [44%N; 34%N]) x' /\ g' = [(1, (pos x + 1, pos x + 1 + length t))].
Proof.
  rewrite mt_factors, comma_factors. unfold comma_parts. split.
  - intros M. inversion M as [|? ? ? ? x1 h1 ? ? M1 N1]; subst. apply mt_cls_fwd in M1 as (d & F1 & D & ->). apply lit_cls_mem in D as ->.
    inversion N1 as [|? ? ? ? x2 h2 ? ? M1 N2]; subst. apply mt_grp_iff in M1 as (h' & M1 & ->). apply mt_rep_cls in M1 as (t & F2 & T & L & _ & ->).
    inversion N2 as [|? ? ? ? x3 h3 ? ? M1 N3]; subst. apply mt_cls_fwd in M1 as (d & F3 & D & ->). apply lit_cls_mem in D as ->.
    apply mts_one, mt_cls_fwd in N3 as (d & F4 & D & ->). apply lit_cls_mem in D as ->.
    exists t. split; [split; [destruct t; cbn in L; [lia|discriminate]|now apply nq_all]|]. split; [|].
    + eapply fwd_app; [exact F1|]. eapply fwd_app; [exact F2|]. exact (fwd_app _ _ _ _ _ F3 F4).
    + destruct F1 as (_ & _ & F1), F2 as (_ & _ & F2). cbn in F1. now rewrite F2, F1.
  - intros (t & (Nt & Q) & F & ->). change [44%N; 34%N] with ([44%N] ++ [34%N]) in F. apply fwd_split in F as (x1 & F1 & F). apply fwd_split in F as (x2 & F2 & F). apply fwd_split in F as (x3 & F3 & F4).
    econstructor; [apply mt_cls_fwd; exists 34%N; split; [exact F1|split; [now apply lit_cls_mem|reflexivity]]|].
    econstructor; [apply mt_grp_iff; exists []; split; [apply mt_rep_cls; exists t; split; [exact F2|split; [now apply nq_all|split; [destruct t; [congruence|cbn; lia]|cbn; auto]]]|reflexivity]|].
    econstructor; [apply mt_cls_fwd; exists 44%N; split; [exact F3|split; [now apply lit_cls_mem|reflexivity]]|]. 
    apply mts_one. apply mt_cls_fwd; exists 34%N; split; [exact F4|split; [now apply lit_cls_mem|]]. destruct F1 as (_ & _ & F1), F2 as (_ & _ & F2). cbn in F1. now rewrite F2, F1.
Qed.
Lemma comma_swapped s : swapped comma_inside comma_outside s (re_sub (rx_re re_title_comma) (fun o => [34%N] ++ g_str s o 1 ++ [34%N; 44%N]) s).
Proof.
  apply sub_swapped; try reflexivity; [cbn; lia| | |].
  - intros x x' g' M. apply comma_mt in M as (t & Q & F & _). eexists. split; [exact F|]. exists t. auto.
  - intros x w x' F (t & Q & ->). eexists. apply comma_mt. exists t. split; auto.
  - intros o I. pose proof (finditer_in _ _ _ I) as (a & w & b & x' & E & F & M & S1 & S2). apply comma_mt in M as (t & Q & F' & G). pose proof (fwd_fun _ _ _ _ F F') as ->.
    exists t. split; auto. split; [eapply slice_found; eauto|]. f_equal. f_equal. unfold g_str, g_text, g_span. rewrite G. cbn [Nat.eqb lookup_group here pos]. assert (s = (a ++ [34%N]) ++ t ++ [44%N; 34%N] ++ b) as E2 by (rewrite E, <- !app_assoc; reflexivity). rewrite E2. unfold slice.
    replace (length a + 1) with (length (a ++ [34%N])) by (rewrite app_length; reflexivity). rewrite skipn_app, skipn_all, Nat.sub_diag. cbn [skipn].
    replace (length (a ++ [34%N]) + length t - length (a ++ [34%N])) with (length t) by lia. change ([] ++ t ++ [44%N; 34%N] ++ b) with (t ++ [44%N; 34%N] ++ b). rewrite firstn_app, firstn_all, Nat.sub_diag. now rewrite firstn_O, app_nil_r.
Qed.
Lemma wash_reference_ok E line : exists moved, swapped comma_inside comma_outside (undesirable E (repair_broken_urls line)) moved
  /\ squeezed (undesirable E moved) (wash_and_repair_reference_line E line).
Proof. eexists. split; [apply comma_swapped|apply space_squeezed]. Qed.
