(** URLs and DOIs of a line: what is replaced by a tag and what is returned (tag.py 1328-1471). *)
From Coq Require Import List Arith NArith ZArith Bool String Lia Sorting.Sorted.
From Verif Require Import PyStr ListFacts Regex RegexParse Patterns RegexMeta RegexLang RegexWords Numeration DocText Tag TransformProofs WashProofs SpaceProofs StripProofs SpanProofs.
Import ListNotations.
Local Open Scope nat_scope.
Local Notation length := List.length.
Local Notation concat := List.concat.

(** ** A line as pieces kept and pieces replaced *)
Fixpoint weave (kept repl : list str) : str :=
  match kept, repl with
  | k :: ks, t :: ts => k ++ t ++ weave ks ts
  | k :: _, [] => k
  | [], _ => []
  end.
Definition swap (tag : str) (l : str) (e : nat * nat) : str := firstn (fst e) l ++ tag ++ skipn (snd e) l.
Fixpoint spans (p : nat) (es : list (nat * nat)) (q : nat) : Prop :=
  match es with [] => p <= q | (a, b) :: t => p <= a /\ a <= b /\ spans b t q end.
Fixpoint kept (s : str) (p : nat) (es : list (nat * nat)) : list str :=
  match es with [] => [skipn p s] | (a, b) :: t => slice p a s :: kept s b t end.
Definition taken (s : str) (es : list (nat * nat)) : list str := map (fun e => slice (fst e) (snd e) s) es.
Lemma spans_le es : forall p q, spans p es q -> p <= q.
Proof. induction es as [|(a, b) t IH]; cbn; intros p q H; auto. destruct H as (A & B & C). apply IH in C. lia. Qed.
Lemma kept_length s es : forall p, length (kept s p es) = S (length es).
Proof. induction es as [|(a, b) t IH]; intros p; cbn; auto. Qed.
Lemma slice_join (s : str) p a : p <= a -> firstn p s ++ slice p a s = firstn a s.
Proof.
  intros H. unfold slice. rewrite <- (firstn_skipn p (firstn a s)). rewrite firstn_firstn. replace (Nat.min p a) with p by lia. f_equal. now rewrite skipn_firstn_comm.
Qed.
Lemma weave_back s es : forall p, spans p es (length s) -> firstn p s ++ weave (kept s p es) (taken s es) = s.
Proof.
  induction es as [|(a, b) t IH]; intros p H; cbn [kept taken map weave fst snd]; [apply firstn_skipn|].
  destruct H as (A & B & C). rewrite !app_assoc, slice_join, slice_join by auto. now apply IH.
Qed.
Lemma swap_all tag s es : forall p, spans p es (length s) ->
  fold_left (swap tag) (rev es) s = firstn p s ++ weave (kept s p es) (repeat tag (length es)).
Proof.
  induction es as [|(a, b) t IH]; intros p H; cbn [rev fold_left kept weave length repeat]; [now rewrite firstn_skipn|].
  destruct H as (A & B & C). rewrite fold_left_app. cbn [fold_left]. rewrite (IH b C). pose proof (spans_le _ _ _ C) as L.
  unfold swap. cbn [fst snd]. assert (length (firstn b s) = b) as Lb by (rewrite firstn_length; lia).
  rewrite firstn_app, Lb. replace (a - b) with 0 by lia. rewrite firstn_O, app_nil_r, firstn_firstn. replace (Nat.min a b) with a by lia.
  rewrite skipn_app, Lb, Nat.sub_diag. cbn [skipn]. rewrite (skipn_all2 (firstn b s)) by lia. cbn [app].
  rewrite <- (slice_join s p a) by auto. now rewrite <- app_assoc.
Qed.

(** place [p] of the woven line lies in a replaced piece *)
Fixpoint replaced_at (kept repl : list str) (p : nat) : Prop :=
  match kept, repl with
  | k :: ks, t :: ts => (length k <= p /\ p < length k + length t) \/ (length k + length t <= p /\ replaced_at ks ts (p - (length k + length t)))
  | _, _ => False
  end.
Lemma replaced_in s es a b q : forall p, spans p es (length s) -> In (a, b) es -> a <= q < b -> replaced_at (kept s p es) (taken s es) (q - p).
Proof.
  induction es as [|(u, v) t IH]; intros p H I Q; [destruct I|]. destruct H as (A & B & C). cbn [kept taken map replaced_at fst snd].
  pose proof (spans_le _ _ _ C) as L. rewrite !slice_length by lia. destruct I as [I|I].
  - injection I as -> ->. left. lia.
  - assert (v <= q) as V.
    { clear - C I Q. revert v C. induction t as [|(i, j) t IH]; intros v C; [destruct I|]. destruct C as (C1 & C2 & C3). destruct I as [I|I]; [injection I as -> ->; lia|]. specialize (IH I _ C3). lia. }
    right. split; [lia|]. replace (q - p - (u - p + (v - u))) with (q - v) by lia. now apply IH.
Qed.

(** ** Small classes *)
Definition ci_cls (c : N) : cls := mkcls false true [CRange c c].
Definition candidates : list N := map N.of_nat (seq 0 128) ++ [304; 305; 383; 8490]%N.
Definition members (c : cls) : list N := filter (cls_mem c) candidates.
Definition small (c : cls) : bool :=
  negb (c_neg c) && c_ci c && forallb (fun i => match i with CRange _ hi => (hi <? 128)%N | _ => false end) (c_items c).
Lemma small_members c d : small c = true -> cls_mem c d = true -> In d (members c).
Proof.
  intros S M. unfold members. apply filter_In. split; auto. unfold candidates. apply in_or_app.
  destruct (N.ltb_spec d 128) as [L|L]; [left; apply in_map_iff; exists (N.to_nat d); split; [apply N2Nat.id|apply in_seq; lia]|].
  right. destruct (special_fold d) eqn:F.
  { unfold special_fold in F. rewrite !orb_true_iff, !N.eqb_eq in F. destruct F as [[[->| ->]| ->]| ->]; cbn; auto. }
  exfalso. unfold small in S. apply andb_true_iff in S as [S S2]. apply andb_true_iff in S as [S0 S1].
  unfold cls_mem in M. rewrite S1 in M. destruct (c_neg c); [discriminate|]. rewrite xorb_false_l in M. apply existsb_exists in M as (i & I & M).
  rewrite forallb_forall in S2. specialize (S2 _ I). destruct i as [lo hi| | |]; try discriminate. cbn [item_mem] in M. apply N.ltb_lt in S2.
  apply existsb_exists in M as (v & V & R). pose proof (case_variants_high d L F) as Q. rewrite Forall_forall in Q. specialize (Q _ V).
  unfold in_range in R. apply andb_true_iff in R as [_ R]. apply N.leb_le in R. lia.
Qed.
(** [c], or the capital letter of [c] *)
Definition same_letter (c d : N) : Prop := d = c \/ (97 <= c <= 122)%N /\ d = (c - 32)%N.
Definition simple (c : N) : bool := (c <? 128)%N && negb (in_range 65 90 c) && negb (mem_ch c (py "iks")).
Definition simple_check (c : N) : bool := negb (simple c) || forallb (fun d => N.eqb d c || (in_range 97 122 c && N.eqb d (c - 32)))%N (members (ci_cls c))
    && cls_mem (ci_cls c) c && (negb (in_range 97 122 c) || cls_mem (ci_cls c) (c - 32))%N.
Lemma simple_checked : forallb simple_check (map N.of_nat (seq 0 128)) = true. Proof. vm_cast_no_check (eq_refl true). Qed.
Lemma simple_small c : (c < 128)%N -> small (ci_cls c) = true.
Proof. intros H. unfold small, ci_cls. cbn [c_neg c_ci c_items negb andb forallb]. rewrite andb_true_r. now apply N.ltb_lt. Qed.
Lemma simple_facts c : simple c = true -> (c < 128)%N /\ simple_check c = true.
Proof.
  intros S. assert (c < 128)%N as L.
  { unfold simple in S. apply andb_true_iff in S as [S _]. apply andb_true_iff in S as [S _]. now apply N.ltb_lt. }
  split; auto. pose proof simple_checked as Q. rewrite forallb_forall in Q. apply Q. apply in_map_iff.
  exists (N.to_nat c). split; [apply N2Nat.id|apply in_seq; lia].
Qed.
Lemma simple_letter c d : simple c = true -> cls_mem (ci_cls c) d = true <-> same_letter c d.
Proof.
  intros S. destruct (simple_facts c S) as (L & Q). unfold simple_check in Q.
  apply orb_true_iff in Q as [Q|Q]; [rewrite S in Q; discriminate|].
  apply andb_true_iff in Q as [Q Q3]. apply andb_true_iff in Q as [Q1 Q2]. rewrite forallb_forall in Q1. split.
  - intros M. apply small_members in M; [|now apply simple_small]. apply Q1 in M.
    apply orb_true_iff in M as [M|M]; [left; now apply N.eqb_eq|right]. apply andb_true_iff in M as [M1 M2]. apply N.eqb_eq in M2. split; auto.
    unfold in_range in M1. apply andb_true_iff in M1 as [M1 M3]. apply N.leb_le in M1, M3. lia.
  - intros [->|(H & ->)]; auto. apply orb_true_iff in Q3 as [Q3|Q3]; auto. exfalso.
    unfold in_range in Q3. apply negb_true_iff in Q3. apply andb_false_iff in Q3 as [Q3|Q3]; apply N.leb_gt in Q3; lia.
Qed.
Definition same_letters : str -> str -> Prop := Forall2 same_letter.
Lemma mts_same t : forall x g x' g', forallb simple t = true -> mts (map (fun c => Cls (ci_cls c)) t) x g x' g' <-> exists w, fwd x w x' /\ same_letters t w /\ g' = g.
Proof.
  induction t as [|c t IH]; intros x g x' g' S; cbn [map].
  - split.
    + intros H. inversion H; subst. exists []. split; [apply fwd_refl|]. split; auto. constructor.
    + intros (w & F & W & ->). inversion W; subst. apply fwd_nil in F as ->. constructor.
  - cbn in S. apply andb_true_iff in S as [S1 S2]. split.
    + intros H. inversion H as [|? ? ? ? y h ? ? A B]; subst. apply mt_cls_fwd in A as (d & F & M & ->). apply simple_letter in M; auto.
      apply IH in B as (w & F2 & W & ->); auto. exists (d :: w). split; [change (d :: w) with ([d] ++ w); eapply fwd_app; eauto|]. split; auto. now constructor.
    + intros (w & F & W & ->). inversion W as [|? d ? v D V]; subst. destruct x as [p pr su]. destruct F as (F1 & F2 & F3). cbn in F1, F2, F3.
      econstructor; [apply mt_cls_fwd; exists d; split; [|split; [now apply simple_letter|reflexivity]]; apply (fwd_after (mkst p pr su) [d] (v ++ suf x')); cbn; auto|].
      apply IH; auto. exists v. split; [|split; auto]. unfold fwd, after. cbn. subst su. cbn. rewrite F2, <- app_assoc. repeat split; auto. lia.
Qed.

(** ** DOIs *)
Definition doi_lead : re := Eval vm_compute in match rx_re re_doi with Cat a _ => a | _ => Eps end.
Definition doi_body : re := Eval vm_compute in match rx_re re_doi with Cat _ (Grp _ b) => b | _ => Eps end.
Lemma doi_shape : rx_re re_doi = Cat doi_lead (Grp 7 doi_body). Proof. reflexivity. Qed.
Definition doi_rest : list re := skipn 3 (factors doi_body).
Lemma doi_factors : factors doi_body = map (fun c => Cls (ci_cls c)) (py "10.") ++ doi_rest. Proof. reflexivity. Qed.
(** the DOI in the text of a match: from its first "1" on; it begins with "10." *)
Definition doi_text (E : env) (t d : str) : Prop := exists lead body rest, t = lead ++ body /\ ~ In 49%N lead /\ body = py "10." ++ rest /\ 6 <= length rest
  /\ d = if contains (py "%2f") (lower body) then unquote E body else body.
Lemma same_none t w : forallb (fun c => negb (in_range 97 122 c)) t = true -> same_letters t w -> w = t.
Proof.
  intros H S. revert H. induction S as [|c d t w D S IH]; intros H; auto. cbn in H. apply andb_true_iff in H as [H1 H2]. rewrite IH by auto. f_equal.
  destruct D as [->|(R & _)]; auto. exfalso. unfold in_range in H1. apply negb_true_iff in H1. apply andb_false_iff in H1 as [H1|H1]; apply N.leb_gt in H1; lia.
Qed.
Lemma doi_match E line o : In o (re_finditer (rx_re re_doi) line) -> doi_text E (slice (m_start o) (m_end o) line) (doi_of E line o).
Proof.
  intros I. apply finditer_in in I as (a & w & b & x' & -> & F & M & S & T).
  rewrite doi_shape in M. apply mt_cat_iff in M as (y & h & M1 & M2). apply mt_grp_iff in M2 as (h' & M2 & G).
  destruct (avoids_text 49 _ _ _ _ _ M1 ltac:(vm_compute; reflexivity)) as (u & U & N1).
  pose proof (mt_minlen (a ++ w ++ b) _ _ _ _ _ M2 (proj1 (mt_at (a ++ w ++ b) _ _ _ _ _ M1 (at_here a (w ++ b))))) as L.
  apply mt_factors in M2. rewrite doi_factors in M2. apply mts_app in M2 as (z & k & M2 & M3).
  apply mts_same in M2 as (v & V & Sv & ->); [|reflexivity]. apply same_none in Sv; [|reflexivity]. subst v.
  destruct (mt_fwd _ _ _ _ _ (proj2 (mt_factors (fold_right Cat Eps doi_rest) _ _ _ _) M3)) as (r & R).
  pose proof (fwd_app _ _ _ _ _ V R) as B. pose proof (fwd_app _ _ _ _ _ U B) as W. pose proof (fwd_fun _ _ _ _ F W) as ->.
  assert (slice (m_start o) (m_end o) (a ++ (u ++ py "10." ++ r) ++ b) = u ++ py "10." ++ r) as -> by (rewrite S, T; apply slice_mid).
  assert (tgrp re_doi (a ++ (u ++ py "10." ++ r) ++ b) o "doi" = py "10." ++ r) as D.
  { unfold tgrp. change (assoc_str (py "doi") (rx_names re_doi)) with (Some 7). cbn [g_str]. unfold g_str, g_text, g_span. cbn [Nat.eqb]. rewrite G. cbn [lookup_group Nat.eqb].
    destruct U as (_ & _ & U). destruct B as (_ & _ & B). cbn [here pos] in U. rewrite B, U. rewrite <- app_length.
    rewrite <- (app_assoc u), (app_assoc a u). apply slice_mid. }
  exists u, (py "10." ++ r), r. split; auto. split; auto. split; auto. split; [|unfold doi_of; now rewrite D].
  destruct B as (_ & _ & B). assert (minlen doi_body = 9) as E9 by (vm_compute; reflexivity). rewrite E9, B, app_length in L. cbn [py length] in L. change (length (py "10.")) with 3 in L. lia.
Qed.
(** characters inside a DOI and at its end *)
Definition doi_char (c : N) : bool := is_word c || mem_ch c (py "-_:;()/.<>").
Definition doi_end (c : N) : bool := is_word c || mem_ch c (py "-_:;()/<>").
Definition doi_cls1 : cls := Eval vm_compute in match nth 3 doi_rest Eps with Rep _ _ _ (Cls c) => c | _ => mkcls false false [] end.
Definition doi_cls2 : cls := Eval vm_compute in match nth 4 doi_rest Eps with Cls c => c | _ => mkcls false false [] end.
Lemma mem_ch_inv c s : mem_ch c s = true -> In c s.
Proof. unfold mem_ch. intros H. apply existsb_exists in H as (d & I & E). apply N.eqb_eq in E. now subst. Qed.
Lemma doi_cls1_mem c : doi_char c = true -> cls_mem doi_cls1 c = true.
Proof.
  unfold doi_char. intros H. apply orb_true_iff in H as [H|H].
  - unfold cls_mem, doi_cls1. cbn [c_neg c_ci c_items existsb item_mem]. now rewrite H.
  - apply mem_ch_inv in H. repeat (destruct H as [<-|H]; [vm_compute; reflexivity|]). destruct H.
Qed.
Lemma doi_cls2_mem c : doi_end c = true -> cls_mem doi_cls2 c = true.
Proof.
  unfold doi_end. intros H. apply orb_true_iff in H as [H|H].
  - unfold cls_mem, doi_cls2. cbn [c_neg c_ci c_items existsb item_mem]. now rewrite H.
  - apply mem_ch_inv in H. repeat (destruct H as [<-|H]; [vm_compute; reflexivity|]). destruct H.
Qed.
Lemma productive_doi : productive (rx_re re_doi) = true. Proof. vm_compute. reflexivity. Qed.
Lemma doi_here a ds c d b : 3 <= length ds <= 7 -> forallb is_digit ds = true -> doi_char c = true -> doi_end d = true ->
  exists x' g', mt (rx_re re_doi) (here a (py "10." ++ ds ++ 47%N :: c :: d :: b)) [] x' g'.
Proof.
  intros L D C1 C2. set (x := here a _). exists (here (((a ++ py "10.") ++ ds) ++ [47%N; c; d]) b).
  eexists. rewrite doi_shape. apply mt_cat_iff. exists x, []. split; [apply mt_stop|]. apply mt_grp_iff. eexists. split; [|reflexivity].
  apply mt_factors. rewrite doi_factors. apply mts_app. exists (here (a ++ py "10.") (ds ++ 47%N :: c :: d :: b)), []. split.
  { apply mts_same; [reflexivity|]. exists (py "10."). split; [apply fwd_here|]. split; auto. repeat constructor. }
  econstructor.
  { apply (mt_rep_cls true digit_cls 3 (Some 7)). exists ds. split; [apply fwd_here|]. rewrite digit_cls_all. cbn [le_max]. repeat split; auto; lia. }
  econstructor; [apply mt_stop|]. econstructor.
  { apply mt_grp_iff. eexists. split; [|reflexivity]. apply mt_altl. apply mt_cls_fwd. exists 47%N. split; [apply (fwd_here _ [47%N])|]. split; [vm_compute; reflexivity|reflexivity]. }
  econstructor.
  { apply (mt_rep_cls true doi_cls1 1 None). exists [c]. split; [apply (fwd_here _ [c])|]. cbn [forallb le_max length]. rewrite (doi_cls1_mem c C1). repeat split; auto. }
  econstructor; [|constructor]. apply (proj2 (mt_cls_fwd doi_cls2 _ _ _ _)). exists d. split; [|split; [now apply doi_cls2_mem|reflexivity]].
  replace (((a ++ py "10.") ++ ds) ++ [47%N; c; d]) with (((((a ++ py "10.") ++ ds) ++ [47%N]) ++ [c]) ++ [d]) by (now rewrite <- !app_assoc).
  apply (fwd_here _ [d]).
Qed.
Definition mspan (o : mobj) : nat * nat := (m_start o, m_end o).
Lemma mspans ms : forall p q, chain p ms q -> spans p (map mspan ms) q.
Proof. induction ms as [|o t IH]; cbn [chain map spans mspan]; intros p q H; auto. unfold mspan. destruct H as (A & B & C). auto. Qed.
Lemma fold_swap tag (f : str -> mobj -> str) ms : (forall l o, f l o = swap tag l (mspan o)) -> forall s, fold_left f ms s = fold_left (swap tag) (map mspan ms) s.
Proof. intros H. induction ms as [|o t IH]; intros s; cbn [fold_left map]; auto. now rewrite H, IH. Qed.
Lemma doi_spec E line : exists kept found,
  length kept = S (length found) /\ line = weave kept found
  /\ fst (identify_and_tag_DOI E line) = weave kept (repeat doi_tag (length found))
  /\ Forall2 (doi_text E) found (snd (identify_and_tag_DOI E line))
  /\ (forall a ds c d b, line = a ++ py "10." ++ ds ++ 47%N :: c :: d :: b -> 3 <= length ds <= 7 -> forallb is_digit ds = true ->
        doi_char c = true -> doi_end d = true -> replaced_at kept found (length a)).
Proof.
  unfold identify_and_tag_DOI. cbv zeta. cbn [fst snd]. set (ms := re_finditer (rx_re re_doi) line).
  destruct (finditer_ok (rx_re re_doi) line) as (_ & Ch). fold ms in Ch. pose proof (mspans _ _ _ Ch) as Sp.
  exists (kept line 0 (map mspan ms)), (taken line (map mspan ms)). unfold taken at 1 3. rewrite kept_length, !map_length. split; auto.
  split; [symmetry; apply (weave_back line _ 0 Sp)|]. split.
  { rewrite (fold_swap doi_tag insert_doi) by reflexivity. rewrite map_rev. rewrite (swap_all doi_tag line _ 0 Sp), map_length. reflexivity. }
  split.
  { unfold taken. rewrite map_map. assert (forall o, In o ms -> doi_text E (slice (m_start o) (m_end o) line) (doi_of E line o)) as H by (intros o; apply doi_match).
    clear - H. induction ms as [|o t IH]; cbn [map]; constructor; [apply H; now left|apply IH; intros; apply H; now right]. }
  intros a ds c d b -> L D C1 C2. destruct (doi_here a ds c d b L D C1 C2) as (x' & g' & M).
  destruct (finditer_complete (rx_re re_doi) _ a _ x' g' productive_doi eq_refl M) as (o & I & Q).
  replace (length a) with (length a - 0) by lia. apply (replaced_in _ _ (m_start o) (m_end o) (length a) 0 Sp); [apply in_map_iff; exists o; split; [reflexivity|exact I]|].
  pose proof (finditer_in _ _ _ I) as (a' & w & b' & y & E1 & F & M2 & S1 & S2). assert (m_start o < m_end o) as Lt; [|unfold covers in Q; lia].
  pose proof (mt_minlen (a' ++ w ++ b') _ _ _ _ _ M2 (at_here _ _)) as ML. destruct F as (_ & _ & F). rewrite F in ML. assert (minlen (rx_re re_doi) = 9) as E9 by (vm_compute; reflexivity).
  rewrite E9 in ML. lia.
Qed.

(** ** URLs *)
Definition quote_cls : cls := mkcls false true [CRange 39 39; CRange 34 34].
Definition is_quote (c : N) : Prop := c = 39%N \/ c = 34%N.
Lemma quote_mem c : cls_mem quote_cls c = true -> is_quote c.
Proof. intros H. apply small_members in H; [|reflexivity]. vm_compute in H. unfold is_quote. intuition. Qed.
Definition scheme : re := Eval vm_compute in match rx_re re_raw_url with Cat _ (Cat (Grp _ (Cat (Grp _ a) _)) _) => a | _ => Eps end.
Definition url_rest : re := Eval vm_compute in match rx_re re_raw_url with Cat _ (Cat (Grp _ (Cat _ a)) _) => a | _ => Eps end.
Definition opt_quote : re := Rep true 0 (Some 1) (Cls quote_cls).
Definition url_re : re := Cat (Grp 2 scheme) url_rest.
Lemma raw_shape : rx_re re_raw_url = Cat opt_quote (Cat (Grp 1 url_re) opt_quote). Proof. reflexivity. Qed.
Lemma opt_quote_mt x g x' g' : mt opt_quote x g x' g' -> exists q, fwd x q x' /\ g' = g /\ (q = [] \/ exists c, q = [c] /\ is_quote c).
Proof.
  intros H. apply mt_opt_inv in H as [(-> & ->)|H]; [exists []; split; [apply fwd_refl|auto]|].
  apply mt_cls_fwd in H as (d & F & M & ->). exists [d]. split; auto. split; auto. right. exists d. split; auto. now apply quote_mem.
Qed.
(** the address in the text of a bare URL *)
Definition no_dot (u v : str) : Prop := (v = u /\ (forall t, u <> t ++ [46%N] /\ u <> t ++ [44%N])) \/ u = v ++ [46%N] \/ u = v ++ [44%N].
Definition optional_quote (q : str) : Prop := q = [] \/ exists c, q = [c] /\ is_quote c.
Definition address (u : str) : Prop := exists sch rest, u = sch ++ py "://" ++ rest /\ sch <> [] /\ rest <> [].
Definition raw_text (t : str) (r : str * str) : Prop := exists q u q', t = q ++ u ++ q' /\ optional_quote q /\ optional_quote q' /\ address u /\ no_dot u (fst r) /\ snd r = fst r.
Definition url_tail : list re := skipn 3 (factors url_rest).
Lemma url_factors : factors url_rest = map (fun c => Cls (ci_cls c)) (py "://") ++ url_tail. Proof. reflexivity. Qed.
Lemma mts_fwd l : forall x g x' g', mts l x g x' g' -> exists w, fwd x w x'.
Proof.
  induction l as [|r l IH]; intros x g x' g' H; inversion H as [|? ? ? ? y h ? ? A B]; subst; [exists []; apply fwd_refl|].
  destruct (mt_fwd _ _ _ _ _ A) as (u & U), (IH _ _ _ _ B) as (v & V). exists (u ++ v). eapply fwd_app; eauto.
Qed.
Lemma url_mt s x g x' g' : at_ s x -> mt url_re x g x' g' -> exists c u, fwd x (c :: u) x' /\ address (c :: u) /\ c <> 95%N.
Proof.
  intros A M. apply mt_cat_iff in M as (y & h & M1 & M2). apply mt_grp_iff in M1 as (h1 & M1 & ->).
  pose proof (mt_minlen s _ _ _ _ _ M1 A) as L. change (minlen scheme) with 3 in L.
  destruct (avoids_text 95 _ _ _ _ _ M1 ltac:(vm_compute; reflexivity)) as (u & U & N). pose proof U as (_ & _ & Lu).
  apply mt_factors in M2. rewrite url_factors in M2. apply mts_app in M2 as (z & k & M2 & M3).
  apply mts_same in M2 as (v & V & Sv & ->); [|reflexivity]. apply same_none in Sv; [|reflexivity]. subst v.
  unfold url_tail in M3. cbn [skipn factors url_rest app] in M3. inversion M3 as [|? ? ? ? z1 k1 ? ? B1 B2]; subst.
  apply mt_rep_cls in B1 as (w & W & _ & W1 & _). destruct (mts_fwd _ _ _ _ _ B2) as (r & R).
  destruct u as [|c u]; [cbn in Lu; lia|]. pose proof (fwd_app _ _ _ _ _ U (fwd_app _ _ _ _ _ V (fwd_app _ _ _ _ _ W R))) as F.
  exists c, (u ++ py "://" ++ w ++ r). split; [exact F|]. split.
  - exists (c :: u), (w ++ r). split; [reflexivity|]. split; [discriminate|]. destruct w; [cbn in W1; lia|discriminate].
  - intros ->. apply N. now left.
Qed.
Lemma trim_no_dot u : no_dot u (trim_url u).
Proof.
  unfold trim_url, no_dot. destruct (rev u) as [|c t] eqn:R.
  - left. split; auto. intros t. split; intros ->; rewrite rev_app_distr in R; discriminate.
  - assert (u = rev t ++ [c]) as -> by (rewrite <- (rev_involutive u), R; reflexivity).
    destruct (N.eqb_spec c 46) as [->|D1]; [right; left; reflexivity|]. destruct (N.eqb_spec c 44) as [->|D2]; [right; right; reflexivity|]. cbn [orb].
    left. split; auto. intros v. split; intros E; apply app_inj_tail in E as [_ E]; congruence.
Qed.
(** characters that end a bare URL *)
Definition stopper (c : N) : bool := is_space c || mem_ch c (py "([{,;!").
Definition spaces_list : list N := Eval vm_compute in filter is_space (map N.of_nat (seq 0 256)) ++ [5760; 8192; 8193; 8194; 8195; 8196; 8197; 8198; 8199; 8200; 8201; 8202; 8232; 8233; 8239; 8287; 12288]%N.
Lemma in_ranges_inv c rs : in_ranges c rs = true -> exists lo hi, In (lo, hi) rs /\ (lo <= c <= hi)%N.
Proof.
  induction rs as [|(lo, hi) t IH]; cbn [in_ranges]; intros H; [discriminate|]. destruct (N.ltb_spec c lo) as [L|L]; [discriminate|].
  destruct (N.leb_spec c hi) as [G|G]; [exists lo, hi; split; [now left|lia]|]. destruct (IH H) as (a & b & I & R). exists a, b. split; auto. now right.
Qed.
Lemma is_space_list c : is_space c = true -> In c spaces_list.
Proof.
  unfold is_space. intros H. apply in_ranges_inv in H as (lo & hi & I & R1 & R2).
  assert (forall k, (lo + N.of_nat k = c)%N -> k <= N.to_nat (hi - lo) -> In c (map (fun k => (lo + N.of_nat k)%N) (seq 0 (S (N.to_nat (hi - lo)))))) as Q.
  { intros k K Lk. apply in_map_iff. exists k. split; auto. apply in_seq. lia. }
  specialize (Q (N.to_nat (c - lo)) ltac:(lia) ltac:(lia)).
  cbn [In] in I. repeat (destruct I as [I|I]; [injection I as <- <-; vm_compute in Q; unfold spaces_list; cbn [In]; intuition|]). destruct I.
Qed.
Lemma stop_url c x g x' g' : stopper c = true -> mt (rx_re re_raw_url) x g x' g' -> exists w, fwd x w x' /\ ~ In c w.
Proof.
  intros S M. apply (avoids_text c _ _ _ _ _ M). assert (In c (spaces_list ++ py "([{,;!")) as I.
  { apply in_or_app. unfold stopper in S. apply orb_true_iff in S as [S|S]; [left; now apply is_space_list|right; now apply mem_ch_inv]. }
  assert (forallb (fun c => avoids c (rx_re re_raw_url)) (spaces_list ++ py "([{,;!") = true) as Q by (vm_compute; reflexivity).
  rewrite forallb_forall in Q. auto.
Qed.
Definition raw_pair (l : str) (o : mobj) : str * str := let u := trim_url (tgrp re_raw_url l o "url") in (u, u).
Lemma raw_match l o : In o (re_finditer (rx_re re_raw_url) l) -> exists a c w b, l = a ++ (c :: w) ++ b /\ m_start o = length a /\ m_end o = length a + length (c :: w)
  /\ c <> 95%N /\ (forall d, stopper d = true -> ~ In d (c :: w)) /\ raw_text (c :: w) (raw_pair l o).
Proof.
  intros I. apply finditer_in in I as (a & w & b & x' & -> & F & M & S & T). pose proof M as M0.
  rewrite raw_shape in M. apply mt_cat_iff in M as (y & h & M1 & M). apply mt_cat_iff in M as (z & k & M2 & M3).
  pose proof (proj1 (mt_at (a ++ w ++ b) _ _ _ _ _ M1 (at_here a (w ++ b)))) as Ay.
  apply opt_quote_mt in M1 as (q & Q & -> & Oq). apply opt_quote_mt in M3 as (q' & Q' & Gk & Oq').
  apply mt_grp_iff in M2 as (h2 & M2 & ->). apply (url_mt _ _ _ _ _ Ay) in M2 as (c & u & U & Ad & N).
  pose proof (fwd_app _ _ _ _ _ Q (fwd_app _ _ _ _ _ U Q')) as W. pose proof (fwd_fun _ _ _ _ F W) as E.
  assert (tgrp re_raw_url (a ++ w ++ b) o "url" = c :: u) as D.
  { unfold tgrp. change (assoc_str (py "url") (rx_names re_raw_url)) with (Some 1). unfold g_str, g_text, g_span. cbn [Nat.eqb]. rewrite Gk. cbn [lookup_group Nat.eqb].
    destruct Q as (_ & _ & Q). destruct U as (_ & _ & U). cbn [here pos] in Q. rewrite U, Q, <- app_length, E.
    rewrite <- (app_assoc q), (app_assoc a q), <- (app_assoc (c :: u)). apply slice_mid. }
  assert (exists d v, w = d :: v /\ d <> 95%N) as (d & v & Ew & Nd).
  { destruct Oq as [->|(d & -> & D1)]; [exists c, (u ++ q'); auto|]. exists d, ((c :: u) ++ q'). split; auto. destruct D1; subst; discriminate. }
  exists a, d, v, b. rewrite <- Ew. split; auto. split; auto. split; auto. split; auto. split.
  - intros e Se. destruct (stop_url e _ _ _ _ Se M0) as (w' & F' & N'). now rewrite (fwd_fun _ _ _ _ F F').
  - exists q, (c :: u), q'. unfold raw_pair. rewrite D. split; [exact E|]. repeat (split; auto). apply trim_no_dot.
Qed.
(** the text of a link *)
Definition blanks (s : str) : Prop := forallb is_space s = true.
Definition link_text (t : str) (r : str * str) : Prop := exists o s1 h s2 s3 q q' s4 e,
  t = o ++ s1 ++ h ++ s2 ++ py "=" ++ s3 ++ [q] ++ fst r ++ [q'] ++ s4 ++ py ">" ++ snd r ++ e
  /\ same_letters (py "<a") o /\ s1 <> [] /\ blanks s1 /\ same_letters (py "href") h /\ blanks s2 /\ blanks s3 /\ is_quote q /\ address (fst r)
  /\ is_quote q' /\ blanks s4 /\ snd r <> [] /\ ~ In 60%N (snd r) /\ same_letters (py "</a>") e.

Definition space_cls : cls := mkcls false false [CSpace true].
Lemma space_cls_all w : forallb (cls_mem space_cls) w = forallb is_space w.
Proof. apply forallb_ext'. intros c. unfold cls_mem, space_cls. cbn [c_neg c_ci c_items existsb item_mem]. rewrite orb_false_r, xorb_false_l. now destruct (is_space c). Qed.
Definition desc_cls : cls := mkcls true true [CRange 60 60].
Definition ci_lits (t : str) : list re := map (fun c => Cls (ci_cls c)) t.
Definition gaps_re (n : nat) : re := Rep true n None (Cls space_cls).
Lemma link_factors : factors (rx_re re_html_tagged_url) = ci_lits (py "<a") ++ [gaps_re 1] ++ ci_lits (py "href") ++ [gaps_re 0] ++ ci_lits (py "=") ++ [gaps_re 0; Cls quote_cls; Grp 1 url_re; Cls quote_cls; gaps_re 0]
  ++ ci_lits (py ">") ++ [Grp 3 (Rep true 1 None (Cls desc_cls))] ++ ci_lits (py "</a>").
Proof. reflexivity. Qed.
Definition link_pair (l : str) (o : mobj) : str * str := (tgrp re_html_tagged_url l o "url", tgrp re_html_tagged_url l o "desc").
Lemma gaps_mt n x g x' g' : mt (gaps_re n) x g x' g' -> exists w, fwd x w x' /\ blanks w /\ n <= length w /\ g' = g.
Proof. intros H. apply mt_rep_cls in H as (w & F & A & B & _ & E). exists w. rewrite space_cls_all in A. auto. Qed.
Ltac lit M w F S := apply mts_same in M as (w & F & S & ->); [|reflexivity].
Lemma fwd_at s x w x' : at_ s x -> fwd x w x' -> at_ s x'.
Proof.
  intros A F. destruct (at_is_here _ _ A) as (a & b & -> & -> & _). apply fwd_here_iff in F as (t & -> & ->).
  rewrite app_assoc. apply at_here.
Qed.
Lemma link_match l o : In o (re_finditer (rx_re re_html_tagged_url) l) -> exists a d w b, l = a ++ (60%N :: d :: w) ++ b /\ m_start o = length a /\ m_end o = length a + length (60%N :: d :: w)
  /\ same_letter 97 d /\ link_text (60%N :: d :: w) (link_pair l o).
Proof.
  intros I. apply finditer_in in I as (a & w & b & x' & -> & F & M & S & T).
  apply mt_factors in M. rewrite link_factors in M.
  apply mts_app in M as (x1 & g1 & M1 & M). lit M1 w1 F1 S1.
  apply mts_app in M as (x2 & g2 & M2 & M). apply mts_one in M2. apply gaps_mt in M2 as (w2 & F2 & B2 & L2 & ->).
  apply mts_app in M as (x3 & g3 & M3 & M). lit M3 w3 F3 S3.
  apply mts_app in M as (x4 & g4 & M4 & M). apply mts_one in M4. apply gaps_mt in M4 as (w4 & F4 & B4 & L4 & ->).
  apply mts_app in M as (x5 & g5 & M5 & M). lit M5 w5 F5 S5. apply same_none in S5; [|reflexivity]. subst w5.
  apply mts_app in M as (x6 & g6 & M6 & M).
  inversion M6 as [|? ? ? ? y1 h1 ? ? N1 M7]; subst. apply gaps_mt in N1 as (w6 & F6 & B6 & _ & ->).
  inversion M7 as [|? ? ? ? y2 h2 ? ? N2 M8]; subst. apply mt_cls_fwd in N2 as (q1 & F7 & Q1 & ->). apply quote_mem in Q1.
  assert (at_ (a ++ w ++ b) y2) as Ay.
  { apply (fwd_at _ _ _ _ (fwd_at _ _ _ _ (fwd_at _ _ _ _ (fwd_at _ _ _ _ (fwd_at _ _ _ _ (fwd_at _ _ _ _ (fwd_at _ _ _ _ (at_here a (w ++ b)) F1) F2) F3) F4) F5) F6) F7). }
  inversion M8 as [|? ? ? ? y3 h3 ? ? N3 M9]; subst. apply mt_grp_iff in N3 as (hu & N3 & ->). apply (url_mt _ _ _ _ _ Ay) in N3 as (c & u & F8 & Ad & _).
  inversion M9 as [|? ? ? ? y4 h4 ? ? N4 M10]; subst. apply mt_cls_fwd in N4 as (q2 & F9 & Q2 & ->). apply quote_mem in Q2.
  inversion M10 as [|? ? ? ? y5 h5 ? ? N5 M11]; subst. apply gaps_mt in N5 as (w10 & F10 & B10 & _ & ->). inversion M11; subst. clear M6 M7 M8 M9 M10 M11.
  apply mts_app in M as (x7 & g7 & M7 & M). lit M7 w11 F11 S11. apply same_none in S11; [|reflexivity]. subst w11.
  apply mts_app in M as (x8 & g8 & M8 & M). apply mts_one in M8. apply mt_grp_iff in M8 as (hd & M8 & ->). apply mt_rep_cls in M8 as (d & F12 & D1 & D2 & _ & ->).
  apply mts_same in M as (w13 & F13 & S13 & G); [|reflexivity].
  pose proof (fwd_app _ _ _ _ _ F6 F7) as P1. pose proof (fwd_app _ _ _ _ _ F1 (fwd_app _ _ _ _ _ F2 (fwd_app _ _ _ _ _ F3 (fwd_app _ _ _ _ _ F4 (fwd_app _ _ _ _ _ F5 P1))))) as P.
  pose proof (fwd_app _ _ _ _ _ F9 (fwd_app _ _ _ _ _ F10 F11)) as R.
  set (lead := w1 ++ w2 ++ w3 ++ w4 ++ py "=" ++ w6 ++ [q1]) in *. set (mid := [q2] ++ w10 ++ py ">") in *.
  pose proof (fwd_app _ _ _ _ _ P (fwd_app _ _ _ _ _ F8 (fwd_app _ _ _ _ _ R (fwd_app _ _ _ _ _ F12 F13)))) as W.
  pose proof (fwd_fun _ _ _ _ F W) as E.
  assert (link_pair (a ++ w ++ b) o = (c :: u, d)) as D.
  { unfold link_pair, tgrp. change (assoc_str (py "url") (rx_names re_html_tagged_url)) with (Some 1). change (assoc_str (py "desc") (rx_names re_html_tagged_url)) with (Some 3).
    unfold g_str, g_text, g_span. cbn [Nat.eqb]. rewrite G. cbn [lookup_group Nat.eqb].
    destruct P as (_ & _ & P). destruct F8 as (_ & _ & F8). destruct R as (_ & _ & R). destruct F12 as (_ & _ & F12). cbn [here pos] in P. rewrite F12, R, F8, P, E. f_equal.
    - rewrite <- app_length. rewrite <- (app_assoc lead), (app_assoc a lead), <- (app_assoc (c :: u)). apply slice_mid.
    - rewrite <- !app_length. replace (a ++ (lead ++ (c :: u) ++ mid ++ d ++ w13) ++ b) with ((((a ++ lead) ++ (c :: u)) ++ mid) ++ d ++ w13 ++ b) by (now rewrite <- !app_assoc). rewrite (app_length _ d). apply slice_mid. }
  assert (exists e v, w = 60%N :: e :: v /\ same_letter 97 e) as (e & v & Ev & Se).
  { rewrite E. unfold lead. inversion S1 as [|? e ? f X Y]; subst. destruct X as [->|(X & _)]; [|lia]. inversion Y as [|? e1 ? f1 X1 Y1]; subst. cbn [app]. eauto. }
  exists a, e, v, b. rewrite <- Ev. split; auto. split; auto. split; auto. split; auto. rewrite D.
  exists w1, w2, w3, w4, w6, q1, q2, w10, w13. cbn [fst snd]. split; [rewrite E; unfold lead, mid; now rewrite <- !app_assoc|].
  repeat (split; auto).
  - intros ->. cbn in L2. lia.
  - intros ->. cbn in D2. lia.
  - intros J. rewrite forallb_forall in D1. specialize (D1 _ J). vm_compute in D1. discriminate.
Qed.

(** *** The two passes *)
Definition by_key {A} (m : imap A) : Prop := StronglySorted (fun a b => fst a < fst b) m.
Lemma iput_sorted {A} k (v : A) m : by_key m -> by_key (iput k v m).
Proof.
  unfold by_key. induction m as [|(k', v') t IH]; intros S; cbn [iput]; [repeat constructor|]. inversion S as [|? ? S1 S2]; subst. rewrite Forall_forall in S2.
  destruct (Nat.eqb_spec k k') as [->|D]; [constructor; auto; apply Forall_forall; auto|]. destruct (Nat.ltb_spec k k') as [L|L].
  - constructor; auto. constructor; auto. apply Forall_forall. intros e I. specialize (S2 _ I). cbn [fst] in *. lia.
  - constructor; [auto|]. apply Forall_forall. intros e I.
    assert (forall (m : imap A) e, In e (iput k v m) -> e = (k, v) \/ In e m) as Q.
    { clear. induction m as [|(a, b) t IH]; cbn [iput]; intros e I; [destruct I as [<-|[]]; auto|]. destruct (k =? a); [destruct I as [<-|I]; auto; right; now right|].
      destruct (k <? a); [destruct I as [<-|I]; auto|]. destruct I as [<-|I]; [right; now left|]. destruct (IH _ I); auto. right. now right. }
    destruct (Q _ _ I) as [->|J]; [cbn [fst]; lia|]. apply (S2 _ J).
Qed.
Lemma put_all_sorted {A} (es : list (nat * A)) : forall m, by_key m -> by_key (put_all es m).
Proof. induction es as [|e t IH]; intros m S; auto. cbn [put_all fold_left]. apply IH. now apply iput_sorted. Qed.
Definition uspan (e : nat * uinfo) : nat * nat := (fst e, fst e + u_len (snd e)).
Lemma marked_spans line m l' : marked u_len line m l' -> by_key m -> spans 0 (map uspan m) (length line).
Proof.
  intros M S. assert (forall p, (forall i v, In (i, v) m -> p <= i) -> p <= length line -> spans p (map uspan m) (length line)) as H; [|apply H; intros; lia].
  pose proof (mk_within _ _ _ _ M) as W. pose proof (mk_disjoint _ _ _ _ M) as D. clear M. induction S as [|(i, v) t S IH F]; intros p P L; [auto|]. cbn [map]. change (uspan (i, v)) with (i, i + u_len v). cbn [spans].
  destruct (W i v (or_introl eq_refl)) as (W1 & W2). split; [apply (P i v); now left|]. split; [lia|]. rewrite Forall_forall in F.
  apply IH; [intros; apply W; now right|intros i0 v0 j w I J; apply (D i0 v0 j w); now right| |lia].
  intros j w I. apply (D i v j w); [now left|now right|]. apply (F _ I).
Qed.
Lemma kept_same (s s' : str) es : forall p, spans p es (length s) -> length s' = length s ->
  (forall q, p <= q -> (forall a b, In (a, b) es -> ~ (a <= q < b)) -> nth_error s' q = nth_error s q) -> kept s' p es = kept s p es.
Proof.
  induction es as [|(a, b) t IH]; intros p H L N; cbn [kept].
  - f_equal. apply nth_same. intros k. rewrite !nth_skip. apply N; [lia|]. intros ? ? [].
  - destruct H as (A & B & C). f_equal.
    + apply nth_same. intros k. rewrite !nth_slice. destruct (Nat.ltb_spec k (a - p)) as [G|G]; auto. apply N; [lia|]. intros i j [I|I] Q; [injection I as -> ->; lia|].
      assert (b <= i); [|lia]. clear - C I. revert b C. induction t as [|(u, v) t IH]; intros b C; [destruct I|]. destruct C as (C1 & C2 & C3). destruct I as [I|I]; [injection I as -> ->; lia|]. specialize (IH I _ C3). lia.
    + apply IH; auto. intros q Hq Nq. apply N; [lia|]. intros i j [I|I]; [injection I as -> ->; lia|]. now apply Nq.
Qed.
Definition link_entry (l : str) (o : mobj) : nat * uinfo := (m_start o, mku (m_end o - m_start o) (fst (link_pair l o)) (snd (link_pair l o))).
Definition raw_entry (l : str) (o : mobj) : nat * uinfo := (m_start o, mku (m_end o - m_start o) (fst (raw_pair l o)) (snd (raw_pair l o))).
Lemma fold_hits (hit : imap uinfo * str -> mobj -> imap uinfo * str) (entry : mobj -> nat * uinfo) ms : (forall o, fst (entry o) = m_start o /\ u_len (snd (entry o)) = m_end o - m_start o) ->
  (forall st o, hit st o = (iput (fst (entry o)) (snd (entry o)) (fst st), mask (m_start o) (m_end o) (m_end o - m_start o) (snd st))) -> forall p q, chain p ms q ->
  forall st, fold_left hit ms st = (put_all (map entry ms) (fst st), mask_all u_len (map entry ms) (snd st)).
Proof.
  intros E H. induction ms as [|o t IH]; intros p q C (m, l); cbn [fold_left map put_all mask_all fst snd]; auto.
  destruct C as (C1 & C2 & C3). rewrite (IH _ _ C3), H. cbn [fst snd]. unfold put_all, mask_all. cbn [fold_left]. destruct (E o) as (E1 & E2). rewrite E1, E2.
  repeat f_equal. lia.
Qed.
Lemma hits_row (entry : mobj -> nat * uinfo) ms : (forall o, In o ms -> fst (entry o) = m_start o /\ u_len (snd (entry o)) = m_end o - m_start o /\ m_start o < m_end o) ->
  forall p q, chain p ms q -> row u_len p (map entry ms) q.
Proof.
  induction ms as [|o t IH]; intros E p q C; cbn [map row]; auto. destruct C as (C1 & C2 & C3). destruct (E o (or_introl eq_refl)) as (E1 & E2 & E3).
  destruct (entry o) as (i, v) eqn:Eo. cbn [fst snd] in *. subst i. split; auto. split; [lia|]. rewrite E2. replace (m_start o + (m_end o - m_start o)) with (m_end o) by lia.
  apply IH; auto. intros; apply E; now right.
Qed.
(** every "<a" or "<A" of the line is at its beginning or after a character that ends a bare URL *)
Definition clear_tags (line : str) : Prop := forall a c d b, line = a ++ c :: 60%N :: d :: b -> same_letter 97 d -> stopper c = true.
Fixpoint clear_check (s : str) : bool :=
  match s with
  | [] => true
  | c :: t => (match t with e :: d :: _ => negb (N.eqb e 60 && (N.eqb d 97 || N.eqb d 65)) || stopper c | _ => true end) && clear_check t
  end.
Lemma clear_check_ok s : clear_check s = true -> clear_tags s.
Proof.
  intros H a c d b ->. intros S. induction a as [|x a IH]; cbn [app] in H.
  - change (clear_check (c :: 60%N :: d :: b)) with ((negb (N.eqb 60 60 && (N.eqb d 97 || N.eqb d 65)) || stopper c) && clear_check (60%N :: d :: b)) in H.
    apply andb_true_iff in H as [H _]. destruct S as [->|(_ & ->)]; exact H.
  - apply IH. cbn [clear_check] in H. now apply andb_true_iff in H as [_ H].
Qed.
Definition host_char (c : N) : bool := is_word c || mem_ch c (py ".-").
Definition host_cls : cls := Eval vm_compute in match nth 0 url_tail Eps with Rep _ _ _ (Cls c) => c | _ => mkcls false false [] end.
Lemma host_mem c : host_char c = true -> cls_mem host_cls c = true.
Proof.
  unfold host_char. intros H. apply orb_true_iff in H as [H|H].
  - unfold cls_mem, host_cls. cbn [c_neg c_ci c_items existsb item_mem]. now rewrite H.
  - apply mem_ch_inv in H. repeat (destruct H as [<-|H]; [vm_compute; reflexivity|]). destruct H.
Qed.
Definition scheme_words : list gword := Eval vm_compute in match gwords scheme with Some l => l | None => [] end.
Lemma scheme_ok : gwords scheme = Some scheme_words. Proof. vm_compute. reflexivity. Qed.
Lemma productive_raw : productive (rx_re re_raw_url) = true. Proof. vm_compute. reflexivity. Qed.
Section Urls.
Context (line : str) (Clear : clear_tags line).
Let links := re_finditer (rx_re re_html_tagged_url) line.
Let es0 := map (link_entry line) links.
Let m0 := put_all es0 [].
Let l1 := mask_all u_len es0 line.
Let raws := re_finditer (rx_re re_raw_url) l1.
Let es1 := map (raw_entry l1) raws.
Let m1 := put_all es1 m0.
Let l2 := mask_all u_len es1 l1.
Lemma find_urls_eq : find_urls line = (m1, l2).
Proof using Type.
  unfold find_urls. cbv zeta. fold links.
  rewrite (fold_hits (fun st o => tagged_url_hit st line o) (link_entry line) links) with (p := 0) (q := length line); [|auto|reflexivity|apply finditer_ok].
  cbn [fst snd]. fold es0. fold m0. fold l1. fold raws.
  rewrite (fold_hits (fun st o => raw_url_hit st l1 o) (raw_entry l1) raws) with (p := 0) (q := length l1); [reflexivity|auto|reflexivity|apply finditer_ok].
Qed.
Lemma links_marked : marked u_len line m0 l1 /\ forall e, In e m0 <-> In e es0.
Proof using Type.
  destruct (marked_row u_len line es0 [] line 0 (marked_start _ _)) as (M & I).
  - apply hits_row with (q := length line); [|apply finditer_ok]. intros o Io. split; auto. split; auto. apply link_match in Io as (a & d & w & b & _ & S & T & _). rewrite S, T. cbn. lia.
  - intros. reflexivity.
  - split; [exact M|]. intros e. specialize (I e). fold m0 in I. cbn [In] in I. tauto.
Qed.
Lemma link_open i v : In (i, v) m0 -> nth_error line i = Some 60%N /\ (exists d, nth_error line (i + 1) = Some d /\ same_letter 97 d) /\ link_text (slice i (i + u_len v) line) (u_str v, u_desc v).
Proof using Type.
  intros I. apply (proj2 links_marked) in I. apply in_map_iff in I as (o & E & I). injection E as <- <-. apply link_match in I as (a & d & w & b & E & S & T & Sd & L). cbn [u_len u_str u_desc].
  replace (m_start o + (m_end o - m_start o)) with (length a + length (60%N :: d :: w)) by lia. rewrite S. split; [|split].
  - rewrite E. rewrite nth_error_app2, Nat.sub_diag by lia. reflexivity.
  - exists d. split; auto. rewrite E. rewrite nth_error_app2 by lia. replace (length a + 1 - length a) with 1 by lia. reflexivity.
  - assert (slice (length a) (length a + length (60%N :: d :: w)) line = 60%N :: d :: w) as -> by (rewrite E; apply slice_mid). exact L.
Qed.
Lemma raw_clear i v k : In (i, v) es1 -> i <= k < i + u_len v -> inside u_len m0 k = false.
Proof using Clear.
  intros I. apply in_map_iff in I as (o & E & I). injection E as <- <-. cbn [u_len]. apply raw_match in I as (a & c & w & b & E & S & T & N & St & _).
  rewrite S, T. destruct links_marked as (M & _). pose proof (mk_length _ _ _ _ M) as Ll.
  assert (length l1 = length a + length (c :: w) + length b) as Len by (rewrite E, !app_length; lia).
  assert (forall j, length a <= j < length a + length (c :: w) -> nth_error l1 j = nth_error (c :: w) (j - length a)) as Nth.
  { intros j Hj. rewrite E, nth_error_app2, nth_error_app1 by lia. reflexivity. }
  induction k as [k IH] using lt_wf_ind. intros K. destruct (inside u_len m0 k) eqn:In0; auto. exfalso.
  apply inside_spec in In0 as (j & x & J & J1 & J2). destruct (link_open _ _ J) as (O & (e & O1 & Se) & _). destruct (Nat.le_gt_cases j (length a)) as [Lj|Lj].
  - assert (inside u_len m0 (length a) = true) as X by (apply inside_spec; exists j, x; split; auto; lia).
    destruct (nth_some line (length a) ltac:(lia)) as (d & D). apply (mk_chars _ _ _ _ M) in D. rewrite X, Nth, Nat.sub_diag in D by (cbn; lia). cbn in D. congruence.
  - destruct (nth_some line (j - 1) ltac:(lia)) as (d & D). assert (stopper d = true) as Sd.
    { apply (Clear (firstn (j - 1) line) d e (skipn (j + 2) line)); [|exact Se]. rewrite <- (firstn_skipn (j - 1) line) at 1. f_equal.
      apply nth_same. intros n. rewrite nth_skip. destruct n as [|[|[|n]]]; cbn [nth_error]; [rewrite Nat.add_0_r; auto|replace (j - 1 + 1) with j by lia; auto|replace (j - 1 + 2) with (j + 1) by lia; auto|].
      rewrite nth_skip. f_equal. lia. }
    apply (mk_chars _ _ _ _ M) in D. destruct (inside u_len m0 (j - 1)) eqn:X.
    + rewrite (IH (j - 1)) in X by lia. discriminate.
    + rewrite Nth in D by lia. apply nth_error_In in D. apply (St _ Sd D).
Qed.
Lemma urls_marked : marked u_len line m1 l2 /\ forall e, In e m1 <-> In e m0 \/ In e es1.
Proof using Clear.
  destruct links_marked as (M & _). apply (marked_row u_len line es1 m0 l1 0 M).
  - apply hits_row with (q := length line); [|rewrite <- (mk_length _ _ _ _ M); apply finditer_ok]. intros o Io. split; auto. split; auto.
    apply raw_match in Io as (a & c & w & b & _ & S & T & _). rewrite S, T. cbn. lia.
  - intros. eapply raw_clear; eauto.
Qed.
Lemma url_entry i v : In (i, v) m1 -> raw_text (slice i (i + u_len v) line) (u_str v, u_desc v) \/ link_text (slice i (i + u_len v) line) (u_str v, u_desc v).
Proof using Clear.
  intros I. apply (proj2 urls_marked) in I as [I|I]; [right; now apply link_open|left].
  assert (slice i (i + u_len v) line = slice i (i + u_len v) l1) as ->.
  { destruct links_marked as (M & _). apply nth_same. intros k. rewrite !nth_slice. destruct (Nat.ltb_spec k (i + u_len v - i)) as [G|G]; auto.
    destruct (nth_error line (i + k)) as [c|] eqn:D.
    - apply (mk_chars _ _ _ _ M) in D. rewrite (raw_clear i v) in D; [auto|auto|lia].
    - symmetry. apply nth_error_None in D. apply nth_error_None. pose proof (mk_length _ _ _ _ M). lia. }
  apply in_map_iff in I as (o & E & I). injection E as <- <-. apply raw_match in I as (a & c & w & b & E & S & T & _ & _ & R). cbn [u_len u_str u_desc].
  replace (m_start o + (m_end o - m_start o)) with (length a + length (c :: w)) by lia. rewrite S. rewrite E at 1. rewrite slice_mid. exact R.
Qed.
Lemma nth_slice_eq (u v : str) a n : (forall k, k < n -> nth_error u (a + k) = nth_error v k) -> length v = n -> exists b, skipn a u = v ++ b.
Proof using Type.
  intros H L. exists (skipn n (skipn a u)). rewrite <- (firstn_skipn n (skipn a u)) at 1. f_equal. apply nth_same. intros k. rewrite nth_first, nth_skip.
  destruct (Nat.ltb_spec k n); auto. symmetry. apply nth_error_None. lia.
Qed.
(** the beginning of an address *)
Definition url_begins (s : str) : Prop := exists t sch c b, In t [py "http"; py "https"; py "ftp"; py "sftp"] /\ same_letters t sch /\ host_char c = true /\ s = sch ++ py "://" ++ c :: b.
Lemma url_here a s : url_begins s -> exists x' g', mt (rx_re re_raw_url) (here a s) [] x' g'.
Proof using Type.
  intros (t & sch & c & b & I & S & C & ->). assert (exists g1, mt scheme (here a (sch ++ py "://" ++ c :: b)) [] (here (a ++ sch) (py "://" ++ c :: b)) g1) as (g1 & M1).
  { assert (exists w, In w scheme_words /\ reads (fst w) sch) as (w & Iw & R).
    { exists (map ci_cls t, []). split; [clear - I; repeat (destruct I as [<-|I]; [vm_compute; auto 10|]); destruct I|]. cbn [fst].
      assert (forall c, In c t -> In c (py "htpsf")) as L by (clear - I; repeat (destruct I as [<-|I]; [|]); try destruct I; cbn; intuition).
      clear - S L. induction S as [|c d t w D S IH]; cbn [map]; constructor; [|apply IH; intros; apply L; now right].
      specialize (L c (or_introl eq_refl)). destruct D as [->|(_ & ->)]; repeat (destruct L as [<-|L]; [vm_compute; reflexivity|]); destruct L. }
    exists (shift (length a) (snd w) ++ []). apply (gwords_mt scheme scheme_words scheme_ok). exists w, sch. split; auto. split; auto. split; [apply fwd_here|reflexivity]. }
  eexists. eexists. rewrite raw_shape. apply mt_cat_iff. exists (here a (sch ++ py "://" ++ c :: b)), []. split; [apply mt_stop|].
  apply mt_cat_iff. eexists. eexists. split; [|apply mt_stop]. apply mt_grp_iff. eexists. split; [|reflexivity].
  apply mt_cat_iff. eexists. eexists. split; [apply mt_grp_iff; eexists; split; [exact M1|reflexivity]|].
  apply mt_factors. rewrite url_factors. apply mts_app. exists (here ((a ++ sch) ++ py "://") (c :: b)). eexists. split.
  { apply mts_same; [reflexivity|]. exists (py "://"). split; [apply fwd_here|]. split; [|reflexivity]. repeat constructor. }
  econstructor. { apply (mt_rep_cls true host_cls 1 None). exists [c]. split; [apply (fwd_here _ [c])|]. cbn [forallb le_max length]. rewrite (host_mem c C). repeat split; auto. }
  econstructor; [apply mt_stop|]. econstructor; [apply mt_stop|]. econstructor; [apply mt_stop|]. constructor.
Qed.
Lemma url_chars s : url_begins s -> exists w b, s = w ++ b /\ ~ In 60%N w /\ w <> [] /\ forall b', url_begins (w ++ b').
Proof using Type.
  intros (t & sch & c & b & I & S & C & ->). exists (sch ++ py "://" ++ [c]), b. split; [now rewrite <- !app_assoc|]. split; [|split].
  - intros J. apply in_app_or in J as [J|J].
    + assert (forall c, In c t -> In c (py "htpsf")) as L by (clear - I; repeat (destruct I as [<-|I]; [|]); try destruct I; cbn; intuition).
      clear - S L J. induction S as [|c d t w D S IH]; [destruct J|]. destruct J as [->|J]; [|apply IH; auto; intros; apply L; now right].
      specialize (L c (or_introl eq_refl)). destruct D as [D|(_ & D)]; repeat (destruct L as [<-|L]; [discriminate|]); destruct L.
    + apply in_app_or in J as [J|[J|[]]]; [cbn in J; intuition discriminate|]. subst c. vm_compute in C. discriminate.
  - destruct sch; discriminate.
  - intros b'. exists t, sch, c, b'. repeat (split; auto). now rewrite <- !app_assoc.
Qed.
Lemma url_found a s : line = a ++ s -> url_begins s -> exists i v, In (i, v) m1 /\ i <= length a < i + u_len v.
Proof using Clear.
  intros E U. destruct links_marked as (M & _). destruct (inside u_len m0 (length a)) eqn:X.
  { apply inside_spec in X as (i & v & I & X1 & X2). exists i, v. split; [apply urls_marked; now left|lia]. }
  destruct (url_chars s U) as (w & b & -> & N & Ne & Ub).
  assert (forall k, k < length w -> inside u_len m0 (length a + k) = false) as Out.
  { intros k K. destruct (inside u_len m0 (length a + k)) eqn:Y; auto. exfalso. apply inside_spec in Y as (i & v & I & Y1 & Y2).
    rewrite inside_none in X. specialize (X _ _ I). destruct (link_open _ _ I) as (O & _). rewrite E, nth_error_app2, nth_error_app1 in O by lia.
    apply nth_error_In in O. contradiction. }
  destruct (nth_slice_eq l1 w (length a) (length w)) as (b' & Eb); [|auto|].
  { intros k K. assert (nth_error line (length a + k) = nth_error w k) as D by (rewrite E, nth_error_app2, nth_error_app1 by lia; f_equal; lia).
    destruct (nth_some w k K) as (c & Ec). rewrite Ec in *. apply (mk_chars _ _ _ _ M) in D. now rewrite Out in D. }
  destruct (url_here (firstn (length a) l1) (w ++ b') (Ub b')) as (x' & g' & Mt).
  assert (length (firstn (length a) l1) = length a) as La.
  { rewrite firstn_length, (mk_length _ _ _ _ M), E, app_length. lia. }
  destruct (finditer_complete (rx_re re_raw_url) l1 (firstn (length a) l1) (w ++ b') x' g' productive_raw) as (o & I & Cv); [rewrite <- Eb; symmetry; apply firstn_skipn|exact Mt|].
  rewrite La in Cv. exists (fst (raw_entry l1 o)), (snd (raw_entry l1 o)). split; [apply urls_marked; right; apply in_map_iff; exists o; split; auto; now destruct (raw_entry l1 o)|].
  cbn [raw_entry fst snd u_len]. apply raw_match in I as (? & ? & ? & ? & ? & S & T & _). cbn [length] in T. destruct Cv as (C1 & C2). lia.
Qed.
Lemma urls_spec : exists kept found,
  length kept = S (length found) /\ line = weave kept found
  /\ fst (identify_and_tag_URLs line) = weave kept (repeat url_tag (length found))
  /\ Forall2 (fun t r => raw_text t r \/ link_text t r) found (snd (identify_and_tag_URLs line))
  /\ (forall a s, line = a ++ s -> url_begins s -> replaced_at kept found (length a)).
Proof using Clear.
  unfold identify_and_tag_URLs. rewrite find_urls_eq. cbn [fst snd]. destruct urls_marked as (M & Im).
  assert (by_key m1) as So by (apply put_all_sorted, put_all_sorted; constructor).
  pose proof (marked_spans _ _ _ M So) as Sp. exists (kept line 0 (map uspan m1)), (taken line (map uspan m1)). rewrite kept_length. unfold taken at 1 3. rewrite !map_length. split; auto.
  split; [symmetry; apply (weave_back line _ 0 Sp)|]. split.
  { assert (forall es s, fold_left insert_url es s = fold_left (swap url_tag) (map uspan es) s) as -> by (intros es; induction es as [|e t IH]; intros s; cbn [fold_left map]; auto).
    rewrite map_rev. assert (spans 0 (map uspan m1) (length l2)) as Sp2 by (now rewrite (mk_length _ _ _ _ M)). rewrite (swap_all url_tag l2 _ 0 Sp2), map_length. cbn [firstn app].
    f_equal. apply kept_same; auto; [apply (mk_length _ _ _ _ M)|]. intros q _ Nq. destruct (nth_error line q) as [c|] eqn:D.
    - pose proof (mk_chars _ _ _ _ M _ _ D) as D2. assert (inside u_len m1 q = false) as X; [|now rewrite X in D2].
      apply inside_none. intros i v I (Q1 & Q2). apply (Nq i (i + u_len v)); [|lia]. apply in_map_iff. exists (i, v). auto.
    - apply nth_error_None in D. apply nth_error_None. rewrite (mk_length _ _ _ _ M). exact D. }
  split.
  { unfold taken. rewrite map_map. assert (forall e, In e m1 -> raw_text (slice (fst (uspan e)) (snd (uspan e)) line) (u_str (snd e), u_desc (snd e)) \/ link_text (slice (fst (uspan e)) (snd (uspan e)) line) (u_str (snd e), u_desc (snd e))) as H
      by (intros (i, v) I; now apply url_entry).
    clear - H. induction m1 as [|e t IH]; cbn [map]; constructor; [apply H; now left|apply IH; intros; apply H; now right]. }
  intros a s E U. destruct (url_found a s E U) as (i & v & I & P). rewrite <- (Nat.sub_0_r (length a)). apply (replaced_in _ _ i (i + u_len v) (length a) 0 Sp); auto. apply in_map_iff. exists (i, v). auto.
Qed.
End Urls.
