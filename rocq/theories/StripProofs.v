(** Proofs about masking the recognised tags (C19). *)
From Coq Require Import List Arith NArith Bool String Lia.
From Verif Require Import PyStr ListFacts Regex RegexParse Patterns RegexMeta RegexLang RegexWords Numeration DocText Tag WashProofs SpaceProofs.
Import ListNotations.
Local Open Scope nat_scope.
Local Notation length := List.length.
Local Notation concat := List.concat.

(** ** The tags that are masked *)
Definition is_AZ (c : ch) : bool := ((65 <=? c) && (c <=? 90))%N.
Definition uppers (X : str) : Prop := X <> [] /\ forallb is_AZ X = true.
Definition tag_text (w : str) : Prop := exists X, uppers X /\
  (w = py "<cds." ++ X ++ py " />" \/ exists c Y, ~ In 60%N c /\ uppers Y /\ w = py "<cds." ++ X ++ py ">" ++ c ++ py "</cds." ++ Y ++ py ">").
Definition az_cls : cls := mkcls false false [CRange 65 90].
Definition nolt_cls : cls := mkcls true false [CRange 60 60].
Lemma az_mem c : cls_mem az_cls c = is_AZ c.
Proof. unfold cls_mem, az_cls, is_AZ. cbn [c_neg c_ci c_items existsb item_mem]. now rewrite orb_false_r, xorb_false_l. Qed.
Lemma nolt_mem c : cls_mem nolt_cls c = true <-> c <> 60%N.
Proof.
  unfold cls_mem, nolt_cls. cbn [c_neg c_ci c_items existsb item_mem]. rewrite orb_false_r. unfold in_range.
  destruct (N.eqb_spec c 60) as [->|N]; [cbn; split; [discriminate|contradiction]|]. split; auto. intros _.
  replace ((60 <=? c)%N && (c <=? 60)%N) with false; [reflexivity|]. symmetry. apply andb_false_iff. rewrite !N.leb_gt. lia.
Qed.
Definition tag_alt1 : re := match rx_re re_tag with Alt a _ => a | _ => Eps end.
Definition tag_alt2 : re := match rx_re re_tag with Alt _ b => b | _ => Eps end.
Lemma tag_alts : rx_re re_tag = Alt tag_alt1 tag_alt2. Proof. reflexivity. Qed.
Lemma alt1_factors : factors tag_alt1 = map Cls (lit_word (py "<cds.")) ++ [Rep true 1 None (Cls az_cls)] ++ map Cls (lit_word (py ">"))
  ++ [Rep true 0 None (Cls nolt_cls)] ++ map Cls (lit_word (py "</cds.")) ++ [Rep true 1 None (Cls az_cls)] ++ map Cls (lit_word (py ">")).
Proof. reflexivity. Qed.
Lemma alt2_factors : factors tag_alt2 = map Cls (lit_word (py "<cds.")) ++ [Rep true 1 None (Cls az_cls)] ++ map Cls (lit_word (py " />")).
Proof. reflexivity. Qed.
Lemma mts_cls_rep gr c mn x g x' g' : mts [Rep gr mn None (Cls c)] x g x' g' <-> exists w, fwd x w x' /\ forallb (cls_mem c) w = true /\ mn <= length w /\ g' = g.
Proof. rewrite mts_one, mt_rep_cls. split; [intros (w & ? & ? & ? & _ & ?); eauto|intros (w & ? & ? & ? & ?); exists w; cbn; auto 6]. Qed.
Lemma forallb_same {A} (f h : A -> bool) l : (forall a, f a = h a) -> forallb f l = forallb h l.
Proof. intros E. induction l as [|a l IH]; cbn; auto. now rewrite E, IH. Qed.
Lemma fwd_split x u v x' : fwd x (u ++ v) x' -> exists y, fwd x u y /\ fwd y v x'.
Proof.
  intros F. pose proof F as (E & _). exists (after x u). assert (fwd x u (after x u)) as G by (apply (fwd_after x u (v ++ suf x')); rewrite E, <- app_assoc; reflexivity).
  split; auto. destruct F as (E1 & E2 & E3), G as (G1 & G2 & G3). split; [|split].
  - rewrite G1 in E1. rewrite <- app_assoc in E1. now apply app_inv_head in E1.
  - rewrite E2, G2, rev_app_distr, app_assoc. reflexivity.
  - rewrite E3, G3, app_length. lia.
Qed.
Lemma az_word w : forallb (cls_mem az_cls) w = true /\ 1 <= length w <-> uppers w.
Proof.
  unfold uppers. rewrite (forallb_same (cls_mem az_cls) is_AZ) by apply az_mem. split; intros [A B]; split; auto; [intros ->; cbn in B; lia|destruct w; [contradiction|cbn; lia]].
Qed.
Lemma nolt_word w : forallb (cls_mem nolt_cls) w = true <-> ~ In 60%N w.
Proof.
  rewrite forallb_forall. split; [intros H I; apply H in I; now apply nolt_mem in I|intros H c I; apply nolt_mem; intros ->; auto].
Qed.
Lemma tag_lang x g x' g' : mt (rx_re re_tag) x g x' g' <-> exists w, fwd x w x' /\ tag_text w /\ g' = g.
Proof.
  rewrite tag_alts, mt_alt_iff, !mt_factors, alt1_factors, alt2_factors. repeat setoid_rewrite mts_app.
  repeat setoid_rewrite mts_lits. repeat setoid_rewrite mts_cls_rep. split.
  - intros [H|H].
    + destruct H as (x1 & g1 & (F1 & ->) & x2 & g2 & (X & F2 & A1 & A2 & ->) & x3 & g3 & (F3 & ->) & x4 & g4 & (c & F4 & C & _ & ->) & x5 & g5 & (F5 & ->) & x6 & g6 & (Y & F6 & B1 & B2 & ->) & F7 & ->).
      eexists. split; [|split; [exists X; split; [now apply az_word|right; exists c, Y; split; [now apply nolt_word|split; [now apply az_word|reflexivity]]]|reflexivity]].
      eauto 10 using fwd_app.
    + destruct H as (x1 & g1 & (F1 & ->) & x2 & g2 & (X & F2 & A1 & A2 & ->) & F3 & ->).
      eexists. split; [|split; [exists X; split; [now apply az_word|left; reflexivity]|reflexivity]]. eauto using fwd_app.
  - intros (w & F & (X & U & [->|(c & Y & C & V & ->)]) & ->); apply az_word in U as (U1 & U2).
    + right. destruct (fwd_split _ _ _ _ F) as (x1 & F1 & F'). destruct (fwd_split _ _ _ _ F') as (x2 & F2 & F3). eauto 20.
    + left. apply az_word in V as (V1 & V2). apply nolt_word in C. destruct (fwd_split _ _ _ _ F) as (x1 & F1 & F'). destruct (fwd_split _ _ _ _ F') as (x2 & F2 & F3).
      destruct (fwd_split _ _ _ _ F3) as (x3 & G1 & F4). destruct (fwd_split _ _ _ _ F4) as (x4 & G2 & F5). destruct (fwd_split _ _ _ _ F5) as (x5 & G3 & F6). destruct (fwd_split _ _ _ _ F6) as (x6 & G4 & F7).
      exists x1, g. split; auto. exists x2, g. split; [eauto|]. exists x3, g. split; auto. exists x4, g. split; [exists c; auto with arith|]. exists x5, g. split; auto. exists x6, g. split; eauto.
Qed.
Lemma span_unique {A} (P : A -> Prop) (Q : A -> Prop) : (forall a, P a -> Q a -> False) -> forall u v d e r s, Forall P u -> Forall P v -> Q d -> Q e ->
  u ++ d :: r = v ++ e :: s -> u = v /\ d = e /\ r = s.
Proof.
  intros D. induction u as [|a u IH]; intros v d e r s U V Qd Qe E; destruct v as [|b v]; cbn in E.
  - injection E as -> ->. auto.
  - injection E as -> _. inversion V; subst. exfalso. eauto.
  - injection E as -> _. inversion U; subst. exfalso. eauto.
  - injection E as -> E. inversion U; inversion V; subst. destruct (IH v d e r s) as (-> & -> & ->); auto.
Qed.
Lemma uppers_forall X : uppers X -> Forall (fun c => is_AZ c = true) X.
Proof. intros [_ U]. now apply Forall_forall, forallb_forall. Qed.
Lemma az_unique X Y d e r s : uppers X -> uppers Y -> is_AZ d = false -> is_AZ e = false -> X ++ d :: r = Y ++ e :: s -> X = Y /\ d = e /\ r = s.
Proof. intros U V D E. apply (span_unique (fun c => is_AZ c = true) (fun c => is_AZ c = false)); auto using uppers_forall. intros; congruence. Qed.
Lemma lt_unique c c' r r' : ~ In 60%N c -> ~ In 60%N c' -> c ++ 60%N :: r = c' ++ 60%N :: r' -> c = c' /\ r = r'.
Proof.
  intros C C' E. destruct (span_unique (fun c => c <> 60%N) (fun c => c = 60%N) (fun a p q => p q) c c' 60%N 60%N r r') as (-> & _ & ->); auto.
  - apply Forall_forall. intros a I ->. auto.
  - apply Forall_forall. intros a I ->. auto.
Qed.
Lemma tag_unique w w' t t' : tag_text w -> tag_text w' -> w ++ t = w' ++ t' -> w = w'.
Proof.
  intros (X & U & D) (X' & U' & D') E.
  destruct D as [->|(c & Y & C & V & ->)], D' as [->|(c' & Y' & C' & V' & ->)]; repeat rewrite <- app_assoc in E; apply app_inv_head in E.
  - apply (az_unique X X' 32%N 32%N) in E as (-> & _); auto.
  - apply (az_unique X X' 32%N 62%N) in E as (_ & E & _); auto. discriminate.
  - apply (az_unique X X' 62%N 32%N) in E as (_ & E & _); auto. discriminate.
  - apply (az_unique X X' 62%N 62%N) in E as (-> & _ & E); auto. cbn [app] in E.
    apply (lt_unique c c') in E as (-> & E); auto.
    injection E as E. apply (az_unique Y Y' 62%N 62%N) in E as (-> & _); auto.
Qed.
(** an opening "<cds.X>" or "<cds.X />" *)
Definition tag_start (w : str) : Prop := exists X, uppers X /\ (w = py "<cds." ++ X ++ py ">" \/ w = py "<cds." ++ X ++ py " />").
(** every opening tag has its closing tag before the next "<": tags are not nested *)
Definition not_nested (line : str) : Prop :=
  forall a X r, uppers X -> line = a ++ (py "<cds." ++ X ++ py ">") ++ r ->
  exists c Y v, ~ In 60%N c /\ uppers Y /\ r = c ++ (py "</cds." ++ Y ++ py ">") ++ v.
Lemma tag_text_start w : tag_text w -> exists v r, tag_start v /\ w = v ++ r.
Proof.
  intros (X & U & [->|(c & Y & C & V & ->)]).
  - exists (py "<cds." ++ X ++ py " />"), []. split; [exists X; auto|now rewrite app_nil_r].
  - exists (py "<cds." ++ X ++ py ">"), (c ++ py "</cds." ++ Y ++ py ">"). split; [exists X; auto|]. rewrite <- !app_assoc. reflexivity.
Qed.
Lemma start_tag line a v r : not_nested line -> tag_start v -> line = a ++ v ++ r -> exists w t, tag_text w /\ line = a ++ w ++ t.
Proof.
  intros N (X & U & [->| ->]) E.
  - destruct (N a X r U E) as (c & Y & t & C & V & ->). exists (py "<cds." ++ X ++ py ">" ++ c ++ py "</cds." ++ Y ++ py ">"), t. split; [exists X; split; auto; right; exists c, Y; auto|].
    rewrite E, <- !app_assoc. reflexivity.
  - exists (py "<cds." ++ X ++ py " />"), r. split; auto. exists X. auto.
Qed.
Lemma start_chars v c : tag_start v -> In c v -> c <> 95%N.
Proof.
  intros (X & [_ U] & D) I ->. rewrite forallb_forall in U.
  assert (In 95%N (py "<cds." ++ X ++ py ">") \/ In 95%N (py "<cds." ++ X ++ py " />")) as J by (destruct D as [-> | ->]; auto).
  assert (In 95%N X) as K by (destruct J as [J|J]; repeat (apply in_app_or in J as [J|J]); auto; cbn in J; intuition discriminate).
  apply U in K. discriminate.
Qed.
Lemma start_head v : tag_start v -> exists r, v = 60%N :: r. Proof. intros (X & _ & [-> | ->]); eexists; reflexivity. Qed.
(** in a tag, "<c" stands only at the start *)
Lemma tag_inner w u r : tag_text w -> w = u ++ 60%N :: 99%N :: r -> u = [].
Proof.
  intros (X & U & D) E. destruct u as [|z u]; auto. exfalso.
  assert (forall l, ~ In 60%N l -> forall a b v, l ++ v = a ++ 60%N :: b -> exists a', a = l ++ a' /\ v = a' ++ 60%N :: b) as K.
  { induction l as [|y l IH]; intros Nl a b v Ea; [exists a; auto|]. destruct a as [|y' a]; cbn in Ea; injection Ea as -> Ea; [elim Nl; now left|].
    destruct (IH (fun I => Nl (or_intror I)) a b v Ea) as (a' & -> & ->). exists a'. auto. }
  assert (~ In 60%N X) as NX by (intros I; destruct U as [_ U]; rewrite forallb_forall in U; apply U in I; discriminate).
  destruct D as [->|(c & Y & C & V & ->)].
  - injection E as _ E. destruct (K (py "cds." ++ X ++ py " />")) with (a := u) (b := 99%N :: r) (v := @nil N) as (a' & _ & E').
    + intros I. repeat (apply in_app_or in I as [I|I]); auto; cbn in I; intuition discriminate.
    + rewrite app_nil_r. exact E.
    + destruct a'; discriminate.
  - injection E as _ E. destruct (K (py "cds." ++ X ++ py ">" ++ c)) with (a := u) (b := 99%N :: r) (v := py "</cds." ++ Y ++ py ">") as (a' & -> & E').
    + intros I; repeat (apply in_app_or in I as [I|I]); auto; cbn in I; intuition discriminate.
    + rewrite <- !app_assoc. exact E.
    + destruct a' as [|y a']; [cbn in E'; congruence|]. injection E' as _ E'.
      assert (~ In 60%N Y) as NY by (intros I; destruct V as [_ V]; rewrite forallb_forall in V; apply V in I; discriminate).
      destruct (K (py "/cds." ++ Y ++ py ">")) with (a := a') (b := 99%N :: r) (v := @nil N) as (a'' & _ & E'').
      * intros I. repeat (apply in_app_or in I as [I|I]); auto; cbn in I; intuition discriminate.
      * rewrite app_nil_r. exact E'.
      * destruct a''; discriminate.
Qed.

(** ** The loop *)
Definition masked (l line : str) : Prop := Forall2 (fun a c => a = c \/ a = 95%N) l line.
Lemma masked_refl l : masked l l. Proof. induction l; constructor; auto. Qed.
Lemma masked_same v : forall b, masked v b -> (forall c, In c v -> c <> 95%N) -> v = b.
Proof.
  induction v as [|c v IH]; intros b M N; inversion M as [|? d ? b' H M']; subst; auto.
  destruct H as [->|H]; [|elim (N c (or_introl eq_refl)); auto]. f_equal. apply IH; auto. intros e E. apply N. now right.
Qed.
Lemma masked_start l line a v r : masked l line -> tag_start v -> l = a ++ v ++ r -> exists a' r', line = a' ++ v ++ r' /\ length a' = length a.
Proof.
  intros M S ->. apply Forall2_app_inv_l in M as (a' & t & Ma & M & ->). apply Forall2_app_inv_l in M as (v' & r' & Mv & Mr & ->).
  apply masked_same in Mv as <-; [|intros c; now apply start_chars]. exists a', r'. split; auto. symmetry. clear - Ma. induction Ma; cbn; auto.
Qed.
Lemma nth_at {A} (a : list A) c b : nth_error (a ++ c :: b) (length a) = Some c.
Proof. rewrite nth_error_app2, Nat.sub_diag by auto. reflexivity. Qed.
Lemma prefix_split {A} (a b x y : list A) : a ++ x = b ++ y -> length b <= length a -> exists u, a = b ++ u /\ u ++ x = y.
Proof.
  intros E L. destruct (app_eq_app _ _ _ _ E) as (l & [[-> ->]|[-> ->]]); [eauto|]. rewrite app_length in L. destruct l; [|cbn in L; lia].
  exists []. rewrite !app_nil_r. auto.
Qed.
Lemma masked_rest A p line : masked A (firstn p line) -> masked (A ++ skipn p line) line.
Proof. intros M. apply Forall2_app with (l1 := A) (l1' := firstn p line) (l2 := skipn p line) (l2' := skipn p line) in M; [now rewrite firstn_skipn in M|apply masked_refl]. Qed.
Section Strip.
Context (line : str) (N : not_nested line).
Let ms := re_finditer (rx_re re_tag) line.
Lemma tag_productive : productive (rx_re re_tag) = true. Proof. reflexivity. Qed.
Lemma tag_found s o : In o (re_finditer (rx_re re_tag) s) -> exists a w b, s = a ++ w ++ b /\ tag_text w /\ m_start o = length a /\ m_end o = length a + length w.
Proof.
  intros I. apply finditer_in in I as (a & w & b & x' & E & F & M & S & En). apply tag_lang in M as (w' & F' & T & _).
  rewrite (fwd_fun _ _ _ _ F' F) in T. exists a, w, b. auto.
Qed.
Lemma tag_complete s a w b : s = a ++ w ++ b -> tag_text w -> exists o, In o (re_finditer (rx_re re_tag) s) /\ m_start o <= length a /\ length a <= m_end o.
Proof.
  intros E T. destruct (finditer_complete (rx_re re_tag) s a (w ++ b) (here (a ++ w) b) [] tag_productive E) as (o & I & C).
  - apply tag_lang. exists w. split; [apply fwd_here|auto].
  - exists o. split; auto. destruct C as [C1 [C2|C2]]; split; try lia. rewrite C2. apply (chain_in _ o _ _ (proj2 (finditer_ok (rx_re re_tag) s))); auto.
Qed.
Lemma starts_all l done todo a w b : masked l line -> ms = done ++ todo -> (forall o, In o done -> nth_error l (m_start o) = Some 95%N) ->
  l = a ++ w ++ b -> tag_text w -> exists o, In o todo /\ m_start o = length a.
Proof.
  intros M E D El T. destruct (tag_text_start _ T) as (v & r & S & ->).
  assert (l = a ++ v ++ r ++ b) as El2 by (rewrite El, <- !app_assoc; reflexivity).
  destruct (masked_start l line a v (r ++ b) M S El2) as (a' & r' & Eline & La).
  destruct (start_tag line a' v r' N S Eline) as (w' & t' & T' & Ew).
  destruct (finditer_complete (rx_re re_tag) line a' (w' ++ t') (here (a' ++ w') t') [] tag_productive Ew) as (o & I & C).
  { apply tag_lang. exists w'. split; [apply fwd_here|auto]. }
  destruct (tag_found line o I) as (a1 & w1 & b1 & E1 & T1 & S1 & N1). destruct (start_head v S) as (v' & Ev).
  assert (m_start o = length a') as So.
  { destruct (start_head _ S) as (q & Q). assert (exists q', v = 60%N :: 99%N :: q') as (q' & Q') by (destruct S as (X & _ & [-> | ->]); eexists; reflexivity).
    destruct C as [C1 C2]. rewrite S1 in *. rewrite N1 in C2. destruct C2 as [C2|C2]; [|lia].
    rewrite Eline in E1. destruct (prefix_split a' a1 _ _ E1) as (u & -> & E2); [lia|]. rewrite Q' in E2.
    rewrite app_length in C2. destruct (prefix_split w1 u b1 ((60%N :: 99%N :: q') ++ r') (eq_sym E2)) as (x & -> & E3); [lia|].
    assert (x <> []) as Nx by (intros ->; rewrite app_length in C2; cbn in C2; lia). clear E1. rename E3 into E1. symmetry in E1.
    destruct x as [|c x]; [contradiction|]. injection E1 as <- E1.
    destruct x as [|c x].
    - exfalso. destruct T1 as (X & _ & [T1|(cc & Y & _ & _ & T1)]).
      + apply (f_equal (@rev _)) in T1. rewrite !rev_app_distr in T1. discriminate.
      + replace (py "<cds." ++ X ++ py ">" ++ cc ++ py "</cds." ++ Y ++ py ">") with ((py "<cds." ++ X ++ py ">" ++ cc ++ py "</cds." ++ Y) ++ [62%N]) in T1 by (rewrite <- !app_assoc; reflexivity).
        apply app_inj_tail in T1 as [_ T1]. discriminate.
    - injection E1 as <- _. apply (tag_inner _ u x) in T1; [|reflexivity]. subst u. now rewrite app_nil_r. }
  fold ms in I. rewrite E in I. apply in_app_or in I as [I|I]; [|exists o; split; auto; congruence].
  exfalso. specialize (D o I). rewrite So, La, El2, Ev in D. cbn [app] in D. rewrite nth_at in D. discriminate.
Qed.
Definition bars (o : mobj) : str := underscores (m_end o - m_start o).
Lemma bars_length n : length (underscores n) = n. Proof. apply repeat_length. Qed.
Lemma bars_masked n : forall b, length b = n -> masked (underscores n) b.
Proof. unfold underscores. induction n as [|n IH]; intros [|c b] L; try discriminate; cbn; constructor; auto. apply IH. cbn in L. congruence. Qed.
Lemma chain_first (l : list mobj) o p q : chain p l q -> In o l -> exists o' t, l = o' :: t /\ m_start o' <= m_start o.
Proof.
  destruct l as [|o' t]; intros C I; [destruct I|]. exists o', t. split; auto. destruct I as [->|I]; auto. cbn [chain] in C. destruct C as (_ & L & C).
  pose proof (chain_in _ _ _ _ C I). lia.
Qed.
Lemma strip_step A p done o t : length A = p -> chain p (o :: t) (length line) -> masked A (firstn p line) -> ms = done ++ o :: t ->
  (forall q, In q done -> nth_error (A ++ skipn p line) (m_start q) = Some 95%N) ->
  re_sub1 (rx_re re_tag) (fun _ => bars o) (A ++ skipn p line) = (A ++ slice p (m_start o) line ++ bars o) ++ skipn (m_end o) line.
Proof.
  intros L C M E D. set (l := A ++ skipn p line) in *. cbn [chain] in C. destruct C as (C1 & C2 & C3). pose proof (chain_le _ _ _ C3) as C4.
  assert (masked l line) as Ml by (now apply masked_rest).
  assert (In o ms) as Io by (rewrite E; apply in_or_app; right; now left).
  destruct (tag_found line o Io) as (a & w & b & El & T & So & Eo).
  assert (l = (A ++ slice p (m_start o) line) ++ w ++ b) as Ell.
  { unfold l. rewrite <- app_assoc. f_equal. rewrite <- (slice_skipn line p (m_start o)) by auto. f_equal. rewrite So, El, skipn_app, skipn_all, Nat.sub_diag. reflexivity. }
  assert (length (A ++ slice p (m_start o) line) = m_start o) as Lp by (rewrite app_length, slice_length; lia).
  destruct (tag_complete l _ w b Ell T) as (o1 & I1 & S1 & N1). rewrite Lp in S1.
  pose proof (proj2 (finditer_ok (rx_re re_tag) l)) as Cl. destruct (chain_first _ _ _ _ Cl I1) as (o' & t' & F & S').
  assert (In o' (re_finditer (rx_re re_tag) l)) as I' by (rewrite F; now left).
  destruct (tag_found l o' I') as (a' & w' & b' & El' & T' & So' & Eo').
  destruct (starts_all l done (o :: t) a' w' b' Ml E D El' T') as (o2 & I2 & S2).
  assert (m_start o <= m_start o2) as Le.
  { destruct I2 as [<-|I2]; auto. pose proof (chain_in _ _ _ _ C3 I2). lia. }
  assert (length a' = m_start o) as La' by lia.
  assert (a' = A ++ slice p (m_start o) line /\ w' ++ b' = w ++ b) as (Ea & Ew).
  { rewrite Ell in El'. destruct (prefix_split _ _ _ _ El') as (u & Eu & Ev); [lia|]. assert (u = []) as -> by (apply (f_equal (@length _)) in Eu; rewrite Lp, app_length in Eu; destruct u; auto; cbn in Eu; lia).
    rewrite app_nil_r in Eu. split; auto. }
  assert (w' = w) as -> by (apply (tag_unique w' w b' b); auto).
  assert (m_start o' = m_start o /\ m_end o' = m_end o) as (Q1 & Q2) by lia.
  unfold re_sub1. rewrite F. cbn [firstn sub_from]. rewrite Q1, Q2. unfold slice at 1. cbn [skipn]. rewrite Nat.sub_0_r.
  assert (firstn (m_start o) l = A ++ slice p (m_start o) line) as -> by (rewrite Ell, <- Lp at 1; rewrite firstn_app, firstn_all, Nat.sub_diag, firstn_O; now rewrite app_nil_r).
  rewrite <- !app_assoc. do 3 f_equal.
  assert (skipn (m_end o) l = b) as ->.
  { rewrite Ell. rewrite skipn_app, skipn_all2 by lia. rewrite Lp. replace (m_end o - m_start o) with (length w) by lia. cbn [app]. now rewrite skipn_app, skipn_all, Nat.sub_diag. }
  rewrite El, skipn_app, skipn_all2 by lia. cbn [app]. rewrite Eo. replace (length a + length w - length a) with (length w) by lia. now rewrite skipn_app, skipn_all, Nat.sub_diag.
Qed.
Lemma strip_loop : forall todo A p done, length A = p -> chain p todo (length line) -> masked A (firstn p line) -> ms = done ++ todo ->
  (forall q, In q done -> nth_error A (m_start q) = Some 95%N) ->
  let r := fold_left (fun l o => re_sub1 (rx_re re_tag) (fun _ => bars o) l) todo (A ++ skipn p line) in
  r = A ++ sub_from line bars p todo /\ masked r line /\ (forall q, In q ms -> nth_error r (m_start q) = Some 95%N).
Proof.
  induction todo as [|o t IH]; intros A p done L C M E D; cbn [fold_left sub_from].
  - cbn zeta. rewrite app_nil_r in E. split; auto. split; [now apply masked_rest|].
    intros q I. rewrite E in I. specialize (D q I). rewrite nth_error_app1; auto. apply nth_error_Some. congruence.
  - pose proof C as C0. cbn [chain] in C. destruct C as (C1 & C2 & C3). pose proof (chain_le _ _ _ C3) as C4.
    rewrite (strip_step A p done o t L C0 M E); [|intros q I; specialize (D q I); rewrite nth_error_app1; auto; apply nth_error_Some; congruence].
    assert (In o ms) as Io by (rewrite E; apply in_or_app; right; now left). destruct (tag_found line o Io) as (a & w & b & El & T & So & Eo).
    assert (0 < length w) as Lw by (destruct (tag_text_start _ T) as (v & r & S & ->); destruct (start_head _ S) as (v' & ->); cbn; lia).
    specialize (IH (A ++ slice p (m_start o) line ++ bars o) (m_end o) (done ++ [o])). cbn zeta in *.
    destruct IH as (R1 & R2 & R3).
    + rewrite !app_length, slice_length by lia. unfold bars. rewrite bars_length. lia.
    + auto.
    + replace (firstn (m_end o) line) with (firstn p line ++ slice p (m_start o) line ++ slice (m_start o) (m_end o) line).
      * apply Forall2_app; auto. apply Forall2_app; [apply masked_refl|]. apply bars_masked. apply slice_length. auto.
      * rewrite <- slice_app by auto. assert (forall k, firstn k line = slice 0 k line) as Z by (intros k; unfold slice; cbn; now rewrite Nat.sub_0_r). rewrite !Z. symmetry. apply slice_app; lia.
    + rewrite E, <- app_assoc. reflexivity.
    + intros q I. apply in_app_or in I as [I|[<-|[]]].
      * specialize (D q I). rewrite nth_error_app1; auto. apply nth_error_Some. congruence.
      * rewrite app_assoc, nth_error_app2; rewrite app_length, slice_length by lia; [|lia]. replace (m_start o - _) with 0 by lia. unfold bars, underscores. replace (m_end o - m_start o) with (S (length w - 1)) by lia. reflexivity.
    + split; [rewrite R1, <- !app_assoc; reflexivity|auto].
Qed.
End Strip.

(** the subject as gaps and matches *)
Fixpoint parts (s : str) (p : nat) (ms : list mobj) : list (str * str) :=
  match ms with [] => [] | o :: t => (slice p (m_start o) s, slice (m_start o) (m_end o) s) :: parts s (m_end o) t end.
Fixpoint tail_of (p : nat) (ms : list mobj) : nat := match ms with [] => p | o :: t => tail_of (m_end o) t end.
Lemma parts_id s ms : forall p, chain p ms (length s) -> concat (map (fun q => fst q ++ snd q) (parts s p ms)) ++ skipn (tail_of p ms) s = skipn p s.
Proof.
  induction ms as [|o t IH]; intros p C; cbn [parts tail_of map concat app]; auto. cbn [chain] in C. destruct C as (A & B & C). cbn [fst snd].
  rewrite <- !app_assoc, IH by auto. rewrite slice_skipn by auto. now apply slice_skipn.
Qed.
Lemma parts_sub s f h ms : forall p, (forall o, In o ms -> f o = h (slice (m_start o) (m_end o) s)) ->
  sub_from s f p ms = concat (map (fun q => fst q ++ h (snd q)) (parts s p ms)) ++ skipn (tail_of p ms) s.
Proof.
  induction ms as [|o t IH]; intros p F; cbn [parts tail_of map concat app sub_from]; auto. cbn [fst snd].
  rewrite (IH (m_end o)) by (intros; apply F; now right). rewrite (F o) by now left. rewrite <- !app_assoc. reflexivity.
Qed.
Lemma parts_text s p ms q : In q (parts s p ms) -> exists o, In o ms /\ snd q = slice (m_start o) (m_end o) s.
Proof.
  revert p. induction ms as [|o t IH]; intros p I; [destruct I|]. cbn [parts] in I. destruct I as [<-|I]; [exists o; split; [now left|auto]|].
  destruct (IH _ I) as (o' & I' & E). exists o'. split; [now right|auto].
Qed.
Lemma strip_spec line : not_nested line -> exists ps last,
  line = concat (map (fun q => fst q ++ snd q) ps) ++ last
  /\ strip_tags line = concat (map (fun q => fst q ++ underscores (length (snd q))) ps) ++ last
  /\ Forall (fun q => tag_text (snd q)) ps
  /\ (forall a w b, strip_tags line = a ++ w ++ b -> ~ tag_text w).
Proof.
  intros N. set (ms := re_finditer (rx_re re_tag) line). pose proof (finditer_ok (rx_re re_tag) line) as (O & C). fold ms in O, C.
  destruct (strip_loop line N ms [] 0 []) as (R1 & R2 & R3); auto; [constructor|intros q []|]. cbn [app skipn] in R1, R2, R3.
  exists (parts line 0 ms), (skipn (tail_of 0 ms) line). split; [symmetry; apply (parts_id line ms 0 C)|].
  change (fold_left (fun l o => re_sub1 (rx_re re_tag) (fun _ => bars o) l) ms line) with (strip_tags line) in *.
  split; [|split].
  - rewrite R1. apply (parts_sub line bars (fun t => underscores (length t))). intros o I. unfold bars. rewrite slice_length; auto. apply (chain_in _ _ _ _ C I).
  - apply Forall_forall. intros q I. destruct (parts_text line 0 ms q I) as (o & I2 & EQ). change (tag_text (snd q : str)); unfold str in *; rewrite EQ. destruct (tag_found line o I2) as (a & w & b & E & T & S & En).
    replace (slice (m_start o) (m_end o) line) with w; auto. unfold slice. rewrite S, En, E, skipn_app, skipn_all, Nat.sub_diag. cbn [app skipn].
    replace (length a + length w - length a) with (length w) by lia. now rewrite firstn_app, firstn_all, Nat.sub_diag, firstn_O, app_nil_r.
  - intros a w b E T. destruct (starts_all line N (strip_tags line) ms [] a w b R2) as (o & [] & _); auto. now rewrite app_nil_r.
Qed.
Lemma strip_length line : not_nested line -> length (strip_tags line) = length line.
Proof.
  intros N. destruct (strip_spec line N) as (ps & last & E & S & _). rewrite S. rewrite E at 1. rewrite !app_length. f_equal.
  clear. induction ps as [|q ps IH]; cbn; auto. rewrite !app_length, bars_length, IH. reflexivity.
Qed.
(** a check of [not_nested] *)
Definition nolt (c : ch) : bool := negb (N.eqb c 60).
Definition closes (v : str) : bool :=
  let r := drop_while nolt v in let w := skipn 6 r in
  prefixb (py "</cds.") r && match w with d :: _ => is_AZ d | [] => false end && prefixb (py ">") (drop_while is_AZ w).
Fixpoint nest_check (s : str) : bool :=
  match s with
  | [] => true
  | c :: r => (let u := drop_while is_AZ (skipn 5 s) in implb (prefixb (py "<cds.") s && prefixb (py ">") u) (closes (skipn 1 u))) && nest_check r
  end.
Lemma drop_app {A} (f : A -> bool) (w : list A) d t : forallb f w = true -> f d = false -> drop_while f (w ++ d :: t) = d :: t.
Proof. induction w as [|a w IH]; cbn; intros F D; [now rewrite D|]. apply andb_true_iff in F as (-> & F). auto. Qed.
Lemma drop_split {A} (f : A -> bool) (s : list A) : exists w, forallb f w = true /\ s = w ++ drop_while f s.
Proof.
  induction s as [|a s (w & F & E)]; [now exists []|]. cbn. destruct (f a) eqn:D; [|now exists []]. exists (a :: w). cbn. rewrite D, F. split; auto. now rewrite <- E.
Qed.
Lemma closes_ok v : closes v = true -> exists c Y t, ~ In 60%N c /\ uppers Y /\ v = c ++ (py "</cds." ++ Y ++ py ">") ++ t.
Proof.
  unfold closes. intros H. apply andb_true_iff in H as (H & P2). apply andb_true_iff in H as (P1 & D).
  destruct (drop_split nolt v) as (c & F & E). apply prefixb_app in P1 as (w & E2). rewrite E2 in *. 
  change (skipn 6 (py "</cds." ++ w)) with w in D, P2. destruct (drop_split is_AZ w) as (Y & G & E3). apply prefixb_app in P2 as (t & E4). rewrite E4 in E3.
  exists c, Y, t. split; [|split].
  - intros I. rewrite forallb_forall in F. apply F in I. discriminate.
  - split; auto. intros ->. cbn [app] in E3. rewrite E3 in D. discriminate.
  - rewrite E, E3. now rewrite <- !app_assoc.
Qed.
Lemma nest_check_ok s : nest_check s = true -> not_nested s.
Proof.
  induction s as [|d s IH]; intros H a X r U E; [destruct a; discriminate|]. cbn [nest_check] in H. apply andb_true_iff in H as (H1 & H2).
  destruct a as [|b a]; [|injection E as <- E; eapply IH; eauto]. cbn [app] in E. rewrite E in H1. rewrite <- !app_assoc in H1.
  change (skipn 5 (py "<cds." ++ X ++ py ">" ++ r)) with (X ++ py ">" ++ r) in H1.
  change (py ">" ++ r) with (62%N :: r) in H1. rewrite drop_app in H1 by (auto; apply U). cbn zeta in H1. cbn [skipn] in H1.
  change (closes r = true) in H1 || (cbn in H1). now apply closes_ok.
Qed.
