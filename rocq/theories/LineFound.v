(** What is recognised in a line: ibids exactly, and the passes one after the other (C66). *)
From Coq Require Import Arith NArith Bool String Lia List.
From Verif Require Import PyStr ListFacts Regex RegexParse RegexMeta RegexLang Patterns DocText Kbs Tag KbFit KbProofs SpanProofs CaptureLang RegexWords ReportProofs ReportGrammar ShippedForms ReportLine BookProofs SpaceProofs PubGrammar PubProofs TitleFound.
From Verif Require TagRebuild UrlProofs TagOk.
Import ListNotations.
Local Notation length := List.length.
Local Open Scope nat_scope.

(** w, between a and b, is an ibid: with the hyphen before it, if there is one, and as much behind it as possible *)
Definition whole_ibid (a w b : str) : Prop := ibid_text w /\ (forall a', a = a' ++ py "-" -> exists v, w = py "-" ++ v)
  /\ forall w' b', w ++ b = w' ++ b' -> ibid_text w' -> length w' <= length w.
Definition em_re : re := Grp 2 (word_re false (py "EM")).
Definition dot_re : re := Cls (mkcls false false [CRange 46 46]).
Lemma ibid_rest_shape : ibid_rest = lits false (py "IBID") (Cat (Rep true 0 (Some 1) em_re) (Rep true 0 (Some 1) dot_re)).
Proof. vm_compute. reflexivity. Qed.
Lemma rd_em a w b c : rd em_re a w b c <-> w = py "EM" /\ c = [(2, py "EM")].
Proof.
  unfold em_re. rewrite rd_grp. split.
  - intros (c' & -> & H). apply rd_word in H as (H & ->); [|discriminate]. cbn in H. subst w. auto.
  - intros (-> & ->). exists []. split; auto. apply rd_word; [discriminate|]. split; reflexivity.
Qed.
Lemma rd_dot a w b c : rd dot_re a w b c <-> w = py "." /\ c = [].
Proof.
  unfold dot_re. rewrite rd_cls. split.
  - intros (d & -> & H & ->). apply (one_char false 46%N) in H. subst d. auto.
  - intros (-> & ->). exists 46%N. split; auto.
Qed.
(** the end of an ibid *)
Lemma ibid_tail a s g res : m (Cat (Rep true 0 (Some 1) em_re) (Rep true 0 (Some 1) dot_re)) (here a s) g accept = Some res ->
  exists e p b, s = e ++ p ++ b /\ (e = py "EM" \/ e = [] /\ forall t, s <> py "EM" ++ t) /\ (p = py "." \/ p = [] /\ forall t, p ++ b <> py "." ++ t) /\ pos (fst res) = length a + length e + length p.
Proof.
  intros H. rewrite m_seq in H. apply peel_option in H; [|intros x g'; apply opt_total; discriminate|reflexivity|cbn; lia].
  assert (forall a' s' g' , m (Rep true 0 (Some 1) dot_re) (here a' s') g' accept = Some res -> exists p b, s' = p ++ b /\ (p = py "." \/ p = [] /\ forall t, p ++ b <> py "." ++ t) /\ pos (fst res) = length a' + length p) as Dot.
  { intros a' s' g' D. apply peel_option in D; [|discriminate|reflexivity|cbn; lia]. destruct D as [(w & b & c & gc & -> & R & _ & K)|(K & N)].
    - apply rd_dot in R as (-> & _). exists (py "."), b. split; auto. split; auto. injection K as <-. cbn [fst here pos]. now rewrite app_length.
    - exists [], s'. split; auto. split; [right; split; auto; intros t E; apply (N (py ".") t []); auto; now apply rd_dot|]. injection K as <-. cbn [fst here pos length]. lia. }
  destruct H as [(w & b & c & gc & -> & R & _ & K)|(K & N)].
  - apply rd_em in R as (-> & _). apply Dot in K as (p & b' & -> & Hp & Ps). exists (py "EM"), p, b'. split; auto. split; auto. split; auto. rewrite Ps, app_length. lia.
  - apply Dot in K as (p & b' & -> & Hp & Ps). exists [], p, b'. split; auto. split; [right; split; auto; intros t E; apply (N (py "EM") t [(2, py "EM")]); auto; now apply rd_em|]. split; auto. cbn [length]. lia.
Qed.
Lemma ibid_run a s o : run (rx_re re_ibid) false (here a s) = Some o -> exists w b, s = w ++ b /\ ibid_text w /\ m_start o = length a /\ m_end o = length a + length w
  /\ forall w' b', w ++ b = w' ++ b' -> ibid_text w' -> length w' <= length w.
Proof.
  intros R. apply run_m in R as (z & g & M & ->). rewrite ibid_cat, m_seq in M. apply m_sound in M as (x1 & g1 & L & M).
  assert (exists d s1, s = d ++ s1 /\ x1 = here (a ++ d) s1 /\ (d = [] \/ d = py "-")) as (d & s1 & -> & -> & Hd).
  { unfold ibid_lead in L. cbn [re_ibid rx_re] in L. apply mt_opt_inv in L as [(-> & _)|L]; [exists [], s; rewrite app_nil_r; auto|].
    apply mt_grp_iff in L as (h1 & L & _). apply mt_alt_iff in L as [L|L].
    - apply mt_cls_fwd in L as (c & F & Mc & _). apply (lit_cls_mem 45%N) in Mc as ->. apply fwd_here_iff in F as (t & -> & ->). exists (py "-"), t. auto.
    - apply mt_wordb_iff in L as (-> & _). exists [], s. rewrite app_nil_r. auto. }
  rewrite ibid_rest_shape in M. apply peel_lits in M as (u & s2 & -> & Hu & M). cbn in Hu. subst u. apply ibid_tail in M as (e & p & b & -> & He & Hp & Ps).
  exists (d ++ py "IBID" ++ e ++ p), b. split; [now rewrite <- !app_assoc|]. split; [exists d, e, p; intuition|]. cbn [m_start m_end]. split; auto. split; [cbn [fst] in Ps; rewrite Ps, !app_length; change (length (py "IBID")) with 4; cbn [length]; lia|].
  intros w' b' E (d' & e' & p' & Hd' & He' & Hp' & ->). rewrite <- !app_assoc in E.
  assert (d = d' \/ length d' < length d) as D. { destruct Hd as [->| ->], Hd' as [->| ->]; [now left|discriminate|right; cbn; lia|now left]. }
  assert (length e' <= 2 /\ length p' <= 1) as [L1 L2] by (split; [destruct He' as [->| ->]|destruct Hp' as [->| ->]]; cbn; lia).
  destruct D as [->|D].
  - apply app_inv_head, app_inv_head in E. rewrite !app_length.
    destruct He as [->|(-> & Ne)].
    + destruct He' as [->| ->]; [|apply app_inv_head in E; destruct Hp as [->|(-> & Np)]; [cbn; lia|destruct Hp' as [->| ->]; [lia|exfalso; exact (Np b' E)]]].
      destruct Hp' as [->| ->]; [cbn; lia|discriminate].
    + destruct He' as [->| ->]; [|exfalso; exact (Ne _ E)]. destruct Hp as [->|(-> & Np)]; [cbn; lia|]. destruct Hp' as [->| ->]; [cbn; lia|exfalso; exact (Np b' E)].
  - exfalso. destruct Hd as [->| ->]; [cbn in D; lia|]. destruct Hd' as [->| ->]; [discriminate|cbn in D; lia].
Qed.
Lemma hyphen_here a b : run (rx_re re_ibid) false (here a (py "-IBID" ++ b)) <> None.
Proof.
  set (x := here a (py "-IBID" ++ b)). unfold run. set (k := fun x' g' => _). rewrite ibid_cat.
  change (m (Cat ibid_lead ibid_rest) x [] k) with (m ibid_lead x [] (fun x' g' => m ibid_rest x' g' k)).
  set (y := here (a ++ py "-") (py "IBID" ++ b)).
  assert (forall g, m ibid_rest y g k <> None) as Q.
  { intros g. apply (m_complete (a ++ py "-IBID" ++ b) ibid_rest y g (here (a ++ py "-IBID") b) g).
    - change (py "-IBID") with (py "-" ++ py "IBID"). rewrite app_assoc. apply (gwords_mt _ _ ibid_words_ok). eexists (lit_word (py "IBID"), _), (py "IBID"). split; [left; reflexivity|]. split; [now apply reads_lits|]. split; [apply fwd_here|reflexivity].
    - unfold y. change (py "-IBID") with (py "-" ++ py "IBID"). rewrite <- (app_assoc (py "-")), (app_assoc a). apply at_here.
    - reflexivity.
    - unfold k. cbn. discriminate. }
  assert (m ibid_lead x [] (fun x' g' => m ibid_rest x' g' k) <> None) as Q2.
  { unfold ibid_lead. cbn [re_ibid rx_re]. rewrite m_rep. cbn [rep_loop plus].
    intros E. apply orelse_none in E as [E _]. change (below 0 (Some 1)) with true in E. cbv iota in E. revert E. set (K := fun x' g' => _).
    apply (m_complete (a ++ py "-IBID" ++ b) _ x [] y [(1, (pos x, pos y))]).
    - apply mt_grp, mt_altl. apply mt_cls with (d := 45%N); [|reflexivity]. unfold x, y, here, step. cbn. f_equal. f_equal. rewrite app_length, rev_app_distr. cbn. f_equal. lia.
    - apply at_here.
    - reflexivity.
    - unfold K. assert (pos x <? pos y = true) as -> by (apply Nat.ltb_lt; unfold x, y; cbn [here pos]; rewrite app_length; cbn; lia). rewrite orb_true_r.
      unfold x at 1. cbn [here suf py app length]. cbn [rep_loop below Nat.ltb Nat.leb orelse]. apply Q. }
  destruct (m ibid_lead _ _ _) as [(u & v)|]; [discriminate|congruence].
Qed.
Lemma text_here a w b : ibid_text w -> run (rx_re re_ibid) false (here a (w ++ b)) <> None.
Proof.
  intros (d & e & p & Hd & _ & _ & ->). destruct Hd as [->| ->]; cbn [app]; rewrite <- !app_assoc; [apply (ibid_here a (e ++ p ++ b))|apply (hyphen_here a (e ++ p ++ b))].
Qed.
Definition ibid_forms : list str := map py ["IBID"; "IBID."; "IBIDEM"; "IBIDEM."; "-IBID"; "-IBID."; "-IBIDEM"; "-IBIDEM."]%string.
Lemma ibid_form w : ibid_text w -> In w ibid_forms.
Proof. intros (d & e & p & [->| ->] & [->| ->] & [->| ->] & ->); vm_compute; tauto. Qed.
(** an ibid that begins inside another one begins behind its hyphen *)
Definition apart (w w0 : str) : bool := forallb (fun k => (k =? 0) || (k =? 1) && eqs (firstn 2 w0) (py "-I")
  || match skipn k w0, w with x :: _, y :: _ => negb (N.eqb x y) | _, _ => false end
  || match skipn k w0, w with x :: x' :: _, y :: y' :: _ => negb (N.eqb x' y') | _, _ => false end) (seq 0 (length w0)).
Lemma forms_apart : forallb (fun w => forallb (apart w) ibid_forms) ibid_forms = true.
Proof. vm_compute. reflexivity. Qed.
Lemma ibid_inside w w0 k b b0 : ibid_text w -> ibid_text w0 -> k < length w0 -> skipn k w0 ++ b0 = w ++ b -> k = 0 \/ k = 1 /\ firstn 2 w0 = py "-I".
Proof.
  intros H H0 L E. apply ibid_form in H, H0. pose proof (proj1 (forallb_forall _ _) forms_apart _ H) as A. pose proof (proj1 (forallb_forall _ _) A _ H0) as A0.
  assert (In k (seq 0 (length w0))) as Ik by (apply in_seq; lia). pose proof (proj1 (forallb_forall _ _) A0 _ Ik) as B. cbn beta in B. clear A A0.
  apply orb_true_iff in B as [B|B]; [apply orb_true_iff in B as [B|B]; [apply orb_true_iff in B as [B|B]|]|].
  - left. now apply Nat.eqb_eq.
  - right. apply andb_true_iff in B as [B1 B2]. split; [now apply Nat.eqb_eq|now apply eqs_eq].
  - exfalso. destruct (skipn k w0) as [|x u], w as [|y v]; try discriminate. injection E as -> _. now rewrite N.eqb_refl in B.
  - exfalso. destruct (skipn k w0) as [|x [|x' u]], w as [|y [|y' v]]; try discriminate. injection E as _ -> _. now rewrite N.eqb_refl in B.
Qed.
Lemma ibid_members line i w : In (i, w) (fst (identify_ibids line)) <-> exists o, In o (re_finditer (rx_re re_ibid) line) /\ i = m_start o /\ w = slice (m_start o) (m_end o) line.
Proof.
  unfold identify_ibids. pose proof (finditer_ok (rx_re re_ibid) line) as (O & C).
  assert (forall o, In o (re_finditer (rx_re re_ibid) line) -> m_start o < m_end o /\ m_end o <= length line) as B.
  { intros o I. destruct (finditer_in _ _ _ I) as (a & v & b & x' & E & F & M & S1 & S2). apply ibid_lang in M as (v' & F' & T).
    assert (length v' = length v) as L.
    { apply fwd_here_iff in F as (t & E1 & ->). apply fwd_here_iff in F' as (t' & E2 & Q). injection Q as Q1 _ _. rewrite !app_length in Q1. lia. }
    apply ibid_text_ok in T as (T & _). rewrite S1, S2, E, !app_length. unfold str, ch in *. lia. }
  rewrite ibids_fold by (intros o I; destruct (B o I); lia). cbn [fst].
  destruct (marked_row (@length ch) line (ibid_entries line) [] line 0) as (_ & Q).
  - apply marked_start.
  - apply ibid_row; auto.
  - intros; apply inside_none; intros ? ? [].
  - fold (ibid_entries line). rewrite Q. unfold ibid_entries. rewrite in_map_iff. split.
    + intros [[]|(o & E & I)]. injection E as <- <-. eauto.
    + intros (o & I & -> & ->). right. eauto.
Qed.
Lemma ibid_object line o : In o (re_finditer (rx_re re_ibid) line) -> exists a w b, line = a ++ w ++ b /\ ibid_text w /\ m_start o = length a /\ m_end o = length a + length w
  /\ forall w' b', w ++ b = w' ++ b' -> ibid_text w' -> length w' <= length w.
Proof.
  intros I. apply finditer_run in I as (x & A & R); [|vm_compute; lia]. destruct (at_is_here _ _ A) as (a & s & -> & -> & _). apply ibid_run in R as (w & b & -> & T & S1 & S2 & Mx). exists a, w, b. auto.
Qed.
Lemma ibids_exact line i w : In (i, w) (fst (identify_ibids line)) <-> exists a b, line = a ++ w ++ b /\ i = length a /\ whole_ibid a w b.
Proof.
  pose proof (ibids_spec line) as Sp. destruct (identify_ibids line) as (m, line') eqn:Em. destruct Sp as (Mk & _ & _). pose proof (ibid_members line) as Mem. rewrite Em in Mem. cbn [fst] in *.
  assert (forall a w b o, line = a ++ w ++ b -> m_start o = length a -> m_end o = length a + length w -> slice (m_start o) (m_end o) line = w) as Sl.
  { intros a v b o E S1 S2. rewrite S1, S2, E. apply slice_mid. }
  split.
  - intros I. pose proof I as I0. apply Mem in I as (o & I & -> & ->). destruct (ibid_object _ _ I) as (a & v & b & E & T & S1 & S2 & Mx). rewrite (Sl a v b o E S1 S2) in *. exists a, b. split; auto. split; auto. split; auto. split; auto.
    intros a' ->. pose proof T as (d & e & p & Hd & He & Hp & Ev). destruct Hd as [->| ->]; [|rewrite Ev; eexists; reflexivity]. exfalso. cbn [app] in Ev.
    assert (line = a' ++ (py "-IBID" ++ e ++ p ++ b)) as E'. { rewrite E, Ev, <- !app_assoc. reflexivity. }
    destruct (finditer_covers (rx_re re_ibid) line _ _ E' (hyphen_here _ _)) as (o' & I' & C1 & C2). destruct (ibid_object _ _ I') as (a0 & w0 & b0 & E0 & T0 & S3 & S4 & _).
    assert (In (length a0, w0) m) as J. { apply Mem. exists o'. rewrite (Sl a0 w0 b0 o' E0 S3 S4). auto. }
    pose proof (mk_disjoint _ _ _ _ Mk _ _ _ _ J I0) as D. rewrite S1, app_length in D. cbn [length py] in D. pose proof (proj1 (ibid_text_ok _ T0)) as L0. unfold str, ch in *.
    assert (length a0 + length w0 = length a' + 1) as Le by (change (length (py "-")) with 1 in D; lia).
    assert (a0 ++ w0 = a' ++ py "-") as Q.
    { assert (firstn (length a' + 1) line = a0 ++ w0) as Q1 by (rewrite E0, app_assoc, <- Le, <- app_length, firstn_app, firstn_all, Nat.sub_diag; apply app_nil_r).
      rewrite <- Q1, E. change (length a' + 1) with (length a' + length (py "-")). rewrite <- app_length, firstn_app, firstn_all, Nat.sub_diag. apply app_nil_r. }
    apply ibid_form in T0. apply (f_equal (@rev ch)) in Q. rewrite !rev_app_distr in Q. cbn in T0. repeat (destruct T0 as [<-|T0]; [discriminate|]). destruct T0.
  - intros (a & b & E & -> & T & Hy & Mx). destruct (finditer_covers (rx_re re_ibid) line _ _ E (text_here _ _ _ T)) as (o & I & C1 & C2). destruct (ibid_object _ _ I) as (a0 & w0 & b0 & E0 & T0 & S3 & S4 & Mx0).
    pose proof (proj1 (ibid_text_ok _ T0)) as L0. apply Mem. exists o. split; auto. rewrite (Sl a0 w0 b0 o E0 S3 S4).
    assert (a = a0 ++ firstn (length a - length a0) w0 /\ skipn (length a - length a0) w0 ++ b0 = w ++ b) as (Qa & Q).
    { assert (length a - length a0 <= length w0) as Lk by lia. pose proof (f_equal (firstn (length a)) E) as F. pose proof (f_equal (skipn (length a)) E) as G. rewrite E0 in F at 1. rewrite E0 in G at 1.
      rewrite (firstn_app _ a), firstn_all, Nat.sub_diag, firstn_O, app_nil_r in F. rewrite skipn_app, (skipn_all2 a0) in G by lia. rewrite (skipn_app _ a), skipn_all, Nat.sub_diag in G. cbn [app skipn] in G.
      rewrite skipn_app in G. replace (length a - length a0 - length w0) with 0 in G by lia. split; [|exact G].
      rewrite firstn_app, firstn_all2 in F by lia. rewrite firstn_app in F. replace (length a - length a0 - length w0) with 0 in F by lia. rewrite firstn_O, app_nil_r in F. now symmetry. }
    destruct (ibid_inside w w0 (length a - length a0) b b0 T T0) as [K|(K & H2)]; auto; [lia| |].
    + rewrite K in *. cbn [firstn skipn] in *. rewrite app_nil_r in Qa. subst a0. split; auto. pose proof (Mx0 w b Q T) as L1. pose proof (Mx w0 b0 (eq_sym Q) T0) as L2.
      apply (f_equal (firstn (length w))) in Q. rewrite !firstn_app in Q. replace (length w - length w0) with 0 in Q by lia. rewrite Nat.sub_diag, !firstn_O, !app_nil_r, firstn_all in Q. rewrite firstn_all2 in Q by lia. now symmetry.
    + exfalso. rewrite K in *. destruct w0 as [|x [|y w0]]; try discriminate. injection H2 as -> ->. destruct (Hy a0 Qa) as (v & ->). discriminate.
Qed.

(** ** All passes *)
(** there is the ibid w at the place i of the line *)
Definition ibid_at (line : str) (i : nat) (w : str) : Prop := exists a b, line = a ++ w ++ b /\ i = length a /\ whole_ibid a w b.
Lemma nodup_in {A} (m : imap A) i v : NoDup (map fst m) -> (iget i m = Some v <-> In (i, v) m).
Proof.
  split; [apply TagOk.iget_in|]. induction m as [|(j & u) m IH]; [intros []|]. inversion H as [|? ? D1 D2]; subst. cbn [iget]. intros [E|I].
  - injection E as -> ->. now rewrite Nat.eqb_refl.
  - destruct (Nat.eqb_spec i j) as [->|Ne]; [|auto]. exfalso. apply D1. apply in_map_iff. now exists (j, v).
Qed.
Lemma put_nodup {A} (hits : list (nat * A)) : NoDup (map fst hits) -> forall m, NoDup (map fst m) -> (forall k, In k (map fst hits) -> ~ In k (map fst m)) -> NoDup (map fst (fold_left (fun m e => iput (fst e) (snd e) m) hits m)).
Proof. intros D m Dm F. exact (proj2 (SpanProofs.put_all_in hits m D F) Dm). Qed.
Lemma update_in {A} (m n : imap A) i v : NoDup (map fst n) -> (iget i (iupdate m n) = Some v <-> In (i, v) n \/ ~ In i (map fst n) /\ iget i m = Some v).
Proof. intros D. unfold iupdate. apply TitleFound.put_all_in. exact D. Qed.
Lemma ibids_pass l4 jm : let (jm', l5) := if contains (py "IBID") (upper l4) then let (ib, l) := identify_ibids l4 in (iupdate jm ib, l) else (jm, l4) in
  blanked (fun q => exists i w, ibid_at l4 i w /\ i <= q < i + length w) l4 l5
  /\ (forall a b, l5 <> a ++ py "IBID" ++ b)
  /\ forall i (t : str), iget i jm' = Some t <-> ibid_at l4 i t \/ (forall w, ~ ibid_at l4 i w) /\ iget i jm = Some t.
Proof.
  destruct (contains (py "IBID") (upper l4)) eqn:C.
  - pose proof (ibids_spec l4) as Sp. pose proof (ibids_exact l4) as Ex. destruct (identify_ibids l4) as (ib, l). cbn [fst] in Ex. destruct Sp as (Mk & _ & No). split; [split|split; [exact No|]].
    + exact (mk_length _ _ _ _ Mk).
    + intros q c Eq. pose proof (mk_chars _ _ _ _ Mk _ _ Eq) as Eq'. split; intros P.
      * assert (inside (@length ch) ib q = true) as In1. { destruct P as (i & w & H & L). apply inside_spec. exists i, w. split; [apply Ex; exact H|lia]. } now rewrite In1 in Eq'.
      * destruct (inside (@length ch) ib q) eqn:In1; [|exact Eq']. apply inside_spec in In1 as (i & w & I & L). exfalso. apply P. exists i, w. split; [apply Ex; exact I|lia].
    + intros i t. rewrite update_in by exact (mk_keys _ _ _ _ Mk). split.
      * intros [I|(N & G)]; [left; apply Ex; exact I|right]. split; auto. intros w H. apply N. apply Ex in H. apply in_map_iff. now exists (i, w).
      * intros [H|(N & G)]; [left; apply Ex; exact H|right]. split; auto. intros I. apply in_map_iff in I as ((j & w) & E & I). cbn in E. subst j. apply (N w). apply Ex. exact I.
  - assert (forall i w, ~ ibid_at l4 i w) as No.
    { intros i w (a & b & -> & _ & (d & e & p & _ & _ & _ & ->) & _). unfold contains in C. destruct (find_sub (py "IBID") _) eqn:F; [discriminate|]. rewrite !upper_app, <- !app_assoc in F. change (upper (py "IBID")) with (py "IBID") in F.
      eapply (find_sub_none _ _ F (upper a ++ upper d)). rewrite <- !app_assoc. reflexivity. }
    split; [split; auto|split].
    + intros q c Eq. split; auto. intros (i & w & H & _). destruct (No _ _ H).
    + intros a b ->. unfold contains in C. destruct (find_sub (py "IBID") _) eqn:F; [discriminate|]. rewrite !upper_app in F. change (upper (py "IBID")) with (py "IBID") in F. exact (find_sub_none _ _ F (upper a) (upper b) eq_refl).
    + intros i t. split; [right; split; auto|]. intros [H|(_ & G)]; auto. destruct (No _ _ H).
Qed.
Lemma journals_pass (dans m : imap str) (hits : list (nat * str)) l4 (jm : imap str) : NoDup (map fst m) -> (forall i t, In (i, t) m <-> In (i, t) hits) ->
  (forall i t, iget i jm = Some t <-> ibid_at l4 i t \/ (forall w, ~ ibid_at l4 i w) /\ iget i (iupdate dans m) = Some t) ->
  forall i t, iget i jm = Some t <-> ibid_at l4 i t \/ (forall w, ~ ibid_at l4 i w) /\ (In (i, t) hits \/ (forall u, ~ In (i, u) hits) /\ iget i dans = Some t).
Proof.
  intros Dj Hj P3 i t. rewrite P3, update_in by exact Dj. rewrite Hj.
  assert (~ In i (map fst m) <-> forall u, ~ In (i, u) hits) as Q; [|now rewrite Q].
  rewrite in_map_iff. split.
  - intros N u I. apply N. exists (i, u). split; [reflexivity|]. now apply Hj.
  - intros N ((k & u) & E & I). cbn in E. subst k. apply Hj in I. exact (N u I).
Qed.
Lemma any_passes E line rows K (pub : str -> nat -> str -> Prop) titles out ti std : k_journals K = build_journals_kb rows -> (forall l i X, iget i (identify_publishers l (k_publishers K)) = Some X <-> pub l i X) -> (forall t, In t (jk_keys (build_journals_kb rows)) -> t <> [] /\ ~ In 95%N t) ->
  tag_reference_line E line K titles = Ok (out, ti, std) ->
  let l1 := working_line1 E line in
  let (spaces, l2) := remove_and_record_multiple_spaces_in_line (sub_text re_punctuation (py " ") (upper (strip_tags l1))) in
  exists dans r hits l4 l5 M,
    identify_journals_re l1 (k_journals_re K) [] = Ok dans
    /\ identify_report_numbers l2 (k_reports K) = Ok r
    /\ titles_marked rows (jk_keys (build_journals_kb rows)) (r_line r) hits l4
    /\ blanked (fun q => exists i w, ibid_at l4 i w /\ i <= q < i + length w) l4 l5
    /\ (forall a b, l5 <> a ++ py "IBID" ++ b)
    /\ (forall i t, iget i (lm_journals M) = Some t <-> ibid_at l4 i t \/ (forall w, ~ ibid_at l4 i w) /\ (In (i, t) hits \/ (forall u, ~ In (i, u) hits) /\ iget i dans = Some t))
    /\ lm_replen M = r_len r /\ lm_reprepl M = r_repl r
    /\ (forall i X, iget i (lm_publishers M) = Some X <-> pub l5 i X)
    /\ lm_spaces M = spaces /\ std = supdate (jk_std (build_journals_kb rows)) (k_journals_re K)
    /\ process_reference_line E l1 M std K = Ok out.
Proof.
  intros Ek Pub C H. cbv zeta. unfold tag_reference_line in H. set (l1 := working_line1 E line) in *. clearbody l1. rewrite Ek in H.
  destruct (identify_journals_re l1 (k_journals_re K) []) as [dans|] eqn:Ed; cbn [bind] in H; [|discriminate].
  destruct (remove_and_record_multiple_spaces_in_line _) as (spaces, l2). destruct (identify_report_numbers l2 (k_reports K)) as [r|] eqn:Er; cbn [bind] in H; [|discriminate].
  destruct (journals_marked rows (jk_keys (build_journals_kb rows)) (fun t I => I) (mkjst [] (r_line r) [])) as (j & hits & Ej & T & Mj). cbn [j_line j_matches] in T, Mj.
  change (identify_journals_from _ _ _) with (identify_journals (r_line r) (build_journals_kb rows)) in Ej. rewrite Ej in H. cbn [bind] in H.
  assert (Forall clean_title (jk_keys (build_journals_kb rows))) as Fc by (apply Forall_forall; exact C). destruct (titles_places _ _ _ _ _ Fc T) as (_ & _ & D).
  assert (NoDup (map fst (j_matches j))) as Dj by (rewrite Mj; apply put_nodup; [exact D|constructor|intros k _ []]).
  assert (forall i t, In (i, t) (j_matches j) <-> In (i, t) hits) as Hj. { intros i t. rewrite <- (nodup_in (j_matches j) i t Dj), Mj, (TitleFound.put_all_in hits D). cbn [iget]. split; [intros [I|(_ & Q)]; [exact I|discriminate]|auto]. }
  destruct (sum_2_dictionaries titles (j_count j)) as [ti'|]; cbn [bind] in H; [|discriminate].
  pose proof (ibids_pass (j_line j) (iupdate dans (j_matches j))) as P. destruct (if contains (py "IBID") (upper (j_line j)) then _ else _) as (jm, l5). destruct P as (P1 & P2 & P3).
  set (M := mklm jm (r_len r) (r_repl r) (identify_publishers l5 (k_publishers K)) spaces) in H.
  destruct (process_reference_line E l1 M _ _) as [tagged|] eqn:Ep; cbn [bind] in H; [|discriminate]. injection H as <- _ <-.
  exists dans, r, hits, (j_line j), l5, M. split; [reflexivity|]. split; [reflexivity|]. split; [exact T|]. split; [exact P1|]. split; [exact P2|]. split.
  - exact (journals_pass dans (j_matches j) hits (j_line j) jm Dj Hj P3).
  - split; [reflexivity|]. split; [reflexivity|]. split; [intros i X; exact (Pub l5 i X)|]. split; [reflexivity|]. split; [reflexivity|exact Ep].
Qed.
Lemma line_passes E line rows books titles out ti std : (forall t, In t (jk_keys (build_journals_kb rows)) -> t <> [] /\ ~ In 95%N t) ->
  tag_reference_line E line (shipped_with rows books) titles = Ok (out, ti, std) ->
  let l1 := working_line1 E line in
  let (spaces, l2) := remove_and_record_multiple_spaces_in_line (sub_text re_punctuation (py " ") (upper (strip_tags l1))) in
  exists dans r hits l4 l5 M,
    identify_journals_re l1 shipped_re_kb [] = Ok dans
    /\ identify_report_numbers l2 shipped_reports_kb = Ok r
    /\ titles_marked rows (jk_keys (build_journals_kb rows)) (r_line r) hits l4
    /\ blanked (fun q => exists i w, ibid_at l4 i w /\ i <= q < i + length w) l4 l5
    /\ (forall a b, l5 <> a ++ py "IBID" ++ b)
    /\ (forall i t, iget i (lm_journals M) = Some t <-> ibid_at l4 i t \/ (forall w, ~ ibid_at l4 i w) /\ (In (i, t) hits \/ (forall u, ~ In (i, u) hits) /\ iget i dans = Some t))
    /\ lm_replen M = r_len r /\ lm_reprepl M = r_repl r
    /\ (forall i X, iget i (lm_publishers M) = Some X <-> publisher_at (map fst shipped_publishers_kb) l5 i X)
    /\ lm_spaces M = spaces /\ std = supdate (jk_std (build_journals_kb rows)) shipped_re_kb
    /\ process_reference_line E l1 M std (shipped_with rows books) = Ok out.
Proof. exact (any_passes E line rows (shipped_with rows books) (fun l i X => publisher_at (map fst shipped_publishers_kb) l i X) titles out ti std eq_refl publishers_exact). Qed.
(** ** The kind of what is recognised at a place *)
Lemma put_kind_get k l : forall m i, iget i (put_kind k m l) = if existsb (Nat.eqb i) l then Some k else iget i m.
Proof.
  unfold put_kind. induction l as [|j l IH]; intros m i; cbn [fold_left existsb]; auto. rewrite IH, iget_iput. destruct (i =? j), (existsb (Nat.eqb i) l); auto.
Qed.
Lemma kinds js rs ps : let types := get_replacement_types js rs ps in
  (forall i, iget i types = Some KPublisher <-> In i ps) /\ (forall i, iget i types = Some KReport <-> In i rs /\ ~ In i ps)
  /\ (forall i, iget i types = Some KJournal <-> In i js /\ ~ In i rs /\ ~ In i ps) /\ forall t1 e t2 f t3, types = t1 ++ e :: t2 ++ f :: t3 -> fst e < fst f.
Proof.
  assert (forall (l : list nat) i, existsb (Nat.eqb i) l = true <-> In i l) as Ex.
  { intros l i. rewrite existsb_exists. split; [intros (x & I & E); apply Nat.eqb_eq in E; now subst x|intros I; exists i; split; auto; apply Nat.eqb_refl]. }
  assert (forall i, iget i (get_replacement_types js rs ps) = if existsb (Nat.eqb i) ps then Some KPublisher else if existsb (Nat.eqb i) rs then Some KReport else if existsb (Nat.eqb i) js then Some KJournal else None) as G.
  { intros i. unfold get_replacement_types. now rewrite !put_kind_get. }
  cbv zeta. split; [|split; [|split]].
  - intros i. rewrite G, <- Ex. destruct (existsb (Nat.eqb i) ps), (existsb (Nat.eqb i) rs), (existsb (Nat.eqb i) js); split; try discriminate; auto.
  - intros i. rewrite G, <- !Ex. destruct (existsb (Nat.eqb i) ps), (existsb (Nat.eqb i) rs), (existsb (Nat.eqb i) js); split; try discriminate; intuition discriminate.
  - intros i. rewrite G, <- !Ex. destruct (existsb (Nat.eqb i) ps), (existsb (Nat.eqb i) rs), (existsb (Nat.eqb i) js); split; try discriminate; intuition discriminate.
  - pose proof (TagRebuild.types_sorted js rs ps) as S. revert S. generalize (get_replacement_types js rs ps). intros ty S t1 e t2 f t3 ->. unfold UrlProofs.by_key in S.
    induction t1 as [|x t1 IH]; cbn [app] in S; inversion S as [|? ? S1 S2]; subst; [|exact (IH S1)]. rewrite Forall_forall in S2. apply S2, in_or_app. right. now left.
Qed.
(** ** The regular expressions of journals *)
Definition dan_rx : rx := Eval vm_compute in the_rx (compile noflags (py "DAN")).
Lemma dan_words : gwords (rx_re dan_rx) = Some [(lit_word (py "DAN"), [])]. Proof. vm_compute. reflexivity. Qed.
Lemma dan_mt a s x' g' : mt (rx_re dan_rx) (here a s) [] x' g' <-> g' = [] /\ exists b, s = py "DAN" ++ b /\ x' = here (a ++ py "DAN") b.
Proof.
  rewrite (gwords_mt _ _ dan_words). split.
  - intros (u & t & [<-|[]] & R & F & ->). cbn [fst snd] in *. apply reads_lits in R as ->. apply fwd_here_iff in F as (b & -> & ->). split; [reflexivity|]. exists b. auto.
  - intros (-> & b & -> & ->). exists (lit_word (py "DAN"), []), (py "DAN"). split; [now left|]. split; [now apply reads_lits|]. split; [apply fwd_here|reflexivity].
Qed.
Lemma dan_exact line : exists dans, identify_journals_re line shipped_re_kb [] = Ok dans
  /\ forall i t, iget i dans = Some t <-> t = py "DAN" /\ exists a b, line = a ++ py "DAN" ++ b /\ i = length a /\ forall a' b', line = a' ++ py "DAN" ++ b' -> length a <= length a'.
Proof.
  assert (forall std, identify_journals_re line [(py "DAN", std)] [] = Ok (match re_search (rx_re dan_rx) line with Some o => [(m_start o, slice (m_start o) (m_end o) line)] | None => [] end)) as E.
  { intros std. cbn [identify_journals_re]. assert (compile noflags (py "DAN") = Ok dan_rx) as -> by (vm_compute; reflexivity). cbn [bind]. destruct (re_search (rx_re dan_rx) line); reflexivity. }
  assert (exists std, shipped_re_kb = [(py "DAN", std)]) as (std & ->) by (eexists; vm_compute; reflexivity). rewrite E. eexists. split; [reflexivity|]. intros i t.
  assert (productive (rx_re dan_rx) = true) as Pr by (vm_compute; reflexivity).
  destruct (re_search (rx_re dan_rx) line) as [o|] eqn:S.
  - pose proof (re_search_first _ _ _ S Pr) as Fi. apply re_search_some in S as (a & w & b & x' & El & F & M & S1 & S2). apply dan_mt in M as (_ & b' & Eb & ->).
    assert (w = py "DAN" /\ b = b') as (-> & ->). { apply fwd_here_iff in F as (t' & E1 & E2). apply app_inv_head in E1. subst t'. injection E2 as Q _ _. rewrite !app_length in Q. assert (length w = 3) as L by (change (length (py "DAN")) with 3 in Q; unfold str, ch in *; lia).
      destruct w as [|x [|y [|z [|]]]]; try discriminate. injection Eb as -> -> -> ->. auto. }
    assert (forall a' b'', line = a' ++ py "DAN" ++ b'' -> length a <= length a') as Least.
    { intros a' b'' E'. destruct (le_lt_dec (length a) (length a')) as [|Lt]; auto. exfalso. rewrite <- S1 in Lt. apply (Fi a' (py "DAN" ++ b'') (here (a' ++ py "DAN") b'') [] E' Lt). apply dan_mt. split; auto. exists b''. auto. }
    assert (slice (m_start o) (m_end o) line = py "DAN") as Sl by (rewrite S1, S2, El; apply slice_mid). rewrite Sl, S1. cbn [iget]. split.
    + destruct (Nat.eqb_spec i (length a)) as [->|]; [|discriminate]. intros Q. injection Q as <-. split; [reflexivity|]. exists a, b'. auto.
    + intros (-> & a1 & b1 & E1 & -> & L1). pose proof (Least _ _ E1). pose proof (L1 _ _ El). assert (length a1 = length a) as -> by lia. now rewrite Nat.eqb_refl.
  - split; [discriminate|]. intros (_ & a & b & El & _). exfalso. apply (re_search_none _ _ S Pr a (py "DAN" ++ b) (here (a ++ py "DAN") b) [] El). apply dan_mt. split; auto. exists b. auto.
Qed.
