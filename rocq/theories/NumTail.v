(** A numeration that ends with the page takes the whole page (C57). *)
From Coq Require Import List Arith NArith Bool String Lia.
From Verif Require Import PyStr ListFacts NumberFacts Regex RegexMeta RegexLang RegexParse Patterns Numeration CaptureLang TaggerProofs ArxivProofs PosProofs NumGrammar NumProofs NumFind.
Import ListNotations.
Local Open Scope nat_scope.
Local Notation length := List.length.

Definition pno_re : re := Eval vm_compute in compiled re_page_num.
Definition rend_re (i : nat) : re := thn (compiled re_page_sep) (Grp i pno_re).
Definition front_re : re := Eval vm_compute in compiled re_page_prefix.
Definition jinst_re (i : nat) : re := Grp i (Cat (Cls (mkcls false false [CRange 112 112; CRange 80 80])) (Cat (Rep true 5 (Some 5) (Cls digit_cls)) (Rep true 0 None (Cls digit_cls)))).
Lemma page_shape k : page_re k = Grp (S k) (Alt (jinst_re (S (S k))) (thn front_re (Cat (Grp (S (S (S k))) pno_re) (Rep true 0 (Some 1) (rend_re (S (S (S (S k))))))))).
Proof. reflexivity. Qed.

Lemma m_reads r a s g (K : cont) res : fair r = true -> m r (here a s) g K = Some res -> exists w b c gc, s = w ++ b /\ rd r a w b c /\ located (a ++ s) gc c /\ K (here (a ++ w) b) (gc ++ g) = Some res.
Proof. intros F H. apply m_sound in H as (x' & g' & M & H). apply (says_all r F) in M as (w & b & c & gc & -> & -> & R & -> & L). exists w, b, c, gc. auto. Qed.
Lemma peel_thn r : forall k a s g (K : cont) res, fair r = true -> m (thn r k) (here a s) g K = Some res ->
  exists u s' c gc, s = u ++ s' /\ rd r a u s' c /\ located (a ++ s) gc c /\ m k (here (a ++ u) s') (gc ++ g) K = Some res.
Proof.
  induction r as [| | |r1 IH1 r2 IH2| | | | | | | |]; intros k a s g K res F H; try (apply (peel _ _ _ _ _ _ _ F) in H; exact H). cbn [fair] in F. apply andb_true_iff in F as [F1 F2]. cbn [thn] in H.
  apply IH1 in H as (u & s' & c & gc & -> & R & L & H); auto. apply IH2 in H as (u2 & s2 & c2 & gc2 & -> & R2 & L2 & H); auto. exists (u ++ u2), s2, (c2 ++ c), (gc2 ++ gc). rewrite <- !app_assoc in *. split; auto.
  split; [apply rd_cat; exists u, u2, c, c2; auto|]. split; [apply located_app; auto|auto].
Qed.
Lemma opt_here r (K : cont) x g : K x g <> None -> m (Rep true 0 (Some 1) r) x g K <> None.
Proof.
  intros HK. change (m (Rep true 0 (Some 1) r) x g K) with (rep_loop true 0 (Some 1) r K (S (length (suf x))) 0 x g). cbn [rep_loop]. change (0 <=? 0) with true.
  unfold orelse. match goal with |- (match ?q with Some _ => _ | None => _ end) <> None => destruct q end; [discriminate|apply HK].
Qed.
Lemma m_opt r a s g (K : cont) res : fair r = true -> 1 <= minlen r -> m (Rep true 0 (Some 1) r) (here a s) g K = Some res ->
  (exists k : cont, m r (here a s) g k = Some res /\ (forall A B g', length a < length A -> length B < length s -> k (here A B) g' = K (here A B) g'))
  \/ (K (here a s) g = Some res /\ forall w b c, s = w ++ b -> rd r a w b c -> exists gc, K (here (a ++ w) b) (gc ++ g) = None).
Proof.
  intros F Mn H. change (rep_loop true 0 (Some 1) r K (S (length s)) 0 (here a s) g = Some res) in H. cbn [rep_loop] in H. change (below 0 (Some 1)) with true in H. cbv iota in H. change (0 <=? 0) with true in H. change (0 <? 0) with false in H. cbn [orb] in H.
  match type of H with orelse (m r (here a s) g ?k') _ = _ => set (k := k') in H end. 
  assert (forall A B g', length a < length A -> length B < length s -> k (here A B) g' = K (here A B) g') as Hk.
  { intros A B g' L LB. unfold k. assert (pos (here a s) <? pos (here A B) = true) as -> by (apply Nat.ltb_lt; exact L). fold (rep_loop true 0 (Some 1) r K). destruct (length s) as [|f] eqn:E; [lia|]. reflexivity. }
  destruct (m r (here a s) g k) as [q|] eqn:Q; cbn [orelse] in H.
  - injection H as ->. left. exists k. auto.
  - right. split; auto. intros w b c -> R. destruct (proj2 (says_all r F) _ _ _ _ g R) as (gc & M & _). pose proof (rd_min _ _ _ _ _ F R). exists gc.
    destruct (K (here (a ++ w) b) (gc ++ g)) as [q|] eqn:E; auto. exfalso. revert Q. eapply (m_complete (a ++ w ++ b)); [exact M|apply here_at|now apply fair_productive|]. rewrite Hk by (rewrite app_length; lia). rewrite E. discriminate.
Qed.
Lemma snoc_inv {A} (u v : list A) x y : u ++ [x] = v ++ [y] -> u = v /\ x = y. Proof. apply app_inj_tail. Qed.
Lemma last_is_snoc p a c : last_is p (a ++ [c]) <-> p c = true.
Proof. unfold last_is. split; [intros (u & d & E & H); apply snoc_inv in E as (_ & <-); auto|eauto]. Qed.
Lemma first_is_cons p c t : first_is p (c :: t) <-> p c = true.
Proof. unfold first_is. split; [intros (d & u & E & H); now injection E as -> ->|eauto]. Qed.
Lemma first_is_nil p : ~ first_is p []. Proof. intros (c & t & E & _). discriminate. Qed.
Definition cC_re : re := Cls (mkcls false false [CRange 99 99; CRange 67 67]).
Definition RL_re : re := Cls (mkcls false false [CRange 82 82; CRange 76 76]).
Lemma pno_shape : pno_re = Cat (Rep true 0 (Some 1) RL_re) (Cat (Rep true 0 (Some 1) (Cls word_cls)) (Cat (Rep true 1 None (Cls digit_cls)) (Rep true 0 (Some 1) cC_re))). Proof. reflexivity. Qed.
Lemma pno_tail a s g (K : cont) res : (forall A B g, a ++ s = A ++ B -> length a < length A -> K (here A B) g <> None) -> m pno_re (here a s) g K = Some res ->
  exists w b, s = w ++ b /\ rd pno_re a w b [] /\ 1 <= length w /\ no_cut (a ++ w) b /\ K (here (a ++ w) b) g = Some res.
Proof.
  intros HK H. rewrite pno_shape in H. apply peel in H as (u1 & s1 & c1 & g1 & -> & R1 & L1 & H); [|reflexivity]. apply peel in H as (u2 & s2 & c2 & g2 & -> & R2 & L2 & H); [|reflexivity].
  assert (c1 = []) as -> by (apply rd_opt in R1 as [(_ & ->)|R]; auto; apply rd_cls in R as (? & _ & _ & ->); auto). assert (c2 = []) as -> by (apply rd_opt in R2 as [(_ & ->)|R]; auto; apply rd_cls in R as (? & _ & _ & ->); auto).
  inversion L1; inversion L2; subst. cbn [app] in H. rewrite m_seq in H. apply peel_longest in H as (w3 & b3 & -> & D3 & M3 & _ & H & N). rewrite !app_assoc in *.
  assert (~ first_is is_digit b3) as Nd.
  { intros (d & t & -> & D). specialize (N (w3 ++ [d]) t). rewrite <- app_assoc in N. specialize (N eq_refl).
    assert (forallb (cls_mem digit_cls) (w3 ++ [d]) = true) as Dd by (etransitivity; [apply forallb_app|]; apply andb_true_iff; split; [exact D3|cbn [forallb]; now rewrite digit_mem, D]).
    specialize (N Dd). rewrite app_length in N. cbn [length] in N.
    specialize (N ltac:(lia) I). revert N. apply opt_here. rewrite !app_assoc. apply HK; [now rewrite <- !app_assoc|]. rewrite !app_length. cbn. lia. }
  apply m_reads in H as (w4 & b4 & c4 & g4 & -> & R4 & L4 & H); [|reflexivity].
  assert (c4 = []) as -> by (apply rd_opt in R4 as [(_ & ->)|R]; auto; apply rd_cls in R as (? & _ & _ & ->); auto). inversion L4; subst. cbn [app] in H.
  exists (u1 ++ u2 ++ w3 ++ w4), b4. rewrite <- !app_assoc in *. split; auto. split; [|split; [rewrite !app_length; lia|split; auto]].
  - rewrite pno_shape. apply rd_cat. exists u1, (u2 ++ w3 ++ w4), [], []. rewrite <- !app_assoc. split; auto. split; auto. split; auto. apply rd_cat. exists u2, (w3 ++ w4), [], []. rewrite <- !app_assoc. split; auto. split; auto. split; auto. apply rd_cat. exists w3, w4, [], []. split; auto. split; auto. split.
    { apply rd_rep_cls. cbn. auto. } now rewrite <- !app_assoc.
  - intros (La & Fb). apply rd_opt in R4 as [(-> & _)|R4]; [now apply Nd|]. apply rd_cls in R4 as (d & -> & D & _). rewrite !app_assoc in La. apply last_is_snoc in La. unfold cC_re in D. rewrite class_items in D. cbn [existsb item_mem] in D. rewrite !range_one, orb_false_r, orb_true_iff, !N.eqb_eq in D. destruct D as [->| ->]; discriminate La.
Qed.

Definition tail_ok (k : nat) (a b : str) (c : caps) : Prop := no_cut a b /\ (cap (S (S (S (S k)))) c = None -> cap (S (S k)) c = None -> ~ range_follows a b).
Definition g0 (f : field) : nat := 5 + field_code f.
Lemma reads_pno g : reads g pno_re page_number.
Proof. unfold pno_re, page_number. tree. Qed.
Definition psep_re : re := Eval vm_compute in compiled re_page_sep.
Lemma psep_shape i : rend_re i = thn psep_re (Grp i pno_re). Proof. reflexivity. Qed.
Lemma reads_psep g : reads g psep_re (blanks ;; any_of "-" ;; blanks).
Proof. unfold psep_re, blanks. tree. Qed.
Lemma no_fields (g : field -> nat) fs : caps_of g fs = [] -> fs = []. Proof. destruct fs; [auto|discriminate]. Qed.
Lemma rd_pno a w b c : rd pno_re a w b c -> c = [].
Proof.
  intros R. destruct c as [|(i, t) c]; auto. destruct (rd_groups pno_re eq_refl _ _ _ _ R i t (or_introl eq_refl)) as (k & K & _). destruct K.
Qed.
Lemma rd_psep a w b c : rd psep_re a w b c -> c = [].
Proof.
  intros R. destruct c as [|(i, t) c]; auto. destruct (rd_groups psep_re eq_refl _ _ _ _ R i t (or_introl eq_refl)) as (k & K & _). destruct K.
Qed.
Lemma range_rd i a b : range_follows a b -> exists u v, b = u ++ v /\ exists c, rd (rend_re i) a u v c.
Proof.
  intros (u & v & -> & (x & y & f1 & f2 & -> & E & X & Y)). symmetry in E. apply app_eq_nil in E as (-> & ->). exists (x ++ y), v. split; auto. exists [(i, y)]. rewrite psep_shape. apply (proj2 (rd_thn psep_re (Grp i pno_re) _ _ _ _)). apply rd_cat. exists x, y, [], [(i, y)]. split; auto. split; auto.
  split; [apply (reads_psep g0); exists []; auto|]. apply rd_grp. exists []. split; auto. apply (reads_pno g0). exists []. auto.
Qed.
Lemma located_one s a w b i : s = a ++ w ++ b -> located s [(i, (length a, length (a ++ w)))] [(i, w)].
Proof. intros ->. constructor; [|constructor]. cbn [fst snd]. split; auto. rewrite app_length. apply slice_mid. Qed.
(** the optional end of a range is read whole, and it is read if it is there *)
Lemma rend_tail i a s g (K : cont) res : (forall A B g, a ++ s = A ++ B -> length a <= length A -> K (here A B) g <> None) -> no_cut a s -> m (Rep true 0 (Some 1) (rend_re i)) (here a s) g K = Some res ->
  exists w b c gc, s = w ++ b /\ rd (Rep true 0 (Some 1) (rend_re i)) a w b c /\ located (a ++ s) gc c /\ no_cut (a ++ w) b /\ (cap i c = None -> ~ range_follows (a ++ w) b) /\ K (here (a ++ w) b) (gc ++ g) = Some res.
Proof.
  intros HK Nc H. apply m_opt in H as [(k & H & Hk)|(H & N)]; [| |reflexivity|cbn; lia].
  - rewrite psep_shape in H. apply peel_thn in H as (u & s' & c & gc & -> & R & L & H); [|reflexivity]. rewrite m_group in H. pose proof (rd_psep _ _ _ _ R) as ->. inversion L; subst gc. cbn [app] in H.
    assert (1 <= length u) as Lu by (apply rd_min in R; [exact R|reflexivity]).
    apply pno_tail in H as (w & b & -> & Rw & Lw & Nw & H).
    + cbn [here pos] in H. rewrite Hk in H by (rewrite !app_length; lia). exists (u ++ w), b, [(i, w)], [(i, (length (a ++ u), length ((a ++ u) ++ w)))]. rewrite <- !app_assoc in *. split; auto. split; [|split; [|split; auto; split; auto]].
      * apply rd_opt. right. rewrite psep_shape. apply (proj2 (rd_thn psep_re (Grp i pno_re) _ _ _ _)). apply rd_cat. exists u, w, [], [(i, w)]. split; auto. split; auto. split; auto. apply rd_grp. eauto.
      * replace (length (a ++ u ++ w)) with (length ((a ++ u) ++ w)) by now rewrite <- app_assoc. apply (located_one _ _ _ b). now rewrite <- !app_assoc.
      * cbn [cap]. rewrite Nat.eqb_refl. discriminate.
    + intros A B g' E LA. cbn [here pos]. rewrite Hk; [|rewrite app_length in LA; lia|]. { apply HK; [now rewrite <- app_assoc in E|]. rewrite app_length in LA. lia. }
      apply (f_equal (@length ch)) in E. rewrite !app_length in E. rewrite !app_length in LA |- *. lia.
  - exists [], s, [], []. rewrite app_nil_r. split; auto. split; [apply rd_opt; auto|]. split; [constructor|]. split; auto. split; auto. intros _ Rf. apply (range_rd i) in Rf as (u & v & -> & c & R).
    destruct (N u v c eq_refl R) as (gc & N'). revert N'. apply HK; [now rewrite app_assoc|rewrite app_length; lia].
Qed.
Definition ends_well (T : str -> str -> caps -> Prop) (r : re) : Prop := forall a s g (K : cont) res, (forall x g, K x g <> None) -> m r (here a s) g K = Some res ->
  exists w b c gc, s = w ++ b /\ located (a ++ s) gc c /\ rd r a w b c /\ T (a ++ w) b c /\ K (here (a ++ w) b) (gc ++ g) = Some res.
Lemma ends_page k : ends_well (tail_ok k) (page_re k).
Proof.
  intros a s g K0 res HK0 H. rewrite page_shape in H |- *. rewrite m_group in H. set (K := fun (x' : st) (g' : groups) => K0 x' ((S k, (pos (here a s), pos x')) :: g')) in H.
  assert (forall x g, K x g <> None) as HK by (intros; apply HK0).
  assert (exists w b c gc, s = w ++ b /\ rd (Alt (jinst_re (S (S k))) (thn front_re (Cat (Grp (S (S (S k))) pno_re) (Rep true 0 (Some 1) (rend_re (S (S (S (S k))))))))) a w b c /\ located (a ++ s) gc c /\ K (here (a ++ w) b) (gc ++ g) = Some res
    /\ tail_ok k (a ++ w) b c) as (w & b & c & gc & -> & R & L & E & T).
  { match type of H with m (Alt ?r1 ?r2) ?x ?g0 ?k0 = _ => change (orelse (m r1 x g0 k0) (fun _ => m r2 x g0 k0) = Some res) in H; destruct (m r1 x g0 k0) as [q|] eqn:Q end; cbn [orelse] in H.
    - injection H as ->. unfold jinst_re in Q. rewrite m_group in Q. apply peel in Q as (u & s1 & c1 & g1 & -> & R1 & L1 & Q); [|reflexivity]. apply rd_cls in R1 as (d & -> & D & ->). inversion L1; subst g1. cbn [app] in Q.
      apply peel in Q as (u2 & s2 & c2 & g2 & -> & R2 & L2 & Q); [|reflexivity]. pose proof R2 as R2'. apply rd_rep_cls in R2' as (_ & _ & _ & ->). inversion L2; subst g2. cbn [app] in Q.
      apply peel_most in Q as (w & b & -> & Dw & _ & _ & [E|Nb] & Q); [discriminate E| |intros; apply HK].
      exists ([d] ++ u2 ++ w), b, [(S (S k), [d] ++ u2 ++ w)], [(S (S k), (length a, length (a ++ [d] ++ u2 ++ w)))]. rewrite <- !app_assoc in *. split; auto. split; [|split; [|split]].
      + apply rd_alt. left. apply rd_grp. exists []. split; auto. apply rd_cat. exists [d], (u2 ++ w), [], []. split; auto. split; auto. split; [apply rd_cls; eauto|]. apply rd_cat. exists u2, w, [], []. split; auto. split; auto. split; auto. apply rd_rep_cls. cbn. repeat split; auto. lia.
      + apply (located_one _ _ _ b). now rewrite <- !app_assoc.
      + exact Q.
      + split; [|cbn [cap]; rewrite Nat.eqb_refl; discriminate]. intros (_ & Fb). destruct b as [|x b]; [now apply first_is_nil in Fb|]. apply first_is_cons in Fb. rewrite digit_mem in Nb. congruence.
    - clear Q. apply peel_thn in H as (u & s1 & c1 & g1 & -> & R1 & L1 & H); [|reflexivity]. assert (c1 = []) as ->.
      { destruct c1 as [|(i, t) c]; auto. destruct (rd_groups front_re eq_refl _ _ _ _ R1 i t (or_introl eq_refl)) as (j & J & _). destruct J. }
      inversion L1; subst g1. cbn [app] in H. rewrite m_seq, m_group in H. apply pno_tail in H as (w & b & -> & Rw & Lw & Nw & H); [|intros; apply opt_total, HK].
      apply rend_tail in H as (w2 & b2 & c2 & g2 & -> & R2 & L2 & N2 & Rf & H); auto.
      exists (u ++ w ++ w2), b2, (c2 ++ [(S (S (S k)), w)]), (g2 ++ [(S (S (S k)), (length (a ++ u), length ((a ++ u) ++ w)))]). rewrite <- !app_assoc in *. split; auto. split; [|split; [|split]].
      + apply rd_alt. right. apply (proj2 (rd_thn front_re _ _ _ _ _)). apply rd_cat. exists u, (w ++ w2), [], (c2 ++ [(S (S (S k)), w)]). rewrite app_nil_r, <- !app_assoc. split; auto. split; auto. split; auto. apply rd_cat. exists w, w2, [(S (S (S k)), w)], c2. rewrite <- !app_assoc. split; auto. split; auto. split; auto. apply rd_grp. eauto.
      + apply located_app; [|exact L2]. replace (length (a ++ u ++ w)) with (length ((a ++ u) ++ w)) by now rewrite <- app_assoc. apply (located_one _ _ _ (w2 ++ b2)). now rewrite <- !app_assoc.
      + exact H.
      + split; auto. intros E1 _. apply Rf. destruct (cap (S (S (S (S k)))) c2) as [t|] eqn:E; auto. exfalso. apply cap_some in E. eapply cap_in; [|exact E1]. apply in_app_iff. eauto. }
  exists w, b, ((S k, w) :: c), ((S k, (length a, length (a ++ w))) :: gc). split; auto. split; [apply (located_app _ gc c [_] [_]); auto; apply (located_one _ _ _ b); auto|].
  split; [apply rd_grp; eauto|]. split; [|exact E]. destruct T as (T1 & T2). split; auto. cbn [cap]. destruct (Nat.eqb_spec (S (S (S (S k)))) (S k)); [lia|]. destruct (Nat.eqb_spec (S (S k)) (S k)); [lia|]. auto.
Qed.
Definition kept (T : str -> str -> caps -> Prop) : Prop := forall a b c c', T a b c -> T a b (c ++ c').
Lemma kept_tail k : kept (tail_ok k).
Proof.
  intros a b c2 c (T1 & T2). split; auto. assert (forall i, cap i (c2 ++ c) = None -> cap i c2 = None) as Q. { intros i. destruct (cap i c2) as [t|] eqn:E; auto. intros N. exfalso. apply cap_some in E. eapply cap_in; [|exact N]. apply in_app_iff. eauto. }
  intros E1 E2. apply T2; auto.
Qed.
Lemma ends_thn T r1 r2 : kept T -> fair r1 = true -> ends_well T r2 -> ends_well T (thn r1 r2).
Proof.
  intros KT F H a s g K res HK M. apply peel_thn in M as (u & s' & c & gc & -> & R & L & M); auto. apply H in M as (w & b & c2 & gc2 & -> & L2 & R2 & T2 & M); auto. exists (u ++ w), b, (c2 ++ c), (gc2 ++ gc). rewrite <- !app_assoc in *. split; auto.
  split; [now apply located_app|]. split; [apply (proj2 (rd_thn r1 r2 _ _ _ _)); apply rd_cat; exists u, w, c, c2; auto|]. split; [now apply KT|exact M].
Qed.
Lemma ends_cat T r1 r2 : kept T -> fair r1 = true -> ends_well T r2 -> ends_well T (Cat r1 r2).
Proof.
  intros KT F H a s g K res HK M. apply peel in M as (u & s' & c & gc & -> & R & L & M); auto. apply H in M as (w & b & c2 & gc2 & -> & L2 & R2 & T2 & M); auto. exists (u ++ w), b, (c2 ++ c), (gc2 ++ gc). rewrite <- !app_assoc in *. split; auto.
  split; [now apply located_app|]. split; [apply rd_cat; exists u, w, c, c2; auto|]. split; [now apply KT|exact M].
Qed.
Lemma ends_grp k i r : i <> S (S k) -> i <> S (S (S (S k))) -> ends_well (tail_ok k) r -> ends_well (tail_ok k) (Grp i r).
Proof.
  intros N1 N2 H a s g K res HK M. rewrite m_group in M. apply H in M as (w & b & c & gc & -> & L & R & (T1 & T2) & M); [|intros; apply HK]. exists w, b, ((i, w) :: c), ((i, (length a, length (a ++ w))) :: gc). split; auto.
  split; [apply (located_app _ gc c [_] [_]); auto; apply (located_one _ _ _ b); auto|]. split; [apply rd_grp; eauto|]. split; [|exact M]. split; auto. cbn [cap]. destruct (Nat.eqb_spec (S (S (S (S k)))) i); [congruence|]. destruct (Nat.eqb_spec (S (S k)) i); [congruence|]. auto.
Qed.
Lemma kept_closed : kept (fun a b _ => closed a b). Proof. intros a b c c'. auto. Qed.
Lemma ends_year k : ends_well (fun a b _ => closed a b) (year_re k).
Proof.
  rewrite year_shape. do 7 (apply ends_cat; [exact kept_closed|reflexivity|]). intros a s g K res HK M. apply peel_option in M as [(w & b & c & gc & -> & R & L & M)|(M & N)]; auto.
  - pose proof R as R'. apply rd_cls in R' as (d & -> & D & ->). inversion L; subst gc. exists [d], b, [], []. split; auto. split; auto. split; [apply rd_opt; auto|]. split; auto. intros _. apply last_is_snoc. cbn in D. rewrite range_one, orb_false_r in D. rewrite N.eqb_sym. now destruct (N.eqb d 41).
  - exists [], s, [], []. split; auto. split; [constructor|]. rewrite !app_nil_r. split; [apply rd_opt; auto|]. split; auto. intros (d & t & -> & D). apply N.eqb_eq in D. subst d. exfalso. apply (N [41%N] t [] eq_refl). apply rd_cls. now exists 41%N.
Qed.
Definition page_at (n : nat) : nat := nth n [0; 0; 0; 6; 6; 5; 5; 6; 0; 0; 5] 0.
Ltac ends := match goal with
  | |- ends_well _ (page_re _) => apply ends_page
  | |- ends_well _ (year_re _) => apply ends_year
  | |- ends_well _ (thn _ _) => apply ends_thn; [first [apply kept_tail | exact kept_closed]|reflexivity|ends]
  | |- ends_well _ (Cat _ _) => apply ends_cat; [first [apply kept_tail | exact kept_closed]|reflexivity|ends] end.
Lemma ends_orders n : page_last n = true -> ends_well (tail_ok (page_at n)) (nth n orders_re Eps).
Proof. intros P. do 11 (destruct n as [|n]; [try discriminate P; cbn [nth orders_re page_at]; ends|]). apply existsb_exists in P as (x & I & E). apply Nat.eqb_eq in E. subst x. cbn in I. intuition lia. Qed.

Lemma ends_years n : n < 11 -> page_last n = false -> ends_well (fun a b _ => closed a b) (nth n orders_re Eps).
Proof. intros L P. do 11 (destruct n as [|n]; [try discriminate P; cbn [nth orders_re]; ends|]). lia. Qed.

(** ** What the search finds, with the end of the numeration *)
Definition closes (p : part) : Prop := forall a w b fs, p a w b fs -> no_cut (a ++ w) b.
Lemma closes_seq p q : closes q -> closes (p ;; q).
Proof. intros H a w b fs (u & v & f1 & f2 & -> & _ & _ & Q). apply H in Q. now rewrite <- app_assoc in Q. Qed.
Lemma closes_year : closes year.
Proof.
  unfold year. do 6 apply closes_seq. intros a w b fs (u & v & f1 & f2 & -> & _ & (-> & _ & N) & [(-> & _)|((c & -> & C) & _)]).
  - intros (_ & F). now apply N.
  - intros (F & _). rewrite app_nil_l in F. apply last_is_snoc in F. cbn in C. rewrite orb_false_r in C. apply N.eqb_eq in C. subst c. discriminate.
Qed.
Lemma closes_orders n : n < 11 -> page_last n = false -> closes (nth n orders no_part).
Proof. intros L P. do 11 (destruct n as [|n]; [try discriminate P; cbn [nth orders]; repeat first [apply closes_year | apply closes_seq]|]). lia. Qed.
Lemma run_ends T r a s o : ends_well T r -> run r false (here a s) = Some o ->
  exists w b c, s = w ++ b /\ rd r a w b c /\ m_end o = length (a ++ w) /\ (forall i, i <> 0 -> g_text (a ++ s) o i = cap i c) /\ T (a ++ w) b c.
Proof.
  intros H R. unfold run in R. cbn [andb] in R. destruct (m r (here a s) [] _) as [(z, gs)|] eqn:M; [|discriminate]. injection R as <-. apply H in M as (w & b & c & gc & -> & L & R & HT & E); [|intros; discriminate]. injection E as <- <-. exists w, b, c. rewrite app_nil_r.
  split; auto. split; auto. split; [reflexivity|]. split; auto. intros [|i] I; [congruence|]. unfold g_text. cbn [g_span m_groups]. now apply located_cap.
Qed.
Definition found_as (p : rx) (q : part) (x : str -> str -> fields -> Prop) : Prop := usable false p = true /\ reads (group_no p) (rx_re p) q
  /\ forall s o, re_match (rx_re p) s = Some o -> exists w b fs, s = w ++ b /\ q [] w b fs /\ x w b fs /\ rd (rx_re p) [] w b (caps_of (group_no p) fs) /\ m_end o = length w /\ (forall i, i <> 0 -> g_text s o i = cap i (caps_of (group_no p) fs)).
Lemma found_orders n : n < 11 -> found_as (nth n numeration_rxs rx0) (nth n orders no_part) (whole n).
Proof.
  intros L. assert (usable false (nth n numeration_rxs rx0) = true) as U by (pose proof usable_all as U; rewrite forallb_forall in U; apply U, nth_In; exact L).
  assert (reads (group_no (nth n numeration_rxs rx0)) (rx_re (nth n numeration_rxs rx0)) (nth n orders no_part)) as Rd by (rewrite shape_nth; now apply reads_orders).
  split; [exact U|]. split; [exact Rd|]. intros s o H. destruct (usable_parts false _ U) as (F & I & Z). destruct (page_last n) eqn:P.
  - pose proof (ends_orders n P) as E. rewrite <- shape_nth in E. destruct (run_ends _ _ [] _ _ E H) as (w & b & c & -> & R & Le & G & T1 & T2). pose proof R as R'. apply Rd in R' as (fs & Q & ->). exists w, b, fs. split; auto. split; auto. split; auto.
    split; auto. rewrite P. intros E1 E2. apply T2.
    + rewrite <- E1, <- (cap_field _ Fpage_end fs I). f_equal. clear -L P. do 11 (destruct n as [|n]; [try discriminate P; reflexivity|]). lia.
    + rewrite <- E2, <- (cap_field _ Fjinst fs I). f_equal. clear -L P. do 11 (destruct n as [|n]; [try discriminate P; reflexivity|]). lia.
  - pose proof (ends_years n L P) as E. rewrite <- shape_nth in E. destruct (run_ends _ _ [] _ _ E H) as (w & b & c & -> & R & Le & G & T). pose proof R as R'. apply Rd in R' as (fs & Q & ->). exists w, b, fs. split; auto. split; auto. split; auto.
    split; [apply (closes_orders n L P [] w b fs Q)|rewrite P; exact T].
Qed.
Lemma with_whole s : forall ps qs x, length ps = length qs -> (forall n, n < length ps -> found_as (nth n ps rx0) (nth n qs no_part) (x n)) ->
  match find_numeration_with ps s with
  | Ok (Some i) => exists k p w b fs, nth_error qs k = Some p /\ (forall j q, j < k -> nth_error qs j = Some q -> ~ begins q s) /\ s = w ++ b /\ p [] w b fs /\ x k w b fs /\ reported false fs (length w) i
  | Ok None => forall q, In q qs -> ~ begins q s
  | Err _ => False end.
Proof.
  induction ps as [|p ps IH]; intros [|q qs] x L H; try discriminate; cbn [find_numeration_with]; [intros q []|]. destruct (H 0 ltac:(cbn; lia)) as (U & Rd & M). cbn [nth] in *. specialize (M s). destruct (usable_parts false _ U) as (F & _ & _).
  pose proof (match_spec (rx_re p) s F) as N. destruct (re_match (rx_re p) s) as [o|].
  - destruct (M o eq_refl) as (w & b & fs & E & Q & X & R & Le & G). destruct (info_reported p s o [] w b fs U R G) as (i & -> & I). cbn [bind]. rewrite Le in I. exists 0, q, w, b, fs. split; auto. split; [intros j; lia|]. auto.
  - assert (~ begins q s) as N'. { intros (w & b & fs & E & Q). apply (N w b (caps_of (group_no p) fs) E). apply Rd. eauto. }
    specialize (IH qs (fun n => x (S n))). cbn in L. specialize (IH ltac:(lia)). assert (forall n, n < length ps -> found_as (nth n ps rx0) (nth n qs no_part) (x (S n))) as H' by (intros n Ln; apply (H (S n)); cbn; lia). specialize (IH H').
    destruct (find_numeration_with ps s) as [[i|]|]; auto.
    + destruct IH as (k & r & w & b & fs & K & J & I). exists (S k), r, w, b, fs. split; auto. split; auto. intros [|j] q' Lt E; cbn in E; [now injection E as <-|]. eapply J; eauto. lia.
    + intros q' [<-|I]; auto.
Qed.
Definition numeration_of (s : str) (i : numinfo) : Prop :=
  exists k p w b fs, nth_error orders k = Some p /\ (forall j q, j < k -> nth_error orders j = Some q -> ~ begins q s) /\ s = w ++ b /\ p [] w b fs /\ whole k w b fs /\ reported false fs (length w) i.
Theorem find_numeration_whole s : exists r, find_numeration s = Ok r /\ match r with Some i => numeration_of s i | None => forall p, In p orders -> ~ begins p s end.
Proof.
  pose proof (with_whole s numeration_rxs orders whole eq_refl found_orders) as H. unfold find_numeration. destruct (find_numeration_with numeration_rxs s) as [r|]; [|contradiction]. exists r. split; [reflexivity|]. destruct r as [i|]; exact H.
Qed.

(** ** The same for find_numeration_more *)
Definition title_page_at (n : nat) : nat := nth n [7; 8; 6; 7] 0.
Ltac ends2 := first [apply ends_page | apply ends_thn; [apply kept_tail|reflexivity|ends2] | apply ends_cat; [apply kept_tail|reflexivity|ends2] | apply ends_grp; [discriminate|discriminate|ends2]].
Lemma ends_titles n : n < 4 -> ends_well (tail_ok (title_page_at n)) (nth n title_orders_re Eps).
Proof. intros L. do 4 (destruct n as [|n]; [cbn [nth title_orders_re title_page_at]; ends2|]). lia. Qed.
Lemma search_ends k r s o : ends_well (tail_ok k) r -> fair r = true -> re_search r s = Some o -> exists a w b c, s = a ++ w ++ b /\ rd r a w b c /\ (forall i, i <> 0 -> g_text s o i = cap i c) /\ tail_ok k (a ++ w) b c
  /\ forall p q u v c', a = p ++ q -> q <> [] -> q ++ w ++ b = u ++ v -> ~ rd r p u v c'.
Proof.
  intros E F H. unfold re_search in H. pose proof (search_from r s []) as S. cbn [length rev app] in S. rewrite H in S. destruct S as (a & u & -> & R & N). destruct (run_ends _ _ _ _ _ E R) as (w & b & c & -> & D & _ & G & T). exists a, w, b, c. split; auto. split; auto. split; auto. split; auto.
  intros p q u v c' E1 Q E'. specialize (N p q E1 Q). rewrite E' in N. now apply run_not.
Qed.
Definition title_found (p : rx) (q : part) : Prop := usable true p = true /\ reads (group_no p) (rx_re p) q
  /\ forall s o, re_search (rx_re p) s = Some o -> exists a w b fs, s = a ++ w ++ b /\ q a w b fs /\ whole_page (a ++ w) b fs /\ rd (rx_re p) a w b (caps_of (group_no p) fs) /\ (forall i, i <> 0 -> g_text s o i = cap i (caps_of (group_no p) fs))
      /\ forall a' w' b' fs', s = a' ++ w' ++ b' -> length a' < length a -> ~ q a' w' b' fs'.
Lemma title_found_orders n : n < 4 -> title_found (nth n second_try rx0) (nth n title_orders no_part).
Proof.
  intros L. assert (usable true (nth n second_try rx0) = true) as U by (pose proof usable_more as U; rewrite forallb_forall in U; apply U, nth_In; exact L).
  assert (rx_re (nth n second_try rx0) = nth n title_orders_re Eps) as Sh by (rewrite <- title_shape; symmetry; apply (map_nth rx_re second_try rx0 n)).
  assert (reads (group_no (nth n second_try rx0)) (rx_re (nth n second_try rx0)) (nth n title_orders no_part)) as Rd by (rewrite Sh; now apply reads_title_orders).
  split; [exact U|]. split; [exact Rd|]. intros s o H. destruct (usable_parts true _ U) as (F & I & Z). pose proof (ends_titles n L) as E. rewrite <- Sh in E.
  destruct (search_ends _ _ _ _ E F H) as (a & w & b & c & -> & R & G & (T1 & T2) & N). pose proof R as R'. apply Rd in R' as (fs & Q & ->). exists a, w, b, fs. split; auto. split; auto. split; [split; auto|].
  - intros E1 E2. apply T2.
    + rewrite <- E1, <- (cap_field _ Fpage_end fs I). f_equal. clear -L. do 4 (destruct n as [|n]; [reflexivity|]). lia.
    + rewrite <- E2, <- (cap_field _ Fjinst fs I). f_equal. clear -L. do 4 (destruct n as [|n]; [reflexivity|]). lia.
  - split; auto. split; auto. intros a' w' b' fs' E' Lt Q'. assert (exists q0, a = a' ++ q0 /\ q0 <> [] /\ q0 ++ w ++ b = w' ++ b') as (q0 & E1 & E2 & E3).
    { clear -E' Lt. revert a E' Lt. induction a' as [|x a' IHa]; intros a E' Lt; [exists a; cbn in *; split; auto; split; auto; destruct a; [cbn in Lt; lia|discriminate]|].
      destruct a as [|y a]; [cbn in Lt; lia|]. cbn [app] in E'. injection E' as <- E'. cbn [length] in Lt. destruct (IHa a E') as (q0 & -> & E2 & E3); [lia|]. exists q0. auto. }
    apply (N a' q0 w' b' (caps_of (group_no (nth n second_try rx0)) fs') E1 E2 E3). apply Rd. eauto.
Qed.
Lemma more_whole s : forall ps qs, length ps = length qs -> (forall n, n < length ps -> title_found (nth n ps rx0) (nth n qs no_part)) ->
  match find_numeration_more_with ps s with
  | Ok (Some i) => exists k p a w b fs t, nth_error qs k = Some p /\ (forall j q, j < k -> nth_error qs j = Some q -> ~ contains q s) /\ s = a ++ w ++ b /\ p a w b fs
      /\ (forall a' w' b' fs', s = a' ++ w' ++ b' -> length a' < length a -> ~ p a' w' b' fs') /\ whole_page (a ++ w) b fs /\ field_of Fafter fs = Some t /\ reported true fs (length t) i
  | Ok None => forall q, In q qs -> ~ contains q s
  | Err _ => False end.
Proof.
  induction ps as [|p ps IH]; intros [|q qs] L H; try discriminate; cbn [find_numeration_more_with]; [intros q []|]. destruct (H 0 ltac:(cbn; lia)) as (U & Rd & M). cbn [nth] in *. specialize (M s). destruct (usable_parts true _ U) as (F & _ & _).
  pose proof (search_spec (rx_re p) s F) as N. destruct (re_search (rx_re p) s) as [o|].
  - destruct (M o eq_refl) as (a & w & b & fs & E & Q & X & R & G & First). destruct (info_more_reported p s o a w b fs U R G) as (i & t & T & -> & I). cbn [bind]. exists 0, q, a, w, b, fs, t. split; auto. split; [intros j; lia|]. auto 8.
  - assert (~ contains q s) as N'. { intros (a & w & b & fs & E & Q). apply (N a w b (caps_of (group_no p) fs) E). apply Rd. eauto. }
    cbn in L. assert (forall n, n < length ps -> title_found (nth n ps rx0) (nth n qs no_part)) as H' by (intros n Ln; apply (H (S n)); cbn; lia). specialize (IH qs ltac:(lia) H').
    destruct (find_numeration_more_with ps s) as [[i|]|]; auto.
    + destruct IH as (k & r & a & w & b & fs & t & K & J & I). exists (S k), r, a, w, b, fs, t. split; auto. split; auto. intros [|j] q' Lt E; cbn in E; [now injection E as <-|]. eapply J; eauto. lia.
    + intros q' [<-|I]; auto.
Qed.
Definition title_numeration_of (s : str) (i : numinfo) : Prop :=
  exists k p a w b fs t, nth_error title_orders k = Some p /\ (forall j q, j < k -> nth_error title_orders j = Some q -> ~ contains q s) /\ s = a ++ w ++ b /\ p a w b fs
    /\ (forall a' w' b' fs', s = a' ++ w' ++ b' -> length a' < length a -> ~ p a' w' b' fs') /\ whole_page (a ++ w) b fs /\ field_of Fafter fs = Some t /\ reported true fs (length t) i.
Theorem find_numeration_more_whole s : exists r, find_numeration_more s = Ok r /\ match r with Some i => title_numeration_of s i | None => forall p, In p title_orders -> ~ contains p s end.
Proof.
  pose proof (more_whole s second_try title_orders eq_refl title_found_orders) as H. unfold find_numeration_more. destruct (find_numeration_more_with second_try s) as [r|]; [|contradiction]. exists r. split; [reflexivity|]. destruct r as [i|]; exact H.
Qed.
