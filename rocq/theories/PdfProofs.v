(** Keys and links of a PDF (Pdf.v). *)
From Coq Require Import List Arith ZArith NArith Bool Lia String Permutation Sorting.
From Verif Require Import PyStr ListFacts Regex RegexParse RegexMeta RegexLang Patterns Pdf RecordProofs TransformProofs NormalProofs.
Import ListNotations.
Local Open Scope Z_scope.
Local Notation length := List.length.

(** ** The order *)
Lemma insert_perm {A} two (x : A * position) l : Permutation (insert_pos two x l) (x :: l).
Proof.
  induction l as [|y l IH]; cbn; auto. destruct (pos_leb two (snd x) (snd y)); auto.
  eapply perm_trans; [apply perm_skip, IH|apply perm_swap].
Qed.
Lemma sort_perm {A} two (l : list (A * position)) : Permutation (sort_pos two l) l.
Proof. induction l as [|x l IH]; cbn; auto. eapply perm_trans; [apply insert_perm|auto]. Qed.
Lemma lex_total a b k k' : (k = false -> k' = true) -> lex a b k = false -> lex b a k' = true.
Proof.
  unfold lex. intros H. destruct (Z.ltb_spec a b), (Z.eqb_spec a b), (Z.ltb_spec b a), (Z.eqb_spec b a); cbn; intros E; try discriminate; try lia; auto.
Qed.
Lemma pos_total two a b : pos_leb two a b = false -> pos_leb two b a = true.
Proof.
  unfold pos_leb. destruct two; repeat apply lex_total; intros H; apply Z.leb_gt in H; apply Z.leb_le; lia.
Qed.
Lemma lex_trans a b c k1 k2 k3 : (k1 = true -> k2 = true -> k3 = true) -> lex a b k1 = true -> lex b c k2 = true -> lex a c k3 = true.
Proof.
  unfold lex. intros H. destruct (Z.ltb_spec a b), (Z.eqb_spec a b), (Z.ltb_spec b c), (Z.eqb_spec b c), (Z.ltb_spec a c), (Z.eqb_spec a c); cbn; intros; try discriminate; try lia; auto.
Qed.
Lemma pos_trans two a b c : pos_leb two a b = true -> pos_leb two b c = true -> pos_leb two a c = true.
Proof.
  unfold pos_leb. destruct two; repeat apply lex_trans; intros H H'; apply Z.leb_le in H, H'; apply Z.leb_le; lia.
Qed.
Definition ordered {A} two : list (A * position) -> Prop := StronglySorted (fun a b => pos_leb two (snd a) (snd b) = true).
Lemma insert_ordered {A} two (x : A * position) l : ordered two l -> ordered two (insert_pos two x l).
Proof.
  induction l as [|y l IH]; intros S; cbn.
  - constructor; auto; constructor.
  - inversion S as [|? ? S1 S2]; subst. destruct (pos_leb two (snd x) (snd y)) eqn:E.
    + constructor; auto. constructor; auto. eapply Forall_impl; [|exact S2]. intros z Z. eapply pos_trans; eauto.
    + constructor; [now apply IH|]. apply pos_total in E. apply Forall_forall. intros z I.
      apply (Permutation_in _ (insert_perm two x l)) in I. destruct I as [<-|I]; auto. eapply Forall_forall in S2; eauto.
Qed.
Lemma sort_ordered {A} two (l : list (A * position)) : ordered two (sort_pos two l).
Proof. induction l; cbn; [constructor|now apply insert_ordered]. Qed.

(** ** Every destination has its entry, and only links of the document are reported *)
Lemma match_loop_sub two r n all : forall todo taken left, match_loop two r n all todo = (taken, left) ->
  (forall u, In u taken -> In u (map fst todo)) /\ (left = all \/ exists a, todo = a ++ left).
Proof.
  induction todo as [|x t IH]; cbn; intros taken left H.
  - inversion H; subst. cbn. tauto.
  - destruct (url_verdict two r n (snd x)).
    + destruct (match_loop two r n all t) as [tk lf]. inversion H; subst. destruct (IH _ _ eq_refl) as (A & [B|(a & ->)]).
      * split; auto. intros u [->|I]; auto.
      * split; [intros u [->|I]; auto|]. right. exists (x :: a). reflexivity.
    + destruct (IH _ _ H) as (A & [B|(a & ->)]); split; auto. right. exists (x :: a). reflexivity.
    + inversion H; subst. split; [intros u []|]. right. exists []. reflexivity.
Qed.
Lemma match_urls_sub two r n urls taken left : match_urls_with_reference two urls r n = (taken, left) ->
  (forall u, In u taken -> In u (map fst urls)) /\ exists a, urls = a ++ left.
Proof.
  unfold match_urls_with_reference. destruct (match_loop two r n urls urls) as [tk lf] eqn:E. intros H. inversion H; subst.
  apply match_loop_sub in E as (A & B). split; auto. destruct n; [|exists urls; now rewrite app_nil_r].
  destruct B as [->|B]; auto. exists []. reflexivity.
Qed.
Lemma match_all_spec two refs : forall urls, map fst (match_all two refs urls) = map fst refs
  /\ Forall (fun e => forall u, In u (snd e) -> In u (map fst urls)) (match_all two refs urls).
Proof.
  induction refs as [|r t IH]; intros urls; cbn [match_all map]; auto.
  destruct (match_urls_with_reference two urls (snd r) _) as [taken left] eqn:E. apply match_urls_sub in E as (A & (a & ->)).
  destruct (IH left) as (B & C). cbn [map fst]. split; [congruence|]. constructor; auto. eapply Forall_impl; [|exact C].
  intros e H u I. rewrite map_app, in_app_iff. auto.
Qed.
Lemma locate_fst {A B} f (g : A -> B) l r : locate f g l = Ok r -> map fst r = map g l.
Proof.
  unfold locate. revert r. induction l as [|a l IH]; cbn; intros r H; [inversion H; auto|]. inv_ok H. inv_ok H.
  destruct (f a); cbn in E; inversion E; subst. inversion H; subst. cbn. f_equal. auto.
Qed.
Definition is_cited (d : dest) : bool := match texkey_of (n_key d) with Some _ => true | None => false end.
Definition key_of (d : dest) : str := match texkey_of (n_key d) with Some k => k | None => [] end.
Lemma texkeys_sub dests links l : texkeys_and_urls dests links = Ok l ->
  Permutation (map fst l) (map key_of (filter is_cited dests))
  /\ Forall (fun e => forall u, In u (snd e) -> In u (map l_uri links)) l.
Proof.
  unfold texkeys_and_urls. fold is_cited. intros H. inv_ok H. inv_ok H. inversion H; subst; clear H.
  apply locate_fst in E. change (map fst a = map n_key (filter is_cited dests)) in E. apply locate_fst in E0. set (two := in_two_columns (map snd a)).
  destruct (match_all_spec two (sort_pos two a) (sort_pos two a0)) as (A & B). split.
  - rewrite map_map. cbn [fst].
    rewrite <- (map_map fst (fun k => match texkey_of k with Some k => k | None => [] end)), A.
    unfold key_of. rewrite <- (map_map n_key (fun k => match texkey_of k with Some k => k | None => [] end)), <- E.
    apply Permutation_map, Permutation_map, sort_perm.
  - apply Forall_map. eapply Forall_impl; [|exact B]. cbn. intros e H u I. apply H in I. rewrite <- E0.
    eapply Permutation_in; [|exact I]. apply Permutation_map, sort_perm.
Qed.

(** ** One column of one page *)
Definition on (P c : Z) (p : position) : Prop := p_page p = P /\ p_col p = c.
Lemma verdict_next two P c r n u : on P c r -> on P c n -> on P c u -> p_y r < p_y n -> p_y u <> p_y n ->
  url_verdict two r (Some n) u = if p_y u <? p_y r then Skip else if p_y u <? p_y n then Take else Stop.
Proof.
  intros (R1 & R2) (N1 & N2) (U1 & U2) L D. unfold url_verdict. rewrite R1, R2, N1, N2, U1, U2, !Z.eqb_refl, !Z.ltb_irrefl.
  cbn [andb orb]. rewrite !andb_false_r. cbn [andb orb]. rewrite orb_true_r.
  destruct (Z.ltb_spec (p_y u) (p_y r)), (Z.leb_spec (p_y r) (p_y u)), (Z.leb_spec (p_y u) (p_y n)), (Z.ltb_spec (p_y u) (p_y n)), (Z.leb_spec (p_y n) (p_y u)); try lia; cbn; auto.
Qed.
Lemma verdict_last two P c r u : on P c r -> on P c u ->
  url_verdict two r None u = if p_y u <? p_y r then Skip else Take.
Proof.
  intros (R1 & R2) (U1 & U2). unfold url_verdict. rewrite R1, R2, U1, U2, !Z.eqb_refl. cbn [andb orb].
  destruct (Z.ltb_spec (p_y u) (p_y r)), (Z.leb_spec (p_y r) (p_y u)); try lia; auto.
Qed.
Definition by_y {A} : list (A * position) -> Prop := StronglySorted (fun a b => p_y (snd a) <= p_y (snd b)).
Lemma loop_next two P c r n all : on P c r -> on P c n -> p_y r < p_y n ->
  forall todo taken left, by_y todo -> Forall (fun u => on P c (snd u) /\ p_y (snd u) <> p_y n) todo ->
  match_loop two r (Some n) all todo = (taken, left) ->
  (forall v, In v taken <-> exists p, In (v, p) todo /\ p_y r <= p_y p < p_y n)
  /\ (left = all \/ exists a, todo = a ++ left /\ Forall (fun u => p_y (snd u) < p_y n) a).
Proof.
  intros R N L. induction todo as [|x t IH]; intros taken left S F H.
  - cbn in H. inversion H; subst. split; auto. intros v. split; [intros []|intros (p & [] & _)].
  - inversion S as [|? ? S1 S2]; subst. inversion F as [|? ? [F1 F1'] F2]; subst. cbn [match_loop] in H.
    rewrite (verdict_next _ P c) in H by auto. destruct (Z.ltb_spec (p_y (snd x)) (p_y r)) as [K|K].
    + destruct (IH _ _ S1 F2 H) as (A & B). split.
      * intros v. rewrite A. split; intros (p & I & Q); exists p; split; auto; [now right|]. destruct I as [->|I]; auto. cbn in K. lia.
      * destruct B as [B|(a & -> & B)]; auto. right. exists (x :: a). split; auto. constructor; auto. lia.
    + destruct (Z.ltb_spec (p_y (snd x)) (p_y n)) as [K'|K'].
      * destruct (match_loop two r (Some n) all t) as [tk lf]. inversion H; subst. destruct (IH _ _ S1 F2 eq_refl) as (A & B). split.
        -- intros v. cbn [In]. rewrite A. split.
           ++ intros [<-|(p & I & Q)]; [exists (snd x); split; [left; now destruct x|lia]|exists p; auto].
           ++ intros (p & [->|I] & Q); [now left|right; eauto].
        -- destruct B as [B|(a & -> & B)]; auto. right. exists (x :: a). split; auto.
      * inversion H; subst. split; [|right; exists []; auto]. intros v. split; [intros []|]. intros (p & [->|I] & Q); [cbn in K'; lia|].
        eapply Forall_forall in S2; [|exact I]. cbn in S2. lia.
Qed.
Lemma loop_last two P c r all : on P c r -> forall todo taken left, Forall (fun u => on P c (snd u)) todo ->
  match_loop two r None all todo = (taken, left) -> forall v, In v taken <-> exists p, In (v, p) todo /\ p_y r <= p_y p.
Proof.
  intros R. induction todo as [|x t IH]; intros taken left F H v.
  - cbn in H. inversion H; subst. split; [intros []|intros (p & [] & _)].
  - inversion F as [|? ? F1 F2]; subst. cbn [match_loop] in H. rewrite (verdict_last _ P c) in H by auto.
    destruct (Z.ltb_spec (p_y (snd x)) (p_y r)) as [K|K].
    + rewrite (IH _ _ F2 H). split; intros (p & I & Q); exists p; split; auto; [now right|]. destruct I as [->|I]; auto. cbn in K. lia.
    + destruct (match_loop two r None all t) as [tk lf]. inversion H; subst. cbn [In]. rewrite (IH _ _ F2 eq_refl). split.
      * intros [<-|(p & I & Q)]; [exists (snd x); split; [left; now destruct x|lia]|exists p; auto].
      * intros (p & [->|I] & Q); [now left|right; eauto].
Qed.
Definition strictly {A} : list (A * position) -> Prop := StronglySorted (fun a b => p_y (snd a) < p_y (snd b)).
(** a link belongs to the lowest destination not below it *)
Definition belongs (refs : list (str * position)) (r p : position) : Prop :=
  p_y r <= p_y p /\ forall r', In r' refs -> p_y r < p_y (snd r') -> p_y p < p_y (snd r').
Lemma sorted_app_r {A} (R : A -> A -> Prop) a b : StronglySorted R (a ++ b) -> StronglySorted R b.
Proof. induction a; cbn; auto. intros H. inversion H; auto. Qed.
Lemma match_all_flat two P c (U refs0 : list (str * position)) : forall refs pre urls, refs0 = pre ++ refs ->
  Forall (fun r => on P c (snd r)) refs0 -> strictly refs0 ->
  Forall (fun u => on P c (snd u)) U -> (forall u r, In u U -> In r refs0 -> p_y (snd u) <> p_y (snd r)) ->
  by_y urls -> (forall u, In u urls -> In u U) ->
  (forall u r, In r refs -> In u U -> p_y (snd r) <= p_y (snd u) -> In u urls) ->
  Forall2 (fun r e => fst e = fst r /\ forall v, In v (snd e) <-> exists p, In (v, p) U /\ belongs refs0 (snd r) p) refs (match_all two refs urls).
Proof.
  induction refs as [|r t IH]; intros pre urls E FR SR FU D SU Sub Cov; cbn [match_all]; [constructor|].
  assert (forall x, In x (r :: t) -> on P c (snd x)) as OnR by (intros x I; eapply Forall_forall in FR; [exact FR|]; rewrite E, in_app_iff; auto).
  assert (on P c (snd r)) as Or by (apply OnR; now left).
  assert (strictly (r :: t)) as St by (unfold strictly in SR; rewrite E in SR; eapply sorted_app_r; exact SR). destruct (StronglySorted_inv St) as [St1 St2].
  assert (forall x, In x pre -> p_y (snd x) < p_y (snd r)) as Pre.
  { intros x I. unfold strictly in SR. rewrite E in SR. clear - SR I. induction pre as [|y pre IH]; [destruct I|]. cbn in SR. inversion SR as [|? ? S1 S2]; subst. destruct I as [->|I]; auto.
    eapply Forall_forall in S2; [exact S2|]. rewrite in_app_iff. right. now left. }
  assert (forall u, In u urls -> on P c (snd u)) as Ou by (intros u I; apply Sub in I; eapply Forall_forall in FU; eauto).
  destruct t as [|n t].
  - unfold match_urls_with_reference. destruct (match_loop two (snd r) None urls urls) as [taken left] eqn:M. cbn [match_all]. constructor; [|constructor].
    split; auto. intros v. cbn [snd]. rewrite (loop_last _ P c _ _ Or _ _ _ (proj2 (Forall_forall _ _) Ou) M). split.
    + intros (p & I & Q). exists p. split; auto. split; auto. intros r' I' L. rewrite E in I'. apply in_app_iff in I' as [I'|[<-|[]]]; [|lia].
      apply Pre in I'. lia.
    + intros (p & I & Q & _). exists p. split; auto. apply (Cov (v, p) r); auto. now left.
  - assert (p_y (snd r) < p_y (snd n)) as L by (exact (Forall_inv St2)).
    assert (on P c (snd n)) as On_ by (apply OnR; right; now left).
    unfold match_urls_with_reference. destruct (match_loop two (snd r) (Some (snd n)) urls urls) as [taken left] eqn:M.
    destruct (loop_next two P c (snd r) (snd n) urls Or On_ L urls taken left SU) as (A & B); auto.
    { apply Forall_forall. intros u I. split; auto. apply D; auto. rewrite E, in_app_iff. right. right. now left. }
    constructor.
    + split; auto. intros v. cbn [snd]. rewrite A. split.
      * intros (p & I & Q1 & Q2). exists p. split; auto. split; auto. intros r' I' L'. rewrite E in I'. apply in_app_iff in I' as [I'|[<-|[<-|I']]]; try lia.
        -- apply Pre in I'. lia.
        -- destruct (StronglySorted_inv St1) as [_ St3]. eapply Forall_forall in St3; [|exact I']. cbn in St3. lia.
      * intros (p & I & Q1 & Q2). exists p. split; [apply (Cov (v, p) r); auto; now left|]. split; auto. apply Q2; auto. rewrite E, in_app_iff. right. right. now left.
    + apply (IH (pre ++ [r])); auto.
      * rewrite E, <- app_assoc. reflexivity.
      * destruct B as [->|(a & -> & _)]; auto. unfold by_y in SU. now apply sorted_app_r in SU.
      * intros u I. apply Sub. destruct B as [->|(a & -> & _)]; auto. apply in_app_iff. auto.
      * intros u x I IU Q. assert (p_y (snd n) <= p_y (snd x)) as Lx.
        { destruct I as [<-|I]; [lia|]. destruct (StronglySorted_inv St1) as [_ St3]. eapply Forall_forall in St3; [|exact I]. cbn in St3. lia. }
        assert (In u urls) as IU' by (apply (Cov u r); auto; [now left|lia]).
        destruct B as [->|(a & -> & B)]; auto. apply in_app_iff in IU' as [IU'|IU']; auto. eapply Forall_forall in B; [|exact IU']. cbn in B. lia.
Qed.
(** destinations and links in one column of one page *)
Definition top (d : dest) : Z := match n_top d with Some y => y | None => 0 end.
Definition dest_on (P c : Z) (d : dest) : Prop :=
  n_page d = P /\ n_width d <> 0 /\ (exists y, n_top d = Some y /\ y <> 0) /\ exists x, n_left d = Some x /\ x <> 0 /\ 2 * x / n_width d = c.
Definition link_on (P c : Z) (u : link) : Prop := l_page u = P /\ l_width u <> 0 /\ 2 * l_left u / l_width u = c.
Lemma dest_position P c d : dest_on P c d -> exists p, destination_position d = Ok p /\ on P c p /\ p_y p = - top d.
Proof.
  intros (A & B & (y & Y & Y0) & x & X & X0 & C). unfold destination_position, top. rewrite X, Y.
  destruct (Z.eqb_spec x 0); [contradiction|]. destruct (Z.eqb_spec y 0); [contradiction|]. cbn [orb]. unfold floordiv.
  destruct (Z.eqb_spec (n_width d) 0); [contradiction|]. cbn [bind]. eexists. split; [reflexivity|]. split; [split; auto|reflexivity].
Qed.
Lemma link_position P c u : link_on P c u -> exists p, uri_position u = Ok p /\ on P c p /\ p_y p = - l_top u.
Proof.
  intros (A & B & C). unfold uri_position, floordiv. destruct (Z.eqb_spec (l_width u) 0); [contradiction|]. cbn [bind].
  eexists. split; [reflexivity|]. split; [split; auto|reflexivity].
Qed.
Lemma locate_all {A B} (f : A -> res position) (g : A -> B) (ht : A -> Z) P c l :
  (forall a, In a l -> exists p, f a = Ok p /\ on P c p /\ p_y p = - ht a) ->
  exists r, locate f g l = Ok r /\ Forall2 (fun a e => fst e = g a /\ on P c (snd e) /\ p_y (snd e) = - ht a) l r.
Proof.
  intros H. unfold locate. induction l as [|a l IH]; cbn [mapM].
  - exists []. auto.
  - destruct (H a) as (p & E1 & E2 & E3); [now left|]. rewrite E1. cbn [bind].
    destruct IH as (r & -> & F); [intros; apply H; now right|]. cbn [bind]. exists ((g a, p) :: r). auto.
Qed.
Lemma Forall2_in_r {A B} (R : A -> B -> Prop) l m : Forall2 R l m -> forall b, In b m -> exists a, In a l /\ R a b.
Proof. induction 1 as [|x y l m H F IH]; intros b J; cbn in J; [destruct J|]; destruct J as [->|J]; [exists x|destruct (IH _ J) as (a & J' & Q); exists a]; split; auto; [now left|now right]. Qed.
Lemma Forall2_in_l {A B} (R : A -> B -> Prop) l m : Forall2 R l m -> forall a, In a l -> exists b, In b m /\ R a b.
Proof. induction 1 as [|x y l m H F IH]; intros b J; cbn in J; [destruct J|]; destruct J as [->|J]; [exists y|destruct (IH _ J) as (a & J' & Q); exists a]; split; auto; [now left|now right]. Qed.
Lemma Forall2_map_r {A B C} (R : A -> C -> Prop) (f : B -> C) l m : Forall2 (fun a b => R a (f b)) l m -> Forall2 R l (map f m).
Proof. induction 1; cbn; constructor; auto. Qed.
Lemma Forall2_impl_in {A B} (R T : A -> B -> Prop) l m : (forall a b, In a l -> In b m -> R a b -> T a b) -> Forall2 R l m -> Forall2 T l m.
Proof. intros H F. induction F as [|x y l m Q F IH]; constructor; [apply H; auto; now left|]. apply IH. intros a b I J. apply H; now right. Qed.
Lemma Forall2_flip_ {A B} (R : A -> B -> Prop) l m : Forall2 R l m -> Forall2 (fun b a => R a b) m l.
Proof. induction 1; constructor; auto. Qed.
Lemma Forall2_comp {A B C} (R : A -> B -> Prop) (T : B -> C -> Prop) l m n : Forall2 R l m -> Forall2 T m n ->
  Forall2 (fun a c => exists b, In b m /\ R a b /\ T b c) l n.
Proof.
  intros H. revert n. induction H as [|x y l m H F IH]; intros n G; inversion G; subst; constructor.
  - exists y. split; [now left|auto].
  - eapply Forall2_impl_in; [|apply IH; auto]. intros a c _ _ (b & I & Q). exists b. split; [now right|auto].
Qed.
Lemma ordered_by_y {A} two P c (l : list (A * position)) : Forall (fun e => on P c (snd e)) l -> ordered two l -> by_y l.
Proof.
  unfold ordered, by_y. induction l as [|x l IH]; intros F S; [constructor|]. inversion F; inversion S; subst. constructor; auto.
  apply Forall_forall. intros y I. eapply Forall_forall in H6; [|exact I]. eapply Forall_forall in H2; [|exact I]. destruct H1 as (A1 & A2), H2 as (B1 & B2).
  unfold pos_leb, lex in H6. rewrite A1, A2, B1, B2, !Z.ltb_irrefl, !Z.eqb_refl in H6. cbn [andb orb] in H6. destruct two.
  all: apply orb_true_iff in H6 as [K|K]; [apply Z.ltb_lt in K; lia|apply andb_true_iff in K as [K _]; apply Z.eqb_eq in K; lia].
Qed.
Lemma by_y_strict {A} (l : list (A * position)) : by_y l -> NoDup (map (fun e => p_y (snd e)) l) -> strictly l.
Proof.
  unfold by_y, strictly. induction l as [|x l IH]; intros S D; [constructor|]. inversion S; inversion D; subst. constructor; auto.
  apply Forall_forall. intros y I. eapply Forall_forall in H2; [|exact I].
  assert (p_y (snd x) <> p_y (snd y)); [|lia]. intros Q. apply H5. rewrite Q. now apply (in_map (fun e => p_y (snd e))).
Qed.
Lemma one_column P c dests links : (forall d, In d dests -> is_cited d = true -> dest_on P c d) -> (forall u, In u links -> link_on P c u) ->
  NoDup (map top (filter is_cited dests)) ->
  (forall d u, In d dests -> is_cited d = true -> In u links -> l_top u <> top d) ->
  exists l order, texkeys_and_urls dests links = Ok l /\ Permutation order (filter is_cited dests)
    /\ StronglySorted (fun d d' => top d' < top d) order
    /\ Forall2 (fun d e => texkey_of (n_key d) = Some (fst e)
        /\ forall v, In v (snd e) <-> exists u, In u links /\ l_uri u = v /\ l_top u < top d
             /\ forall d', In d' dests -> is_cited d' = true -> top d' < top d -> top d' < l_top u) order l.
Proof.
  intros HD HL ND NE. set (cited := filter is_cited dests) in *.
  assert (forall d, In d cited <-> In d dests /\ is_cited d = true) as Cit by (intros d; apply filter_In).
  destruct (locate_all destination_position n_key top P c cited) as (refs & ER & FR).
  { intros d I. apply dest_position. apply Cit in I as [I1 I2]. auto. }
  destruct (locate_all uri_position l_uri l_top P c links) as (urls & EU & FU).
  { intros u I. apply link_position. auto. }
  set (two := in_two_columns (map snd refs)).
  destruct (Permutation_Forall2 (Permutation_sym (sort_perm two refs)) (Forall2_flip_ _ _ _ FR)) as (order & PO & FO).
  apply Forall2_flip_ in FO.
  assert (Forall (fun e => on P c (snd e)) (sort_pos two refs)) as OnR.
  { apply Forall_forall. intros e I. destruct (Forall2_in_r _ _ _ FO _ I) as (d & _ & _ & Q & _). auto. }
  assert (Forall (fun e => on P c (snd e)) urls) as OnU.
  { apply Forall_forall. intros e I. destruct (Forall2_in_r _ _ _ FU _ I) as (d & _ & _ & Q & _). auto. }
  assert (Forall (fun e => on P c (snd e)) (sort_pos two urls)) as OnU'.
  { apply Forall_forall. intros e I. eapply Forall_forall in OnU; [exact OnU|]. eapply Permutation_in; [apply sort_perm|exact I]. }
  assert (map (fun e => p_y (snd e)) (sort_pos two refs) = map (fun d => - top d) order) as My.
  { clear - FO. induction FO as [|x y l m H F IH]; cbn; auto. rewrite IH. f_equal. apply H. }
  assert (strictly (sort_pos two refs)) as SR.
  { apply by_y_strict; [eapply ordered_by_y; [exact OnR|apply sort_ordered]|]. rewrite My.
    eapply Permutation_NoDup; [apply Permutation_map; exact PO|]. rewrite <- (map_map top Z.opp).
    apply FinFun.Injective_map_NoDup; auto. intros a b Q. lia. }
  assert (by_y (sort_pos two urls)) as SU by (eapply ordered_by_y; [exact OnU'|apply sort_ordered]).
  pose proof (match_all_flat two P c (sort_pos two urls) (sort_pos two refs) (sort_pos two refs) [] (sort_pos two urls) eq_refl OnR SR OnU') as M.
  assert (forall u r, In u (sort_pos two urls) -> In r (sort_pos two refs) -> p_y (snd u) <> p_y (snd r)) as DU.
  { intros u r IU IR. destruct (Forall2_in_r _ _ _ FO _ IR) as (d & Id & _ & _ & Yd).
    apply (Permutation_in _ (sort_perm two urls)) in IU. destruct (Forall2_in_r _ _ _ FU _ IU) as (w & Iw & _ & _ & Yw).
    rewrite Yd, Yw. apply (Permutation_in _ (Permutation_sym PO)) in Id. apply Cit in Id as [I1 I2]. pose proof (NE d w I1 I2 Iw). lia. }
  specialize (M DU SU (fun u I => I) (fun u r _ I _ => I)).
  eexists. exists order. split; [unfold texkeys_and_urls; fold is_cited; fold cited; change (fun d : dest => n_key d) with n_key; rewrite ER; cbn [bind]; rewrite EU; cbn [bind]; reflexivity|].
  split; [now apply Permutation_sym|]. split.
  { clear - FO SR. unfold strictly in SR. revert SR. induction FO as [|x y l m H F IH]; intros SR; [constructor|]. inversion SR as [|? ? S1 S2]; subst. constructor; auto.
    apply Forall_forall. intros d I. destruct (Forall2_in_l _ _ _ F _ I) as (e & Ie & _ & _ & Ye). eapply Forall_forall in S2; [|exact Ie]. destruct H as (_ & _ & Yy). cbn in S2. lia. }
  fold two. apply Forall2_map_r. pose proof (Forall2_comp _ _ _ _ _ FO M) as G. eapply Forall2_impl_in; [|exact G].
  intros d e Id Ie (r & Ir & (K1 & K2 & K3) & K4 & K5). cbn [fst snd].
  apply (Permutation_in _ (Permutation_sym PO)) in Id. apply Cit in Id as [I1 I2].
  rewrite K4, K1. unfold is_cited in I2. destruct (texkey_of (n_key d)) as [k|] eqn:T; [|discriminate]. split; auto.
  intros v. rewrite K5. split.
  - intros (p & Ip & B1 & B2). apply (Permutation_in _ (sort_perm two urls)) in Ip. destruct (Forall2_in_r _ _ _ FU _ Ip) as (w & Iw & V & _ & Yw). cbn [fst snd] in *.
    exists w. split; auto. split; auto. split.
    + assert (l_top w <> top d); [apply NE; auto; unfold is_cited; now rewrite T|]. lia.
    + intros d' J1 J2 J3. assert (In d' order) as J by (eapply Permutation_in; [exact PO|]; apply Cit; auto).
      destruct (Forall2_in_l _ _ _ FO _ J) as (r' & Ir' & _ & _ & Yr). specialize (B2 r' Ir'). lia.
  - intros (w & Iw & V & Q1 & Q2). destruct (Forall2_in_l _ _ _ FU _ Iw) as (e' & Ie' & E1 & E2 & E3).
    exists (snd e'). split.
    + eapply Permutation_in; [apply Permutation_sym, sort_perm|]. replace (v, snd e') with e'; auto. destruct e'. cbn in *. congruence.
    + split; [lia|]. intros r' Ir' L. destruct (Forall2_in_r _ _ _ FO _ Ir') as (d' & Id' & _ & _ & Yr).
      apply (Permutation_in _ (Permutation_sym PO)) in Id'. apply Cit in Id' as [J1 J2]. specialize (Q2 d' J1 J2). lia.
Qed.

(** ** Names of destinations *)
Definition chr_cls (c : ch) : re := Cls (mkcls false false [CRange c c]).
Fixpoint lits (w : str) (r : re) : re := match w with [] => r | c :: t => Cat (chr_cls c) (lits t r) end.
Lemma mt_lits w r : forall x g x' g', mt (lits w r) x g x' g' <-> exists y, fwd x w y /\ mt r y g x' g'.
Proof.
  induction w as [|c w IH]; intros x g x' g'; cbn [lits].
  - split; [intros H; exists x; split; auto; apply fwd_refl|]. intros (y & F & H). now apply fwd_nil in F as ->.
  - rewrite mt_cat_iff. split.
    + intros (y & h & A & B). apply mt_ch in A as (A & ->). apply IH in B as (z & F & M). exists z. split; auto. apply (fwd_app x [c] y w z); auto.
    + intros (y & F & M). exists (after x [c]), g. pose proof F as (F1 & F2 & F3). split; [apply mt_ch; split; auto; eapply fwd_after; cbn; rewrite F1; reflexivity|].
      apply IH. exists y. split; auto. unfold fwd, after. cbn. rewrite F1, F2, F3. cbn. rewrite <- app_assoc. repeat split; auto. lia.
Qed.
Definition no_lf (w : str) : Prop := ~ In 10%N w.
Lemma mt_rep_any gr : forall x g x' g', mt (Rep gr 0 None Any) x g x' g' <-> exists w, fwd x w x' /\ no_lf w /\ g' = g.
Proof.
  intros x g x' g'. split.
  - intros H. remember (Rep gr 0 None Any) as q eqn:Q. induction H; inversion Q; subst.
    + exists []. split; [apply fwd_refl|]. split; auto. intros [].
    + inversion H0; subst. apply fwd_step in H2. destruct (IHmt2 eq_refl) as (w & W & A & ->). exists (d :: w).
      split; [apply (fwd_app _ [d] x1 w); auto|]. split; auto. intros [K|K]; [congruence|contradiction].
  - intros (w & W & A & ->). revert x W. induction w as [|d w IH]; intros x W.
    + apply fwd_nil in W as ->. constructor.
    + pose proof W as (W1 & W2 & W3). eapply mt_more with (x1 := after x [d]); [discriminate| |].
      * econstructor; [apply fwd_step; eapply fwd_after; cbn; rewrite W1; reflexivity|]. intros ->. apply A. now left.
      * apply IH; [intros K; apply A; now right|]. unfold fwd, after. cbn. rewrite W1, W2, W3. cbn. rewrite <- app_assoc. repeat split; auto. lia.
Qed.
Lemma dest_shape : rx_re re_reference_in_dest = Cat Bos (lits (py "cite.") (Cat (Grp 1 (Rep true 0 None Any)) Eos)).
Proof. reflexivity. Qed.
Lemma texkey_spec name k : texkey_of name = Some k <-> no_lf k /\ (name = py "cite." ++ k \/ name = py "cite." ++ k ++ [10%N]).
Proof.
  assert (forall k, texkey_of name = Some k -> no_lf k /\ (name = py "cite." ++ k \/ name = py "cite." ++ k ++ [10%N])) as Sound.
  { clear k. intros k. unfold texkey_of. destruct (re_match (rx_re re_reference_in_dest) name) as [o|] eqn:E; [|discriminate]. intros H; inversion H; subst; clear H.
    apply re_match_some in E as (w & x' & F & M & _). rewrite dest_shape in M.
    apply mt_cat_iff in M as (y0 & h0 & M0 & M). apply mt_bos in M0 as (-> & -> & _).
    apply mt_lits in M as (y1 & F1 & M). apply mt_cat_iff in M as (y2 & h2 & M2 & M3). apply mt_grp_iff in M2 as (h & M2 & ->).
    apply mt_rep_any in M2 as (v & F2 & Nv & ->). apply mt_eos in M3 as (-> & Q & S).
    unfold g_str, g_text, g_span. rewrite Q. cbn [lookup_group Nat.eqb].
    destruct F1 as (A1 & A2 & A3), F2 as (B1 & B2 & B3). cbn [init suf pos] in A1, A3.
    assert (slice (pos y1) (pos y2) name = v) as ->.
    { unfold slice. rewrite B3, A3, A1, B1. cbn [Nat.add]. rewrite skipn_app, skipn_all, Nat.sub_diag. cbn [skipn app].
      replace (length (py "cite.") + length v - length (py "cite."))%nat with (length v) by lia. rewrite firstn_app, firstn_all, Nat.sub_diag. cbn. apply app_nil_r. }
    split; auto. rewrite A1, B1. destruct S as [->| ->]; [left; now rewrite app_nil_r|right; auto]. }
  split; [apply Sound|]. intros (Nk & E).
  destruct (texkey_of name) as [k'|] eqn:T.
  - destruct (Sound k' eq_refl) as (Nk' & E'). f_equal.
    destruct E as [E|E], E' as [E'|E']; rewrite E in E'; apply app_inv_head in E'; auto.
    + exfalso. apply Nk. rewrite E'. apply in_app_iff. right. now left.
    + exfalso. apply Nk'. rewrite <- E'. apply in_app_iff. right. now left.
    + apply app_inv_tail in E'. auto.
  - exfalso. unfold texkey_of in T. destruct (re_match (rx_re re_reference_in_dest) name) eqn:R; [discriminate|].
    assert (exists t, name = py "cite." ++ k ++ t /\ (t = [] \/ t = [10%N])) as (t & -> & S).
    { destruct E as [->| ->]; [exists []; rewrite app_nil_r; auto|eauto]. }
    eapply re_match_none in R; [|reflexivity]. apply R. rewrite dest_shape. clear R Sound E.
    set (x := init (py "cite." ++ k ++ t)). set (y := after x (py "cite.")).
    assert (fwd x (py "cite.") y) as F1 by (eapply fwd_after; reflexivity).
    assert (fwd y k (after y k)) as F2 by (eapply (fwd_after y k t); destruct F1 as (F1 & _); unfold x in F1; cbn [init suf] in F1; apply app_inv_head in F1; auto).
    apply mt_cat_iff. exists x, []. split; [apply mt_bos; auto|]. apply mt_lits. exists y. split; auto.
    apply mt_cat_iff. exists (after y k). eexists. split.
    + apply mt_grp_iff. eexists. split; [|reflexivity]. apply mt_rep_any. exists k. auto.
    + apply mt_eos. split; [reflexivity|]. split; [reflexivity|]. destruct F1 as (F1 & _), F2 as (F2 & _). unfold x in F1. cbn [init suf] in F1. apply app_inv_head in F1.
      rewrite <- F1 in F2. apply app_inv_head in F2. rewrite <- F2. auto.
Qed.
