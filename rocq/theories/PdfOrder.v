(** The order of the keys of a PDF, and its links when the page has two columns (C35). *)
From Coq Require Import ZArith NArith Arith Bool String Lia List Sorting Permutation.
From Verif Require Import PyStr ListFacts Pdf PdfProofs.
Import ListNotations.
Local Open Scope Z_scope.

(** ** The order *)
Definition dleft (d : dest) : Z := match n_left d with Some x => x | None => 0 end.
(** 0 in the left half of the page, 1 in the right half *)
Definition half (d : dest) : Z := 2 * dleft d / n_width d.
Definition pos_of (d : dest) : position := mkpos (n_page d) (half d) (- top d) (dleft d).
Lemma position_is d p : destination_position d = Ok p -> p = pos_of d.
Proof.
  unfold destination_position, pos_of, half, dleft, top. destruct (n_left d) as [x|], (n_top d) as [y|]; try discriminate. destruct (_ || _); [discriminate|].
  unfold floordiv. destruct (n_width d =? 0); cbn [bind]; [discriminate|]. intros H. now injection H as <-.
Qed.
Lemma locate_is {A B} f (g : A -> B) (h : A -> position) l r : (forall a p, In a l -> f a = Ok p -> p = h a) -> locate f g l = Ok r -> r = map (fun a => (g a, h a)) l.
Proof.
  unfold locate. revert r. induction l as [|a l IH]; cbn [mapM map]; intros r H E; [now injection E as <-|].
  destruct (f a) as [p|] eqn:Ef; cbn [bind] in E; [|discriminate]. destruct (mapM _ l) as [r'|] eqn:El; cbn [bind] in E; [|discriminate]. injection E as <-.
  rewrite (H a p (or_introl eq_refl) Ef). f_equal. apply IH; auto. intros b q I. apply H. now right.
Qed.
(** d comes before d' on pages with one column, with two columns *)
Definition above (d d' : dest) : Prop := top d' < top d \/ top d = top d' /\ dleft d <= dleft d'.
Definition before_one (d d' : dest) : Prop := n_page d < n_page d' \/ n_page d = n_page d' /\ above d d'.
Definition before_two (d d' : dest) : Prop := n_page d < n_page d' \/ n_page d = n_page d' /\ (half d < half d' \/ half d = half d' /\ above d d').
(** three keys in the right half begin at the same place of their lines *)
Definition second_column (ds : list dest) : Prop := exists x, (3 <= List.length (filter (fun d => (half d =? 1)%Z && (dleft d =? x)%Z) ds))%nat.
Lemma thrice l : forall seen, some_thrice seen l = true <-> exists x, (1 <= zcount x l /\ 3 <= zcount x seen + zcount x l)%nat.
Proof.
  induction l as [|y l IH]; intros seen; cbn [some_thrice].
  - split; [discriminate|]. intros (x & H & _). cbn in H. lia.
  - rewrite orb_true_iff, Nat.leb_le, IH. split.
    + intros [H|(x & H1 & H2)].
      * exists y. cbn [zcount]. rewrite Z.eqb_refl. lia.
      * exists x. cbn [zcount] in *. destruct (x =? y); lia.
    + intros (x & H1 & H2). cbn [zcount] in H1, H2. destruct (zcount x l) as [|k] eqn:E.
      * destruct (Z.eqb_spec x y) as [->|]; [|lia]. left. lia.
      * right. exists x. rewrite E. cbn [zcount]. destruct (x =? y); lia.
Qed.
Lemma count_filter x ds : zcount x (map p_x (filter (fun p => p_col p =? 1) (map pos_of ds))) = List.length (filter (fun d => (half d =? 1) && (dleft d =? x)) ds).
Proof.
  induction ds as [|d ds IH]; cbn [map filter]; auto. cbn [pos_of p_col]. destruct (half d =? 1); cbn [andb map zcount pos_of p_x]; auto.
  rewrite Z.eqb_sym. destruct (dleft d =? x); cbn [List.length]; auto.
Qed.
Lemma two_columns_iff ds : in_two_columns (map pos_of ds) = true <-> second_column ds.
Proof.
  unfold in_two_columns, second_column. rewrite thrice. split; intros (x & H).
  - exists x. rewrite count_filter in H. cbn [zcount] in H. lia.
  - exists x. rewrite count_filter. cbn [zcount]. lia.
Qed.
Lemma lex_iff a b (k : bool) : lex a b k = true <-> a < b \/ a = b /\ k = true.
Proof. unfold lex. rewrite orb_true_iff, andb_true_iff, Z.ltb_lt, Z.eqb_eq. reflexivity. Qed.
Lemma leb_one d d' : pos_leb false (pos_of d) (pos_of d') = true <-> before_one d d'.
Proof. unfold pos_leb, before_one, above. rewrite !lex_iff, Z.leb_le. cbn [pos_of p_page p_y p_x]. intuition lia. Qed.
Lemma leb_two d d' : pos_leb true (pos_of d) (pos_of d') = true <-> before_two d d'.
Proof. unfold pos_leb, before_two, above. rewrite !lex_iff, Z.leb_le. cbn [pos_of p_page p_col p_y p_x]. intuition lia. Qed.
Lemma sorted_map {A B} (f : A -> B) (R : B -> B -> Prop) (T : A -> A -> Prop) l : (forall a b, R (f a) (f b) -> T a b) -> StronglySorted R (map f l) -> StronglySorted T l.
Proof.
  intros H. induction l as [|a l IH]; cbn [map]; intros S; [constructor|]. inversion S as [|? ? S1 S2]; subst. constructor; auto. apply Forall_forall. intros b I. rewrite Forall_forall in S2. apply H, S2, in_map. exact I.
Qed.
Definition named (d : dest) : str * position := (n_key d, pos_of d).
Lemma texkeys_order dests links l : texkeys_and_urls dests links = Ok l -> exists order, Permutation order (filter is_cited dests) /\ map fst l = map key_of order
  /\ (second_column (filter is_cited dests) -> StronglySorted before_two order) /\ (~ second_column (filter is_cited dests) -> StronglySorted before_one order).
Proof.
  unfold texkeys_and_urls. fold is_cited. set (cited := filter is_cited dests). intros H.
  destruct (locate destination_position (fun d => n_key d) cited) as [refs|] eqn:Er; cbn [bind] in H; [|discriminate].
  apply (locate_is _ _ pos_of) in Er; [|intros d p _; apply position_is]. change (refs = map named cited) in Er. subst refs.
  assert (map snd (map named cited) = map pos_of cited) as Ms by (rewrite map_map; reflexivity). rewrite Ms in H.
  destruct (locate uri_position l_uri links) as [urls|]; cbn [bind] in H; [|discriminate]. injection H as <-. set (two := in_two_columns (map pos_of cited)) in *.
  destruct (Permutation_map_inv named _ (sort_perm two (map named cited))) as (order & Eo & Po). exists order. split; [now apply Permutation_sym|].
  split. { rewrite map_map. cbn [fst]. rewrite <- (map_map fst (fun k => match texkey_of k with Some k => k | None => [] end)), (proj1 (match_all_spec two _ _)), Eo, !map_map. reflexivity. }
  pose proof (sort_ordered two (map named cited)) as S. rewrite Eo in S. unfold ordered in S. split; intros C.
  - apply two_columns_iff in C. fold two in C. rewrite C in S. eapply sorted_map; [|exact S]. intros d d' Q. now apply leb_two.
  - assert (two = false) as C'. { destruct two eqn:T; auto. exfalso. apply C, two_columns_iff. exact T. } rewrite C' in S. eapply sorted_map; [|exact S]. intros d d' Q. now apply leb_one.
Qed.

(** ** A page with two columns *)
Definition in_order (a b : position) : Prop := p_col a < p_col b \/ p_col a = p_col b /\ p_y a <= p_y b.
Definition lower (a b : position) : Prop := p_col a < p_col b \/ p_col a = p_col b /\ p_y a < p_y b.
Lemma loop_takes two r n all : forall todo v p, StronglySorted (fun a b => in_order (snd a) (snd b)) todo -> In (v, p) todo ->
  (forall x, In x todo -> in_order (snd x) p -> url_verdict two r n (snd x) <> Stop) -> url_verdict two r n p = Take -> In v (fst (match_loop two r n all todo)).
Proof.
  induction todo as [|x t IH]; intros v p S I N T; [destruct I|]. inversion S as [|? ? S1 S2]; subst. cbn [match_loop]. destruct I as [->|I].
  - cbn [snd fst]. rewrite T. destruct (match_loop two r n all t). now left.
  - rewrite Forall_forall in S2. assert (url_verdict two r n (snd x) <> Stop) as Nx by (apply N; [now left|apply (S2 _ I)]).
    assert (In v (fst (match_loop two r n all t))) as Iv by (apply (IH v p); auto; intros y Iy; apply N; now right).
    destruct (url_verdict two r n (snd x)); [|exact Iv|congruence]. destruct (match_loop two r n all t). now right.
Qed.
Lemma loop_stops two r n all : forall todo v p, In (v, p) todo -> url_verdict two r n p = Stop ->
  exists pre h t, todo = pre ++ h :: t /\ snd (match_loop two r n all todo) = h :: t /\ url_verdict two r n (snd h) = Stop /\ In (v, p) (h :: t).
Proof.
  induction todo as [|x t IH]; intros v p I T; [destruct I|]. cbn [match_loop]. destruct (url_verdict two r n (snd x)) eqn:V.
  - destruct I as [->|I]; [cbn in V; congruence|]. destruct (IH v p I T) as (pre & h & t' & E1 & E2 & E3 & E4). exists (x :: pre), h, t'. split; [now rewrite E1|]. destruct (match_loop two r n all t). auto.
  - destruct I as [->|I]; [cbn in V; congruence|]. destruct (IH v p I T) as (pre & h & t' & E1 & E2 & E3 & E4). exists (x :: pre), h, t'. split; [now rewrite E1|]. auto.
  - exists [], x, t. auto.
Qed.
Lemma loop_taken two r n all : forall todo v, In v (fst (match_loop two r n all todo)) -> exists p, In (v, p) todo /\ url_verdict two r n p = Take.
Proof.
  induction todo as [|x t IH]; intros v I; [destruct I|]. cbn [match_loop] in I. destruct (url_verdict two r n (snd x)) eqn:V.
  - destruct (match_loop two r n all t) as [tk lf]. destruct I as [<-|I]; [exists (snd x); split; [left; now destruct x|auto]|]. destruct (IH v I) as (p & J & T). exists p. split; [now right|auto].
  - destruct (IH v I) as (p & J & T). exists p. split; [now right|auto].
  - destruct I.
Qed.
Lemma taken_fst two urls r n : fst (match_urls_with_reference two urls r n) = fst (match_loop two r n urls urls).
Proof. unfold match_urls_with_reference. now destruct (match_loop two r n urls urls). Qed.
(** what an entry reports was taken for its destination and the next one *)
Lemma all_taken two refs : forall urls i r e v, nth_error refs i = Some r -> nth_error (match_all two refs urls) i = Some e -> In v (snd e) ->
  exists p, In (v, p) urls /\ url_verdict two (snd r) (option_map snd (nth_error refs (Datatypes.S i))) p = Take.
Proof.
  induction refs as [|r0 t IH]; intros urls i r e v Hr He I; [destruct i; discriminate|]. cbn [match_all] in He.
  pose proof (taken_fst two urls (snd r0) (match t with [] => None | n :: _ => Some (snd n) end)) as TF.
  destruct (match_urls_with_reference two urls (snd r0) _) as [taken left] eqn:E. cbn [fst] in TF. destruct i as [|i].
  - cbn in Hr, He. injection Hr as <-. injection He as <-. cbn [snd] in I. rewrite TF in I. apply loop_taken in I as (p & I & T). exists p. split; auto. cbn [nth_error]. now destruct t.
  - cbn [nth_error] in Hr, He. destruct (IH left i r e v Hr He I) as (p & Ip & T). exists p. split; [|exact T].
    apply match_urls_sub in E as (_ & (a & ->)). apply in_or_app. now right.
Qed.
Definition left_right (p : position) : Prop := p_col p = 0 \/ p_col p = 1.
Lemma taken_own P r n u : on P (p_col r) r -> on P (p_col r) n -> p_page u = P -> left_right r -> left_right u ->
  url_verdict true r (Some n) u = Take -> p_col u = p_col r /\ p_y r <= p_y u <= p_y n.
Proof.
  intros (R1 & _) (N1 & N2) U1 LR LU. unfold url_verdict. rewrite R1, N1, U1, N2, !Z.eqb_refl, !Z.ltb_irrefl, ?(Z.eqb_sym (P + 1)). cbn [andb orb negb].
  rewrite !andb_false_r. cbn [andb orb].
  destruct (Z.leb_spec (p_y r) (p_y u)), (Z.leb_spec (p_y u) (p_y n)), (Z.eqb_spec (p_col u) (p_col r)), (Z.leb_spec (p_y n) (p_y u)); cbn [andb orb]; try discriminate; auto; unfold left_right in *;
  destruct (Z.ltb_spec (p_col u) (p_col r)), (Z.ltb_spec (p_y n) (p_y u)), (Z.eqb_spec (p_col r) (p_col u)), (Z.ltb_spec (p_col r) (p_col u)), (Z.ltb_spec (p_y u) (p_y n)); cbn [andb orb]; try discriminate; try lia.
Qed.
Lemma taken_last P r u : on P 1 r -> p_page u = P -> left_right u -> url_verdict true r None u = Take -> p_col u = 1 /\ p_y r <= p_y u.
Proof.
  intros (R1 & R2) U1 LU. unfold url_verdict. rewrite R1, R2, U1, Z.eqb_refl. unfold left_right in LU.
  destruct (Z.eqb_spec (P + 1) P); [lia|]. rewrite orb_false_r. cbn [andb]. destruct (Z.leb_spec (p_y r) (p_y u)), (Z.eqb_spec 1 (p_col u)), (Z.ltb_spec 1 (p_col u)); cbn [andb orb]; try discriminate; lia.
Qed.
(** the lowest of the left column takes the links of its column below it *)
Lemma takes_last P r n u : on P 0 r -> on P 1 n -> on P 0 u -> p_y r <= p_y u -> url_verdict true r (Some n) u = Take.
Proof.
  intros (R1 & R2) (N1 & N2) (U1 & U2) L. unfold url_verdict. rewrite R1, R2, N1, N2, U1, U2, !Z.eqb_refl, !Z.ltb_irrefl. cbn [andb orb negb].
  apply Z.leb_le in L. rewrite L. destruct (Z.leb_spec (p_y u) (p_y n)), (Z.ltb_spec (p_y n) (p_y u)); cbn; auto; lia.
Qed.
Lemma left_complete P : forall refs urls,
  (forall r, In r refs -> p_page (snd r) = P /\ left_right (snd r)) -> (forall u, In u urls -> p_page (snd u) = P /\ left_right (snd u)) ->
  StronglySorted (fun a b => lower (snd a) (snd b)) refs -> StronglySorted (fun a b => in_order (snd a) (snd b)) urls ->
  (forall r u, In r refs -> In u urls -> p_col (snd u) = p_col (snd r) -> p_y (snd u) <> p_y (snd r)) ->
  (forall h t, refs = h :: t -> (exists r', In r' t /\ p_col (snd r') = 0) \/ forall u, In u urls -> p_col (snd u) = 0 -> p_y (snd h) <= p_y (snd u)) ->
  forall i r e v p, nth_error refs i = Some r -> nth_error (match_all true refs urls) i = Some e -> p_col (snd r) = 0 -> In (v, p) urls -> p_col p = 0 -> p_y (snd r) <= p_y p ->
    (forall r', In r' refs -> p_col (snd r') = 0 -> p_y (snd r) < p_y (snd r') -> p_y p < p_y (snd r')) -> In v (snd e).
Proof.
  induction refs as [|h t IH]; intros urls HR HU SR SU D Safe i r e v p Hr He Cr Iv Cp Lp Own; [destruct i; discriminate|].
  cbn [match_all] in He. pose proof (taken_fst true urls (snd h) (match t with [] => None | n :: _ => Some (snd n) end)) as TF.
  destruct (match_urls_with_reference true urls (snd h) _) as [taken left] eqn:E. cbn [fst] in TF. destruct (StronglySorted_inv SR) as [SR1 SR2]. rewrite Forall_forall in SR2.
  assert (forall x, In x urls -> p_col (snd x) = 0 -> on P 0 (snd x)) as OnU by (intros x I C; split; [apply (HU x I)|exact C]).
  assert (p_page p = P) as Pp by apply (HU _ Iv). assert (on P 0 p) as Op by (split; auto).
  assert (forall x, In x urls -> in_order (snd x) p -> p_col (snd x) = 0 /\ p_y (snd x) <= p_y p) as Before.
  { intros x I [O|[O1 O2]]; [|split; [congruence|exact O2]]. destruct (HU x I) as (_ & [Q|Q]); lia. }
  destruct i as [|i].
  - cbn in Hr, He. injection Hr as <-. injection He as <-. cbn [snd]. rewrite TF. assert (on P 0 (snd h)) as Oh by (split; [apply (HR h); now left|exact Cr]).
    apply (loop_takes true (snd h) _ urls urls v p SU Iv).
    + intros x I O. destruct (Before x I O) as (Cx & Lx). destruct t as [|n t].
      * rewrite (verdict_last _ P 0) by auto. destruct (_ <? _); discriminate.
      * destruct (HR n (or_intror (or_introl eq_refl))) as (Pn & [Cn|Cn]).
        -- assert (p_y (snd h) < p_y (snd n)) as L by (destruct (SR2 n (or_introl eq_refl)) as [?|[_ ?]]; [lia|auto]).
           assert (p_y p < p_y (snd n)) as L' by (apply Own; auto; right; now left).
           rewrite (verdict_next _ P 0) by (auto; try (split; auto); lia). destruct (_ <? _); [discriminate|]. destruct (Z.ltb_spec (p_y (snd x)) (p_y (snd n))); [discriminate|lia].
        -- destruct (Safe h (n :: t) eq_refl) as [(r' & Ir & Cr')|A].
           ++ exfalso. destruct Ir as [<-|Ir]; [lia|]. destruct (StronglySorted_inv SR1) as [_ SR3]. rewrite Forall_forall in SR3. destruct (SR3 r' Ir) as [Q|[Q _]]; lia.
           ++ rewrite (takes_last P) by (auto; split; auto). discriminate.
    + destruct t as [|n t].
      * rewrite (verdict_last _ P 0) by auto. destruct (Z.ltb_spec (p_y p) (p_y (snd h))); [lia|auto].
      * destruct (HR n (or_intror (or_introl eq_refl))) as (Pn & [Cn|Cn]).
        -- assert (p_y (snd h) < p_y (snd n)) as L by (destruct (SR2 n (or_introl eq_refl)) as [?|[_ ?]]; [lia|auto]).
           assert (p_y p < p_y (snd n)) as L' by (apply Own; auto; right; now left).
           rewrite (verdict_next _ P 0) by (auto; try (split; auto); lia). destruct (Z.ltb_spec (p_y p) (p_y (snd h))); [lia|]. destruct (Z.ltb_spec (p_y p) (p_y (snd n))); [auto|lia].
        -- apply (takes_last P); auto. split; auto.
  - cbn [nth_error] in Hr, He. assert (In r t) as Ir by (eapply nth_error_In; exact Hr). destruct t as [|n t]; [destruct Ir|].
    assert (p_col (snd n) = 0 /\ p_y (snd n) <= p_y (snd r)) as (Cn & Ln).
    { destruct Ir as [<-|Ir]; [split; [auto|lia]|]. destruct (StronglySorted_inv SR1) as [_ SR3]. rewrite Forall_forall in SR3. destruct (HR n (or_intror (or_introl eq_refl))) as (_ & [Q|Q]); destruct (SR3 r Ir) as [K|[K1 K2]]; split; lia. }
    assert (p_col (snd h) = 0) as Ch by (destruct (HR h (or_introl eq_refl)) as (_ & [Q|Q]); auto; destruct (SR2 n (or_introl eq_refl)) as [K|[K _]]; lia).
    assert (on P 0 (snd h)) as Oh by (split; [apply (HR h); now left|exact Ch]). assert (on P 0 (snd n)) as On' by (split; [apply (HR n); right; now left|exact Cn]).
    assert (p_y (snd h) < p_y (snd n)) as Lh by (destruct (SR2 n (or_introl eq_refl)) as [?|[_ ?]]; [lia|auto]).
    assert (forall x, In x urls -> p_col (snd x) = 0 -> p_y (snd x) <> p_y (snd n)) as Dn by (intros x I C; apply D; auto; [right; now left|congruence]).
    assert (url_verdict true (snd h) (Some (snd n)) p = Stop) as Vp.
    { pose proof (Dn _ Iv Cp). cbn [snd] in *. rewrite (verdict_next _ P 0) by auto. destruct (Z.ltb_spec (p_y p) (p_y (snd h))); [lia|]. destruct (Z.ltb_spec (p_y p) (p_y (snd n))); [lia|auto]. }
    destruct (loop_stops true (snd h) (Some (snd n)) urls urls v p Iv Vp) as (pre & x & t' & E1 & E2 & E3 & E4).
    assert (left = x :: t') as El. { unfold match_urls_with_reference in E. destruct (match_loop true (snd h) (Some (snd n)) urls urls). injection E as _ <-. exact E2. } subst left.
    assert (forall y, In y (x :: t') -> In y urls) as Sub by (intros y I; rewrite E1; apply in_or_app; now right).
    assert (StronglySorted (fun a b => in_order (snd a) (snd b)) (x :: t')) as SU' by (rewrite E1 in SU; eapply sorted_app_r; exact SU).
    destruct (StronglySorted_inv SU') as [SU1 SU2]. rewrite Forall_forall in SU2.
    assert (p_col (snd x) = 0) as Cx. { destruct E4 as [->|I]; [exact Cp|]. apply (Before x); [apply Sub; now left|apply (SU2 _ I)]. }
    assert (p_y (snd n) <= p_y (snd x)) as Lx.
    { rewrite (verdict_next _ P 0) in E3 by (auto; try (apply OnU); try (apply Dn); auto; apply Sub; now left). destruct (_ <? _); [discriminate|]. destruct (Z.ltb_spec (p_y (snd x)) (p_y (snd n))); [discriminate|auto]. }
    apply (IH (x :: t') ) with (i := i) (r := r) (p := p); auto.
    + intros a I. apply HR. now right.
    + intros a b I J. apply D; [now right|auto].
    + intros h' t'' Q. injection Q as <- <-. right. intros y [<-|I] C; auto. destruct (SU2 y I) as [K|[_ K]]; lia.
    + intros r' I. apply Own. now right.
Qed.

(** ** Destinations and links *)
Definition lhalf (u : link) : Z := 2 * l_left u / l_width u.
Definition lpos (u : link) : position := mkpos (l_page u) (lhalf u) (- l_top u) (l_left u).
Definition lnamed (u : link) : str * position := (l_uri u, lpos u).
Lemma link_is u p : uri_position u = Ok p -> p = lpos u.
Proof. unfold uri_position, floordiv. destruct (l_width u =? 0); cbn [bind]; [discriminate|]. intros H. now injection H as <-. Qed.
(** the link is in the column of the destination, below it and above all lower ones of the column *)
Definition own (ds : list dest) (d : dest) (u : link) : Prop :=
  lhalf u = half d /\ l_top u < top d /\ forall d', In d' ds -> half d' = half d -> top d' < top d -> top d' < l_top u.
Lemma nth_forall2 {A B} (R : A -> B -> Prop) : forall l m, List.length l = List.length m ->
  (forall i a b, nth_error l i = Some a -> nth_error m i = Some b -> R a b) -> Forall2 R l m.
Proof.
  induction l as [|a l IH]; intros [|b m] L H; try discriminate; constructor; [apply (H 0%nat); reflexivity|]. apply IH; [now injection L|]. intros i. apply (H (Datatypes.S i)).
Qed.
Lemma sorted_nth {A} (R : A -> A -> Prop) l : StronglySorted R l -> forall i j a b, (i < j)%nat -> nth_error l i = Some a -> nth_error l j = Some b -> R a b.
Proof.
  induction 1 as [|x l S IH F]; intros i j a b L Hi Hj; [destruct i; discriminate|]. destruct j as [|j]; [lia|]. destruct i as [|i]; cbn in Hi, Hj.
  - injection Hi as <-. rewrite Forall_forall in F. apply F. eapply nth_error_In. exact Hj.
  - apply (IH i j); auto. lia.
Qed.
Lemma map_sorted {A B} (f : A -> B) (R : B -> B -> Prop) l : StronglySorted (fun a b => R (f a) (f b)) l -> StronglySorted R (map f l).
Proof. induction 1 as [|a l S IH F]; cbn [map]; constructor; auto. apply Forall_map. exact F. Qed.
Lemma two_columns P dests links l : let cited := filter is_cited dests in
  texkeys_and_urls dests links = Ok l -> second_column cited ->
  (forall d, In d cited -> n_page d = P /\ (half d = 0 \/ half d = 1)) -> (forall u, In u links -> l_page u = P /\ (lhalf u = 0 \/ lhalf u = 1)) ->
  NoDup (map (fun d => (half d, top d)) cited) -> (forall d u, In d cited -> In u links -> lhalf u = half d -> l_top u <> top d) ->
  exists order, Permutation order cited /\ StronglySorted before_two order
    /\ Forall2 (fun d e => fst e = key_of d
        /\ (half d = 0 -> (exists d', In d' cited /\ half d' = 0 /\ top d' <> top d) -> forall u, In u links -> own cited d u -> In (l_uri u) (snd e))
        /\ (half d = 1 \/ (exists d', In d' cited /\ half d' = 0 /\ top d' < top d) -> forall v, In v (snd e) -> exists u, In u links /\ l_uri u = v /\ own cited d u)) order l.
Proof.
  intros cited H TC HD HL ND DU. unfold texkeys_and_urls in H. fold is_cited in H. fold cited in H.
  destruct (locate destination_position (fun d => n_key d) cited) as [refs|] eqn:Er; cbn [bind] in H; [|discriminate].
  apply (locate_is _ _ pos_of) in Er; [|intros d p _; apply position_is]. change (refs = map named cited) in Er. subst refs.
  assert (map snd (map named cited) = map pos_of cited) as Ms by (rewrite map_map; reflexivity). rewrite Ms in H.
  destruct (locate uri_position l_uri links) as [urls|] eqn:Eu; cbn [bind] in H; [|discriminate]. injection H as <-.
  apply (locate_is _ _ lpos) in Eu; [|intros u p _; apply link_is]. change (urls = map lnamed links) in Eu. subst urls.
  rewrite (proj2 (two_columns_iff cited) TC).
  destruct (Permutation_map_inv named _ (sort_perm true (map named cited))) as (order & Eo & Po).
  destruct (Permutation_map_inv lnamed _ (sort_perm true (map lnamed links))) as (W & Ew & Pw).
  pose proof (sort_ordered true (map named cited)) as So. pose proof (sort_ordered true (map lnamed links)) as Sw. rewrite Eo in So |- *. rewrite Ew in Sw |- *.
  assert (forall d, In d order <-> In d cited) as Io by (intros d; split; apply Permutation_in; [apply Permutation_sym|]; exact Po).
  assert (forall u, In u W <-> In u links) as Iw by (intros u; split; apply Permutation_in; [apply Permutation_sym|]; exact Pw).
  assert (StronglySorted before_two order) as Bo by (eapply sorted_map; [|exact So]; intros d d' Q; now apply leb_two).
  exists order. split; [now apply Permutation_sym|]. split; [exact Bo|].
  (* the order within the page *)
  assert (StronglySorted (fun a b => lower (snd a) (snd b)) (map named order)) as SR.
  { apply map_sorted. cbn [named snd]. assert (NoDup (map (fun d => (half d, top d)) order)) as N by (eapply Permutation_NoDup; [apply Permutation_map; exact Po|exact ND]).
    assert (forall d, In d order -> n_page d = P) as Pg by (intros d I; apply HD, Io, I). clear - Bo N Pg.
    induction Bo as [|d o S IH F]; constructor; [apply IH; [now inversion N|intros; apply Pg; now right]|].
    apply Forall_forall. intros d' I. rewrite Forall_forall in F. specialize (F d' I). unfold lower, pos_of. cbn [p_col p_y]. inversion N as [|? ? N1 _]; subst.
    assert ((half d, top d) <> (half d', top d')) as Nq by (intros Q; apply N1; rewrite Q; apply (in_map (fun d => (half d, top d)) _ _ I)).
    pose proof (Pg d (or_introl eq_refl)). pose proof (Pg d' (or_intror I)). unfold before_two, above in F.
    assert (half d = half d' -> top d <> top d') by (intros Q1 Q2; apply Nq; congruence). lia. }
  assert (StronglySorted (fun a b => in_order (snd a) (snd b)) (map lnamed W)) as SU.
  { apply map_sorted. cbn [lnamed snd]. assert (forall u, In u W -> l_page u = P) as Pg by (intros u I; apply HL, Iw, I). unfold ordered in Sw.
    apply (sorted_map lnamed _ (fun a b => pos_leb true (lpos a) (lpos b) = true)) in Sw; [|auto]. clear - Sw Pg.
    induction Sw as [|u o S IH F]; constructor; [apply IH; intros; apply Pg; now right|]. apply Forall_forall. intros u' I. rewrite Forall_forall in F. specialize (F u' I).
    unfold pos_leb in F. rewrite !lex_iff in F. cbn [lpos p_page p_col p_y p_x] in F. pose proof (Pg u (or_introl eq_refl)). pose proof (Pg u' (or_intror I)). unfold in_order, lpos. cbn [p_col p_y]. lia. }
  apply Forall2_map_r. apply nth_forall2. { rewrite <- (map_length fst (match_all _ _ _)), (proj1 (match_all_spec true _ _)), !map_length. reflexivity. }
  intros i d e Hd He. assert (In d cited) as Id by (apply Io; eapply nth_error_In; exact Hd). cbn [fst snd].
  assert (nth_error (map named order) i = Some (named d)) as Hn by now apply map_nth_error.
  assert (fst e = n_key d) as Ke.
  { pose proof (map_nth_error fst _ _ He) as Q. rewrite (proj1 (match_all_spec true _ _)), (map_nth_error fst _ _ Hn) in Q. now injection Q. }
  split; [now rewrite Ke|].
  assert (forall u, In u (map lnamed W) -> p_page (snd u) = P /\ left_right (snd u)) as HU by (intros x I; apply in_map_iff in I as (u & <- & I); apply HL, Iw, I).
  assert (forall x, In x (map named order) -> p_page (snd x) = P /\ left_right (snd x)) as HR by (intros x I; apply in_map_iff in I as (u & <- & I); apply HD, Io, I).
  split.
  - intros Hz (d0 & I0 & Z0 & T0) u Iu (O1 & O2 & O3).
    apply (left_complete P (map named order) (map lnamed W) HR HU SR SU) with (i := i) (r := named d) (p := lpos u); auto.
    + intros r x I J. apply in_map_iff in I as (a & <- & I), J as (b & <- & J). cbn [named lnamed pos_of lpos snd p_col p_y]. intros C. pose proof (DU a b (proj1 (Io a) I) (proj1 (Iw b) J) C). lia.
    + intros h t E. destruct order as [|a o]; [discriminate|]. injection E as <- <-. left. destruct (StronglySorted_inv SR) as [_ SF]. rewrite Forall_forall in SF.
      assert (exists d', In d' o /\ half d' = 0) as (d' & I' & Z').
      { destruct (proj2 (Io d0) I0) as [->|I']; [|exists d0; auto]. destruct (proj2 (Io d) Id) as [->|I']; [contradiction|]. exists d. auto. }
      exists (named d'). split; [now apply in_map|exact Z'].
    + apply (in_map lnamed W u). now apply Iw.
    + cbn. congruence.
    + cbn. lia.
    + intros r' I C L. apply in_map_iff in I as (d' & <- & I). cbn [named pos_of lpos snd p_col p_y] in *. assert (top d' < l_top u); [|lia]. apply O3; [now apply Io|congruence|lia].
  - intros Hc v Iv. destruct (all_taken true _ _ i _ _ v Hn He Iv) as (p & Ip & Vp). apply in_map_iff in Ip as (u & Eu & Iu). injection Eu as <- <-. exists u. apply Iw in Iu. split; [exact Iu|]. split; [reflexivity|].
    pose proof (HL u Iu) as (Pu & Lu). pose proof (HD d Id) as (Pd & Ld). cbn [named snd] in Vp.
    assert (forall d', In d' cited -> half d' = half d -> top d' < top d -> exists j, (i < j)%nat /\ nth_error order j = Some d') as Later.
    { intros d' I' Q1 Q2. apply Io, In_nth_error in I' as (j & Hj). exists j. split; auto. destruct (Nat.lt_trichotomy i j) as [K|[K|K]]; auto; [subst j; rewrite Hd in Hj; injection Hj as <-; lia|].
      pose proof (sorted_nth _ _ SR j i (named d') (named d) K (map_nth_error named _ _ Hj) Hn) as Q. cbn in Q. unfold lower in Q. cbn in Q. lia. }
    destruct (nth_error order (Datatypes.S i)) as [n|] eqn:Hs.
    + rewrite (map_nth_error named _ _ Hs) in Vp. cbn [option_map named snd] in Vp. assert (In n cited) as In_ by (apply Io; eapply nth_error_In; exact Hs). pose proof (HD n In_) as (Pn & Ln).
      pose proof (sorted_nth _ _ SR i (Datatypes.S i) _ _ (Nat.lt_succ_diag_r i) Hn (map_nth_error named _ _ Hs)) as Q. unfold lower in Q. cbn in Q.
      assert (half n = half d) as Cn.
      { destruct Hc as [Hc|(d' & I' & Z' & T')]; [lia|]. destruct Ld as [Ld|Ld]; [|lia]. destruct (Later d' I' ltac:(congruence) T') as (j & Lj & Hj).
        destruct (Nat.eq_dec j (Datatypes.S i)) as [->|Nj]; [rewrite Hs in Hj; injection Hj as <-; congruence|].
        pose proof (sorted_nth _ _ SR (Datatypes.S i) j _ _ ltac:(lia) (map_nth_error named _ _ Hs) (map_nth_error named _ _ Hj)) as Q'. unfold lower in Q'. cbn in Q'. lia. }
      assert (lhalf u = half d /\ - top d <= - l_top u <= - top n) as (A1 & A2) by (apply (taken_own P (pos_of d) (pos_of n) (lpos u)); try split; auto).
      pose proof (DU d u Id Iu A1). pose proof (DU n u In_ Iu ltac:(congruence)). split; [exact A1|]. split; [lia|]. intros d' I' Q1 Q2. destruct (Later d' I' Q1 Q2) as (j & Lj & Hj).
      destruct (Nat.eq_dec j (Datatypes.S i)) as [->|Nj]; [rewrite Hs in Hj; injection Hj as <-; lia|].
      pose proof (sorted_nth _ _ SR (Datatypes.S i) j _ _ ltac:(lia) (map_nth_error named _ _ Hs) (map_nth_error named _ _ Hj)) as Q'. unfold lower in Q'. cbn in Q'. lia.
    + assert (forall d', In d' cited -> half d' = half d -> top d' < top d -> False) as None_.
      { intros d' I' Q1 Q2. destruct (Later d' I' Q1 Q2) as (j & Lj & Hj). apply nth_error_None in Hs. assert (nth_error order j <> None) as K by congruence. apply nth_error_Some in K. lia. }
      assert (nth_error (map named order) (Datatypes.S i) = None) as Hs' by (apply nth_error_None in Hs; apply nth_error_None; now rewrite map_length). rewrite Hs' in Vp. cbn [option_map] in Vp.
      assert (half d = 1) as C1. { destruct Hc as [Hc|(d' & I' & Z' & T')]; auto. destruct Ld as [Ld|Ld]; auto. exfalso. apply (None_ d' I'); [congruence|exact T']. }
      assert (lhalf u = 1 /\ - top d <= - l_top u) as (A1 & A2) by (apply (taken_last P (pos_of d) (lpos u)); try split; auto).
      pose proof (DU d u Id Iu ltac:(congruence)). split; [congruence|]. split; [lia|]. intros d' I' Q1 Q2. exfalso. eapply None_; eauto.
Qed.

(** ** Any number of pages *)
Lemma taken_near two r n u : url_verdict two r n u = Take ->
  (p_page u = p_page r \/ p_page u = p_page r + 1)
  /\ (p_y r <= p_y u \/ p_page u = p_page r /\ exists n', n = Some n' /\ p_page n' = p_page r /\ p_col r < p_col n' /\ p_y u < p_y n').
Proof.
  intros T. unfold url_verdict in T. destruct n as [n|].
  - destruct (_ && (_ && _)) eqn:B in T.
    + clear T. apply andb_true_iff in B as [B1 B2]. apply andb_true_iff in B2 as [B2 _]. apply Z.leb_le in B2. apply orb_true_iff in B1 as [B1|B1]; apply Z.eqb_eq in B1; split; auto; lia.
    + clear B. destruct (_ || _ || _) eqn:B in T; [|destruct (p_page u <? p_page r); [discriminate|]; match type of T with (if ?b then _ else _) = _ => destruct b end; discriminate]. apply orb_true_iff in B as [B|B]; [apply orb_true_iff in B as [B|B]|]; repeat (apply andb_true_iff in B as [B ?]);
      repeat match goal with H : (_ <? _) = true |- _ => apply Z.ltb_lt in H | H : (_ <=? _) = true |- _ => apply Z.leb_le in H | H : (_ =? _) = true |- _ => apply Z.eqb_eq in H end.
      * split; [lia|]. now left.
      * split; [lia|]. now left.
      * split; [lia|]. right. split; [lia|]. exists n. repeat split; auto; lia.
  - destruct (_ && _) eqn:B in T; [|discriminate]. clear T. apply andb_true_iff in B as [B1 B2]. apply Z.leb_le in B2. split; [|now left].
    apply orb_true_iff in B1 as [B1|B1]; [apply andb_true_iff in B1 as [B1 _]|]; apply Z.eqb_eq in B1; lia.
Qed.
Lemma near dests links l : let cited := filter is_cited dests in texkeys_and_urls dests links = Ok l ->
  exists order, Permutation order cited /\ (second_column cited -> StronglySorted before_two order) /\ (~ second_column cited -> StronglySorted before_one order)
    /\ Forall2 (fun d e => fst e = key_of d /\ forall v, In v (snd e) -> exists u, In u links /\ l_uri u = v
        /\ (l_page u = n_page d \/ l_page u = n_page d + 1)
        /\ (l_top u <= top d \/ l_page u = n_page d /\ exists d', In d' cited /\ n_page d' = n_page d /\ half d < half d' /\ top d' < l_top u)) order l.
Proof.
  intros cited H. unfold texkeys_and_urls in H. fold is_cited in H. fold cited in H.
  destruct (locate destination_position (fun d => n_key d) cited) as [refs|] eqn:Er; cbn [bind] in H; [|discriminate].
  apply (locate_is _ _ pos_of) in Er; [|intros d p _; apply position_is]. change (refs = map named cited) in Er. subst refs.
  assert (map snd (map named cited) = map pos_of cited) as Ms by (rewrite map_map; reflexivity). rewrite Ms in H.
  destruct (locate uri_position l_uri links) as [urls|] eqn:Eu; cbn [bind] in H; [|discriminate]. injection H as <-.
  apply (locate_is _ _ lpos) in Eu; [|intros u p _; apply link_is]. change (urls = map lnamed links) in Eu. subst urls. set (two := in_two_columns (map pos_of cited)).
  destruct (Permutation_map_inv named _ (sort_perm two (map named cited))) as (order & Eo & Po). exists order. split; [now apply Permutation_sym|].
  pose proof (sort_ordered two (map named cited)) as S. rewrite Eo in S. unfold ordered in S.
  split. { intros C. apply two_columns_iff in C. fold two in C. rewrite C in S. eapply sorted_map; [|exact S]. intros d d' Q. now apply leb_two. }
  split. { intros C. assert (two = false) as C'. { destruct two eqn:T; auto. exfalso. apply C, two_columns_iff. exact T. } rewrite C' in S. eapply sorted_map; [|exact S]. intros d d' Q. now apply leb_one. }
  rewrite Eo. apply Forall2_map_r. apply nth_forall2. { rewrite <- (map_length fst (match_all _ _ _)), (proj1 (match_all_spec two _ _)), !map_length. reflexivity. }
  intros i d e Hd He. cbn [fst snd]. assert (nth_error (map named order) i = Some (named d)) as Hn by now apply map_nth_error.
  assert (fst e = n_key d) as Ke.
  { pose proof (map_nth_error fst _ _ He) as Q. rewrite (proj1 (match_all_spec two _ _)), (map_nth_error fst _ _ Hn) in Q. now injection Q. }
  split; [now rewrite Ke|]. intros v Iv. destruct (all_taken two _ _ i _ _ v Hn He Iv) as (p & Ip & Vp).
  apply (Permutation_in _ (sort_perm two (map lnamed links))), in_map_iff in Ip as (u & Q & Iu). injection Q as <- <-. exists u. split; [exact Iu|]. split; [reflexivity|].
  apply taken_near in Vp as (V1 & V2). cbn [named snd pos_of lpos p_page p_col p_y] in V1, V2. split; [exact V1|]. destruct V2 as [V2|(V2 & n' & E & N1 & N2 & N3)]; [left; lia|]. right. split; [exact V2|].
  destruct (nth_error (map named order) (Datatypes.S i)) as [x|] eqn:Ex; [|discriminate]. injection E as <-. apply nth_error_In, in_map_iff in Ex as (d' & <- & Id). exists d'.
  split; [eapply Permutation_in; [apply Permutation_sym; exact Po|exact Id]|]. cbn [named snd pos_of p_page p_col p_y] in *. repeat split; auto; lia.
Qed.
