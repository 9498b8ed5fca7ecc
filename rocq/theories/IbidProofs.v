(** Proofs about implied ibids (C47). *)
From Coq Require Import List Arith NArith Bool String Lia.
From Verif Require Import PyStr ListFacts Regex Elements Numeration Split Post RecordProofs SplitProofs PostProofs.
Import ListNotations.
Local Open Scope nat_scope.
Local Notation length := List.length.
Local Notation concat := List.concat.

(** ** Elements that are no authors are in one citation only *)
Definition faddr (h : heap) (l : list addr) : list addr := filter (fun a => non_author (deref h a)) l.
Lemma faddr_app h a b : faddr h (a ++ b) = faddr h a ++ faddr h b. Proof. apply filter_app. Qed.
Lemma faddr_ext h h' l : (forall a, In a l -> e_type (deref h' a) = e_type (deref h a)) -> faddr h' l = faddr h l.
Proof. induction l as [|a l IH]; intros H; cbn; auto. unfold non_author, is_type. rewrite (H a) by now left. unfold faddr, non_author, is_type in IH. rewrite IH; auto. intros b B. apply H. now right. Qed.
Lemma faddr_postpone h c n p c' : postpone_last_auth h c n = (p, c') -> faddr h c' = faddr h c.
Proof.
  unfold postpone_last_auth. destruct (n =? 0); [congruence|]. destruct (take_last_auth h c) as [[a t]|] eqn:E; [|congruence].
  apply take_last_auth_spec in E as (A & l & r & -> & -> & _). destruct (n =? 1); intros H; injection H as _ <-; auto.
  rewrite !faddr_app. f_equal. cbn. unfold non_author at 1. now rewrite A.
Qed.
Lemma faddr_insert els k s cur m : inv els k s -> insert_postponed s = (cur, m) -> faddr (s_heap s) cur = faddr (s_heap s) (s_cur s).
Proof.
  intros I. unfold insert_postponed. destruct (s_postponed s) as [p|] eqn:P; [|congruence]. destruct (_ || _); intros H; injection H as <- _; auto.
  cbn. unfold non_author at 1. now rewrite (i_post _ _ _ I p P).
Qed.
Section Once.
Context (els : list el).
Definition dinv (k : nat) (s : sst) : Prop := inv els k s /\ NoDup (faddr (s_heap s) (concat (s_out s) ++ s_cur s)).
(** the state of a new citation *)
Lemma close_faddr s r : (forall a, s_postponed s = Some a -> is_type AUTH (deref (s_heap s) a) = true) ->
  s_heap (close s r) = s_heap s /\ faddr (s_heap s) (concat (s_out (close s r)) ++ s_cur (close s r)) = faddr (s_heap s) (concat (s_out s) ++ s_cur s).
Proof.
  intros P. unfold close. destruct (insert_postponed s) as [cur m] eqn:Ei. destruct (postpone_last_auth (s_heap s) cur m) as [p cur'] eqn:Ep.
  cbn [s_heap s_out s_cur]. split; auto. rewrite concat_app. cbn [concat]. rewrite !app_nil_r, !faddr_app. f_equal. rewrite (faddr_postpone _ _ _ _ _ Ep).
  unfold insert_postponed in Ei. destruct (s_postponed s) as [q|]; [|congruence]. destruct (_ || _); injection Ei as <- _; auto.
  cbn. unfold non_author at 1. now rewrite P by auto.
Qed.
Lemma nodup_snoc {A} (l : list A) x : NoDup l -> ~ In x l -> NoDup (l ++ [x]).
Proof.
  induction l as [|y l IH]; cbn; intros N I; [repeat constructor; auto|]. inversion N; subst. constructor; [rewrite in_app_iff; cbn; intuition|apply IH; auto].
Qed.
Lemma faddr_snoc h l x : NoDup (faddr h l) -> ~ In x l -> NoDup (faddr h (l ++ [x])).
Proof.
  intros N I. rewrite faddr_app. cbn. destruct (non_author (deref h x)); [|now rewrite app_nil_r]. apply nodup_snoc; auto. unfold faddr. rewrite filter_In. tauto.
Qed.
Lemma push_nodup s k : ~ In k (concat (s_out s) ++ s_cur s) -> NoDup (faddr (s_heap s) (concat (s_out s) ++ s_cur s)) ->
  NoDup (faddr (s_heap (push s k)) (concat (s_out (push s k)) ++ s_cur (push s k))).
Proof.
  intros N D. destruct (push_fields s k) as (-> & -> & -> & _). rewrite app_assoc. now apply faddr_snoc.
Qed.
Lemma close_in s r a : In a (concat (s_out (close s r)) ++ s_cur (close s r)) -> In a (concat (s_out s) ++ s_cur s ++ olist (s_postponed s)).
Proof. intros H. apply (close_addr s r). rewrite app_assoc, in_app_iff. now left. Qed.
Lemma dinv_step k s : k < length els -> dinv k s -> dinv (S k) (split_step s k).
Proof.
  intros L [I D]. split; [now apply step_inv|]. pose proof (i_addr _ _ _ I) as Ad. pose proof (i_len _ _ _ I) as Ln.
  assert (k < length (s_heap s)) as Lk by lia.
  assert (forall a, In a (concat (s_out s) ++ s_cur s ++ olist (s_postponed s)) -> a <> k /\ a < length (s_heap s)) as Fr.
  { intros a H. apply Ad in H as (H1 & H2). split; auto. lia. }
  unfold split_step. destruct (split_needed _ _ _) as [[]|] eqn:Sn.
  - unfold split_at. destruct (split1 59%N (e_misc (deref (s_heap s) k))) as [[before after]|].
    + cbn [alloc]. set (h1 := store (s_heap s) k (set_misc after)). assert (length h1 = length (s_heap s)) as Lh by apply store_length.
      set (s1 := mksst (h1 ++ [mkel MISC before []]) (s_cur s ++ [length h1]) (s_types s) (s_last s) (s_nauth s) (s_postponed s) (s_prev s) (s_out s)).
      assert (forall a, In a (concat (s_out s) ++ s_cur s ++ olist (s_postponed s)) -> deref (s_heap s1) a = deref (s_heap s) a) as Same.
      { intros a H. apply Fr in H as (H1 & H2). change (s_heap s1) with (h1 ++ [mkel MISC before []]). rewrite deref_alloc_old by lia. apply deref_store_other; auto. }
      change (NoDup (faddr (s_heap (push (close s1 Semicolon) k)) (concat (s_out (push (close s1 Semicolon) k)) ++ s_cur (push (close s1 Semicolon) k)))).
      destruct (close_faddr s1 Semicolon) as (E1 & E2).
      { intros a H. rewrite Same; [now apply (i_post _ _ _ I)|]. rewrite !in_app_iff. change (s_postponed s1) with (s_postponed s) in H. rewrite H. cbn. auto. }
      apply push_nodup.
      * intros H. apply close_in in H. change (s_out s1) with (s_out s) in H. change (s_postponed s1) with (s_postponed s) in H. change (s_cur s1) with (s_cur s ++ [length h1]) in H.
        assert (k = length h1 \/ In k (concat (s_out s) ++ s_cur s ++ olist (s_postponed s))) as [K|K]; [|lia|apply Fr in K; lia].
        rewrite !in_app_iff in *. cbn in H. intuition.
      * rewrite E1, E2. change (s_out s1) with (s_out s). change (s_cur s1) with (s_cur s ++ [length h1]). rewrite app_assoc. apply faddr_snoc.
        -- rewrite (faddr_ext (s_heap s)); auto. intros a H. rewrite Same; auto. rewrite app_assoc, in_app_iff. now left.
        -- intros H. assert (In (length h1) (concat (s_out s) ++ s_cur s ++ olist (s_postponed s))) as K by (rewrite app_assoc, in_app_iff; now left). apply Fr in K. lia.
    + change (NoDup (faddr (s_heap (push (close s Semicolon) k)) (concat (s_out (push (close s Semicolon) k)) ++ s_cur (push (close s Semicolon) k)))).
      destruct (close_faddr s Semicolon (i_post _ _ _ I)) as (E1 & E2). apply push_nodup; [|rewrite E1, E2; auto]. intros H. apply close_in in H. apply Fr in H. lia.
  - change (NoDup (faddr (s_heap (push (close s Repeated) k)) (concat (s_out (push (close s Repeated) k)) ++ s_cur (push (close s Repeated) k)))).
    destruct (close_faddr s Repeated (i_post _ _ _ I)) as (E1 & E2). apply push_nodup; [|rewrite E1, E2; auto]. intros H. apply close_in in H. apply Fr in H. lia.
  - apply push_nodup; auto. intros H. assert (In k (concat (s_out s) ++ s_cur s ++ olist (s_postponed s))) as K by (rewrite app_assoc, in_app_iff; now left). apply Fr in K. lia.
Qed.
Lemma dinv_steps : forall m k s, k + m = length els -> dinv k s -> dinv (length els) (fold_left split_step (seq k m) s).
Proof.
  induction m as [|m IH]; intros k s E I; cbn.
  - now replace (length els) with k by lia.
  - apply IH; [lia|]. apply dinv_step; [lia|auto].
Qed.
Lemma split_nodup h cs : split_citations els = (h, cs) -> NoDup (faddr h (concat cs)).
Proof.
  unfold split_citations. assert (dinv (length els) (fold_left split_step (seq 0 (length els)) (s_init els))) as (I & D) by (apply dinv_steps; [lia|split; [apply inv_init|constructor]]).
  set (s := fold_left _ _ _) in *. intros H. injection H as <- <-. destruct (insert_postponed s) as [cur m] eqn:Ei. cbn [fst].
  rewrite concat_app. cbn [concat]. rewrite app_nil_r, faddr_app, (faddr_insert els _ _ _ _ I Ei), <- faddr_app. exact D.
Qed.
End Once.

(** ** Implied ibids *)
(** the journal meant by the numeration i after the journal j *)
Definition ibid_of (j : el) (i : numinfo) (x : el) : Prop :=
  e_type x = JOURNAL /\ e_misc x = [] /\ get Ktitle j <> None /\ get Ktitle x = get Ktitle j
  /\ (exists v, n_volume i = Some v /\
        if truthy_str (n_series i) then get Kvolume x = Some (VS (show (n_series i) ++ v))
        else exists w, get Kvolume j = Some (VS w) /\ get Kvolume x = Some (VS (match extract_series_from_volume w with Some s => s | None => [] end ++ v)))
  /\ get Kyear x = Some (opt_val (n_year i)) /\ (exists p, n_page i = Some p /\ p <> [] /\ get Kpage x = Some (VS p))
  /\ get Kpage_end x = Some (opt_val (n_page_end i)) /\ get Kis_ibid x = Some (VB true) /\ get Kextra_ibids x = Some (VIbids []).
(** the elements of a citation, what they become and the journals added *)
Inductive implied (j : el) : list el -> list el -> list el -> Prop :=
| im_end : implied j [] [] []
| im_keep e l l' new : e_type e <> MISC \/ find_numeration (e_misc e) = Ok None -> implied j l l' new -> implied j (e :: l) (e :: l') new
| im_ibid e l l' new i x : e_type e = MISC -> find_numeration (e_misc e) = Ok (Some i) -> ibid_of j i x -> implied j l l' new ->
    implied j (e :: l) (set_misc (skipn (n_len i) (e_misc e)) e :: l') (x :: new).
Definition no_journal (l : list el) : Prop := Forall (fun e => e_type e <> JOURNAL) l.
Inductive last_of (l : list el) : option el -> Prop :=
| lo_none : no_journal l -> last_of l None
| lo_some l1 j l2 : l = l1 ++ j :: l2 -> e_type j = JOURNAL -> no_journal l2 -> last_of l (Some j).
(** citation after citation; j is the last journal of the citation before, with those added *)
Inductive implied_all : option el -> list (list el) -> list (list el) -> Prop :=
| ia_end j : implied_all j [] []
| ia_same j c cs cs' j' : j = None \/ ~ no_journal c -> last_of c j' -> implied_all j' cs cs' -> implied_all j (c :: cs) (c :: cs')
| ia_ibids j c c' new cs cs' j' : no_journal c -> implied j c c' new -> last_of (c' ++ new) j' -> implied_all j' cs cs' ->
    implied_all (Some j) (c :: cs) ((c' ++ new) :: cs').

Lemma deref_new h e : deref (h ++ [e]) (length h) = e.
Proof. unfold deref. now rewrite app_nth2, Nat.sub_diag by lia. Qed.
Lemma ibid_el_ok j i volume series title p : get Ktitle j = Some title -> n_page i = Some p -> p <> [] ->
  (if truthy_str (n_series i) then Ok (n_series i) else let* v := get_str Kvolume j in Ok (extract_series_from_volume v)) = Ok series ->
  (if truthy_str series then let* v := need (n_volume i) in Ok (show series ++ v) else need (n_volume i)) = Ok volume ->
  ibid_of j i (ibid_el title volume i (n_page i)).
Proof.
  intros T P P0 Se Vo. unfold ibid_of, ibid_el.
  repeat match goal with |- _ /\ _ => split end; try reflexivity; rewrite ?T; try congruence; try reflexivity.
  - destruct (n_volume i) as [v|]; [|destruct (truthy_str series); discriminate]. exists v. split; auto. cbn [need bind] in Vo.
    assert (volume = (if truthy_str series then show series else []) ++ v) as -> by (destruct (truthy_str series); cbn in *; congruence).
    destruct (truthy_str (n_series i)) eqn:E1.
    + injection Se as <-. rewrite E1. reflexivity.
    + unfold get_str in Se. destruct (get Kvolume j) as [[]|]; try discriminate. cbn [bind] in Se. injection Se as <-. eexists. split; [reflexivity|].
      destruct (extract_series_from_volume s) as [[|]|]; reflexivity.
  - exists p. rewrite P. auto.
Qed.
Lemma in_faddr h l a : In a (faddr h l) <-> In a l /\ e_type (deref h a) <> AUTH.
Proof. unfold faddr, non_author. rewrite filter_In, negb_true_iff, is_type_false. tauto. Qed.
Lemma faddr_cons h a l : faddr h (a :: l) = if non_author (deref h a) then a :: faddr h l else faddr h l. Proof. reflexivity. Qed.
Lemma implied_frame j : forall todo h c h' c', implied_loop j h c todo = Ok (h', c') ->
  forall b, b < length h -> ~ In b todo \/ e_type (deref h b) <> MISC -> deref h' b = deref h b.
Proof.
  induction todo as [|a todo IH]; cbn [implied_loop]; intros h c h' c' H b Lb Nb.
  - inversion H; subst; auto.
  - assert (~ In b todo \/ e_type (deref h b) <> MISC) as Nb' by (destruct Nb as [Nb|]; [left; intros X; apply Nb; now right|now right]).
    destruct (is_type MISC (deref h a)) eqn:Ta; [|eapply IH; eauto]. inv_ok H.
    destruct a0 as [i|]; [|eapply IH; eauto]. inv_ok H. inv_ok H.
    destruct (get Ktitle (deref h j)); [|discriminate].
    destruct (truthy_str (n_page i)); [|discriminate]. cbn [alloc] in H. apply is_type_true in Ta.
    assert (a <> b) as Nab by (intros ->; destruct Nb as [Nb|Nb]; [apply Nb; now left|congruence]).
    assert (deref (store (h ++ [ibid_el v a1 i (n_page i)]) a (set_misc (skipn (n_len i) (e_misc (deref h a))))) b = deref h b) as Sb.
    { rewrite deref_store_other by auto. now rewrite deref_alloc_old. }
    eapply IH in H; [rewrite H; exact Sb| |].
    + rewrite store_length, app_length. cbn. lia.
    + rewrite Sb. exact Nb'.
Qed.
Lemma implied_loop_ok j : forall todo h c h' c', j < length h -> e_type (deref h j) = JOURNAL -> closed h todo -> NoDup (faddr h todo) ->
  implied_loop j h c todo = Ok (h', c') ->
  exists new, c' = c ++ new /\ (forall b, In b new -> length h <= b < length h') /\ length h <= length h' /\ NoDup new /\
    Forall (fun b => e_type (deref h' b) = JOURNAL) new /\
    implied (deref h j) (map (deref h) todo) (map (deref h') todo) (map (deref h') new).
Proof.
  induction todo as [|a todo IH]; cbn [implied_loop]; intros h c h' c' Lj Tj C D H.
  - inversion H; subst. exists []. rewrite app_nil_r. repeat split; auto; try constructor; try easy.
  - inversion C as [|? ? La Ct]; subst. rewrite faddr_cons in D.
    assert (NoDup (faddr h todo)) as Dt by (destruct (non_author _); [now inversion D|auto]).
    assert (e_type (deref h a) <> AUTH -> ~ In a todo) as Na.
    { intros X Y. unfold non_author in D. apply is_type_false in X. rewrite X in D. cbn in D. inversion D; subst. apply H2. rewrite in_faddr. split; auto. now apply is_type_false. }
    assert (implied_loop j h c todo = Ok (h', c') -> e_type (deref h a) <> MISC \/ find_numeration (e_misc (deref h a)) = Ok None ->
      exists new, c' = c ++ new /\ (forall b, In b new -> length h <= b < length h') /\ length h <= length h' /\ NoDup new /\
        Forall (fun b => e_type (deref h' b) = JOURNAL) new /\
        implied (deref h j) (map (deref h) (a :: todo)) (map (deref h') (a :: todo)) (map (deref h') new)) as Keep.
    { intros L K. pose proof (implied_frame _ _ _ _ _ _ L a La) as F. destruct (IH _ _ _ _ Lj Tj Ct Dt L) as (new & X1 & X2 & X3 & X4 & X5 & X6). exists new. repeat (split; auto).
      cbn [map]. rewrite F; [now constructor|]. destruct (ety_eqb (e_type (deref h a)) MISC) eqn:T; [|right; now apply is_type_false]. left. apply is_type_true in T. apply Na. congruence. }
    destruct (is_type MISC (deref h a)) eqn:Ta; [|apply Keep; auto; left; now apply is_type_false]. inv_ok H.
    destruct a0 as [i|]; [|apply Keep; auto]. clear Keep. inv_ok H. inv_ok H.
    destruct (get Ktitle (deref h j)) as [title|] eqn:Ti; [|discriminate].
    destruct (truthy_str (n_page i)) eqn:Pa; [|discriminate]. cbn [alloc] in H. apply is_type_true in Ta.
    set (h1 := h ++ [_]) in H. set (f := set_misc _) in H. set (h2 := store h1 a f) in H.
    assert (a <> j) as Naj by congruence.
    assert (~ In a todo) as Nat by (apply Na; congruence).
    assert (length h2 = S (length h)) as L2 by (unfold h2, h1; rewrite store_length, app_length; cbn; lia).
    assert (forall b, b < length h -> b <> a -> deref h2 b = deref h b) as F2.
    { intros b Lb Nb. unfold h2. rewrite deref_store_other by auto. now apply deref_alloc_old. }
    assert (deref h2 a = f (deref h a)) as Fa.
    { unfold h2. rewrite deref_store_same by (unfold h1; rewrite app_length; cbn; lia). unfold h1. now rewrite deref_alloc_old. }
    assert (deref h2 (length h) = ibid_el title a1 i (n_page i)) as Fx.
    { unfold h2. rewrite deref_store_other by lia. apply deref_new. }
    assert (forall b, In b todo -> deref h2 b = deref h b) as Ft.
    { intros b Hb. apply F2; [unfold closed in Ct; rewrite Forall_forall in Ct; auto|congruence]. }
    pose proof (implied_frame _ _ _ _ _ _ H) as F.
    edestruct (IH h2) as (new & X1 & X2 & X3 & X4 & X5 & X6); [| | | |exact H|].
    + lia.
    + rewrite F2 by auto. auto.
    + unfold closed in *. eapply Forall_impl; [|exact Ct]. cbn. intros. lia.
    + rewrite (faddr_ext h h2); auto. intros b Hb. now rewrite Ft.
    + exists (length h :: new). split; [rewrite X1, <- app_assoc; reflexivity|]. split; [|split; [lia|]].
      { intros b [<-|Hb]; [lia|]. apply X2 in Hb. lia. }
      assert (deref h' (length h) = ibid_el title a1 i (n_page i)) as Fx'.
      { rewrite F; auto; [lia|]. right. rewrite Fx. discriminate. }
      split; [constructor; auto; intros Hb; apply X2 in Hb; lia|]. split; [constructor; auto; now rewrite Fx'|].
      cbn [map]. rewrite Fx', (F a) by (try lia; auto). rewrite Fa.
      destruct (n_page i) as [p|] eqn:Ep; [|discriminate]. rewrite <- Ep.
      eapply im_ibid; eauto.
      * eapply ibid_el_ok; eauto. intros ->. discriminate.
      * rewrite F2 in X6 by auto. erewrite map_ext_in in X6; [exact X6|]. exact Ft.
Qed.

Lemma last_journal_ok h c : match last_journal h c with None => no_journal (map (deref h) c) | Some a => In a c /\ e_type (deref h a) = JOURNAL end /\ last_of (map (deref h) c) (option_map (deref h) (last_journal h c)).
Proof.
  unfold last_journal. remember (rev c) as r eqn:R. apply (f_equal (@rev addr)) in R. rewrite rev_involutive in R. subst c. induction r as [|a l IH]; cbn [find rev].
  - split; [|apply lo_none]; constructor.
  - rewrite map_app. cbn [map]. destruct (is_type JOURNAL (deref h a)) eqn:T.
    + apply is_type_true in T. split; [split; auto; apply in_app_iff; right; now left|]. cbn. eapply lo_some; eauto. constructor.
    + apply is_type_false in T. destruct IH as [I1 I2]. destruct (find _ l) as [b|].
      * split; [split; [apply in_app_iff; left|]; tauto|]. cbn in *. inversion I2; subst. econstructor; [rewrite H0, <- app_assoc; reflexivity|auto|]. apply Forall_app. split; auto.
      * split; [apply Forall_app; auto|]. constructor. apply Forall_app; auto.
Qed.
Lemma existsb_journal h c : existsb (fun a => is_type JOURNAL (deref h a)) c = false -> no_journal (map (deref h) c).
Proof.
  induction c as [|a c IH]; cbn; intros H; [constructor|]. apply orb_false_iff in H as [H1 H2]. constructor; [now apply is_type_false|now apply IH].
Qed.
Lemma existsb_journal' h c : existsb (fun a => is_type JOURNAL (deref h a)) c = true -> ~ no_journal (map (deref h) c).
Proof.
  intros H N. apply existsb_exists in H as (a & Ha & T). apply is_type_true in T. unfold no_journal in N. rewrite Forall_forall in N. apply (N (deref h a)); auto. now apply in_map.
Qed.
Lemma NoDup_sep {A} (l l' : list A) x : NoDup (l ++ l') -> In x l -> In x l' -> False.
Proof.
  induction l as [|y l IH]; cbn; [easy|]. intros N [->|H] H'; inversion N as [|? ? N1 N2]; subst; [apply N1; apply in_app_iff; auto|eauto].
Qed.
Lemma NoDup_parts {A} (l l' : list A) : NoDup (l ++ l') -> NoDup l /\ NoDup l'.
Proof.
  induction l as [|y l IH]; cbn; intros N; [split; [constructor|auto]|]. inversion N as [|? ? N1 N2]; subst. apply IH in N2 as [N2 N3]. split; auto. constructor; auto. intros H. apply N1. apply in_app_iff. auto.
Qed.
Definition jok (h : heap) (j : option addr) : Prop := match j with None => True | Some a => a < length h /\ e_type (deref h a) = JOURNAL end.
Lemma implied_all_ok : forall cs j h h' cs', jok h j -> Forall (closed h) cs -> NoDup (faddr h (concat cs)) -> implied_ibids j h cs = Ok (h', cs') ->
  length h <= length h' /\ (forall b, b < length h -> ~ In b (concat cs) \/ e_type (deref h b) <> MISC -> deref h' b = deref h b) /\
  implied_all (option_map (deref h) j) (map (map (deref h)) cs) (map (map (deref h')) cs').
Proof.
  induction cs as [|c cs IH]; cbn [implied_ibids]; intros j h h' cs' J C D H.
  - inversion H; subst. repeat split; auto. constructor.
  - inv_ok H. destruct a as [h1 c1]. cbn in H. inv_ok H. destruct a as [h2 t2]. cbn in H. inversion H; subst; clear H.
    inversion C as [|? ? Cc Ct]; subst. cbn [concat] in D. rewrite faddr_app in D.
    destruct (NoDup_parts _ _ D) as [Dc Dt].
    assert (forall a, In a c -> e_type (deref h a) <> AUTH -> ~ In a (concat cs)) as Sep.
    { intros a Ha Ta Hb. apply (NoDup_sep _ _ a D); apply in_faddr; auto. }
    assert (closed h (concat cs)) as Cct.
    { unfold closed. rewrite Forall_forall in *. intros a Ha. apply in_concat in Ha as (d & Hd & Ha). apply Ct in Hd. unfold closed in Hd. rewrite Forall_forall in Hd. auto. }
    assert (exists new, c1 = c ++ new /\ (forall b, In b new -> length h <= b < length h1) /\ length h <= length h1 /\ Forall (fun b => e_type (deref h1 b) = JOURNAL) new /\
       (forall b, b < length h -> ~ In b c \/ e_type (deref h b) <> MISC -> deref h1 b = deref h b) /\
       (forall b, b < length h -> e_type (deref h1 b) = e_type (deref h b)) /\
       forall j' cs1 cs2, last_of (map (deref h1) c1) j' -> implied_all j' cs1 cs2 ->
         implied_all (option_map (deref h) j) (map (deref h) c :: cs1) (map (deref h1) c1 :: cs2)) as (new & -> & X2 & X3 & X5 & X6 & X7 & X8).
    { destruct j as [ja|]; [destruct (existsb _ c) eqn:Ex|].
      - injection E as <- <-. exists []. rewrite app_nil_r. repeat split; auto; try easy. intros j' cs1 cs2 H1 H2. cbn. econstructor; eauto. right. now apply existsb_journal'.
      - destruct J as [J1 J2]. pose proof (implied_frame _ _ _ _ _ _ E) as F. destruct (implied_loop_spec _ _ _ _ _ _ Cc E) as ([_ T] & _).
        destruct (implied_loop_ok _ _ _ _ _ _ J1 J2 Cc Dc E) as (new & -> & Y2 & Y3 & Y4 & Y5 & Y6). exists new. repeat (split; auto).
        intros j' cs1 cs2 H1 H2. cbn [option_map]. rewrite map_app in *. econstructor; eauto. now apply existsb_journal.
      - injection E as <- <-. exists []. rewrite app_nil_r. repeat split; auto; try easy. intros j' cs1 cs2 H1 H2. cbn. econstructor; eauto. }
    destruct (last_journal_ok h1 (c ++ new)) as [Lj1 Lj2].
    assert (closed h1 (c ++ new)) as C1.
    { unfold closed in *. apply Forall_app. split; [eapply Forall_impl; [|exact Cc]; cbn; intros; lia|]. apply Forall_forall. intros b Hb. apply X2 in Hb. lia. }
    assert (forall b, In b (concat cs) -> deref h1 b = deref h b) as Same.
    { intros b Hb. unfold closed in Cct. rewrite Forall_forall in Cct. apply X6; auto. destruct (ety_eqb (e_type (deref h b)) MISC) eqn:T; [left|right; now apply is_type_false].
      apply is_type_true in T. intros Hc. apply (Sep b); auto. congruence. }
    edestruct IH as (I1 & I2 & I3); [| | |exact E0|].
    + unfold jok. destruct (last_journal h1 (c ++ new)) as [a|]; auto. split; [|tauto]. unfold closed in C1. rewrite Forall_forall in C1. apply C1. tauto.
    + eapply Forall_impl; [|exact Ct]. intros d Hd. unfold closed in *. eapply Forall_impl; [|exact Hd]. cbn; intros; lia.
    + rewrite (faddr_ext h); auto. intros a Ha. now rewrite Same.
    + split; [lia|]. split.
      { intros b Lb Nb. cbn [concat] in Nb. rewrite I2, X6; auto; try lia.
        - destruct Nb as [Nb|]; auto. left. intros Hb. apply Nb. apply in_app_iff. auto.
        - rewrite X7 by auto. destruct Nb as [Nb|]; auto. left. intros Hb. apply Nb. apply in_app_iff. auto. }
      cbn [map]. assert (map (deref h') (c ++ new) = map (deref h1) (c ++ new)) as Em.
      { apply map_ext_in. intros b Hb. unfold closed in C1. rewrite Forall_forall in C1. apply I2; auto. apply in_app_iff in Hb as [Hb|Hb].
        - unfold closed in Cc. rewrite Forall_forall in Cc. specialize (Cc _ Hb). destruct (ety_eqb (e_type (deref h b)) AUTH) eqn:T.
          + apply is_type_true in T. right. rewrite X7 by auto. congruence.
          + apply is_type_false in T. left. auto.
        - right. rewrite Forall_forall in X5. rewrite X5 by auto. discriminate. }
      rewrite Em. eapply X8; [exact Lj2|]. erewrite (map_ext_in _ (map (deref h1))); [exact I3|].
      intros d Hd. apply map_ext_in. intros a Ha. symmetry. apply Same. apply in_concat. eauto.
Qed.
Lemma look_for_implied_ibids_ok els h cs h' cs' : split_citations els = (h, cs) -> look_for_implied_ibids (h, cs) = Ok (h', cs') ->
  implied_all None (map (map (deref h)) cs) (map (map (deref h')) cs').
Proof.
  intros Sp H. unfold look_for_implied_ibids in H. cbn [fst snd] in H. eapply (implied_all_ok cs None); eauto.
  - exact Logic.I.
  - apply split_closed in Sp as [_ Sp]. apply Forall_forall. intros c Hc. apply Forall_forall. eauto.
  - eapply split_nodup; eauto.
Qed.
