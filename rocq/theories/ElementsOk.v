(** Which exceptions the code after the parser of tagged lines can raise: the elements always have the keys that are read. *)
From Coq Require Import List Arith NArith Bool String Lia.
From Verif Require Import PyStr ListFacts Regex RegexMeta RegexParse Patterns Numeration Elements Record Transform Split SplitProofs Post PostProofs ParseTagged Tag Engine
  RecordProofs BookProofs NumTotal.
Import ListNotations.
Local Open Scope nat_scope.
Local Notation length := List.length.
Local Arguments ety_eqb : simpl never.

(** ** Results *)
(** the result is a value that satisfies P, or an exception among es *)
Definition good {A} (es : list exn) (P : A -> Prop) (r : res A) : Prop := match r with Ok a => P a | Err e => In e es end.
Lemma good_bind {A B} es (P : A -> Prop) (Q : B -> Prop) r f : good es P r -> (forall a, P a -> good es Q (f a)) -> good es Q (bind r f).
Proof. destruct r; cbn; auto. Qed.
Lemma good_impl {A} es (P Q : A -> Prop) r : (forall a, P a -> Q a) -> good es P r -> good es Q r.
Proof. destruct r; cbn; auto. Qed.
Lemma good_incl {A} es es' (P : A -> Prop) r : incl es es' -> good es P r -> good es' P r.
Proof. destruct r; cbn; auto. Qed.
Lemma good_mapM {A B} es (P : A -> Prop) (Q : B -> Prop) f : (forall a, P a -> good es Q (f a)) -> forall l, Forall P l -> good es (Forall Q) (mapM f l).
Proof.
  intros F. induction l as [|a l IH]; intros H; cbn [mapM]; [constructor|]. inversion H; subst. eapply good_bind; [apply F; auto|]. intros b Qb.
  eapply good_bind; [apply IH; auto|]. intros bs Qs. now constructor.
Qed.

(** ** The keys an element must have *)
Definition is_vs (v : option val) : bool := match v with Some (VS _) => true | _ => false end.
Definition needs (t : ety) : list Elements.key :=
  match t with
  | JOURNAL => [Ktitle; Kvolume; Kpage] | REPORTNUMBER => [Kreport_num] | URL => [Kurl_string; Kurl_desc] | DOI => [Kdoi_string] | HDL => [Khdl_id]
  | AUTH => [Kauth_txt; Kauth_type] | QUOTED => [Ktitle] | ISBN => [KISBN] | BOOK => [Ktitle] | PUBLISHER => [Kpublisher] | YEAR => [Kyear]
  | COLLABORATION => [Kcollaboration] | MISC => [] | RECID => []
  end.
(** the year is a text or None, and present in a journal element; a record id is never a list *)
Definition wf (e : el) : Prop :=
  (forall k, In k (needs (e_type e)) -> is_vs (get k e) = true)
  /\ match get Kyear e with Some (VS _) | Some VNone => True | None => e_type e <> JOURNAL | _ => False end
  /\ match get Krecid e with Some (VIbids _) => False | Some _ => True | None => e_type e <> RECID end.
(** before the implied ibids are added the year of a journal is a text *)
Definition wf0 (e : el) : Prop := wf e /\ is_vs (get Kyear e) = true \/ wf e /\ get Kyear e = None.
Lemma vs_ok k e : is_vs (get k e) = true -> exists s, get_str k e = Ok s /\ get k e = Some (VS s).
Proof. unfold get_str. destruct (get k e) as [[]|]; cbn; try discriminate. eauto. Qed.
Lemma wf_get es k e : wf e -> In k (needs (e_type e)) -> good es (fun s => get k e = Some (VS s)) (get_str k e).
Proof. intros (W & _) I. destruct (vs_ok k e (W k I)) as (s & -> & H). exact H. Qed.
Lemma wf_set k s e : wf e -> wf (set_str k s e).
Proof.
  intros (A & B & C). unfold wf, set_str. change (e_type (set k (VS s) e)) with (e_type e). split; [|split].
  - intros k' I. rewrite get_set. destruct (key_eqb k' k); auto.
  - rewrite get_set. destruct (key_eqb Kyear k); auto.
  - rewrite get_set. destruct (key_eqb Krecid k); auto.
Qed.
Lemma wf0_set k s e : wf0 e -> wf0 (set_str k s e).
Proof.
  intros H. assert (wf e) as W by (destruct H; tauto). apply (wf_set k s) in W. unfold wf0, set_str. rewrite get_set. destruct (key_eqb_spec Kyear k) as [<-|N]; auto.
  destruct H as [(_ & H)|(_ & H)]; auto.
Qed.
Lemma wf0_wf e : wf0 e -> wf e. Proof. intros [(H & _)|(H & _)]; exact H. Qed.
Lemma wf_misc m e : wf e -> wf (set_misc m e). Proof. exact (fun H => H). Qed.
Lemma wf0_misc m e : wf0 e -> wf0 (set_misc m e). Proof. exact (fun H => H). Qed.
Lemma wf_typed t e : wf e -> t <> JOURNAL -> t <> RECID -> (forall k, In k (needs t) -> is_vs (get k e) = true) -> wf (set_type t e).
Proof. intros (A & B & C) J R H. split; [exact H|]. unfold set_type, get in *. cbn. split; [destruct (dget Kyear (e_dict e)) as [[]|]|destruct (dget Krecid (e_dict e)) as [[]|]]; auto. Qed.
Lemma wf0_typed t e : wf0 e -> t <> JOURNAL -> t <> RECID -> (forall k, In k (needs t) -> is_vs (get k e) = true) -> wf0 (set_type t e).
Proof. intros [(W & Y)|(W & Y)] J R H; [left|right]; split; auto using wf_typed. Qed.
Lemma type_is t e : is_type t e = true -> e_type e = t.
Proof. unfold is_type. destruct (ety_eqb_spec (e_type e) t); [auto|discriminate]. Qed.
Ltac need_key := let H := fresh in match goal with H : is_type ?t ?e = true |- In _ (needs (e_type ?e)) => rewrite (type_is _ _ H); cbn; auto 6 end.

Section Es.
Variable es : list exn.

(** ** The transformations of one element *)
Lemma split_volume_good e : wf0 e -> good es wf0 (split_volume_el e).
Proof.
  intros W. unfold split_volume_el. destruct (is_type JOURNAL e) eqn:T; [|exact W]. eapply good_bind; [apply wf_get; [now apply wf0_wf|need_key]|]. intros t _.
  destruct (rsplit1 59%N t) as [(t', series)|]; [|exact W]. eapply good_bind; [apply wf_get; [now apply wf0_wf|need_key]|]. intros v _. cbn. now apply wf0_set, wf0_set.
Qed.
Lemma format_volume_good e : wf0 e -> good es wf0 (format_volume_el e).
Proof.
  intros W. unfold format_volume_el. destruct (is_type JOURNAL e) eqn:T; [|exact W]. eapply good_bind; [apply wf_get; [now apply wf0_wf|need_key]|]. intros v _.
  destruct (matches _ v); [now apply wf0_set|exact W].
Qed.
Lemma int_good s : In ValueError es -> good es (fun _ => True) (int_of_str s).
Proof. intros V. unfold int_of_str. destruct (strip s) as [|c t]; [exact V|]. generalize (c :: t). intros l. destruct (N.ltb _ _); [exact V|]. destruct (digits_value 0 l); [exact I|exact V]. Qed.
Lemma year_good e : wf0 e -> is_type JOURNAL e = true -> good es (fun s => get Kyear e = Some (VS s)) (get_str Kyear e).
Proof.
  intros [(W & Y)|(W & Y)] T; [destruct (vs_ok _ _ Y) as (s & -> & H); exact H|]. exfalso. destruct W as (_ & W & _). rewrite Y in W. apply W. now apply type_is.
Qed.
Lemma special_good sp e : sp = [] \/ In ValueError es -> wf0 e -> good es wf0 (handle_special_journals_el sp e).
Proof.
  intros V W. pose proof (wf0_wf _ W) as W1. unfold handle_special_journals_el. destruct (is_type JOURNAL e) eqn:T; [|exact W].
  eapply good_bind; [apply wf_get; auto; need_key|]. intros t _. destruct (mem_str t sp) eqn:Sp; [|exact W].
  assert (In ValueError es) as V' by (destruct V as [->|V]; [discriminate Sp|exact V]).
  eapply good_bind; [apply wf_get; auto; need_key|]. intros v _.
  assert (good es (fun e1 => wf0 e1 /\ is_vs (get Kpage e1) = true)
    (if matches re_vol_1_2 v then
       let* year := get_str Kyear e in
       let* e' := (if eqs year [] then let* page := get_str Kpage e in if matches re_page_year page then Ok (set_misc (t ++ py "," ++ v ++ py "," ++ page) (set_type MISC e)) else Ok e else Ok e) in
       let* n := int_of_str v in Ok (set_str Kvolume (last_n 2 year ++ pad_zero 2 n) e')
     else Ok e)) as A.
  { assert (is_vs (get Kpage e) = true) as P by (apply W1; need_key).
    destruct (matches re_vol_1_2 v); [|cbn; auto]. eapply good_bind; [now apply year_good|]. intros y _.
    apply (good_bind es (fun e' => wf0 e' /\ is_vs (get Kpage e') = true)).
    - destruct (eqs y []); [|cbn; auto]. eapply good_bind; [apply wf_get; auto; need_key|]. intros p _. destruct (matches re_page_year p); cbn; auto. split; auto.
      apply wf0_misc, wf0_typed; [auto|discriminate|discriminate|intros k []].
    - intros e' (We & Pe). eapply good_bind; [now apply int_good|]. intros n _. cbn [good]. split; [now apply wf0_set|]. unfold set_str. now rewrite get_set. }
  eapply good_bind; [exact A|]. intros e1 (We & Pe). destruct (vs_ok _ _ Pe) as (p & -> & _). cbn [bind]. destruct (isdigit p); [|exact We].
  eapply good_bind; [now apply int_good|]. intros n _. now apply wf0_set.
Qed.
Lemma report_good e : wf0 e -> good es wf0 (format_report_number_el e).
Proof.
  intros W. unfold format_report_number_el. destruct (is_type REPORTNUMBER e) eqn:T; [|exact W]. eapply good_bind; [apply wf_get; [now apply wf0_wf|need_key]|]. intros v _.
  destruct (re_match _ v); [|exact W]. destruct (negb _); [now apply wf0_set|exact W].
Qed.
Lemma author_good e : wf0 e -> good es wf0 (format_author_ed_el e).
Proof.
  intros W. unfold format_author_ed_el. destruct (is_type AUTH e) eqn:T; [|exact W]. eapply good_bind; [apply wf_get; [now apply wf0_wf|need_key]|]. intros v _. now apply wf0_set.
Qed.
Lemma hep_good e : wf0 e -> good es wf0 (format_hep_el e).
Proof.
  intros W. unfold format_hep_el. destruct (is_type REPORTNUMBER e) eqn:T; [|exact W]. eapply good_bind; [apply wf_get; [now apply wf0_wf|need_key]|]. intros v _. now apply wf0_set.
Qed.
Lemma b_good e : wf0 e -> good es wf0 (remove_b_el e).
Proof.
  intros W. pose proof (wf0_wf _ W) as W1. unfold remove_b_el. destruct (is_type JOURNAL e) eqn:T; [|exact W]. eapply good_bind; [apply wf_get; auto; need_key|]. intros v _.
  destruct (eqs v _); [|exact W]. destruct (vs_ok Kvolume e) as (s & _ & ->); [apply W1; need_key|]. destruct (_ || _); [now apply wf0_set|exact W].
Qed.
Lemma mangle_good e : wf0 e -> good es wf0 (mangle_volume_el e).
Proof.
  intros W. unfold mangle_volume_el. destruct (is_type JOURNAL e) eqn:T; [|exact W]. eapply good_bind; [apply wf_get; [now apply wf0_wf|need_key]|]. intros v _.
  destruct (re_match _ v); [now apply wf0_set|exact W].
Qed.
Lemma arxiv_url_good e : wf0 e -> good es wf0 (arxiv_url_el e).
Proof.
  intros W. unfold arxiv_url_el. destruct (is_type URL e) eqn:T; [|exact W]. eapply good_bind; [apply wf_get; [now apply wf0_wf|need_key]|]. intros v _.
  destruct (startswith v _); [|exact W]. cbn. set (s := replace _ _ _). clearbody s.
  assert (set_str Kreport_num s (set_type REPORTNUMBER e) = set_type REPORTNUMBER (set_str Kreport_num s e)) as -> by reflexivity.
  apply wf0_typed; [now apply wf0_set|discriminate|discriminate|]. intros k [<-|[]]. unfold set_str. now rewrite get_set.
Qed.
Lemma get_del k k' e : get k (del k' e) = if key_eqb k k' then None else get k e.
Proof.
  unfold get, del, ddel. cbn. induction (e_dict e) as [|(a, v) d IH]; cbn; [now destruct (key_eqb k k')|]. destruct (key_eqb_spec k' a) as [->|N]; cbn [negb].
  - rewrite IH. destruct (key_eqb_spec k a); auto.
  - cbn. rewrite IH. destruct (key_eqb_spec k a) as [->|]; auto. destruct (key_eqb_spec a k'); congruence.
Qed.
Lemma wf_del k e : wf e -> ~ In k (needs (e_type e)) -> k <> Kyear -> k <> Krecid -> wf (del k e).
Proof.
  intros (A & B & C) N Y R. unfold wf. change (e_type (del k e)) with (e_type e). rewrite !get_del. destruct (key_eqb_spec Kyear k); [congruence|]. destruct (key_eqb_spec Krecid k); [congruence|].
  split; auto. intros k' I. rewrite get_del. destruct (key_eqb_spec k' k) as [->|]; [contradiction|auto].
Qed.
Lemma wf0_del k e : wf0 e -> ~ In k (needs (e_type e)) -> k <> Kyear -> k <> Krecid -> wf0 (del k e).
Proof.
  intros [(W & Z)|(W & Z)] N Y R; [left|right]; (split; [now apply wf_del|]); rewrite get_del; destruct (key_eqb_spec Kyear k); congruence.
Qed.
Lemma hdl_url_good e : wf0 e -> good es wf0 (hdl_url_el e).
Proof.
  intros W. unfold hdl_url_el. destruct (is_type URL e) eqn:T; [|exact W]. eapply good_bind; [apply wf_get; [now apply wf0_wf|need_key]|]. intros v _.
  destruct (re_match _ v) as [o|]; [|exact W]. cbn [good]. set (s := g_str v o 2). clearbody s.
  assert (wf0 (set_type HDL (set_str Khdl_id s e))) as X.
  { apply wf0_typed; [now apply wf0_set|discriminate|discriminate|]. intros k [<-|[]]. unfold set_str. now rewrite get_set. }
  apply wf0_del; [|cbn; intuition discriminate|discriminate|discriminate]. apply wf0_del; [exact X|cbn; intuition discriminate|discriminate|discriminate].
Qed.

(** ** Lists *)
Definition fit_books (books : books_kb) : bool :=
  forallb (fun e => (3 <=? length (snd e)) && nonempty (clean (upper (fst e))) && match assoc_str (upper (fst e)) books with Some _ => true | None => false end) books.
Lemma assoc_in {A} k : forall (l : list (str * A)) v, assoc_str k l = Some v -> In (k, v) l.
Proof. induction l as [|(a, w) l IH]; cbn; intros v H; [discriminate|]. destruct (eqs_spec k a) as [->|]; [injection H as ->; auto|]. right. auto. Qed.
Lemma fit_row books k row : fit_books books = true -> assoc_str k books = Some row -> exists a b c t, row = a :: b :: c :: t.
Proof.
  unfold fit_books. rewrite forallb_forall. intros F A. apply assoc_in in A. specialize (F _ A). cbn in F. apply andb_true_iff in F as [F _]. apply andb_true_iff in F as [F _].
  destruct row as [|a [|b [|c t]]]; try discriminate. eauto.
Qed.
Lemma in_remove_first x y : forall l, In x (remove_first y l) -> In x l.
Proof. induction l as [|z l IH]; cbn; auto. destruct (el_eqb y z); cbn; intros H; auto. destruct H; auto. Qed.
Lemma new_wf0 t m d : wf (mkel t m d) -> (forall v, dget Kyear d = Some v -> is_vs (Some v) = true) -> wf0 (mkel t m d).
Proof. intros W Y. unfold wf0, get. cbn. destruct (dget Kyear d) as [v|] eqn:E; [left|right]; auto. Qed.
Lemma books_good books l : fit_books books = true -> Forall wf0 l -> good es (Forall wf0) (look_for_books books l).
Proof.
  intros F W. unfold look_for_books, first_of_type. destruct (find (is_type QUOTED) l) as [q|] eqn:Q; [|exact W]. apply find_some in Q as (I & T).
  rewrite Forall_forall in W. eapply good_bind; [apply wf_get; [apply wf0_wf, W, I|need_key]|]. intros t _.
  destruct (assoc_str (upper t) books) as [row|] eqn:A; [|cbn; now rewrite Forall_forall]. destruct (fit_row _ _ _ F A) as (a & b & c & r & ->). cbn [nth_error good].
  rewrite Forall_forall. intros e He. apply in_remove_first in He. apply in_app_iff in He as [He|[<-|[]]]; auto.
  set (y := strip_chars _ c). clearbody y. apply wf0_set, new_wf0; [|cbn; intros v [= <-]; reflexivity]. split; [|split]; cbn; auto; try discriminate. intros k [<-|[]]. reflexivity.
Qed.
Lemma hdl_wf0 id m : wf0 (hdl_el id m).
Proof. apply new_wf0; [|discriminate]. split; [|split]; cbn; try discriminate. intros k [<-|[]]. reflexivity. Qed.
Lemma in_update {A} (f : A -> A) x : forall i l, In x (update_at i f l) -> In x l \/ exists y, In y l /\ x = f y.
Proof.
  induction i as [|i IH]; intros [|z l]; cbn; auto; intros [<-|H]; eauto. apply IH in H as [H|(y & H & ->)]; eauto.
Qed.
Lemma firstn_incl {A} n : forall (l : list A) x, In x (firstn n l) -> In x l.
Proof. induction n; intros [|y l] x; cbn; auto; try tauto. intros [H|H]; auto. Qed.
Lemma skipn_incl {A} n : forall (l : list A) x, In x (skipn n l) -> In x l.
Proof. induction n; intros [|y l] x; cbn; auto. Qed.
Lemma hdl_insert_good st o : Forall wf0 (fst st) -> Forall wf0 (fst (hdl_insert st o)).
Proof.
  destruct st as (l, p). cbn [fst]. intros W. unfold hdl_insert. destruct (nth_error l p) as [e|] eqn:E; [|exact W]. cbn [fst]. apply nth_error_In in E.
  rewrite Forall_forall in W |- *. intros x I. unfold insert_at in I. apply in_app_iff in I as [I|[<-|I]]; [|apply hdl_wf0|];
    [apply firstn_incl in I|apply skipn_incl in I]; apply in_update in I as [I|(y & I & ->)]; auto; apply wf0_misc; auto.
Qed.
Lemma hdl_good l : Forall wf0 l -> Forall wf0 (look_for_hdl l).
Proof.
  unfold look_for_hdl. generalize 0. generalize (length l) as n. intros n. revert l. induction n as [|n IH]; intros l p W; cbn [look_for_hdl_from]; auto.
  destruct (nth_error l p) as [e|]; auto. set (ms := rev _). clearbody ms. generalize (p + length ms + 1). intros p'.
  assert (forall st, Forall wf0 (fst st) -> Forall wf0 (fst (fold_left hdl_insert ms st))) as F.
  { induction ms as [|o ms IHm]; intros st H; cbn [fold_left]; auto. apply IHm. now apply hdl_insert_good. }
  specialize (F (l, p) W). destruct (fold_left hdl_insert ms (l, p)) as (l', q). cbn [fst] in F. now apply IH.
Qed.
Lemma transform_good K l : k_special K = [] \/ In ValueError es -> fit_books (k_books K) = true -> Forall wf0 l -> good es (Forall wf0) (transform K l).
Proof.
  intros V B W. unfold transform.
  eapply good_bind; [apply (good_mapM es wf0 wf0); [exact split_volume_good|exact W]|]. clear l W. intros l W.
  eapply good_bind; [apply (good_mapM es wf0 wf0); [exact format_volume_good|exact W]|]. clear l W. intros l W.
  eapply good_bind; [apply (good_mapM es wf0 wf0); [intros e; now apply special_good|exact W]|]. clear l W. intros l W.
  eapply good_bind; [apply (good_mapM es wf0 wf0); [exact report_good|exact W]|]. clear l W. intros l W.
  eapply good_bind; [apply (good_mapM es wf0 wf0); [exact author_good|exact W]|]. clear l W. intros l W.
  eapply good_bind; [apply books_good; eauto|]. clear l W. intros l W.
  eapply good_bind; [apply (good_mapM es wf0 wf0); [exact hep_good|exact W]|]. clear l W. intros l W.
  eapply good_bind; [apply (good_mapM es wf0 wf0); [exact b_good|exact W]|]. clear l W. intros l W.
  eapply good_bind; [apply (good_mapM es wf0 wf0); [exact mangle_good|exact W]|]. clear l W. intros l W.
  eapply good_bind; [apply (good_mapM es wf0 wf0); [exact arxiv_url_good|exact W]|]. clear l W. intros l W.
  apply (good_mapM es wf0 wf0); [exact hdl_url_good|]. now apply hdl_good.
Qed.

(** ** Links *)
(** the callback gives a value and raises nothing but what the code expects *)
Definition fit_callback (cb : callback) : Prop :=
  forall n e, match cb n e with Ok (VIbids _) => False | Ok _ => True | Err IndexError | Err KeyError => True | Err _ => False end.
Lemma wf_recid v e : wf e -> match v with VIbids _ => False | _ => True end -> wf (set Krecid v e).
Proof.
  intros (A & B & C) H. unfold wf. change (e_type (set Krecid v e)) with (e_type e). split; [|split].
  - intros k I. rewrite get_set. destruct (key_eqb_spec k Krecid) as [->|]; auto. destruct (e_type e); cbn in I; intuition discriminate.
  - rewrite get_set. exact B.
  - rewrite get_set_same. destruct v; auto.
Qed.
Lemma wf0_recid v e : wf0 e -> match v with VIbids _ => False | _ => True end -> wf0 (set Krecid v e).
Proof. intros [(W & Y)|(W & Y)] H; [left|right]; (split; [now apply wf_recid|]); rewrite get_set; exact Y. Qed.
Lemma associate_good (P : el -> Prop) cb n e : (forall v e, P e -> match v with VIbids _ => False | _ => True end -> P (set Krecid v e)) ->
  fit_callback cb -> P e -> good es P (associate_one cb n e).
Proof. intros Q F W. specialize (F n e). unfold associate_one. destruct (cb n e) as [v|x]; [|destruct x; try contradiction]; apply Q; auto. Qed.
Lemma recids_good cb : fit_callback cb -> forall l n, Forall wf0 l -> good es (fun r => Forall wf0 (fst r)) (associate_recids cb n l).
Proof.
  intros F. induction l as [|e l IH]; intros n W; cbn [associate_recids]; [exact W|]. inversion W; subst. eapply good_bind; [apply (associate_good wf0); auto; intros; now apply wf0_recid|].
  intros e' We. eapply good_bind; [apply IH; auto|]. intros (t', n') Wt. cbn [fst] in *. now constructor.
Qed.

(** ** The heap *)
Lemma deref_wf (P : el -> Prop) h a : P null_el -> Forall P h -> P (deref h a).
Proof. intros N H. unfold deref. destruct (Nat.ltb_spec a (length h)) as [L|L]; [rewrite Forall_forall in H; apply H; now apply nth_In|now rewrite nth_overflow]. Qed.
Lemma null_wf0 : wf0 null_el. Proof. right. split; [|reflexivity]. split; [intros k []|]. split; cbn; discriminate. Qed.
Lemma store_wf (P : el -> Prop) h a f : (forall e, P e -> P (f e)) -> Forall P h -> Forall P (store h a f).
Proof. intros F H. rewrite Forall_forall in *. intros x I. unfold store in I. apply in_update in I as [I|(y & I & ->)]; auto. Qed.
Lemma alloc_wf (P : el -> Prop) h e : P e -> Forall P h -> Forall P (fst (alloc h e)).
Proof. intros E H. unfold alloc. cbn. apply Forall_app. auto. Qed.
Lemma misc_wf0 m : wf0 (mkel MISC m []). Proof. apply new_wf0; [|discriminate]. split; [intros k []|]. split; cbn; discriminate. Qed.
Lemma push_heap s a : s_heap (push s a) = s_heap s.
Proof. unfold push. destruct (e_type (deref (s_heap s) a)); reflexivity. Qed.
Lemma split_good l : Forall wf0 l -> Forall wf0 (fst (split_citations l)).
Proof.
  intros W. unfold split_citations. cbn [fst]. assert (Forall wf0 (s_heap (s_init l))) as H by exact W. revert H. generalize (s_init l). generalize (seq 0 (length l)).
  induction l0 as [|a t IH]; intros s H; cbn [fold_left]; auto. apply IH. unfold split_step. destruct (split_needed _ _ _) as [r|]; rewrite push_heap; auto.
  unfold split_at. destruct r.
  - destruct (split1 _ _) as [(m, rest)|].
    + cbn [alloc]. destruct (insert_postponed _) as (cur, n). destruct (postpone_last_auth _ _ _) as (p, cur'). cbn [s_heap]. apply Forall_app. split; [|constructor; auto using misc_wf0].
      apply store_wf; auto.
    + destruct (insert_postponed _) as (cur, n). destruct (postpone_last_auth _ _ _) as (p, cur'). exact H.
  - destruct (insert_postponed _) as (cur, n). destruct (postpone_last_auth _ _ _) as (p, cur'). exact H.
Qed.

(** ** After the split *)
Definition hwf (h : heap) : Prop := Forall wf h.
Definition swf (st : Post.state) : Prop := hwf (fst st).
Lemma hwf_deref h a : hwf h -> wf (deref h a). Proof. apply deref_wf, wf0_wf, null_wf0. Qed.
Lemma each_good f : (forall h c, hwf h -> good es (fun r => hwf (fst r)) (f h c)) -> forall cs h, hwf h -> good es swf (each f h cs).
Proof.
  intros F. induction cs as [|c cs IH]; intros h H; cbn [each]; [exact H|]. eapply good_bind; [apply F; exact H|]. intros (h1, c1) H1. cbn [fst] in H1.
  eapply good_bind; [apply IH; exact H1|]. intros (h2, t2) H2. exact H2.
Qed.
Lemma journal_type h j : is_type JOURNAL (deref h j) = true -> j < length h.
Proof. intros H. destruct (Nat.ltb_spec j (length h)) as [L|L]; auto. exfalso. unfold deref in H. rewrite nth_overflow in H by auto. discriminate. Qed.
Lemma ibid_wf title vol i : num_ok i -> wf (ibid_el (VS title) vol i (n_page i)).
Proof.
  intros (_ & P & _). destruct (n_page i) as [[|p pg]|]; try discriminate. destruct i as [y se vo pa pe ln]. cbn. unfold ibid_el, opt_val. cbn.
  split; [|split]; cbn; auto; try discriminate.
  - intros k [<-|[<-|[<-|[]]]]; reflexivity.
  - destruct y; exact I.
Qed.
Lemma implied_good j : forall todo h c, hwf h -> is_type JOURNAL (deref h j) = true -> good es (fun r => hwf (fst r)) (implied_loop j h c todo).
Proof.
  induction todo as [|a todo IH]; intros h c H J; cbn [implied_loop]; [exact H|]. destruct (is_type MISC (deref h a)); [|now apply IH].
  destruct (find_numeration_ok (e_misc (deref h a))) as (r & -> & R). cbn [bind]. destruct r as [i|]; [|now apply IH]. destruct (R i eq_refl) as (Nk & _).
  assert (forall k, In k [Ktitle; Kvolume; Kpage] -> is_vs (get k (deref h j)) = true) as Nd by (intros k I; apply (hwf_deref h j H); rewrite (type_is _ _ J); exact I).
  destruct (vs_ok Kvolume (deref h j)) as (v & Ev & _); [apply Nd; cbn; auto|]. destruct (vs_ok Ktitle (deref h j)) as (t & _ & Et); [apply Nd; cbn; auto|].
  apply (good_bind es (fun _ => True)); [destruct (truthy_str (n_series i)); [exact I|rewrite Ev; exact I]|]. intros series _.
  pose proof Nk as (Tv & Tp & _). destruct (n_volume i) as [vo|]; [|discriminate]. cbn [need bind].
  apply (good_bind es (fun _ => True)); [destruct (truthy_str series); exact I|]. intros vol _. rewrite Et, Tp. cbn [alloc].
  apply IH.
  - apply store_wf; [intros e; apply wf_misc|]. apply Forall_app. split; [exact H|]. constructor; auto. now apply ibid_wf.
  - pose proof (journal_type _ _ J) as L. destruct (Nat.eq_dec a j) as [->|Na].
    + rewrite deref_store_same by (rewrite app_length; cbn; lia). cbn. rewrite deref_alloc_old by auto. exact J.
    + rewrite deref_store_other by auto. rewrite deref_alloc_old by auto. exact J.
Qed.
Lemma implied_ibids_good : forall cs j h, hwf h -> (forall ja, j = Some ja -> is_type JOURNAL (deref h ja) = true) -> good es swf (implied_ibids j h cs).
Proof.
  induction cs as [|c cs IH]; intros j h H J; cbn [implied_ibids]; [exact H|].
  eapply (good_bind es (fun r => hwf (fst r))).
  - destruct j as [ja|]; [|exact H]. destruct (existsb _ c); [exact H|]. apply implied_good; auto.
  - intros (h1, c1) H1. cbn [fst] in H1. eapply good_bind; [apply IH; [exact H1|]|intros (h2, t2) H2; exact H2].
    intros ja E. unfold last_journal in E. apply find_some in E. tauto.
Qed.
Lemma journal_year_good l : Forall wf l -> good es (fun _ => True) (journal_year l).
Proof.
  induction l as [|e l IH]; intros W; cbn [journal_year]; [exact I|]. inversion W as [|? ? (_ & Y & _) W']; subst.
  destruct (is_type JOURNAL e) eqn:T; cbn [orb].
  - destruct (get Kyear e) as [[]|]; cbn; auto; try contradiction. exfalso. apply Y. now apply type_is.
  - destruct (is_type BOOK e); cbn [andb]; auto. destruct (get Kyear e) as [[]|]; cbn; auto; contradiction.
Qed.
Lemma drop_year_wf y e : wf e -> wf (drop_year y e).
Proof. intros W. unfold drop_year. destruct (contains y (e_misc e)); auto. Qed.
Lemma year_el_wf y : wf (year_el y).
Proof. split; [|split]; cbn; auto; try discriminate. intros k [<-|[]]. reflexivity. Qed.
Lemma add_year_good h c : hwf h -> good es (fun r => hwf (fst r)) (add_year_one h c).
Proof.
  intros H. unfold add_year_one, find_year. eapply (good_bind es (fun _ => True)).
  - eapply good_bind; [apply journal_year_good|intros y _; exact I]. apply Forall_forall. intros e He. apply in_map_iff in He as (a & <- & _). now apply hwf_deref.
  - intros [[|y0 y]|] _; try exact H. cbn [alloc good fst].
    assert (hwf (h ++ [year_el (y0 :: y)])) as H1 by (apply Forall_app; split; [exact H|constructor; auto using year_el_wf]). revert H1. generalize (h ++ [year_el (y0 :: y)]) as h1.
    set (l := c ++ [_]). clearbody l. induction l as [|a l IH]; intros h1 H1; cbn [fold_left]; auto. apply IH. apply store_wf; auto. intros e. apply drop_year_wf.
Qed.
Lemma cut_good s title i : clean (upper title) <> [] -> find_substring_ignore_special_chars s title = Some i ->
  exists m, cut_substring_with_special_chars s title i = Ok (Some m).
Proof.
  intros Nk. unfold find_substring_ignore_special_chars, cut_substring_with_special_chars. set (t := clean (upper title)) in *.
  destruct (find_sub t (clean (upper s))) as [k|] eqn:F; [|discriminate]. intros [= <-]. apply find_sub_some in F as (L & F). set (u := upper s) in *. clearbody u.
  change (clean u) with (filter alnum u) in *.
  destruct (real_index_spec k u 0) as (a & c & b & Eu & La & Ac & Ka); [lia| |].
  { rewrite Nat.sub_0_r. destruct t; [congruence|]. cbn [length] in L. unfold str, ch in *. lia. }
  rewrite <- La. assert (skipn (length a) u = c :: b) as -> by (rewrite Eu, skipn_app, skipn_all, Nat.sub_diag; reflexivity).
  destruct (cut_loop_spec (c :: b) t (skipn (length t) (filter alnum (c :: b))) 0) as (body & d & rest & _ & _ & _ & Cl); auto.
  - rewrite Nat.sub_0_r in Ka. rewrite Eu, filter_app, skipn_app, <- Ka, skipn_all, Nat.sub_diag in F. cbn [app skipn] in F. rewrite <- F at 1. symmetry. apply firstn_skipn.
  - rewrite Cl. cbn [bind]. eauto.
Qed.
Lemma titles_good books year m : fit_books books = true -> forall todo, incl todo books -> good es (fun r => match r with Some (row, _) => exists a b c t, row = a :: b :: c :: t | None => True end) (search_titles todo books year m).
Proof.
  intros F. induction todo as [|(title, row0) todo IH]; intros Inc; cbn [search_titles]; [exact I|]. assert (incl todo books) as Inc' by (intros x Hx; apply Inc; now right).
  destruct (find_substring_ignore_special_chars m title) as [i|] eqn:Fi; [|now apply IH].
  pose proof F as F'. unfold fit_books in F'. rewrite forallb_forall in F'. specialize (F' (title, row0) (Inc _ (or_introl eq_refl))). cbn [fst snd] in F'.
  apply andb_true_iff in F' as [F1 F3]. apply andb_true_iff in F1 as [_ F2]. destruct (assoc_str (upper title) books) as [row|] eqn:A; [|discriminate].
  destruct (fit_row _ _ _ F A) as (a & b & c & t & ->). cbn [nth_error]. destruct (match year with Some _ => _ | None => _ end); [|now apply IH].
  destruct (cut_good m title i) as (m' & ->); auto. { destruct (clean (upper title)); [discriminate F2|discriminate]. }
  cbn [bind good]. eauto 6.
Qed.
Lemma book_el_wf a b c t : wf (book_el (a :: b :: c :: t)).
Proof. split; [|split]; cbn; auto; try discriminate. intros k [<-|[]]. reflexivity. Qed.
Lemma elements_good books year : fit_books books = true -> forall todo h c, hwf h -> good es (fun r => hwf (fst r)) (search_elements books year h c todo).
Proof.
  intros F. induction todo as [|a todo IH]; intros h c H; cbn [search_elements]; [exact H|]. eapply good_bind; [apply titles_good; [exact F|apply incl_refl]|].
  intros [(row, m')|] R; [|now apply IH]. destruct R as (x & y & z & t & ->). cbn [alloc good fst]. apply store_wf; [intros e; apply wf_misc|]. apply Forall_app.
  split; [exact H|]. constructor; auto using book_el_wf.
Qed.
Lemma heap_assoc_good cb : fit_callback cb -> forall c n h, hwf h -> good es (fun r => hwf (fst r)) (associate_heap cb n h c).
Proof.
  intros F. induction c as [|a c IH]; intros n h H; cbn [associate_heap]; [exact H|]. eapply good_bind; [apply (associate_good wf); auto; [intros; now apply wf_recid|now apply hwf_deref]|].
  intros e We. apply IH. apply store_wf; auto.
Qed.
Lemma cits_assoc_good cb : fit_callback cb -> forall cs n h, hwf h -> good es (fun r => hwf (fst r)) (associate_citations cb n h cs).
Proof.
  intros F. induction cs as [|c cs IH]; intros n h H; cbn [associate_citations]; [exact H|]. eapply good_bind; [now apply heap_assoc_good|]. intros (h1, n1) H1. now apply IH.
Qed.
Lemma dup_authors_good : forall c found h, hwf h -> good es hwf (dup_authors found h c).
Proof.
  induction c as [|a c IH]; intros found h H; cbn [dup_authors]; [exact H|]. destruct (is_type AUTH (deref h a)) eqn:T; [|now apply IH]. destruct found; [|now apply IH].
  eapply good_bind; [apply wf_get; [now apply hwf_deref|need_key]|]. intros txt _. apply IH. apply store_wf; auto. intros e W. apply wf_misc, wf_typed; [auto|discriminate|discriminate|intros k []].
Qed.
Lemma dup_collabs_good h : hwf h -> forall snap seen c, good es (fun _ => True) (dup_collabs seen h snap c).
Proof.
  intros H. induction snap as [|a snap IH]; intros seen c; cbn [dup_collabs]; [exact I|]. destruct (is_type COLLABORATION (deref h a)) eqn:T; [|apply IH].
  eapply good_bind; [apply wf_get; [now apply hwf_deref|need_key]|]. intros name _. destruct (mem_str name seen); apply IH.
Qed.
Lemma recid_good h c : hwf h -> good es (fun r => hwf (fst r)) (add_recid_one h c).
Proof.
  intros H. unfold add_recid_one. destruct (find _ c) as [a|]; [|exact H]. destruct (get Krecid (deref h a)) as [v|] eqn:G; [|exact H]. cbn [alloc good fst].
  apply Forall_app. split; [exact H|]. constructor; auto. destruct (hwf_deref h a H) as (_ & _ & R). rewrite G in R. split; [intros k []|]. split; cbn; [discriminate|]. destruct v; auto.
Qed.
Lemma post_good books cb n st : fit_books books = true -> (forall f, cb = Some f -> fit_callback f) -> swf st -> good es (fun r => swf (fst r)) (post_split books cb n st).
Proof.
  intros F C W. unfold post_split. eapply good_bind; [apply implied_ibids_good; [exact W|discriminate]|]. clear st W. intros st W.
  eapply good_bind; [apply each_good; [intros h c; apply add_year_good|exact W]|]. clear st W. intros st W.
  eapply good_bind; [apply each_good; [|exact W]|]. { intros h c H. destruct (is_unknown_citation _); [|exact H]. now apply elements_good. }
  clear st W. intros st W. eapply (good_bind es (fun r => swf (fst r))).
  - destruct cb as [f|]; [|exact W]. eapply good_bind; [apply cits_assoc_good; [now apply C|exact W]|]. intros (h, n') H. exact H.
  - clear st W. intros (st, n') W. cbn [fst] in W. eapply good_bind; [apply each_good; [|exact W]|].
    { intros h c H. eapply good_bind; [now apply dup_authors_good|]. intros h' H'. exact H'. }
    clear st W. intros st W. eapply good_bind; [apply each_good; [|exact W]|].
    { intros h c H. eapply good_bind; [now apply dup_collabs_good|]. intros c' _. exact H. }
    clear st W. intros st W. eapply good_bind; [apply each_good; [intros h c; apply recid_good|exact W]|]. clear st W. intros st W. exact W.
Qed.
Lemma cite_good K cb n els : k_special K = [] \/ In ValueError es -> fit_books (k_books K) = true -> (forall f, cb = Some f -> fit_callback f) -> Forall wf0 els ->
  good es (fun r => Forall (Forall wf) (fst r)) (cite K cb n els).
Proof.
  intros V F C W. unfold cite. eapply good_bind; [now apply transform_good|]. clear els W. intros els W.
  eapply (good_bind es (fun r => Forall wf0 (fst r))); [destruct cb as [f|]; [apply recids_good; auto|exact W]|]. clear els W. intros (els, n') W. cbn [fst] in W.
  eapply good_bind; [apply post_good; eauto|].
  - unfold swf, hwf. eapply Forall_impl; [|apply split_good; exact W]. exact wf0_wf.
  - intros (st, n'') S. cbn [fst] in *. unfold values. apply Forall_forall. intros c I. apply in_map_iff in I as (l & <- & _). apply Forall_forall. intros e J. apply in_map_iff in J as (a & <- & _). now apply hwf_deref.
Qed.

(** ** The references *)
Definition fit_format (f : template) : bool :=
  forallb (fun p => match p with Field k => existsb (key_eqb k) [Ktitle; Kvolume; Kyear; Kpage] | Lit _ => true end) f.
Lemma format_good f e : fit_format f = true -> wf e -> e_type e = JOURNAL -> good es (fun _ => True) (format_el f e).
Proof.
  intros F W T. induction f as [|[s|k] f IH]; cbn [format_el]; [exact I| |].
  - eapply good_bind; [apply IH; exact F|]. intros r _. exact I.
  - cbn [fit_format forallb] in F. apply andb_true_iff in F as [F1 F2].
    assert (exists v, get k e = Some v /\ exists s, str_of_val v = Ok s) as (v & -> & s & ->).
    { destruct W as (A & Y & _). rewrite T in *. cbn [needs] in A.
      assert (k = Kyear \/ In k [Ktitle; Kvolume; Kpage]) as [->|I].
      { cbn [existsb] in F1. destruct (key_eqb_spec k Ktitle); [subst; cbn; auto|]. destruct (key_eqb_spec k Kvolume); [subst; cbn; auto|]. destruct (key_eqb_spec k Kyear); [auto|].
        destruct (key_eqb_spec k Kpage); [subst; cbn; auto|discriminate]. }
      - destruct (get Kyear e) as [[]|]; try contradiction; eexists; (split; [reflexivity|]); cbn; eauto.
      - destruct (vs_ok _ _ (A k I)) as (s & _ & ->). eexists. split; [reflexivity|]. cbn. eauto. }
    cbn [bind]. eapply good_bind; [apply IH; exact F2|]. intros r _. exact I.
Qed.
Lemma add_element_good f r e : fit_format f = true -> wf e -> good es (fun _ => True) (add_element f r e).
Proof.
  intros F W. unfold add_element. generalize (if nonempty (strip_chars (py "., [](){}") (e_misc e)) then add_subfield r Fmisc (rstrip_chars (py "[({ ,.") (lstrip_chars (py "])} ,.") (e_misc e))) else r) as r0. intros r0.
  assert (forall k, In k (needs (e_type e)) -> good es (fun s => get k e = Some (VS s)) (get_str k e)) as G by (intros k; now apply wf_get).
  destruct (e_type e) eqn:T; cbn [needs] in G; try (eapply good_bind; [apply G; cbn; auto|intros v _; exact I]).
  - unfold add_journal_subfield. eapply good_bind; [now apply format_good|]. intros s _. exact I.
  - eapply good_bind; [apply G; cbn; auto|]. intros s _. eapply good_bind; [apply G; cbn; auto|]. intros d _. destruct (eqs s d); exact I.
  - eapply good_bind; [apply G; cbn; auto|]. intros s _. eapply good_bind; [apply G; cbn; auto|]. intros d _. exact I.
  - exact I.
  - destruct W as (_ & _ & W). rewrite T in W. destruct (get Krecid e) as [[]|]; try congruence; try contradiction; cbn; auto. destruct b; exact I.
Qed.
Lemma add_elements_good f : fit_format f = true -> forall l r, Forall wf l -> good es (fun _ => True) (add_elements f r l).
Proof.
  intros F. induction l as [|e l IH]; intros r W; cbn [add_elements]; [exact I|]. inversion W; subst. eapply good_bind; [now apply add_element_good|]. intros r' _. now apply IH.
Qed.
Lemma build_good f ps : fit_format f = true -> Forall (fun p => Forall (Forall wf) (p_elements p)) ps -> good es (fun _ => True) (build_references ps f).
Proof.
  intros F W. unfold build_references. apply (good_bind es (fun _ => True)); [|intros rs _; exact I].
  apply (good_impl es (Forall (fun _ => True))); [auto|]. apply (good_mapM es (fun p => Forall (Forall wf) (p_elements p)) (fun _ => True)); [|exact W].
  intros p Wp. unfold build_line. apply (good_bind es (fun _ => True)); [|intros rs _; exact I]. apply (good_impl es (Forall (fun _ => True))); [auto|].
  apply (good_mapM es (Forall wf) (fun _ => True)); [|exact Wp].
  intros els We. unfold build_reference_fields. eapply good_bind; [now apply add_elements_good|]. intros r _. exact I.
Qed.

End Es.

(** ** What the parser of tagged lines makes *)
Ltac conc := apply new_wf0; [split; [|split]; cbn; auto; try discriminate; intros k K; repeat (destruct K as [<-|K]; [reflexivity|]); contradiction|cbn; intros ? [= <-]; reflexivity].
Lemma tag_step_wf s o s' : tag_step s o = Ok s' -> Forall wf0 (ps_els s) -> Forall wf0 (ps_els s').
Proof.
  unfold tag_step. intros H F.
  assert (forall e, wf0 e -> Forall wf0 (ps_els s ++ [e])) as A.
  { intros e B. apply Forall_app. split; auto. }
  repeat match type of H with (if ?b then _ else _) = _ => destruct b end; try discriminate.
  all: unfold journal_step, report_step, url_step, doi_step, auth_step, misc_step, subfield_step, map_tag_to_subfield, journal_el in H.
  all: repeat match type of H with
       | context [match find_from ?a ?b ?c with _ => _ end] => destruct (find_from a b c)
       | context [match find_sub ?a ?b with _ => _ end] => destruct (find_sub a b)
       | context [match re_search ?a ?b with _ => _ end] => destruct (re_search a b)
       | context [match ps_urls ?b with _ => _ end] => destruct (ps_urls b) as [|[]]
       | context [match ps_dois ?b with _ => _ end] => destruct (ps_dois b)
       | bind _ _ = Ok _ => inv_ok H
       | (let (_, _) := ?p in _) = Ok _ => destruct p
       end; try discriminate; try (inversion H; subst; clear H; cbn [ps_els]; rewrite ?app_nil_r; auto; apply A; conc).
  all: try (destruct (convert_unusable_tag_to_misc _ _ _ _); inversion H; subst; auto).
Qed.
Lemma tag_loop_wf : forall fuel s s', tag_loop fuel s = Ok s' -> Forall wf0 (ps_els s) -> Forall wf0 (ps_els s').
Proof.
  induction fuel as [|f IH]; cbn; intros s s' H F; destruct (re_search _ _); try discriminate; try (inversion H; subst; auto).
  inv_ok H. eapply IH; eauto. eapply tag_step_wf; eauto.
Qed.
Lemma parse_tagged_wf line dois urls els c : parse_tagged_reference_line line dois urls = Ok (els, c) -> Forall wf0 els.
Proof.
  unfold parse_tagged_reference_line. intros H. inv_ok H. apply tag_loop_wf in E; [|constructor].
  destruct (nonempty _); inversion H; subst; auto. apply Forall_app. split; auto. constructor; auto. apply misc_wf0.
Qed.
