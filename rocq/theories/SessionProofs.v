(** Independence of calls from the calls before (Session.v). *)
From Coq Require Import List Arith NArith Bool String.
From Verif Require Import PyStr ListFacts Elements Record Transform ParseTagged RefText Tag Engine Kbs Session RecordProofs ComposeProofs.
Import ListNotations.
Local Notation length := List.length.
Local Notation concat := List.concat.

(** ** The table of titles matters only after its update *)
Lemma tag_norm E line K titles : tag_reference_line E line K titles = tag_reference_line E line (norm K) titles.
Proof.
  unfold tag_reference_line.
  change (jk_std (k_journals (norm K))) with (supdate (jk_std (k_journals K)) (k_journals_re K)).
  change (k_journals_re (norm K)) with (k_journals_re K). rewrite supdate_idem.
  destruct (identify_journals_re _ _ _) as [jm|]; cbn [bind]; auto.
Qed.
Lemma line_norm E K t n cb line : parse_reference_line E (mkctx K t n) cb line = parse_reference_line E (mkctx (norm K) t n) cb line.
Proof.
  unfold parse_reference_line. cbn [x_kbs x_titles x_calls]. destruct (remove_reference_line_marker line) as [[mk l]|]; cbn [bind]; auto.
  destruct (identify_and_tag_DOI E l) as [l1 dois]. destruct (identify_and_tag_URLs l1) as [l2 urls].
  rewrite <- tag_norm. destruct (tag_reference_line E l2 K t) as [[[tg ti] std]|]; cbn [bind]; auto.
Qed.
Lemma parse_norm E K cb f lines : parse_references E K cb f lines = parse_references E (norm K) cb f lines.
Proof.
  unfold parse_references, parse_references_elements. destruct lines as [|raw t]; [reflexivity|]. cbn [parse_lines]. now rewrite line_norm.
Qed.

Lemma kbtype_eqb_spec a b : reflect (a = b) (kbtype_eqb a b).
Proof. destruct a, b; cbn; constructor; congruence. Qed.
Lemma kb_order_all t : In t kb_order.
Proof. unfold kb_order. destruct t; cbn; tauto. Qed.

Section Session.
Context {S : Type} (eqb : S -> S -> bool) (truthy : S -> bool) (load : kbtype -> S -> res loaded) (default : kbtype -> S).
Notation cache := (@cache S loaded).
Notation effective := (effective truthy default).
Notation get_kbs := (get_kbs eqb truthy load default).
Notation run_call := (run_call eqb truthy load default).
Notation run_calls := (run_calls eqb truthy load default).
Notation refresh := (refresh eqb load).
Notation refresh_all := (refresh_all eqb load).

(** A fresh load of everything a call asks for, in the order of the configuration *)
Fixpoint load_all (want : kbtype -> S) (ts : list kbtype) : res unit :=
  match ts with
  | [] => Ok tt
  | t :: r => match load t (want t) with Ok _ => load_all want r | Err e => Err e end
  end.
(** [same R l l']: the table of titles may have been updated with R *)
Definition titles_updated (R : list (str * str)) (k : journals_kb) : journals_kb :=
  mkjk (jk_search k) (supdate (jk_std k) R) (jk_keys k).
Definition same (R : list (str * str)) (l l' : loaded) : Prop :=
  l' = l \/ exists k, l = Ljournals k /\ l' = Ljournals (titles_updated R k).
Definition good (R : list (str * str)) (c : cache) : Prop :=
  forall t s, ca_inputs c t = Some s -> exists l l', load t s = Ok l /\ ca_loaded c t = Some l' /\ same R l l'.
Context (eqb_load : forall t s s', eqb s s' = true -> load t s = load t s').

Lemma refresh_good R want c t : good R c ->
  match load t (want t) with
  | Ok l => exists c', refresh want c t = (c', Ok tt) /\ good R c' /\ (exists l', ca_loaded c' t = Some l' /\ same R l l')
             /\ (forall t', t' <> t -> ca_loaded c' t' = ca_loaded c t' /\ ca_inputs c' t' = ca_inputs c t')
  | Err e => snd (refresh want c t) = Err e
  end.
Proof.
  intros G. unfold Kbs.refresh. destruct (ca_inputs c t) as [s|] eqn:I.
  - destruct (eqb (want t) s) eqn:Q.
    + apply (eqb_load t) in Q. rewrite Q. destruct (G _ _ I) as (l & l' & L1 & L2 & L3). rewrite L1.
      exists c. split; auto. split; auto. split; eauto.
    + destruct (load t (want t)) as [l|e] eqn:L; [|reflexivity]. eexists. split; [reflexivity|].
      cbn [ca_inputs ca_loaded]. split; [|split].
      * intros t' s' H. cbn [ca_inputs ca_loaded] in *. unfold upd in *. destruct (kbtype_eqb_spec t t') as [<-|N].
        -- inversion H; subst. exists l, l. split; auto. split; auto. now left.
        -- now apply G.
      * unfold upd. destruct (kbtype_eqb_spec t t); [|congruence]. exists l. split; auto. now left.
      * intros t' N. unfold upd. destruct (kbtype_eqb_spec t t'); [congruence|auto].
  - destruct (load t (want t)) as [l|e] eqn:L; [|reflexivity]. eexists. split; [reflexivity|].
    cbn [ca_inputs ca_loaded]. split; [|split].
    + intros t' s' H. cbn [ca_inputs ca_loaded] in *. unfold upd in *. destruct (kbtype_eqb_spec t t') as [<-|N].
      * inversion H; subst. exists l, l. split; auto. split; auto. now left.
      * now apply G.
    + unfold upd. destruct (kbtype_eqb_spec t t); [|congruence]. exists l. split; auto. now left.
    + intros t' N. unfold upd. destruct (kbtype_eqb_spec t t'); [congruence|auto].
Qed.
Lemma refresh_all_good R want : forall ts c, NoDup ts -> good R c ->
  match load_all want ts with
  | Ok _ => exists c', refresh_all want c ts = (c', Ok tt) /\ good R c'
       /\ (forall t, In t ts -> exists l l', load t (want t) = Ok l /\ ca_loaded c' t = Some l' /\ same R l l')
       /\ (forall t, ~ In t ts -> ca_loaded c' t = ca_loaded c t /\ ca_inputs c' t = ca_inputs c t)
  | Err e => snd (refresh_all want c ts) = Err e
  end.
Proof.
  induction ts as [|t r IH]; intros c ND G; cbn [load_all Kbs.refresh_all].
  - exists c. split; auto. split; auto. split; [intros t []|auto].
  - inversion ND as [|? ? H2 H3]; subst. pose proof (refresh_good R want c t G) as H. destruct (load t (want t)) as [l|e] eqn:L.
    + destruct H as (c1 & E1 & G1 & (l' & L1 & L2) & O1). rewrite E1. specialize (IH c1 H3 G1). destruct (load_all want r).
      * destruct IH as (c2 & E2 & G2 & A2 & O2). exists c2. split; auto. split; auto. split.
        -- intros t' [<-|I]; auto. exists l, l'. split; auto. destruct (O2 t H2) as (-> & _). auto.
        -- intros t' N. destruct (O2 t') as (-> & ->); [intros I; apply N; now right|]. apply O1. intros ->. apply N. now left.
      * auto.
    + destruct (refresh want c t) as [c1 x]. cbn in H. subst x. reflexivity.
Qed.
Lemma kb_order_nodup : NoDup kb_order.
Proof. unfold kb_order. repeat (constructor; [cbn; intuition discriminate|]). constructor. Qed.
(** the result of a call in a fresh process *)
Definition fresh (c : call) : res (list ref * list nat) := snd (run_call c (cache0)).
Lemma same_norm R l l' : same R l l' -> (forall k, l <> Ljournals k) -> l' = l.
Proof. intros [->|(k & -> & _)] H; auto. exfalso. eapply H; eauto. Qed.
Lemma kbs_same R (d d' : kbtype -> option loaded) :
  (forall t, exists l l', d t = Some l /\ d' t = Some l' /\ same R l l') -> 
  match kbs_of d with
  | Ok K => k_journals_re K = R -> exists K', kbs_of d' = Ok K' /\ norm K' = norm K /\ k_journals_re K' = R /\ 
       (k_journals K' = k_journals K \/ k_journals K' = titles_updated R (k_journals K))
  | Err e => kbs_of d' = Err e
  end.
Proof.
  intros H. unfold kbs_of.
  destruct (H Tjournals) as (l1 & m1 & -> & -> & S1). destruct (H Tjournals_re) as (l2 & m2 & -> & -> & S2).
  destruct (H Treports) as (l3 & m3 & -> & -> & S3). destruct (H Tpublishers) as (l4 & m4 & -> & -> & S4).
  destruct (H Tauthors) as (l5 & m5 & -> & -> & S5). destruct (H Tcollabs) as (l6 & m6 & -> & -> & S6).
  destruct (H Tbooks) as (l7 & m7 & -> & -> & S7). destruct (H Tspecial) as (l8 & m8 & -> & -> & S8).
  clear H.
  destruct S1 as [->|(k1 & -> & ->)].
  1: destruct l1; auto.
  all: (destruct S2 as [->|(k2 & -> & ->)]; [destruct l2; auto|auto]);
       (destruct S3 as [->|(k3 & -> & ->)]; [destruct l3; auto|auto]);
       (destruct S4 as [->|(k4 & -> & ->)]; [destruct l4; auto|auto]);
       (destruct S5 as [->|(k5 & -> & ->)]; [destruct l5; auto|auto]);
       (destruct S6 as [->|(k6 & -> & ->)]; [destruct l6; auto|auto]);
       (destruct S7 as [->|(k7 & -> & ->)]; [destruct l7; auto|auto]);
       (destruct S8 as [->|(k8 & -> & ->)]; [destruct l8; auto|auto]).
  - cbn [k_journals_re k_journals]. intros Q. eexists. split; [reflexivity|]. split; auto.
  - cbn [k_journals_re k_journals]. intros <-. eexists. split; [reflexivity|]. split; [|auto].
    unfold norm, set_std, titles_updated. cbn [k_journals k_journals_re jk_std jk_search jk_keys k_reports k_publishers k_authors k_collabs k_books k_special]. now rewrite supdate_idem.
Qed.
Lemma kbs_of_journals d K : kbs_of d = Ok K -> d Tjournals = Some (Ljournals (k_journals K)).
Proof.
  unfold kbs_of. intros H. destruct (d Tjournals) as [[]|]; try discriminate. destruct (d Tjournals_re) as [[]|]; try discriminate. destruct (d Treports) as [[]|]; try discriminate.
  destruct (d Tpublishers) as [[]|]; try discriminate. destruct (d Tauthors) as [[]|]; try discriminate. destruct (d Tcollabs) as [[]|]; try discriminate.
  destruct (d Tbooks) as [[]|]; try discriminate. destruct (d Tspecial) as [[]|]; try discriminate. inversion H. reflexivity.
Qed.
Definition asks (c : call) (s : S) : Prop := effective (c_custom c) Tjournals_re = s.
Definition loads (c : call) : Prop := load_all (effective (c_custom c)) kb_order = Ok tt.
Lemma good0 R : good R cache0. Proof. intros t s H. discriminate. Qed.
Lemma load_all_ok want ts : load_all want ts = Ok tt -> forall t, In t ts -> exists l, load t (want t) = Ok l.
Proof.
  induction ts as [|t r IH]; cbn; [easy|]. intros H t' I. destruct (load t (want t)) as [l|e] eqn:L; [|discriminate].
  destruct I as [<-|I]; eauto.
Qed.
Lemma loads_iff c : loads c <-> forall t, exists l, load t (effective (c_custom c) t) = Ok l.
Proof.
  unfold loads. split.
  - intros H t. eapply load_all_ok; eauto. apply kb_order_all.
  - intros H. assert (forall ts, load_all (effective (c_custom c)) ts = Ok tt) as Q; auto.
    induction ts as [|t r IH]; cbn; auto. destruct (H t) as (l & ->). auto.
Qed.
Lemma run_good R s c ca : load Tjournals_re s = Ok (Ljournals_re R) -> asks c s -> good R ca ->
  snd (run_call c ca) = fresh c /\ (loads c -> good R (fst (run_call c ca))).
Proof.
  intros LR A G. unfold fresh, Session.run_call, Kbs.get_kbs.
  pose proof (refresh_all_good R (effective (c_custom c)) kb_order ca kb_order_nodup G) as H1.
  pose proof (refresh_all_good R (effective (c_custom c)) kb_order cache0 kb_order_nodup (good0 R)) as H0.
  unfold loads. destruct (load_all (effective (c_custom c)) kb_order) as [[]|e] eqn:L.
  - destruct H1 as (c1 & -> & G1 & A1 & _), H0 as (c0 & -> & G0 & A0 & _). cbn [snd fst].
    pose (d := fun t => match load t (effective (c_custom c) t) with Ok l => Some l | Err _ => None end).
    assert (forall cc : cache, (forall t, In t kb_order -> exists l l', load t (effective (c_custom c) t) = Ok l /\ ca_loaded cc t = Some l' /\ same R l l') ->
      forall t, exists l l', d t = Some l /\ ca_loaded cc t = Some l' /\ same R l l') as D.
    { intros cc AA t. destruct (AA t (kb_order_all t)) as (l & l' & Q1 & Q2 & Q3). exists l, l'. unfold d. rewrite Q1. auto. }
    pose proof (kbs_same R d (ca_loaded c1) (D _ A1)) as K1. pose proof (kbs_same R d (ca_loaded c0) (D _ A0)) as K0.
    destruct (kbs_of d) as [K|e] eqn:KD.
    + assert (k_journals_re K = R) as KR.
      { clear - KD LR A. unfold asks in A. assert (d Tjournals_re = Some (Ljournals_re R)) as Q by (unfold d; now rewrite A, LR).
        unfold kbs_of in KD. rewrite Q in KD. destruct (d Tjournals) as [[]|]; try discriminate. destruct (d Treports) as [[]|]; try discriminate.
        destruct (d Tpublishers) as [[]|]; try discriminate. destruct (d Tauthors) as [[]|]; try discriminate. destruct (d Tcollabs) as [[]|]; try discriminate.
        destruct (d Tbooks) as [[]|]; try discriminate. destruct (d Tspecial) as [[]|]; try discriminate. inversion KD. reflexivity. }
      destruct (K1 KR) as (K1' & E1 & N1 & R1 & J1), (K0 KR) as (K0' & -> & N0 & R0 & J0). rewrite E1. cbn [snd fst]. split.
      * now rewrite (parse_norm _ K1'), (parse_norm _ K0'), N1, N0.
      * intros _. destruct (tagging_reached c); auto. intros t s' I. cbn [update_titles ca_inputs ca_loaded] in *. unfold upd.
        destruct (kbtype_eqb_spec Tjournals t) as [<-|N]; [|now apply G1].
        destruct (G1 _ _ I) as (l & l' & Q1 & Q2 & Q3). exists l. eexists. split; auto. split; [reflexivity|].
        apply kbs_of_journals in E1. rewrite E1 in Q2. inversion Q2; subst l'. rewrite R1. fold (titles_updated R (k_journals K1')). right.
        destruct Q3 as [<-|(k & -> & Q)]; [eauto|]. injection Q as ->. exists k. split; auto. unfold titles_updated. cbn [jk_search jk_std jk_keys]. now rewrite supdate_idem.
    + now rewrite K1, K0.
  - destruct (refresh_all (effective (c_custom c)) ca kb_order) as [c1 x], (refresh_all (effective (c_custom c)) cache0 kb_order) as [c0 y]. cbn in H1, H0. subst. cbn [snd fst]. split; [auto|discriminate].
Qed.
(** a history: calls that ask for the same journals_re source and whose sources load *)
Lemma history_independent R s cs c : load Tjournals_re s = Ok (Ljournals_re R) ->
  Forall (fun c => asks c s /\ loads c) cs -> asks c s -> snd (run_call c (run_calls cs cache0)) = fresh c.
Proof.
  intros LR F A. assert (good R (run_calls cs cache0)) as G.
  { assert (forall ca, good R ca -> good R (run_calls cs ca)) as H; [|apply H, good0]. unfold Session.run_calls.
    induction F as [|c0 cs (A0 & L0) F IH]; intros ca G; cbn [fold_left]; auto. apply IH. now apply (run_good R s). }
  now apply (run_good R s).
Qed.
End Session.
