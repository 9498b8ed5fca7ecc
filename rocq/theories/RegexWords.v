(** Patterns with finitely many words: the texts they match and the places of their groups. *)
From Coq Require Import List Arith NArith Bool String Lia.
From Verif Require Import PyStr ListFacts Regex RegexParse RegexMeta RegexLang.
Import ListNotations.
Local Notation length := List.length.
Local Open Scope nat_scope.

(** a word of a pattern: a class for each character, and the groups by relative position *)
Definition gword := (list cls * groups)%type.
Definition shift (n : nat) (g : groups) : groups := map (fun e => (fst e, (n + fst (snd e), n + snd (snd e)))) g.
Definition wcat (u v : gword) : gword := (fst u ++ fst v, shift (length (fst u)) (snd v) ++ snd u).
Fixpoint gwords (r : re) : option (list gword) :=
  match r with
  | Eps => Some [([], [])]
  | Cls c => Some [([c], [])]
  | Cat a b => match gwords a, gwords b with
               | Some l, Some k => Some (flat_map (fun u => map (wcat u) k) l)
               | _, _ => None
               end
  | Alt a b => match gwords a, gwords b with Some l, Some k => Some (l ++ k) | _, _ => None end
  | Grp i a => match gwords a with
               | Some l => Some (map (fun u => (fst u, (i, (0, length (fst u))) :: snd u)) l)
               | None => None
               end
  | Rep _ 0 (Some 1) a => match gwords a with Some l => Some (([], []) :: l) | None => None end
  | _ => None
  end.
Definition reads (w : list cls) (t : str) : Prop := Forall2 (fun c d => cls_mem c d = true) w t.
Lemma reads_length w t : reads w t -> length t = length w.
Proof. intros H. induction H; cbn; auto. Qed.
Lemma reads_app u v t : reads (u ++ v) t <-> exists a b, t = a ++ b /\ reads u a /\ reads v b.
Proof.
  split.
  - intros H. apply Forall2_app_inv_l in H as (a & b & A & B & ->). eauto.
  - intros (a & b & -> & A & B). now apply Forall2_app.
Qed.
Lemma shift_shift a b g : shift a (shift b g) = shift (a + b) g.
Proof. unfold shift. rewrite map_map. apply map_ext. intros [i [u v]]. cbn. now rewrite !Nat.add_assoc. Qed.
Lemma shift_app a g h : shift a (g ++ h) = shift a g ++ shift a h. Proof. apply map_app. Qed.

Lemma mt_opt_inv gr a x g x' g' : mt (Rep gr 0 (Some 1) a) x g x' g' -> (x' = x /\ g' = g) \/ mt a x g x' g'.
Proof.
  intros H. inversion H; subst; auto. right.
  match goal with B : mt (Rep _ _ _ _) _ _ _ _ |- _ => cbn in B; inversion B; subst; [assumption|congruence] end.
Qed.
Lemma gwords_mt r : forall ws, gwords r = Some ws -> forall x g x' g', mt r x g x' g' <->
  exists u t, In u ws /\ reads (fst u) t /\ fwd x t x' /\ g' = shift (pos x) (snd u) ++ g.
Proof.
  induction r; cbn [gwords]; intros ws E; try discriminate.
  - injection E as <-. intros. split.
    + intros H. inversion H; subst. exists ([], []), []. split; [now left|]. split; [constructor|]. split; [apply fwd_refl|reflexivity].
    + intros (u & t & [<-|[]] & R & F & ->). apply reads_length in R. destruct t; [|discriminate]. apply fwd_nil in F as ->. constructor.
  - injection E as <-. intros. rewrite mt_cls_fwd. split.
    + intros (d & F & M & ->). exists ([c], []), [d]. split; [now left|]. split; [repeat constructor; auto|]. split; auto.
    + intros (u & t & [<-|[]] & R & F & ->). inversion R as [|? d ? ? M R']; subst. inversion R'; subst. exists d. auto.
  - destruct (gwords r1) as [l|]; [|discriminate]. destruct (gwords r2) as [k|]; [|discriminate]. injection E as <-. intros. rewrite mt_cat_iff. split.
    + intros (y & h & A & B). apply (IHr1 _ eq_refl) in A as (u & s & U & R & F & ->). apply (IHr2 _ eq_refl) in B as (v & t & V & R' & F' & ->).
      exists (wcat u v), (s ++ t). split; [apply in_flat_map; exists u; split; auto; now apply in_map|]. cbn [wcat fst snd]. split; [apply reads_app; eauto 8|].
      split; [eapply fwd_app; eauto|]. rewrite shift_app, <- app_assoc, shift_shift. f_equal. f_equal. pose proof (reads_length _ _ R). destruct F as (_ & _ & F). rewrite F. lia.
    + intros (w & t & I & R & F & ->). apply in_flat_map in I as (u & U & I). apply in_map_iff in I as (v & <- & V). cbn [wcat fst snd] in *.
      apply reads_app in R as (a & b & -> & R & R').
      assert (fwd x a (after x a) /\ fwd (after x a) b x') as [F1 F2].
      { destruct F as (S & P & Q). split; [eapply fwd_after; rewrite S, <- app_assoc; reflexivity|].
        unfold fwd, after. cbn. rewrite S, P, Q, <- app_assoc. rewrite skipn_app, skipn_all, Nat.sub_diag. cbn. rewrite rev_app_distr, app_length, <- app_assoc. auto with arith. }
      exists (after x a), (shift (pos x) (snd u) ++ g). split; [apply (IHr1 _ eq_refl); eauto 8|]. apply (IHr2 _ eq_refl). exists v, b. split; auto. split; auto. split; auto.
      rewrite shift_app, <- app_assoc, shift_shift. f_equal. f_equal. cbn. now rewrite (reads_length _ _ R).
  - destruct (gwords r1) as [l|]; [|discriminate]. destruct (gwords r2) as [k|]; [|discriminate]. injection E as <-. intros. rewrite mt_alt_iff, (IHr1 _ eq_refl), (IHr2 _ eq_refl). split.
    + intros [(u & t & I & H)|(u & t & I & H)]; exists u, t; (split; [apply in_or_app; auto|auto]).
    + intros (u & t & I & H). apply in_app_or in I as [I|I]; [left|right]; eauto.
  - destruct min; [|discriminate]. destruct max as [[|[|]]|]; try discriminate. destruct (gwords r) as [l|]; [|discriminate]. injection E as <-. intros. split.
    + intros H. apply mt_opt_inv in H as [(-> & ->)|A].
      * exists ([], []), []. split; [now left|]. split; [constructor|]. split; [apply fwd_refl|reflexivity].
      * apply (IHr _ eq_refl) in A as (u & t & I & H'). exists u, t. split; [now right|auto].
    + intros (u & t & [<-|I] & R & F & Q).
      * inversion R; subst. apply fwd_nil in F as ->. constructor.
      * eapply mt_more; [discriminate| |apply mt_stop]. apply (IHr _ eq_refl). exists u, t. auto.
  - destruct (gwords r) as [l|]; [|discriminate]. injection E as <-. intros. rewrite mt_grp_iff. split.
    + intros (h & A & ->). apply (IHr _ eq_refl) in A as (u & t & U & R & F & ->). exists (fst u, (i, (0, length (fst u))) :: snd u), t.
      split; [apply in_map_iff; eauto|]. cbn [fst snd]. split; auto. split; auto. cbn. pose proof (reads_length _ _ R). destruct F as (_ & _ & ->). rewrite Nat.add_0_r, H. reflexivity.
    + intros (w & t & I & R & F & ->). apply in_map_iff in I as (u & <- & U). cbn [fst snd] in *. exists (shift (pos x) (snd u) ++ g). split; [apply (IHr _ eq_refl); eauto 8|].
      cbn. pose proof (reads_length _ _ R). destruct F as (_ & _ & ->). rewrite Nat.add_0_r, H. reflexivity.
Qed.

(** literal characters *)
Definition lit_cls (c : N) : cls := mkcls false false [CRange c c].
Definition lit_word (s : str) : list cls := map lit_cls s.
Lemma lit_cls_mem c d : cls_mem (lit_cls c) d = true <-> d = c.
Proof.
  unfold cls_mem, lit_cls. cbn [c_neg c_ci c_items existsb item_mem]. rewrite orb_false_r, xorb_false_l. unfold in_range.
  rewrite andb_true_iff, !N.leb_le. split; [lia|intros ->; lia].
Qed.
Lemma reads_lits s : forall t, reads (lit_word s) t <-> t = s.
Proof.
  induction s as [|c s IH]; intros t; cbn [lit_word map].
  - split; [intros H; inversion H; auto|intros ->; constructor].
  - split.
    + intros H. inversion H as [|? d ? ? M R]; subst. apply lit_cls_mem in M as ->. apply IH in R as ->. auto.
    + intros ->. constructor; [now apply lit_cls_mem|now apply IH].
Qed.

(** ** Sequences *)
Fixpoint factors (r : re) : list re :=
  match r with Cat a b => factors a ++ factors b | Eps => [] | _ => [r] end.
Inductive mts : list re -> st -> groups -> st -> groups -> Prop :=
| mts_nil x g : mts [] x g x g
| mts_cons r l x g y h x' g' : mt r x g y h -> mts l y h x' g' -> mts (r :: l) x g x' g'.
Lemma mts_app l k : forall x g x' g', mts (l ++ k) x g x' g' <-> exists y h, mts l x g y h /\ mts k y h x' g'.
Proof.
  induction l as [|r l IH]; intros x g x' g'; cbn [app].
  - split; [intros H; exists x, g; split; [constructor|auto]|]. intros (y & h & A & B). inversion A; subst. auto.
  - split.
    + intros H. inversion H as [|? ? ? ? y h ? ? A B]; subst. apply IH in B as (z & i & B & C). exists z, i. split; auto. econstructor; eauto.
    + intros (y & h & A & B). inversion A as [|? ? ? ? z i ? ? A1 A2]; subst. econstructor; eauto. apply IH. eauto.
Qed.
Lemma mts_one r x g x' g' : mts [r] x g x' g' <-> mt r x g x' g'.
Proof.
  split; [|intros H; econstructor; eauto; constructor]. intros H. inversion H as [|? ? ? ? y h ? ? A B]; subst. inversion B; subst. auto.
Qed.
Lemma mt_factors r : forall x g x' g', mt r x g x' g' <-> mts (factors r) x g x' g'.
Proof.
  induction r; intros x g x' g'; cbn [factors]; try (symmetry; apply mts_one).
  - split; intros H; inversion H; constructor.
  - rewrite mt_cat_iff, mts_app. split; intros (y & h & A & B); exists y, h; (split; [apply IHr1|apply IHr2]); auto.
Qed.
Lemma mts_lits s : forall x g x' g', mts (map Cls (lit_word s)) x g x' g' <-> fwd x s x' /\ g' = g.
Proof.
  induction s as [|c s IH]; intros x g x' g'; cbn [lit_word map].
  - split.
    + intros H. inversion H; subst. split; [apply fwd_refl|auto].
    + intros (F & ->). apply fwd_nil in F as ->. constructor.
  - split.
    + intros H. inversion H as [|? ? ? ? y h ? ? A B]; subst. apply mt_cls_fwd in A as (d & F & M & ->). apply lit_cls_mem in M as ->. apply IH in B as (F' & ->).
      split; auto. change (c :: s) with ([c] ++ s). eapply fwd_app; eauto.
    + intros (F & ->). assert (fwd x [c] (after x [c]) /\ fwd (after x [c]) s x') as [F1 F2].
      { destruct F as (S & P & Q). split; [eapply fwd_after; rewrite S; reflexivity|].
        unfold fwd, after. cbn. rewrite S, P, Q. cbn. rewrite <- app_assoc. split; auto. split; auto. lia. }
      econstructor; [apply mt_cls_fwd; exists c; split; [exact F1|]; split; [now apply lit_cls_mem|reflexivity]|]. now apply IH.
Qed.
Lemma mt_ngrp_text i r x g x' g' : mt (Grp i r) x g x' g' -> exists h, mt r x g x' h.
Proof. intros H. apply mt_grp_iff in H as (h & H & _). eauto. Qed.

(** ** Patterns of white space and given characters *)
Definition blank_or (extra : str) (c : N) : bool := is_space c || mem_ch c extra.
Definition item_only (extra : str) (i : citem) : bool :=
  match i with
  | CRange lo hi => (hi - lo <? 300)%N && forallb (fun k => blank_or extra (lo + N.of_nat k)%N) (seq 0 (S (N.to_nat (hi - lo))))
  | CSpace b => b
  | _ => false
  end.
Fixpoint only (extra : str) (r : re) : bool :=
  match r with
  | Cls c => negb (c_neg c) && negb (c_ci c) && forallb (item_only extra) (c_items c)
  | Any => false
  | Cat a b | Alt a b => only extra a && only extra b
  | Rep _ _ _ a | Grp _ a => only extra a
  | _ => true
  end.
Lemma item_only_mem extra i c : item_only extra i = true -> item_mem false c i = true -> blank_or extra c = true.
Proof.
  destruct i; cbn [item_only item_mem]; try discriminate.
  - intros H R. apply andb_true_iff in H as [_ H]. unfold in_range in R. apply andb_true_iff in R as [A B]. apply N.leb_le in A, B.
    rewrite forallb_forall in H. rewrite <- (N.sub_add lo c) by lia. rewrite N.add_comm. rewrite <- (N2Nat.id (c - lo)).
    apply H, in_seq. lia.
  - intros ->. unfold blank_or. destruct (is_space c); cbn; auto; discriminate.
Qed.
Lemma forallb_cat {A} (f : A -> bool) (u v : list A) : forallb f u = true -> forallb f v = true -> forallb f (u ++ v) = true.
Proof. intros P Q. now rewrite forallb_app, P, Q. Qed.
Lemma only_text extra r x g x' g' : mt r x g x' g' -> only extra r = true -> exists w, fwd x w x' /\ forallb (blank_or extra) w = true.
Proof.
  induction 1; cbn [only]; intros O; try discriminate; try (exists []; split; [apply fwd_refl|reflexivity]).
  - apply andb_true_iff in O as [O1 O2]. apply andb_true_iff in O1 as [O1 O3]. exists [d]. split; [now apply fwd_step|]. cbn. rewrite andb_true_r.
    unfold cls_mem in H0. destruct (c_neg c); [discriminate|]. destruct (c_ci c); [discriminate|]. rewrite xorb_false_l in H0. apply existsb_exists in H0 as (i & I & M).
    rewrite forallb_forall in O2. eapply item_only_mem; eauto.
  - apply andb_true_iff in O as [O1 O2]. destruct (IHmt1 O1) as (u & U & A), (IHmt2 O2) as (v & V & B). exists (u ++ v). split; [eapply fwd_app; eauto|]. now apply forallb_cat.
  - apply andb_true_iff in O as [O1 O2]. auto.
  - apply andb_true_iff in O as [O1 O2]. auto.
  - destruct (IHmt1 O) as (u & U & A), (IHmt2 O) as (v & V & B). exists (u ++ v). split; [eapply fwd_app; eauto|]. now apply forallb_cat.
  - auto.
Qed.
Lemma only_texts extra l : forall x g x' g', mts l x g x' g' -> forallb (only extra) l = true -> exists w, fwd x w x' /\ forallb (blank_or extra) w = true.
Proof.
  induction l as [|r l IH]; intros x g x' g' H O; inversion H as [|? ? ? ? y h ? ? A B]; subst; [exists []; split; [apply fwd_refl|reflexivity]|].
  cbn in O. apply andb_true_iff in O as [O1 O2]. destruct (only_text _ _ _ _ _ _ A O1) as (u & U & P), (IH _ _ _ _ B O2) as (v & V & Q).
  exists (u ++ v). split; [eapply fwd_app; eauto|]. now apply forallb_cat.
Qed.

(** ** Patterns that cannot read a given character *)
Fixpoint avoids (d : N) (r : re) : bool :=
  match r with
  | Cls c => negb (cls_mem c d)
  | Any => false
  | Cat a b | Alt a b => avoids d a && avoids d b
  | Rep _ _ _ a | Grp _ a => avoids d a
  | _ => true
  end.
Lemma avoids_text d r x g x' g' : mt r x g x' g' -> avoids d r = true -> exists w, fwd x w x' /\ ~ In d w.
Proof.
  induction 1; cbn [avoids]; intros O; try discriminate; try (exists []; split; [apply fwd_refl|intros []]).
  - exists [d0]. split; [now apply fwd_step|]. intros [->|[]]. rewrite H0 in O. discriminate.
  - apply andb_true_iff in O as [O1 O2]. destruct (IHmt1 O1) as (u & U & A), (IHmt2 O2) as (v & V & B). exists (u ++ v). split; [eapply fwd_app; eauto|]. intros I. apply in_app_or in I. tauto.
  - apply andb_true_iff in O as [O1 O2]. auto.
  - apply andb_true_iff in O as [O1 O2]. auto.
  - destruct (IHmt1 O) as (u & U & A), (IHmt2 O) as (v & V & B). exists (u ++ v). split; [eapply fwd_app; eauto|]. intros I. apply in_app_or in I. tauto.
  - auto.
Qed.
Lemma avoids_texts d l : forall x g x' g', mts l x g x' g' -> forallb (avoids d) l = true -> exists w, fwd x w x' /\ ~ In d w.
Proof.
  induction l as [|r l IH]; intros x g x' g' H O; inversion H as [|? ? ? ? y h ? ? A B]; subst; [exists []; split; [apply fwd_refl|intros []]|].
  cbn in O. apply andb_true_iff in O as [O1 O2]. destruct (avoids_text _ _ _ _ _ _ A O1) as (u & U & P), (IH _ _ _ _ B O2) as (v & V & Q).
  exists (u ++ v). split; [eapply fwd_app; eauto|]. intros I. apply in_app_or in I. tauto.
Qed.
