(** Proofs about format_author_ed (C41). *)
From Coq Require Import Arith NArith Bool String Lia List.
From Verif Require Import PyStr ListFacts Elements Transform.
Import ListNotations.
Local Open Scope list_scope.
Local Notation length := List.length.

Definition ed0 : str := py "(ed. )".
Definition ed1 : str := py "(ed.)".
Definition eds0 : str := py "(eds. )".
Definition eds1 : str := py "(eds.)".
(** the text with the blank taken out of every "(ed. )" and "(eds. )" *)
Inductive tight : str -> str -> Prop :=
| ti_nil : tight [] []
| ti_ed s s' : tight s s' -> tight (ed0 ++ s) (ed1 ++ s')
| ti_eds s s' : tight s s' -> tight (eds0 ++ s) (eds1 ++ s')
| ti_ch c s s' : (forall r, c :: s <> ed0 ++ r) -> (forall r, c :: s <> eds0 ++ r) -> tight s s' -> tight (c :: s) (c :: s').

Lemma aux_skip old new u : forall s, replace_aux old new (u ++ s) (length u) = replace_aux old new s 0.
Proof. induction u as [|c u IH]; intros s; cbn [app length]; auto. cbn [replace_aux]. apply IH. Qed.
Lemma replace_hit c old new s : replace (c :: old) new ((c :: old) ++ s) = new ++ replace (c :: old) new s.
Proof.
  unfold replace. cbn [app replace_aux]. rewrite (proj2 (prefixb_app (c :: old) (c :: old ++ s))) by (exists s; reflexivity).
  cbn [length]. rewrite Nat.sub_succ, Nat.sub_0_r. now rewrite aux_skip.
Qed.
Lemma replace_miss old new c s : (forall r, c :: s <> old ++ r) -> replace old new (c :: s) = c :: replace old new s.
Proof.
  intros N. unfold replace. cbn [replace_aux]. destruct (prefixb old (c :: s)) eqn:P; auto. apply prefixb_app in P as (r & E). exfalso. eapply N; eauto.
Qed.
Definition first (s : str) : str := replace ed0 ed1 s.
Definition second (s : str) : str := replace eds0 eds1 s.
Lemma first_hit s : first (ed0 ++ s) = ed1 ++ first s. Proof. apply replace_hit. Qed.
Lemma second_hit s : second (eds0 ++ s) = eds1 ++ second s. Proof. apply replace_hit. Qed.
Lemma first_miss c s : (forall r, c :: s <> ed0 ++ r) -> first (c :: s) = c :: first s. Proof. apply replace_miss. Qed.
Lemma second_miss c s : (forall r, c :: s <> eds0 ++ r) -> second (c :: s) = c :: second s. Proof. apply replace_miss. Qed.
Lemma no_paren c s : c <> 40%N -> (forall r, c :: s <> ed0 ++ r) /\ (forall r, c :: s <> eds0 ++ r).
Proof. intros N. split; intros r E; injection E as E _; auto. Qed.
Lemma first_plain w : ~ In 40%N w -> forall s, first (w ++ s) = w ++ first s.
Proof. induction w as [|c w IH]; intros N s; auto. cbn [app]. rewrite first_miss by (apply no_paren; intros ->; apply N; now left). f_equal. apply IH. intros I. apply N. now right. Qed.
Lemma second_plain w : ~ In 40%N w -> forall s, second (w ++ s) = w ++ second s.
Proof. induction w as [|c w IH]; intros N s; auto. cbn [app]. rewrite second_miss by (apply no_paren; intros ->; apply N; now left). f_equal. apply IH. intros I. apply N. now right. Qed.
(** what is written without a parenthesis was there before *)
Lemma first_back w : ~ In 40%N w -> forall s r, first s = w ++ r -> exists t, s = w ++ t.
Proof.
  induction w as [|c w IH]; intros N s r E; [now exists s|]. destruct s as [|d s]; [discriminate|].
  assert (c <> 40%N) as Nc by (intros ->; apply N; now left).
  destruct (prefixb ed0 (d :: s)) eqn:P.
  - apply prefixb_app in P as (u & P). rewrite P, first_hit in E. injection E as E _. congruence.
  - rewrite first_miss in E. 2: { intros u U. rewrite (proj2 (prefixb_app ed0 (d :: s))) in P; [discriminate|eauto]. }
    injection E as -> E. destruct (IH ltac:(intros I; apply N; now right) s r E) as (t & ->). now exists t.
Qed.
Lemma tight_ok : forall n s, length s <= n -> tight s (second (first s)).
Proof.
  induction n as [|n IH]; intros s L. { destruct s; [constructor|cbn in L; lia]. }
  destruct s as [|c s]; [constructor|]. cbn [length] in L.
  destruct (prefixb ed0 (c :: s)) eqn:P1.
  { apply prefixb_app in P1 as (r & E). rewrite E. rewrite first_hit. change ed1 with (40%N :: py "ed.)"). cbn [app].
    rewrite second_miss by (intros u U; injection U as U; discriminate). rewrite (second_plain (py "ed.)")) by (cbn; intuition discriminate).
    change (tight (ed0 ++ r) (ed1 ++ second (first r))). constructor. apply IH. apply (f_equal (@List.length N)) in E. rewrite app_length in E. cbn in E. unfold str, ch in *. lia. }
  assert (forall r, c :: s <> ed0 ++ r) as N1. { intros r E. rewrite (proj2 (prefixb_app ed0 (c :: s))) in P1; [discriminate|eauto]. }
  destruct (prefixb eds0 (c :: s)) eqn:P2.
  { apply prefixb_app in P2 as (r & E). rewrite E. replace (first (eds0 ++ r)) with (eds0 ++ first r).
    - rewrite second_hit. constructor. apply IH. apply (f_equal (@List.length N)) in E. rewrite app_length in E. cbn in E. unfold str, ch in *. lia.
    - change eds0 with (40%N :: py "eds. )"). cbn [app]. rewrite first_miss by (intros u U; injection U as U; discriminate). reflexivity. }
  assert (forall r, c :: s <> eds0 ++ r) as N2. { intros r E. rewrite (proj2 (prefixb_app eds0 (c :: s))) in P2; [discriminate|eauto]. }
  rewrite first_miss by auto. rewrite second_miss.
  - constructor; auto. apply IH. lia.
  - intros r E. change eds0 with (40%N :: py "eds. )") in E. cbn [app] in E. injection E as -> E.
    destruct (first_back (py "eds. )") ltac:(cbn; intuition discriminate) s r E) as (t & ->). apply (N2 t). reflexivity.
Qed.
(** exactly one such text *)
Lemma tight_fun s a : tight s a -> forall b, tight s b -> b = a.
Proof.
  induction 1 as [|s s' T IH|s s' T IH|c s s' N1 N2 T IH]; intros b B.
  - inversion B; auto; try (destruct s; discriminate); exfalso; match goal with H : _ ++ _ = [] |- _ => discriminate end.
  - inversion B as [E|u u' T' E|u u' T' E|d u u' M1 M2 T' E]; subst.
    + f_equal. auto.
    + exfalso. eapply M1. reflexivity.
  - inversion B as [E|u u' T' E|u u' T' E|d u u' M1 M2 T' E]; subst.
    + f_equal. auto.
    + exfalso. eapply M2. reflexivity.
  - inversion B as [E|u u' T' E|u u' T' E|d u u' M1 M2 T' E]; subst.
    + exfalso. eapply N1. reflexivity.
    + exfalso. eapply N2. reflexivity.
    + f_equal. auto.
Qed.
Definition ed_step (e e' : el) : Prop :=
  (e_type e <> AUTH /\ e' = e) \/ (e_type e = AUTH /\ exists a a', get Kauth_txt e = Some (VS a) /\ tight a a' /\ e' = set_str Kauth_txt a' e).
Definition has_author (e : el) : Prop := e_type e = AUTH -> exists a, get Kauth_txt e = Some (VS a).
Lemma format_ed_spec l : Forall has_author l -> exists l', format_author_ed l = Ok l' /\ Forall2 ed_step l l'.
Proof.
  induction 1 as [|e l He Hl (l' & E & F)]; [exists []; split; [reflexivity|constructor]|]. unfold format_author_ed in *. cbn [mapM].
  unfold format_author_ed_el at 1. destruct (is_type AUTH e) eqn:T.
  - assert (e_type e = AUTH) as Te by (unfold is_type in T; destruct (e_type e); cbn in T; congruence). destruct (He Te) as (a & G). unfold get_str. rewrite G. cbn [bind]. rewrite E. cbn [bind].
    eexists. split; [reflexivity|]. constructor; auto. right. split; auto. exists a. eexists. split; [exact G|]. split; [|reflexivity]. exact (tight_ok _ a (Nat.le_refl _)).
  - cbn [bind]. rewrite E. cbn [bind]. eexists. split; [reflexivity|]. constructor; auto. left. split; auto. intros X. unfold is_type in T. rewrite X in T. discriminate.
Qed.
