(** What repair_broken_urls repairs (C40). *)
From Coq Require Import List Arith NArith Bool String Lia.
From Verif Require Import PyStr ListFacts Regex RegexParse RegexMeta RegexLang RegexWords Patterns DocText WashProofs SpaceProofs TransformProofs UrlProofs ScanProofs.
Import ListNotations.
Local Open Scope nat_scope.
Local Notation length := List.length.
Local Arguments is_space : simpl never.

(** ** Words with white space between the letters *)
Inductive spaced : str -> str -> Prop :=
| spaced_one c d : same_letter c d -> spaced [c] [d]
| spaced_more c d gap word t : same_letter c d -> forallb is_space gap = true -> spaced word t -> spaced (c :: word) (d :: gap ++ t).
Definition solid (c : ch) : bool := simple c && negb (is_space c) && negb (is_space (c - 32)%N) && negb (N.eqb c 64).
Lemma solid_simple c : solid c = true -> simple c = true.
Proof. unfold solid. intros H. apply andb_true_iff in H as (H & _). apply andb_true_iff in H as (H & _). now apply andb_true_iff in H as (H & _). Qed.
Lemma solid_letter c d : solid c = true -> same_letter c d -> is_space d = false.
Proof.
  unfold solid. intros H. apply andb_true_iff in H as (H & _). apply andb_true_iff in H as (H & H2). apply andb_true_iff in H as (_ & H1). apply negb_true_iff in H1, H2.
  intros [->|(_ & ->)]; auto.
Qed.
Lemma spaced_head word w : forallb solid word = true -> spaced word w -> exists c word' d t, word = c :: word' /\ w = d :: t /\ same_letter c d /\ is_space d = false.
Proof. intros S H. destruct H as [c d L|c d g word t L _ _]; cbn [forallb] in S; apply andb_true_iff in S as (S & _); do 4 eexists; repeat split; eauto using solid_letter. Qed.
Lemma spaces_unique a b x y : forallb is_space a = true -> forallb is_space b = true -> match x with c :: _ => is_space c = false | [] => False end ->
  match y with c :: _ => is_space c = false | [] => False end -> a ++ x = b ++ y -> a = b /\ x = y.
Proof.
  revert b. induction a as [|c a IH]; intros [|d b] A B X Y E; cbn [app forallb] in *; auto.
  - subst x. apply andb_true_iff in B as (B & _). congruence.
  - subst y. apply andb_true_iff in A as (A & _). congruence.
  - injection E as -> E. apply andb_true_iff in A as (_ & A). apply andb_true_iff in B as (_ & B). destruct (IH b A B X Y E) as (-> & ->). auto.
Qed.
Lemma spaced_unique word w : forallb solid word = true -> spaced word w -> forall v a b, spaced word v -> w ++ a = v ++ b -> w = v /\ a = b.
Proof.
  intros S H. induction H as [c d L|c d g word t L G H IH]; intros v a b V E.
  - inversion V; subst; [injection E as -> ->; auto|]. match goal with X : spaced [] _ |- _ => inversion X end.
  - inversion V as [|? d' g' ? t' L' G' H']; subst; [inversion H|]. cbn [app] in E. injection E as -> E. rewrite <- !app_assoc in E. cbn [forallb] in S. apply andb_true_iff in S as (_ & S).
    destruct (spaced_head _ _ S H) as (? & ? & e & u & _ & -> & _ & E1). destruct (spaced_head _ _ S H') as (? & ? & e' & u' & _ & -> & _ & E2).
    apply spaces_unique in E as (-> & E); auto. destruct (IH S _ _ _ H' E) as (-> & ->). auto.
Qed.
Fixpoint spaced_re (word : str) : re :=
  match word with [] => Eps | [c] => Cls (ci_cls c) | c :: t => Cat (Cls (ci_cls c)) (Cat (Rep true 0 None (Cls spc)) (spaced_re t)) end.
Lemma spaced_mt word x g x' g' : word <> [] -> forallb solid word = true -> mt (spaced_re word) x g x' g' <-> exists w, fwd x w x' /\ spaced word w /\ g' = g.
Proof.
  revert x g. induction word as [|c word IH]; [congruence|]. intros x g _ S. cbn [forallb] in S. apply andb_true_iff in S as (Sc & S). apply solid_simple in Sc. destruct word as [|c' word].
  - cbn [spaced_re]. rewrite mt_cls_fwd. split.
    + intros (d & F & M & ->). exists [d]. split; auto. split; auto. constructor. now apply simple_letter.
    + intros (w & F & H & ->). inversion H; subst; [|match goal with X : spaced [] _ |- _ => inversion X end]. exists d. split; auto. split; auto. now apply simple_letter.
  - change (spaced_re (c :: c' :: word)) with (Cat (Cls (ci_cls c)) (Cat (Rep true 0 None (Cls spc)) (spaced_re (c' :: word)))). rewrite mt_cat_iff. split.
    + intros (y & h & M1 & M). apply mt_cls_fwd in M1 as (d & F & M1 & ->). apply mt_cat_iff in M as (z & h & M2 & M). apply mt_rep_cls in M2 as (gp & F2 & G & _ & _ & ->). apply IH in M as (w & F3 & H & ->); auto; [|discriminate].
      exists (d :: gp ++ w). split; [change (d :: gp ++ w) with ([d] ++ gp ++ w); eapply fwd_app; eauto; eapply fwd_app; eauto|]. split; auto. constructor; auto; [now apply simple_letter|now rewrite <- spc_all].
    + intros (w & F & H & ->). inversion H as [|? d gp ? t L G H']; subst. change (d :: gp ++ t) with ([d] ++ gp ++ t) in F.
      assert (exists y, fwd x [d] y /\ exists z, fwd y gp z /\ fwd z t x') as (y & F1 & z & F2 & F3).
      { destruct F as (F1 & F2 & F3). exists (after x [d]). split; [apply (fwd_after x [d] (gp ++ t ++ suf x')); rewrite F1; cbn [app]; now rewrite <- app_assoc|]. exists (after (after x [d]) gp).
        assert (suf (after x [d]) = gp ++ t ++ suf x') as Q by (unfold after; cbn [suf]; rewrite F1; cbn [app skipn length]; now rewrite <- app_assoc). split; [now apply (fwd_after _ gp (t ++ suf x'))|].
        unfold fwd. unfold after at 1. cbn [suf]. rewrite Q, skipn_app, skipn_all, Nat.sub_diag. cbn [app skipn]. split; auto. unfold after. cbn [pre pos]. rewrite F2, F3. rewrite !app_length, !rev_app_distr, <- !app_assoc. split; auto. cbn [length]. lia. }
      exists y, g. split; [apply mt_cls_fwd; exists d; repeat split; try apply F1; now apply simple_letter|]. apply mt_cat_iff. exists z, g. split; [apply mt_rep_cls; exists gp; split; auto; split; [now rewrite spc_all|]; cbn; repeat split; auto; lia|]. apply IH; auto; [discriminate|]. exists t. auto.
Qed.

(** ** Deleting spaces *)
Inductive thinned : str -> str -> Prop :=
| thinned_nil : thinned [] []
| thinned_keep c s t : thinned s t -> thinned (c :: s) (c :: t)
| thinned_drop s t : thinned s t -> thinned (32%N :: s) t.
Definition chop (s : str) : str := filter (fun c => negb (N.eqb c 32)) s.
Lemma thinned_refl s : thinned s s. Proof. induction s; constructor; auto. Qed.
Lemma thinned_chop s : thinned s (chop s).
Proof. induction s as [|c s IH]; cbn [chop filter]; [constructor|]. destruct (N.eqb_spec c 32) as [->|]; cbn [negb]; constructor; auto. Qed.
Lemma thinned_app a b s t : thinned a s -> thinned b t -> thinned (a ++ b) (s ++ t).
Proof. induction 1; intros; cbn [app]; auto; constructor; auto. Qed.
Lemma thinned_trans a b : thinned a b -> forall c, thinned b c -> thinned a c.
Proof.
  induction 1 as [|c s t H IH|s t H IH]; intros u U; auto.
  - inversion U; subst; constructor; auto.
  - constructor. auto.
Qed.
Lemma thinned_in s t c : thinned s t -> In c t -> In c s.
Proof. induction 1; cbn; auto. intros [->|I]; auto. Qed.
Lemma thinned_split s t : thinned s t -> forall a b, t = a ++ b -> exists s1 s2, s = s1 ++ s2 /\ thinned s1 a /\ thinned s2 b.
Proof.
  induction 1 as [|c s t H IH|s t H IH]; intros a b E.
  - symmetry in E. apply app_eq_nil in E as (-> & ->). exists [], []. repeat split; constructor.
  - destruct a as [|c' a].
    + cbn in E. subst b. exists [], (c :: s). repeat split; [constructor|]. now constructor.
    + injection E as -> ->. destruct (IH a b eq_refl) as (s1 & s2 & -> & A & B). exists (c' :: s1), s2. repeat split; auto. now constructor.
  - destruct (IH a b E) as (s1 & s2 & -> & A & B). exists (32%N :: s1), s2. repeat split; auto. now constructor.
Qed.
Lemma thinned_spaces s t : thinned s t -> forallb is_space t = true -> forallb is_space s = true.
Proof.
  induction 1 as [|c s t H IH|s t H IH]; cbn [forallb]; intros E; auto.
  apply andb_true_iff in E as (-> & E); auto.
Qed.
Definition all_spaces (s : str) : Prop := Forall (fun c => c = 32%N) s.
Lemma all_spaces_thin s : all_spaces s -> thinned s [].
Proof. induction 1 as [|c s -> H IH]; constructor; auto. Qed.
Lemma all_spaces_blank s : all_spaces s -> forallb is_space s = true.
Proof. induction 1 as [|c s -> H IH]; cbn [forallb]; auto. Qed.
Lemma thinned_first s d t : thinned s (d :: t) -> d <> 32%N -> exists sp s', s = sp ++ d :: s' /\ all_spaces sp /\ thinned s' t.
Proof.
  intros H N. remember (d :: t) as u eqn:E. revert d t E N. induction H as [|c s u H IH|s u H IH]; intros d t E N; [discriminate| |].
  - injection E as -> ->. exists [], s. repeat split; auto. constructor.
  - destruct (IH d t E N) as (sp & s' & -> & A & B). exists (32%N :: sp), s'. repeat split; auto. now constructor.
Qed.
Lemma solid_not_space c d : solid c = true -> same_letter c d -> d <> 32%N.
Proof. intros S L ->. pose proof (solid_letter _ _ S L). discriminate. Qed.
Lemma thinned_spaced word w : forallb solid word = true -> spaced word w -> forall s b, thinned s (w ++ b) ->
  exists sp w' s', s = sp ++ w' ++ s' /\ all_spaces sp /\ spaced word w' /\ thinned w' w /\ thinned s' b.
Proof.
  intros S H. induction H as [c d L|c d g word t L G H IH]; intros s b T; cbn [forallb] in S; apply andb_true_iff in S as (Sc & S).
  - apply thinned_first in T as (sp & s' & -> & A & B); [|eauto using solid_not_space]. exists sp, [d], s'. repeat split; auto; [constructor; auto|apply thinned_refl].
  - cbn [app] in T. apply thinned_first in T as (sp & s' & -> & A & B); [|eauto using solid_not_space]. rewrite <- app_assoc in B.
    destruct (thinned_split _ _ B g (t ++ b) eq_refl) as (s1 & s2 & -> & B1 & B2). destruct (IH S _ _ B2) as (sp2 & w' & s3 & -> & A2 & W & T2 & T3).
    exists sp, (d :: (s1 ++ sp2) ++ w'), s3. split; [cbn [app]; now rewrite <- !app_assoc|]. split; auto. split; [|split; auto].
    + constructor; auto. rewrite forallb_app. now rewrite (thinned_spaces _ _ B1 G), (all_spaces_blank _ A2).
    + constructor. apply thinned_app; auto. rewrite <- (app_nil_r g). apply thinned_app; auto. now apply all_spaces_thin.
Qed.
(** no space stands between the letters of the word *)
Definition joined (word s : str) : Prop := forall a w b, s = a ++ w ++ b -> spaced word w -> ~ In 32%N w.
Lemma thinned_joined word s t : forallb solid word = true -> thinned s t -> joined word s -> joined word t.
Proof.
  intros S T J a w b -> W I. destruct (thinned_split _ _ T a (w ++ b) eq_refl) as (s1 & s2 & -> & _ & T2). destruct (thinned_spaced _ _ S W _ _ T2) as (sp & w' & s' & -> & _ & W' & T3 & _).
  apply (J (s1 ++ sp) w' s'); [now rewrite <- app_assoc|auto|]. eapply thinned_in; eauto.
Qed.
Lemma spaced_chop word w : forallb solid word = true -> spaced word w -> spaced word (chop w).
Proof.
  intros S H. induction H as [c d L|c d g word t L G H IH]; cbn [forallb] in S; apply andb_true_iff in S as (Sc & S); unfold chop in *; cbn [filter];
    (assert (N.eqb d 32 = false) as -> by (apply N.eqb_neq; eauto using solid_not_space)); cbn [negb].
  - now constructor.
  - rewrite filter_app. constructor; auto. clear -G. induction g as [|c g IH]; cbn [filter forallb] in *; auto. apply andb_true_iff in G as (G1 & G). destruct (negb (N.eqb c 32)); cbn [forallb]; rewrite ?G1; auto.
Qed.
Lemma chop_free s : ~ In 32%N (chop s).
Proof. unfold chop. intros I. apply filter_In in I as (_ & I). discriminate. Qed.

(** ** A pass *)
Definition takes (word : str) (ahead : str -> option nat) : Prop := forall s,
  match ahead s with
  | Some n => exists w g s', s = w ++ g ++ s' /\ n = length (w ++ g) /\ spaced word w /\ forallb is_space g = true
  | None => forall w b, s = w ++ b -> ~ spaced word w
  end.
Definition apart (word : str) : Prop := match word with c :: t => forall c' d, In c' t -> same_letter c d -> ~ same_letter c' d | [] => False end.
Lemma spaced_tail word w : spaced word w -> exists d t, w = d :: t /\ Forall (fun e => is_space e = true \/ exists c, In c (tl word) /\ same_letter c e) t.
Proof.
  induction 1 as [c d L|c d g word t L G H (e & u & -> & IH)]; [exists d, []; auto|]. exists d, (g ++ e :: u). split; auto. cbn [tl]. apply Forall_app. split.
  - rewrite forallb_forall in G. apply Forall_forall. auto.
  - constructor.
    + right. inversion H; subst; eexists; split; try (now left); auto.
    + eapply Forall_impl; [|exact IH]. intros x [X|(c' & I & X)]; auto. right. exists c'. split; auto. destruct word; [destruct I|now right].
Qed.
Lemma scan_some ahead put s n : ahead s = Some n -> 1 <= n -> s <> [] -> scan ahead put 0 s = put (firstn n s) ++ scan ahead put 0 (skipn n s).
Proof. intros A L N. destruct s as [|c t]; [congruence|]. cbn [scan]. rewrite A. f_equal. rewrite scan_skip. destruct n; [lia|]. cbn [skipn]. f_equal. f_equal. lia. Qed.
Lemma spaced_nonempty word w : spaced word w -> w <> []. Proof. destruct 1; discriminate. Qed.
Lemma takes_some word ahead s n : takes word ahead -> ahead s = Some n -> exists w g s', s = w ++ g ++ s' /\ firstn n s = w ++ g /\ skipn n s = s' /\ 1 <= n /\ spaced word w /\ forallb is_space g = true.
Proof.
  intros T E. specialize (T s). rewrite E in T. destruct T as (w & g & s' & -> & -> & W & G). exists w, g, s'. rewrite !app_assoc. split; auto.
  rewrite firstn_app, firstn_all, Nat.sub_diag, firstn_O, app_nil_r, skipn_app, skipn_all, Nat.sub_diag. repeat split; auto. pose proof (spaced_nonempty _ _ W). destruct w; [congruence|]. cbn. lia.
Qed.
Lemma scan_thinned word ahead : takes word ahead -> forall n s, length s <= n -> thinned s (scan ahead chop 0 s).
Proof.
  intros T. induction n as [|n IH]; intros s L; (destruct s as [|c t]; [constructor|]); [cbn in L; lia|]. destruct (ahead (c :: t)) as [k|] eqn:A.
  - destruct (takes_some _ _ _ _ T A) as (w & g & s' & E & F & Sk & K & W & G). rewrite (scan_some _ _ _ _ A K) by discriminate. rewrite F, Sk, E, app_assoc. apply thinned_app; [apply thinned_chop|]. apply IH.
    assert (length (c :: t) = length (w ++ g ++ s')) as Q by now rewrite E. pose proof (spaced_nonempty _ _ W). destruct w; [congruence|]. cbn in Q, L. rewrite !app_length in Q. lia.
  - cbn [scan]. rewrite A. constructor. apply IH. cbn in L. lia.
Qed.
Lemma app_split (x y a r : str) : x ++ y = a ++ r -> (exists e u, x = a ++ e :: u /\ r = e :: u ++ y) \/ (exists u, a = x ++ u /\ y = u ++ r).
Proof.
  intros E. apply app_eq_app in E as (l & [(-> & ->)|(-> & ->)]); [|right; exists l; auto].
  destruct l as [|e l]; [right; exists []; rewrite !app_nil_r; auto|left; exists e, l; auto].
Qed.
Lemma chop_app a b : chop (a ++ b) = chop a ++ chop b. Proof. apply filter_app. Qed.
Lemma scan_joined word ahead : forallb solid word = true -> apart word -> takes word ahead -> forall n s, length s <= n -> joined word (scan ahead chop 0 s).
Proof.
  intros Sd Ap T. induction n as [|n IH]; intros s L.
  - destruct s; [|cbn in L; lia]. cbn. intros a w b E W. symmetry in E. apply app_eq_nil in E as (_ & E). apply app_eq_nil in E as (-> & _). apply spaced_nonempty in W. congruence.
  - destruct s as [|c t]; [apply (IH []); cbn; lia|]. destruct (ahead (c :: t)) as [k|] eqn:A.
    + destruct (takes_some _ _ _ _ T A) as (w0 & g & s' & E & F & Sk & K & W0 & G). rewrite (scan_some _ _ _ _ A K) by discriminate. rewrite F, Sk.
      assert (length s' <= n) as L'. { assert (length (c :: t) = length (w0 ++ g ++ s')) as Q by now rewrite E. pose proof (spaced_nonempty _ _ W0). destruct w0; [congruence|]. cbn in Q, L. rewrite !app_length in Q. lia. }
      rewrite chop_app, <- app_assoc. intros a w b Eq W.
      pose proof (spaced_chop _ _ Sd W0) as Wc. apply app_split in Eq as [(u0 & u & Eu & Er)|(u & -> & Er)].
      * destruct a as [|a0 a].
        -- cbn [app] in Eu. rewrite app_comm_cons, <- Eu in Er. destruct (spaced_unique _ _ Sd W _ _ _ Wc Er) as (-> & _). apply chop_free.
        -- exfalso. destruct (spaced_tail _ _ Wc) as (d & tl0 & Et & Ft). rewrite Et in Eu. cbn [app] in Eu. injection Eu as -> Eu.
           destruct (spaced_head _ _ Sd W) as (c1 & word' & d1 & t1 & -> & -> & L1 & N1). cbn [tl] in Ft. cbn [app] in Er. injection Er as -> Er. rewrite Eu, Forall_app in Ft. destruct Ft as (_ & Ft). inversion Ft as [|? ? [X|(c2 & I & X)] _]; subst; [congruence|]. exact (Ap c2 u0 I L1 X).
      * apply app_split in Er as [(v0 & v & Ev & Er)|(v & -> & Er)].
        -- exfalso. destruct (spaced_head _ _ Sd W) as (c1 & word' & d1 & t1 & -> & -> & L1 & N1). cbn [app] in Er. injection Er as -> Er. assert (In v0 (chop g)) as I by (rewrite Ev; apply in_or_app; right; now left).
              unfold chop in I. apply filter_In in I as (I & _). rewrite forallb_forall in G. rewrite (G _ I) in N1. discriminate.
        -- apply (IH s' L' v w b); auto.
    + cbn [scan]. rewrite A. intros a w b Eq W. destruct a as [|a0 a].
      * exfalso. cbn [app] in Eq. pose proof (scan_thinned _ _ T (S n) (c :: t) L) as Th. cbn [scan] in Th. rewrite A, Eq in Th. destruct (thinned_spaced _ _ Sd W _ _ Th) as (sp & w' & s' & E & Al & W' & _).
        specialize (T (c :: t)). rewrite A in T. destruct sp as [|p0 sp]; [apply (T w' s' E W')|]. destruct (spaced_head _ _ Sd W) as (c1 & word' & d1 & t1 & _ & -> & _ & N1). injection Eq as -> _. injection E as -> _. inversion Al; subst. discriminate.
      * cbn [app] in Eq. injection Eq as _ Eq. apply (IH t ltac:(cbn in L; lia) a w b); auto.
Qed.

(** ** The first two patterns *)
Definition is_letter (c d : ch) : bool := N.eqb d c || (in_range 97 122 c && N.eqb d (c - 32))%N.
Lemma is_letter_iff c d : is_letter c d = true <-> same_letter c d.
Proof. unfold is_letter, same_letter, in_range. rewrite orb_true_iff, !andb_true_iff, !N.eqb_eq, !N.leb_le. intuition. Qed.
Fixpoint ahead_word (word s : str) : option nat :=
  match word, s with
  | c :: word', d :: t =>
    if is_letter c d then
      match word' with
      | [] => Some 1
      | _ => let k := leading_spaces t in match ahead_word word' (skipn k t) with Some n => Some (S (k + n)) | None => None end
      end
    else None
  | _, _ => None
  end.
Lemma ahead_word_some word s n : ahead_word word s = Some n -> exists w s', s = w ++ s' /\ n = length w /\ spaced word w.
Proof.
  revert s n. induction word as [|c word IH]; intros s n; [discriminate|]. destruct s as [|d t]; [discriminate|]. cbn [ahead_word]. destruct (is_letter c d) eqn:L; [|discriminate]. apply is_letter_iff in L.
  destruct word as [|c' word]; [intros E; injection E as <-; exists [d], t; repeat split; now constructor|]. destruct (leading_spec t) as (g & b & -> & G & -> & _). rewrite skipn_app, skipn_all, Nat.sub_diag. cbn [app skipn].
  destruct (ahead_word (c' :: word) b) as [k|] eqn:A; [|discriminate]. intros E. injection E as <-. apply IH in A as (w & s' & -> & -> & W). exists (d :: g ++ w), s'. split; [cbn [app]; now rewrite <- app_assoc|]. split; [cbn; now rewrite app_length|now constructor].
Qed.
Lemma ahead_word_complete word w b : forallb solid word = true -> spaced word w -> ahead_word word (w ++ b) = Some (length w).
Proof.
  intros S H. induction H as [c d L|c d g word t L G H IH]; cbn [forallb] in S; apply andb_true_iff in S as (Sc & S); cbn [app ahead_word]; apply is_letter_iff in L; rewrite L; auto.
  destruct word as [|c' word]; [inversion H|]. destruct (spaced_head _ _ S H) as (? & ? & e & u & _ & -> & _ & N). rewrite <- app_assoc, leading_app by auto.
  assert (leading_spaces ((e :: u) ++ b) = 0) as -> by (cbn [app leading_spaces]; now rewrite N). rewrite Nat.add_0_r, skipn_app, skipn_all, Nat.sub_diag. change ([] ++ skipn 0 ((e :: u) ++ b)) with ((e :: u) ++ b). rewrite (IH S). cbn [length]. now rewrite app_length.
Qed.
Lemma takes_word word : forallb solid word = true -> takes word (ahead_word word).
Proof.
  intros S s. destruct (ahead_word word s) as [n|] eqn:A.
  - apply ahead_word_some in A as (w & s' & -> & -> & W). exists w, [], s'. rewrite app_nil_r. auto.
  - intros w b -> W. rewrite ahead_word_complete in A by auto. discriminate.
Qed.
Definition ahead_word_gap (word s : str) : option nat :=
  match ahead_word word s with Some n => Some (n + leading_spaces (skipn n s)) | None => None end.
Lemma takes_word_gap word : forallb solid word = true -> takes word (ahead_word_gap word).
Proof.
  intros S s. unfold ahead_word_gap. pose proof (takes_word word S s) as T. destruct (ahead_word word s) as [n|] eqn:A; auto.
  apply ahead_word_some in A as (w & s' & -> & -> & W). rewrite skipn_app, skipn_all, Nat.sub_diag. cbn [app skipn]. destruct (leading_spec s') as (g & b & -> & G & -> & _). exists w, g, b. rewrite app_length. auto.
Qed.
Lemma scans_word word : word <> [] -> forallb solid word = true -> productive (spaced_re word) = true -> scans (Grp 1 (spaced_re word)) (ahead_word word).
Proof.
  intros N S Pr whole x At. destruct (run _ false x) as [o|] eqn:R.
  - unfold run in R. destruct (m _ x [] _) as [[z g]|] eqn:Q; [|discriminate]. injection R as <-. cbn [andb] in Q. apply m_sound in Q as (z' & h' & M & E). injection E as E1 E2. subst z' h'.
    apply mt_grp_iff in M as (h & M & _). apply spaced_mt in M as (w & (F1 & F2 & F3) & W & _); auto. cbn [m_start m_end]. split; auto. exists (length w). rewrite F1, ahead_word_complete by auto. rewrite app_length. apply spaced_nonempty in W. split; auto. split; [destruct w; [congruence|cbn; lia]|auto].
  - destruct (ahead_word word (suf x)) as [n|] eqn:A; auto. exfalso. apply ahead_word_some in A as (w & s' & E & _ & W). apply (run_complete whole (Grp 1 (spaced_re word)) x (after x w) [(1, (pos x, pos (after x w)))] At Pr); auto.
    apply mt_grp_iff. exists []. split; auto. apply spaced_mt; auto. exists w. split; auto. now apply (fwd_after x w s').
Qed.
Fixpoint spaced_then (word : str) (r : re) : re :=
  match word with [] => r | [c] => Cat (Cls (ci_cls c)) r | c :: t => Cat (Cls (ci_cls c)) (Cat (Rep true 0 None (Cls spc)) (spaced_then t r)) end.
Lemma then_sound word r : word <> [] -> forallb solid word = true -> forall x g k res, m (spaced_then word r) x g k = Some res -> exists w y, fwd x w y /\ spaced word w /\ m r y g k = Some res.
Proof.
  induction word as [|c word IH]; [congruence|]. intros _ S x g k res Q. cbn [forallb] in S. apply andb_true_iff in S as (Sc & S). apply solid_simple in Sc. destruct word as [|c' word].
  - change (m (Cls (ci_cls c)) x g (fun y h => m r y h k) = Some res) in Q. apply m_sound in Q as (y & h & M & Q). apply mt_cls_fwd in M as (d & F & M & ->). exists [d], y. split; auto. split; auto. constructor. now apply simple_letter.
  - change (m (Cls (ci_cls c)) x g (fun y h => m (Rep true 0 None (Cls spc)) y h (fun z i => m (spaced_then (c' :: word) r) z i k)) = Some res) in Q.
    apply m_sound in Q as (y & h & M & Q). apply mt_cls_fwd in M as (d & F & M & ->). apply m_sound in Q as (z & h & M2 & Q). apply mt_rep_cls in M2 as (gp & F2 & G & _ & _ & ->). apply IH in Q as (w & u & F3 & W & Q); auto; [|discriminate].
    exists (d :: gp ++ w), u. split; [change (d :: gp ++ w) with ([d] ++ gp ++ w); eapply fwd_app; eauto; eapply fwd_app; eauto|]. split; auto. constructor; auto; [now apply simple_letter|now rewrite <- spc_all].
Qed.
Lemma then_mt word r x g w y x' g' : forallb solid word = true -> fwd x w y -> spaced word w -> mt r y g x' g' -> mt (spaced_then word r) x g x' g'.
Proof.
  intros S F W. revert x F. induction W as [c d L|c d gp word t L G W IH]; intros x F M; cbn [forallb] in S; apply andb_true_iff in S as (Sc & S); apply solid_simple in Sc.
  - cbn [spaced_then]. apply mt_cat_iff. exists y, g. split; auto. apply mt_cls_fwd. exists d. split; auto. split; auto. now apply simple_letter.
  - destruct word as [|c' word]; [inversion W|]. change (spaced_then (c :: c' :: word) r) with (Cat (Cls (ci_cls c)) (Cat (Rep true 0 None (Cls spc)) (spaced_then (c' :: word) r))).
    assert (exists y1, fwd x [d] y1 /\ exists z, fwd y1 gp z /\ fwd z t y) as (y1 & F1 & z & F2 & F3).
    { change (d :: gp ++ t) with ([d] ++ gp ++ t) in F. destruct F as (F1 & F2 & F3). exists (after x [d]). split; [apply (fwd_after x [d] (gp ++ t ++ suf y)); rewrite F1; cbn [app]; now rewrite <- app_assoc|]. exists (after (after x [d]) gp).
      assert (suf (after x [d]) = gp ++ t ++ suf y) as Q by (unfold after; cbn [suf]; rewrite F1; cbn [app skipn length]; now rewrite <- app_assoc). split; [now apply (fwd_after _ gp (t ++ suf y))|].
      unfold fwd. unfold after at 1. cbn [suf]. rewrite Q, skipn_app, skipn_all, Nat.sub_diag. cbn [app skipn]. split; auto. unfold after. cbn [pre pos]. rewrite F2, F3. rewrite !app_length, !rev_app_distr, <- !app_assoc. split; auto. cbn [length]. lia. }
    apply mt_cat_iff. exists y1, g. split; [apply mt_cls_fwd; exists d; split; auto; split; auto; now apply simple_letter|]. apply mt_cat_iff. exists z, g. split; [apply mt_rep_cls; exists gp; split; auto; split; [now rewrite spc_all|]; cbn; repeat split; auto; lia|]. now apply IH.
Qed.
Lemma scans_word_gap word : word <> [] -> forallb solid word = true -> let r := spaced_then word (Rep true 0 None (Cls spc)) in productive r = true -> scans (Grp 1 r) (ahead_word_gap word).
Proof.
  intros N S r Pr whole x At. unfold ahead_word_gap. destruct (run _ false x) as [o|] eqn:R.
  - unfold run in R. destruct (m _ x [] _) as [[z g]|] eqn:Q; [|discriminate]. injection R as <-. cbn [andb] in Q. change (m r x [] (fun x' g' => Some (x', (1, (pos x, pos x')) :: g')) = Some (z, g)) in Q.
    apply then_sound in Q as (w & y & (F1 & F2 & F3) & W & Q); auto. pose proof Q as Q0. apply m_sound in Q0 as (z' & h' & M & E). injection E as E1 E2. subst z'. 
    apply mt_rep_cls in M as (gp & (G1 & G2 & G3) & G & _). rewrite spc_all in G. change (rep_loop true 0 None (Cls spc) (fun x' g' => Some (x', (1, (pos x, pos x')) :: g')) (Datatypes.S (0 + length (suf y))) 0 y [] = Some (z, g)) in Q.
    apply rep_greedy_some in Q as (x' & E0 & St); [|discriminate|lia]. injection E0 as E0 _. subst x'.
    cbn [m_start m_end]. split; auto. exists (length w + length gp). rewrite F1, ahead_word_complete by auto. rewrite skipn_app, skipn_all, Nat.sub_diag. cbn [app skipn]. rewrite G1, leading_app by auto.
    assert (leading_spaces (suf z) = 0) as ->. { unfold stops in St. destruct (suf z) as [|c t]; auto. cbn [leading_spaces]. rewrite spc_eqb in St. now rewrite St. }
    rewrite !app_length, G3, F3. apply spaced_nonempty in W. split; [f_equal; lia|]. split; [destruct w; [congruence|cbn; lia]|lia].
  - destruct (ahead_word word (suf x)) as [n|] eqn:A; auto. exfalso. apply ahead_word_some in A as (w & s' & E & _ & W).
    assert (mt r x [] (after x w) []) as M. { apply (then_mt word _ x [] w (after x w)); auto; [now apply (fwd_after x w s')|]. apply mt_rep_cls. exists []. split; [|cbn; repeat split; auto; lia]. split; [reflexivity|]. split; [reflexivity|]. cbn. lia. }
    apply (run_complete whole (Grp 1 r) x (after x w) [(1, (pos x, pos (after x w)))] At Pr); auto. apply mt_grp_iff. exists []. auto.
Qed.

(** ** Every pass only deletes spaces *)
Lemma sub_thinned s f ms : forall p, chain p ms (length s) -> (forall o, In o ms -> thinned (slice (m_start o) (m_end o) s) (f o)) -> thinned (skipn p s) (sub_from s f p ms).
Proof.
  intros p C H. rewrite <- (sub_id s ms p C). revert p C H. induction ms as [|o t IH]; intros p C H; cbn [sub_from]; [apply thinned_refl|].
  destruct C as (A & B & C). apply thinned_app; [apply thinned_refl|]. apply thinned_app; [apply H; now left|]. apply IH; auto. intros o' I. apply H. now right.
Qed.
Definition is_shape (p : rx) : Prop := exists body, rx_re p = Grp 1 body \/ rx_re p = Cat (Grp 1 body) Eos.
Lemma pass_thinned line p : is_shape p -> thinned line (repair_with line p).
Proof.
  intros (body & Sh). unfold repair_with, re_sub. change line with (skipn 0 line) at 1. apply sub_thinned; [apply finditer_ok|]. intros o I.
  assert (g_str line o 1 = slice (m_start o) (m_end o) line) as H.
  { pose proof I as I2. apply finditer_in in I2 as (a & w & b & x' & E & F & M & S & N).
    unfold g_str, g_text, g_span. cbn [Nat.eqb]. assert (lookup_group 1 (m_groups o) = Some (m_start o, m_end o)) as ->; auto.
    destruct F as (_ & _ & F). cbn in F. destruct Sh as [Sh|Sh]; rewrite Sh in M.
    - apply mt_grp_iff in M as (h & M & ->). cbn. now rewrite S, N, F.
    - apply mt_cat_iff in M as (y & h & M & Me). apply mt_eos in Me as (-> & -> & _). apply mt_grp_iff in M as (h' & M & ->). cbn. now rewrite S, N, F. }
  unfold chop_spaces. rewrite H. apply thinned_chop.
Qed.
Lemma passes_thinned ps : Forall is_shape ps -> forall line, thinned line (fold_left repair_with ps line).
Proof. induction 1 as [|p ps Sh S IH]; intros line; cbn [fold_left]; [apply thinned_refl|]. eapply thinned_trans; [apply (pass_thinned line p Sh)|apply IH]. Qed.
Lemma pass_scan line p body ahead : rx_re p = Grp 1 body -> scans (Grp 1 body) ahead -> repair_with line p = scan ahead chop 0 line.
Proof.
  intros E R. unfold repair_with. rewrite E. apply sub_scan_with; auto. intros x o At Er. unfold run in Er. destruct (m _ x [] _) as [[z g]|] eqn:Q; [|discriminate]. injection Er as <-. cbn [andb] in Q.
  apply m_sound in Q as (z' & h' & M & E2). injection E2 as E1 E2. subst z' h'. apply mt_grp_iff in M as (h & M & ->). unfold chop_spaces, g_str, g_text, g_span. cbn [Nat.eqb m_start m_end m_groups lookup_group].
  destruct At as (At & Ap). unfold slice. rewrite At, <- Ap, <- rev_length, skipn_app, skipn_all, Nat.sub_diag. cbn [app skipn]. reflexivity.
Qed.
Lemma same_letter_dec word : match word with c :: t => forallb (fun c' => negb (N.eqb c c') && negb (N.eqb (c - 32) c') && negb (N.eqb c (c' - 32)) && negb (N.eqb (c - 32) (c' - 32)))%N t | [] => false end = true -> apart word.
Proof.
  destruct word as [|c t]; [discriminate|]. intros H c' d I L L'. rewrite forallb_forall in H. specialize (H _ I). rewrite !andb_true_iff, !negb_true_iff, !N.eqb_neq in H. unfold same_letter in *. intuition congruence.
Qed.
Definition http_word : str := Eval vm_compute in py "http://".
Definition ftp_word : str := Eval vm_compute in py "ftp://".
Lemma repair_joins line : joined http_word (repair_broken_urls line) /\ joined ftp_word (repair_broken_urls line).
Proof.
  unfold repair_broken_urls. pose proof url_shapes as S. destruct url_repair_patterns as [|p1 [|p2 ps]] eqn:Eps; try discriminate. inversion S as [|? ? S1 S']; subst. inversion S' as [|? ? S2 S'']; subst. cbn [fold_left].
  assert (repair_with line p1 = scan (ahead_word http_word) chop 0 line) as E1.
  { apply pass_scan with (body := spaced_re http_word); [unfold url_repair_patterns in Eps; injection Eps as <- _ _; reflexivity|]. apply scans_word; [discriminate|reflexivity|reflexivity]. }
  assert (forall l, repair_with l p2 = scan (ahead_word_gap ftp_word) chop 0 l) as E2.
  { intros l. apply pass_scan with (body := spaced_then ftp_word (Rep true 0 None (Cls spc))); [unfold url_repair_patterns in Eps; injection Eps as _ <- _; reflexivity|]. apply scans_word_gap; [discriminate|reflexivity|reflexivity]. }
  rewrite E2. split.
  - eapply thinned_joined; [reflexivity|apply passes_thinned; auto|]. eapply thinned_joined; [reflexivity|rewrite <- E2; apply (pass_thinned _ p2); auto|]. rewrite E1. eapply scan_joined; [reflexivity|now apply same_letter_dec|now apply takes_word|reflexivity].
  - eapply thinned_joined; [reflexivity|apply passes_thinned; auto|]. eapply scan_joined; [reflexivity|now apply same_letter_dec|now apply takes_word_gap|reflexivity].
Qed.
Lemma repair_thinned line : thinned line (repair_broken_urls line).
Proof. unfold repair_broken_urls. apply passes_thinned. exact url_shapes. Qed.
Lemma ahead_word_spaced word w : ahead_word word w = Some (length w) -> spaced word w.
Proof. intros A. apply ahead_word_some in A as (v & s' & -> & L & W). rewrite app_length in L. destruct s' as [|c t]; [now rewrite app_nil_r|cbn in L; lia]. Qed.
