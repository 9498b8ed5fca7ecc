(** A pattern that does not look at the text before it matches inside a text what it matches at the beginning of the rest. *)
From Coq Require Import List Arith NArith Bool String Lia.
From Verif Require Import PyStr ListFacts Regex RegexParse RegexMeta RegexLang.
Import ListNotations.
Local Open Scope nat_scope.
Local Notation length := List.length.

Fixpoint local (r : re) : bool :=
  match r with
  | Eps | Cls _ | Any | Eos => true
  | Cat a b | Alt a b => local a && local b
  | Rep _ _ _ a | Grp _ a | Look true _ _ a => local a
  | Look false _ _ _ | Bos | Wordb | NWordb => false
  end.
Definition shift_span (d : nat) (e : nat * (nat * nat)) : nat * (nat * nat) := (fst e, (d + fst (snd e), d + snd (snd e))).
Definition moved (d : nat) (x x' : st) : Prop := pos x = d + pos x' /\ suf x = suf x'.
Definition moved_res (d : nat) (r r' : option (st * groups)) : Prop :=
  match r, r' with
  | None, None => True
  | Some (x, g), Some (x', g') => moved d x x' /\ g = map (shift_span d) g'
  | _, _ => False
  end.
Definition moved_k (d : nat) (k k' : cont) : Prop := forall x x' g', moved d x x' -> moved_res d (k x (map (shift_span d) g')) (k' x' g').
Lemma moved_orelse d a a' b b' : moved_res d a a' -> moved_res d (b tt) (b' tt) -> moved_res d (orelse a b) (orelse a' b').
Proof. intros A B. destruct a as [[x g]|], a' as [[x' g']|]; cbn in *; auto; contradiction. Qed.
Lemma moved_id d : moved_k d (fun x g => Some (x, g)) (fun x g => Some (x, g)). Proof. intros x x' g' H. cbn. auto. Qed.
Lemma moved_step d x x' : moved d x x' -> match step x, step x' with None, None => True | Some (c, y), Some (c', y') => c = c' /\ moved d y y' | _, _ => False end.
Proof. intros (P & S). unfold step. rewrite S. destruct (suf x'); auto. split; auto. split; cbn; auto. lia. Qed.
Lemma m_moved d r : local r = true -> forall k k' x x' g', moved_k d k k' -> moved d x x' -> moved_res d (m r x (map (shift_span d) g') k) (m r x' g' k').
Proof.
  induction r; cbn [local]; intros L k k' x x' g' K H; try discriminate; try rewrite !m_rep; cbn [m].
  - now apply K.
  - pose proof (moved_step d x x' H) as S. destruct (step x) as [[c1 y]|], (step x') as [[c2 y']|]; try contradiction; [|exact I]. destruct S as (-> & S). destruct (cls_mem _ c2); [now apply K|exact I].
  - pose proof (moved_step d x x' H) as S. destruct (step x) as [[c1 y]|], (step x') as [[c2 y']|]; try contradiction; [|exact I]. destruct S as (-> & S). destruct (N.eqb c2 10); [exact I|now apply K].
  - apply andb_true_iff in L as (L1 & L2). apply IHr1; auto. intros y y' h Hy. now apply IHr2.
  - apply andb_true_iff in L as (L1 & L2). apply moved_orelse; auto.
  - assert (forall f n x x' g', moved d x x' -> moved_res d (rep_loop greedy min max r k f n x (map (shift_span d) g')) (rep_loop greedy min max r k' f n x' g')) as Loop.
    { clear x x' g' H. induction f as [|f IH]; intros n x x' g' H; [exact I|]. cbn [rep_loop].
      match goal with |- moved_res d (if _ then orelse ?A ?B else _) (if _ then orelse ?C ?D else _) => assert (moved_res d A C /\ moved_res d (B tt) (D tt)) as (M1 & M2) end.
      { split.
        - destruct (below n max); [|exact I]. apply IHr; auto. intros y y' h Hy. assert ((pos x <? pos y) = (pos x' <? pos y')) as ->. { destruct H as (P & _), Hy as (P' & _). rewrite P, P'. destruct (Nat.ltb_spec (pos x') (pos y')), (Nat.ltb_spec (d + pos x') (d + pos y')); auto; lia. }
          destruct ((n <? min) || (pos x' <? pos y')); [now apply IH|exact I].
        - destruct (min <=? n); [now apply K|exact I]. }
      destruct greedy; apply moved_orelse; auto. }
    destruct H as (P & S). rewrite S. apply Loop. split; auto.
  - apply IHr; auto. intros y y' h (P' & S'). destruct H as (P & S). specialize (K y y' ((i, (pos x', pos y')) :: h) (conj P' S')). cbn [map shift_span fst snd] in K. rewrite P, P'. exact K.
  - destruct ahead; [|discriminate]. pose proof (IHr L _ _ x x' g' (moved_id d) H) as M. destruct (m r x _ _) as [[y g1]|], (m r x' g' _) as [[y' g1']|]; cbn in M; try contradiction.
    + destruct M as (_ & ->). destruct neg; [exact I|now apply K].
    + destruct neg; [now apply K|exact I].
  - destruct H as (P & S). rewrite S. destruct (suf x') as [|c [|c' t]] eqn:E; [apply K; split; auto; congruence| |exact I]. destruct (N.eqb c 10); [apply K; split; auto; congruence|exact I].
Qed.
Definition shift_obj (d : nat) (o : mobj) : mobj := mkmobj (d + m_start o) (d + m_end o) (map (shift_span d) (m_groups o)).
Lemma run_moved r p pr s : local r = true -> run r false (mkst p pr s) = option_map (shift_obj p) (re_match r s).
Proof.
  intros L. unfold re_match, run. assert (moved p (mkst p pr s) (init s)) as H by (split; cbn; auto; lia).
  pose proof (m_moved p r L (fun x' g' => if false && (pos x' =? pos (mkst p pr s)) then None else Some (x', g')) (fun x' g' => if false && (pos x' =? pos (init s)) then None else Some (x', g')) _ _ [] (moved_id p) H) as M. cbn [map] in M.
  destruct (m r (mkst p pr s) [] _) as [[x g]|], (m r (init s) [] _) as [[x' g']|]; cbn in M; try contradiction; auto. destruct M as ((P & _) & ->). cbn. unfold shift_obj. cbn. rewrite Nat.add_0_r, P. reflexivity.
Qed.
Lemma search_moved r s : local r = true -> match re_search r s with
  | Some o => exists a h o', s = a ++ h /\ re_match r h = Some o' /\ o = shift_obj (length a) o' /\ forall a' h', s = a' ++ h' -> length a' < length a -> re_match r h' = None
  | None => forall a h, s = a ++ h -> re_match r h = None end.
Proof.
  intros L. unfold re_search. assert (forall s p pr, match search_at r p pr s with
    | Some o => exists a h o', s = a ++ h /\ re_match r h = Some o' /\ o = shift_obj (p + length a) o' /\ forall a' h', s = a' ++ h' -> length a' < length a -> re_match r h' = None
    | None => forall a h, s = a ++ h -> re_match r h = None end) as H.
  { clear s. induction s as [|c s IH]; intros p pr; cbn [search_at]; rewrite run_moved by exact L.
    - destruct (re_match r []) as [o|] eqn:E; cbn [option_map].
      + exists [], [], o. split; auto. split; auto. split; [now rewrite Nat.add_0_r|]. intros a' h' _ Q. cbn in Q. lia.
      + intros a h Q. symmetry in Q. apply app_eq_nil in Q as (-> & ->). exact E.
    - destruct (re_match r (c :: s)) as [o|] eqn:E; cbn [option_map].
      + exists [], (c :: s), o. split; auto. split; auto. split; [now rewrite Nat.add_0_r|]. intros a' h' _ Q. cbn in Q. lia.
      + specialize (IH (S p) (c :: pr)). destruct (search_at r (S p) (c :: pr) s) as [o|].
        * destruct IH as (a & h & o' & -> & M & -> & N). exists (c :: a), h, o'. split; auto. split; auto. split; [f_equal; cbn; lia|]. intros [|x a'] h' Q Q'; cbn [app] in Q; [now subst h'|]. injection Q as <- Q. apply (N a'); auto. cbn in Q'. lia.
        * intros [|x a] h Q; cbn [app] in Q; [now subst h|]. injection Q as <- Q. now apply (IH a). }
  exact (H s 0 []).
Qed.
Lemma lookup_moved d i g : lookup_group i (map (shift_span d) g) = option_map (fun e => (d + fst e, d + snd e)) (lookup_group i g).
Proof. induction g as [|[j v] g IH]; auto. cbn [map shift_span lookup_group fst snd]. destruct (i =? j); auto. Qed.
Lemma text_moved a h o i : g_text (a ++ h) (shift_obj (length a) o) i = g_text h o i.
Proof.
  assert (forall x y, slice (length a + x) (length a + y) (a ++ h) = slice x y h) as S.
  { intros x y. unfold slice. replace (length a + y - (length a + x)) with (y - x) by lia. f_equal. rewrite skipn_app. rewrite skipn_all2 by lia. cbn [app]. f_equal. lia. }
  unfold g_text, g_span. destruct (i =? 0); cbn [shift_obj m_start m_end m_groups]; [now rewrite S|]. rewrite lookup_moved. destruct (lookup_group i (m_groups o)) as [[x y]|]; cbn [option_map fst snd]; [now rewrite S|auto].
Qed.
Lemma named_moved p a h o n : group_named p (a ++ h) (shift_obj (length a) o) n = group_named p h o n.
Proof. unfold group_named. destruct (assoc_str n (rx_names p)); [now rewrite text_moved|auto]. Qed.
