(** Proofs about white-space squeezing and the translation of positions (C18). *)
From Coq Require Import List Arith NArith Bool String Lia.
From Verif Require Import PyStr ListFacts Regex RegexParse Patterns RegexMeta RegexLang Numeration DocText Tag WashProofs.
Import ListNotations.
Local Open Scope nat_scope.
Local Notation length := List.length.
Local Notation concat := List.concat.

(** ** A match that finditer reports is what [run] finds at its place *)
Lemma iter_run r s : 1 <= minlen r -> forall su p pr k o, at_ s (mkst p pr su) -> k <= length su -> In o (iter_at r p pr su k) ->
  exists x, at_ s x /\ run r false x = Some o.
Proof.
  intros Mn. induction su as [|c t IH]; intros p pr k o A K I.
  - cbn in K. assert (k = 0) by lia. subst. cbn in I. destruct (run r false (mkst p pr [])) as [o1|] eqn:R; [|destruct I].
    pose proof R as R0. apply run_sound with (s := s) in R0 as (x' & M & _ & S1 & E1 & L1 & L2 & _); auto. pose proof (mt_minlen s _ _ _ _ _ M A) as Q. cbn [pos] in *.
    assert (m_end o1 =? p = false) as E by (apply Nat.eqb_neq; lia). rewrite E in I. destruct I as [<-|[]]; eauto.
  - assert (forall j, In o (iter_at r (S p) (c :: pr) t j) -> j <= length t -> exists x, at_ s x /\ run r false x = Some o) as N.
    { intros j J L. eapply IH; eauto. now apply at_cons. }
    cbn [iter_at] in I. cbn in K. destruct k as [|k]; [|apply (N k); auto; lia]. pose proof (at_len _ _ A) as Ln. cbn in Ln.
    destruct (run r false (mkst p pr (c :: t))) as [o1|] eqn:R; [|apply (N 0); auto; lia].
    pose proof R as R0. apply run_sound with (s := s) in R0 as (x' & M & _ & S1 & E1 & L1 & L2 & _); auto. pose proof (mt_minlen s _ _ _ _ _ M A) as Q. cbn [pos] in *.
    assert (m_end o1 =? p = false) as E by (apply Nat.eqb_neq; lia). rewrite E in I.
    destruct I as [<-|I]; eauto. apply (N (m_end o1 - p - 1)); auto. lia.
Qed.
Lemma finditer_run r s o : 1 <= minlen r -> In o (re_finditer r s) -> exists x, at_ s x /\ run r false x = Some o.
Proof. intros Mn I. eapply (iter_run r s Mn s 0 [] 0); eauto; [apply at_init|lia]. Qed.

(** ** A greedy run of a class is maximal *)
Definition stops (c : cls) (x : st) : Prop := match suf x with d :: _ => cls_mem c d = false | [] => True end.
Lemma rep_greedy mn c (k : cont) : (forall x g, k x g <> None) -> forall fuel n x g, mn <= n -> length (suf x) < fuel ->
  exists x' , rep_loop true mn None (Cls c) k fuel n x g = k x' g /\ stops c x' /\ pos x <= pos x'.
Proof.
  intros K. induction fuel as [|f IH]; intros n x g N F; [lia|]. cbn [rep_loop]. cbn [below m].
  assert (mn <=? n = true) as -> by (apply Nat.leb_le; lia). assert (n <? mn = false) as -> by (apply Nat.ltb_ge; lia). cbn [orb].
  unfold step. destruct (suf x) as [|d t] eqn:S; cbn [orelse].
  - exists x. unfold stops. rewrite S. auto.
  - destruct (cls_mem c d) eqn:C; cbn [orelse].
    + cbn [pos]. assert (pos x <? Datatypes.S (pos x) = true) as -> by (apply Nat.ltb_lt; lia).
      destruct (IH (Datatypes.S n) (mkst (Datatypes.S (pos x)) (d :: pre x) t) g) as (x' & E & St & L); [lia|cbn in *; lia|].
      rewrite E. exists x'. cbn in L. split; [|split; [auto|lia]]. destruct (k x' g) eqn:Q; [reflexivity|exfalso; exact (K _ _ Q)].
    + exists x. unfold stops. rewrite S. auto.
Qed.
Lemma rep_greedy_some mn c (k : cont) : (forall x g, k x g <> None) -> forall fuel n x g r, length (suf x) + (mn - n) < fuel ->
  rep_loop true mn None (Cls c) k fuel n x g = Some r -> exists x', k x' g = Some r /\ stops c x'.
Proof.
  intros K. induction fuel as [|f IH]; intros n x g r F; [lia|]. destruct (Nat.le_gt_cases mn n) as [L|L].
  - intros E. destruct (rep_greedy mn c k K (S f) n x g L) as (x' & E' & St & _); [lia|]. rewrite E' in E. eauto.
  - cbn [rep_loop]. cbn [below m]. assert (mn <=? n = false) as -> by (apply Nat.leb_gt; lia). assert (n <? mn = true) as -> by (apply Nat.ltb_lt; lia). cbn [orb].
    unfold step. destruct (suf x) as [|d t] eqn:Sx; cbn [orelse]; [discriminate|]. destruct (cls_mem c d) eqn:C; cbn [orelse]; [|discriminate].
    intros E. destruct (rep_loop true mn None (Cls c) k f (S n) _ g) eqn:Q; cbn [orelse] in E; [|discriminate]. injection E as ->. apply IH in Q; auto. cbn [suf length] in *. lia.
Qed.

(** ** The squeezed line *)
Definition runs_re : re := Grp 1 (Rep true 2 None (Cls spc)).
Lemma runs_shape : rx_re re_group_captured_multiple_space = runs_re. Proof. reflexivity. Qed.
Lemma runs_productive : productive runs_re = true. Proof. reflexivity. Qed.
Lemma runs_mt x x' g' : mt runs_re x [] x' g' -> exists w, fwd x w x' /\ 2 <= length w /\ forallb is_space w = true.
Proof.
  unfold runs_re. rewrite mt_grp_iff. intros (h & M & _). apply mt_rep_cls in M as (w & F & A & L & _).
  exists w. repeat (split; auto). rewrite forallb_forall in *. intros d D. apply A in D. now apply spc_mem.
Qed.
Lemma runs_two a c d b : is_space c = true -> is_space d = true -> exists x' g', mt runs_re (here a (c :: d :: b)) [] x' g'.
Proof.
  intros C D. exists (here (a ++ [c; d]) b), [(1, (length a, length a + 2))]. apply mt_grp_iff. exists []. split.
  - apply mt_rep_cls. exists [c; d]. split; [apply (fwd_here a [c; d] b)|]. cbn [forallb]. unfold spc. rewrite !space_mem, C, D. cbn. auto.
  - cbn. rewrite app_length. reflexivity.
Qed.
(** the character after a match is no white space *)
Lemma runs_end s o d : In o (re_finditer runs_re s) -> nth_error s (m_end o) = Some d -> is_space d = false.
Proof.
  intros I N. apply finditer_run in I as (x & A & R); [|cbn; lia].
  unfold run in R. destruct (m runs_re x [] _) as [[z g]|] eqn:Q; [|discriminate]. injection R as R. subst o. cbn [m_end] in *. cbn [andb] in Q.
  pose proof Q as Q0. apply m_sound in Q0 as (y & h & M & E). injection E as -> ->. destruct (mt_at s _ _ _ _ _ M A) as [Az _].
  change (rep_loop true 2 None (Cls spc) (fun (x' : st) (g' : groups) => Some (x', (1, (pos x, pos x')) :: g')) (S (2 + length (suf x))) 0 x [] = Some (z, g)) in Q.
  apply rep_greedy_some in Q as (x' & E & St); [|discriminate|lia]. injection E as -> _.
  unfold stops in St. rewrite (at_suf s z Az) in St. rewrite <- (firstn_skipn (pos z) s) in N. rewrite nth_error_app2 in N by apply firstn_le_length.
  rewrite firstn_length_le, Nat.sub_diag in N by (now apply at_pos_le). destruct (skipn (pos z) s) as [|e t]; [discriminate|]. injection N as ->.
  unfold spc in St. now rewrite space_mem in St.
Qed.
(** the subject cut into single characters and matches *)
Fixpoint blocks (s : str) (p : nat) (ms : list mobj) : list str :=
  match ms with
  | [] => map (fun c => [c]) (skipn p s)
  | o :: t => map (fun c => [c]) (slice p (m_start o) s) ++ slice (m_start o) (m_end o) s :: blocks s (m_end o) t
  end.
Lemma concat_single {A} (l : list A) : concat (map (fun c => [c]) l) = l.
Proof. induction l as [|c l IH]; cbn; auto. now rewrite IH. Qed.
Lemma slice_skipn (s : str) a b : a <= b -> slice a b s ++ skipn b s = skipn a s.
Proof.
  intros L. unfold slice. replace (skipn b s) with (skipn (b - a) (skipn a s)) by (rewrite skipn_skipn; f_equal; lia). apply firstn_skipn.
Qed.
Lemma blocks_concat s ms : forall p, chain p ms (length s) -> concat (blocks s p ms) = skipn p s.
Proof.
  induction ms as [|o t IH]; intros p C; cbn [blocks]; [apply concat_single|]. cbn [chain] in C. destruct C as (A & B & C).
  rewrite concat_app, concat_single. cbn [concat]. rewrite IH by auto. rewrite slice_skipn by auto. now apply slice_skipn.
Qed.
(** what a block becomes *)
Definition squeezed (b : str) : ch := match b with [c] => c | _ => 32%N end.
Lemma squeezed_single (l : str) : map squeezed (map (fun c => [c]) l) = l.
Proof. induction l as [|c l IH]; cbn; auto. now rewrite IH. Qed.
Lemma squeezed_long b : 2 <= length b -> squeezed b = 32%N.
Proof. destruct b as [|c [|d b]]; cbn; auto; lia. Qed.
Lemma blocks_sub s ms : forall p, chain p ms (length s) -> Forall (fun o => 2 <= length (slice (m_start o) (m_end o) s)) ms ->
  sub_from s (fun _ => py " ") p ms = map squeezed (blocks s p ms).
Proof.
  induction ms as [|o t IH]; intros p C F; cbn [blocks sub_from]; [now rewrite squeezed_single|]. cbn [chain] in C. destruct C as (A & B & C).
  inversion_clear F as [|? ? F1 F2]. rewrite map_app, squeezed_single. cbn [map]. rewrite (squeezed_long _ F1), IH by auto. reflexivity.
Qed.
(** where the long blocks are, and by how much they are longer than 1 *)
Fixpoint runs (p : nat) (bs : list str) : list (nat * nat) :=
  match bs with
  | [] => []
  | b :: t => (if 2 <=? length b then [(p, length b - 1)] else []) ++ runs (p + length b) t
  end.
Lemma runs_single l : forall p bs, runs p (map (fun c : ch => [c]) l ++ bs) = runs (p + length l) bs.
Proof. induction l as [|c l IH]; intros p bs; cbn [map app length]; [now rewrite Nat.add_0_r|]. cbn. rewrite IH. f_equal. lia. Qed.
Lemma blocks_runs s ms : forall p, chain p ms (length s) -> Forall (fun o => 2 <= length (slice (m_start o) (m_end o) s)) ms ->
  map (fun o => (m_start o, m_end o - m_start o - 1)) ms = runs p (blocks s p ms).
Proof.
  induction ms as [|o t IH]; intros p C F; cbn [blocks map].
  - rewrite <- (app_nil_r (map _ _)), runs_single. reflexivity.
  - cbn [chain] in C. destruct C as (A & B & C). inversion_clear F as [|? ? F1 F2]. pose proof (chain_le _ _ _ C) as L.
    rewrite runs_single, slice_length by lia. cbn [runs]. rewrite slice_length in * by lia.
    assert (2 <=? m_end o - m_start o = true) as -> by (apply Nat.leb_le; auto). cbn [app].
    replace (p + (m_start o - p)) with (m_start o) by lia. replace (m_start o + (m_end o - m_start o)) with (m_end o) by lia.
    f_equal. apply IH; auto.
Qed.
Lemma firstn_cons_le {A} k (x : A) l : firstn (S k) (x :: l) = x :: firstn k l. Proof. reflexivity. Qed.
Lemma single_boundary l : forall k bs p, exists k', length (concat (firstn k (map (fun c : ch => [c]) l ++ bs))) + p = length (firstn k l) + length (concat (firstn k' bs)) + p
  /\ (k' = 0 \/ length l <= k).
Proof.
  induction l as [|c l IH]; intros k bs p; cbn [map app].
  - exists k. rewrite firstn_nil. cbn. split; auto. right. lia.
  - destruct k as [|k]; [exists 0; cbn; auto|]. destruct (IH k bs p) as (k' & E & O). exists k'. rewrite !firstn_cons_le. cbn [concat length app] in *.
    split; [lia|]. destruct O as [O|O]; [now left|right; lia].
Qed.
(** the places between blocks are not inside a match *)
Lemma blocks_boundary s ms : forall p k, chain p ms (length s) ->
  forall o, In o ms -> let q := p + length (concat (firstn k (blocks s p ms))) in q <= m_start o \/ m_end o <= q.
Proof.
  induction ms as [|u t IH]; intros p k C o I; [destruct I|]. cbn zeta. cbn [chain] in C. destruct C as (A & B & C). pose proof (chain_le _ _ _ C) as L.
  cbn [blocks]. destruct (single_boundary (slice p (m_start u) s) k (slice (m_start u) (m_end u) s :: blocks s (m_end u) t) p) as (k' & E & O).
  match goal with |- p + ?X <= _ \/ _ => assert (X = length (firstn k (slice p (m_start u) s)) + length (concat (firstn k' (slice (m_start u) (m_end u) s :: blocks s (m_end u) t)))) as -> by (apply (Nat.add_cancel_r _ _ p); exact E) end.
  clear E. pose proof (slice_length s p (m_start u)) as SL. rewrite SL in O by lia.
  destruct k' as [|k'].
  - cbn [firstn concat length]. rewrite firstn_length, SL by lia. left. destruct I as [<-|I]; [lia|].
    pose proof (chain_in _ o _ _ C I). lia.
  - destruct O as [O|O]; [discriminate|]. rewrite firstn_length, SL, firstn_cons_le by lia. cbn [concat]. rewrite app_length, slice_length by lia.
    replace (Nat.min k (m_start u - p)) with (m_start u - p) by lia.
    destruct I as [<-|I]; [right; lia|]. specialize (IH (m_end u) k' C o I). cbn zeta in IH. lia.
Qed.
(** ** Translating positions *)
Notation off bs := (length (concat bs)).
Lemma off_ge : forall n bs, Forall (fun b : str => b <> []) bs -> n <= length bs -> n <= off (firstn n bs).
Proof.
  induction n as [|n IH]; intros bs F L; [lia|]. destruct F as [|b bs B F]; [cbn in L; lia|]. rewrite firstn_cons_le. cbn [concat]. rewrite app_length.
  cbn in L. specialize (IH bs F). destruct b; [contradiction|]. cbn. lia.
Qed.
Lemma account_before len : forall bs p i e, i <= length bs -> Forall (fun b : str => b <> []) bs ->
  account_loop (runs p bs) len (p + i) (p + i) e
  = account_loop (runs (p + off (firstn i bs)) (skipn i bs)) len (p + off (firstn i bs)) (p + off (firstn i bs)) e.
Proof.
  induction bs as [|b bs IH]; intros p i e L F; [cbn in L; assert (i = 0) by lia; subst; cbn [firstn skipn concat length]; now rewrite Nat.add_0_r|].
  destruct i as [|i]; [cbn [firstn skipn concat length]; now rewrite Nat.add_0_r|]. inversion_clear F as [|? ? F1 F2]. cbn in L.
  rewrite firstn_cons_le. cbn [skipn concat]. rewrite app_length. cbn [runs].
  destruct (Nat.leb_spec 2 (length b)) as [B|B]; cbn [app account_loop].
  - assert (p <? p + S i = true) as -> by (apply Nat.ltb_lt; lia).
    replace (p + S i + (length b - 1)) with (p + length b + i) by lia. rewrite IH by (auto; lia). now rewrite <- !Nat.add_assoc.
  - assert (length b = 1) as B1 by (destruct b; [contradiction|cbn in *; lia]).
    replace (p + S i) with (p + length b + i) by lia. rewrite IH by (auto; lia). now rewrite <- !Nat.add_assoc.
Qed.
Lemma account_none : forall bs p T s e, T <= p -> account_loop (runs p bs) None T s e = (T, e).
Proof.
  induction bs as [|b bs IH]; intros p T s e L; cbn [runs]; auto.
  destruct (2 <=? length b); cbn [app account_loop]; [|apply IH; lia].
  assert (p <? T = false) as -> by (apply Nat.ltb_ge; lia). apply IH. lia.
Qed.
Lemma account_after l : forall bs p T s e, T <= p -> s + l <= p -> account_loop (runs p bs) (Some l) T s e = (T, e).
Proof.
  induction bs as [|b bs IH]; intros p T s e L S; cbn [runs]; auto.
  destruct (2 <=? length b); cbn [app account_loop]; [|apply IH; lia].
  assert (p <? T = false) as -> by (apply Nat.ltb_ge; lia). assert (p <? s + l = false) as -> by (apply Nat.ltb_ge; lia). rewrite andb_false_r. apply IH; lia.
Qed.
Lemma account_inside l : forall bs p T s e n, Forall (fun b : str => b <> []) bs -> n <= length bs -> T <= p -> s <= p -> s + l = p + n ->
  account_loop (runs p bs) (Some l) T s e = (T, e + (off (firstn n bs) - n)).
Proof.
  induction bs as [|b bs IH]; intros p T s e n F N L S E.
  - cbn in N. assert (n = 0) by lia. subst. cbn. f_equal. lia.
  - destruct n as [|n]; [rewrite account_after by lia; cbn [firstn concat length]; f_equal; lia|]. inversion_clear F as [|? ? F1 F2]. cbn in N.
    assert (1 <= length b) as B0 by (destruct b; [contradiction|cbn; lia]).
    assert (n <= off (firstn n bs)) as Ln by (apply off_ge; auto; lia).
    rewrite firstn_cons_le. cbn [concat runs]. rewrite app_length.
    destruct (Nat.leb_spec 2 (length b)) as [B|B]; cbn [app account_loop].
    + assert (p <? T = false) as -> by (apply Nat.ltb_ge; lia). assert (s <=? p = true) as -> by (apply Nat.leb_le; lia).
      assert (p <? s + l = true) as -> by (apply Nat.ltb_lt; lia). cbn [andb]. rewrite (IH (p + length b) T (s + (length b - 1)) (e + (length b - 1)) n) by (auto; lia). f_equal. lia.
    + rewrite (IH (p + length b) T s e n) by (auto; lia). f_equal. lia.
Qed.

(** a run of at least two white spaces, or one character *)
Definition blank (b : str) : Prop := forallb is_space b = true.
Definition unit_ (b : str) : Prop := length b = 1 \/ 2 <= length b /\ blank b.
Lemma unit_ne b : unit_ b -> b <> []. Proof. intros [U|[U _]] ->; cbn in U; lia. Qed.
Lemma matches_long s : Forall (fun o => 2 <= length (slice (m_start o) (m_end o) s) /\ blank (slice (m_start o) (m_end o) s)) (re_finditer runs_re s).
Proof.
  apply Forall_forall. intros o I. apply finditer_text in I as (a & w & b & x' & -> & -> & _ & F & M).
  apply runs_mt in M as (w' & F' & L & B). rewrite (fwd_fun _ _ _ _ F F'). auto.
Qed.
Lemma blocks_units s ms : forall p, chain p ms (length s) -> Forall (fun o => 2 <= length (slice (m_start o) (m_end o) s) /\ blank (slice (m_start o) (m_end o) s)) ms ->
  Forall unit_ (blocks s p ms).
Proof.
  assert (forall l : str, Forall unit_ (map (fun c => [c]) l)) as S by (induction l as [|c l IH]; constructor; auto; now left).
  induction ms as [|o t IH]; intros p C F; cbn [blocks]; auto. cbn [chain] in C. destruct C as (A & B & C). inversion_clear F as [|? ? F1 F2].
  apply Forall_app. split; auto. constructor; auto. right. exact F1.
Qed.

Lemma firstn_snoc {A} (u : list A) x v : firstn (length (u ++ [x])) (u ++ x :: v) = u ++ [x].
Proof. induction u as [|y u IH]; cbn; auto. now rewrite IH. Qed.
Lemma blocks_adjacent s u b1 b2 v : let ms := re_finditer runs_re s in blocks s 0 ms = u ++ b1 :: b2 :: v -> unit_ b1 -> unit_ b2 -> ~ (blank b1 /\ blank b2).
Proof.
  cbn zeta. set (ms := re_finditer runs_re s). intros E U1 U2 (B1 & B2). pose proof (proj2 (finditer_ok runs_re s)) as C. fold ms in C.
  pose proof (blocks_concat s ms 0 C) as Cc. cbn [skipn] in Cc. rewrite E in Cc.
  pose proof (unit_ne _ U1) as N1. pose proof (unit_ne _ U2) as N2.
  destruct (exists_last N1) as (b1' & c & ->). destruct b2 as [|d b2']; [contradiction|].
  unfold blank in B1, B2. rewrite forallb_app in B1. cbn [forallb] in B1, B2. apply andb_prop in B1 as [_ B1]. rewrite andb_true_r in B1. apply andb_prop in B2 as [B2 _].
  assert (s = (concat u ++ b1') ++ c :: d :: b2' ++ concat v) as Es.
  { rewrite <- Cc, concat_app. cbn [concat]. rewrite <- !app_assoc. reflexivity. }
  destruct (runs_two (concat u ++ b1') c d (b2' ++ concat v) B1 B2) as (x' & g' & M).
  destruct (finditer_complete runs_re s _ _ _ _ runs_productive Es M) as (o & I & Cv).
  pose proof (blocks_boundary s ms 0 (length (u ++ [b1' ++ [c]])) C o I) as Q. cbn zeta in Q.
  assert (firstn (length (u ++ [b1' ++ [c]])) (blocks s 0 ms) = u ++ [b1' ++ [c]]) as E2.
  { rewrite E. apply firstn_snoc. }
  rewrite E2, concat_app in Q.  cbn [concat] in Q. rewrite app_nil_r, !app_length in Q. cbn [length] in Q.
  unfold covers in Cv. rewrite app_length in Cv.
  pose proof (proj1 (Forall_forall _ _) (matches_long s) o I) as (Lo & _).
  assert (m_end o = length (concat u) + length b1' + 1) as En.
  { destruct Q as [Q|Q]; [lia|]. destruct Cv as [Cv [Cv'|Cv']]; [lia|]. rewrite slice_length in Lo; [lia|]. now apply (chain_in _ _ _ _ C). }
  pose proof (runs_end s o d I) as R. rewrite R in B2; [discriminate|]. rewrite En, Es.
  replace ((concat u ++ b1') ++ c :: d :: b2' ++ concat v) with ((concat u ++ b1' ++ [c]) ++ d :: b2' ++ concat v) by (rewrite <- !app_assoc; reflexivity).
  rewrite nth_error_app2; rewrite !app_length; cbn [length]; [|lia]. replace (_ - _) with 0 by lia. reflexivity.
Qed.

Lemma account_match (bs : list str) i len : Forall (fun b : str => b <> []) bs -> i + len <= length bs ->
  account_loop (runs 0 bs) (Some len) i i 0 = (off (firstn i bs), off (firstn len (skipn i bs)) - len) /\ len <= off (firstn len (skipn i bs)).
Proof.
  intros Ne H. assert (Forall (fun b : str => b <> []) (skipn i bs)) as Ns by (rewrite <- (firstn_skipn i bs) in Ne; now apply Forall_app in Ne as [_ Ne]).
  assert (len <= length (skipn i bs)) as Ls by (rewrite skipn_length; lia).
  split; [|apply off_ge; auto]. pose proof (account_before (Some len) bs 0 i 0) as B. cbn [Nat.add] in B. rewrite B by (auto; lia).
  rewrite (account_inside len (skipn i bs) _ _ _ 0 len); auto; lia.
Qed.
Lemma squeeze_spec line spaces sq : remove_and_record_multiple_spaces_in_line line = (spaces, sq) -> exists bs,
  concat bs = line /\ sq = map squeezed bs /\ Forall unit_ bs
  /\ (forall u b1 b2 v, bs = u ++ b1 :: b2 :: v -> ~ (blank b1 /\ blank b2))
  /\ (forall i len, i + len <= length bs ->
        account_for_stripped_whitespace spaces (Some len) i = (off (firstn i bs), off (firstn len (skipn i bs)) - len)
        /\ len <= off (firstn len (skipn i bs)))
  /\ (forall i, i <= length bs -> account_for_stripped_whitespace spaces None i = (off (firstn i bs), 0)).
Proof.
  unfold remove_and_record_multiple_spaces_in_line. rewrite runs_shape. intros E. injection E as <- <-.
  set (ms := re_finditer runs_re line). pose proof (proj2 (finditer_ok runs_re line)) as C. fold ms in C. pose proof (matches_long line) as L. fold ms in L.
  assert (Forall (fun o => 2 <= length (slice (m_start o) (m_end o) line)) ms) as L2 by (eapply Forall_impl; [|exact L]; cbn; tauto).
  pose proof (blocks_units line ms 0 C L) as U. assert (Forall (fun b : str => b <> []) (blocks line 0 ms)) as Ne by (eapply Forall_impl; [|exact U]; apply unit_ne).
  exists (blocks line 0 ms). split; [exact (blocks_concat line ms 0 C)|]. split; [exact (blocks_sub line ms 0 C L2)|]. split; auto. split.
  - intros u b1 b2 v E. apply (blocks_adjacent line u b1 b2 v E); rewrite Forall_forall in U; apply U; fold ms; rewrite E; apply in_or_app; right; cbn; auto.
  - rewrite (blocks_runs line ms 0 C L2). unfold account_for_stripped_whitespace. split.
    + intros i len H. apply account_match; auto.
    + intros i H. pose proof (account_before None (blocks line 0 ms) 0 i 0) as B. cbn [Nat.add] in B. rewrite B by (auto; lia). apply account_none. apply Nat.le_refl.
Qed.
Lemma concat_cut (bs : list str) i : concat (firstn i bs) ++ concat (skipn i bs) = concat bs.
Proof. rewrite <- concat_app. now rewrite firstn_skipn. Qed.
Lemma squeeze_positions line spaces sq : remove_and_record_multiple_spaces_in_line line = (spaces, sq) ->
  exists bs, concat bs = line /\ sq = map squeezed bs /\ Forall unit_ bs
    /\ (forall u b1 b2 v, bs = u ++ b1 :: b2 :: v -> ~ (blank b1 /\ blank b2))
    /\ forall i len idx extras, i + len <= length sq -> account_for_stripped_whitespace spaces (Some len) i = (idx, extras) ->
         firstn idx line = concat (firstn i bs)
         /\ slice idx (idx + len + extras) line = concat (firstn len (skipn i bs))
         /\ skipn (idx + len + extras) line = concat (skipn (i + len) bs).
Proof.
  intros H. destruct (squeeze_spec _ _ _ H) as (bs & C & -> & U & N & A & _). exists bs. split; [exact C|]. split; [reflexivity|]. split; [exact U|]. split; [exact N|].
  intros i len idx extras L E. rewrite map_length in L. destruct (A i len L) as (E' & Ge). rewrite E' in E. injection E as <- <-.
  assert (line = concat (firstn i bs) ++ concat (firstn len (skipn i bs)) ++ concat (skipn (i + len) bs)) as Q.
  { rewrite <- C, <- (concat_cut bs i) at 1. f_equal. rewrite <- (concat_cut (skipn i bs) len) at 1. f_equal. rewrite skipn_skipn. f_equal. f_equal. lia. }
  set (a := concat (firstn i bs)) in *. set (b := concat (firstn len (skipn i bs))) in *. set (c := concat (skipn (i + len) bs)) in *. clearbody a b c. clear H C. subst line.
  replace (length a + len + (length b - len)) with (length a + length b) by lia. unfold slice.
  rewrite firstn_app, firstn_all, Nat.sub_diag, firstn_O, app_nil_r. split; auto.
  rewrite skipn_app, skipn_all, Nat.sub_diag. cbn [app skipn]. replace (length a + length b - length a) with (length b) by lia.
  rewrite firstn_app, firstn_all, Nat.sub_diag, firstn_O, app_nil_r. split; auto.
  rewrite skipn_app, skipn_all2 by lia. replace (length a + length b - length a) with (length b) by lia. now rewrite skipn_app, skipn_all, Nat.sub_diag.
Qed.
Lemma squeeze_start line spaces sq : remove_and_record_multiple_spaces_in_line line = (spaces, sq) ->
  exists bs, concat bs = line /\ sq = map squeezed bs /\ Forall unit_ bs
    /\ forall i, i <= length sq -> exists idx, account_for_stripped_whitespace spaces None i = (idx, 0)
         /\ firstn idx line = concat (firstn i bs).
Proof.
  intros H. destruct (squeeze_spec _ _ _ H) as (bs & C & -> & U & N & _ & A). exists bs. split; [exact C|]. split; [reflexivity|]. split; [exact U|].
  intros i L. rewrite map_length in L. exists (off (firstn i bs)). split; auto. rewrite <- C, <- (concat_cut bs i) at 1.
  now rewrite firstn_app, firstn_all, Nat.sub_diag, firstn_O, app_nil_r.
Qed.
