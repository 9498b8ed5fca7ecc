(** Substitution by patterns that look at the text ahead only, as a scan; wash_line in full (C40). *)
From Coq Require Import List Arith NArith Bool String Lia.
From Verif Require Import PyStr ListFacts Regex RegexParse RegexMeta RegexLang RegexWords Patterns DocText WashProofs SpaceProofs.
Import ListNotations.
Local Open Scope nat_scope.
Local Notation length := List.length.
Local Arguments is_space : simpl never.

(** [ahead s]: how many characters are replaced at the beginning of s, if any *)
Fixpoint scan (ahead : str -> option nat) (put : str -> str) (skip : nat) (s : str) : str :=
  match s with
  | [] => []
  | c :: t => match skip with
              | S k => scan ahead put k t
              | O => match ahead s with
                     | Some n => put (firstn n s) ++ scan ahead put (n - 1) t
                     | None => c :: scan ahead put 0 t
                     end
              end
  end.
Definition scans (r : re) (ahead : str -> option nat) : Prop := forall s x, at_ s x ->
  match run r false x with
  | Some o => m_start o = pos x /\ exists n, ahead (suf x) = Some n /\ 1 <= n <= length (suf x) /\ m_end o = pos x + n
  | None => ahead (suf x) = None
  end.
Lemma sub_from_step (s : str) f p ms c t : chain (S p) ms (length s) -> skipn p s = c :: t -> sub_from s f p ms = c :: sub_from s f (S p) ms.
Proof.
  intros C E. assert (skipn (S p) s = t) as Et by (replace (S p) with (1 + p) by lia; rewrite <- skipn_skipn, E; reflexivity).
  destruct ms as [|o ms]; cbn [sub_from]; [now rewrite E, Et|]. destruct C as (A & _). rewrite !app_comm_cons. f_equal. unfold slice. rewrite E, Et.
  replace (m_start o - p) with (S (m_start o - S p)) by lia. reflexivity.
Qed.
Lemma sub_scan_at r ahead put f whole : scans r ahead -> (forall x o, at_ whole x -> run r false x = Some o -> f o = put (firstn (m_end o - m_start o) (suf x))) ->
  forall s pr skip, whole = rev pr ++ s -> skip <= length s ->
  sub_from whole f (length pr + skip) (iter_at r (length pr) pr s skip) = scan ahead put skip s.
Proof.
  intros R Fp. induction s as [|c t IH]; intros pr skip W0 L.
  - assert (skip = 0) as -> by (cbn in L; lia). cbn [iter_at]. pose proof (R _ (mkst (length pr) pr []) (conj eq_refl eq_refl)) as Q. destruct (run r false _) as [o|].
    + destruct Q as (_ & n & _ & Q & _). cbn in Q. lia.
    + subst whole. cbn [sub_from scan]. rewrite app_nil_r, Nat.add_0_r, <- rev_length. apply skipn_all.
  - assert (whole = rev (c :: pr) ++ t) as W by (subst whole; cbn [rev]; now rewrite <- app_assoc).
    assert (forall k, k <= length t -> sub_from whole f (S (length pr) + k) (iter_at r (S (length pr)) (c :: pr) t k) = scan ahead put k t) as IH'.
    { intros k K. apply (IH (c :: pr) k W K). }
    destruct skip as [|k].
    + cbn [iter_at scan]. assert (at_ whole (mkst (length pr) pr (c :: t))) as At by (split; auto). pose proof (R _ _ At) as Q. destruct (run r false _) as [o|] eqn:Er.
      * destruct Q as (S1 & n & A & B & S2). cbn [suf pos] in *. rewrite A. assert (m_end o =? length pr = false) as -> by (apply Nat.eqb_neq; lia).
        cbn [sub_from]. rewrite S1, Nat.add_0_r. unfold slice at 1. rewrite Nat.sub_diag, firstn_O. cbn [app]. rewrite (Fp _ _ At Er). cbn [suf]. replace (m_end o - m_start o) with n by lia. f_equal. cbn [length] in B.
        replace (m_end o) with (S (length pr) + (n - 1)) at 1 by lia. replace (m_end o - length pr - 1) with (n - 1) by lia. apply IH'. lia.
      * cbn [suf] in Q. rewrite Q. rewrite Nat.add_0_r. rewrite (sub_from_step _ _ _ _ c t).
        -- f_equal. rewrite <- (IH' 0) by lia. f_equal. lia.
        -- destruct (iter_at_ok r whole t (S (length pr)) (c :: pr) 0) as (_ & C); [|lia|now rewrite Nat.add_0_r in C]. rewrite W. split; reflexivity.
        -- subst whole. rewrite <- rev_length, skipn_app, skipn_all, Nat.sub_diag. reflexivity.
    + cbn [iter_at scan]. replace (length pr + S k) with (S (length pr) + k) by lia. apply IH'. cbn in L. lia.
Qed.
Lemma sub_scan_with r ahead put f s : scans r ahead -> (forall x o, at_ s x -> run r false x = Some o -> f o = put (firstn (m_end o - m_start o) (suf x))) ->
  re_sub r f s = scan ahead put 0 s.
Proof. intros R Fp. apply (sub_scan_at r ahead put f s R Fp s [] 0); [reflexivity|lia]. Qed.
Lemma sub_scan r ahead put s : scans r ahead -> re_sub r (fun _ => put) s = scan ahead (fun _ => put) 0 s.
Proof. intros R. apply sub_scan_with; auto. Qed.
Lemma scan_skip ahead put : forall s k, scan ahead put k s = scan ahead put 0 (skipn k s).
Proof. induction s as [|c t IH]; intros [|k]; auto. cbn [scan skipn]. apply IH. Qed.

(** ** The passes of wash_line *)
Definition before_char (c : ch) (s : str) : option nat :=
  match s with x :: y :: _ => if is_space x && N.eqb y c then Some 2 else None | _ => None end.
Definition after_char (c : ch) (s : str) : option nat :=
  match s with x :: y :: _ => if N.eqb x c && is_space y then Some 2 else None | _ => None end.
Definition before_colon (c : ch) (s : str) : option nat :=
  match s with x :: y :: z :: _ => if N.eqb x c && (is_space y && N.eqb z 58) then Some 3 else None | _ => None end.
Definition dash_chars : str := [727; 821; 822; 8722; 45; 65123; 65293]%N.
Definition dash (s : str) : option nat :=
  if startswith s (py "\255") then Some 4 else match s with c :: _ => if mem_ch c dash_chars then Some 1 else None | [] => None end.
Fixpoint leading_spaces (s : str) : nat := match s with c :: t => if is_space c then S (leading_spaces t) else 0 | [] => 0 end.
Definition gap (s : str) : option nat := let n := leading_spaces s in if 2 <=? n then Some n else None.

Lemma chr_eqb c d : cls_mem (chr c) d = N.eqb d c.
Proof. unfold cls_mem, chr. cbn [c_neg c_ci c_items existsb item_mem]. rewrite orb_false_r. unfold in_range. destruct (N.eqb_spec d c) as [->|N]; [now rewrite !N.leb_refl|]. destruct (N.leb_spec c d), (N.leb_spec d c); cbn; auto. lia. Qed.
Lemma spc_eqb d : cls_mem spc d = is_space d. Proof. apply space_mem. Qed.
Lemma step_nil p pr : step (mkst p pr []) = None. Proof. reflexivity. Qed.
Lemma step_cons p pr c t : step (mkst p pr (c :: t)) = Some (c, mkst (S p) (c :: pr) t). Proof. reflexivity. Qed.
Lemma scans_before c : scans (Cat (Cls spc) (Cls (chr c))) (before_char c).
Proof.
  intros whole [p pr s] _. unfold run. cbn [m suf pos pre andb]. destruct s as [|x s]; rewrite ?step_nil, ?step_cons; cbn [before_char]; auto. rewrite spc_eqb. destruct s as [|y s]; [destruct (is_space x); rewrite ?step_nil; reflexivity|].
  destruct (is_space x); rewrite ?step_nil, ?step_cons; cbn [suf pos pre andb]; auto. rewrite chr_eqb. destruct (N.eqb y c); auto. cbn. split; auto. exists 2. split; auto. lia.
Qed.
Lemma scans_after c : scans (Cat (Cls (chr c)) (Cls spc)) (after_char c).
Proof.
  intros whole [p pr s] _. unfold run. cbn [m suf pos pre andb]. destruct s as [|x s]; rewrite ?step_nil, ?step_cons; cbn [after_char]; auto. rewrite chr_eqb. destruct s as [|y s]; [destruct (N.eqb x c); rewrite ?step_nil; reflexivity|].
  destruct (N.eqb x c); rewrite ?step_nil, ?step_cons; cbn [suf pos pre andb]; auto. rewrite spc_eqb. destruct (is_space y); auto. cbn. split; auto. exists 2. split; auto. lia.
Qed.
Lemma scans_colon c : scans (Cat (Cls (chr c)) (Cat (Cls spc) (Cls (chr 58%N)))) (before_colon c).
Proof.
  intros whole [p pr s] _. unfold run. cbn [m suf pos pre andb]. destruct s as [|x s]; rewrite ?step_nil, ?step_cons; cbn [before_colon]; auto. rewrite chr_eqb. destruct s as [|y s]; [destruct (N.eqb x c); rewrite ?step_nil; reflexivity|].
  destruct (N.eqb x c); rewrite ?step_nil, ?step_cons; cbn [suf pos pre andb]; [|destruct s; auto]. rewrite spc_eqb. destruct s as [|z s]; [destruct (is_space y); rewrite ?step_nil; reflexivity|]. destruct (is_space y); rewrite ?step_nil, ?step_cons; cbn [suf pos pre andb]; auto. rewrite chr_eqb. destruct (N.eqb z 58%N); auto. cbn. split; auto. exists 3. split; auto. lia.
Qed.
Definition dash_word : re := Cat (Cls (chr 92%N)) (Cat (Cls (chr 50%N)) (Cat (Cls (chr 53%N)) (Cls (chr 53%N)))).
Fixpoint one_of (l : list ch) : re := match l with [] => Eps | [c] => Cls (chr c) | c :: t => Alt (Cls (chr c)) (one_of t) end.
Lemma dash_shape : rx_re re_hyphens = Grp 1 (Alt dash_word (one_of dash_chars)). Proof. reflexivity. Qed.
Lemma one_of_m l (x : st) g (k : cont) : l <> [] -> (forall y h, k y h <> None) ->
  m (one_of l) x g k = match suf x with c :: t => if mem_ch c l then k (mkst (S (pos x)) (c :: pre x) t) g else None | [] => None end.
Proof.
  intros N K. induction l as [|a l IH]; [congruence|]. unfold mem_ch in *. destruct l as [|b l].
  - cbn [one_of m existsb]. unfold step. destruct (suf x) as [|c t]; auto. rewrite chr_eqb, orb_false_r. reflexivity.
  - change (one_of (a :: b :: l)) with (Alt (Cls (chr a)) (one_of (b :: l))). cbn [m]. rewrite IH by discriminate. unfold step. destruct (suf x) as [|c t]; auto. rewrite chr_eqb. cbn [existsb]. destruct (N.eqb c a); cbn [orb]; auto.
    unfold orelse. destruct (k _ g) eqn:E; auto. exfalso. eapply K; eauto.
Qed.
Lemma word_m (x : st) g (k : cont) : m dash_word x g k = if startswith (suf x) (py "\255") then k (mkst (4 + pos x) (rev (firstn 4 (suf x)) ++ pre x) (skipn 4 (suf x))) g else None.
Proof.
  destruct x as [p pr s]. unfold dash_word, startswith. change (py "\255") with [92; 50; 53; 53]%N. cbn [m suf pos pre].
  destruct s as [|a s]; [reflexivity|]. rewrite step_cons, chr_eqb. cbn [prefixb]. rewrite (N.eqb_sym 92%N a). destruct (N.eqb a 92%N) eqn:E1; cbn [andb]; auto.
  destruct s as [|b s]; [reflexivity|]. rewrite step_cons, chr_eqb. rewrite (N.eqb_sym 50%N b). destruct (N.eqb b 50%N) eqn:E2; cbn [andb]; auto.
  destruct s as [|c s]; [reflexivity|]. rewrite step_cons, chr_eqb. rewrite (N.eqb_sym 53%N c). destruct (N.eqb c 53%N) eqn:E3; cbn [andb]; auto.
  destruct s as [|d s]; [reflexivity|]. rewrite step_cons, chr_eqb. rewrite (N.eqb_sym 53%N d). destruct (N.eqb d 53%N) eqn:E4; cbn [andb]; auto.
Qed.
Lemma scans_dash : scans (rx_re re_hyphens) dash.
Proof.
  intros whole x _. rewrite dash_shape. unfold run. cbn [andb]. change (m (Grp 1 (Alt dash_word (one_of dash_chars))) x [] (fun x' g' => Some (x', g')))
    with (orelse (m dash_word x [] (fun x' g' => Some (x', (1, (pos x, pos x')) :: g'))) (fun _ => m (one_of dash_chars) x [] (fun x' g' => Some (x', (1, (pos x, pos x')) :: g')))).
  rewrite word_m, one_of_m by (discriminate || discriminate). unfold dash. destruct (startswith (suf x) _) eqn:S; cbn [orelse].
  - cbn [m_start m_end pos]. split; auto. exists 4. split; auto. split; [|lia]. split; [lia|]. unfold startswith in S. apply prefixb_app in S as (t & ->). cbn. lia.
  - destruct (suf x) as [|c t] eqn:E; auto. destruct (mem_ch c dash_chars); auto. cbn. split; auto. exists 1. split; auto. lia.
Qed.
Lemma leading_spec s : exists a b, s = a ++ b /\ forallb is_space a = true /\ leading_spaces s = length a /\ match b with c :: _ => is_space c = false | [] => True end.
Proof.
  induction s as [|c t (a & b & -> & A & L & B)]; [exists [], []; cbn; auto|]. cbn [leading_spaces]. destruct (is_space c) eqn:C.
  - exists (c :: a), b. cbn [forallb app length]. rewrite C, A, L. auto.
  - exists [], (c :: a ++ b). cbn [app length forallb]. auto.
Qed.
Lemma leading_le s : leading_spaces s <= length s.
Proof. destruct (leading_spec s) as (a & b & -> & _ & -> & _). rewrite app_length. lia. Qed.
Lemma leading_app a b : forallb is_space a = true -> leading_spaces (a ++ b) = length a + leading_spaces b.
Proof. induction a as [|c a IH]; cbn [forallb app leading_spaces length]; auto. intros H. apply andb_true_iff in H as (-> & H). now rewrite IH. Qed.
Lemma spc_all w : forallb (cls_mem spc) w = forallb is_space w.
Proof. induction w as [|c w IH]; cbn [forallb]; auto. now rewrite spc_eqb, IH. Qed.
Lemma scans_gap : scans (rx_re re_multiple_space) gap.
Proof.
  intros whole x At. change (rx_re re_multiple_space) with (Rep true 2 None (Cls spc)). unfold run. cbn [andb]. unfold gap.
  destruct (m _ x [] _) as [[z g]|] eqn:Q.
  - pose proof Q as Q0. apply m_sound in Q0 as (z' & h' & M & E0). injection E0 as E1 E2. subst z' h'.
    change (rep_loop true 2 None (Cls spc) (fun y h => Some (y, h)) (S (2 + length (suf x))) 0 x [] = Some (z, g)) in Q.
    apply rep_greedy_some in Q as (x' & E0 & St); [|discriminate|lia]. injection E0 as E1. subst x'.
    apply mt_rep_cls in M as (w & F & W & L & _). rewrite spc_all in W. cbn [m_start m_end]. destruct F as (F1 & _ & F3). rewrite F1, leading_app by auto.
    assert (leading_spaces (suf z) = 0) as ->. { unfold stops in St. destruct (suf z) as [|c t]; auto. cbn [leading_spaces]. rewrite spc_eqb in St. now rewrite St. }
    rewrite Nat.add_0_r. assert (2 <=? length w = true) as -> by (apply Nat.leb_le; lia). split; auto. exists (length w). rewrite app_length. split; auto. lia.
  - destruct (2 <=? leading_spaces (suf x)) eqn:E; auto. exfalso. apply Nat.leb_le in E. destruct (leading_spec (suf x)) as (a & b & Ea & A & L & _).
    assert (mt (Rep true 2 None (Cls spc)) x [] (after x a) []) as M.
    { apply mt_rep_cls. exists a. split; [apply (fwd_after x a b); auto|]. split; [now rewrite spc_all|]. split; [lia|]. cbn. auto. }
    exact (m_complete _ _ _ _ _ _ M At eq_refl (fun y h => Some (y, h)) ltac:(discriminate) Q).
Qed.

(** ** wash_line *)
Definition washed (line : str) : str :=
  let pass ahead put l := scan ahead (fun _ => put) 0 l in
  pass gap (py " ") (pass dash (py "-") (pass (after_char 91%N) (py "[") (pass (before_char 93%N) (py "]")
    (pass (before_colon 44%N) (py ":") (pass (before_colon 58%N) (py ":")
      (pass (before_char 46%N) (py ".") (pass (before_char 59%N) (py ";") (pass (before_char 44%N) (py ",") line)))))))).
Lemma wash_line_ok line : wash_line line = washed line.
Proof.
  unfold wash_line, washed, sub_text. rewrite (sub_scan _ _ _ _ (scans_before 44%N)). rewrite (sub_scan _ _ _ _ (scans_before 59%N)), (sub_scan _ _ _ _ (scans_before 46%N)).
  rewrite (sub_scan _ _ _ _ (scans_colon 58%N)), (sub_scan _ _ _ _ (scans_colon 44%N)), (sub_scan _ _ _ _ (scans_before 93%N)), (sub_scan _ _ _ _ (scans_after 91%N)).
  now rewrite (sub_scan _ _ _ _ scans_dash), (sub_scan _ _ _ _ scans_gap).
Qed.
(** no two characters of white space stand side by side in a washed line *)
Fixpoint no_runs (s : str) : Prop := match s with a :: t => match t with b :: _ => ~ (is_space a = true /\ is_space b = true) | [] => True end /\ no_runs t | [] => True end.
Lemma gap_no_runs n : forall s, length s <= n -> no_runs (scan gap (fun _ => py " ") 0 s) /\
  (leading_spaces s = 0 -> match scan gap (fun _ => py " ") 0 s with c :: _ => is_space c = false | [] => True end).
Proof.
  induction n as [|n IH]; intros s L; [destruct s; [cbn; auto|cbn in L; lia]|]. destruct s as [|c t]; [cbn; auto|]. cbn [scan]. change (gap (c :: t)) with (if 2 <=? leading_spaces (c :: t) then Some (leading_spaces (c :: t)) else None).
  destruct (2 <=? leading_spaces (c :: t)) eqn:G.
  - apply Nat.leb_le in G. split; [|lia]. rewrite scan_skip. destruct (leading_spec (c :: t)) as (a & b & E & A & La & B). rewrite La in *. destruct a as [|a0 a]; [cbn in G; lia|]. cbn [app] in E. injection E as <- ->.
    cbn [length Nat.pred]. rewrite Nat.sub_succ, Nat.sub_0_r. rewrite skipn_app, skipn_all, Nat.sub_diag. cbn [app skipn]. 
    destruct (IH b) as (R & H0). { cbn in L. rewrite app_length in L. lia. }
    assert (leading_spaces b = 0) as Lb by (destruct b as [|b0 b]; cbn [leading_spaces]; auto; now rewrite B). specialize (H0 Lb).
    change (py " ") with [32%N] at 1. cbn [app no_runs]. split; auto. destruct (scan gap _ 0 b); auto. intros (_ & Q). congruence.
  - apply Nat.leb_gt in G. destruct (IH t) as (R & H0); [cbn in L; lia|]. split.
    + cbn [no_runs]. split; auto. destruct (is_space c) eqn:C.
      * cbn [leading_spaces] in G. rewrite C in G. specialize (H0 ltac:(lia)). destruct (scan gap _ 0 t); auto. intros (_ & Q). congruence.
      * destruct (scan gap _ 0 t); auto. intros (Q & _). congruence.
    + cbn [leading_spaces]. destruct (is_space c); auto. discriminate.
Qed.
Lemma wash_no_runs line : no_runs (wash_line line).
Proof. rewrite wash_line_ok. unfold washed. eapply gap_no_runs. reflexivity. Qed.
Lemma no_runs_at s a x y b : no_runs s -> s = a ++ x :: y :: b -> ~ (is_space x = true /\ is_space y = true).
Proof. intros R ->. induction a as [|c a IH]; cbn [app no_runs] in R; [apply R|apply IH, R]. Qed.
