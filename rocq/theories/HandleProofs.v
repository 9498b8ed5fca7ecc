(** Proofs about handle identifiers in the text of an element (C51) and quoted titles of books (C49). *)
From Coq Require Import List Arith NArith Bool String Lia Permutation.
From Verif Require Import PyStr ListFacts Regex RegexMeta RegexLang RegexWords Patterns Elements Numeration Transform RecordProofs SpaceProofs UrlProofs SplitProofs PostProofs TransformProofs ElementsOk.
Import ListNotations.
Local Open Scope nat_scope.
Local Notation length := List.length.
Local Notation concat := List.concat.

(** ** Handles in a text *)
Definition no_blanks (s : str) : Prop := forallb (fun c => negb (is_space c)) s = true.
Definition handle_prefix (p : str) : Prop :=
  In p [py "http://hdl.handle.net/"; py "https://hdl.handle.net/"] \/ exists h d l, p = [h; d; l; 58%N] /\ In h (py "hH") /\ In d (py "dD") /\ In l (py "lL").
(** a run without white space that has a slash, not at its ends *)
Definition handle_id (i : str) : Prop := no_blanks i /\ exists a b, i = a ++ 47%N :: b /\ a <> [] /\ b <> [].
Definition handle (t i : str) : Prop := exists p, t = p ++ i /\ handle_prefix p /\ handle_id i.
Definition nsp : cls := mkcls false false [CSpace false].
Lemma nsp_mem c : cls_mem nsp c = negb (is_space c).
Proof. unfold cls_mem, nsp. cbn [c_neg c_ci c_items existsb item_mem]. now destruct (is_space c). Qed.
Lemma nsp_all w : forallb (cls_mem nsp) w = true <-> no_blanks w.
Proof. unfold no_blanks. induction w as [|c w IH]; cbn [forallb]; [tauto|]. rewrite nsp_mem, !andb_true_iff, IH. tauto. Qed.
Definition hdl_prefix_re : re := Eval vm_compute in match rx_re re_hdl with Cat a _ => a | r => r end.
Definition hdl_id_re : re := Cat (Rep true 1 None (Cls nsp)) (Cat (Cls (lit_cls 47)) (Rep true 1 None (Cls nsp))).
Lemma hdl_shape : rx_re re_hdl = Cat hdl_prefix_re (Grp 2 hdl_id_re). Proof. reflexivity. Qed.
Lemma hdl_productive : productive (rx_re re_hdl) = true. Proof. reflexivity. Qed.
Definition hdl_words : list gword := Eval vm_compute in match gwords hdl_prefix_re with Some w => w | None => [] end.
Lemma hdl_gwords : gwords hdl_prefix_re = Some hdl_words. Proof. vm_compute. reflexivity. Qed.
Lemma two_mem a b c : cls_mem (mkcls false false [CRange a a; CRange b b]) c = true <-> In c [a; b].
Proof. unfold cls_mem. cbn [c_neg c_ci c_items existsb item_mem]. unfold in_range. rewrite xorb_false_l, orb_false_r, orb_true_iff, !andb_true_iff, !N.leb_le. cbn. lia. Qed.
Definition hdl_parts : list (list cls) := [[mkcls false false [CRange 104 104; CRange 72 72]; mkcls false false [CRange 100 100; CRange 68 68]; mkcls false false [CRange 108 108; CRange 76 76]; lit_cls 58];
  lit_word (py "http://hdl.handle.net/"); lit_word (py "https://hdl.handle.net/")].
Lemma hdl_words_parts u : In u hdl_words -> In (fst u) hdl_parts. 
Proof. intros I. assert (In (fst u) (map fst hdl_words)) as H by now apply in_map. replace (map fst hdl_words) with hdl_parts in H by (vm_compute; reflexivity). auto. Qed.
Lemma reads_prefix p : (exists w, In w hdl_parts /\ reads w p) <-> handle_prefix p.
Proof.
  unfold handle_prefix, hdl_parts. split.
  - intros (w & [<-|[<-|[<-|[]]]] & R).
    + right. inversion R as [|? h ? r1 M1 R1]; subst; clear R. inversion R1 as [|? d ? r2 M2 R2]; subst; clear R1. inversion R2 as [|? l ? r3 M3 R3]; subst; clear R2. inversion R3 as [|? x ? r4 M4 R4]; subst; clear R3. inversion R4; subst.
      apply lit_cls_mem in M4. subst x. apply two_mem in M1, M2, M3. exists h, d, l. repeat split; auto.
    + apply reads_lits in R as ->. left. now left.
    + apply reads_lits in R as ->. left. right. now left.
  - intros [[<-|[<-|[]]]|(h & d & l & -> & H & D & L)].
    + exists (lit_word (py "http://hdl.handle.net/")). split; [right; now left|now apply reads_lits].
    + exists (lit_word (py "https://hdl.handle.net/")). split; [right; right; now left|now apply reads_lits].
    + eexists. split; [now left|]. repeat constructor; apply two_mem || apply lit_cls_mem; auto.
Qed.
Lemma prefix_mt x g x' g' : mt hdl_prefix_re x g x' g' -> exists p, fwd x p x' /\ handle_prefix p /\ lookup_group 2 g' = lookup_group 2 g.
Proof.
  intros M. apply (gwords_mt _ _ hdl_gwords) in M as (u & t & I & R & F & ->). exists t. split; auto. split; [apply reads_prefix; exists (fst u); split; auto; now apply hdl_words_parts|].
  unfold hdl_words in I. cbn [In] in I. repeat (destruct I as [<-|I]; [reflexivity|]). destruct I.
Qed.
Lemma prefix_mt_ex p x x' g : handle_prefix p -> fwd x p x' -> exists g', mt hdl_prefix_re x g x' g'.
Proof.
  intros H F. apply reads_prefix in H as (w & I & R). assert (In w (map fst hdl_words)) as J by (replace (map fst hdl_words) with hdl_parts by (vm_compute; reflexivity); auto).
  apply in_map_iff in J as (u & <- & J). eexists. apply (gwords_mt _ _ hdl_gwords). exists u, p. eauto.
Qed.
Lemma id_mt x g x' g' : mt hdl_id_re x g x' g' <-> exists i, fwd x i x' /\ handle_id i /\ g' = g.
Proof.
  unfold hdl_id_re. rewrite mt_cat_iff. split.
  - intros (y & h & M1 & M). apply mt_rep_cls in M1 as (a & Fa & A & La & _ & ->). apply mt_cat_iff in M as (z & h & M1 & M). apply mt_cls_fwd in M1 as (d & Fd & D & ->). apply lit_cls_mem in D as ->.
    apply mt_rep_cls in M as (b & Fb & B & Lb & _ & ->). exists (a ++ [47%N] ++ b). split; [eapply fwd_app; eauto; eapply fwd_app; eauto|]. split; auto. rewrite nsp_all in A, B. split.
    + unfold no_blanks in *. rewrite forallb_app, A. exact B.
    + exists a, b. split; auto. split; intros ->; cbn in *; lia.
  - intros (i & F & (Nb & a & b & -> & Na & Nbb) & ->). unfold no_blanks in Nb. rewrite forallb_app in Nb. apply andb_true_iff in Nb as [A B]. cbn [forallb] in B. apply andb_true_iff in B as [_ B].
    change (47%N :: b) with ([47%N] ++ b) in F. destruct F as (F1 & F2 & F3).
    exists (after x a), g. split.
    + apply mt_rep_cls. exists a. split; [eapply fwd_after; rewrite F1, <- app_assoc; reflexivity|]. split; [now apply nsp_all|]. split; [destruct a; cbn; [congruence|lia]|]. cbn. auto.
    + apply mt_cat_iff. exists (after (after x a) [47%N]), g. split.
      * apply mt_cls_fwd. exists 47%N. split; [|split; [now apply lit_cls_mem|auto]]. eapply (fwd_after (after x a) [47%N]). cbn [after suf]. rewrite F1, <- app_assoc, skipn_app, skipn_all, Nat.sub_diag. reflexivity.
      * apply mt_rep_cls. exists b. split; [|split; [now apply nsp_all|split; [destruct b; cbn; [congruence|lia]|cbn; auto]]].
        unfold fwd, after. cbn [pos pre suf]. rewrite F1, F2, F3. rewrite <- !app_assoc, skipn_app, skipn_all, Nat.sub_diag. cbn [app skipn length rev]. rewrite !app_length, rev_app_distr. cbn [length rev app].
        split; [reflexivity|]. split; [rewrite <- !app_assoc; reflexivity|unfold str, ch in *; lia].
Qed.
Lemma hdl_mt_iff a b : (exists x' g', mt (rx_re re_hdl) (here a b) [] x' g') <-> exists t i r, b = t ++ r /\ handle t i.
Proof.
  rewrite hdl_shape. split.
  - intros (x' & g' & M). apply mt_cat_iff in M as (y & h & M1 & M). apply prefix_mt in M1 as (p & Fp & P & _). apply mt_grp_iff in M as (h' & M & _). apply id_mt in M as (i & Fi & I & _).
    apply fwd_here_iff in Fp as (t & -> & ->). apply fwd_here_iff in Fi as (r & -> & _). exists (p ++ i), i, r. split; [now rewrite app_assoc|]. exists p. auto.
  - intros (t & i & r & -> & p & -> & P & I). rewrite <- app_assoc.
    destruct (prefix_mt_ex p (here a (p ++ i ++ r)) (here (a ++ p) (i ++ r)) []) as (g' & M); auto; [apply fwd_here|].
    eexists. eexists. apply mt_cat_iff. eexists. eexists. split; [exact M|]. apply mt_grp_iff. eexists. split; [|reflexivity]. apply id_mt. exists i. split; [apply fwd_here|auto].
Qed.
Lemma m_cat a b x g k : m (Cat a b) x g k = m a x g (fun x g => m b x g k). Proof. reflexivity. Qed.
Lemma m_grp i a x g k : m (Grp i a) x g k = m a x g (fun x' g' => k x' ((i, (pos x, pos x')) :: g')). Proof. reflexivity. Qed.
Lemma m_rep mn a x g k : m (Rep true mn None a) x g k = rep_loop true mn None a k (S (mn + length (suf x))) 0 x g. Proof. reflexivity. Qed.
(** a match: the identifier goes on up to white space *)
Definition upto_blank (r : str) : Prop := match r with c :: _ => is_space c = true | [] => True end.
Lemma run_hdl s x o : at_ s x -> run (rx_re re_hdl) false x = Some o ->
  exists a t i r, s = a ++ t ++ r /\ pos x = length a /\ m_start o = length a /\ m_end o = length a + length t /\ g_str s o 2 = i /\ handle t i /\ upto_blank r.
Proof.
  intros A R. unfold run in R. destruct (m _ x [] _) as [[z g]|] eqn:Q; [|discriminate]. injection R as <-. cbn [andb] in Q. rewrite hdl_shape, m_cat in Q.
  apply m_sound in Q as (y & h & M1 & Q). apply prefix_mt in M1 as (p & Fp & P & Lg). rewrite m_grp in Q.
  pose proof Q as Q0. apply m_sound in Q0 as (z' & h' & M & E). injection E as -> <-.
  apply id_mt in M as (i & Fi & I & ->). unfold hdl_id_re in Q. rewrite m_cat in Q.
  apply m_sound in Q as (y1 & h1 & _ & Q). rewrite m_cat in Q. apply m_sound in Q as (y2 & h2 & _ & Q). rewrite m_rep in Q.
  apply rep_greedy_some in Q as (x' & E & St); [|discriminate|lia]. injection E as -> _.
  destruct (at_is_here _ _ A) as (a & b & -> & -> & _). apply fwd_here_iff in Fp as (t & -> & ->). apply fwd_here_iff in Fi as (r & -> & ->).
  exists a, (p ++ i), i, r. cbn [here pos m_start m_end]. rewrite !app_length. split; [now rewrite <- app_assoc|]. split; auto. split; auto. split; [lia|]. split.
  - unfold g_str, g_text, g_span. cbn [Nat.eqb m_groups lookup_group here pos]. rewrite app_assoc. unfold slice.
    replace (length a + length p + length i - (length a + length p)) with (length i) by lia. rewrite <- app_length. rewrite skipn_app, skipn_all, Nat.sub_diag. cbn [skipn app].
    rewrite firstn_app, firstn_all, Nat.sub_diag. cbn. apply app_nil_r.
  - split; [exists p; auto|]. unfold upto_blank, stops in *. cbn [here suf] in St. destruct r as [|c r]; auto. rewrite nsp_mem in St. now apply negb_false_iff in St.
Qed.

(** ** The pieces of a text *)
Definition no_handle (s : str) : Prop := forall a t i b, s = a ++ t ++ b -> ~ handle t i.
(** the text is cut at its handles: what stands before them, then the handles with the texts behind them *)
Definition pieces (s before : str) (ps : list (str * str * str)) : Prop :=
  s = before ++ concat (map (fun p => fst (fst p) ++ snd p) ps) /\ no_handle before
  /\ Forall (fun p => handle (fst (fst p)) (snd (fst p)) /\ no_handle (snd p) /\ upto_blank (snd p)) ps.
Definition piece_of (s : str) (o : mobj) (next : nat) : str * str * str := (slice (m_start o) (m_end o) s, g_str s o 2, slice (m_end o) next s).
Fixpoint cut_pieces (s : str) (ms : list mobj) : list (str * str * str) :=
  match ms with
  | [] => []
  | o :: t => piece_of s o (match t with o' :: _ => m_start o' | [] => length s end) :: cut_pieces s t
  end.
Definition first_start (s : str) (ms : list mobj) : nat := match ms with o :: _ => m_start o | [] => length s end.

Lemma slice_in (s : str) p q a t : slice p q s = a ++ t -> p <= q -> s = firstn p s ++ a ++ t ++ skipn q s.
Proof.
  intros E L. rewrite <- (firstn_skipn p s) at 1. f_equal. rewrite <- (slice_skipn s p q L), E. now rewrite <- app_assoc.
Qed.
Section Pieces.
Context (s : str).
Notation ms := (re_finditer (rx_re re_hdl) s).
Lemma ms_facts o : In o ms -> m_start o < m_end o /\ m_end o <= length s /\ handle (slice (m_start o) (m_end o) s) (g_str s o 2) /\ upto_blank (skipn (m_end o) s).
Proof.
  intros I. apply finditer_run in I as (x & A & R); [|vm_compute; lia]. apply (run_hdl s) in R as (a & t & i & r & E & _ & S1 & S2 & G & H & U); auto.
  assert (t <> []) as Nt. { destruct H as (p & -> & [[<-|[<-|[]]]|(h & d & l & -> & _)] & _); discriminate. }
  assert (length t <> 0) by (destruct t; cbn; congruence). rewrite S1, S2, G. rewrite E at 1. rewrite !app_length. split; [lia|]. split; [lia|].
  unfold slice. rewrite E. rewrite skipn_app, skipn_all, Nat.sub_diag. cbn [app skipn]. replace (length a + length t - length a) with (length t) by lia.
  rewrite firstn_app, firstn_all, Nat.sub_diag. cbn [firstn]. rewrite app_nil_r. split; auto.
  rewrite skipn_app, skipn_all2 by lia. replace (length a + length t - length a) with (length t) by lia. cbn [app]. rewrite skipn_app, skipn_all, Nat.sub_diag. exact U.
Qed.
Lemma kept_no_handle p q : p <= q -> q <= length s -> (forall o, In o ms -> m_end o <= p \/ q <= m_start o) -> no_handle (slice p q s).
Proof.
  intros L Lq Out a t i b E H. assert (t <> []) as Nt. { destruct H as (u & -> & [[<-|[<-|[]]]|(h & d & l & -> & _)] & _); discriminate. }
  pose proof (slice_in s p q a (t ++ b) E L) as Es.
  destruct (hdl_mt_iff (firstn p s ++ a) ((t ++ b) ++ skipn q s)) as [_ X]. destruct X as (x' & g' & M).
  { exists t, i, (b ++ skipn q s). split; [now rewrite <- app_assoc|auto]. }
  destruct (finditer_complete _ s _ _ _ _ hdl_productive ltac:(rewrite <- app_assoc; exact Es) M) as (o & I & C1 & C2). destruct (ms_facts o I) as (F1 & F2 & _). specialize (Out o I).
  rewrite app_length, firstn_length_le in C1, C2 by lia.
  assert (length a + length t <= q - p) as La. { apply (f_equal (@length _)) in E. rewrite !app_length in E. unfold slice in E. rewrite firstn_length in E. unfold str, ch in *. lia. }
  assert (length t <> 0) by (destruct t; cbn; congruence). lia.
Qed.
Lemma cut_concat : forall l p, chain p l (length s) -> skipn p s = slice p (first_start s l) s ++ concat (map (fun x => fst (fst x) ++ snd x) (cut_pieces s l)).
Proof.
  induction l as [|o l IH]; cbn [chain first_start cut_pieces map concat]; intros p C.
  - rewrite app_nil_r. unfold slice. rewrite firstn_all2; auto. rewrite skipn_length. lia.
  - destruct C as (C1 & C2 & C3). unfold piece_of. cbn [fst snd]. specialize (IH _ C3).
    change (match l with [] => length s | o' :: _ => m_start o' end) with (first_start s l). rewrite <- app_assoc, <- IH, slice_skipn, slice_skipn by auto. reflexivity.
Qed.
Lemma cut_forall : forall l done p, ms = done ++ l -> chain p l (length s) -> Forall (fun o => m_end o <= p) done ->
  Forall (fun x => handle (fst (fst x)) (snd (fst x)) /\ no_handle (snd x) /\ upto_blank (snd x)) (cut_pieces s l)
  /\ (forall o, In o l -> first_start s l <= m_start o) /\ p <= first_start s l <= length s.
Proof.
  induction l as [|o l IH]; intros done p E C D; cbn [cut_pieces first_start].
  - cbn in C. split; [constructor|]. split; [easy|]. lia.
  - destruct C as (C1 & C2 & C3). assert (In o ms) as I by (rewrite E; apply in_app_iff; right; now left). destruct (ms_facts o I) as (F1 & F2 & F3 & F4).
    destruct (IH (done ++ [o]) (m_end o)) as (I1 & I2 & I3).
    { rewrite <- app_assoc. exact E. } { auto. }
    { apply Forall_app. split; [|repeat constructor]. eapply Forall_impl; [|exact D]. cbn. intros. lia. }
    change (match l with [] => length s | o' :: _ => m_start o' end) with (first_start s l). split; [|split].
    + constructor; auto. unfold piece_of. cbn [fst snd]. split; auto. split.
      * apply kept_no_handle; try lia. intros o' I'. rewrite E in I'. apply in_app_iff in I' as [I'|[<-|I']].
        -- left. rewrite Forall_forall in D. specialize (D _ I'). lia.
        -- left. lia.
        -- right. auto.
      * unfold upto_blank, slice in *. destruct (skipn (m_end o) s) as [|c r]; [now rewrite firstn_nil|]. destruct (first_start s l - m_end o); cbn; auto.
    + intros o' [<-|I']; auto. specialize (I2 _ I'). lia.
    + lia.
Qed.
Lemma pieces_ok : pieces s (firstn (first_start s ms) s) (cut_pieces s ms).
Proof.
  pose proof (proj2 (finditer_ok (rx_re re_hdl) s)) as C. destruct (cut_forall ms [] 0 eq_refl C (Forall_nil _)) as (F1 & F2 & F3). split; [|split; auto].
  - pose proof (cut_concat ms 0 C) as E. unfold slice in E at 1. cbn [skipn] in E. rewrite Nat.sub_0_r in E. exact E.
  - replace (firstn (first_start s ms) s) with (slice 0 (first_start s ms) s) by (unfold slice; cbn [skipn]; now rewrite Nat.sub_0_r). apply kept_no_handle; try lia. intros o I. right. auto.
Qed.
End Pieces.

(** ** Insertion in the list of elements *)
Definition hdl_of (p : str * str * str) : el := mkel HDL (snd p) [(Khdl_id, VS (snd (fst p)))].
Definition expanded (e : el) (l : list el) : Prop := exists before ps, pieces (e_misc e) before ps /\ l = set_misc before e :: map hdl_of ps.
Definition expand (e : el) : list el :=
  let ms := re_finditer (rx_re re_hdl) (e_misc e) in set_misc (firstn (first_start (e_misc e) ms) (e_misc e)) e :: map hdl_of (cut_pieces (e_misc e) ms).
Lemma expand_ok e : expanded e (expand e).
Proof. do 2 eexists. split; [apply pieces_ok|reflexivity]. Qed.
Lemma el_eqb_refl e : el_eqb e e = true. Proof. destruct (el_eqb_spec e e); congruence. Qed.
Lemma index_of_app e A B : (forall x, In x A -> x <> e) -> index_of e (A ++ e :: B) = Some (length A).
Proof.
  induction A as [|x A IH]; intros H; cbn [app index_of length]; [now rewrite el_eqb_refl|]. destruct (el_eqb_spec e x) as [->|_]; [exfalso; apply (H x); [now left|auto]|].
  rewrite IH; auto. intros y I. apply H. now right.
Qed.
Lemma index_of_in e A B : In e A -> exists A1 A2, A = A1 ++ e :: A2 /\ index_of e (A ++ B) = Some (length A1).
Proof.
  induction A as [|x A IH]; intros I; [easy|]. cbn [app index_of]. destruct (el_eqb_spec e x) as [->|N]; [exists [], A; auto|].
  destruct I as [->|I]; [congruence|]. apply IH in I as (A1 & A2 & -> & E). exists (x :: A1), A2. rewrite E. auto.
Qed.
Lemma update_at_app {T} (A : list T) e B f : update_at (length A) f (A ++ e :: B) = A ++ f e :: B.
Proof. induction A as [|x A IH]; cbn; auto. now rewrite IH. Qed.
Lemma nth_app {T} (A : list T) e B : nth_error (A ++ e :: B) (length A) = Some e.
Proof. induction A as [|x A IH]; cbn; auto. Qed.
Lemma el_dec (x y : el) : {x = y} + {x <> y}.
Proof. destruct (el_eqb_spec x y); auto. Qed.
(** one handle: it is put behind the first element equal to the rest of its own *)
Lemma insert_step A e B o : let e' := set_misc (firstn (m_start o) (e_misc e)) e in
  let h := mkel HDL (skipn (m_end o) (e_misc e)) [(Khdl_id, VS (g_str (e_misc e) o 2))] in
  exists A' B', hdl_insert (A ++ e :: B, length A) o = (A' ++ e' :: B' ++ B, length A')
   /\ (A' = A /\ B' = [h] \/ B' = [] /\ In e' A /\ Permutation A' (h :: A)) /\ length A' + length B' = length A + 1.
Proof.
  intros e' h. unfold hdl_insert. rewrite nth_app, update_at_app. fold e'. change (hdl_el (g_str (e_misc e) o 2) (skipn (m_end o) (e_misc e))) with h.
  destruct (in_dec el_dec e' A) as [I|N].
  - destruct (index_of_in e' A (e' :: B) I) as (A1 & A2 & E & ->). exists (A1 ++ e' :: h :: A2), []. rewrite E. unfold insert_at.
    rewrite !app_length. cbn [length]. assert (length A1 <? length A1 + S (length A2) = true) as -> by (apply Nat.ltb_lt; lia).
    split; [|split; [right; split; auto; split; [apply in_app_iff; right; now left|]|lia]].
    + f_equal; [|lia]. replace (A1 ++ e' :: A2) with ((A1 ++ [e']) ++ A2) by now rewrite <- app_assoc. replace (S (length A1)) with (length (A1 ++ [e'])) by (rewrite app_length; cbn; lia).
      rewrite <- (app_assoc (A1 ++ [e'])), firstn_app, firstn_all, Nat.sub_diag, skipn_app, skipn_all, Nat.sub_diag. cbn [firstn skipn app]. rewrite app_nil_r, <- !app_assoc. reflexivity.
    + replace (A1 ++ e' :: h :: A2) with ((A1 ++ [e']) ++ h :: A2) by now rewrite <- app_assoc. replace (h :: A1 ++ e' :: A2) with (h :: (A1 ++ [e']) ++ A2) by now rewrite <- app_assoc.
      symmetry. apply Permutation_middle.
  - rewrite index_of_app by (intros x I ->; auto). exists A, [h]. rewrite Nat.ltb_irrefl. split; [|split; [left; auto|cbn; lia]]. f_equal. unfold insert_at.
    replace (S (length A)) with (length (A ++ [e'])) by (rewrite app_length; cbn; lia). replace (A ++ e' :: B) with ((A ++ [e']) ++ B) by now rewrite <- app_assoc.
    rewrite firstn_app, firstn_all, Nat.sub_diag, skipn_app, skipn_all, Nat.sub_diag. cbn [firstn skipn app]. rewrite app_nil_r, <- !app_assoc. reflexivity.
Qed.
Lemma group_within (s : str) o n : In o (re_finditer (rx_re re_hdl) s) -> m_end o <= n -> g_str (firstn n s) o 2 = g_str s o 2.
Proof.
  intros I L. pose proof (proj1 (finditer_ok (rx_re re_hdl) s)) as F. rewrite Forall_forall in F. specialize (F _ I). unfold g_str, g_text. destruct (g_span o 2) as [[a b]|] eqn:G; auto.
  destruct (obj_group s _ o 2 a b F eq_refl ltac:(lia) G) as (q & y & gy & y' & gy' & _ & _ & _ & _ & _ & _ & _ & _ & L3). unfold slice. rewrite skipn_firstn_comm, firstn_firstn. f_equal. lia.
Qed.
Lemma cut_length s l : length (cut_pieces s l) = length l.
Proof. induction l; cbn; auto. Qed.
Lemma set_misc_set a b e : set_misc a (set_misc b e) = set_misc a e. Proof. reflexivity. Qed.
Lemma fold_insert e A B : let s := e_misc e in forall l done p, re_finditer (rx_re re_hdl) s = done ++ l -> chain p l (length s) ->
  exists A' B', fold_right (fun o st => hdl_insert st o) (A ++ e :: B, length A) l = (A' ++ set_misc (firstn (first_start s l) s) e :: B' ++ B, length A')
   /\ Permutation (A' ++ B') (A ++ map hdl_of (cut_pieces s l)) /\ length A' + length B' = length A + length l
   /\ ((forall x n, In x A -> x <> set_misc (firstn n s) e) -> A' = A /\ B' = map hdl_of (cut_pieces s l)).
Proof.
  intros s. induction l as [|o l IH]; intros done p E C; cbn [fold_right cut_pieces map].
  - exists A, []. cbn [app first_start length]. rewrite firstn_all. split; [now destruct e|]. split; [auto|]. split; [lia|auto].
  - destruct C as (C1 & C2 & C3). assert (In o (re_finditer (rx_re re_hdl) s)) as I by (rewrite E; apply in_app_iff; right; now left).
    destruct (ms_facts s o I) as (F1 & F2 & _). destruct (IH (done ++ [o]) (m_end o)) as (A' & B' & -> & P & L & D); [now rewrite <- app_assoc|auto|].
    assert (m_end o <= first_start s l <= length s) as Lf. { clear -C3 F2. destruct l as [|o' l]; cbn [first_start chain] in *; [lia|]. destruct C3 as (? & ? & C). split; auto. assert (forall r p, chain p r (length s) -> p <= length s). { induction r; cbn; intros; [lia|]. destruct H1 as (? & ? & ?). specialize (IHr _ H3). lia. } apply H1 in C. lia. }
    set (x := set_misc (firstn (first_start s l) s) e). assert (e_misc x = firstn (first_start s l) s) as Ex by reflexivity.
    destruct (insert_step A' x (B' ++ B) o) as (A2 & B2 & E2 & P2 & L2). rewrite Ex in E2, P2.
    assert (mkel HDL (skipn (m_end o) (firstn (first_start s l) s)) [(Khdl_id, VS (g_str (firstn (first_start s l) s) o 2))] = hdl_of (piece_of s o (first_start s l))) as Eh.
    { unfold hdl_of, piece_of, slice. cbn [fst snd]. rewrite skipn_firstn_comm, group_within by (auto; lia). reflexivity. }
    rewrite Eh in P2. change (match l with [] => length s | o' :: _ => m_start o' end) with (first_start s l).
    assert (set_misc (firstn (m_start o) (firstn (first_start s l) s)) x = set_misc (firstn (m_start o) s) e) as Es. { unfold x. rewrite set_misc_set, firstn_firstn. do 2 f_equal. lia. }
    rewrite Es in E2, P2. exists A2, (B2 ++ B'). rewrite E2. cbn [first_start length]. split; [now rewrite <- app_assoc|]. split; [|split].
    + destruct P2 as [[-> ->]|(-> & _ & P2)]; cbn [app].
      * rewrite <- !Permutation_middle. now constructor.
      * rewrite P2, <- Permutation_middle. cbn [app]. now constructor.
    + rewrite app_length. lia.
    + intros N. destruct (D N) as [-> ->]. destruct P2 as [[-> ->]|(_ & P2 & _)]; auto. exfalso. exact (N _ _ P2 eq_refl).
Qed.
Lemma from_ok : forall todo l p A R, l = A ++ R -> length A = p -> length R = todo ->
  Permutation (look_for_hdl_from todo l p) (A ++ concat (map expand R)).
Proof.
  induction todo as [|t IH]; intros l p A R -> <- L; cbn [look_for_hdl_from].
  - destruct R; [|easy]. cbn. auto.
  - destruct R as [|e R]; [easy|]. rewrite nth_app. rewrite fold_left_rev_right with (f := fun o st => hdl_insert st o) || rewrite <- fold_left_rev_right, rev_involutive.
    destruct (fold_insert e A R (re_finditer (rx_re re_hdl) (e_misc e)) [] 0 eq_refl (proj2 (finditer_ok _ _))) as (A' & B' & E & P & L2 & _).
    cbn zeta in E. rewrite E. cbn [map concat]. rewrite rev_length. rewrite (IH _ _ ((A' ++ set_misc (firstn (first_start (e_misc e) (re_finditer (rx_re re_hdl) (e_misc e))) (e_misc e)) e :: B')) R).
    + unfold expand at 2. rewrite !app_assoc. apply Permutation_app_tail. rewrite <- !Permutation_middle. constructor. exact P.
    + now rewrite <- app_assoc.
    + rewrite app_length. cbn [length]. lia.
    + cbn in L. lia.
Qed.
Lemma look_for_hdl_perm l : exists ls, Forall2 expanded l ls /\ Permutation (look_for_hdl l) (concat ls).
Proof.
  exists (map expand l). split; [induction l; cbn; constructor; auto using expand_ok|]. apply (from_ok _ l 0 [] l); auto.
Qed.

(** in order when nothing is alike *)
Definition alike (x y : el) : Prop := set_misc [] x = set_misc [] y.
Lemma alike_sym x y : alike x y -> alike y x. Proof. unfold alike. congruence. Qed.
Lemma expand_alike e x : In x (expand e) -> alike x e \/ is_type HDL x = true.
Proof.
  intros [<-|I]; [now left|]. right. apply in_map_iff in I as (p & <- & _). reflexivity.
Qed.
Lemma from_order : forall todo l p A R, l = A ++ R -> length A = p -> length R = todo -> 
  (forall e, In e R -> is_type HDL e = false) -> ForallOrdPairs (fun x y => ~ alike x y) R ->
  (forall x e, In x A -> In e R -> ~ alike x e) ->
  look_for_hdl_from todo l p = A ++ concat (map expand R).
Proof.
  induction todo as [|t IH]; intros l p A R -> <- L H1 H2 H3; cbn [look_for_hdl_from].
  - destruct R; [|easy]. cbn. auto.
  - destruct R as [|e R]; [easy|]. rewrite nth_app. rewrite <- fold_left_rev_right, rev_involutive.
    destruct (fold_insert e A R (re_finditer (rx_re re_hdl) (e_misc e)) [] 0 eq_refl (proj2 (finditer_ok _ _))) as (A' & B' & E & P & L2 & D).
    destruct D as [-> ->]. { intros x n I ->. apply (H3 _ e I); [now left|reflexivity]. }
    cbn zeta in E. rewrite E. cbn [map concat]. rewrite rev_length. rewrite (IH _ _ (A ++ expand e) R).
    + now rewrite <- app_assoc.
    + unfold expand. now rewrite <- app_assoc.
    + rewrite app_length. unfold expand. cbn [length]. rewrite map_length, cut_length. lia.
    + cbn in L. lia.
    + intros; apply H1. now right.
    + now inversion H2.
    + intros x y Ix Iy. apply in_app_iff in Ix as [Ix|Ix]; [apply H3; auto; now right|]. intros K. apply expand_alike in Ix as [Ix|Ix].
      * inversion H2 as [|? ? F]. subst. rewrite Forall_forall in F. apply (F _ Iy). unfold alike in *. congruence.
      * specialize (H1 y ltac:(now right)). unfold alike in K. destruct x, y. unfold set_misc, is_type in *. cbn in *. injection K as K1 K2. subst. congruence.
Qed.
Lemma look_for_hdl_order l : (forall e, In e l -> is_type HDL e = false) -> ForallOrdPairs (fun x y => ~ alike x y) l ->
  exists ls, Forall2 expanded l ls /\ look_for_hdl l = concat ls.
Proof.
  intros H1 H2. exists (map expand l). split; [clear; induction l; cbn; constructor; auto using expand_ok|]. apply (from_order _ l 0 [] l); auto.
Qed.

(** ** Addresses that are handles *)
Definition begins_with_handle (u i r : str) : Prop := exists t, u = t ++ r /\ handle t i /\ upto_blank r.
Definition url_treated (e e' : el) : Prop :=
  match e_type e with
  | URL => exists u, get Kurl_string e = Some (VS u) /\
    ((forall i r, ~ begins_with_handle u i r) /\ e' = e
     \/ (exists i r, begins_with_handle u i r /\ e_type e' = HDL /\ e_misc e' = e_misc e /\ get Khdl_id e' = Some (VS i)
         /\ get Kurl_string e' = None /\ get Kurl_desc e' = None /\ forall k, ~ In k [Khdl_id; Kurl_string; Kurl_desc] -> get k e' = get k e))
  | _ => e' = e
  end.
Lemma url_el_ok e e' : hdl_url_el e = Ok e' -> url_treated e e'.
Proof.
  unfold hdl_url_el, url_treated. intros H. destruct (is_type URL e) eqn:T.
  - unfold is_type in T. destruct (e_type e) eqn:Te; try discriminate. clear T. unfold get_str in H. destruct (get Kurl_string e) as [[u| | | |]|] eqn:G; try discriminate. cbn [bind] in H. exists u. split; auto.
    destruct (re_match (rx_re re_hdl) u) as [o|] eqn:M; injection H as <-; [right|left].
    + unfold re_match in M. apply (run_hdl u) in M as (a & t & i & r & E & P & _ & _ & Gi & Hh & U); [|apply at_init]. cbn in P. destruct a; [|discriminate]. cbn [app] in E. exists i, r. split; [exists t; auto|].
      split; [reflexivity|]. split; [reflexivity|]. rewrite Gi. rewrite !get_del. cbn [key_eqb]. split; [change (get Khdl_id (set_str Khdl_id i (set_type HDL e)) = Some (VS i)); apply get_set_str|]. split; [reflexivity|]. split; [reflexivity|].
      intros k N. rewrite !get_del. destruct (key_eqb_spec k Kurl_string) as [->|]; [exfalso; apply N; cbn; auto|]. destruct (key_eqb_spec k Kurl_desc) as [->|]; [exfalso; apply N; cbn; auto|].
      rewrite get_set_str_other by (intros ->; apply N; cbn; auto). reflexivity.
    + split; auto. intros i r (t & E & Hh & _). assert (exists o, re_match (rx_re re_hdl) u = Some o) as (o & X); [|congruence].
      apply re_match_iff; [reflexivity|]. change (init u) with (here [] u). apply hdl_mt_iff. eauto.
  - injection H as <-. unfold is_type in T. destruct (e_type e); auto. discriminate.
Qed.
Lemma hdl_urls_ok l l' : look_for_hdl_urls l = Ok l' -> Forall2 url_treated l l'.
Proof. intros H. apply mapM_ok in H. induction H; constructor; auto using url_el_ok. Qed.
Lemma hdl_urls_total l : (forall e, In e l -> e_type e = URL -> exists u, get Kurl_string e = Some (VS u)) -> exists l', look_for_hdl_urls l = Ok l'.
Proof.
  intros H. destruct (mapM_total hdl_url_el (fun _ _ => True) l) as (l' & E & _); eauto. apply Forall_forall. intros e I. unfold hdl_url_el. destruct (is_type URL e) eqn:T; [|eauto].
  apply is_type_true in T. destruct (H e I T) as (u & G). unfold get_str. rewrite G. cbn [bind]. destruct (re_match _ u); eauto.
Qed.

(** ** Quoted titles of books *)
Definition book_el (au ti y : str) (x : el) : Prop := e_type x = BOOK /\ e_misc x = [] /\ get Kauthors x = Some (VS au) /\ get Ktitle x = Some (VS ti) /\ get Kyear x = Some (VS (strip_chars (py ";") y))
  /\ forall k, ~ In k [Kauthors; Ktitle; Kyear] -> get k x = None.
Definition book_looked_up (books : books_kb) (l l' : list el) : Prop :=
  (forall e, In e l -> e_type e <> QUOTED) /\ l' = l
  \/ exists a q b t, l = a ++ q :: b /\ (forall e, In e a -> e_type e <> QUOTED) /\ e_type q = QUOTED /\ get Ktitle q = Some (VS t)
     /\ (assoc_str (upper t) books = None /\ l' = l
         \/ exists au ti y more x, assoc_str (upper t) books = Some (au :: ti :: y :: more) /\ book_el au ti y x /\ l' = a ++ b ++ [x]).
Lemma find_first {T} (f : T -> bool) l x : find f l = Some x -> exists a b, l = a ++ x :: b /\ f x = true /\ forall y, In y a -> f y = false.
Proof.
  induction l as [|y l IH]; cbn; [discriminate|]. destruct (f y) eqn:F; intros H.
  - injection H as ->. exists [], l. split; auto. split; auto. easy.
  - apply IH in H as (a & b & -> & Fx & N). exists (y :: a), b. split; auto. split; auto. intros z [<-|I]; auto.
Qed.
Lemma remove_first_app q a b : (forall e, In e a -> e <> q) -> remove_first q (a ++ q :: b) = a ++ b.
Proof.
  induction a as [|e a IH]; intros N; cbn [app remove_first]; [now rewrite el_eqb_refl|]. destruct (el_eqb_spec q e) as [->|_]; [exfalso; apply (N e); [now left|auto]|]. f_equal. apply IH. intros; apply N; now right.
Qed.
Lemma books_ok books l l' : look_for_books books l = Ok l' -> book_looked_up books l l'.
Proof.
  unfold look_for_books, first_of_type. intros H. destruct (find (is_type QUOTED) l) as [q|] eqn:F.
  - right. apply find_first in F as (a & b & -> & T & N). apply is_type_true in T. unfold get_str in H. destruct (get Ktitle q) as [[t| | | |]|] eqn:G; try discriminate. cbn [bind] in H.
    exists a, q, b, t. split; auto. split; [intros e I; apply is_type_false; auto|]. split; auto. split; auto.
    destruct (assoc_str (upper t) books) as [row|] eqn:R; [right|left; split; congruence]. destruct row as [|au [|ti [|y more]]]; try discriminate. cbn [nth_error] in H. injection H as <-.
    do 5 eexists. split; [reflexivity|]. split; cycle 1.
    + rewrite <- app_assoc. cbn [app]. rewrite remove_first_app; [reflexivity|]. intros e I ->. specialize (N q I). apply is_type_false in N. congruence.
    + split; [reflexivity|]. split; [reflexivity|]. split; [reflexivity|]. split; [reflexivity|]. split; [reflexivity|]. intros k K. rewrite !get_set_str_other by (intros ->; apply K; cbn; auto). reflexivity.
  - left. injection H as <-. split; auto. intros e I. apply is_type_false. exact (find_none _ _ F e I).
Qed.
Lemma books_total books l : (forall e, In e l -> e_type e = QUOTED -> exists t, get Ktitle e = Some (VS t) /\ forall row, assoc_str (upper t) books = Some row -> 3 <= length row) ->
  exists l', look_for_books books l = Ok l'.
Proof.
  intros H. unfold look_for_books, first_of_type. destruct (find (is_type QUOTED) l) as [q|] eqn:F; [|eauto]. apply find_some in F as (I & T). apply is_type_true in T.
  destruct (H q I T) as (t & G & R). unfold get_str. rewrite G. cbn [bind]. destruct (assoc_str (upper t) books) as [row|]; [|eauto]. specialize (R _ eq_refl). destruct row as [|? [|? [|? ?]]]; cbn in R; try lia. cbn [nth_error]. eauto.
Qed.
