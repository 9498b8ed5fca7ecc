(** The collaborations of a line (C61). *)
From Coq Require Import List Arith NArith Bool String Lia.
From Verif Require Import PyStr ListFacts Regex RegexMeta RegexLang RegexParse CaptureLang Patterns TaggerProofs Kbs Tag KbFit UrlProofs AuthorProofs StripProofs CollabGrammar.
Import ListNotations.
Local Open Scope nat_scope.
Local Notation length := List.length.

(** ** Replacing in a line what is found in another text *)
Lemma sub_replaced r (f : mobj -> str) (P : str -> str -> str -> Prop) (R : str -> str -> str -> str -> Prop) whole line : fair r = true -> 1 <= minlen r -> length whole = length line ->
  (forall a w b, P a w b -> exists c, rd r a w b c) ->
  (forall a w b o, whole = a ++ w ++ b -> run r false (here a (w ++ b)) = Some o -> m_start o = length a -> m_end o = length a + length w -> R a w b (f o)) ->
  replaced P R [] whole line (sub_from line f 0 (re_finditer r whole)).
Proof.
  intros F Mn Len HP HR.
  enough (forall n s sl k kl a al, length s <= n -> whole = a ++ k ++ s -> line = al ++ kl ++ sl -> length a = length al -> length k = length kl -> length s = length sl ->
    (forall p q, k = p ++ q -> q <> [] -> run r false (here (a ++ p) (q ++ s)) = None) ->
    replaced P R a (k ++ s) (kl ++ sl) (sub_from line f (length a) (iter_at r (length (a ++ k)) (rev (a ++ k)) s 0))) as H.
  { apply (H (length whole) whole line [] [] [] []); auto. intros p q E N. destruct p; [cbn in E; congruence|discriminate]. }
  assert (forall a, run r false (here a []) = None) as Z.
  { intros a. destruct (run r false (here a [])) as [o|] eqn:E; auto. apply run_rd in E as (w & b & c & E & Rd & _); auto. apply rd_min in Rd; auto. destruct w; [cbn in Rd; lia|discriminate]. }
  induction n as [|n IH]; intros s sl k kl a al L W Wl La Lk Ls K.
  - destruct s; [|cbn in L; lia]. destruct sl; [|discriminate]. cbn [iter_at]. change (mkst (length (a ++ k)) (rev (a ++ k)) []) with (here (a ++ k) []). rewrite Z. cbn [sub_from]. rewrite Wl, La, skipn_app, skipn_all, Nat.sub_diag. cbn [app skipn]. apply replaced_end; [rewrite !app_length; cbn; lia|].
    intros p w q E Hp. rewrite app_nil_r in E. apply HP in Hp as (c & Hp). destruct (w ++ q) as [|x y] eqn:Ewq.
    + apply app_eq_nil in Ewq as (-> & ->). apply rd_min in Hp; auto. cbn in Hp. lia.
    + revert Hp. apply run_not; auto. specialize (K p (x :: y) E ltac:(discriminate)). rewrite app_nil_r in K. now rewrite Ewq.
  - destruct s as [|c t]; [apply (IH [] sl k kl a al); auto; cbn; lia|]. cbn [iter_at]. change (mkst (length (a ++ k)) (rev (a ++ k)) (c :: t)) with (here (a ++ k) (c :: t)). destruct (run r false (here (a ++ k) (c :: t))) as [o|] eqn:E.
    + pose proof E as E0. apply run_rd in E0 as (w & b & cs & Ew & Rd & S1 & S2 & _); auto. pose proof (rd_min _ _ _ _ _ F Rd) as Lw. rewrite S2. destruct (Nat.eqb_spec (length (a ++ k) + length w) (length (a ++ k))) as [Q|_]; [lia|].
      destruct w as [|x w]; [cbn in Lw; lia|]. cbn [app] in Ew. injection Ew as <- ->. cbn [length]. replace (length (a ++ k) + S (length w) - length (a ++ k) - 1) with (length w) by lia. rewrite iter_skip.
      cbn [sub_from]. rewrite S1, S2. change (k ++ c :: w ++ b) with (k ++ (c :: w) ++ b).
      assert (slice (length a) (length (a ++ k)) line = kl) as ->. { rewrite app_length, Wl, La, Lk. apply slice_mid. }
      assert (exists wl bl, sl = wl ++ bl /\ length (c :: w) = length wl /\ length b = length bl) as (wl & bl & -> & Lwl & Lbl).
      { exists (firstn (S (length w)) sl), (skipn (S (length w)) sl). cbn [length] in Ls. rewrite app_length in Ls. rewrite firstn_skipn, firstn_length, skipn_length. cbn [length]. split; auto. split; lia. }
      constructor; auto.
      * intros p q w' b' Ek N Eq Hp. apply HP in Hp as (c' & Hp). revert Hp. apply run_not; auto. rewrite <- Eq. apply K; auto.
      * apply HR; auto. rewrite W. now rewrite <- app_assoc.
      * replace (length (a ++ k) + length (c :: w)) with (length (a ++ k ++ c :: w)) by (rewrite !app_length; cbn; lia).
        replace (S (length (a ++ k)) + length w) with (length ((a ++ k ++ c :: w) ++ [])) by (rewrite !app_length; cbn; lia).
        replace (rev w ++ c :: rev (a ++ k)) with (rev ((a ++ k ++ c :: w) ++ [])) by (rewrite app_nil_r, !rev_app_distr; cbn; now rewrite <- !app_assoc).
        apply (IH b bl [] [] (a ++ k ++ c :: w) (al ++ kl ++ wl)); auto; [cbn in L; rewrite app_length in L; lia|rewrite W; cbn [app]; now rewrite <- !app_assoc|rewrite Wl; cbn [app]; now rewrite <- !app_assoc|rewrite !app_length; lia|]. intros p q Ep N. destruct p; [cbn in Ep; congruence|discriminate].
    + destruct sl as [|cl tl]; [discriminate|]. replace (S (length (a ++ k))) with (length (a ++ k ++ [c])) by (rewrite !app_length; cbn; lia). replace (c :: rev (a ++ k)) with (rev (a ++ k ++ [c])) by (rewrite !rev_app_distr; reflexivity).
      replace (k ++ c :: t) with ((k ++ [c]) ++ t) by (now rewrite <- app_assoc). replace (kl ++ cl :: tl) with ((kl ++ [cl]) ++ tl) by (now rewrite <- app_assoc). apply (IH t tl (k ++ [c]) (kl ++ [cl]) a al); auto; [cbn in L; lia|rewrite W; now rewrite <- app_assoc|rewrite Wl; now rewrite <- app_assoc|rewrite !app_length; cbn; lia|].
      intros p q Ep N. destruct (rev q) as [|x q'] eqn:Eq; [exfalso; apply N; rewrite <- (rev_involutive q), Eq; reflexivity|]. assert (q = rev q' ++ [x]) as -> by (rewrite <- (rev_involutive q), Eq; reflexivity).
      rewrite app_assoc in Ep. apply app_inj_tail in Ep as (Ek & <-). rewrite <- app_assoc. cbn [app]. destruct (rev q') as [|y z] eqn:Eq'; [rewrite app_nil_r in Ek; subst p; exact E|]. apply K; [exact Ek|discriminate].
Qed.

(** ** From the right to the left *)
Definition put_collab (subject : str) (o : mobj) : str :=
  wrap "COLLABORATION" (strip_chars (py ".,:;- [](){}") (match g_text subject o 1 with Some g => g | None => [] end)).
Lemma tag_collab_app subject ms1 ms2 line : tag_collab subject (ms1 ++ ms2) line = bind (tag_collab subject ms1 line) (tag_collab subject ms2).
Proof. revert line. induction ms1 as [|o ms1 IH]; intros line; cbn [app tag_collab bind]; auto. destruct (g_text subject o 1); auto. Qed.
Lemma tag_collab_sub subject line : forall ms p, chain p ms (length line) -> (forall o, In o ms -> g_text subject o 1 <> None) ->
  tag_collab subject (rev ms) line = Ok (firstn p line ++ sub_from line (put_collab subject) p ms).
Proof.
  induction ms as [|o ms IH]; intros p C G.
  - cbn [rev tag_collab sub_from]. now rewrite firstn_skipn.
  - destruct C as (C1 & C2 & C). cbn [rev]. rewrite tag_collab_app, (IH (m_end o) C) by (intros; apply G; now right). cbn [bind tag_collab sub_from].
    destruct (g_text subject o 1) as [g|] eqn:E; [|now apply G in E; [|left]]. assert (wrap "COLLABORATION" (strip_chars (py ".,:;- [](){}") g) = put_collab subject o) as -> by (unfold put_collab; now rewrite E). f_equal. pose proof (chain_le _ _ _ C) as Le.
    rewrite firstn_app, firstn_firstn, Nat.min_l by lia. rewrite firstn_length, Nat.min_l by lia. replace (m_start o - m_end o) with 0 by lia. cbn [firstn]. rewrite app_nil_r.
    rewrite skipn_app, firstn_length, Nat.min_l by lia. rewrite Nat.sub_diag. rewrite (skipn_all2 (firstn _ _)) by (rewrite firstn_length; lia). cbn [app skipn].
    rewrite (app_assoc (firstn p line)). f_equal.
    unfold slice. rewrite <- (firstn_skipn p (firstn (m_start o) line)). rewrite firstn_firstn, Nat.min_l by lia. f_equal. rewrite skipn_firstn_comm. reflexivity.
Qed.

(** ** The pattern *)
Definition sp_cls : cls := mkcls false false [CSpace true].
Definition lead_cls : cls := mkcls false true [CRange 40 40; CRange 34 34; CRange 91 91; CSpace true]%N.
Definition ends_cls : cls := mkcls false true [CRange 62 62; CRange 60 60; CRange 93 93; CRange 41 41; CRange 34 34; CSpace true; CRange 46 46; CRange 44 44; CRange 58 58]%N.
Definition ci (c : ch) : re := Cls (mkcls false true [CRange c c]).
Definition lead_re : re := Alt Bos (Alt (Cls lead_cls) (Look false false 1 (Cls (mkcls false false [CWord false])))).
Definition the_re : re := Rep true 0 (Some 1) (Cat (Alt (word_re true (py "the")) (word_re true (py "and"))) (Rep true 1 None (Cls sp_cls))).
Definition spell (X : str) (r : re) : re := fold_right (fun c r => Cat (if N.eqb c 32 then Cls sp_cls else ci c) r) r X.
Definition more_re : re := Alt (lits true (py "aboration") (Rep true 0 (Some 1) (ci 115%N))) (ci 46%N).
Definition coll_re : re := Cat (Rep true 0 None (Cls sp_cls)) (lits true (py "coll") (Rep true 0 (Some 1) more_re)).
Definition ends_re : re := Look true false 0 (Alt Eos (Cls ends_cls)).
Definition collab_re (X : str) : re :=
  Cat lead_re (Cat (Rep true 0 None (Cls sp_cls)) (Cat the_re (Cat (Grp 1 (spell (X ++ [32%N]) (Rep true 0 (Some 1) coll_re))) ends_re))).
Definition shipped_names : list str := Eval vm_compute in map (fun q => firstn (length (fst q) - 14) (fst q)) shipped_collabs_kb.
Lemma shipped_form : map fst shipped_collabs_kb = map (fun X => X ++ py " Collaboration") shipped_names /\ map (fun q => rx_re (snd q)) shipped_collabs_kb = map collab_re shipped_names.
Proof. split; vm_compute; reflexivity. Qed.

Lemma sp_mem d : cls_mem sp_cls d = is_space d. Proof. unfold sp_cls. classes. Qed.
Lemma lead_mem d : cls_mem lead_cls d = true <-> one_of "(""[" d \/ is_space d = true.
Proof. unfold lead_cls, one_of. classes. rewrite !orb_true_iff, !N.eqb_eq. cbn. intuition. Qed.
Lemma ends_mem d : cls_mem ends_cls d = true <-> one_of "><])"".,:" d \/ is_space d = true.
Proof. unfold ends_cls, one_of. classes. rewrite !orb_true_iff, !N.eqb_eq. cbn. intuition. Qed.
Lemma whites_rep w mn a b c : rd (Rep true mn None (Cls sp_cls)) a w b c <-> whites w /\ mn <= length w /\ c = [].
Proof. rewrite rd_rep_cls, (class_all sp_cls is_space w sp_mem). unfold whites. cbn. tauto. Qed.
Lemma rd_spell X r : forall a w b c, rd (spell X r) a w b c <-> exists u v, w = u ++ v /\ spelled X u /\ rd r (a ++ u) v b c.
Proof.
  unfold spelled. induction X as [|x X IH]; intros a w b c; cbn [spell fold_right].
  - split; [intros H; exists [], w; rewrite app_nil_r; repeat split; auto|]. intros (u & v & -> & U & H). inversion U; subst. now rewrite app_nil_r in H.
  - fold (spell X r). rewrite rd_cat. split.
    + intros (u & v & c1 & c2 & -> & -> & H1 & H2). apply IH in H2 as (u' & v' & -> & U & H2).
      assert (exists d, u = [d] /\ (if N.eqb x 32 then is_space d = true else In x (case_variants d)) /\ c1 = []) as (d & -> & D & ->).
      { destruct (N.eqb x 32); apply rd_cls in H1 as (d & -> & D & ->); exists d; [rewrite sp_mem in D|apply one_char in D]; auto. }
      exists (d :: u'), v'. split; auto. split; [constructor; auto|]. rewrite app_nil_r. now rewrite <- app_assoc in H2.
    + intros (u & v & -> & U & H). inversion U as [|? d ? u' D U']; subst. exists [d], (u' ++ v), [], c. split; auto. split; [now rewrite app_nil_r|]. split.
      * destruct (N.eqb x 32); apply rd_cls; exists d; [rewrite sp_mem|rewrite one_char]; auto.
      * apply IH. exists u', v. rewrite <- app_assoc. auto.
Qed.
Lemma rd_lead a w b c : rd lead_re a w b c <-> ((w = [] /\ (a = [] \/ exists u c, a = u ++ [c] /\ is_word c = false)) \/ exists c, w = [c] /\ (one_of "(""[" c \/ is_space c = true)) /\ c = [].
Proof.
  unfold lead_re. rewrite !rd_alt, rd_cls. change (rd Bos a w b c) with (w = [] /\ c = [] /\ a = []).
  change (rd (Look false false 1 (Cls (mkcls false false [CWord false]))) a w b c) with (w = [] /\ c = [] /\ exists p u c', a = p ++ u /\ length u = 1 /\ rd (Cls (mkcls false false [CWord false])) p u b c').
  assert ((exists p u c', a = p ++ u /\ length u = 1 /\ rd (Cls (mkcls false false [CWord false])) p u b c') <-> exists u c, a = u ++ [c] /\ is_word c = false) as ->.
  { split; [intros (p & u & c' & -> & _ & H); apply rd_cls in H as (d & -> & D & _)|intros (u & d & -> & D); exists u, [d], []; split; auto; split; auto; apply rd_cls]; exists p || exists d; try exists d; [split; auto|split; auto];
    rewrite class_items in *; cbn [existsb item_mem] in *; rewrite orb_false_r in *; destruct (is_word d); auto; discriminate. }
  split.
  - intros [(-> & -> & ->)|[(d & -> & D & ->)|(-> & -> & H)]]; split; auto. right. exists d. now rewrite <- lead_mem.
  - intros ([(-> & [->|H])|(d & -> & D)] & ->); auto. right. left. exists d. now rewrite lead_mem.
Qed.
Lemma any_case ws w : in_any_case ws w <-> letters true (py ws) w. Proof. reflexivity. Qed.
Lemma rd_the a w b c : rd the_re a w b c <-> (w = [] \/ exists wd sp, w = wd ++ sp /\ (in_any_case "the" wd \/ in_any_case "and" wd) /\ whites sp /\ sp <> []) /\ c = [].
Proof.
  unfold the_re. rewrite rd_opt, rd_cat. split.
  - intros [(-> & ->)|(u & v & c1 & c2 & -> & -> & H1 & H2)]; [auto|]. apply whites_rep in H2 as (H2 & L & ->). rewrite rd_alt, !rd_word in H1 by discriminate.
    split; [|destruct H1 as [(_ & ->)|(_ & ->)]; reflexivity]. right. exists u, v. rewrite !any_case. split; auto. split; [tauto|]. split; auto. intros ->. cbn in L. lia.
  - intros ([->|(u & v & -> & U & V & N)] & ->); auto. right. exists u, v, [], []. split; auto. split; auto. rewrite rd_alt, !rd_word by discriminate. rewrite !any_case in U. split; [tauto|].
    apply whites_rep. split; auto. split; auto. destruct v; [congruence|cbn; lia].
Qed.
Definition more_text (e : str) : Prop := in_any_case "aboration" e \/ in_any_case "aborations" e \/ e = py ".".
Lemma rd_more a w b c : rd more_re a w b c <-> more_text w /\ c = [].
Proof.
  unfold more_re, more_text, ci. rewrite rd_alt, rd_lits. split.
  - intros [(u & v & -> & U & H)|H].
    + apply rd_opt in H as [(-> & ->)|H]; [rewrite app_nil_r; auto|]. apply rd_cls in H as (d & -> & D & ->). split; auto. right. left. rewrite any_case. apply (letters_app true (py "aboration") (py "s")). exists u, [d]. split; auto. split; auto. apply letters_one. exists d. split; [reflexivity|exact D].
    + apply rd_cls in H as (d & -> & D & ->). split; auto. right. right. apply one_char in D. apply variants in D as [<-|D]; auto. lia.
  - intros ([H|[H|H]] & ->).
    + left. exists w, []. rewrite app_nil_r. split; auto. split; auto. apply rd_opt. auto.
    + left. apply (letters_app true (py "aboration") (py "s")) in H as (u & v & -> & U & V). exists u, v. split; auto. split; auto. apply rd_opt. right. apply rd_cls. apply letters_one in V as (d & -> & D). exists d. split; auto.
    + right. subst. apply rd_cls. exists 46%N. split; auto.
Qed.
Definition coll_text (t : str) : Prop := exists bl co e, t = bl ++ co ++ e /\ whites bl /\ in_any_case "coll" co /\ (e = [] \/ more_text e).
Lemma rd_coll a w b c : rd coll_re a w b c <-> coll_text w /\ c = [].
Proof.
  unfold coll_re, coll_text. rewrite rd_cat. split.
  - intros (u & v & c1 & c2 & -> & -> & H1 & H2). apply whites_rep in H1 as (H1 & _ & ->). apply rd_lits in H2 as (co & e & -> & C & H2). apply rd_opt in H2. rewrite rd_more in H2. split; [|destruct H2 as [(_ & ->)|(_ & ->)]; auto].
    exists u, co, e. split; auto. split; auto. split; auto. tauto.
  - intros ((u & co & e & -> & U & C & E) & ->). exists u, (co ++ e), [], []. split; auto. split; auto. split; [apply whites_rep; split; auto; split; auto; lia|]. apply rd_lits. exists co, e. split; auto. split; auto. apply rd_opt. rewrite rd_more. tauto.
Qed.
Lemma rd_ends a w b c : rd ends_re a w b c <-> w = [] /\ ends b /\ c = [].
Proof.
  unfold ends_re, ends. rewrite rd_ahead. split.
  - intros (-> & -> & u & t & c' & -> & H). split; auto. split; auto. apply rd_alt in H as [(-> & -> & [->| ->])|H]; auto; [right; exists 10%N, []; auto|]. apply rd_cls in H as (d & -> & D & _). right. exists d, t. split; auto. now apply ends_mem.
  - intros (-> & [->|(d & t & -> & D)] & ->); split; auto; split; auto; [exists [], [], []; split; auto; left; cbn; auto|]. exists [d], t, []. split; auto. apply rd_alt. right. apply rd_cls. exists d. split; auto. split; auto. now apply ends_mem.
Qed.
Lemma names_iff X g : names X g <-> exists x t, g = x ++ t /\ spelled (X ++ [32%N]) x /\ (t = [] \/ coll_text t).
Proof.
  unfold names, spelled, coll_text, more_text. split.
  - intros (x & sp & t & -> & S & W & T). exists (x ++ [sp]), t. split; [now rewrite <- app_assoc|]. split; [apply Forall2_app; auto|]. destruct T as [->|(bl & co & e & -> & H)]; [auto|]. right. exists bl, co, e. tauto.
  - intros (y & t & -> & S & T). apply Forall2_app_inv_l in S as (x & l & S & L & ->). inversion L as [|? sp ? l' Sp L']; subst. inversion L'; subst. exists x, sp, t. split; [now rewrite <- app_assoc|]. auto.
Qed.
Lemma leads_iff a l : leads a l <-> exists s bl th, l = s ++ bl ++ th /\ (forall b, rd lead_re a s b []) /\ whites bl /\ (forall p b, rd the_re p th b []).
Proof.
  unfold leads. split; intros (s & bl & th & -> & S & W & T); exists s, bl, th; split; auto; (split; [|split; auto]).
  - intros b. now apply rd_lead.
  - intros p b. now apply rd_the.
  - now specialize (S []); apply rd_lead in S.
  - now specialize (T [] []); apply rd_the in T.
Qed.
Lemma rd_collab X a w b : collab_text X a w b -> exists c, rd (collab_re X) a w b c.
Proof.
  intros (l & g & -> & L & G & E). apply leads_iff in L as (s & bl & th & -> & S & W & T). apply names_iff in G as (x & t & -> & Sp & H). exists [(1, x ++ t)].
  unfold collab_re. rewrite <- !app_assoc. apply rd_cat. exists s, (bl ++ th ++ x ++ t), [], [(1, x ++ t)]. split; auto. split; auto. split; auto.
  apply rd_cat. exists bl, (th ++ x ++ t), [], [(1, x ++ t)]. split; auto. split; auto. split; [apply whites_rep; split; auto; split; auto; lia|].
  apply rd_cat. exists th, (x ++ t), [], [(1, x ++ t)]. split; auto. split; auto. split; auto.
  apply rd_cat. exists (x ++ t), [], [(1, x ++ t)], []. split; [now rewrite app_nil_r|]. split; auto. split; [|now apply rd_ends].
  apply rd_grp. exists []. split; auto. apply rd_spell. exists x, t. split; auto. split; auto. apply rd_opt. destruct H as [->|H]; auto. right. now apply rd_coll.
Qed.

(** ** The longest form *)
Lemma peel_maybe_m r a s g (K : cont) res : fair r = true -> 1 <= minlen r -> m (Rep true 0 (Some 1) r) (here a s) g K = Some res ->
  (exists k : cont, m r (here a s) g k = Some res /\ forall w b gc, 1 <= length w -> s = w ++ b -> k (here (a ++ w) b) (gc ++ g) = K (here (a ++ w) b) (gc ++ g))
  \/ (K (here a s) g = Some res /\ forall w b c, s = w ++ b -> rd r a w b c -> exists gc, K (here (a ++ w) b) (gc ++ g) = None).
Proof.
  intros F Mn H. pose proof H as H0. change (rep_loop true 0 (Some 1) r K (S (length s)) 0 (here a s) g = Some res) in H. cbn [rep_loop] in H. change (below 0 (Some 1)) with true in H. cbv iota in H. change (0 <=? 0) with true in H. change (0 <? 0) with false in H. cbn [orb] in H.
  match type of H with orelse (m r (here a s) g ?k') _ = _ => set (k := k') in H end.
  assert (forall w b gc, 1 <= length w -> s = w ++ b -> k (here (a ++ w) b) (gc ++ g) = K (here (a ++ w) b) (gc ++ g)) as Hk.
  { intros w b gc Lw ->. unfold k. assert (pos (here a (w ++ b)) <? pos (here (a ++ w) b) = true) as -> by (apply Nat.ltb_lt; cbn; rewrite app_length; lia).
    fold (rep_loop true 0 (Some 1) r K). rewrite app_length. destruct (length w + length b) as [|f] eqn:E; [lia|]. reflexivity. }
  destruct (m r (here a s) g k) as [q|] eqn:Q; cbn [orelse] in H; [injection H as ->; left; exists k; auto|].
  right. split; auto. intros w b c -> R. destruct (proj2 (says_all r F) _ _ _ _ g R) as (gc & M & _). pose proof (rd_min _ _ _ _ _ F R). exists gc.
  destruct (K (here (a ++ w) b) (gc ++ g)) as [q|] eqn:E; auto. exfalso. revert Q. eapply (m_complete (a ++ w ++ b)); [exact M|apply here_at|now apply fair_productive|]. rewrite Hk by (auto; lia). rewrite E. discriminate.
Qed.
Lemma same_length word w : in_any_case word w -> length w = length (py word).
Proof. unfold in_any_case. intros H. induction H; cbn; auto. Qed.
Lemma split_len {A} (a b c d : list A) : a ++ b = c ++ d -> length a = length c -> a = c /\ b = d.
Proof. revert c. induction a as [|x a IH]; intros [|y c] E L; try discriminate; auto. cbn in E. injection E as -> E. cbn in L. destruct (IH c) as (-> & ->); auto. Qed.
Lemma more_len e : more_text e -> 1 <= length e <= 10.
Proof. intros [H|[H| ->]]; [apply same_length in H; rewrite H|apply same_length in H; rewrite H|]; cbn; lia. Qed.
Lemma located_nil s gc : located s gc [] -> gc = []. Proof. intros H. now inversion H. Qed.
Definition stops (k : cont) (a s : str) (g : groups) : Prop := forall w b gc, s = w ++ b -> (k (here (a ++ w) b) (gc ++ g) <> None <-> ends b).
Lemma more_longest a s g (k : cont) res : stops k a s g -> m (Rep true 0 (Some 1) more_re) (here a s) g k = Some res ->
  exists e b, s = e ++ b /\ (e = [] \/ more_text e) /\ ends b /\ k (here (a ++ e) b) g = Some res
    /\ forall e' b', s = e' ++ b' -> (e' = [] \/ more_text e') -> ends b' -> length e' <= length e.
Proof.
  intros St H. assert (forall e b, s = e ++ b -> k (here (a ++ e) b) g = Some res -> ends b) as Stop. { intros e b E Q. apply (St e b [] E). cbn [app]. now rewrite Q. }
  apply peel_maybe_m in H as [(k1 & H & Hk)|(H & N)]; [| |reflexivity|cbn; lia].
  - unfold more_re in H. cbn [m] in H. fold (m (lits true (py "aboration") (Rep true 0 (Some 1) (ci 115%N))) (here a s) g k1) in H. fold (m (ci 46%N) (here a s) g k1) in H. destruct (m (lits true _ _) _ _ _) as [q|] eqn:Q; cbn [orelse] in H.
    + injection H as ->. apply peel_lits in Q as (u & s' & -> & U & Q). pose proof (same_length "aboration" u U) as Lu. cbn in Lu. apply peel_maybe in Q as [(w & b & c & gc & -> & R & Lo & Q)|(Q & N)]; [| |reflexivity|cbn; lia].
      * apply rd_cls in R as (d & -> & D & ->). apply located_nil in Lo as ->. exists (u ++ [d]), b. assert (more_text (u ++ [d])) as Mt.
        { right. left. rewrite any_case. apply (letters_app true (py "aboration") (py "s")). exists u, [d]. split; auto. split; auto. apply letters_one. exists d. split; [reflexivity|exact D]. }
        rewrite <- app_assoc in Q. specialize (Hk (u ++ [d]) b [] ltac:(rewrite app_length; cbn; lia) ltac:(now rewrite <- app_assoc)). cbn [app] in Hk, Q. rewrite Hk in Q. rewrite <- app_assoc. split; auto. split; auto. split; [apply (Stop (u ++ [d])); auto; now rewrite <- app_assoc|]. split; auto.
        intros e' b' _ E' _. rewrite app_length. cbn [length]. destruct E' as [->|E']; [cbn; lia|]. apply more_len in E'. lia.
      * exists u, s'. specialize (Hk u s' [] ltac:(lia) eq_refl) as Hk0. cbn [app] in Hk0. rewrite Hk0 in Q. split; auto. split; [right; now left|]. split; [now apply (Stop u)|]. split; auto.
        intros e' b' E E' En. destruct E' as [->|E']; [cbn; lia|]. destruct E' as [E'|[E'| ->]]; [apply same_length in E'; cbn in E'; lia| |cbn; lia].
        exfalso. apply (letters_app true (py "aboration") (py "s")) in E' as (u' & v & -> & U' & V). apply letters_one in V as (d & -> & D). rewrite <- app_assoc in E. pose proof (same_length "aboration" u' U') as Lu'. cbn in Lu'.
        apply split_len in E as (<- & ->); [|lia]. destruct (N [d] b' [] eq_refl) as (gc & Z). { apply rd_cls. exists d. auto. }
        specialize (Hk (u ++ [d]) b' gc ltac:(rewrite app_length; cbn; lia) ltac:(now rewrite <- app_assoc)). rewrite <- app_assoc in Z. rewrite Hk in Z. revert Z. apply (St (u ++ [d]) b' gc); auto. now rewrite <- app_assoc.
    + apply m_sound in H as (x' & g' & M & H). apply (says_all (ci 46%N) eq_refl) in M as (w & b & c & gc & -> & -> & R & -> & L). apply rd_cls in R as (d & -> & D & ->). apply located_nil in L as ->. apply one_char in D. apply variants in D as [<-|D]; [|lia].
      exists (py "."), b. pose proof (Hk [46%N] b [] ltac:(cbn; lia) eq_refl) as Hk0. change (k1 (here (a ++ [46%N]) b) g = Some res) in H. change (k1 (here (a ++ [46%N]) b) g = k (here (a ++ [46%N]) b) g) in Hk0. rewrite Hk0 in H. split; auto. split; [right; right; now right|]. split; [apply (Stop [46%N]); auto|]. split; auto.
      intros e' b' E E' _. destruct E' as [->|E']; [cbn; lia|]. assert (forall word t, in_any_case word e' -> py word = 97%N :: t -> False) as No.
      { intros word t I Ew. unfold in_any_case in I. rewrite Ew in I. inversion I as [|? d ? ? D]; subst. cbn in E. injection E as <- _. vm_compute in D. intuition discriminate. }
      destruct E' as [E'|[E'| ->]]; [exfalso; eapply No; [exact E'|reflexivity]|exfalso; eapply No; [exact E'|reflexivity]|cbn; lia].
  - exists [], s. split; auto. split; auto. split; [apply (Stop [] s); auto; now rewrite app_nil_r|]. split; [now rewrite app_nil_r|]. intros e' b' E E' En. destruct E' as [->|E']; auto. exfalso.
    destruct (N e' b' [] E) as (gc & Z); [now apply rd_more|]. revert Z. now apply (St e' b' gc).
Qed.
Lemma coll_min t : coll_text t -> 4 <= length t.
Proof. intros (bl & co & e & -> & _ & C & _). apply same_length in C. rewrite !app_length, C. cbn. lia. Qed.
Lemma not_space_c d : In 99%N (case_variants d) -> is_space d = false.
Proof.
  intros H. destruct (is_space d) eqn:E; auto. apply is_space_list in E. exfalso. revert d E H.
  assert (forallb (fun d => negb (existsb (N.eqb 99) (case_variants d))) spaces_list = true) as C by (vm_compute; reflexivity). rewrite forallb_forall in C.
  intros d I H. specialize (C d I). apply negb_true_iff in C. assert (existsb (N.eqb 99) (case_variants d) = true); [|congruence]. apply existsb_exists. exists 99%N. split; auto.
Qed.
Lemma coll_same bl co s bl' co' s' : whites bl -> whites bl' -> in_any_case "coll" co -> in_any_case "coll" co' -> bl ++ co ++ s = bl' ++ co' ++ s' -> bl = bl' /\ co = co' /\ s = s'.
Proof.
  intros W W' C C' E. pose proof (same_length _ _ C) as L. pose proof (same_length _ _ C') as L'. unfold in_any_case in C, C'. change (py "coll") with (99%N :: py "oll") in C, C'. inversion C as [|? d ? co2 D C2]; subst. inversion C' as [|? d' ? co2' D' C2']; subst. apply not_space_c in D, D'.
  cbn [app] in E. pose proof E as E0. apply (span_unique (fun c => is_space c = true) (fun c => is_space c = false)) in E as (-> & -> & E); auto; [|intros; congruence|now apply Forall_forall, forallb_forall|now apply Forall_forall, forallb_forall].
  apply split_len in E as (-> & ->); auto. cbn [length] in L, L'. congruence.
Qed.
Lemma coll_longest a s g (k : cont) res : stops k a s g -> m (Rep true 0 (Some 1) coll_re) (here a s) g k = Some res ->
  exists t b, s = t ++ b /\ (t = [] \/ coll_text t) /\ ends b /\ k (here (a ++ t) b) g = Some res
    /\ forall t' b', s = t' ++ b' -> (t' = [] \/ coll_text t') -> ends b' -> length t' <= length t.
Proof.
  intros St H. assert (forall e b, s = e ++ b -> k (here (a ++ e) b) g = Some res -> ends b) as Stop. { intros e b E Q. apply (St e b [] E). cbn [app]. now rewrite Q. }
  apply peel_maybe_m in H as [(k1 & H & Hk)|(H & N)]; [| |reflexivity|cbn; lia].
  - unfold coll_re in H. apply peel in H as (bl & s1 & c & gc & -> & R & Lo & H); [|reflexivity]. apply whites_rep in R as (W & _ & ->). apply located_nil in Lo as ->. apply peel_lits in H as (co & s2 & -> & C & H). cbn [app] in H.
    pose proof (same_length "coll" co C) as Lc. cbn in Lc. rewrite <- app_assoc in H.
    apply more_longest in H as (e & b & -> & E & En & H & Long).
    + exists (bl ++ co ++ e), b. assert (coll_text (bl ++ co ++ e)) as Ct by (exists bl, co, e; auto). rewrite <- !app_assoc in *. specialize (Hk (bl ++ co ++ e) b [] ltac:(rewrite !app_length; lia) ltac:(now rewrite <- !app_assoc)). cbn [app] in Hk. rewrite Hk in H.
      split; auto. split; auto. split; auto. split; auto.
      intros t' b' Et T' En'. destruct T' as [->|(bl' & co' & e' & -> & W' & C' & E')]; [cbn; lia|]. rewrite <- !app_assoc in Et. apply coll_same in Et as (-> & -> & Et); auto. rewrite !app_length. specialize (Long e' b' Et E' En'). lia.
    + intros w b gc ->. rewrite <- !app_assoc. specialize (Hk (bl ++ co ++ w) b gc ltac:(rewrite !app_length; lia) ltac:(now rewrite <- !app_assoc)). rewrite Hk. apply St. now rewrite <- !app_assoc.
  - exists [], s. split; auto. split; auto. split; [apply (Stop [] s); auto; now rewrite app_nil_r|]. split; [now rewrite app_nil_r|]. intros e' b' E E' En. destruct E' as [->|E']; auto. exfalso.
    destruct (N e' b' [] E) as (gc & Z); [now apply rd_coll|]. revert Z. now apply (St e' b' gc).
Qed.
Lemma peel_spell X r a s g k res : m (spell X r) (here a s) g k = Some res -> exists u s', s = u ++ s' /\ spelled X u /\ m r (here (a ++ u) s') g k = Some res.
Proof.
  revert a s. induction X as [|x X IH]; intros a s H; cbn [spell fold_right] in H.
  - exists [], s. rewrite app_nil_r. split; auto. split; auto. constructor.
  - fold (spell X r) in H. apply peel in H as (u & s' & c & gc & -> & R & L & H); [|destruct (N.eqb x 32); reflexivity].
    assert (exists d, u = [d] /\ (if N.eqb x 32 then is_space d = true else In x (case_variants d)) /\ c = []) as (d & -> & D & ->).
    { destruct (N.eqb x 32); apply rd_cls in R as (d & -> & D & ->); exists d; [rewrite sp_mem in D|apply one_char in D]; auto. }
    apply located_nil in L as ->. apply IH in H as (u & s'' & -> & W & H). exists (d :: u), s''. split; auto. rewrite <- app_assoc in H. split; auto. constructor; auto.
Qed.
Lemma spelled_len X w : spelled X w -> length w = length X. Proof. unfold spelled. intros H. induction H; cbn; auto. Qed.
Lemma ends_m a b g (k : cont) : (forall g, k (here a b) g <> None) -> (m ends_re (here a b) g k <> None <-> ends b).
Proof.
  intros Hk. split.
  - intros N. destruct (m ends_re (here a b) g k) as [q|] eqn:E; [|congruence]. apply m_sound in E as (x' & g' & M & E). apply (says_all ends_re eq_refl) in M as (w & b' & c & gc & -> & -> & R & -> & L). apply rd_ends in R as (-> & R & _). exact R.
  - intros En. destruct (proj2 (says_all ends_re eq_refl) a [] b [] g) as (gc & M & _); [now apply rd_ends|]. cbn [app] in M. rewrite app_nil_r in M. eapply (m_complete (a ++ b)); [exact M|apply here_at|reflexivity|apply Hk].
Qed.
Lemma collab_run X a s o : run (collab_re X) false (here a s) = Some o -> exists l g b, s = l ++ g ++ b /\ leads a l /\ names X g /\ ends b
  /\ (forall g' b', g ++ b = g' ++ b' -> names X g' -> ends b' -> length g' <= length g)
  /\ m_start o = length a /\ m_end o = length a + length (l ++ g) /\ g_text (a ++ s) o 1 = Some g.
Proof.
  unfold run. cbn [andb]. set (k := fun (x' : st) (g' : groups) => Some (x', g')). destruct (m (collab_re X) (here a s) [] k) as [[z gz]|] eqn:H; [|discriminate]. intros E. injection E as <-. unfold collab_re in H.
  apply peel in H as (l1 & s1 & c & gc & -> & R & Lo & H); [|reflexivity]. apply rd_lead in R as R'. destruct R' as (L1 & ->). apply located_nil in Lo as ->.
  apply peel in H as (l2 & s2 & c & gc & -> & R2 & Lo & H); [|reflexivity]. apply whites_rep in R2 as (L2 & _ & ->). apply located_nil in Lo as ->.
  apply peel in H as (l3 & s3 & c & gc & -> & R3 & Lo & H); [|reflexivity]. apply rd_the in R3 as (L3 & ->). apply located_nil in Lo as ->. cbn [app] in H.
  rewrite m_seq, m_group in H. apply peel_spell in H as (x & s4 & -> & Sx & H). apply coll_longest in H as (t & b & -> & T & En & H & Long).
  - exists (l1 ++ l2 ++ l3), (x ++ t), b. split; [now rewrite <- !app_assoc|]. split; [exists l1, l2, l3; auto|]. split; [apply names_iff; eauto|]. split; auto. split.
    + intros g' b' E G' En'. apply names_iff in G' as (x' & t' & -> & Sx' & T'). apply spelled_len in Sx, Sx'. rewrite <- !app_assoc in E. apply split_len in E as (<- & E); [|congruence]. rewrite !app_length. specialize (Long t' b' E T' En'). lia.
    + apply m_sound in H as (x' & g' & M & H). apply (says_all ends_re eq_refl) in M as (w & b' & c & gc & -> & -> & R4 & -> & Lo). apply rd_ends in R4 as (-> & _ & ->). apply located_nil in Lo as ->. unfold k in H. injection H as <- <-.
      cbn [m_start m_end here pos]. split; auto. split; [rewrite !app_length; cbn; lia|]. unfold g_text. cbn [g_span lookup_group m_groups Nat.eqb]. cbn [app].
      pose proof (slice_mid (a ++ l1 ++ l2 ++ l3) (x ++ t) b') as Q. f_equal. etransitivity; [|exact Q]. rewrite <- !app_assoc. cbn [app]. f_equal; cbn; rewrite !app_length; cbn; lia.
  - intros w b gc E. rewrite <- ends_m; [reflexivity|]. intros g0. unfold k. discriminate.
Qed.
Lemma trimmed_strip g : trimmed g (strip_chars (py ".,:;- [](){}") g).
Proof.
  destruct (strip_chars_ok (py ".,:;- [](){}") g) as (p & q & P & Q & E & S & T). exists p, q. split; auto. split; [apply in_chars_app; auto|]. split.
  - destruct (strip_chars _ g) as [|c v] eqn:Ec; auto. intros I. apply S. unfold RecordProofs.starts_in. eauto.
  - destruct (rev (strip_chars _ g)) as [|c v] eqn:Ec; auto. intros I. apply T. unfold RecordProofs.ends_in. exists c, (rev v). split; auto. rewrite <- (rev_involutive (strip_chars _ g)), Ec. reflexivity.
Qed.
Lemma collab_one X line : length (strip_tags line) = length line -> exists out,
  tag_collab (strip_tags line) (rev (re_finditer (collab_re X) (strip_tags line))) line = Ok out
  /\ replaced (collab_text X) (collab_put X) [] (strip_tags line) line out.
Proof.
  intros L. set (M := strip_tags line) in *. clearbody M. exists (sub_from line (put_collab M) 0 (re_finditer (collab_re X) M)).
  assert (fair (collab_re X) = true) as F. { unfold collab_re. cbn -[spell coll_re]. rewrite andb_true_r. induction X; auto. cbn -[coll_re]. destruct (N.eqb a 32); auto. }
  split.
  - rewrite (tag_collab_sub M line _ 0); auto; [rewrite <- L; apply finditer_ok|].
    intros o I. pose proof (proj1 (finditer_ok (collab_re X) M)) as Fo. rewrite Forall_forall in Fo. pose proof (obj_always _ _ _ 1 (Fo o I)) as A. unfold g_text. destruct (g_span o 1) as [[x y]|]; [discriminate|]. intros _. apply A; [|discriminate|reflexivity]. reflexivity.
  - apply sub_replaced; auto; [|intros a w b; apply rd_collab|].
    + unfold collab_re. cbn -[spell]. assert (forall Y r, minlen (spell Y r) = length Y + minlen r) as Ms. { induction Y as [|y Y IHY]; intros r; auto. cbn [spell fold_right minlen length]. fold (spell Y r). rewrite IHY. destruct (N.eqb y 32); reflexivity. }
      rewrite Ms, app_length. cbn. lia.
    + intros a w b o E H S En. apply collab_run in H as (l & g & b' & Eb & Le & Na & Ends & Long & S' & En' & G). rewrite En in En'. rewrite app_assoc in Eb. apply split_len in Eb as (-> & ->); [|lia].
      exists l, g, (strip_chars (py ".,:;- [](){}") g). split; auto. split; auto. split; auto. split; auto. split; auto. split; [apply trimmed_strip|]. unfold put_collab. rewrite E, G. reflexivity.
Qed.
