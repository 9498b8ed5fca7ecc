(** The report numbers of a line for the shipped knowledge base (C63). *)
From Coq Require Import Arith NArith Bool String Lia List Sorted.
From Verif Require Import PyStr ListFacts Regex RegexMeta Kbs Tag SpanProofs ShippedReports KbFit CollabGrammar ReportGrammar ShippedForms ReportProofs ReportForms ReportFound.
Import ListNotations.
Local Open Scope nat_scope.
Local Open Scope list_scope.
Local Notation length := List.length.

Lemma report_list_len cat fs a s h : report_list cat fs a s h -> forall i n num, In (i, n, num) h -> length cat <= n /\ exists u v, s = u ++ cat ++ v.
Proof.
  induction 1 as [|a x s h N H IH|a l br m cl b h T R H IH]; intros i n num I; [destruct I| |].
  - destruct (IH _ _ _ I) as (L & u & v & ->). split; auto. now exists (x :: u), v.
  - destruct I as [E|I].
    + injection E as <- <- <-. split; [rewrite !app_length; lia|]. exists (l ++ br), (m ++ cl ++ b). now rewrite <- !app_assoc.
    + destruct (IH _ _ _ I) as (L & u & v & ->). split; auto. exists (l ++ br ++ cat ++ m ++ cl ++ u), v. now rewrite <- !app_assoc.
Qed.
Lemma winv_idle kb l0 ks es s c p : winv kb l0 ks es s -> ~ In c ks -> assoc_rep c (rk_search kb) = Some p -> re_finditer (rx_re p) (r_line s) = [] ->
  winv kb l0 (ks ++ [c]) (fun k => if repkey_eqb k c then [] else es k) s.
Proof.
  intros W Nc Ep Fi. pose proof (blanked_line _ _ _ _ _ W) as (Bl1 & Bl2). destruct W as [R Sl H A L].
  assert (forall k, In k ks -> repkey_eqb k c = false) as Old by (intros k I; destruct (repkey_eqb k c) eqn:E; auto; apply key_eqb_eq in E; congruence).
  assert (repkey_eqb c c = true) as New by now apply key_eqb_eq.
  constructor; auto.
  - intros k1 key k2 p' std Ek Ep' Es. destruct (rev k2) as [|y r] eqn:Er.
    + assert (k2 = []) as -> by (rewrite <- (rev_involutive k2), Er; auto). apply app_inj_tail in Ek as (<- & <-). rewrite Ep in Ep'. injection Ep' as <-. exists (r_line s). split.
      * split; auto. intros q x Ex. destruct (Bl2 q x Ex) as (B3 & B4). split; intros P; [apply B3|apply B4; intros P'; apply P]; [destruct P as (k & e & Ik & Ie & C)|destruct P' as (k & e & Ik & Ie & C)]; exists k, e; [rewrite Old in Ie by auto|rewrite Old by auto]; auto.
      * intros e. rewrite New. split; [intros []|]. intros (o & a & b & n & I & _). rewrite Fi in I. destruct I.
    + assert (k2 = rev r ++ [y]) as -> by (rewrite <- (rev_involutive k2), Er; auto). change (k1 ++ key :: rev r ++ [y]) with (k1 ++ (key :: rev r) ++ [y]) in Ek. rewrite app_assoc in Ek. apply app_inj_tail in Ek as (Ek & _).
      destruct (H k1 key (rev r) p' std Ek Ep' Es) as (l & (B1 & B2) & He). assert (forall k, In k k1 -> In k ks) as Sub by (intros k I; rewrite Ek; apply in_app_iff; auto).
      exists l. rewrite Old by (rewrite Ek; apply in_app_iff; right; now left). split; auto. split; auto.
      intros q x Ex. destruct (B2 q x Ex) as (B3 & B4). split; intros P; [apply B3|apply B4; intros P'; apply P]; [destruct P as (k & e & Ik & Ie & C)|destruct P' as (k & e & Ik & Ie & C)]; exists k, e; [rewrite Old in Ie by auto|rewrite Old by auto]; auto.
  - intros i n v. rewrite A. split.
    + intros (k & I & J). exists k. rewrite Old by auto. split; auto. apply in_app_iff. auto.
    + intros (k & I & J). apply in_app_iff in I as [I|[<-|[]]]; [exists k; rewrite Old in J by auto; auto|]. rewrite New in J. destruct J.
Qed.

(** ** The category with an underscore *)
Definition odd_key : repkey := (fst (hd (0, []) (filter (fun k => existsb (N.eqb 95) (snd k)) (map fst (rk_std shipped_reports_kb)))), py "CDF PUB SEC_VTX PUBLIC    ").
Lemma odd_shipped : exists cs1 cs2, sort_desc (map fst (rk_std shipped_reports_kb)) = cs1 ++ odd_key :: cs2.
Proof. apply in_split. apply sort_desc_in. assert (existsb (repkey_eqb odd_key) (map fst (rk_std shipped_reports_kb)) = true) as E by (vm_compute; reflexivity). apply existsb_exists in E as (k & I & E). apply key_eqb_eq in E. now subst. Qed.
Lemma others_fine key : In key (map fst (rk_std shipped_reports_kb)) -> exists p std, assoc_rep key (rk_search shipped_reports_kb) = Some p /\ assoc_rep key (rk_std shipped_reports_kb) = Some std /\ (key <> odd_key -> rep_ok p = true).
Proof.
  assert (forallb (fun key => match assoc_rep key (rk_search shipped_reports_kb), assoc_rep key (rk_std shipped_reports_kb) with Some p, Some _ => rep_ok p || repkey_eqb key odd_key | _, _ => false end) (map fst (rk_std shipped_reports_kb)) = true) as H by (vm_compute; reflexivity).
  intros I. rewrite forallb_forall in H. apply H in I. destruct (assoc_rep key (rk_search shipped_reports_kb)) as [p|]; [|discriminate]. destruct (assoc_rep key (rk_std shipped_reports_kb)) as [std|]; [|discriminate].
  exists p, std. split; auto. split; auto. intros N. apply orb_true_iff in I as [I|I]; auto. apply key_eqb_eq in I. congruence.
Qed.
Lemma long_names : forallb (fun e => 2 <=? length (strip (snd (fst e)))) shipped_keys = true. Proof. vm_compute. reflexivity. Qed.
Lemma hit_long key p std l e : In key (map fst (rk_std shipped_reports_kb)) -> assoc_rep key (rk_search shipped_reports_kb) = Some p -> hit p std l e -> 2 <= snd (fst e).
Proof.
  intros I Ep H. destruct (every_key key I) as (fs & J). destruct (shipped_pattern key fs J) as (p' & Ep' & F). rewrite Ep in Ep'. injection Ep' as <-. destruct (F std l) as (h & Hl & Hh). apply Hh in H as (i & n & num & Ih & ->).
  destruct (report_list_len _ _ _ _ _ Hl _ _ _ Ih) as (Ln & _). pose proof (proj1 (forallb_forall _ _) long_names _ J) as B. apply Nat.leb_le in B. cbn [fst snd] in *. lia.
Qed.
(** an underscore between other characters is not one the report numbers have left *)
Lemma blanked_back l0 l (P : nat -> Prop) (u : str) (a b : ch) (v : str) : blanked P l0 l -> (forall q, P q -> P (S q) \/ exists r, q = S r /\ P r) -> l = u ++ [a; 95%N; b] ++ v -> a <> 95%N -> b <> 95%N ->
  forall q, length u <= q < length u + 3 -> nth_error l0 q = nth_error l q.
Proof.
  intros (Bl & B) Two -> Na Nb.
  assert (forall q c, nth_error (u ++ [a; 95%N; b] ++ v) q = Some c -> exists d, nth_error l0 q = Some d) as Some0.
  { intros q c E. assert (q < length l0) as Lq by (rewrite <- Bl; apply nth_error_Some; congruence). destruct (nth_error l0 q) as [d|] eqn:F; [eauto|]. apply nth_error_None in F. lia. }
  assert (forall q c, nth_error (u ++ [a; 95%N; b] ++ v) q = Some c -> c <> 95%N -> ~ P q) as Out.
  { intros q c E N Pq. destruct (Some0 q c E) as (d & F). destruct (B q d F) as (B1 & _). rewrite (B1 Pq) in E. congruence. }
  assert (forall q c, nth_error (u ++ [a; 95%N; b] ++ v) q = Some c -> ~ P q -> nth_error l0 q = Some c) as Keep.
  { intros q c E Np. destruct (Some0 q c E) as (d & F). destruct (B q d F) as (_ & B2). rewrite (B2 Np) in E. congruence. }
  assert (nth_error (u ++ [a; 95%N; b] ++ v) (length u) = Some a) as E0 by (rewrite nth_error_app2, Nat.sub_diag by lia; reflexivity).
  assert (nth_error (u ++ [a; 95%N; b] ++ v) (S (length u)) = Some 95%N) as E1 by (rewrite nth_error_app2 by lia; replace (S (length u) - length u) with 1 by lia; reflexivity).
  assert (nth_error (u ++ [a; 95%N; b] ++ v) (S (S (length u))) = Some b) as E2 by (rewrite nth_error_app2 by lia; replace (S (S (length u)) - length u) with 2 by lia; reflexivity).
  intros q Lq. assert (q = length u \/ q = S (length u) \/ q = S (S (length u))) as [->|[->| ->]] by lia.
  - rewrite E0. apply Keep; auto. eapply Out; eauto.
  - rewrite E1. apply Keep; auto. intros Pq. destruct (Two _ Pq) as [Pq'|(r & Er & Pr)].
    + revert Pq'. eapply Out; eauto.
    + injection Er as <-. revert Pr. eapply Out; eauto.
  - rewrite E2. apply Keep; auto. eapply Out; eauto.
Qed.
Lemma three_at {A} (l : list A) q a b c : nth_error l q = Some a -> nth_error l (S q) = Some b -> nth_error l (S (S q)) = Some c -> exists u v, l = u ++ [a; b; c] ++ v.
Proof.
  intros E1 E2 E3. apply nth_error_split in E1 as (u & v & -> & <-). rewrite nth_error_app2 in E2, E3 by lia. replace (S (length u) - length u) with 1 in E2 by lia. replace (S (S (length u)) - length u) with 2 in E3 by lia.
  cbn in E2, E3. destruct v as [|x [|y v]]; try discriminate. injection E2 as ->. injection E3 as ->. now exists u, v.
Qed.
Lemma back_slash line q c : c <> 32%N -> nth_error (no_slash line) q = Some c -> nth_error line q = Some c.
Proof.
  intros N E. unfold no_slash in E. rewrite nth_error_map in E. unfold str, ch in *. destruct (nth_error line q) as [x|]; [|discriminate]. cbn in E. destruct (N.eqb x 47); congruence.
Qed.
Lemma shape_of key fs p : In (key, fs) shipped_keys -> assoc_rep key (rk_search shipped_reports_kb) = Some p -> rx_re p = report_re (strip (snd key)) fs /\ forms_ok fs = true /\ strip (snd key) <> [].
Proof.
  intros I Ep. pose proof (proj1 map_ext_in_iff shipped_shape _ I) as E. cbn [fst snd] in E. rewrite Ep in E. injection E as ->. cbn [rx_re].
  pose proof (proj1 (forallb_forall _ _) shipped_forms_fine _ I) as F. cbn [fst snd] in F. apply andb_true_iff in F as (F1 & F2). apply negb_true_iff, Nat.eqb_neq in F2. split; auto. split; auto. intros Z. apply F2. now rewrite Z.
Qed.
Lemma odd_strip : strip (snd odd_key) = py "CDF PUB SE" ++ [67; 95; 86]%N ++ py "TX PUBLIC". Proof. vm_compute. reflexivity. Qed.
Lemma odd_silent line ks es s p : winv shipped_reports_kb (no_slash line) ks es s -> (forall k, In k ks -> In k (map fst (rk_std shipped_reports_kb))) -> (forall a b, line <> a ++ py "C_V" ++ b) ->
  assoc_rep odd_key (rk_search shipped_reports_kb) = Some p -> re_finditer (rx_re p) (r_line s) = [].
Proof.
  intros W Sub NoCV Ep. assert (In odd_key (map fst (rk_std shipped_reports_kb))) as I. { destruct odd_shipped as (c1 & c2 & E). apply sort_desc_in. rewrite E. apply in_app_iff. right. now left. }
  destruct (every_key _ I) as (fs & J). destruct (shape_of _ _ _ J Ep) as (-> & F1 & F2).
  destruct (reports_found _ fs (r_line s) F1 F2) as (h & H1 & H2).
  destruct H2 as [|o ((i, n), num) os h]; auto. exfalso. destruct (report_list_len _ _ _ _ _ H1 i n num (or_introl eq_refl)) as (_ & u & v & El).
  rewrite odd_strip in El.
  assert (r_line s = (u ++ py "CDF PUB SE") ++ [67; 95; 86]%N ++ (py "TX PUBLIC" ++ v)) as El' by (rewrite El, <- !app_assoc; reflexivity).
  assert (forall q, length (u ++ py "CDF PUB SE") <= q < length (u ++ py "CDF PUB SE") + 3 -> nth_error (no_slash line) q = nth_error (r_line s) q) as Back.
  { eapply blanked_back; [apply (blanked_line _ _ _ _ _ W)| |exact El'|discriminate|discriminate]. intros q (k & ((i', n'), w) & Ik & Ie & C).
    assert (2 <= n') as Ln.
    { apply in_split in Ik as (k1 & k2 & Ek). assert (In k ks) as Ik by (rewrite Ek; apply in_app_iff; right; now left). destruct (others_fine k (Sub k Ik)) as (pk & std & E1 & E2 & _). destruct (wi_hits _ _ _ _ _ W k1 k k2 pk std Ek E1 E2) as (l & _ & He).
      apply He in Ie. exact (hit_long k pk std l _ (Sub k Ik) E1 Ie). }
    unfold covers_place in *. cbn [fst snd] in *. destruct (Nat.eq_dec q i') as [->|Nq]; [left|right; exists (q - 1); split; [lia|]]; exists k, (i', n', w); (split; [auto|]; split; [auto|]); cbn [fst snd]; lia. }
  set (q := length (u ++ py "CDF PUB SE")) in *.
  destruct (three_at line q 67%N 95%N 86%N) as (a & b & El2).
  - apply back_slash; [discriminate|]. rewrite Back by lia. rewrite El'. unfold q. rewrite nth_error_app2, Nat.sub_diag by lia. reflexivity.
  - apply back_slash; [discriminate|]. rewrite Back by lia. rewrite El'. unfold q. rewrite nth_error_app2 by lia. match goal with |- nth_error _ ?t = _ => replace t with 1 by lia end. reflexivity.
  - apply back_slash; [discriminate|]. rewrite Back by lia. rewrite El'. unfold q. rewrite nth_error_app2 by lia. match goal with |- nth_error _ ?t = _ => replace t with 2 by lia end. reflexivity.
  - exact (NoCV a b El2).
Qed.
Lemma nodup_left {A} (l k : list A) : NoDup (l ++ k) -> NoDup l.
Proof. induction l as [|x l IH]; cbn; intros D; [constructor|]. inversion D as [|? ? N D']; subst. constructor; auto. intros I. apply N, in_app_iff. auto. Qed.
Lemma shipped_line line : (forall a b, line <> a ++ py "C_V" ++ b) -> exists es s, identify_report_numbers line shipped_reports_kb = Ok s
  /\ (forall key p std, In key (map fst (rk_std shipped_reports_kb)) -> assoc_rep key (rk_search shipped_reports_kb) = Some p -> assoc_rep key (rk_std shipped_reports_kb) = Some std -> exists l,
        blanked (fun q => exists k e, In k (map fst (rk_std shipped_reports_kb)) /\ goes_first k key /\ In e (es k) /\ covers_place e q) (no_slash line) l
        /\ forall e, In e (es key) <-> hit p std l e)
  /\ (forall i n v, (In (i, n) (r_len s) /\ In (i, v) (r_repl s)) <-> exists key, In key (map fst (rk_std shipped_reports_kb)) /\ In (i, n, v) (es key))
  /\ blanked (fun q => exists k e, In k (map fst (rk_std shipped_reports_kb)) /\ In e (es k) /\ covers_place e q) (no_slash line) (r_line s).
Proof.
  intros NoCV. set (kb := shipped_reports_kb). assert (NoDup (map fst (rk_std kb))) as D by (eapply built_nodup; apply shipped_ok). unfold identify_report_numbers. rewrite replace_slash. set (keys := map fst (rk_std kb)) in *. change (map slash_out line) with (no_slash line).
  assert (~ In 47%N (no_slash line)) as N0. { intros I. apply in_map_iff in I as (c & E & _). destruct (N.eqb_spec c 47) as [|Ne]; [discriminate|contradiction]. }
  destruct odd_shipped as (cs1 & cs2 & Ek). fold kb in Ek. fold keys in Ek.
  pose proof (sort_nodup keys D) as Ds. rewrite Ek in Ds.
  assert (forall c, In c (cs1 ++ odd_key :: cs2) <-> In c keys) as Same by (intros c; rewrite <- Ek; apply sort_desc_in).
  assert (forall c, In c cs1 \/ In c cs2 -> In c keys /\ c <> odd_key) as Fine.
  { intros c I. split; [apply Same, in_app_iff; destruct I; [left|right; right]; auto|]. intros ->. apply NoDup_remove_2 in Ds. apply Ds, in_app_iff. auto. }
  destruct (winv_categs kb (no_slash line) N0 cs1 [] (fun _ => []) (mkrst [] [] (no_slash line))) as (es1 & s1 & E1 & W1).
  - split; cbn [r_len r_repl r_line]; auto.
    + split; cbn [r_len r_repl r_line]; [apply marked_start|intros ? ? []|reflexivity|intros ? ? ? []].
    + intros [|? k1] key k2 p std E; discriminate.
    + intros i n v. split; [intros ([] & _)|intros (k & [] & _)].
    + intros i n [].
  - cbn [app]. now apply nodup_left in Ds.
  - intros c I. destruct (Fine c (or_introl I)) as (J & Nc). destruct (others_fine c J) as (p & std & ? & ? & H). exists p, std. auto.
  - cbn [app] in W1. assert (In odd_key keys) as Io by (apply Same, in_app_iff; right; now left). destruct (others_fine odd_key Io) as (p & std & Ep & Es & _). fold kb in Ep, Es.
    assert (re_finditer (rx_re p) (r_line s1) = []) as Fi. { eapply odd_silent; eauto. intros k I. apply Fine. auto. }
    assert (~ In odd_key cs1) as No by (intros I; destruct (Fine odd_key (or_introl I)); congruence).
    pose proof (winv_idle kb (no_slash line) cs1 es1 s1 odd_key p W1 No Ep Fi) as W2.
    destruct (winv_categs kb (no_slash line) N0 cs2 _ _ _ W2) as (es & s & E2 & W).
    + rewrite <- app_assoc. exact Ds.
    + intros c I. destruct (Fine c (or_intror I)) as (J & Nc). destruct (others_fine c J) as (p' & std' & ? & ? & H). exists p', std'. auto.
    + rewrite <- app_assoc in W. cbn [app] in W. rewrite <- Ek in W. exists es, s. split.
      { rewrite Ek. clear -E1 E2 Ep Es Fi. fold kb. revert E1. generalize (mkrst [] [] (no_slash line)). induction cs1 as [|c cs1 IH]; intros r E1; cbn [app repnum_categs] in *.
        - injection E1 as ->. rewrite Ep, Es, Fi. cbn [repnum_hits bind]. exact E2.
        - destruct (assoc_rep c (rk_search kb)) as [p'|]; [|discriminate]. destruct (assoc_rep c (rk_std kb)) as [std'|]; [|discriminate]. destruct (repnum_hits _ _ _ _ _) as [s'|]; cbn [bind] in *; [|discriminate]. now apply IH. }
      pose proof (blanked_line _ _ _ _ _ W) as (B1 & B2). destruct W as [_ _ H A _]. clear Same Fine. assert (forall k, In k (sort_desc keys) <-> In k keys) as Same by (intros; apply sort_desc_in). split; [|split].
      * intros key p' std' I Ep' Es'. apply (proj2 (Same key)) in I. apply in_split in I as (k1 & k2 & Ek'). destruct (H k1 key k2 p' std' Ek' Ep' Es') as (l & (C1 & C2) & He). exists l. split; auto. split; auto.
        assert (forall k, In k k1 <-> In k keys /\ goes_first k key) as Pre. { intros k. pose proof (sort_sorted keys D) as S. rewrite Ek' in S. rewrite (sorted_prefix _ _ _ k S), <- Ek', Same, ltb_first. reflexivity. }
        intros q x Ex. destruct (C2 q x Ex) as (C3 & C4). split; intros P; [apply C3|apply C4; intros P'; apply P]; [destruct P as (k & e & Ik & G & Ie & C)|destruct P' as (k & e & Ik & Ie & C)]; exists k, e; [split; [apply Pre; auto|auto]|apply Pre in Ik as (Ik & G); auto].
      * intros i n v. rewrite A. split; intros (k & Ik & Ie); exists k; (split; [|exact Ie]); [exact (proj1 (Same k) Ik)|exact (proj2 (Same k) Ik)].
      * split; auto. intros q x Ex. destruct (B2 q x Ex) as (B3 & B4). split; intros P; [apply B3|apply B4; intros P'; apply P]; [destruct P as (k & e & Ik & Ie & C)|destruct P' as (k & e & Ik & Ie & C)]; exists k, e; (split; [|split; [exact Ie|exact C]]); [exact (proj2 (Same k) Ik)|exact (proj1 (Same k) Ik)].
Qed.

(** ** Together *)
Lemma table_std : forallb (fun e => match assoc_rep (fst e) (rk_std shipped_reports_kb) with Some _ => true | None => false end) shipped_keys = true.
Proof. vm_compute. reflexivity. Qed.
Lemma assoc_key {A} k (l : list (repkey * A)) v : assoc_rep k l = Some v -> In k (map fst l).
Proof. induction l as [|(k', v') l IH]; cbn [assoc_rep map fst]; [discriminate|]. destruct (repkey_eqb k k') eqn:E; [apply key_eqb_eq in E; left; auto|right; auto]. Qed.
Lemma table_key key fs : In (key, fs) shipped_keys -> exists std, assoc_rep key (rk_std shipped_reports_kb) = Some std.
Proof. intros I. pose proof (proj1 (forallb_forall _ _) table_std _ I) as E. cbn [fst] in E. destruct (assoc_rep key (rk_std shipped_reports_kb)) as [std|]; [eauto|discriminate]. Qed.
Lemma shipped_found line : (forall a b, line <> a ++ py "C_V" ++ b) -> exists es s, identify_report_numbers line shipped_reports_kb = Ok s
  /\ (forall num cs fs c, In (num, cs, fs) shipped_institutes -> In c cs -> exists std l h, assoc_rep (num, c) (rk_std shipped_reports_kb) = Some std
        /\ blanked (fun q => exists k e, In k (map fst (rk_std shipped_reports_kb)) /\ goes_first k (num, c) /\ In e (es k) /\ covers_place e q) (no_slash line) l
        /\ report_list (strip c) fs [] l h
        /\ forall e, In e (es (num, c)) <-> exists i n d, In (i, n, d) h /\ e = (i, n, std ++ hyphened d))
  /\ (forall i n v, (In (i, n) (r_len s) /\ In (i, v) (r_repl s)) <-> exists num cs fs c, In (num, cs, fs) shipped_institutes /\ In c cs /\ In (i, n, v) (es (num, c)))
  /\ blanked (fun q => exists k e, In k (map fst (rk_std shipped_reports_kb)) /\ In e (es k) /\ covers_place e q) (no_slash line) (r_line s).
Proof.
  intros H. destruct (shipped_line line H) as (es & s & E & F & A & B). exists es, s. split; [exact E|]. split; [|split; [|exact B]].
  - intros num cs fs c I J. pose proof (in_shipped _ _ _ _ I J) as K. destruct (table_key _ _ K) as (std & Es). destruct (shipped_pattern _ _ K) as (p & Ep & P). destruct (F _ p std (assoc_key _ _ _ Es) Ep Es) as (l & Bl & He).
    destruct (P std l) as (h & Hl & Hh). exists std, l, h. split; [exact Es|]. split; [exact Bl|]. split; [exact Hl|]. intros e. rewrite (He e). exact (Hh e).
  - intros i n v. rewrite A. split.
    + intros (key & I & J). destruct (every_key key I) as (fs & K). destruct (from_shipped _ _ K) as (cs & K1 & K2). destruct key as (num, c). exists num, cs, fs, c. auto.
    + intros (num & cs & fs & c & I & J & K). exists (num, c). split; [|exact K]. destruct (table_key _ _ (in_shipped _ _ _ _ I J)) as (std & Es). exact (assoc_key _ _ _ Es).
Qed.
Lemma table_exact : build_reportnum_kb shipped_reports = Ok shipped_reports_kb
  /\ (forall num cs fs c, In (num, cs, fs) shipped_institutes -> In c cs -> In (num, c) (map fst (rk_std shipped_reports_kb)))
  /\ (forall key, In key (map fst (rk_std shipped_reports_kb)) -> exists cs fs, In (fst key, cs, fs) shipped_institutes /\ In (snd key) cs).
Proof.
  split; [apply shipped_ok|]. split.
  - intros num cs fs c I J. destruct (table_key _ _ (in_shipped _ _ _ _ I J)) as (std & Es). exact (assoc_key _ _ _ Es).
  - intros key I. destruct (every_key key I) as (fs & K). destruct (from_shipped _ _ K) as (cs & K1 & K2). exists cs, fs. split; [exact K1|exact K2].
Qed.
Lemma report_list_det cat fs a s h h' : cat <> [] -> report_list cat fs a s h -> report_list cat fs a s h' -> h = h'.
Proof. intros N. exact (report_list_one cat fs N (length s) a s h h' (le_n _)). Qed.
