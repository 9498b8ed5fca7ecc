(** Series in titles, the B of the supplements of Nuclear Physics, report numbers,
    arXiv URLs (Transform.v). *)
From Coq Require Import List Arith NArith ZArith Bool Lia String.
From Verif Require Import UnicodeTables PyStr ListFacts Elements Regex RegexParse Patterns Transform RegexMeta RegexLang NumberFacts RecordProofs SplitProofs PostProofs TransformProofs.
Import ListNotations.
Local Open Scope nat_scope.
Local Notation length := List.length.
Local Arguments key_eqb : simpl never.
Local Arguments ety_eqb : simpl never.

Lemma rsplit1_some c s a b : rsplit1 c s = Some (a, b) <-> s = a ++ c :: b /\ ~ In c b.
Proof.
  unfold rsplit1. split.
  - destruct (split1 c (rev s)) as [[x y]|] eqn:E; [|discriminate]. intros H; inversion H; subst.
    apply split1_some in E as [E N]. apply (f_equal (@rev ch)) in E. rewrite rev_involutive, rev_app_distr in E. cbn in E.
    rewrite <- app_assoc in E. split; auto. now rewrite <- in_rev.
  - intros [-> N]. destruct (split1 c (rev (a ++ c :: b))) as [[x y]|] eqn:E.
    + apply split1_some in E as [E M]. rewrite rev_app_distr in E. cbn in E. rewrite <- app_assoc in E. cbn in E.
      assert (forall p q r t : str, p ++ c :: q = r ++ c :: t -> ~ In c p -> ~ In c r -> p = r /\ q = t) as U.
      { induction p as [|u p IH]; intros q [|v r] t Q P R; cbn in Q; inversion Q; subst; auto.
        - exfalso. apply R. left. auto.
        - exfalso. apply P. left. auto.
        - cbn in P, R. destruct (IH q r t) as (-> & ->); auto; tauto. }
      destruct (U (rev b) (rev a) x y E) as (<- & <-); auto; [now rewrite <- in_rev|]. now rewrite !rev_involutive.
    + exfalso. apply split1_none in E. apply E. apply -> in_rev. apply in_app_iff. right. left. auto.
Qed.
Lemma rsplit1_none c s : rsplit1 c s = None <-> ~ In c s.
Proof.
  unfold rsplit1. destruct (split1 c (rev s)) as [[x y]|] eqn:E.
  - split; [discriminate|]. intros H. apply split1_some in E as [E _]. exfalso. apply H. apply in_rev. rewrite E. apply in_app_iff. right. left. auto.
  - apply split1_none in E. rewrite <- in_rev in E. split; auto.
Qed.

(** split_volume_from_journal *)
Definition series_step (e e' : el) : Prop :=
  (exists t series v, e_type e = JOURNAL /\ get Ktitle e = Some (VS (t ++ py ";" ++ series)) /\ ~ In 59%N series /\ get Kvolume e = Some (VS v)
     /\ get Ktitle e' = Some (VS t) /\ get Kvolume e' = Some (VS (series ++ v)) /\ only_changes [Ktitle; Kvolume] e e')
  \/ ((forall t, e_type e = JOURNAL -> get Ktitle e = Some (VS t) -> ~ In 59%N t) /\ e' = e).
Lemma split_volume_spec l : Forall (journal_with [Ktitle; Kvolume]) l ->
  exists l', split_volume_from_journal l = Ok l' /\ Forall2 series_step l l'.
Proof.
  intros H. unfold split_volume_from_journal. apply mapM_total. apply Forall_forall. intros e He. rewrite Forall_forall in H. specialize (H _ He).
  unfold split_volume_el. destruct (is_type JOURNAL e) eqn:T; [apply is_type_true in T|].
  - destruct (H T Ktitle) as (t & Gt); [cbn; auto|]. destruct (H T Kvolume) as (v & Gv); [cbn; auto|].
    rewrite (get_str_ok _ _ _ Gt). cbn [bind]. destruct (rsplit1 59%N t) as [[t' series]|] eqn:R.
    + apply rsplit1_some in R as [-> N]. rewrite (get_str_ok _ _ _ Gv). cbn [bind]. eexists. split; [reflexivity|]. left.
      exists t', series, v. repeat (split; auto).
      * rewrite get_set_str_other by discriminate. apply get_set_str.
      * apply get_set_str.
      * intros k K. cbn in K. rewrite !get_set_str_other; auto; intros ->; tauto.
    + apply rsplit1_none in R. exists e. split; auto. right. split; auto. intros t' _ G. now replace t' with t by congruence.
  - exists e. split; auto. right. split; auto. intros t T'. apply is_type_true in T'. congruence.
Qed.

(** remove_b_for_nucl_phys *)
Definition nucl_phys_suppl := py "Nucl.Phys.Proc.Suppl.".
Definition remove_b_step (e e' : el) : Prop :=
  (exists c v, e_type e = JOURNAL /\ get Ktitle e = Some (VS nucl_phys_suppl) /\ (c = 66 \/ c = 98)%N /\ get Kvolume e = Some (VS (c :: v))
     /\ get Kvolume e' = Some (VS v) /\ only_changes [Kvolume] e e')
  \/ ((forall c v, e_type e = JOURNAL -> get Ktitle e = Some (VS nucl_phys_suppl) -> get Kvolume e = Some (VS (c :: v)) -> c <> 66%N /\ c <> 98%N) /\ e' = e).
Lemma remove_b_spec l : Forall (journal_with [Ktitle; Kvolume]) l ->
  exists l', remove_b_for_nucl_phys l = Ok l' /\ Forall2 remove_b_step l l'.
Proof.
  intros H. unfold remove_b_for_nucl_phys. apply mapM_total. apply Forall_forall. intros e He. rewrite Forall_forall in H. specialize (H _ He).
  unfold remove_b_el. destruct (is_type JOURNAL e) eqn:T; [apply is_type_true in T|].
  - destruct (H T Ktitle) as (t & Gt); [cbn; auto|]. destruct (H T Kvolume) as (v & Gv); [cbn; auto|].
    rewrite (get_str_ok _ _ _ Gt). cbn [bind]. fold nucl_phys_suppl. destruct (eqs_spec t nucl_phys_suppl) as [->|N].
    + rewrite Gv. destruct v as [|c v].
      * exists e. split; auto. right. split; auto. intros c v _ _ G. congruence.
      * destruct (startswith (c :: v) (py "b") || startswith (c :: v) (py "B")) eqn:S.
        -- eexists. split; [reflexivity|]. left. exists c, v. repeat (split; auto); [|apply get_set_str|apply set_str_only].
           unfold startswith in S. change (py "b") with [98%N] in S. change (py "B") with [66%N] in S. cbn [prefixb] in S.
           rewrite !andb_true_r in S. apply orb_true_iff in S as [S|S]; apply N.eqb_eq in S; auto.
        -- exists e. split; auto. right. split; auto. intros c' v' _ _ G. assert (c' = c) as -> by congruence.
           unfold startswith in S. change (py "b") with [98%N] in S. change (py "B") with [66%N] in S. cbn [prefixb] in S.
           rewrite !andb_true_r in S. apply orb_false_iff in S as [S1 S2]. apply N.eqb_neq in S1, S2. auto.
    + exists e. split; auto. right. split; auto. intros c v' _ G. exfalso. apply N. congruence.
  - exists e. split; auto. right. split; auto. intros c v T'. apply is_type_true in T'. congruence.
Qed.

(** ** Report numbers *)
Definition name_char (c : N) : bool := is_upper_ascii c || N.eqb c 45.
Definition nums_char (c : N) : bool := is_digit c || N.eqb c 45.
Definition name_cls := mkcls false false [CRange 65 90; CRange 45 45].
Definition nums_cls := mkcls false false [CDigit true; CRange 45 45].
Lemma one_range c d : in_range c c d = N.eqb d c.
Proof. unfold in_range. destruct (N.leb_spec c d), (N.leb_spec d c), (N.eqb_spec d c); cbn; auto; lia. Qed.
Lemma name_cls_all w : forallb (cls_mem name_cls) w = forallb name_char w.
Proof.
  apply forallb_ext'. intros c. unfold cls_mem, name_cls. cbn [c_neg c_ci c_items existsb item_mem xorb].
  rewrite one_range, orb_false_r. unfold name_char, is_upper_ascii. destruct (_ || _); reflexivity.
Qed.
Lemma nums_cls_all w : forallb (cls_mem nums_cls) w = forallb nums_char w.
Proof.
  apply forallb_ext'. intros c. unfold cls_mem, nums_cls. cbn [c_neg c_ci c_items existsb item_mem xorb].
  rewrite one_range, orb_false_r. unfold nums_char. destruct (is_digit c), (N.eqb c 45); reflexivity.
Qed.
Lemma report_shape : rx_re re_report = Cat Bos (Cat (Grp 1 (Rep true 1 None (Cls name_cls))) (Cat (Grp 2 (Rep true 1 None (Cls nums_cls))) Eos)).
Proof. reflexivity. Qed.
Lemma mt_bos x g x' g' : mt Bos x g x' g' <-> x' = x /\ g' = g /\ pos x = 0.
Proof. split; [intros H; inversion H; auto|]. intros (-> & -> & P). now constructor. Qed.
Lemma report_some v o : re_match (rx_re re_report) v = Some o ->
  exists name nums t, v = name ++ nums ++ t /\ (t = [] \/ t = [10%N]) /\ name <> [] /\ nums <> [] /\ forallb name_char name = true /\ forallb nums_char nums = true
    /\ g_str v o 1 = name /\ g_str v o 2 = nums.
Proof.
  intros E. apply re_match_some in E as (w & x' & F & M & _). rewrite report_shape in M.
  apply mt_cat_iff in M as (y0 & h0 & M0 & M). apply mt_bos in M0 as (-> & -> & _).
  apply mt_cat_iff in M as (y & h & M1 & M). apply mt_cat_iff in M as (z & h2 & M2 & M3).
  apply mt_grp_iff in M1 as (h1' & M1 & G1). apply mt_grp_iff in M2 as (h2' & M2 & G2). apply mt_eos in M3 as (-> & G3 & T).
  apply mt_rep_cls in M1 as (name & F1 & A1 & L1 & _ & ->). apply mt_rep_cls in M2 as (nums & F2 & A2 & L2 & _ & ->).
  rewrite name_cls_all in A1. rewrite nums_cls_all in A2.
  pose proof F1 as (S1 & _ & P1). pose proof F2 as (S2 & _ & P2). cbn in S1, P1. rewrite S2 in S1.
  exists name, nums, (suf z). split; auto. split; auto. split; [destruct name; [cbn in L1; lia|discriminate]|]. split; [destruct nums; [cbn in L2; lia|discriminate]|].
  split; auto. split; auto. rewrite P1 in *.
  unfold g_str, g_text, g_span. rewrite G3, G2, G1. cbn [Nat.eqb lookup_group]. cbn [init pos]. rewrite P2. clear - S1. subst v. unfold slice. split.
  - rewrite Nat.sub_0_r. cbn [skipn]. rewrite firstn_app, firstn_all, Nat.sub_diag. cbn. apply app_nil_r.
  - rewrite skipn_app, skipn_all, Nat.sub_diag. cbn [skipn app]. replace (length name + length nums - length name) with (length nums) by lia.
    rewrite firstn_app, firstn_all, Nat.sub_diag. cbn. apply app_nil_r.
Qed.
Lemma report_none v : re_match (rx_re re_report) v = None ->
  forall name nums, v = name ++ nums -> name <> [] -> nums <> [] -> forallb name_char name = true -> forallb nums_char nums = true -> False.
Proof.
  intros H name nums -> N1 N2 A1 A2. eapply re_match_none in H; [|reflexivity]. apply H. rewrite report_shape.
  apply mt_cat_iff. exists (init (name ++ nums)), []. split; [apply mt_bos; auto|].
  apply mt_cat_iff. exists (after (init (name ++ nums)) name). eexists. split.
  - apply mt_grp_iff. exists []. split; [|reflexivity]. apply mt_rep_cls. exists name. split; [eapply fwd_after; reflexivity|].
    rewrite name_cls_all. repeat split; auto. destruct name; [congruence|cbn; lia].
  - apply mt_cat_iff. eexists (after (after (init (name ++ nums)) name) nums), _. split.
    + apply mt_grp_iff. eexists. split; [|reflexivity]. apply mt_rep_cls. exists nums.
      split; [apply (fwd_after _ nums []); cbn; rewrite skipn_app, skipn_all, Nat.sub_diag, app_nil_r; reflexivity|].
      rewrite nums_cls_all. repeat split; auto. destruct nums; [congruence|cbn; lia].
    + apply mt_eos. split; auto. split; auto. left. cbn. rewrite skipn_app, skipn_all, Nat.sub_diag. cbn. apply skipn_all.
Qed.
Lemma endswith_dash name : name <> [] -> forallb name_char name = true -> endswith name (py "-") = false ->
  exists n c, name = n ++ [c] /\ is_upper_ascii c = true.
Proof.
  intros N A E. destruct (exists_last N) as (n & c & ->). exists n, c. split; auto.
  rewrite forallb_app in A. apply andb_true_iff in A as [_ A]. cbn in A. rewrite andb_true_r in A. unfold name_char in A.
  unfold endswith in E. rewrite rev_app_distr in E. change (rev (py "-")) with [45%N] in E. cbn [rev app prefixb] in E. rewrite andb_true_r in E.
  rewrite N.eqb_sym in E. now rewrite E, orb_false_r in A.
Qed.
(** a dash is put between a capital letter and the digits or dash after it, once; nothing else happens
    (a final line feed is dropped) *)
Definition report_step (e e' : el) : Prop :=
  (exists n c nums t, e_type e = REPORTNUMBER /\ get Kreport_num e = Some (VS (n ++ [c] ++ nums ++ t)) /\ (t = [] \/ t = [10%N])
     /\ forallb name_char n = true /\ is_upper_ascii c = true /\ nums <> [] /\ forallb nums_char nums = true
     /\ get Kreport_num e' = Some (VS (n ++ [c] ++ py "-" ++ nums)) /\ only_changes [Kreport_num] e e')
  \/ ((forall n c d nums, e_type e = REPORTNUMBER -> get Kreport_num e = Some (VS (n ++ [c] ++ d :: nums)) ->
        forallb name_char n = true -> is_upper_ascii c = true -> is_digit d = true -> forallb nums_char nums = true -> False) /\ e' = e).
Definition has_report (e : el) : Prop := e_type e = REPORTNUMBER -> exists s, get Kreport_num e = Some (VS s).
Lemma upper_not_nums c : is_upper_ascii c = true -> nums_char c = false.
Proof.
  unfold is_upper_ascii, in_range, nums_char, is_digit, is_ascii_digit, in_range. intros H. apply andb_true_iff in H as [A B].
  apply N.leb_le in A, B. destruct (N.ltb_spec c 128); [|lia]. destruct (N.leb_spec c 57); [lia|]. rewrite andb_false_r.
  destruct (N.eqb_spec c 45); [lia|reflexivity].
Qed.
Lemma digit_not_name c : is_digit c = true -> name_char c = false.
Proof.
  unfold is_digit, name_char, is_upper_ascii, is_ascii_digit, in_range. destruct (N.ltb_spec c 128) as [L|L].
  - intros H. apply andb_true_iff in H as [A B]. apply N.leb_le in A, B. destruct (N.leb_spec 65 c); [lia|]. cbn.
    destruct (N.eqb_spec c 45); [lia|reflexivity].
  - intros _. destruct (N.leb_spec c 90); [lia|]. rewrite andb_false_r. destruct (N.eqb_spec c 45); [lia|reflexivity].
Qed.
Lemma format_report_spec l : Forall has_report l -> exists l', format_report_number l = Ok l' /\ Forall2 report_step l l'.
Proof.
  intros H. unfold format_report_number. apply mapM_total. apply Forall_forall. intros e He. rewrite Forall_forall in H. specialize (H _ He).
  unfold format_report_number_el. destruct (is_type REPORTNUMBER e) eqn:T; [apply is_type_true in T|].
  - destruct (H T) as (v & G). rewrite (get_str_ok _ _ _ G). cbn [bind]. destruct (re_match (rx_re re_report) v) as [o|] eqn:M.
    + apply report_some in M as (name & nums & t & -> & Tt & N1 & N2 & A1 & A2 & -> & ->).
      destruct (endswith name (py "-")) eqn:W; cbn [negb].
      * exists e. split; auto. right. split; auto. intros n c d nums' _ G' B1 B2 B3 B4.
        assert (name ++ nums ++ t = n ++ [c] ++ d :: nums') as Q by congruence.
        unfold endswith in W. destruct (exists_last N1) as (n1 & x & ->). rewrite rev_app_distr in W.
        change (rev (py "-")) with [45%N] in W. cbn [rev app prefixb] in W. rewrite andb_true_r in W. apply N.eqb_eq in W. subst x.
        (* the letter c can be neither in the numbers nor, followed by a digit, in the name *)
        rewrite <- !app_assoc in Q. cbn [app] in Q.
        assert (forall n1 n : str, n1 ++ 45%N :: nums ++ t = n ++ c :: d :: nums' -> forallb name_char (n1 ++ [45%N]) = true -> forallb name_char n = true -> False) as U.
        { induction n0 as [|a n0 IH]; intros [|b n'] Q' C1 C2; cbn in Q'; inversion Q'; subst.
          - discriminate.
          - (* then c is in nums ++ t *)
            assert (In c (nums ++ t)) as I by (match goal with E : nums ++ t = _ |- _ => rewrite E end; apply in_app_iff; right; left; auto).
            apply in_app_iff in I as [I|I].
            + rewrite forallb_forall in A2. specialize (A2 _ I). rewrite upper_not_nums in A2 by auto. discriminate.
            + destruct Tt as [->| ->]; cbn in I; [contradiction|]. destruct I as [<-|[]]. discriminate.
          - destruct n0 as [|d' n0]; cbn in *; inversion Q'; subst; try discriminate.
            rewrite (digit_not_name d) in C1 by auto. destruct (name_char c); discriminate.
          - cbn [app forallb] in C1, C2. apply andb_true_iff in C1 as [_ C1]. apply andb_true_iff in C2 as [_ C2]. eapply IH; eauto. }
        eapply (U n1 n); eauto.
      * destruct (endswith_dash name N1 A1 W) as (n & c & -> & Uc). eexists. split; [reflexivity|]. left.
        exists n, c, nums, t. rewrite forallb_app in A1. apply andb_true_iff in A1 as [A1 _].
        rewrite <- app_assoc in G. repeat (split; auto); [|apply set_str_only]. rewrite get_set_str. do 2 f_equal. now rewrite <- app_assoc.
    + exists e. split; auto. right. split; auto. intros n c d nums _ G' B1 B2 B3 B4.
      apply (report_none v M (n ++ [c]) (d :: nums)).
      * rewrite <- app_assoc. congruence.
      * destruct n; discriminate.
      * discriminate.
      * rewrite forallb_app. apply andb_true_iff. split; [exact B1|]. cbn. unfold name_char. now rewrite B2.
      * cbn [forallb]. apply andb_true_iff. split; [|exact B4]. unfold nums_char. now rewrite B3.
  - exists e. split; auto. right. split; auto. intros n c d nums T'. apply is_type_true in T'. congruence.
Qed.

(** format_hep: a known category followed by a dash gets a slash instead *)
Definition hep_categories := map py ["astro-ph"; "hep-th"; "hep-ph"; "hep-ex"; "hep-lat"; "math-ph"]%string.
Definition hep_value (s s' : str) : Prop :=
  (exists c n, In c hep_categories /\ s = c ++ py "-" ++ n /\ s' = c ++ py "/" ++ n)
  \/ ((forall c n, In c hep_categories -> s <> c ++ py "-" ++ n) /\ s' = s).
Lemma prefixb_split p : forall s, prefixb p s = true <-> exists t, s = p ++ t.
Proof.
  induction p as [|c p IH]; intros s; cbn; [split; eauto|]. destruct s as [|d s].
  - split; [discriminate|]. intros (t & E); discriminate.
  - rewrite andb_true_iff, N.eqb_eq, IH. split.
    + intros (-> & t & ->). eauto.
    + intros (t & E). inversion E; subst. eauto.
Qed.
Lemma hep_step_hit c n : In c hep_categories -> hep_step (c ++ py "-" ++ n) (c ++ py "-") = c ++ py "/" ++ n.
Proof.
  intros I. unfold hep_step, startswith. rewrite (proj2 (prefixb_split _ _)) by (exists n; now rewrite <- app_assoc).
  rewrite app_length. change (length (py "-")) with 1. replace (length c + 1 - 1) with (length c) by lia.
  rewrite firstn_app, firstn_all, Nat.sub_diag. cbn [firstn]. rewrite app_nil_r. f_equal. f_equal.
  rewrite skipn_app. replace (length c + 1 - length c) with 1 by lia. rewrite skipn_all2 by lia. reflexivity.
Qed.
Lemma hep_step_miss s p : (forall t, s <> p ++ t) -> hep_step s p = s.
Proof.
  intros H. unfold hep_step, startswith. destruct (prefixb p s) eqn:E; auto. apply prefixb_split in E as (t & E). exfalso. eapply H; eauto.
Qed.
Lemma hep_prefixes_eq : hep_prefixes = map (fun c => c ++ py "-") hep_categories. Proof. reflexivity. Qed.
Lemma hep_value_spec s : hep_value s (fold_left hep_step hep_prefixes s).
Proof.
  destruct (existsb (fun p => startswith s p) hep_prefixes) eqn:E.
  - left. apply existsb_exists in E as (p & I & S). apply prefixb_split in S as (n & ->).
    rewrite hep_prefixes_eq in I. apply in_map_iff in I as (c & <- & I). exists c, n. split; auto. rewrite <- app_assoc. split; auto.
    unfold hep_categories in I. cbn [map In] in I. repeat (destruct I as [<-|I]; [reflexivity|]). contradiction.
  - right. assert (forall p, In p hep_prefixes -> forall t, s <> p ++ t) as N.
    { intros p I t ->. assert (existsb (fun p0 => startswith (p ++ t) p0) hep_prefixes = true); [|congruence].
      apply existsb_exists. exists p. split; auto. apply prefixb_split. eauto. }
    split.
    + intros c n I ->. apply (N (c ++ py "-")) with n; [rewrite hep_prefixes_eq; now apply in_map with (f := fun c => c ++ py "-")|now rewrite <- app_assoc].
    + revert N. generalize hep_prefixes. intros ps. induction ps as [|p ps IH]; intros N; cbn [fold_left]; auto.
      rewrite hep_step_miss by (apply N; left; auto). apply IH. intros q I. apply N. right. auto.
Qed.
Definition hep_el_step (e e' : el) : Prop :=
  (exists s s', e_type e = REPORTNUMBER /\ get Kreport_num e = Some (VS s) /\ get Kreport_num e' = Some (VS s') /\ hep_value s s' /\ only_changes [Kreport_num] e e')
  \/ (e_type e <> REPORTNUMBER /\ e' = e).
Lemma format_hep_spec l : Forall has_report l -> exists l', format_hep l = Ok l' /\ Forall2 hep_el_step l l'.
Proof.
  intros H. unfold format_hep. apply mapM_total. apply Forall_forall. intros e He. rewrite Forall_forall in H. specialize (H _ He).
  unfold format_hep_el. destruct (is_type REPORTNUMBER e) eqn:T; [apply is_type_true in T|].
  - destruct (H T) as (v & G). rewrite (get_str_ok _ _ _ G). cbn [bind]. eexists. split; [reflexivity|]. left.
    exists v, (fold_left hep_step hep_prefixes v). repeat (split; auto); [apply get_set_str|apply hep_value_spec|apply set_str_only].
  - exists e. split; auto. right. split; auto. intros T'. apply is_type_true in T'. congruence.
Qed.
