(** What find_numeration and find_numeration_more find (C57). *)
From Coq Require Import List Arith NArith Bool String Lia.
From Verif Require Import PyStr ListFacts NumberFacts Regex RegexMeta RegexLang RegexParse Patterns Numeration CaptureLang TaggerProofs ArxivProofs NumGrammar NumProofs.
Import ListNotations.
Local Open Scope nat_scope.
Local Notation length := List.length.

(** ** Searching *)
Lemma search_from r : forall t a0, match search_at r (length a0) (rev a0) t with
  | Some o => exists a u, t = a ++ u /\ run r false (here (a0 ++ a) u) = Some o /\ forall p q, a = p ++ q -> q <> [] -> run r false (here (a0 ++ p) (q ++ u)) = None
  | None => forall p q, t = p ++ q -> run r false (here (a0 ++ p) q) = None end.
Proof.
  induction t as [|c t IH]; intros a0; cbn [search_at]; change (mkst (length a0) (rev a0) ?x) with (here a0 x); destruct (run r false (here a0 _)) as [o|] eqn:E.
  - exists [], []. split; auto. split; [now rewrite app_nil_r|]. intros [|x p] [|y q]; try discriminate. congruence.
  - intros [|x p] [|y q]; try discriminate. intros _. now rewrite (app_nil_r a0).
  - exists [], (c :: t). split; auto. split; [now rewrite app_nil_r|]. intros [|x p] [|y q]; try discriminate. congruence.
  - specialize (IH (a0 ++ [c])). rewrite rev_app_distr, app_length, Nat.add_1_r in IH. cbn [rev app] in IH. destruct (search_at r (S (length a0)) (c :: rev a0) t) as [o|].
    + destruct IH as (a & u & -> & R & N). exists (c :: a), u. split; auto. rewrite <- app_assoc in R. split; auto. intros [|x p] q E' Q.
      * cbn [app] in E'. subst q. now rewrite app_nil_r.
      * injection E' as <- ->. specialize (N p q eq_refl Q). now rewrite <- app_assoc in N.
    + intros [|x p] q E'; [cbn [app] in E'; subst q; now rewrite app_nil_r|]. injection E' as <- E'. specialize (IH p q E'). now rewrite <- app_assoc in IH.
Qed.
Lemma search_spec r s : fair r = true -> match re_search r s with
  | Some o => exists a w b c, s = a ++ w ++ b /\ rd r a w b c /\ m_start o = length a /\ m_end o = length a + length w /\ (forall i, i <> 0 -> g_text s o i = cap i c)
      /\ forall p q u v c', a = p ++ q -> q <> [] -> q ++ w ++ b = u ++ v -> ~ rd r p u v c'
  | None => forall a w b c, s = a ++ w ++ b -> ~ rd r a w b c end.
Proof.
  intros F. unfold re_search. pose proof (search_from r s []) as H. cbn [length rev app] in H. destruct (search_at r 0 [] s) as [o|].
  - destruct H as (a & u & -> & R & N). destruct (run_rd _ _ _ _ F R) as (w & b & c & -> & D & E1 & E2 & G). exists a, w, b, c. split; auto. split; auto. split; auto. split; auto. split; auto.
    intros p q u v c' E Q E'. specialize (N p q E Q). rewrite E' in N. now apply run_not.
  - intros a w b c E. specialize (H a (w ++ b) E). now apply run_not.
Qed.
Lemma match_spec r s : fair r = true -> match re_match r s with
  | Some o => exists w b c, s = w ++ b /\ rd r [] w b c /\ m_end o = length w /\ (forall i, i <> 0 -> g_text s o i = cap i c)
  | None => forall w b c, s = w ++ b -> ~ rd r [] w b c end.
Proof.
  intros F. unfold re_match. change (init s) with (here [] s). destruct (run r false (here [] s)) as [o|] eqn:R.
  - destruct (run_rd _ _ _ _ F R) as (w & b & c & E & D & E1 & E2 & G). exists w, b, c. auto.
  - intros w b c ->. now apply run_not.
Qed.

(** ** The series *)
Lemma rd_bos a w b c : rd Bos a w b c <-> w = [] /\ c = [] /\ a = []. Proof. reflexivity. Qed.
Definition code1 (f : field) : nat := match f with Fseries => 1 | _ => 2 + field_code f end.
Definition no_text : part := place (fun a _ => a = []).
Lemma reads_bos g : reads g Bos no_text. Proof. apply reads_place, rd_bos. Qed.
Definition before_part : part := no_text ;; named Fseries (one is_letter) ;; start ;; many 1 None is_digit.
Definition behind_part : part := no_text ;; many 1 None is_digit ;; start ;; named Fseries (one (in_range 65 90)).
Lemma reads_before : reads code1 (rx_re re_series_from_numeration) before_part.
Proof.
  change (rx_re re_series_from_numeration) with (Cat Bos (Cat (Grp 1 (Cls (mkcls false false [CRange 65 90; CRange 97 122]))) (thn start_re (Rep true 1 None (Cls digit_cls))))).
  unfold before_part. apply reads_cat; [apply reads_bos|]. apply reads_cat; [tree|]. apply reads_thn; [apply reads_start|]. apply reads_rep, digit_mem.
Qed.
Lemma reads_behind_part : reads code1 (rx_re re_series_from_numeration_after_volume) behind_part.
Proof.
  change (rx_re re_series_from_numeration_after_volume) with (Cat Bos (Cat (Rep true 1 None (Cls digit_cls)) (thn start_re (Grp 1 (Cls (mkcls false false [CRange 65 90])))))).
  unfold behind_part. apply reads_cat; [apply reads_bos|]. apply reads_cat; [apply reads_rep, digit_mem|]. apply reads_thn; [apply reads_start|]. tree.
Qed.
Lemma start_gap a w b fs : start a w b fs <-> gap w /\ fs = [].
Proof.
  unfold gap, start, seq, blanks, many, one, maybe, text. split.
  - intros (u & v & f1 & f2 & -> & -> & (U & ->) & (x & y & f3 & f4 & -> & -> & X & (Y & ->))). assert (f3 = []) as -> by (destruct X as [(_ & ->)|(_ & ->)]; auto). cbn [app]. split; auto.
    exists u, (x ++ y), [], []. cbn [app]. split; auto. split; auto. split; auto. exists x, y, [], []. split; auto.
  - intros ((u & v & f1 & f2 & -> & E & (U & ->) & (x & y & f3 & f4 & -> & -> & X & (Y & ->))) & ->). assert (f3 = []) as -> by (destruct X as [(_ & ->)|(_ & ->)]; auto).
    exists u, (x ++ y), [], []. cbn [app]. split; auto. split; auto. split; auto. exists x, y, [], []. split; auto.
Qed.
Lemma before_iff a w b fs : before_part a w b fs -> a = [] /\ exists c, series_before (w ++ b) c /\ field_of Fseries fs = Some [c].
Proof.
  intros (u & x & f1 & f2 & -> & -> & (-> & -> & ->) & (y & z & f3 & f4 & -> & -> & (f5 & -> & ((c & -> & C) & ->)) & (p & q & f6 & f7 & -> & -> & P & ((D & L & _) & ->)))).
  apply start_gap in P as (P & ->). split; auto. exists c. split; auto. destruct q as [|d q]; [cbn in L; lia|]. cbn [forallb] in D. apply andb_true_iff in D as [D _]. exists p, d, (q ++ b). cbn [app]. rewrite <- !app_assoc. auto.
Qed.
Lemma before_made v c : series_before v c -> exists w b, v = w ++ b /\ before_part [] w b [(Fseries, [c])].
Proof.
  intros (u & d & t & -> & C & U & D). exists ([c] ++ u ++ [d]), t. rewrite <- !app_assoc. split; auto. exists [], ([c] ++ u ++ [d]), [], [(Fseries, [c])]. split; auto. split; auto. split; [repeat split|].
  exists [c], (u ++ [d]), [(Fseries, [c])], []. split; auto. split; auto. split; [exists []; split; auto; split; eauto|]. exists u, [d], [], []. split; auto. split; auto. split; [now apply start_gap|]. split; auto. cbn. rewrite D. auto.
Qed.
Lemma behind_iff a w b fs : behind_part a w b fs -> a = [] /\ exists c, series_behind (w ++ b) c /\ field_of Fseries fs = Some [c].
Proof.
  intros (u & x & f1 & f2 & -> & -> & (-> & -> & ->) & (y & z & f3 & f4 & -> & -> & ((D & L & _) & ->) & (p & q & f6 & f7 & -> & -> & P & (f5 & -> & ((c & -> & C) & ->))))).
  apply start_gap in P as (P & ->). split; auto. exists c. split; auto. exists y, p, b. cbn [app]. rewrite <- !app_assoc. split; auto. split; auto. intros ->. cbn in L. lia.
Qed.
Lemma behind_made v c : series_behind v c -> exists w b, v = w ++ b /\ behind_part [] w b [(Fseries, [c])].
Proof.
  intros (n & u & t & -> & N & D & U & C). exists (n ++ u ++ [c]), t. rewrite <- !app_assoc. split; auto. exists [], (n ++ u ++ [c]), [], [(Fseries, [c])]. split; auto. split; auto. split; [repeat split|].
  exists n, (u ++ [c]), [], [(Fseries, [c])]. split; auto. split; auto. split; [split; auto; split; auto; destruct n; [congruence|cbn; split; auto; lia]|]. exists u, [c], [], [(Fseries, [c])]. split; auto. split; auto. split; [now apply start_gap|]. exists []. split; auto. split; eauto.
Qed.
Lemma code1_inj f f' : code1 f = code1 f' -> f = f'. Proof. apply (inj_of code1). reflexivity. Qed.
Lemma upper_capital c : in_range 65 90 c = true -> upper [c] = [c].
Proof.
  intros H. unfold in_range in H. apply andb_true_iff in H as [H1 H2]. apply N.leb_le in H1, H2.
  assert (In c (map (fun n => N.of_nat (65 + n)) (List.seq 0 26))) as I. { apply in_map_iff. exists (N.to_nat c - 65). split; [|apply in_seq]; lia. }
  revert I. apply Forall_forall with (P := fun c => upper [c] = [c]). apply Forall_map. apply Forall_forall. intros n I. cbn in I.
  repeat (destruct I as [<-|I]; [reflexivity|]). destruct I.
Qed.
Lemma series_exact v : series_in v (extract_series_from_volume v).
Proof.
  unfold extract_series_from_volume, series_in. pose proof (search_spec (rx_re re_series_from_numeration) v eq_refl) as H. destruct (re_search (rx_re re_series_from_numeration) v) as [o|].
  - destruct H as (a & w & b & c & -> & R & _ & _ & G & _). apply reads_before in R as (fs & R & ->). apply before_iff in R as (-> & x & B & F). left. exists x. cbn [app] in *. split; auto. unfold g_str. rewrite G by discriminate. change 1 with (code1 Fseries).
    rewrite cap_field, F by exact code1_inj. reflexivity.
  - assert (forall c, ~ series_before v c) as N.
    { intros c B. apply before_made in B as (w & b & -> & B). apply (H [] w b (caps_of code1 [(Fseries, [c])]) eq_refl). apply reads_before. eauto. }
    right. clear H. pose proof (search_spec (rx_re re_series_from_numeration_after_volume) v eq_refl) as H. destruct (re_search (rx_re re_series_from_numeration_after_volume) v) as [o|].
    + left. split; auto. destruct H as (a & w & b & c & -> & R & _ & _ & G & _). apply reads_behind_part in R as (fs & R & ->). apply behind_iff in R as (-> & x & B & F). exists x. cbn [app] in *. split; auto. unfold g_str. rewrite G by discriminate. change 1 with (code1 Fseries).
      rewrite cap_field, F by exact code1_inj. f_equal. apply upper_capital. now destruct B as (? & ? & ? & _ & _ & _ & _ & B).
    + right. split; auto. split; auto. intros c B. apply behind_made in B as (w & b & -> & B). apply (H [] w b (caps_of code1 [(Fseries, [c])]) eq_refl). apply reads_behind_part. eauto.
Qed.

(** ** What is reported *)
Definition reported (more : bool) (fs : fields) (n : nat) (i : numinfo) : Prop :=
  n_year i = field_of Fyear fs
  /\ n_volume i = first_of (field_of Fnumber fs) (first_of (field_of Fnumber2 fs) (field_of Fnumber3 fs))
  /\ n_page i = first_of (field_of Fpage fs) (field_of Fjinst fs)
  /\ n_page_end i = field_of Fpage_end fs
  /\ n_len i = n
  /\ exists v, field_of Fvolume fs = Some v /\ match (if more then None else field_of Fseries fs) with Some x => n_series i = Some x | None => series_in v (n_series i) end.
(** the facts about a pattern that can be computed *)
Definition usable (more : bool) (p : rx) : bool :=
  fair (rx_re p) && distinct (map (group_no p) all_fields) && forallb (fun f => negb (group_no p f =? 0)) all_fields
  && forallb (fun f => match assoc_str (py (field_name f)) (rx_names p) with Some _ => true | None => negb (existsb (fun q => fst q =? group_no p f) (group_mins (rx_re p))) end) [Fseries; Fyear]
  && forallb (fun f => match assoc_str (py (field_name f)) (rx_names p) with Some _ => true | None => false end) ([Fvolume; Fnumber; Fnumber2; Fnumber3; Fpage; Fjinst; Fpage_end] ++ if more then [Fafter] else [])
  && forallb (fun q => negb (snd q =? 0)) (group_mins (rx_re p))
  && forallb (fun f => forced (rx_re p) (group_no p f)) (Fvolume :: if more then [Fafter] else []).
Lemma usable_all : forallb (usable false) numeration_rxs = true. Proof. vm_compute. reflexivity. Qed.
Lemma usable_more : forallb (usable true) second_try = true. Proof. vm_compute. reflexivity. Qed.
Section Report.
Variables (more : bool) (p : rx) (s : str) (o : mobj) (a w b : str) (fs : fields).
Hypothesis U : usable more p = true.
Hypothesis R : rd (rx_re p) a w b (caps_of (group_no p) fs).
Hypothesis G : forall i, i <> 0 -> g_text s o i = cap i (caps_of (group_no p) fs).
Lemma usable_parts : fair (rx_re p) = true /\ (forall f f', group_no p f = group_no p f' -> f = f') /\ (forall f, group_no p f <> 0).
Proof.
  pose proof U as U'. unfold usable in U'. rewrite !andb_true_iff in U'. destruct U' as ((((((F & D) & Z) & _) & _) & _) & _). split; auto. split; [now apply inj_of|]. intros f. rewrite forallb_forall in Z. specialize (Z f (all_fields_in f)). apply negb_true_iff in Z. now apply Nat.eqb_neq.
Qed.
Lemma group_field f : g_text s o (group_no p f) = field_of f fs.
Proof. destruct usable_parts as (_ & I & Z). rewrite G by auto. now apply cap_field. Qed.
Lemma not_empty f t : field_of f fs = Some t -> t <> [].
Proof.
  destruct usable_parts as (F & I & _). rewrite <- (cap_field (group_no p) f fs I). intros E. apply cap_some in E. destruct (rd_groups _ F _ _ _ _ R _ _ E) as (k & K & L).
  pose proof U as U'. unfold usable in U'. rewrite !andb_true_iff in U'. destruct U' as (((((_ & _) & _) & _) & M) & _). rewrite forallb_forall in M. specialize (M _ K). apply negb_true_iff, Nat.eqb_neq in M. cbn in M. intros ->. cbn in L. lia.
Qed.
Lemma truthy_field f : truthy_str (field_of f fs) = match field_of f fs with Some _ => true | None => false end.
Proof. destruct (field_of f fs) as [t|] eqn:E; auto. apply not_empty in E. now destruct t. Qed.
Lemma gd_field f n : field_name f = n -> In f [Fvolume; Fnumber; Fnumber2; Fnumber3; Fpage; Fjinst; Fpage_end] \/ (more = true /\ f = Fafter) -> gd p s o n = Ok (field_of f fs).
Proof.
  intros <- I. rewrite <- group_field. unfold gd, group_no. pose proof U as U'. unfold usable in U'. rewrite !andb_true_iff in U'. destruct U' as ((((_ & _) & N) & _) & _). rewrite forallb_forall in N.
  assert (In f ([Fvolume; Fnumber; Fnumber2; Fnumber3; Fpage; Fjinst; Fpage_end] ++ (if more then [Fafter] else []))) as J by (apply in_app_iff; destruct I as [I|(-> & ->)]; cbn; auto).
  specialize (N f J). destruct (assoc_str (py (field_name f)) (rx_names p)) as [i|] eqn:E; [|discriminate]. destruct f; auto.
  exfalso. destruct I as [I|(_ & I)]; [cbn in I; intuition discriminate|discriminate].
Qed.
Lemma gd_maybe f n : field_name f = n -> In f [Fseries; Fyear] -> gd_get p s o n = field_of f fs.
Proof.
  intros <- I. destruct usable_parts as (F & Inj & Z). pose proof U as U'. unfold usable in U'. rewrite !andb_true_iff in U'. destruct U' as ((((_ & N) & _) & _) & _). rewrite forallb_forall in N. specialize (N f I).
  assert (group_no p f = match assoc_str (py (field_name f)) (rx_names p) with Some i => i | None => 100 + field_code f end) as E by (destruct I as [<-|[<-|[]]]; reflexivity).
  unfold gd_get. destruct (assoc_str (py (field_name f)) (rx_names p)) as [i|] eqn:A; [rewrite <- E; apply group_field|].
  destruct (field_of f fs) as [t|] eqn:Q; auto. exfalso. rewrite <- (cap_field (group_no p) f fs Inj) in Q. apply cap_some in Q. destruct (rd_groups _ F _ _ _ _ R _ _ Q) as (k & K & _). apply negb_true_iff in N.
  assert (existsb (fun q => fst q =? group_no p f) (group_mins (rx_re p)) = true) by (apply existsb_exists; eexists; split; [exact K|apply Nat.eqb_refl]). congruence.
Qed.
Lemma forced_field f : In f (Fvolume :: if more then [Fafter] else []) -> exists t, field_of f fs = Some t.
Proof.
  intros I. destruct usable_parts as (F & Inj & Z). pose proof U as U'. unfold usable in U'. rewrite !andb_true_iff in U'. destruct U' as (_ & N). rewrite forallb_forall in N. specialize (N f I). destruct (rd_forced _ _ N _ _ _ _ R) as (t & T). apply cap_in in T.
  rewrite (cap_field (group_no p) f fs Inj) in T. destruct (field_of f fs); [eauto|congruence].
Qed.
Lemma volume_field : vol_num_of p s o = Ok (first_of (field_of Fnumber fs) (first_of (field_of Fnumber2 fs) (field_of Fnumber3 fs))).
Proof.
  unfold vol_num_of. rewrite (gd_field Fnumber "vol_num"%string eq_refl) by (cbn; auto 12). cbn [bind]. rewrite truthy_field. destruct (field_of Fnumber fs) eqn:E1; auto. rewrite (gd_field Fnumber2 "vol_num_alt"%string eq_refl) by (cbn; auto 12). cbn [bind]. rewrite truthy_field.
  destruct (field_of Fnumber2 fs) eqn:E2; auto. apply (gd_field Fnumber3 "vol_num_alt2"%string eq_refl). cbn; auto 12.
Qed.
Lemma or_field x y : or_else (field_of x fs) y = first_of (field_of x fs) y.
Proof. unfold or_else, first_of. destruct (field_of x fs) as [t|] eqn:E; auto. apply not_empty in E. destruct t; congruence. Qed.
Lemma page_field : (let* page := gd p s o "page" in let* jinst := (if truthy_str page then Ok None else gd p s o "jinst_page") in Ok (or_else page jinst)) = Ok (first_of (field_of Fpage fs) (field_of Fjinst fs)).
Proof.
  rewrite (gd_field Fpage "page"%string eq_refl) by (cbn; auto 12). cbn [bind]. rewrite truthy_field. rewrite (gd_field Fjinst "jinst_page"%string eq_refl) by (cbn; auto 12). destruct (field_of Fpage fs) eqn:E; cbn [bind]; [|reflexivity]. rewrite <- E, or_field. now rewrite E.
Qed.
End Report.
Lemma info_reported p s o a w b fs : usable false p = true -> rd (rx_re p) a w b (caps_of (group_no p) fs) -> (forall i, i <> 0 -> g_text s o i = cap i (caps_of (group_no p) fs)) ->
  exists i, numeration_info p s o = Ok i /\ reported false fs (m_end o) i.
Proof.
  intros U R G. pose proof (gd_field false p s o fs U G) as D. pose proof (truthy_field false p a w b fs U R) as T. destruct (forced_field false p a w b fs U R Fvolume (or_introl eq_refl)) as (v & V).
  unfold numeration_info. rewrite (D Fvolume "vol"%string eq_refl) by (cbn; auto 12). cbn [bind]. rewrite (gd_maybe false p s o a w b fs U R G Fseries "series"%string eq_refl) by (cbn; auto). rewrite T.
  assert (exists sr, (match field_of Fseries fs with Some _ => Ok (field_of Fseries fs) | None => let* v0 := need (field_of Fvolume fs) in Ok (extract_series_from_volume v0) end) = Ok sr
    /\ match field_of Fseries fs with Some x => sr = Some x | None => series_in v sr end) as (sr & Es & Hs).
  { destruct (field_of Fseries fs) as [x|]; [eauto|]. rewrite V. cbn [need bind]. eexists. split; [reflexivity|apply series_exact]. }
  match goal with |- context [bind (if ?c then ?x else ?y) _] => replace (if c then x else y) with (Ok sr) by (rewrite <- Es; now destruct (field_of Fseries fs)) end. cbn [bind].
  rewrite (volume_field false p s o a w b fs U R G). cbn [bind]. pose proof (page_field false p s o a w b fs U R G) as P. rewrite (D Fpage "page"%string eq_refl) in P |- * by (cbn; auto 12). cbn [bind] in P |- *.
  destruct (if truthy_str (field_of Fpage fs) then Ok None else gd p s o "jinst_page") as [j|]; [|discriminate]. cbn [bind] in P |- *. injection P as P. rewrite (D Fpage_end "page_end"%string eq_refl) by (cbn; auto 12). cbn [bind].
  rewrite (gd_maybe false p s o a w b fs U R G Fyear "year"%string eq_refl) by (cbn; auto). eexists. split; [reflexivity|]. unfold reported. cbn [n_year n_volume n_page n_page_end n_len n_series]. repeat (split; auto). eauto.
Qed.
Lemma info_more_reported p s o a w b fs : usable true p = true -> rd (rx_re p) a w b (caps_of (group_no p) fs) -> (forall i, i <> 0 -> g_text s o i = cap i (caps_of (group_no p) fs)) ->
  exists i t, field_of Fafter fs = Some t /\ numeration_info_more p s o = Ok i /\ reported true fs (length t) i.
Proof.
  intros U R G. pose proof (gd_field true p s o fs U G) as D. destruct (forced_field true p a w b fs U R Fvolume (or_introl eq_refl)) as (v & V). destruct (forced_field true p a w b fs U R Fafter (or_intror (or_introl eq_refl))) as (t & A).
  unfold numeration_info_more. rewrite (D Fvolume "vol"%string eq_refl) by (cbn; auto 12). rewrite V. cbn [bind need].
  rewrite (volume_field true p s o a w b fs U R G). cbn [bind]. pose proof (page_field true p s o a w b fs U R G) as P. rewrite (D Fpage "page"%string eq_refl) in P |- * by (cbn; auto 12). cbn [bind] in P |- *.
  destruct (if truthy_str (field_of Fpage fs) then Ok None else gd p s o "jinst_page") as [j|]; [|discriminate]. cbn [bind] in P |- *. injection P as P. rewrite (D Fpage_end "page_end"%string eq_refl) by (cbn; auto 12). cbn [bind].
  rewrite (D Fafter "aftertitle"%string eq_refl) by auto. rewrite A. cbn [bind need]. rewrite (gd_maybe true p s o a w b fs U R G Fyear "year"%string eq_refl) by (cbn; auto). do 2 eexists. split; [reflexivity|]. split; [reflexivity|].
  unfold reported. cbn [n_year n_volume n_page n_page_end n_len n_series]. repeat (split; auto). exists v. split; auto. apply series_exact.
Qed.
(** ** find_numeration_more *)
Definition title_re := Eval vm_compute in fun k => shift k (compiled re_title_tag).
Definition dot_re := Eval vm_compute in compiled "\s*[.,\s:]\s*".
Definition title_orders_re : list re :=
  [ thn (year_re 0) (thn sep_re (thn (title_re 1) (Grp 3 (thn sep_re (thn (volume_re 3) (thn sep_re (page_re 7)))))));
    thn (year_re 0) (thn sep_re (thn (title_re 1) (Grp 3 (thn sep_re (thn (volume_re 3) (thn sep_re (thn (series_re 7) (thn sep_re (page_re 8)))))))));
    thn (title_re 0) (Grp 2 (thn sep_re (thn (volume_re 2) (thn sep_re (page_re 6)))));
    thn (title_re 0) (Grp 2 (thn sep_re (thn (year_re 2) (thn dot_re (thn (volume_re 3) (thn sep_re (page_re 7))))))) ].
Lemma title_shape : map rx_re second_try = title_orders_re. Proof. reflexivity. Qed.
Lemma reads_dot g : reads g dot_re dot_separator.
Proof. unfold dot_re, dot_separator, blanks. tree. Qed.
Lemma rd_title_text a w b c : rd (lits false (py "<cds.JOURNAL>") (thn (Rep true 0 None (Cls (mkcls true false [CRange 60 60]))) (word_re false (py "</cds.JOURNAL>")))) a w b c
  <-> (exists t, w = py "<cds.JOURNAL>" ++ t ++ py "</cds.JOURNAL>" /\ forallb (fun c => negb (N.eqb c 60)) t = true) /\ c = [].
Proof.
  assert (forall d, cls_mem (mkcls true false [CRange 60 60]) d = negb (N.eqb d 60)) as K by (intros d; unfold cls_mem; cbn [c_neg c_ci c_items existsb item_mem]; rewrite range_one, orb_false_r; apply xorb_true_l).
  rewrite rd_lits. split.
  - intros (u & v & -> & U & H). unfold letters in U. subst u. apply (proj1 (rd_thn _ _ _ _ _ _)) in H. apply rd_cat in H as (t & x & c1 & c2 & -> & -> & H1 & H2). apply rd_rep_cls in H1 as (T & _ & _ & ->). apply rd_word in H2 as (X & ->); [|discriminate]. unfold letters in X. subst x.
    split; auto. exists t. rewrite (class_all _ _ _ K) in T. auto.
  - intros ((t & -> & T) & ->). exists (py "<cds.JOURNAL>"), (t ++ py "</cds.JOURNAL>"). split; auto. split; [reflexivity|]. apply (proj2 (rd_thn _ _ _ _ _ _)). apply rd_cat. exists t, (py "</cds.JOURNAL>"), [], []. split; auto. split; auto. split.
    + apply rd_rep_cls. rewrite (class_all _ _ _ K). cbn. repeat split; auto. lia.
    + apply rd_word; [discriminate|]. split; reflexivity.
Qed.
Lemma reads_title g k : g Ftitle = S k -> reads g (title_re k) tagged_title.
Proof.
  intros E. change (title_re k) with (Grp (S k) (lits false (py "<cds.JOURNAL>") (thn (Rep true 0 None (Cls (mkcls true false [CRange 60 60]))) (word_re false (py "</cds.JOURNAL>"))))).
  apply reads_grp; auto. apply reads_text, rd_title_text.
Qed.
Ltac known2 := first [known | apply reads_dot | apply reads_title; reflexivity].
Ltac chain2 := first [known2 | apply reads_grp; [reflexivity|chain2] | apply reads_thn; [known2|chain2]].
Lemma reads_title_orders n : n < 4 -> reads (group_no (nth n second_try rx0)) (nth n title_orders_re Eps) (nth n title_orders no_part).
Proof. intros L. do 4 (destruct n as [|n]; [cbn [nth title_orders_re title_orders]; chain2|]). lia. Qed.
