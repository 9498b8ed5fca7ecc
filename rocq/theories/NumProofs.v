(** The patterns of find_numeration read exactly the numerations of NumGrammar (C57). *)
From Coq Require Import List Arith NArith Bool String Lia.
From Verif Require Import PyStr ListFacts NumberFacts Regex RegexMeta RegexLang RegexParse Patterns Numeration CaptureLang TaggerProofs ArxivProofs NumGrammar.
Import ListNotations.
Local Open Scope nat_scope.
Local Notation length := List.length.

Definition caps_of (g : field -> nat) (fs : fields) : caps := map (fun q => (g (fst q), snd q)) fs.
Lemma caps_app g f1 f2 : caps_of g (f2 ++ f1) = caps_of g f2 ++ caps_of g f1. Proof. apply map_app. Qed.
(** the pattern reads exactly the part; its groups are the fields *)
Definition reads (g : field -> nat) (r : re) (p : part) : Prop := forall a w b c, rd r a w b c <-> exists fs, p a w b fs /\ c = caps_of g fs.

Lemma reads_cat g r1 r2 p q : reads g r1 p -> reads g r2 q -> reads g (Cat r1 r2) (seq p q).
Proof.
  intros H1 H2 a w b c. rewrite rd_cat. split.
  - intros (u & v & c1 & c2 & -> & -> & A & B). apply H1 in A as (f1 & A & ->). apply H2 in B as (f2 & B & ->). exists (f2 ++ f1). rewrite caps_app. split; auto. exists u, v, f1, f2. auto.
  - intros (fs & (u & v & f1 & f2 & -> & -> & A & B) & ->). rewrite caps_app. exists u, v, (caps_of g f1), (caps_of g f2). split; auto. split; auto. split; [apply H1; eauto|apply H2; eauto].
Qed.
Lemma reads_thn g r1 r2 p q : reads g r1 p -> reads g r2 q -> reads g (thn r1 r2) (seq p q).
Proof. intros H1 H2 a w b c. rewrite (rd_thn r1 r2). now apply reads_cat. Qed.
Lemma reads_alt g r1 r2 p q : reads g r1 p -> reads g r2 q -> reads g (Alt r1 r2) (either p q).
Proof.
  intros H1 H2 a w b c. rewrite rd_alt, (H1 a w b c), (H2 a w b c). unfold either. split; [intros [(fs & A & ->)|(fs & A & ->)]; exists fs; auto|].
  intros (fs & [A|A] & ->); [left|right]; eauto.
Qed.
Lemma reads_opt g gr r p : reads g r p -> reads g (Rep gr 0 (Some 1) r) (maybe p).
Proof.
  intros H a w b c. rewrite rd_opt, (H a w b c). unfold maybe. split; [intros [(-> & ->)|(fs & A & ->)]; [exists []|exists fs]; auto|].
  intros (fs & [(-> & ->)|A] & ->); [left|right]; eauto.
Qed.
Lemma reads_grp g f i r p : g f = i -> reads g r p -> reads g (Grp i r) (named f p).
Proof.
  intros <- H a w b c. rewrite rd_grp. split.
  - intros (c' & -> & A). apply H in A as (fs & A & ->). exists ((f, w) :: fs). split; auto. exists fs. auto.
  - intros (fs & (fs' & -> & A) & ->). exists (caps_of g fs'). split; auto. apply H. eauto.
Qed.
Lemma reads_text g r P : (forall a w b c, rd r a w b c <-> P w /\ c = []) -> reads g r (text P).
Proof. intros H a w b c. rewrite H. unfold text. split; [intros (A & ->); exists []; auto|intros (fs & (A & ->) & ->); auto]. Qed.
Lemma reads_place g r P : (forall a w b c, rd r a w b c <-> w = [] /\ c = [] /\ P a b) -> reads g r (place P).
Proof. intros H a w b c. rewrite H. unfold place. split; [intros (-> & -> & A); exists []; auto|intros (fs & (-> & -> & A) & ->); auto]. Qed.
Lemma reads_cls g k p : (forall d, cls_mem k d = p d) -> reads g (Cls k) (one p).
Proof. intros K. apply reads_text. intros a w b c. rewrite rd_cls. split; [intros (d & -> & D & ->); rewrite K in D; eauto|intros ((d & -> & D) & ->); exists d; rewrite K; auto]. Qed.
Lemma reads_rep g gr k p lo hi : (forall d, cls_mem k d = p d) -> reads g (Rep gr lo hi (Cls k)) (many lo hi p).
Proof. intros K. apply reads_text. intros a w b c. rewrite rd_rep_cls, (class_all _ _ _ K). destruct hi; cbn; tauto. Qed.
Lemma reads_not_ahead g n k p : (forall d, cls_mem k d = p d) -> reads g (Look true true n (Cls k)) (not_before p).
Proof.
  intros K. apply reads_place. intros a w b c. rewrite rd_not_ahead. enough ((exists u t c', b = u ++ t /\ rd (Cls k) a u t c') <-> first_is p b) as -> by reflexivity.
  unfold first_is. split; [intros (u & t & c' & -> & H); apply rd_cls in H as (d & -> & D & _); rewrite K in D; now exists d, t|intros (d & t & -> & D); exists [d], t, []; split; auto; apply rd_cls; exists d; rewrite K; auto].
Qed.
Lemma reads_ahead g n k p : (forall d, cls_mem k d = p d) -> reads g (Look true false n (Cls k)) (before p).
Proof.
  intros K. apply reads_place. intros a w b c. rewrite rd_ahead. enough ((exists u t c', b = u ++ t /\ rd (Cls k) a u t c') <-> first_is p b) as -> by reflexivity.
  unfold first_is. split; [intros (u & t & c' & -> & H); apply rd_cls in H as (d & -> & D & _); rewrite K in D; now exists d, t|intros (d & t & -> & D); exists [d], t, []; split; auto; apply rd_cls; exists d; rewrite K; auto].
Qed.
Lemma rd_behind n r a w b c : rd (Look false false n r) a w b c <-> w = [] /\ c = [] /\ exists p u c', a = p ++ u /\ length u = n /\ rd r p u b c'. Proof. reflexivity. Qed.
Lemma behind_last k p a b : (forall d, cls_mem k d = p d) -> (exists q u c', a = q ++ u /\ length u = 1 /\ rd (Cls k) q u b c') <-> last_is p a.
Proof.
  intros K. unfold last_is. split; [intros (q & u & c' & -> & _ & H); apply rd_cls in H as (d & -> & D & _); rewrite K in D; eauto|intros (q & d & -> & D); exists q, [d], []; split; auto; split; auto; apply rd_cls; exists d; rewrite K; auto].
Qed.
Lemma reads_not_behind g k p : (forall d, cls_mem k d = p d) -> reads g (Look false true 1 (Cls k)) (not_after p).
Proof. intros K. apply reads_place. intros a w b c. rewrite rd_not_behind, (behind_last k p a b K). reflexivity. Qed.
Lemma reads_behind g k p : (forall d, cls_mem k d = p d) -> reads g (Look false false 1 (Cls k)) (after p).
Proof. intros K. apply reads_place. intros a w b c. rewrite rd_behind, (behind_last k p a b K). reflexivity. Qed.
Lemma hd_first b : hd_is_word b = true <-> first_is is_word b.
Proof. unfold first_is. destruct b as [|d t]; cbn; [split; [discriminate|intros (? & ? & ? & _); discriminate]|]. split; [eauto|intros (c & u & E & H); now injection E as -> ->]. Qed.
Lemma hd_last a : hd_is_word (rev a) = true <-> last_is is_word a.
Proof.
  unfold last_is. rewrite hd_first. unfold first_is. split; intros (x & y & E & H).
  - exists (rev y), x. split; auto. now rewrite <- (rev_involutive a), E.
  - exists y, (rev x). subst. now rewrite rev_app_distr.
Qed.
Lemma reads_wordb g : reads g Wordb word_edge.
Proof.
  apply reads_place. intros a w b c. change (rd Wordb a w b c) with (w = [] /\ c = [] /\ xorb (hd_is_word (rev a)) (hd_is_word b) = true). rewrite <- hd_first, <- hd_last.
  destruct (hd_is_word (rev a)), (hd_is_word b); cbn; intuition congruence.
Qed.

(** ** Characters *)
Lemma mem_list l d : existsb (item_mem false d) (map (fun c => CRange c c) l) = some_of l d.
Proof. induction l as [|c l IH]; auto. cbn [map existsb some_of item_mem]. rewrite range_one. unfold some_of in IH |- *. now rewrite IH. Qed.
Lemma reads_any_of g l its : its = map (fun c => CRange c c) (py l) -> reads g (Cls (mkcls false false its)) (any_of l).
Proof. intros ->. apply reads_cls. intros d. rewrite class_items. apply mem_list. Qed.
Lemma mem_of l its d : its = map (fun c => CRange c c) l -> cls_mem (mkcls false false its) d = some_of l d.
Proof. intros ->. rewrite class_items. apply mem_list. Qed.
Ltac mem := intros; first [apply mem_of; reflexivity | rewrite ?class_items; cbn [existsb item_mem]; rewrite ?range_one, ?eqb_true, ?orb_false_r, ?orb_assoc; reflexivity].
Ltac leaf := first [apply reads_any_of; reflexivity | apply reads_cls; mem | apply reads_rep; mem | apply reads_not_ahead; mem | apply reads_not_behind; mem | apply reads_wordb | apply reads_ahead; mem | apply reads_behind; mem].
Ltac tree := repeat first [ leaf | apply reads_cat | apply reads_alt | apply reads_opt | (apply reads_grp; [assumption || reflexivity|]) ].

(** ** Parts of the patterns, compiled by themselves *)
Fixpoint shift (k : nat) (r : re) : re :=
  match r with
  | Cat a b => Cat (shift k a) (shift k b) | Alt a b => Alt (shift k a) (shift k b) | Rep g mn mx a => Rep g mn mx (shift k a) | Grp i a => Grp (i + k) (shift k a)
  | Look a n w x => Look a n w (shift k x) | _ => r
  end.
Definition compiled (s : string) : re := rx_re (the_rx (compile fX (py s))).
Definition sep_re := Eval vm_compute in compiled re_sep.
Definition start_re := Eval vm_compute in compiled re_start.
Definition to_re := Eval vm_compute in compiled re_sep_or_parentesis.
Definition from_re := Eval vm_compute in compiled re_sep_or_after_parentesis.
Definition volume_re := Eval vm_compute in fun k => shift k (compiled re_volume).
Definition issue_re := Eval vm_compute in fun k => shift k (compiled re_volume_sub_number_opt).
Definition subtitle_re := Eval vm_compute in compiled re_nucphysb_subtitle.
Definition subopt_re := Eval vm_compute in compiled re_nucphysb_subtitle_opt.
Definition series_re := Eval vm_compute in fun k => shift k (compiled re_series).
Definition year_re := Eval vm_compute in fun k => shift k (compiled re_year).
Definition page_re := Eval vm_compute in fun k => shift k (compiled re_page).

Lemma reads_sep g : reads g sep_re separator.
Proof. unfold sep_re, separator, blanks. tree. Qed.
Lemma reads_start g : reads g start_re start.
Proof. unfold start_re, start, blanks. tree. Qed.
Lemma reads_to g : reads g to_re to_parenthesis.
Proof. unfold to_re, to_parenthesis. apply reads_alt; [apply reads_sep|]. leaf. Qed.
Lemma reads_from g : reads g from_re from_parenthesis.
Proof. unfold from_re, from_parenthesis. apply reads_alt; [apply reads_sep|]. leaf. Qed.
Lemma reads_volume g k : g Fvolume = S k -> g Fnumber = S (S k) -> g Fnumber2 = S (S (S k)) -> g Fnumber3 = S (S (S (S k))) -> reads g (volume_re k) volume.
Proof. intros. unfold volume_re, volume, vol_word, vol_text, vol_number, vol_part, start, blanks, letter, digit. tree. Qed.
Definition issue_no_re := Eval vm_compute in compiled re_volume_sub_number.
Lemma reads_issue g k : g Fsub = S k -> reads g (issue_re k) issue.
Proof.
  intros. change (issue_re k) with (Rep true 0 (Some 1) (thn sep_re (Grp (S k) issue_no_re))). apply reads_opt, reads_thn; [apply reads_sep|]. apply reads_grp; auto. unfold issue_no_re, blanks. tree.
Qed.
Lemma reads_subtitle g : reads g subtitle_re subtitle.
Proof. unfold subtitle_re, subtitle, blanks. tree. Qed.
Lemma reads_subopt g : reads g subopt_re subtitle_opt.
Proof.
  unfold subtitle_opt. change subopt_re with (Rep true 0 (Some 1) (thn sep_re subtitle_re)). apply reads_opt, reads_thn; [apply reads_sep|apply reads_subtitle].
Qed.
Lemma reads_series g k : g Fseries = S k -> reads g (series_re k) series.
Proof. intros. unfold series_re, series. tree. Qed.

(** the months *)
Definition month_word (v : string) : re :=
  match py v with c :: t => Cat (Cls (mkcls false false [CRange (c - 32) (c - 32); CRange c c])) (word_re false t) | [] => Eps end.
Fixpoint month_words (l : list string) : re := match l with [] => Eps | [v] => month_word v | v :: l' => Alt (month_word v) (month_words l') end.
Lemma rd_month_word v a w b c : (forall x t, py v = x :: t -> t <> []) -> py v <> [] -> rd (month_word v) a w b c <-> (exists x t, py v = x :: t /\ (w = x :: t \/ w = (x - 32)%N :: t)) /\ c = [].
Proof.
  intros T N. unfold month_word. destruct (py v) as [|x t]; [congruence|]. specialize (T x t eq_refl). rewrite rd_cat. split.
  - intros (u & y & c1 & c2 & -> & -> & H1 & H2). apply rd_cls in H1 as (d & -> & D & ->). apply rd_word in H2 as (H2 & ->); auto. unfold letters in H2. subst y. split; auto. exists x, t. split; auto.
    rewrite class_items in D. cbn [existsb item_mem] in D. rewrite !range_one, orb_false_r, orb_true_iff, !N.eqb_eq in D. destruct D as [->| ->]; auto.
  - intros ((x' & t' & E & H) & ->). injection E as <- <-. assert (exists d, w = [d] ++ t /\ (d = x \/ d = (x - 32)%N)) as (d & -> & D) by (destruct H as [->| ->]; [now exists x; auto|exists (x - 32)%N; auto]). exists [d], t, [], []. split; auto. split; auto. split.
    + apply rd_cls. exists d. split; auto. split; auto. rewrite class_items. cbn [existsb item_mem]. rewrite !range_one, orb_false_r, orb_true_iff, !N.eqb_eq. tauto.
    + apply rd_word; auto. split; auto. reflexivity.
Qed.
Lemma reads_months g l : l <> [] -> Forall (fun v => py v <> [] /\ forall x t, py v = x :: t -> t <> []) l -> reads g (month_words l) (word_in l).
Proof.
  intros N F. apply reads_text. intros a w b c. induction F as [|v l (V1 & V2) F IH]; [congruence|]. destruct l as [|v' l].
  - change (month_words [v]) with (month_word v). rewrite rd_month_word by auto. split.
    + intros ((x & t & E & H) & ->). split; auto. exists v, x, t. split; [now left|auto].
    + intros ((v' & x & t & [<-|[]] & E & H) & ->). split; eauto.
  - change (month_words (v :: v' :: l)) with (Alt (month_word v) (month_words (v' :: l))). rewrite rd_alt, rd_month_word, IH by (auto; discriminate). split.
    + intros [((x & t & E & H) & ->)|((y & x & t & I & E & H) & ->)]; (split; auto); [exists v, x, t|exists y, x, t]; (split; [|auto]); [now left|now right].
    + intros ((y & x & t & [<-|I] & E & H) & ->); [left|right]; (split; auto); eauto 8.
Qed.
Definition month_re (l : list string) : re :=
  Rep true 0 (Some 1) (Cat (Cat (month_words l) (Rep true 0 (Some 1) (Cls (mkcls false false [CRange 46 46])))) (Cat (Cls (mkcls false false [CRange 44 44; CSpace true])) (Rep true 0 None (Cls (mkcls false false [CSpace true]))))).
Ltac months_ok := repeat constructor; first [discriminate | intros ? ? E; injection E as <- <-; discriminate].
Lemma reads_month g l : l <> [] -> Forall (fun v => py v <> [] /\ forall x t, py v = x :: t -> t <> []) l -> reads g (month_re l) (month_of l).
Proof. intros N F. unfold month_re, month_of, blanks. apply reads_opt, reads_cat; [apply reads_cat; [now apply reads_months|]|]; tree. Qed.
Definition year_digits_re : re := Cat (Alt (word_re false (py "19")) (word_re false (py "20"))) (Rep true 2 (Some 2) (Cls digit_cls)).
Lemma reads_year_digits g : reads g year_digits_re year_digits.
Proof.
  apply reads_text. intros a w b c. unfold year_digits_re. rewrite rd_cat. split.
  - intros (u & v & c1 & c2 & -> & -> & H1 & H2). apply rd_digits in H2 as (L & D & ->).
    assert ((u = py "19" \/ u = py "20") /\ c1 = []) as (U & ->).
    { apply rd_alt in H1 as [H|H]; (apply rd_word in H as (H & ->); [|discriminate]); unfold letters in H; auto. }
    split; auto. destruct v as [|d [|e [|x v]]]; try discriminate L. cbn [forallb] in D. apply andb_true_iff in D as [D E]. apply andb_true_iff in E as [E _]. exists d, e. destruct U as [->| ->]; auto.
  - intros ((d & e & Y & D & E) & ->). assert (exists u, (u = py "19" \/ u = py "20") /\ w = u ++ [d; e]) as (u & U & ->) by (destruct Y as [->| ->]; eauto). exists u, [d; e], [], []. split; auto. split; auto. split.
    + apply rd_alt. destruct U as [->| ->]; [left|right]; (apply rd_word; [discriminate|]); split; auto; reflexivity.
    + apply rd_digits. split; auto. split; auto. cbn. now rewrite D, E.
Qed.
Definition letter_opt_re : re := Rep true 0 (Some 1) (Cls (mkcls false false [CRange 65 90; CRange 97 122])).
Lemma year_shape k : year_re k = Cat (Rep true 0 (Some 1) (Cls (mkcls false false [CRange 40 40]))) (Cat (month_re short_months) (Cat (month_re months) (Cat (Look false true 1 (Cls digit_cls))
  (Cat (Grp (S k) (Cat letter_opt_re year_digits_re)) (Cat letter_opt_re (Cat (Look true true 0 (Cls digit_cls)) (Rep true 0 (Some 1) (Cls (mkcls false false [CRange 41 41]))))))))).
Proof. reflexivity. Qed.
Lemma reads_year g k : g Fyear = S k -> reads g (year_re k) year.
Proof.
  intros G. rewrite year_shape. unfold year. apply reads_cat; [tree|]. apply reads_cat; [apply reads_month; [discriminate|months_ok]|]. apply reads_cat; [apply reads_month; [discriminate|months_ok]|].
  apply reads_cat; [apply reads_not_behind, digit_mem|]. apply reads_cat; [apply reads_grp; auto; apply reads_cat; [unfold letter_opt_re, letter; tree|apply reads_year_digits]|].
  apply reads_cat; [unfold letter_opt_re, letter; tree|]. apply reads_cat; [apply reads_not_ahead, digit_mem|]. tree.
Qed.
Lemma reads_page g k : g Fpages = S k -> g Fjinst = S (S k) -> g Fpage = S (S (S k)) -> g Fpage_end = S (S (S (S k))) -> reads g (page_re k) page.
Proof. intros. unfold page_re, page, page_number, blanks. tree. Qed.

(** ** The eleven orders *)
Definition orders_re : list re :=
  [ thn start_re (thn (volume_re 0) (thn (issue_re 4) (thn sep_re (thn (page_re 5) (thn to_re (year_re 9))))));
    thn start_re (thn (volume_re 0) (thn (issue_re 4) (thn sep_re (Cat subtitle_re (thn sep_re (thn (page_re 5) (thn to_re (year_re 9))))))));
    thn start_re (Cat subtitle_re (thn sep_re (thn (volume_re 0) (thn sep_re (thn (page_re 4) (thn to_re (year_re 8)))))));
    thn start_re (thn (volume_re 0) (thn (issue_re 4) (thn subopt_re (thn to_re (thn (year_re 5) (thn from_re (page_re 6)))))));
    thn start_re (thn (volume_re 0) (thn subopt_re (thn to_re (thn (year_re 4) (thn (issue_re 5) (thn sep_re (page_re 6)))))));
    thn start_re (thn (volume_re 0) (thn to_re (thn (year_re 4) (thn from_re (page_re 5)))));
    thn start_re (Cat subtitle_re (thn sep_re (thn (volume_re 0) (thn to_re (thn (year_re 4) (thn from_re (page_re 5)))))));
    thn start_re (thn (volume_re 0) (thn subopt_re (thn sep_re (thn (series_re 4) (thn to_re (thn (year_re 5) (thn from_re (page_re 6))))))));
    thn start_re (thn (volume_re 0) (thn sep_re (thn (series_re 4) (thn subopt_re (thn sep_re (thn (page_re 5) (thn sep_re (year_re 9))))))));
    thn start_re (thn (volume_re 0) (thn subopt_re (thn sep_re (thn (series_re 4) (thn sep_re (thn (page_re 5) (thn sep_re (year_re 9))))))));
    thn start_re (thn (year_re 0) (thn from_re (thn (volume_re 1) (thn sep_re (page_re 5))))) ].
Lemma orders_shape : map rx_re numeration_rxs = orders_re. Proof. reflexivity. Qed.

(** ** Groups and fields *)
Definition field_name (f : field) : string :=
  match f with
  | Fvolume => "vol" | Fnumber => "vol_num" | Fnumber2 => "vol_num_alt" | Fnumber3 => "vol_num_alt2" | Fsub => "vol_sub" | Fyear => "year" | Fpages => "" | Fjinst => "jinst_page"
  | Fpage => "page" | Fpage_end => "page_end" | Fseries => "series" | Ftitle => "title_tag" | Fafter => "aftertitle" | Fmark => "mark"
  end.
Definition field_code (f : field) : nat :=
  match f with Fvolume => 0 | Fnumber => 1 | Fnumber2 => 2 | Fnumber3 => 3 | Fsub => 4 | Fyear => 5 | Fpages => 6 | Fjinst => 7 | Fpage => 8 | Fpage_end => 9 | Fseries => 10 | Ftitle => 11 | Fafter => 12 | Fmark => 13 end.
Definition all_fields := [Fvolume; Fnumber; Fnumber2; Fnumber3; Fsub; Fyear; Fpages; Fjinst; Fpage; Fpage_end; Fseries; Ftitle; Fafter; Fmark].
Lemma all_fields_in f : In f all_fields. Proof. destruct f; cbn; auto 16. Qed.
Definition group_no (p : rx) (f : field) : nat :=
  match f with
  | Fpages => match assoc_str (py "jinst_page") (rx_names p) with Some i => pred i | None => 106 end
  | _ => match assoc_str (py (field_name f)) (rx_names p) with Some i => i | None => 100 + field_code f end
  end.
Fixpoint distinct (l : list nat) : bool := match l with [] => true | x :: t => negb (existsb (Nat.eqb x) t) && distinct t end.
Lemma distinct_nodup l : distinct l = true -> NoDup l.
Proof.
  induction l as [|x t IH]; cbn; intros H; constructor; apply andb_true_iff in H as [H1 H2]; auto. intros I. apply negb_true_iff in H1. assert (existsb (Nat.eqb x) t = true) by (apply existsb_exists; exists x; split; auto; apply Nat.eqb_refl). congruence.
Qed.
Lemma inj_of (g : field -> nat) : distinct (map g all_fields) = true -> forall f f', g f = g f' -> f = f'.
Proof.
  intros H. apply distinct_nodup in H. intros f f' E. destruct (In_nth_error _ _ (all_fields_in f)) as (i & I). destruct (In_nth_error _ _ (all_fields_in f')) as (j & J).
  assert (i = j) as <-; [|congruence]. assert (nth_error (map g all_fields) i = nth_error (map g all_fields) j) as EE by (rewrite !nth_error_map, I, J; cbn; congruence).
  apply (proj1 (NoDup_nth_error _) H); auto. apply nth_error_Some. rewrite nth_error_map, I. discriminate.
Qed.
Lemma cap_field g f fs : (forall f f', g f = g f' -> f = f') -> cap (g f) (caps_of g fs) = field_of f fs.
Proof.
  intros Inj. induction fs as [|[f' t] fs IH]; auto. cbn [caps_of map cap field_of fst snd]. change (map (fun q : field * str => (g (fst q), snd q)) fs) with (caps_of g fs). rewrite IH.
  destruct (field_eq_dec f f') as [->|N]; [now rewrite Nat.eqb_refl|]. destruct (Nat.eqb_spec (g f) (g f')) as [E|_]; auto. now apply Inj in E.
Qed.
(** the groups of a pattern with the least length of what they read *)
Fixpoint group_mins (r : re) : list (nat * nat) :=
  match r with Cat a b | Alt a b => group_mins a ++ group_mins b | Rep _ _ _ a => group_mins a | Grp i a => (i, minlen a) :: group_mins a | _ => [] end.
Lemma rd_groups r : fair r = true -> forall a w b c, rd r a w b c -> forall i t, In (i, t) c -> exists k, In (i, k) (group_mins r) /\ k <= length t.
Proof.
  induction r as [| k | | r1 IH1 r2 IH2 | r1 IH1 r2 IH2 | gr mn mx r IH | j r IH | ah ng n r IH | | | | ]; cbn [fair]; intros F a w b c H i t I.
  - apply rd_eps in H as (_ & ->). destruct I.
  - apply rd_cls in H as (d & _ & _ & ->). destruct I.
  - destruct H as (d & _ & _ & ->). destruct I.
  - apply andb_true_iff in F as [F1 F2]. apply rd_cat in H as (u & v & c1 & c2 & -> & -> & H1 & H2). cbn [group_mins]. apply in_app_iff in I as [I|I]; [destruct (IH2 F2 _ _ _ _ H2 _ _ I) as (k & K)|destruct (IH1 F1 _ _ _ _ H1 _ _ I) as (k & K)]; exists k; rewrite in_app_iff; intuition.
  - apply andb_true_iff in F as [F1 F2]. cbn [group_mins]. apply rd_alt in H as [H|H]; [destruct (IH1 F1 _ _ _ _ H _ _ I) as (k & K)|destruct (IH2 F2 _ _ _ _ H _ _ I) as (k & K)]; exists k; rewrite in_app_iff; intuition.
  - apply andb_true_iff in F as [_ F]. cbn [group_mins]. change (reps (rd r) mn mx a w b c) in H. induction H as [mx a b|mn mx a u v b c1 c2 N Hp Hr IHr]; [destruct I|]. apply in_app_iff in I as [I|I]; [auto|]. eapply IH; eauto.
  - apply rd_grp in H as (c' & -> & H). cbn [group_mins]. destruct I as [E|I].
    + injection E as -> ->. exists (minlen r). split; [now left|]. eapply rd_min; eauto.
    + destruct (IH F _ _ _ _ H _ _ I) as (k & K). exists k. cbn [In]. intuition.
  - apply andb_true_iff in F as [_ F]. destruct ah; destruct H as (_ & -> & _); destruct I.
  - destruct H as (_ & -> & _); destruct I.
  - destruct H as (_ & -> & _); destruct I.
  - destruct H as (_ & -> & _); destruct I.
  - destruct H as (_ & -> & _); destruct I.
Qed.
(** the groups that always take part *)
Fixpoint forced (r : re) (i : nat) : bool :=
  match r with Cat a b => forced a i || forced b i | Alt a b => forced a i && forced b i | Grp j a => (i =? j) || forced a i | _ => false end.
Lemma cap_in i t c : In (i, t) c -> cap i c <> None.
Proof. induction c as [|[j u] c IH]; intros []; cbn [cap]; [injection H as -> ->; rewrite Nat.eqb_refl; discriminate|]. destruct (i =? j); [discriminate|auto]. Qed.
Lemma cap_some i t c : cap i c = Some t -> In (i, t) c.
Proof. induction c as [|[j u] c IH]; [discriminate|]. cbn [cap]. destruct (Nat.eqb_spec i j) as [->|]; [intros E; injection E as ->; now left|right; auto]. Qed.
Lemma rd_forced r i : forced r i = true -> forall a w b c, rd r a w b c -> exists t, In (i, t) c.
Proof.
  induction r as [| k | | r1 IH1 r2 IH2 | r1 IH1 r2 IH2 | gr mn mx r IH | j r IH | ah ng n r IH | | | | ]; cbn [forced]; try discriminate; intros F a w b c H.
  - apply rd_cat in H as (u & v & c1 & c2 & -> & -> & H1 & H2). apply orb_true_iff in F as [F|F]; [destruct (IH1 F _ _ _ _ H1) as (t & I)|destruct (IH2 F _ _ _ _ H2) as (t & I)]; exists t; rewrite in_app_iff; auto.
  - apply andb_true_iff in F as [F1 F2]. apply rd_alt in H as [H|H]; eauto.
  - apply rd_grp in H as (c' & -> & H). apply orb_true_iff in F as [F|F]; [apply Nat.eqb_eq in F as ->; exists w; now left|]. destruct (IH F _ _ _ _ H) as (t & I). exists t. now right.
Qed.

(** ** Each pattern *)
Definition rx0 : rx := mkrx Eps [].
Lemma shape_nth n : rx_re (nth n numeration_rxs rx0) = nth n orders_re Eps.
Proof. rewrite <- orders_shape. symmetry. apply (map_nth rx_re numeration_rxs rx0 n). Qed.
Ltac known := first [apply reads_start | apply reads_sep | apply reads_to | apply reads_from | apply reads_subtitle | apply reads_subopt | apply reads_volume; reflexivity | apply reads_issue; reflexivity
  | apply reads_series; reflexivity | apply reads_year; reflexivity | apply reads_page; reflexivity].
Ltac chain := first [known | apply reads_thn; [known|chain] | apply reads_cat; [known|chain]].
Definition no_part : part := fun _ _ _ _ => False.
Lemma reads_orders n : n < 11 -> reads (group_no (nth n numeration_rxs rx0)) (nth n orders_re Eps) (nth n orders no_part).
Proof. intros L. do 11 (destruct n as [|n]; [cbn [nth orders_re orders]; chain|]). lia. Qed.
