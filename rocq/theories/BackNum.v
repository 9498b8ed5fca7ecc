(** The patterns of numerations behind a title read exactly the grammar of BackGrammar, and in one way (C60). *)
From Coq Require Import List Arith NArith Bool String Lia.
From Verif Require Import PyStr ListFacts NumberFacts Regex RegexMeta RegexLang RegexParse Patterns Elements ParseTagged CaptureLang TaggerProofs ArxivProofs NumGrammar NumProofs NumFind SectGrammar SectProofs SectUse BackGrammar.
Import ListNotations.
Local Open Scope nat_scope.
Local Notation length := List.length.

(** ** The patterns *)
Definition ch_re (c : ch) : re := Cls (mkcls false false [CRange c c]).
Definition of_re (l : string) : re := Cls (mkcls false false (map (fun c => CRange c c) (py l))).
Definition ch_many (lo : nat) (hi : option nat) (c : ch) : re := Rep true lo hi (ch_re c).
Local Arguments ch_re _%N_scope.
Local Arguments ch_many _ _ _%N_scope.
Definition series_re : re :=
  Alt (Cls (mkcls false false [CRange 65 72])) (Alt (Cat (ch_many 1 (Some 3) 73) (opt (ch_re 86))) (Cat (ch_re 86) (ch_many 0 (Some 3) 73))).
Definition inner_re : re := Rep true 1 None (Cls (mkcls true false [CRange 60 60])).
Definition open_re (n : string) (r : re) : re := lits false (py ("<cds." ++ n ++ ">")) r.
Definition close_re (n : string) (r : re) : re := lits false (py ("</cds." ++ n ++ ">")) r.
Definition last_re (n : string) : re := word_re false (py ("</cds." ++ n ++ ">")).
Definition num_re : re :=
  Cat Bos (Cat sp (Cat (opt (of_re ".,")) (Cat sp (Cat (opt (lits false (py "Ser.") sp)) (Cat (opt (Grp 1 series_re)) (Cat sp (Cat (opt (ch_re 58)) (Cat sp
    (open_re "VOL" (Cat (Grp 2 inner_re) (close_re "VOL" (Cat sp
      (Cat (opt (Cat (ch_re 32) (open_re "YR" (Cat (ch_re 40) (Cat (Grp 3 inner_re) (Cat (ch_re 41) (last_re "YR"))))))) (Cat sp (Cat (ch_re 32) (open_re "PG" (Cat (Grp 4 inner_re) (last_re "PG")))))))))))))))))).
Definition dgs : re := Rep true 1 None dg.
Definition sp1 : re := Cls (mkcls false false [CSpace true]).
Definition sps : re := Rep true 1 None sp1.
Definition more_re : re :=
  Cat Bos (Grp 1 (Cat (Grp 2 (Alt (Cat sp (Cat (ch_re 59) sp)) (Cat sps (lits false (py "and") sps)))) (Cat (opt (Grp 3 series_re)) (Cat sp (Cat (opt (ch_re 58)) (Cat sp1
    (open_re "VOL" (Cat (Grp 4 (Alt dgs (Cat dgs (Cat (ch_re 45) dgs)))) (close_re "VOL" (Cat sp1
      (open_re "YR" (Cat (ch_re 40) (Cat (Grp 5 (Cat (of_re "12") (Rep true 3 (Some 3) dg))) (Cat (ch_re 41) (close_re "YR" (Cat sp1
        (open_re "PG" (Cat (Grp 6 (Cat (opt (of_re "RL")) (Cat dgs (opt (ch_re 99))))) (last_re "PG"))))))))))))))))))).
Lemma num_shape : rx_re re_recognised_numeration = num_re. Proof. vm_compute. reflexivity. Qed.
Lemma more_shape : rx_re re_numeration_no_ibid_txt = more_re. Proof. vm_compute. reflexivity. Qed.
(** ** They read the grammar *)
Definition num_no (p : rx) (f : field) : nat :=
  let no n := match assoc_str (py n) (rx_names p) with Some i => i | None => 100 + field_code f end in
  match f with Fseries => no "series"%string | Fvolume => no "vol"%string | Fyear => no "yr"%string | Fpage => no "pg"%string | _ => 100 + field_code f end.
Lemma seq_assoc p q r a w b fs : ((p ;; q) ;; r) a w b fs <-> (p ;; q ;; r) a w b fs.
Proof.
  unfold seq. split.
  - intros (u & v & f1 & f2 & -> & -> & (u1 & u2 & g1 & g2 & -> & -> & A & B) & C). exists u1, (u2 ++ v), g1, (f2 ++ g2). rewrite !app_assoc. rewrite <- !app_assoc in *. split; auto. split; auto. split; auto. exists u2, v, g2, f2. rewrite <- ?app_assoc. auto.
  - intros (u & v & f1 & f2 & -> & -> & A & (v1 & v2 & g1 & g2 & -> & -> & B & C)). exists (u ++ v1), v2, (g1 ++ f1), g2. rewrite <- !app_assoc in *. split; auto. split; auto. split; auto. exists u, v1, f1, g1. auto.
Qed.
Section Reads.
Context (g : field -> nat).
Lemma on_lits t r p : reads_on g r p -> reads_on g (lits false (py t) r) (word t ;; p).
Proof.
  intros H a w b. split.
  - intros c R. apply rd_lits in R as (u & v & -> & L & R). unfold CaptureLang.letters in L. subst u. apply H in R as (fs & P & K). exists fs. split; auto. exists (py t), v, [], fs. rewrite app_nil_r. repeat split; auto.
  - intros fs (u & v & f1 & f2 & -> & -> & (-> & ->) & P). apply H in P as (c & R & K). exists c. rewrite app_nil_r. split; auto. apply rd_lits. exists (py t), v. split; auto. split; auto. reflexivity.
Qed.
Lemma on_word t : py t <> [] -> reads_on g (word_re false (py t)) (word t).
Proof.
  intros Ne a w b. split.
  - intros c R. apply rd_word in R as (L & ->); auto. exists []. split; auto. split; auto.
  - intros fs (E & ->). exists []. split; auto. apply rd_word; auto.
Qed.
Lemma on_within n r rest p q : reads_on g r p -> reads_on g rest q -> reads_on g (open_re n (Cat r (close_re n rest))) (within n p ;; q).
Proof.
  intros H1 H2. apply (on_weak _ _ (word ("<cds." ++ n ++ ">") ;; p ;; word ("</cds." ++ n ++ ">") ;; q)).
  - intros a w b fs. unfold within. rewrite seq_assoc. split; intros (u & v & f1 & f2 & -> & -> & A & B); exists u, v, f1, f2; (split; [auto|split; [auto|split; [exact A|]]]); now apply seq_assoc.
  - unfold open_re, close_re. apply on_lits, on_cat; auto. now apply on_lits.
Qed.
Lemma on_within_last n r p : reads_on g r p -> reads_on g (open_re n (Cat r (last_re n))) (within n p).
Proof. intros H. unfold within, open_re, last_re. apply on_lits, on_cat; auto. apply on_word. discriminate. Qed.
Lemma on_ch c l : py l = [c] -> reads_on g (ch_re c) (any_of l).
Proof. intros E. apply on_reads, reads_cls. intros d. apply mem_of. now rewrite E. Qed.
Lemma on_of l : reads_on g (of_re l) (any_of l).
Proof. apply on_reads, reads_cls. intros d. now apply mem_of. Qed.
Lemma on_chs lo hi c l : py l = [c] -> reads_on g (ch_many lo hi c) (many lo hi (some_of (py l))).
Proof. intros E. apply on_reads, reads_rep. intros d. apply mem_of. now rewrite E. Qed.
Lemma on_inner : reads_on g inner_re inner.
Proof. apply on_reads, reads_rep. intros d. unfold cls_mem. cbn [c_neg c_ci c_items existsb item_mem]. rewrite range_one, orb_false_r. now destruct (N.eqb d 60). Qed.
Lemma on_series i : g Fseries = i -> reads_on g (opt (Grp i series_re)) series.
Proof.
  intros E. apply on_opt, on_grp; auto. apply on_alt; [|apply on_alt; apply on_cat; [now apply on_chs|apply on_opt; now apply on_ch|now apply on_ch|now apply on_chs]].
  apply on_reads, reads_cls. intros d. unfold cls_mem. cbn [c_neg c_ci c_items existsb item_mem]. rewrite orb_false_r. now destruct (in_range 65 72 d).
Qed.
Lemma on_dgs : reads_on g dgs digits.
Proof. apply on_reads, reads_rep. intros d. apply digit_mem'. Qed.
Lemma on_sp1 : reads_on g sp1 (one is_space).
Proof. apply on_reads, reads_cls. intros d. apply space_mem. Qed.
Lemma on_sps : reads_on g sps (many 1 None is_space).
Proof. apply on_reads, reads_rep. intros d. apply space_mem. Qed.
Lemma on_three r1 r2 r3 r4 p1 p2 p3 p4 : reads_on g r1 p1 -> reads_on g r2 p2 -> reads_on g r3 p3 -> reads_on g r4 p4 -> reads_on g (Cat r1 (Cat r2 (Cat r3 r4))) ((p1 ;; p2 ;; p3) ;; p4).
Proof.
  intros H1 H2 H3 H4. apply (on_weak _ _ (p1 ;; p2 ;; p3 ;; p4)); [|repeat (apply on_cat; auto)].
  intros a w b fs. rewrite seq_assoc. split; intros (u & v & f1 & f2 & -> & -> & A & B); exists u, v, f1, f2; (split; [auto|split; [auto|split; [exact A|]]]); now apply seq_assoc.
Qed.
Lemma on_year_last n r1 r2 r3 p1 p2 p3 : reads_on g r1 p1 -> reads_on g r2 p2 -> reads_on g r3 p3 -> reads_on g (open_re n (Cat r1 (Cat r2 (Cat r3 (last_re n))))) (within n (p1 ;; p2 ;; p3)).
Proof. intros H1 H2 H3. unfold within, open_re, last_re. apply on_lits, on_three; auto. apply on_word. discriminate. Qed.
Lemma on_year n r1 r2 r3 rest p1 p2 p3 q : reads_on g r1 p1 -> reads_on g r2 p2 -> reads_on g r3 p3 -> reads_on g rest q -> reads_on g (open_re n (Cat r1 (Cat r2 (Cat r3 (close_re n rest))))) (within n (p1 ;; p2 ;; p3) ;; q).
Proof.
  intros H1 H2 H3 H4. apply (on_weak _ _ (word ("<cds." ++ n ++ ">") ;; (p1 ;; p2 ;; p3) ;; word ("</cds." ++ n ++ ">") ;; q)).
  - intros a w b fs. unfold within. rewrite (seq_assoc (word _)). split; intros (u & v & f1 & f2 & -> & -> & A & B); exists u, v, f1, f2; (split; [auto|split; [auto|split; [exact A|]]]); apply (seq_assoc (p1 ;; p2 ;; p3) (word _) q); exact B.
  - unfold open_re, close_re. apply on_lits, on_three; auto. now apply on_lits.
Qed.
End Reads.
Lemma num_reads : reads_on (num_no re_recognised_numeration) (rx_re re_recognised_numeration) numeration.
Proof.
  rewrite num_shape. unfold num_re, numeration. apply on_cat; [apply on_reads, reads_bos|]. apply on_cat; [apply on_sp|]. apply on_cat; [apply on_opt, on_of|]. apply on_cat; [apply on_sp|].
  apply on_cat; [apply on_opt, on_lits, on_sp|]. apply on_cat; [now apply on_series|]. apply on_cat; [apply on_sp|]. apply on_cat; [apply on_opt; now apply on_ch|]. apply on_cat; [apply on_sp|].
  apply on_within; [apply on_grp; [reflexivity|apply on_inner]|]. apply on_cat; [apply on_sp|]. apply on_cat.
  - apply on_opt, on_cat; [now apply on_ch|].
    apply on_year_last; [now apply on_ch|apply on_grp; [reflexivity|apply on_inner]|now apply on_ch].
  - apply on_cat; [apply on_sp|]. apply on_cat; [now apply on_ch|]. apply on_within_last, on_grp; [reflexivity|apply on_inner].
Qed.
Lemma more_reads : reads_on (num_no re_numeration_no_ibid_txt) (rx_re re_numeration_no_ibid_txt) further.
Proof.
  rewrite more_shape. unfold more_re, further. apply on_cat; [apply on_reads, reads_bos|]. apply on_free; [reflexivity|]. apply on_cat.
  { apply on_free; [reflexivity|]. apply on_alt; [apply on_cat; [apply on_sp|apply on_cat; [now apply on_ch|apply on_sp]]|]. apply on_cat; [apply on_sps|]. apply on_lits, on_sps. }
  apply on_cat; [now apply on_series|]. apply on_cat; [apply on_sp|]. apply on_cat; [apply on_opt; now apply on_ch|]. apply on_cat; [apply on_sp1|].
  apply on_within; [apply on_grp; [reflexivity|]; apply on_alt; [apply on_dgs|apply on_cat; [apply on_dgs|apply on_cat; [now apply on_ch|apply on_dgs]]]|]. apply on_cat; [apply on_sp1|].
  apply on_year; [now apply on_ch|apply on_grp; [reflexivity|apply on_cat; [apply on_of|apply on_reads, reads_rep; intros d; apply digit_mem']]|now apply on_ch|]. apply on_cat; [apply on_sp1|].
  apply on_within_last, on_grp; [reflexivity|]. apply on_cat; [apply on_opt, on_of|]. apply on_cat; [apply on_dgs|]. apply on_opt; now apply on_ch.
Qed.
