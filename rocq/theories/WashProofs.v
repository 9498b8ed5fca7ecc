(** Washing lines and repairing URLs (DocText.v): what is changed. *)
From Coq Require Import List Arith NArith Bool String Lia.
From Verif Require Import PyStr ListFacts Regex RegexParse RegexMeta RegexLang Patterns DocText KbProofs RefTextProofs.
Import ListNotations.
Local Notation length := List.length.
Local Open Scope nat_scope.
Local Arguments is_space : simpl never.

(** ** Substitution *)
Lemma sub_keeps (P : ch -> bool) s f ms : forall p, chain p ms (length s) ->
  (forall o, In o ms -> filter P (f o) = filter P (slice (m_start o) (m_end o) s)) ->
  filter P (sub_from s f p ms) = filter P (skipn p s).
Proof.
  intros p C H. rewrite <- (sub_id s ms p C). revert p C H. induction ms as [|o t IH]; intros p C H; cbn [sub_from]; auto.
  destruct C as (A & B & C). rewrite !filter_app, (H o (or_introl eq_refl)). f_equal. f_equal. apply IH; auto. intros o' I. apply H. now right.
Qed.
Lemma re_sub_keeps (P : ch -> bool) r f s :
  (forall o, In o (re_finditer r s) -> filter P (f o) = filter P (slice (m_start o) (m_end o) s)) -> filter P (re_sub r f s) = filter P s.
Proof. intros H. unfold re_sub. rewrite (sub_keeps P s f _ 0); auto. apply finditer_ok. Qed.
Lemma sub_shorter s f ms : forall p, chain p ms (length s) ->
  (forall o, In o ms -> length (f o) <= m_end o - m_start o) -> length (sub_from s f p ms) <= length s - p.
Proof.
  induction ms as [|o t IH]; intros p C H; cbn [sub_from].
  - rewrite skipn_length. lia.
  - destruct C as (A & B & C). pose proof (chain_le _ _ _ C). rewrite !app_length, slice_length by lia.
    pose proof (H o (or_introl eq_refl)). assert (length (sub_from s f (m_end o) t) <= length s - m_end o) by (apply IH; auto; intros o' I; apply H; now right). lia.
Qed.
Lemma re_sub_shorter r f s : (forall o, In o (re_finditer r s) -> length (f o) <= m_end o - m_start o) -> length (re_sub r f s) <= length s.
Proof. intros H. unfold re_sub. pose proof (sub_shorter s f _ 0 (proj2 (finditer_ok r s)) H). lia. Qed.
(** the text of a match *)
Lemma finditer_text r s o : In o (re_finditer r s) -> exists a w b x', s = a ++ w ++ b /\ slice (m_start o) (m_end o) s = w
  /\ length w = m_end o - m_start o /\ fwd (here a (w ++ b)) w x' /\ mt r (here a (w ++ b)) [] x' (m_groups o).
Proof.
  intros I. apply finditer_in in I as (a & w & b & x' & E & F & M & S & N). exists a, w, b, x'. split; auto. rewrite S, N. split; [|split; [lia|auto]].
  subst s. unfold slice. rewrite skipn_app, skipn_all, Nat.sub_diag. cbn. replace (length a + length w - length a) with (length w) by lia.
  rewrite firstn_app, firstn_all, Nat.sub_diag. cbn. apply app_nil_r.
Qed.

(** ** wash_line *)
Lemma space_mem c d : cls_mem (mkcls false c [CSpace true]) d = is_space d.
Proof. unfold cls_mem. cbn. rewrite orb_false_r. now destruct (is_space d). Qed.
Lemma mt_two a b x g x' g' w : fwd x w x' -> mt (Cat (Cls a) (Cls b)) x g x' g' -> exists c d, w = [c; d] /\ cls_mem a c = true /\ cls_mem b d = true.
Proof.
  intros F M. apply mt_cat_iff in M as (y & h & A & B). apply mt_cls_fwd in A as (c & A & P & ->). apply mt_cls_fwd in B as (d & B & Q & ->).
  exists c, d. split; auto. eapply fwd_fun; eauto. change [c; d] with ([c] ++ [d]). eapply fwd_app; eauto.
Qed.
Definition spc : cls := mkcls false false [CSpace true].
Definition chr (c : ch) : cls := mkcls false false [CRange c c].
Lemma chr_mem c d : cls_mem (chr c) d = true -> d = c. Proof. apply lit_mem. Qed.
Lemma spc_mem d : cls_mem spc d = true -> is_space d = true. Proof. unfold spc. now rewrite space_mem. Qed.
(** a substitution of white space and a character by the character, or the reverse *)
Lemma sub_space_chr (P : ch -> bool) r c s : (forall d, is_space d = true -> P d = false) ->
  r = Cat (Cls spc) (Cls (chr c)) \/ r = Cat (Cls (chr c)) (Cls spc) ->
  filter P (re_sub r (fun _ => [c]) s) = filter P s /\ length (re_sub r (fun _ => [c]) s) <= length s.
Proof.
  intros Sp R. assert (forall o, In o (re_finditer r s) -> exists d, is_space d = true /\
    (slice (m_start o) (m_end o) s = [d; c] \/ slice (m_start o) (m_end o) s = [c; d]) /\ m_end o - m_start o = 2) as H.
  { intros o I. apply finditer_text in I as (a & w & b & x' & E & -> & L & F & M). destruct R as [-> | ->].
    - destruct (mt_two _ _ _ _ _ _ _ F M) as (d & e & -> & A & B). apply chr_mem in B as ->. apply spc_mem in A. exists d. split; auto.
    - destruct (mt_two _ _ _ _ _ _ _ F M) as (d & e & -> & A & B). apply chr_mem in A as ->. apply spc_mem in B. exists e. split; auto. }
  split.
  - apply re_sub_keeps. intros o I. destruct (H o I) as (d & D & [-> | ->] & _); cbn; rewrite (Sp d D); destruct (P c); reflexivity.
  - apply re_sub_shorter. intros o I. destruct (H o I) as (d & D & _ & ->). cbn. lia.
Qed.
Lemma sub_three (P : ch -> bool) a b s : (forall d, is_space d = true -> P d = false) -> P 58%N = false -> (forall d, cls_mem a d = true -> P d = false) ->
  (forall d, cls_mem b d = true -> d = 58%N) ->
  let r := Cat (Cls a) (Cat (Cls spc) (Cls b)) in
  filter P (re_sub r (fun _ => [58%N]) s) = filter P s /\ length (re_sub r (fun _ => [58%N]) s) <= length s.
Proof.
  intros Sp P1 P2 Hb r. assert (forall o, In o (re_finditer r s) -> filter P (slice (m_start o) (m_end o) s) = [] /\ m_end o - m_start o = 3) as H.
  { intros o I. apply finditer_text in I as (u & w & v & x' & E & -> & L & F & M). unfold r in M. apply mt_cat_iff in M as (y & h & A & B).
    apply mt_cls_fwd in A as (c & A & Q & ->). destruct (mt_fwd _ _ _ _ _ B) as (w2 & F2). destruct (mt_two _ _ _ _ _ _ _ F2 B) as (d & e & -> & D & G).
    assert (w = [c; d; e]) as -> by (eapply fwd_fun; eauto; change [c; d; e] with ([c] ++ [d; e]); eapply fwd_app; eauto).
    split; auto. apply spc_mem in D. apply Hb in G as ->. cbn. now rewrite (P2 c Q), (Sp d D), P1. }
  split.
  - apply re_sub_keeps. intros o I. destruct (H o I) as (-> & _). cbn. now rewrite P1.
  - apply re_sub_shorter. intros o I. destruct (H o I) as (_ & ->). cbn. lia.
Qed.
Lemma sub_spaces (P : ch -> bool) gr s : (forall d, is_space d = true -> P d = false) ->
  let r := Rep gr 2 None (Cls spc) in
  filter P (re_sub r (fun _ => [32%N]) s) = filter P s /\ length (re_sub r (fun _ => [32%N]) s) <= length s.
Proof.
  intros Sp r. assert (forall o, In o (re_finditer r s) -> filter P (slice (m_start o) (m_end o) s) = [] /\ 2 <= m_end o - m_start o) as H.
  { intros o I. apply finditer_text in I as (u & w & v & x' & E & -> & <- & F & M). unfold r in M. apply mt_rep_cls in M as (w2 & F2 & W & L & _).
    assert (w = w2) as -> by (eapply fwd_fun; eauto). split; auto. clear - W Sp. induction w2 as [|c w IH]; auto. cbn in *.
    apply andb_true_iff in W as [A B]. apply spc_mem in A. now rewrite (Sp c A), IH. }
  split.
  - apply re_sub_keeps. intros o I. destruct (H o I) as (-> & _). cbn. now rewrite (Sp 32%N eq_refl).
  - apply re_sub_shorter. intros o I. destruct (H o I) as (_ & L). cbn. lia.
Qed.
(** hyphens *)
Definition hyphen_chars : str := [45; 727; 821; 822; 8722; 65123; 65293]%N.
Definition is_hyphen (c : ch) : bool := mem_ch c hyphen_chars.
Definition hyphens_re : re :=
  Grp 1 (Alt (Cat (Cls (chr 92%N)) (Cat (Cls (chr 50%N)) (Cat (Cls (chr 53%N)) (Cls (chr 53%N)))))
        (Alt (Cls (chr 727%N)) (Alt (Cls (chr 821%N)) (Alt (Cls (chr 822%N)) (Alt (Cls (chr 8722%N)) (Alt (Cls (chr 45%N)) (Alt (Cls (chr 65123%N)) (Cls (chr 65293%N))))))))).
Lemma hyphens_shape : rx_re re_hyphens = hyphens_re. Proof. reflexivity. Qed.
Lemma mem_ch_in c l : In c l -> mem_ch c l = true.
Proof. unfold mem_ch. intros I. apply existsb_exists. exists c. split; auto. apply N.eqb_refl. Qed.
Lemma hyphen_match x g x' g' w : fwd x w x' -> mt hyphens_re x g x' g' -> (exists c, w = [c] /\ is_hyphen c = true) \/ w = py "\255"%string.
Proof.
  intros F M. apply mt_grp_iff in M as (h & M & _).
  assert (forall c, is_hyphen c = true -> mt (Cls (chr c)) x g x' h -> exists c, w = [c] /\ is_hyphen c = true) as C.
  { intros c H Q. apply mt_cls_fwd in Q as (d & G & Q & _). apply chr_mem in Q as ->. exists c. split; auto. eapply fwd_fun; eauto. }
  apply mt_alt_iff in M as [M|M].
  - right. apply mt_cat_iff in M as (y1 & h1 & A1 & M). apply mt_cat_iff in M as (y2 & h2 & A2 & M). apply mt_cat_iff in M as (y3 & h3 & A3 & A4).
    apply mt_cls_fwd in A1 as (c1 & A1 & Q1 & _), A2 as (c2 & A2 & Q2 & _), A3 as (c3 & A3 & Q3 & _), A4 as (c4 & A4 & Q4 & _).
    apply chr_mem in Q1, Q2, Q3, Q4. subst. eapply fwd_fun; eauto. change (py "\255"%string) with ([92] ++ ([50] ++ ([53] ++ [53])))%N.
    eapply fwd_app; eauto. eapply fwd_app; eauto. eapply fwd_app; eauto.
  - left. repeat (apply mt_alt_iff in M as [M|M]; [eapply C; [|exact M]; reflexivity|]). eapply C; [|exact M]; reflexivity.
Qed.
Lemma sub_hyphens (P : ch -> bool) s : (forall d, is_hyphen d = true -> P d = false) -> ~ In 92%N s ->
  filter P (sub_text re_hyphens (py "-") s) = filter P s.
Proof.
  intros Hy Nb. unfold sub_text. rewrite hyphens_shape. apply re_sub_keeps. intros o I.
  apply finditer_text in I as (u & w & v & x' & E & -> & L & F & M). destruct (hyphen_match _ _ _ _ _ F M) as [(c & -> & C)| ->].
  - cbn. now rewrite (Hy c C), (Hy 45%N eq_refl).
  - exfalso. apply Nb. rewrite E. apply in_app_iff. right. now left.
Qed.
Lemma sub_hyphens_shorter s : length (sub_text re_hyphens (py "-") s) <= length s.
Proof.
  unfold sub_text. rewrite hyphens_shape. apply re_sub_shorter. intros o I.
  apply finditer_text in I as (u & w & v & x' & E & Sl & L & F & M). rewrite <- L. destruct (hyphen_match _ _ _ _ _ F M) as [(c & -> & C)| ->]; cbn; lia.
Qed.
(** the washing before the hyphens *)
Definition wash_punctuation (line : str) : str :=
  let line := sub_text re_space_comma (py ",") line in
  let line := sub_text re_space_semicolon (py ";") line in
  let line := sub_text re_space_period (py ".") line in
  let line := sub_text re_colon_space_colon (py ":") line in
  let line := sub_text re_comma_space_colon (py ":") line in
  let line := sub_text re_space_closing_square_bracket (py "]") line in
  sub_text re_opening_square_bracket_space (py "[") line.
Lemma wash_punctuation_keeps (P : ch -> bool) s : (forall d, is_space d = true -> P d = false) -> P 58%N = false -> P 44%N = false ->
  filter P (wash_punctuation s) = filter P s /\ length (wash_punctuation s) <= length s.
Proof.
  intros Sp P1 P2.
  assert (forall p q s0, filter P (sub_text p q s0) = filter P s0 /\ length (sub_text p q s0) <= length s0 ->
    filter P s0 = filter P s /\ length s0 <= length s -> filter P (sub_text p q s0) = filter P s /\ length (sub_text p q s0) <= length s) as T.
  { intros p q s0 (A & B) (C & D). split; [congruence|lia]. }
  unfold wash_punctuation.
  apply T; [apply (sub_space_chr P _ 91%N); auto; right; reflexivity|].
  apply T; [apply (sub_space_chr P _ 93%N); auto; left; reflexivity|].
  apply T; [apply (sub_three P (chr 44%N) (chr 58%N)); auto; intros d Q; apply chr_mem in Q; congruence|].
  apply T; [apply (sub_three P (chr 58%N) (chr 58%N)); auto; intros d Q; apply chr_mem in Q; congruence|].
  apply T; [apply (sub_space_chr P _ 46%N); auto; left; reflexivity|].
  apply T; [apply (sub_space_chr P _ 59%N); auto; left; reflexivity|].
  apply T; [apply (sub_space_chr P _ 44%N); auto; left; reflexivity|]. auto.
Qed.
Lemma wash_line_unfold s : wash_line s = sub_text re_multiple_space (py " ") (sub_text re_hyphens (py "-") (wash_punctuation s)).
Proof. reflexivity. Qed.
Lemma wash_line_shorter s : length (wash_line s) <= length s.
Proof.
  rewrite wash_line_unfold. destruct (wash_punctuation_keeps (fun _ => false) s) as (_ & A); auto.
  pose proof (sub_hyphens_shorter (wash_punctuation s)).
  destruct (sub_spaces (fun _ => false) true (sub_text re_hyphens (py "-") (wash_punctuation s))) as (_ & B); auto.
  unfold sub_text at 1. change (rx_re re_multiple_space) with (Rep true 2 None (Cls spc)). change (py " "%string) with [32%N] in *. lia.
Qed.
(** everything but white space, dashes, colons and commas *)
Definition words_of (s : str) : str := filter (fun c => negb (is_space c || is_hyphen c || N.eqb c 58 || N.eqb c 44)) s.
Lemma wash_line_words s : ~ In 92%N s -> words_of (wash_line s) = words_of s.
Proof.
  intros Nb. rewrite wash_line_unfold. unfold words_of. set (P := fun c => _).
  assert (forall d, is_space d = true -> P d = false) as Sp by (intros d D; unfold P; now rewrite D).
  destruct (sub_spaces P true (sub_text re_hyphens (py "-") (wash_punctuation s))) as (A & _); auto.
  unfold sub_text at 1. change (rx_re re_multiple_space) with (Rep true 2 None (Cls spc)). change (py " "%string) with [32%N]. rewrite A.
  rewrite sub_hyphens.
  - apply wash_punctuation_keeps; auto.
  - intros d D. unfold P. rewrite D. now rewrite orb_true_r.
  - intros I. assert (filter (fun c => N.eqb c 92) (wash_punctuation s) = filter (fun c => N.eqb c 92) s) as Q.
    { apply wash_punctuation_keeps; auto. intros d D. destruct (N.eqb_spec d 92); auto. subst. discriminate. }
    apply Nb. assert (In 92%N (filter (fun c => N.eqb c 92) (wash_punctuation s))) as I2 by (apply filter_In; auto). rewrite Q in I2. now apply filter_In in I2.
Qed.

(** ** repair_broken_urls *)
Lemma url_shapes : Forall (fun p => exists body, rx_re p = Grp 1 body \/ rx_re p = Cat (Grp 1 body) Eos) url_repair_patterns.
Proof. unfold url_repair_patterns. repeat (constructor; [eexists; first [left; reflexivity|right; reflexivity]|]). constructor. Qed.
Lemma repair_with_keeps line p : (exists body, rx_re p = Grp 1 body \/ rx_re p = Cat (Grp 1 body) Eos) ->
  filter (fun c => negb (N.eqb c 32)) (repair_with line p) = filter (fun c => negb (N.eqb c 32)) line /\ length (repair_with line p) <= length line.
Proof.
  intros (body & Sh). assert (forall o, In o (re_finditer (rx_re p) line) -> g_str line o 1 = slice (m_start o) (m_end o) line) as H.
  { intros o I. pose proof I as I2. apply finditer_in in I2 as (a & w & b & x' & E & F & M & S & N).
    unfold g_str, g_text, g_span. cbn [Nat.eqb]. assert (lookup_group 1 (m_groups o) = Some (m_start o, m_end o)) as ->; auto.
    destruct F as (_ & _ & F). cbn in F. destruct Sh as [Sh|Sh]; rewrite Sh in M.
    - apply mt_grp_iff in M as (h & M & ->). cbn. now rewrite S, N, F.
    - apply mt_cat_iff in M as (y & h & M & Me). apply mt_eos in Me as (-> & -> & _). apply mt_grp_iff in M as (h' & M & ->). cbn. now rewrite S, N, F. }
  unfold repair_with, chop_spaces. split.
  - apply re_sub_keeps. intros o I. rewrite (H o I). induction (slice (m_start o) (m_end o) line) as [|c l IH]; cbn; auto.
    destruct (negb (N.eqb c 32)) eqn:Q; cbn; rewrite ?Q, ?IH; auto.
  - apply re_sub_shorter. intros o I. rewrite (H o I). pose proof (proj2 (finditer_ok (rx_re p) line)) as C.
    destruct (chain_in _ _ _ _ C I) as (_ & _ & L). rewrite <- slice_length with (s := line) by auto.
    match goal with |- length (filter ?f ?l) <= _ => clear; induction l as [|c t IH]; cbn; auto; destruct (f c); cbn; lia end.
Qed.
Lemma repair_keeps line : filter (fun c => negb (N.eqb c 32)) (repair_broken_urls line) = filter (fun c => negb (N.eqb c 32)) line
  /\ length (repair_broken_urls line) <= length line.
Proof.
  unfold repair_broken_urls. pose proof url_shapes as S. revert line. induction S as [|p ps Sh S IH]; intros line; cbn [fold_left]; auto.
  destruct (IH (repair_with line p)) as (A & B). destruct (repair_with_keeps line p Sh) as (C & D). split; [congruence|lia].
Qed.
