(** Proofs about leading lines that are no references (C48) and about sections without markers (C50). *)
From Coq Require Import List Arith NArith Bool String Lia.
From Verif Require Import PyStr ListFacts Regex RegexMeta RegexLang RegexWords Patterns DocText Tag Find RefText RecordProofs RefTextProofs UrlProofs Engine.
Import ListNotations.
Local Open Scope nat_scope.
Local Notation length := List.length.

(** ** Leading lines *)
Definition blank (l : str) : Prop := l <> [] /\ blanks l.
Definition email_line (l : str) : Prop := exists b w t, l = b ++ w ++ t /\ blanks b /\ In w [py "email"; py "e-mail"].
Lemma isspace_iff l : isspace l = true <-> blank l.
Proof. unfold isspace, blank, blanks. destruct l; split; intros H; try easy; destruct H; easy. Qed.
Lemma mt_bos_iff x g x' g' : mt Bos x g x' g' <-> x' = x /\ g' = g /\ pos x = 0.
Proof. split; [intros H; inversion H; auto|intros (-> & -> & P); now constructor]. Qed.
Lemma mts_cons_iff r l x g x' g' : mts (r :: l) x g x' g' <-> exists y h, mt r x g y h /\ mts l y h x' g'.
Proof. split; [intros H; inversion H; subst; eauto|intros (y & h & A & C); econstructor; eauto]. Qed.
Definition email_parts : list re := [Bos; Rep true 0 None (Cls space_cls); Cls (lit_cls 101); Rep true 0 (Some 1) (Cls (lit_cls 45))] ++ map Cls (lit_word (py "mail")).
Lemma email_factors : factors (rx_re re_email) = email_parts. Proof. reflexivity. Qed.
Lemma email_match_iff l : (exists o, re_match (rx_re re_email) l = Some o) <-> email_line l.
Proof.
  rewrite re_match_iff by reflexivity. change (init l) with (here [] l). split.
  - intros (x' & g' & M). rewrite mt_factors, email_factors in M. unfold email_parts in M. apply mts_app in M as (y & h & M & M2).
    apply mts_cons_iff in M as (x1 & h1 & M1 & M). apply mt_bos_iff in M1 as (-> & -> & _).
    apply mts_cons_iff in M as (x2 & h2 & M1 & M). apply mt_rep_cls in M1 as (b & F1 & B & _ & _ & ->). rewrite space_cls_all in B.
    apply mts_cons_iff in M as (x3 & h3 & M1 & M). apply mt_cls_fwd in M1 as (d & F2 & D & ->). apply lit_cls_mem in D. subst d.
    apply mts_one, mt_rep_cls in M as (w & F3 & W & _ & L & ->). cbn in L.
    apply mts_lits in M2 as (F4 & ->).
    apply fwd_here_iff in F1 as (t1 & -> & ->). apply fwd_here_iff in F2 as (t2 & -> & ->). apply fwd_here_iff in F3 as (t3 & -> & ->). apply fwd_here_iff in F4 as (t4 & -> & ->).
    destruct w as [|c [|? ?]]; [| |cbn in L; lia].
    + exists b, (py "email"), t4. split; [reflexivity|]. split; [auto|]. now left.
    + cbn [forallb] in W. rewrite andb_true_r in W. apply lit_cls_mem in W. subst c. exists b, (py "e-mail"), t4. split; [reflexivity|]. split; [auto|]. right. now left.
  - intros (b & w & t & -> & B & W).
    assert (exists m, w = [101%N] ++ m ++ py "mail" /\ forallb (cls_mem (lit_cls 45)) m = true /\ length m <= 1) as (m & -> & Dm & Lm).
    { destruct W as [<-|[<-|[]]]; [exists []|exists [45%N]]; repeat split; cbn; auto. }
    exists (here (((b ++ [101%N]) ++ m) ++ py "mail") t), []. rewrite mt_factors, email_factors. unfold email_parts.
    rewrite <- !app_assoc. apply mts_app. exists (here ((b ++ [101%N]) ++ m) (py "mail" ++ t)), []. split.
    + econstructor; [apply mt_bos_iff; repeat split|]. econstructor; [apply mt_rep_cls; exists b; split; [change (b ++ [101%N] ++ m ++ py "mail" ++ t) with (b ++ ([101%N] ++ m ++ py "mail" ++ t)); apply (fwd_here [] b)|split; [now rewrite space_cls_all|cbn; repeat split; lia]]|].
      econstructor; [apply mt_cls_fwd; exists 101%N; split; [apply (fwd_here b [101%N])|split; [now apply lit_cls_mem|reflexivity]]|].
      econstructor; [apply mt_rep_cls; exists m; split; [apply (fwd_here (b ++ [101%N]) m)|cbn; repeat split; auto; lia]|]. constructor.
    + apply mts_lits. split; auto. rewrite !app_assoc. apply fwd_here.
Qed.
Definition garbage (l : str) : Prop := blank l \/ email_line l.
Lemma garbage_iff l : isspace l || (match re_match (rx_re re_email) l with Some _ => true | None => false end) = true <-> garbage l.
Proof.
  rewrite orb_true_iff, isspace_iff. unfold garbage. rewrite <- email_match_iff. destruct (re_match (rx_re re_email) l); split; intros [H|H]; auto; try discriminate; [right; eauto|destruct H; discriminate].
Qed.
Lemma remove_leading_ok l : exists dropped, l = dropped ++ remove_leading_garbage_lines l /\ Forall garbage dropped /\ match remove_leading_garbage_lines l with x :: _ => ~ garbage x | [] => True end.
Proof.
  induction l as [|x l IH]; cbn [remove_leading_garbage_lines]; [exists []; auto|]. destruct (isspace x || _) eqn:E.
  - apply garbage_iff in E. destruct IH as (d & D & F & G). exists (x :: d). split; [cbn; now rewrite <- D|]. split; auto.
  - exists []. split; auto. split; auto. rewrite <- garbage_iff. congruence.
Qed.

(** ** Sections without markers *)
(** number of blocks of lines with text *)
Fixpoint text_blocks (after_blank : bool) (l : list str) : nat :=
  match l with
  | [] => 0
  | x :: t => if isspace x then text_blocks true t else (if after_blank then 1 else 0) + text_blocks false t
  end.
Fixpoint adjacent_b (prev : bool) (l : list str) : bool :=
  match l with [] => false | x :: t => (prev && negb (isspace x)) || adjacent_b (negb (isspace x)) t end.
Definition adjacent (l : list str) : Prop := exists a x y b, l = a ++ x :: y :: b /\ ~ blank x /\ ~ blank y.
Lemma not_space l : isspace l = false <-> ~ blank l.
Proof. rewrite <- isspace_iff. destruct (isspace l); split; congruence. Qed.
Lemma adjacent_b_iff l : adjacent_b false l = true <-> adjacent l.
Proof.
  assert (forall l p, adjacent_b p l = true <-> (p = true /\ exists y b, l = y :: b /\ ~ blank y) \/ adjacent l) as G.
  { clear l. induction l as [|x l IH]; cbn [adjacent_b]; intros p.
    - split; [easy|]. intros [(_ & y & b & E & _)|([|] & x & y & b & E & _)]; discriminate.
    - rewrite orb_true_iff, andb_true_iff, IH, negb_true_iff, not_space. split.
      + intros [[-> H]|[(H & y & b & -> & Y)|(a & y & z & b & -> & Y & Z)]]; [left; eauto|right; exists [], x, y, b; auto|right; exists (x :: a), y, z, b; auto].
      + intros [(-> & y & b & E & Y)|([|u a] & y & z & b & E & Y & Z)]; injection E as -> ->; auto; right; [left; eauto|right; exists a, y, z, b; auto]. }
  rewrite G. split; [intros [[]|]; auto; discriminate|auto].
Qed.
Lemma skip_block_spec bl l : let (n, r) := skip_block bl l in
  (match r with x :: _ => isspace x = negb bl | [] => True end) /\ length r + n = length l
  /\ text_blocks bl l = (if bl then text_blocks true r else text_blocks false r)
  /\ adjacent_b (negb bl) l = (if bl then adjacent_b false r else (0 <? n) || adjacent_b true r).
Proof.
  induction l as [|x l IH]; cbn [skip_block]; [destruct bl; auto|]. destruct (Bool.eqb (isspace x) bl) eqn:E.
  - apply eqb_prop in E. destruct (skip_block bl l) as [n r]. destruct IH as (A & B & C & D). split; [auto|]. split; [cbn; lia|]. cbn [text_blocks adjacent_b].
    rewrite E. destruct bl; cbn [negb andb orb plus] in *; rewrite ?C, ?D; auto.
  - cbn [text_blocks adjacent_b length]. split; [destruct (isspace x), bl; cbn in *; congruence|]. split; [lia|]. destruct bl; split; auto.
Qed.
Definition inner (l : list str) : nat := match l with x :: _ => if isspace x then text_blocks true l else pred (text_blocks true l) | [] => 0 end.
Lemma blank_scan_spec : forall f l n b m, length l <= f -> blank_scan f l n b m = (n + text_blocks true l, b + inner l, m || adjacent_b false l).
Proof.
  induction f as [|f IH]; intros [|x l] n b m L; cbn [blank_scan]; try (cbn in L; lia); try (unfold inner; cbn; now rewrite !Nat.add_0_r, orb_false_r).
  pose proof (skip_block_spec (isspace x) l) as Sp. destruct (skip_block (isspace x) l) as [k r]. destruct Sp as (A & B & C & D). cbn in L.
  unfold inner. cbn [text_blocks adjacent_b]. destruct (isspace x) eqn:X; cbn [negb andb orb] in *.
  - rewrite IH by lia. rewrite C, D. f_equal. f_equal. unfold inner. destruct r as [|y r]; [reflexivity|]. rewrite A. cbn [text_blocks]. rewrite A. cbn. lia.
  - rewrite IH by lia. rewrite C, D. unfold inner. destruct r as [|y r].
    + cbn [text_blocks adjacent_b]. rewrite !orb_false_r. f_equal. f_equal; cbn; lia.
    + rewrite A. cbn [text_blocks adjacent_b]. rewrite A. cbn [negb andb orb]. f_equal; [f_equal; lia|]. now rewrite orb_assoc.
Qed.
Lemma blank_lines_ok l : blank_lines_separate l = true <-> 3 < text_blocks true l /\ adjacent l.
Proof.
  unfold blank_lines_separate. rewrite blank_scan_spec by auto. cbn [plus orb]. rewrite !andb_true_iff, adjacent_b_iff, Nat.ltb_lt, orb_true_iff, !Nat.eqb_eq.
  split; [tauto|]. intros [A B]. repeat split; auto. unfold inner. destruct l as [|x l]; [cbn in A; lia|]. destruct (isspace x); lia.
Qed.

(** the lines cut in blocks: y behind x begins a new one or not *)
Inductive cut (B : str -> str -> Prop) : list str -> list (list str) -> Prop :=
| cut_none : cut B [] []
| cut_one x : cut B [x] [[x]]
| cut_new x y l b bs : B x y -> cut B (y :: l) (b :: bs) -> cut B (x :: y :: l) ([x] :: b :: bs)
| cut_same x y l b bs : ~ B x y -> cut B (y :: l) (b :: bs) -> cut B (x :: y :: l) ((x :: b) :: bs).
Definition after_blank (x y : str) : Prop := blank y.
(** a line that begins with neither white space nor a lower case letter, unless the line before says that it goes on *)
Definition unindented (x y : str) : Prop :=
  (exists c t, y = c :: t /\ is_space c = false /\ ~ (97 <= c <= 122)%N) /\ ~ ends_in (py ",&-") (strip x).

Section Cut.
Context (p : rx) (indent : bool) (B : str -> str -> bool).
Fixpoint cutf (x : str) (l : list str) : list str * list (list str) :=
  match l with
  | [] => ([x], [])
  | y :: t => let (b, bs) := cutf y t in if B x y then ([x], b :: bs) else (x :: b, bs)
  end.
Hypothesis Step : forall s w x y, w_working s = w ++ [x] -> y <> [] -> exists mn cur,
  rebuild_step p indent s y = Ok (if B x y then mkrb mn cur [y] (w_out s ++ [prepare_ref (w ++ [x])]) else mkrb mn cur (w ++ [x; y]) (w_out s)).
Lemma cut_steps : forall l w x s, w_working s = w ++ [x] -> ~ In [] l -> exists s',
  rebuild_steps p indent s l = Ok s' /\ flush (w_working s') (w_out s') = w_out s ++ map prepare_ref ((w ++ fst (cutf x l)) :: snd (cutf x l)).
Proof.
  induction l as [|y l IH]; intros w x s W N; cbn [rebuild_steps cutf].
  - exists s. split; auto. rewrite W. cbn. destruct (w ++ [x]) eqn:E; [destruct w; discriminate|]. reflexivity.
  - destruct (Step s w x y W) as (mn & cur & ->); [intros ->; apply N; now left|]. cbn [bind]. destruct (cutf y l) as [b bs] eqn:C. destruct (B x y).
    + destruct (IH [] y (mkrb mn cur [y] (w_out s ++ [prepare_ref (w ++ [x])]))) as (s' & E & F); [reflexivity|intros H; apply N; now right|]. rewrite C in F. cbn [fst snd] in F. cbn [w_out] in F. exists s'. split; auto. rewrite F. cbn. now rewrite <- app_assoc.
    + destruct (IH (w ++ [x]) y (mkrb mn cur (w ++ [x; y]) (w_out s))) as (s' & E & F); [cbn; now rewrite <- app_assoc|intros H; apply N; now right|]. rewrite C in F. cbn [fst snd w_out] in *. exists s'. split; auto. rewrite F. now rewrite <- app_assoc.
Qed.
Lemma cutf_cut (P : str -> str -> Prop) : (forall x y, B x y = true <-> P x y) -> forall l x, cut P (x :: l) (fst (cutf x l) :: snd (cutf x l)).
Proof.
  intros H. induction l as [|y l IH]; intros x; cbn [cutf]; [constructor|]. specialize (IH y). destruct (cutf y l) as [b bs]. cbn [fst snd] in *.
  destruct (B x y) eqn:E; cbn [fst snd]; constructor; auto; rewrite <- H; congruence.
Qed.
End Cut.

Lemma no_marknum p line o : rx_names p = [] -> group_named p line o (py "marknum") = Err IndexError.
Proof. intros E. unfold group_named. rewrite E. reflexivity. Qed.
(** blank lines *)
Lemma blank_search y : y <> [] -> match re_search (rx_re re_blank_line) y with Some o => m_start o = 0 /\ isspace y = true | None => isspace y = false end.
Proof.
  intros Ny. destruct (re_search (rx_re re_blank_line) y) as [o|] eqn:E.
  - apply re_search_some in E as (a & w & b & x' & -> & F & M & S & _). apply mt_cat_iff in M as (z & h & M1 & M). apply mt_bos_iff in M1 as (-> & -> & P). cbn in P.
    destruct a; [|discriminate P]. split; auto. apply mt_cat_iff in M as (z & h' & M1 & M). apply mt_rep_cls in M1 as (u & Fu & U & _). rewrite space_cls_all in U. apply mt_eos in M as (-> & _ & M).
    apply fwd_here_iff in Fu as (t & E & ->). cbn [here suf] in M. cbn [app] in *. rewrite E in *. apply isspace_iff. split; auto. unfold blanks. rewrite forallb_app, U.
    destruct M as [->| ->]; reflexivity.
  - destruct (isspace y) eqn:I; auto. exfalso. apply isspace_iff in I as [_ I].
    refine (re_search_none _ _ E eq_refl [] y (here ([] ++ y) []) [] eq_refl _). apply mt_cat_iff. exists (here [] y), []. split; [apply mt_bos_iff; auto|].
    apply mt_cat_iff. exists (here ([] ++ y) []), []. split.
    + apply mt_rep_cls. exists y. split; [|split; [now rewrite space_cls_all|cbn; repeat split; lia]]. rewrite <- (app_nil_r y) at 1. apply fwd_here.
    + apply mt_eos. cbn. auto.
Qed.
Lemma blank_step s w x y : w_working s = w ++ [x] -> y <> [] -> exists mn cur,
  rebuild_step re_blank_line false s y = Ok (if isspace y then mkrb mn cur [y] (w_out s ++ [prepare_ref (w ++ [x])]) else mkrb mn cur (w ++ [x; y]) (w_out s)).
Proof.
  intros W Ny. unfold rebuild_step. pose proof (blank_search y Ny) as H. destruct (re_search _ y) as [o|].
  - destruct H as [H ->]. unfold read_marknum. rewrite no_marknum by reflexivity. cbn [bind new_line_detected andb negb]. rewrite H. cbn [firstn skipn add_nonempty].
    do 2 eexists. rewrite W. destruct y; [congruence|]. cbn [add_nonempty app]. unfold flush. destruct (w ++ [x]) eqn:E; [destruct w; discriminate|]. reflexivity.
  - rewrite H. do 2 eexists. rewrite W. destruct y; [congruence|]. cbn [add_nonempty]. now rewrite <- app_assoc.
Qed.
(** indentation *)
Definition is_lower (c : N) : bool := ((97 <=? c) && (c <=? 122))%N.
Definition unindented_b (x y : str) : bool :=
  match y with c :: _ => negb (is_space c) && negb (is_lower c) | [] => false end
  && negb (match re_search (rx_re re_continuing) (strip x) with Some _ => true | None => false end).
Lemma indent_search y : match re_search (rx_re re_no_indent) y with
  | Some o => m_start o = 0 /\ exists c t, y = c :: t /\ is_space c = false
  | None => match y with c :: _ => is_space c = true | [] => True end end.
Proof.
  assert (forall c, cls_mem (mkcls true true [CSpace true]) c = negb (is_space c)) as K by (intros c; unfold cls_mem; cbn [c_neg c_ci c_items existsb item_mem]; now destruct (is_space c)).
  destruct (re_search (rx_re re_no_indent) y) as [o|] eqn:E.
  - apply re_search_some in E as (a & w & b & x' & -> & F & M & S & _). apply mt_cat_iff in M as (z & h & M1 & M). apply mt_bos_iff in M1 as (-> & -> & P). cbn in P.
    destruct a; [|discriminate P]. split; auto. apply mt_cls_fwd in M as (d & Fd & D & _). rewrite K, negb_true_iff in D. apply fwd_here_iff in Fd as (t & E & _). cbn in *. exists d, t. auto.
  - destruct y as [|c y]; auto. destruct (is_space c) eqn:I; auto. exfalso.
    refine (re_search_none _ _ E eq_refl [] (c :: y) (here ([] ++ [c]) y) [] eq_refl _). apply mt_cat_iff. exists (here [] (c :: y)), []. split; [apply mt_bos_iff; auto|].
    apply mt_cls_fwd. exists c. split; [apply (fwd_here [] [c] y)|]. now rewrite K, I.
Qed.
Lemma lower_match c t : is_space c = false -> (match re_match (rx_re re_lower_start) (strip (c :: t)) with Some _ => true | None => false end) = is_lower c.
Proof.
  intros Sc. assert (exists u, strip (c :: t) = c :: u) as [u ->].
  { unfold strip, strip_by. assert (lstrip_by is_space (c :: t) = c :: t) as -> by (unfold lstrip_by; cbn [drop_while]; now rewrite Sc). destruct (rstrip_by is_space (c :: t)) as [|d u] eqn:E.
    - exfalso. apply rstrip_by_nil in E. cbn [forallb] in E. rewrite Sc in E. discriminate.
    - apply rstrip_by_hd in E as (t' & E). injection E as -> _. eauto. }
  assert ((exists o, re_match (rx_re re_lower_start) (c :: u) = Some o) <-> is_lower c = true) as I.
  { rewrite re_match_iff by reflexivity. change (init (c :: u)) with (here [] (c :: u)). assert (cls_mem (mkcls false false [CRange 97 122]) c = is_lower c) as K by (unfold cls_mem, is_lower; cbn [c_neg c_ci c_items existsb item_mem]; unfold in_range; now rewrite orb_false_r, xorb_false_l).
    split.
    - intros (x' & g' & M). apply mt_cls_fwd in M as (d & F & D & _). apply fwd_here_iff in F as (t' & E & _). cbn in E. injection E as <- _. now rewrite <- K.
    - intros L. exists (here ([] ++ [c]) u), []. apply mt_cls_fwd. exists c. split; [apply (fwd_here [] [c] u)|]. now rewrite K. }
  destruct (re_match _ _) as [o|]; [symmetry; apply I; eauto|]. destruct (is_lower c) eqn:L; auto. destruct I as [_ I]. destruct (I eq_refl). discriminate.
Qed.
Lemma indent_step s w x y : w_working s = w ++ [x] -> y <> [] -> exists mn cur,
  rebuild_step re_no_indent true s y = Ok (if unindented_b x y then mkrb mn cur [y] (w_out s ++ [prepare_ref (w ++ [x])]) else mkrb mn cur (w ++ [x; y]) (w_out s)).
Proof.
  intros W Ny. unfold rebuild_step, unindented_b. pose proof (indent_search y) as H. destruct (re_search _ y) as [o|].
  - destruct H as [H (c & t & -> & Sc)]. unfold read_marknum. rewrite no_marknum by reflexivity. cbn [bind new_line_detected]. rewrite H. cbn [andb negb].
    rewrite lower_match by auto. rewrite Sc. rewrite W. unfold last_opt. rewrite rev_app_distr. cbn [rev app].
    destruct (is_lower c), (re_search (rx_re re_continuing) (strip x)); cbn [negb andb orb]; do 2 eexists; try (now rewrite <- app_assoc).
    cbn [firstn skipn add_nonempty app]. unfold flush. destruct (w ++ [x]) eqn:E; [destruct w; discriminate|]. reflexivity.
  - destruct y as [|c y]; [congruence|]. rewrite H. do 2 eexists. cbn [negb andb]. rewrite W. cbn [add_nonempty]. now rewrite <- app_assoc.
Qed.
Lemma continuing_iff x : (exists o, re_search (rx_re re_continuing) (strip x) = Some o) <-> ends_in (py ",&-") (strip x).
Proof.
  assert (forall c, cls_mem (mkcls false false [CRange 44 44; CRange 38 38; CRange 45 45]) c = true <-> In c (py ",&-")) as K.
  { intros c. unfold cls_mem. cbn [c_neg c_ci c_items existsb item_mem]. rewrite xorb_false_l, orb_false_r, !orb_true_iff. unfold in_range. rewrite !andb_true_iff, !N.leb_le. cbn. lia. }
  rewrite re_search_iff by reflexivity. split.
  - intros (a & b & x' & g' & E & M). apply mt_cat_iff in M as (z & h & M1 & M). apply mt_cls_fwd in M1 as (d & F & D & ->). apply K in D. apply fwd_here_iff in F as (t & -> & ->).
    apply mt_eos in M as (_ & _ & [M|M]); cbn in M; subst t.
    + exists d, a. auto.
    + exfalso. assert (is_space 10%N = false) as X; [|discriminate X]. unfold strip, strip_by in E. apply (rstrip_last is_space (lstrip_by is_space x) 10%N (a ++ [d])). rewrite E. now rewrite <- app_assoc.
  - intros (c & t & E & I). exists t, [c], (here (t ++ [c]) []), []. split; auto. apply mt_cat_iff. exists (here (t ++ [c]) []), []. split; [|apply mt_eos; cbn; auto].
    apply mt_cls_fwd. exists c. split; [apply (fwd_here t [c] [])|]. split; auto. now apply K.
Qed.
Lemma unindented_iff x y : unindented_b x y = true <-> unindented x y.
Proof.
  unfold unindented_b, unindented. rewrite <- continuing_iff, andb_true_iff. destruct (re_search _ (strip x)) as [o|].
  - split; [intros [_ H]; discriminate|]. intros [_ H]. exfalso. eauto.
  - split.
    + intros [H _]. split; [|intros [? ?]; discriminate]. destruct y as [|c y]; [discriminate|]. apply andb_true_iff in H as [H1 H2]. apply negb_true_iff in H1, H2. exists c, y. split; auto. split; auto.
      unfold is_lower in H2. apply andb_false_iff in H2. rewrite !N.leb_gt in H2. lia.
    + intros [(c & t & -> & H1 & H2) _]. split; auto. rewrite H1. cbn [negb andb]. apply negb_true_iff. unfold is_lower. apply andb_false_iff. rewrite !N.leb_gt. lia.
Qed.
Lemma first_step p indent y : y <> [] -> rx_names p = [] -> (forall o, re_search (rx_re p) y = Some o -> m_start o = 0) ->
  exists mn cur, rebuild_step p indent rb_init y = Ok (mkrb mn cur [y] []).
Proof.
  intros Ny R H. unfold rebuild_step. destruct (re_search (rx_re p) y) as [o|].
  - unfold read_marknum. rewrite no_marknum by auto. cbn [bind new_line_detected]. rewrite (H o eq_refl). cbn [firstn skipn add_nonempty w_working w_out rb_init flush last_opt rev].
    destruct (negb _); cbn [andb]; destruct y; try congruence; do 2 eexists; reflexivity.
  - do 2 eexists. destruct y; [congruence|]. reflexivity.
Qed.
Lemma skip_empty p indent : re_search (rx_re p) [] = None -> forall l s, rebuild_steps p indent s l = rebuild_steps p indent s (full l).
Proof.
  intros E. induction l as [|x l IH]; intros s; auto. rewrite full_cons. destruct x as [|c x]; cbn [nonempty rebuild_steps].
  - unfold rebuild_step. rewrite E. cbn [bind add_nonempty]. rewrite IH. now destruct s.
  - destruct (rebuild_step p indent s (c :: x)); cbn [bind]; auto.
Qed.
Lemma no_empty l : ~ In [] (full l).
Proof. unfold full. rewrite filter_In. intros [_ H]. discriminate. Qed.
Lemma full_same l : ~ In [] l -> full l = l.
Proof. induction l as [|x l IH]; intros H; auto. rewrite full_cons. destruct x; [exfalso; apply H; now left|]. cbn [nonempty]. rewrite IH; auto. intros I. apply H. now right. Qed.
Lemma blank_cut lines : ~ In [] lines -> 3 < text_blocks true lines -> adjacent lines ->
  exists blocks, cut after_blank lines blocks /\ rebuild_reference_lines lines None = Ok (map prepare_ref blocks).
Proof.
  intros N L A. unfold rebuild_reference_lines, separator. assert (blank_lines_separate lines = true) as -> by (apply blank_lines_ok; auto).
  destruct lines as [|x l]; [cbn in L; lia|]. cbn [rebuild_steps].
  destruct (first_step re_blank_line false x) as (mn & cur & ->); [intros ->; apply N; now left|reflexivity| |].
  { intros o E. pose proof (blank_search x) as H. rewrite E in H. apply H. intros ->; apply N; now left. }
  cbn [bind]. edestruct (cut_steps re_blank_line false (fun _ y => isspace y) blank_step l [] x) as (s' & -> & F); [|intros H; apply N; now right|]; [reflexivity|].
  cbn [bind]. rewrite F. cbn [w_out app]. eexists. split; [|reflexivity]. apply cutf_cut. intros; apply isspace_iff.
Qed.
Lemma indent_cut lines : ~ (3 < text_blocks true lines /\ adjacent lines) ->
  exists blocks, cut unindented (full lines) blocks /\ rebuild_reference_lines lines None = Ok (map prepare_ref blocks).
Proof.
  intros N. unfold rebuild_reference_lines, separator. destruct (blank_lines_separate lines) eqn:E; [exfalso; apply N; now apply blank_lines_ok|].
  rewrite skip_empty by reflexivity. pose proof (no_empty lines) as Ne. destruct (full lines) as [|x l]; [exists []; split; [constructor|reflexivity]|]. cbn [rebuild_steps].
  destruct (first_step re_no_indent true x) as (mn & cur & ->); [intros ->; apply Ne; now left|reflexivity| |].
  { intros o S. pose proof (indent_search x) as H. rewrite S in H. apply H. }
  cbn [bind]. edestruct (cut_steps re_no_indent true unindented_b indent_step l [] x) as (s' & -> & F); [|intros H; apply Ne; now right|]; [reflexivity|].
  cbn [bind]. rewrite F. cbn [w_out app]. eexists. split; [|reflexivity]. apply cutf_cut. intros; apply unindented_iff.
Qed.
