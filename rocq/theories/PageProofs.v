(** Removing page boundaries (DocText.v): exactly the page breaks and the common header
    and footer lines are removed. *)
From Coq Require Import List Arith NArith Bool String Lia.
From Verif Require Import PyStr ListFacts Regex RegexParse RegexMeta RegexLang Patterns DocText KbProofs.
Import ListNotations.
Local Notation length := List.length.
Local Open Scope nat_scope.
Local Arguments is_space : simpl never.

(** ** What is removed *)
(** a page break: a line of white space with a form feed *)
Definition break_line (l : str) : bool := forallb is_space l && mem_ch 12%N l.
Definition break_at (body : list str) (i : nat) : Prop := exists l, nth_error body i = Some l /\ break_line l = true.
(** [l'] is [l] without the lines at the places in [D]; [i] is the place of the first line *)
Inductive removed (D : nat -> Prop) : nat -> list str -> list str -> Prop :=
| rem_nil i : removed D i [] []
| rem_drop i x l l' : D i -> removed D (S i) l l' -> removed D i (x :: l) l'
| rem_keep i x l l' : ~ D i -> removed D (S i) l l' -> removed D i (x :: l) (x :: l').
(** page breaks, the [nh] lines after a break that is not the last one, the [nf] lines
    before a break that is not the first one *)
Definition furniture (body : list str) (nh nf : nat) (i : nat) : Prop :=
  break_at body i
  \/ (exists b b', break_at body b /\ break_at body b' /\ b < b' /\ b < i <= b + nh)
  \/ (exists b b', break_at body b /\ break_at body b' /\ b' < b /\ i < b <= i + nf).
(** the positions of the page breaks *)
Definition breaks (body : list str) : list nat :=
  filter (fun i => match nth_error body i with Some l => break_line l | None => false end) (seq 0 (length body)).
(** two words agree: both are numbers, or their first and their last letters are equal
    without regard to case *)
Definition words_agree (a b : str) : Prop :=
  (isdigit a = true /\ isdigit b = true)
  \/ (nth_error (lower a) 0 = nth_error (lower b) 0 /\ nth_error (rev (lower a)) 0 = nth_error (rev (lower b)) 0).
(** [n] words of the one line agree with the words at the same places of the other *)
Inductive agreeing : list str -> list str -> nat -> Prop :=
| ag_nil : agreeing [] [] 0
| ag_one a b u v n : words_agree a b -> agreeing u v n -> agreeing (a :: u) (b :: v) (S n)
| ag_not a b u v n : ~ words_agree a b -> agreeing u v n -> agreeing (a :: u) (b :: v) n.
(** two boundary lines look alike: the first is blank and the second has no words, or they
    have the same number of words, nine tenths of which agree *)
Definition similar_lines (l l' : str) : Prop :=
  if isspace l then words l' = []
  else words l' <> [] /\ exists n, agreeing (words l) (words l') n /\ 9 * length (words l) <= 10 * n.
(** the pages compared with the page after the second break: every page up to the last but
    one, every other when there are more than four breaks *)
Definition compared (body : list str) (j : nat) : Prop :=
  let m := length (breaks body) - 1 in j < m /\ exists i, 1 <= i /\ j = 1 + i * (if 3 <? m then 2 else 1).
Definition common_header (body : list str) (k : nat) : Prop :=
  exists b1 b2 l, nth_error (breaks body) 1 = Some b1 /\ nth_error (breaks body) 2 = Some b2 /\ b1 + k + 1 < b2
    /\ nth_error body (b1 + k + 1) = Some l
    /\ forall j b, compared body j -> nth_error (breaks body) j = Some b -> exists l', nth_error body (b + k + 1) = Some l' /\ similar_lines l l'.
Definition common_footer (body : list str) (k : nat) : Prop :=
  exists b1 l, nth_error (breaks body) 1 = Some b1 /\ k + 1 <= b1 /\ nth_error body (b1 - k - 1) = Some l
    /\ forall j b, 2 <= j -> nth_error (breaks body) j = Some b -> exists l', nth_error body (b - k - 1) = Some l' /\ similar_lines l l'.
Definition header_count (body : list str) (n : nat) : Prop :=
  if 3 <? length (breaks body) then (forall k, k < n -> common_header body k) /\ ~ common_header body n else n = 0.
Definition footer_count (body : list str) (n : nat) : Prop :=
  if 2 <? length (breaks body) then (forall k, k < n -> common_footer body k) /\ ~ common_footer body n else n = 0.
(** the pages are long enough *)
Definition long_pages (body : list str) (nh nf : nat) : Prop :=
  2 <= length (breaks body) /\ forall b b', break_at body b -> break_at body b' -> b < b' -> nh + nf + 1 < b' - b.

(** ** Page breaks *)
Lemma ff_in u v : forallb is_space u = true -> forallb is_space v = true -> break_line (u ++ 12%N :: v) = true.
Proof. intros A B. unfold break_line. rewrite forallb_app, A. cbn [forallb]. rewrite B. cbn. apply mem_ch_in, in_elt. Qed.
Definition spc1 : cls := mkcls false false [CSpace true].
Lemma spc1_mem d : cls_mem spc1 d = is_space d.
Proof. unfold cls_mem. cbn. rewrite orb_false_r. now destruct (is_space d). Qed.
Lemma spc1_all w : forallb (cls_mem spc1) w = forallb is_space w.
Proof. induction w as [|c w IH]; cbn [forallb]; rewrite ?spc1_mem, ?IH; auto. Qed.
Lemma page_break_shape : rx_re re_page_break =
  Cat Bos (Cat (Rep true 0 None (Cls spc1)) (Cat (Cls (mkcls false false [CRange 12 12]%N)) (Cat (Rep true 0 None (Cls spc1)) Eos))).
Proof. reflexivity. Qed.
Lemma mt_bos x g x' g' : mt Bos x g x' g' <-> x' = x /\ g' = g /\ pos x = 0.
Proof.
  split.
  - intros M. inversion M; subst; auto.
  - intros (-> & -> & P). now constructor.
Qed.
Lemma page_break_line l : is_page_break l = break_line l.
Proof.
  unfold is_page_break. destruct (re_match (rx_re re_page_break) l) as [o|] eqn:E.
  - symmetry. apply re_match_some in E as (w & x' & F & M & _). rewrite page_break_shape in M.
    apply mt_cat_iff in M as (y0 & h0 & M0 & M). apply mt_bos in M0 as (-> & -> & _).
    apply mt_cat_iff in M as (y1 & h1 & M1 & M). apply mt_rep_cls in M1 as (u & U & Uc & _).
    apply mt_cat_iff in M as (y2 & h2 & M2 & M). apply mt_cls_fwd in M2 as (c & C & Cc & _). apply lit_mem in Cc as ->.
    apply mt_cat_iff in M as (y3 & h3 & M3 & M). apply mt_rep_cls in M3 as (v & V & Vc & _).
    apply mt_eos in M as (-> & _ & Su). destruct U as (U & _), C as (C & _), V as (V & _). cbn in U, C. rewrite C in U. rewrite V in U.
    rewrite spc1_all in Uc, Vc. rewrite U. apply ff_in; auto. rewrite forallb_app, Vc. destruct Su as [-> | ->]; reflexivity.
  - symmetry. apply not_true_is_false. intros B. unfold break_line in B. apply andb_true_iff in B as [Sp In12]. apply mem_ch_in in In12.
    apply in_split in In12 as (u & v & ->). rewrite forallb_app in Sp. cbn [forallb] in Sp. apply andb_true_iff in Sp as [Su Sv]. apply andb_true_iff in Sv as [_ Sv].
    eapply (re_match_none _ _ E eq_refl (here (u ++ 12%N :: v) []) []). rewrite page_break_shape.
    apply mt_cat_iff. exists (init (u ++ 12%N :: v)), []. split; [apply mt_bos; auto|].
    change (init (u ++ 12%N :: v)) with (here [] (u ++ 12%N :: v)).
    apply mt_cat_iff. exists (here u (12%N :: v)), []. split.
    { apply mt_rep_cls. exists u. rewrite spc1_all. split; [exact (fwd_here [] u _)|]. split; auto. split; [lia|]. split; [exact I|auto]. }
    apply mt_cat_iff. exists (here (u ++ [12%N]) v), []. split.
    { apply mt_cls_fwd. exists 12%N. split; [exact (fwd_here u [12%N] v)|]. split; reflexivity. }
    apply mt_cat_iff. exists (here (u ++ 12%N :: v) []), []. split.
    { apply mt_rep_cls. exists v. rewrite spc1_all. split. { pose proof (fwd_here (u ++ [12%N]) v []) as Q. rewrite app_nil_r in Q. rewrite <- app_assoc in Q. exact Q. }
      split; auto. split; [lia|]. split; [exact I|auto]. }
    apply mt_eos. split; auto.
Qed.
Lemma breaks_from body : forall pre, page_breaks_from (length pre) body =
  filter (fun i => match nth_error (pre ++ body) i with Some l => break_line l | None => false end) (seq (length pre) (length body)).
Proof.
  induction body as [|l t IH]; intros pre; cbn [page_breaks_from length seq filter]; auto.
  rewrite nth_error_app2, Nat.sub_diag by lia. cbn [nth_error]. rewrite page_break_line.
  specialize (IH (pre ++ [l])). rewrite app_length in IH. cbn [length] in IH. rewrite Nat.add_1_r in IH. rewrite IH. rewrite <- app_assoc. cbn [app]. reflexivity.
Qed.
Lemma positions_breaks body : get_page_break_positions body = breaks body.
Proof. exact (breaks_from body []). Qed.
Lemma in_breaks body b : In b (breaks body) <-> break_at body b.
Proof.
  unfold breaks, break_at. rewrite filter_In, in_seq. destruct (nth_error body b) as [l|] eqn:E.
  - split; [intros (_ & H); eauto|]. intros (l' & Q & H). injection Q as <-. split; auto. assert (b < length body) by (apply nth_error_Some; congruence). lia.
  - split; [intros (_ & H); discriminate|]. intros (l' & Q & _). discriminate.
Qed.
(** the breaks are ascending *)
Inductive asc : list nat -> Prop :=
| asc_nil : asc [] | asc_one a : asc [a] | asc_cons a b l : a < b -> asc (b :: l) -> asc (a :: b :: l).
Lemma asc_tail a l : asc (a :: l) -> asc l. Proof. inversion 1; subst; [constructor|auto]. Qed.
Lemma asc_min a l : asc (a :: l) -> forall b, In b l -> a < b.
Proof.
  revert a. induction l as [|c l IH]; intros a H b I; [destruct I|]. inversion H; subst. destruct I as [<-|I]; auto. pose proof (IH c H4 b I). lia.
Qed.
Lemma asc_filter f n : forall i, asc (filter f (seq i n)).
Proof.
  assert (forall n i a, a < i -> asc (filter f (seq i n)) -> asc (a :: filter f (seq i n))) as C.
  { intros m i a L H. destruct (filter f (seq i m)) as [|b l] eqn:E; [constructor|]. constructor; auto.
    assert (In b (filter f (seq i m))) as I by (rewrite E; now left). apply filter_In in I as (I & _). apply in_seq in I. lia. }
  induction n as [|n IH]; intros i; cbn [seq filter]; [constructor|]. destruct (f i); auto.
Qed.
Lemma breaks_asc body : asc (breaks body). Proof. apply asc_filter. Qed.
Lemma asc_nth l : asc l -> forall i j a b, nth_error l i = Some a -> nth_error l j = Some b -> i < j -> a < b.
Proof.
  induction l as [|c l IH]; intros A i j a b Hi Hj L; [destruct i; discriminate|]. destruct j as [|j]; [lia|]. cbn in Hj.
  destruct i as [|i]; cbn in Hi.
  - injection Hi as <-. eapply asc_min; eauto. eapply nth_error_In; eauto.
  - eapply IH; eauto; [eapply asc_tail; eauto|lia].
Qed.

(** ** Page lengths *)
Lemma min_fold t : forall a, (forall x, In x (a :: t) -> fold_left Nat.min t a <= x) /\ In (fold_left Nat.min t a) (a :: t).
Proof.
  induction t as [|b t IH]; intros a; cbn [fold_left].
  - split; [intros x [<-|[]]; auto|now left].
  - destruct (IH (Nat.min a b)) as (A & B). split.
    + intros x [<-|[<-|I]]; [| |apply A; now right]; pose proof (A _ (or_introl eq_refl)); lia.
    + destruct B as [B|B]; [|now do 2 right]. rewrite <- B. destruct (Nat.min_dec a b) as [Q|Q]; [left|right; left]; lia.
Qed.
Lemma min_list_lt n l : l <> [] -> (n < min_list l <-> forall x, In x l -> n < x).
Proof.
  destruct l as [|a t]; [congruence|]. intros _. unfold min_list. destruct (min_fold t a) as (A & B). split; [intros H x I; specialize (A x I); lia|auto].
Qed.
Lemma lens_ok n l : asc l -> (forall x, In x (page_lens l) -> n < x) <-> (forall a b, In a l -> In b l -> a < b -> n < b - a).
Proof.
  induction l as [|a [|b l] IH]; intros As.
  - cbn. split; [intros _ ? ? []|intros _ ? []].
  - cbn. split; [intros _ x y [<-|[]] [<-|[]]; lia|intros _ ? []].
  - inversion As; subst. change (page_lens (a :: b :: l)) with ((b - a) :: page_lens (b :: l)). specialize (IH H3). split.
    + intros H x y Ix Iy L. assert (forall x, In x (page_lens (b :: l)) -> n < x) as H' by (intros; apply H; now right).
      rewrite IH in H'. pose proof (H _ (or_introl eq_refl)) as Hab. destruct Ix as [<-|Ix], Iy as [<-|Iy]; try lia; auto.
      * destruct Iy as [<-|Iy]; auto. pose proof (asc_min _ _ H3 y Iy). lia.
      * exfalso. assert (a < x) by (destruct Ix as [<-|Ix]; auto; pose proof (asc_min _ _ H3 x Ix); lia). lia.
    + intros H x [<-|I].
      * apply H; cbn; auto.
      * revert x I. apply IH. intros x y Ix Iy. apply H; now right.
Qed.
Lemma lens_nonempty l : nonempty (page_lens l) = (2 <=? length l). Proof. now destruct l as [|a [|b l]]. Qed.
Lemma long_pages_test body nh nf :
  (nonempty (page_lens (breaks body)) && (nh + nf + 1 <? min_list (page_lens (breaks body))) = true) <-> long_pages body nh nf.
Proof.
  rewrite andb_true_iff, lens_nonempty, Nat.leb_le, Nat.ltb_lt. unfold long_pages.
  assert (2 <= length (breaks body) -> page_lens (breaks body) <> []) as Ne by (destruct (breaks body) as [|? [|? ?]]; cbn; intros; try lia; discriminate).
  split.
  - intros (A & B). split; auto. pose proof (proj1 (min_list_lt _ _ (Ne A)) B) as C.
    intros b b' I I' L. apply in_breaks in I, I'. exact (proj1 (lens_ok _ _ (breaks_asc body)) C b b' I I' L).
  - intros (A & B). split; auto. apply min_list_lt; auto. apply lens_ok; [apply breaks_asc|]. intros a b I I' L. apply B; auto; now apply in_breaks.
Qed.

(** ** Deleting *)
Lemma del_app a b x : del_at (length a) (a ++ x :: b) = a ++ b.
Proof. unfold del_at. rewrite firstn_app, firstn_all, Nat.sub_diag. cbn [firstn]. rewrite app_nil_r. f_equal.
  rewrite skipn_app. rewrite skipn_all2 by lia. replace (S (length a) - length a) with 1 by lia. reflexivity. Qed.
Lemma del_times_app a w : forall b, del_times (length w) (length a) (a ++ w ++ b) = a ++ b.
Proof. induction w as [|x w IH]; intros b; cbn [length del_times app]; auto. rewrite del_app. apply IH. Qed.
Lemma removed_app D a a' : forall i b b', removed D i a a' -> removed D (i + length a) b b' -> removed D i (a ++ b) (a' ++ b').
Proof.
  intros i b b' H. induction H; cbn [length app]; intros Hb.
  - now rewrite Nat.add_0_r in Hb.
  - apply rem_drop; auto. apply IHremoved. now replace (S i + length l) with (i + S (length l)) by lia.
  - apply rem_keep; auto. apply IHremoved. now replace (S i + length l) with (i + S (length l)) by lia.
Qed.
Lemma removed_all (D : nat -> Prop) l : forall i, (forall k, i <= k < i + length l -> D k) -> removed D i l [].
Proof.
  induction l as [|x l IH]; intros i H; [constructor|]. apply rem_drop; [apply H; cbn; lia|]. apply IH. intros k K. apply H. cbn. lia.
Qed.
Lemma removed_none (D : nat -> Prop) l : forall i, (forall k, i <= k < i + length l -> ~ D k) -> removed D i l l.
Proof.
  induction l as [|x l IH]; intros i H; [constructor|]. apply rem_keep; [apply H; cbn; lia|]. apply IH. intros k K. apply H. cbn. lia.
Qed.
(** what is deleted around the breaks [B] *)
Definition del_set (B : list nat) (nh nf : nat) (i : nat) : Prop :=
  In i B
  \/ (exists b b', In b B /\ In b' B /\ b < b' /\ b < i <= b + nh)
  \/ (exists b b', In b B /\ In b' B /\ b' < b /\ i < b <= i + nf).
Lemma cut_at {A} n (l : list A) : n <= length l -> exists a b, l = a ++ b /\ length a = n.
Proof. intros H. exists (firstn n l), (skipn n l). split; [now rewrite firstn_skipn|]. rewrite firstn_length. lia. Qed.
Lemma asc_mid l p post : asc (l ++ p :: post) -> (forall a, In a l -> a < p) /\ (forall a, In a post -> p < a).
Proof.
  induction l as [|x l IH]; cbn [app]; intros A.
  - split; [intros a []|]. now apply asc_min.
  - destruct (IH (asc_tail _ _ A)) as (B & C). split; auto. intros a [<-|I]; auto. eapply asc_min; eauto. apply in_elt.
Qed.
Lemma strip_loop_spec nh nf B doc : asc B -> (forall a b, In a B -> In b B -> a < b -> nh + nf + 1 < b - a) -> (forall p, In p B -> p < length doc) ->
  forall l post pre suf tail, l <> [] -> B = rev l ++ post -> doc = pre ++ suf ->
  length pre = match post with [] => length doc | q :: _ => q - nf end ->
  removed (del_set B nh nf) (length pre) suf tail ->
  removed (del_set B nh nf) 0 doc (strip_loop nh nf (negb (nonempty post)) l (pre ++ tail)).
Proof.
  intros As Sp Rg. induction l as [|p t IH]; intros post pre suf tail Ne EB Ed Lp R; [congruence|]. clear Ne.
  cbn [rev] in EB. rewrite <- app_assoc in EB. cbn [app] in EB. rewrite EB in As. destruct (asc_mid _ _ _ As) as (Lo & Hi). rewrite <- EB in As.
  set (h := if nonempty post then nh else 0). set (f := if nonempty t then nf else 0).
  assert (In p B) as Ip by (rewrite EB; apply in_elt).
  assert (p + h < length pre) as Lh.
  { rewrite Lp. unfold h. destruct post as [|q post]; cbn [nonempty]; [rewrite Nat.add_0_r; auto|].
    assert (In q B) as Iq by (rewrite EB; apply in_app_iff; right; right; now left). pose proof (Sp p q Ip Iq (Hi q (or_introl eq_refl))). lia. }
  assert (f <= p) as Lf.
  { unfold f. destruct t as [|a t]; cbn [nonempty]; [lia|]. assert (In a (rev (a :: t))) as Ia by (apply in_rev; rewrite rev_involutive; now left).
    assert (In a B) as IB by (rewrite EB; apply in_app_iff; auto). pose proof (Sp a p IB Ip (Lo a Ia)). lia. }
  (* the pieces *)
  destruct (cut_at (p - f) pre) as (a1 & r1 & E1 & L1); [lia|].
  destruct (cut_at f r1) as (ft & r2 & E2 & L2); [subst pre; rewrite app_length in *; lia|].
  destruct r2 as [|x r2]; [exfalso; subst pre r1; rewrite !app_length in *; cbn in *; lia|].
  destruct (cut_at h r2) as (hd & mid & E3 & L3); [subst pre r1; rewrite !app_length in *; cbn in *; lia|].
  subst r2 r1. assert (Lpre : length pre = p + 1 + h + length mid) by (subst pre; rewrite !app_length; cbn; rewrite !app_length; lia).
  (* one step *)
  assert (strip_one nh nf (negb (nonempty post)) (negb (nonempty t)) p (pre ++ tail) = a1 ++ mid ++ tail) as One.
  { unfold strip_one. subst pre. rewrite <- !app_assoc. cbn [app]. rewrite <- !app_assoc.
    assert ((if negb (nonempty post) then a1 ++ ft ++ x :: hd ++ mid ++ tail else del_times nh (p + 1) (a1 ++ ft ++ x :: hd ++ mid ++ tail))
            = a1 ++ ft ++ x :: mid ++ tail) as ->.
    { unfold h in L3. destruct (nonempty post); cbn [negb].
      - rewrite <- L3. replace (p + 1) with (length (a1 ++ ft ++ [x])) by (rewrite !app_length; cbn; lia).
        pose proof (del_times_app (a1 ++ ft ++ [x]) hd (mid ++ tail)) as Q. rewrite <- !app_assoc in Q. exact Q.
      - destruct hd; [reflexivity|discriminate]. }
    assert (del_at p (a1 ++ ft ++ x :: mid ++ tail) = a1 ++ ft ++ mid ++ tail) as ->.
    { replace p with (length (a1 ++ ft)) by (rewrite app_length; lia). rewrite (app_assoc a1 ft (x :: mid ++ tail)), del_app. now rewrite <- !app_assoc. }
    unfold f in *. destruct (nonempty t); cbn [negb].
    - rewrite <- L1. rewrite <- L2 at 1. apply del_times_app.
    - destruct ft; [reflexivity|discriminate]. }
  cbn [strip_loop]. rewrite One.
  (* what is deleted here *)
  assert (removed (del_set B nh nf) (p - f) (ft ++ x :: hd ++ mid ++ suf) (mid ++ tail)) as R2.
  { change (mid ++ tail) with ([] ++ [] ++ mid ++ tail). apply removed_app.
    - apply removed_all. intros k K. right. right. unfold f in *. destruct t as [|a t]; [cbn [nonempty] in *; lia|]. exists p, a. cbn [nonempty] in *.
      assert (In a (rev (a :: t))) as Ia by (apply in_rev; rewrite rev_involutive; now left). split; auto.
      split; [rewrite EB; apply in_app_iff; auto|]. split; [now apply Lo|lia].
    - apply rem_drop; [left; now replace (p - f + length ft) with p by lia|]. apply removed_app.
      + apply removed_all. intros k K. right. left. unfold h in *. destruct post as [|q post]; [cbn [nonempty] in *; lia|]. exists p, q. cbn [nonempty] in *.
        split; auto. split; [rewrite EB; apply in_app_iff; right; right; now left|]. split; [apply Hi; now left|lia].
      + apply removed_app.
        * apply removed_none. intros k K.
          assert (p + h < k < length pre) as K' by lia. clear K. intros [I|[(b & b' & I & I' & L & K)|(b & b' & I & I' & L & K)]].
          -- rewrite EB in I. apply in_app_iff in I as [I|[I|I]]; [apply Lo in I; lia|lia|]. pose proof (Hi k I). destruct post as [|q post]; [destruct I|].
             assert (q <= k) by (destruct I as [<-|I]; [lia|]; rewrite EB in As; clear -As I; induction (rev t) as [|z r IHr]; cbn in As;
               [apply asc_tail in As; pose proof (asc_min _ _ As k I); lia|apply asc_tail in As; auto]). lia.
          -- pose proof I as J. rewrite EB in I. apply in_app_iff in I as [I|[I|I]].
             ++ apply Lo in I. pose proof (Sp b p J Ip I). lia.
             ++ subst b. rewrite EB in I'. apply in_app_iff in I' as [I'|[I'|I']]; [apply Lo in I'; lia|lia|]. unfold h in K'. destruct post; [destruct I'|]. cbn [nonempty] in K'. lia.
             ++ destruct post as [|q post]; [destruct I|].
                assert (q <= b) by (destruct I as [<-|I]; [lia|]; rewrite EB in As; clear -As I; induction (rev t) as [|z r IHr]; cbn in As;
                  [apply asc_tail in As; pose proof (asc_min _ _ As b I); lia|apply asc_tail in As; auto]). lia.
          -- rewrite EB in I. apply in_app_iff in I as [I|[I|I]]; [apply Lo in I; lia|lia|]. destruct post as [|q post]; [destruct I|].
             assert (q <= b) by (destruct I as [<-|I]; [lia|]; rewrite EB in As; clear -As I; induction (rev t) as [|z r IHr]; cbn in As;
               [apply asc_tail in As; pose proof (asc_min _ _ As b I); lia|apply asc_tail in As; auto]). lia.
        * replace (S (p - f + length ft) + length hd + length mid) with (length pre) by lia. exact R. }
  assert (doc = a1 ++ ft ++ x :: hd ++ mid ++ suf) as Ed2 by (rewrite Ed, E1; rewrite <- !app_assoc; cbn [app]; now rewrite <- !app_assoc).
  destruct t as [|a t].
  - cbn [strip_loop]. rewrite Ed2. cbn [nonempty f] in *. unfold f in *. cbn [nonempty] in *. apply removed_app.
    + apply removed_none. intros k K. rewrite EB. cbn [rev app].
      assert (k < p) as K' by lia. intros [I|[(b & b' & I & I' & L & Q)|(b & b' & I & I' & L & Q)]].
      * destruct I as [<-|I]; [lia|]. apply Hi in I. lia.
      * destruct I as [<-|I]; [lia|]. apply Hi in I. lia.
      * assert (p <= b') by (destruct I' as [<-|I']; [lia|]; apply Hi in I'; lia). destruct I as [<-|I]; [lia|].
        assert (In b B) as J by (rewrite EB; now right). pose proof (Sp p b Ip J (Hi b I)). lia.
    + replace (0 + length a1) with (p - 0) by lia. exact R2.
  - change false with (negb (nonempty (p :: post))). eapply (IH (p :: post) a1 (ft ++ x :: hd ++ mid ++ suf) (mid ++ tail)); auto; try discriminate.
    now rewrite L1.
Qed.
Lemma removed_iff (D D' : nat -> Prop) : (forall i, D i <-> D' i) -> forall i l l', removed D i l l' -> removed D' i l l'.
Proof. intros H i l l' R. induction R; [constructor|apply rem_drop; auto; now apply H|apply rem_keep; auto; now rewrite <- H]. Qed.
Lemma strip_spec body nh nf : let out := strip_headers_footers_pagebreaks body (breaks body) nh nf in
  (long_pages body nh nf -> removed (furniture body nh nf) 0 body out) /\ (~ long_pages body nh nf -> out = body).
Proof.
  cbn zeta. unfold strip_headers_footers_pagebreaks. pose proof (long_pages_test body nh nf) as T. destruct (nonempty _ && _) eqn:E.
  - split; [|intros H; elim H; now apply T]. intros (L & Sp). 
    eapply (removed_iff (del_set (breaks body) nh nf)).
    { intros i. unfold del_set, furniture. rewrite in_breaks. split; intros [H|[(b & b' & A & B & C)|(b & b' & A & B & C)]]; auto; right; [left|right|left|right];
        exists b, b'; [apply in_breaks in A, B|apply in_breaks in A, B| |]; rewrite ?in_breaks; auto. }
    rewrite <- (app_nil_r body) at 4. change true with (negb (nonempty (@nil nat))).
    eapply (strip_loop_spec nh nf (breaks body) body (breaks_asc body)) with (suf := []).
    + intros a b I I'. apply Sp; now apply in_breaks.
    + intros p I. apply in_breaks in I as (l & I & _). apply nth_error_Some. congruence.
    + intros Q. apply (f_equal (@length nat)) in Q. rewrite rev_length in Q. cbn in Q. lia.
    + now rewrite rev_involutive, app_nil_r.
    + now rewrite app_nil_r.
    + reflexivity.
    + constructor.
  - split; auto. intros H. apply T in H. discriminate.
Qed.

(** ** The number of header and footer lines *)
Lemma words_filled l w : In w (words l) -> w <> [].
Proof.
  unfold words, re_findall. rewrite in_map_iff. intros (o & <- & I). apply finditer_in in I as (a & w & b & x' & E & F & M & S1 & S2).
  apply (mt_minlen l) in M; [|rewrite E; apply at_here]. change (minlen (rx_re re_word_search)) with 1 in M. apply fwd_here_iff in F as (t & W & ->).
  apply app_inv_head in W as ->. cbn [pos here] in M. rewrite app_length in M. rewrite S1, S2, E. unfold slice. rewrite skipn_app, skipn_all, Nat.sub_diag.
  cbn [app skipn]. replace (length a + length w - length a) with (length w) by lia. rewrite firstn_app, firstn_all, Nat.sub_diag. cbn [firstn]. rewrite app_nil_r.
  intros ->. cbn in M. lia.
Qed.
Lemma nonempty_lower w : w <> [] -> lower w <> [].
Proof.
  destruct w as [|c w]; [congruence|]. intros _. unfold lower. cbn [flat_map]. enough (lower_ch c <> []) as H by (destruct (lower_ch c); [congruence|discriminate]).
  unfold lower_ch. destruct (c <? 128)%N; [destruct (is_upper_ascii c); discriminate|]. destruct (run_map c UnicodeTables.lower_runs); [discriminate|].
  destruct (assoc_N c UnicodeTables.lower_multi) as [l|] eqn:E; [|discriminate].
  assert (forallb (fun e => match snd e with [] => false | _ => true end) UnicodeTables.lower_multi = true) as F by (vm_compute; reflexivity).
  revert F E. generalize UnicodeTables.lower_multi. intros tb. induction tb as [|[k v] tb IH]; cbn [assoc_N forallb snd]; [discriminate|].
  intros F E. apply andb_true_iff in F as [F1 F2]. destruct (N.eqb c k); [injection E as ->; destruct l; [discriminate|discriminate]|auto].
Qed.
Lemma similar_word_spec a b : a <> [] -> b <> [] -> similar_word a b = true <-> words_agree a b.
Proof.
  intros A B. apply nonempty_lower in A, B. unfold similar_word, words_agree.
  assert (forall x y : str, x <> [] -> y <> [] -> N.eqb (hd 0%N x) (hd 0%N y) = true <-> nth_error x 0 = nth_error y 0) as H0.
  { intros [|x u] [|y v] X Y; try congruence. cbn. rewrite N.eqb_eq. split; congruence. }
  assert (forall x y : str, x <> [] -> y <> [] -> N.eqb (last x 0%N) (last y 0%N) = true <-> nth_error (rev x) 0 = nth_error (rev y) 0) as H1.
  { intros x y X Y. destruct (exists_last X) as (u & p & ->), (exists_last Y) as (v & q & ->). rewrite !last_last, !rev_unit. cbn. rewrite N.eqb_eq. split; congruence. }
  destruct (isdigit a && isdigit b) eqn:D.
  - apply andb_true_iff in D. tauto.
  - apply andb_false_iff in D. rewrite andb_true_iff, H0, H1 by auto. split; [tauto|]. intros [[P Q]|P]; auto. destruct D; congruence.
Qed.
Lemma agreeing_count u : forall v, (forall w, In w u -> w <> []) -> (forall w, In w v -> w <> []) -> length u = length v ->
  agreeing u v (length (filter (fun p => similar_word (fst p) (snd p)) (combine u v))).
Proof.
  induction u as [|a u IH]; intros [|b v] U V L; try discriminate; cbn [combine filter fst snd]; [constructor|]. cbn in L. injection L as L.
  assert (similar_word a b = true <-> words_agree a b) as W by (apply similar_word_spec; [apply U|apply V]; now left).
  specialize (IH v (fun w H => U w (or_intror H)) (fun w H => V w (or_intror H)) L).
  destruct (similar_word a b); cbn [length]; constructor; auto; [now apply W|]. intros H. apply W in H. discriminate.
Qed.
Lemma agreeing_det u v n : agreeing u v n -> forall n', agreeing u v n' -> n = n'.
Proof. induction 1; inversion 1; subst; try contradiction; auto. Qed.
Lemma agreeing_len u v n : agreeing u v n -> length u = length v.
Proof. induction 1; cbn; congruence. Qed.
Lemma agrees_similar l l' : line_agrees (isspace l) (words l) (words l') = true <-> similar_lines l l'.
Proof.
  unfold line_agrees, similar_lines. destruct (isspace l).
  - rewrite Nat.eqb_eq. destruct (words l'); cbn; split; congruence.
  - pose proof (agreeing_count (words l) (words l') (words_filled l) (words_filled l')) as A.
    unfold check_boundary_lines_similar, count_similar. destruct (Nat.eqb_spec (length (words l)) (length (words l'))) as [E|E]; cbn [negb].
    + specialize (A E). destruct (words l') as [|w' t'] eqn:W'; cbn [length Nat.eqb orb].
      * split; [discriminate|intros (H & _); congruence].
      * destruct (words l) as [|w t] eqn:W; [discriminate|]. rewrite Nat.leb_le. split.
        -- intros H; split; [discriminate|]. eexists. split; [exact A|exact H].
        -- intros (_ & n & H & Q). pose proof (agreeing_det _ _ _ A _ H) as D. unfold str, ch in *. rewrite D. exact Q.
    + rewrite orb_true_r. split; [discriminate|intros (_ & n & H & _)]. apply agreeing_len in H. congruence.
Qed.
(** the comparison of the pages at the breaks 1 + next * i, i = 1, 2, ... *)
Lemma header_inner_spec body next num l : 1 <= next -> forall fuel cur, length (breaks body) <= fuel + cur ->
  let m := length (breaks body) - 1 in
  exists r, header_inner fuel body (breaks body) m next num cur (isspace l) (words l) = Ok r
    /\ (r = true <-> forall i b, cur + i * next < m -> nth_error (breaks body) (cur + i * next) = Some b ->
                    exists l', nth_error body (b + num + 1) = Some l' /\ similar_lines l l').
Proof.
  intros Hn. induction fuel as [|fuel IH]; intros cur F m; cbn [header_inner]; destruct (Nat.ltb_spec cur m) as [L|L]; try (unfold m in *; lia).
  - exists true. split; auto. split; auto. intros _ i b Q. lia.
  - unfold pos_at. destruct (nth_error (breaks body) cur) as [b|] eqn:E; [|apply nth_error_None in E; lia]. cbn [bind].
    destruct (Nat.leb_spec (length body) (b + num + 1)) as [Q|Q].
    + exists false. split; auto. split; [discriminate|]. intros H. destruct (H 0 b) as (l' & N & _); [lia|now rewrite Nat.add_0_r|].
      assert (b + num + 1 < length body) by (apply nth_error_Some; congruence). lia.
    + unfold at_index. destruct (nth_error body (b + num + 1)) as [l'|] eqn:E'; [|apply nth_error_None in E'; lia]. cbn [bind].
      destruct (line_agrees (isspace l) (words l) (words l')) eqn:A.
      * destruct (IH (cur + next)) as (r & Hr & R); [lia|]. fold m in Hr, R. rewrite Hr. exists r. split; auto. rewrite R. split.
        -- intros H [|i] b' K N.
           ++ rewrite Nat.add_0_r in N. rewrite E in N. injection N as <-. exists l'. split; auto. now apply agrees_similar.
           ++ apply (H i); [cbn in K; lia|]. rewrite <- N. f_equal. cbn. lia.
        -- intros H i b' K N. apply (H (S i)); [cbn; lia|]. rewrite <- N. f_equal. cbn. lia.
      * exists false. split; auto. split; [discriminate|]. intros H. destruct (H 0 b) as (l2 & N & S); [lia|now rewrite Nat.add_0_r|].
        rewrite E' in N. injection N as <-. apply agrees_similar in S. congruence.
  - exists true. split; auto. split; auto. intros _ i b Q. lia.
Qed.
Definition step_of (body : list str) : nat := if 3 <? length (breaks body) - 1 then 2 else 1.
Lemma header_common body num b1 b2 l : nth_error (breaks body) 1 = Some b1 -> nth_error (breaks body) 2 = Some b2 -> b1 + num + 1 < b2 ->
  nth_error body (b1 + num + 1) = Some l ->
  (common_header body num <-> forall i b, 1 + step_of body + i * step_of body < length (breaks body) - 1 ->
     nth_error (breaks body) (1 + step_of body + i * step_of body) = Some b -> exists l', nth_error body (b + num + 1) = Some l' /\ similar_lines l l').
Proof.
  intros B1 B2 Lt E. split.
  - intros (c1 & c2 & l0 & C1 & C2 & _ & E0 & H) i b K N. rewrite B1 in C1. injection C1 as <-. rewrite E in E0. injection E0 as <-.
    apply (H (1 + step_of body + i * step_of body)); auto. unfold compared. cbn zeta. split; auto. exists (S i). split; [lia|]. unfold step_of. cbn. lia.
  - intros H. exists b1, b2, l. split; auto. split; auto. split; auto. split; auto. intros j b (J & i & I & Q) N. destruct i as [|i]; [lia|].
    assert (j = 1 + step_of body + i * step_of body) as -> by (unfold step_of; rewrite Q; cbn; lia). apply (H i); auto.
Qed.
Lemma header_outer_spec body : 3 < length (breaks body) -> forall fuel num,
  (forall k, k < num -> common_header body k) -> length body < fuel + num ->
  exists n, header_outer fuel body (breaks body) (length (breaks body) - 1) (step_of body) num = Ok n
    /\ (forall k, k < n -> common_header body k) /\ ~ common_header body n.
Proof.
  intros L. destruct (nth_error (breaks body) 1) as [b1|] eqn:B1; [|apply nth_error_None in B1; lia].
  destruct (nth_error (breaks body) 2) as [b2|] eqn:B2; [|apply nth_error_None in B2; lia].
  assert (b1 < b2) as Lb by (apply (asc_nth _ (breaks_asc body) 1 2); auto).
  assert (b2 < length body) as Lb2 by (apply nth_error_In, in_breaks in B2 as (l & N & _); apply nth_error_Some; congruence).
  assert (forall num, (forall k, k < num -> common_header body k) -> b1 + num + 1 <= b2) as Le.
  { intros num H. destruct num as [|num]; [lia|]. destruct (H num (Nat.lt_succ_diag_r num)) as (c1 & c2 & l & C1 & C2 & Q & _). rewrite B1 in C1. rewrite B2 in C2.
    injection C1 as <-. injection C2 as <-. lia. }
  induction fuel as [|fuel IH]; intros num H F; [pose proof (Le num H); lia|]. cbn [header_outer]. pose proof (Le num H) as Q.
  unfold pos_at. rewrite B1. cbn [bind]. unfold at_index at 1. destruct (nth_error body (b1 + num + 1)) as [l|] eqn:E; [|apply nth_error_None in E; lia]. cbn [bind]. rewrite B2. cbn [bind].
  destruct (Nat.eqb_spec (b1 + num + 1) b2) as [E2|E2].
  - exists num. split; auto. split; auto. intros (c1 & c2 & l0 & C1 & C2 & C & _). rewrite B1 in C1. rewrite B2 in C2. injection C1 as <-. injection C2 as <-. lia.
  - destruct (header_inner_spec body (step_of body) num l) with (fuel := length (breaks body)) (cur := 1 + step_of body) as (r & -> & R).
    { unfold step_of. destruct (3 <? _); lia. } { lia. }
    cbn [bind]. assert (b1 + num + 1 < b2) as Lt by lia. pose proof (header_common body num b1 b2 l B1 B2 Lt E) as Hc. destruct r.
    + apply IH; [|lia]. intros k K. destruct (Nat.eq_dec k num) as [->|]; [|apply H; lia]. apply Hc. now apply R.
    + exists num. split; auto. split; auto. intros C. pose proof (proj2 R (proj1 Hc C)). discriminate.
Qed.
Lemma header_number body : exists n, get_number_header_lines body (breaks body) = Ok n /\ header_count body n.
Proof.
  unfold get_number_header_lines, header_count. destruct (Nat.ltb_spec 2 (length (breaks body) - 1)) as [L|L].
  - destruct (Nat.ltb_spec 3 (length (breaks body))); [|lia]. apply header_outer_spec; auto; [intros k K; lia|lia].
  - destruct (Nat.ltb_spec 3 (length (breaks body))); [lia|]. eauto.
Qed.
Lemma at_before_ok body b k : k + 1 <= b -> b < length body -> at_before body b k = at_index body (b - k - 1).
Proof. intros A B. unfold at_before. now rewrite (proj2 (Nat.leb_le _ _) A). Qed.
Lemma footer_inner_spec body num l : forall bs, (forall b, In b bs -> num + 1 <= b /\ b < length body) ->
  exists r, footer_inner body bs num (isspace l) (words l) = Ok r
   /\ (r = true <-> forall b, In b bs -> exists l', nth_error body (b - num - 1) = Some l' /\ similar_lines l l').
Proof.
  induction bs as [|b bs IH]; intros H; cbn [footer_inner].
  - exists true. split; auto. split; auto. intros _ b [].
  - destruct (H b (or_introl eq_refl)) as (A & B). rewrite at_before_ok by auto. unfold at_index. destruct (nth_error body (b - num - 1)) as [l'|] eqn:E; [|apply nth_error_None in E; lia].
    cbn [bind]. destruct (line_agrees _ _ _) eqn:Q.
    + destruct IH as (r & -> & R); [intros; apply H; now right|]. exists r. split; auto. rewrite R. split.
      * intros G c [<-|I]; auto. exists l'. split; auto. now apply agrees_similar.
      * intros G c I. apply G. now right.
    + exists false. split; auto. split; [discriminate|]. intros G. destruct (G b (or_introl eq_refl)) as (l2 & E2 & S). rewrite E in E2. injection E2 as <-.
      apply agrees_similar in S. congruence.
Qed.
Lemma footer_outer_spec body : 2 < length (breaks body) -> forall fuel num,
  (forall k, k < num -> common_footer body k) -> length body < fuel + num ->
  exists n, footer_outer fuel body (breaks body) num = Ok n /\ (forall k, k < n -> common_footer body k) /\ ~ common_footer body n.
Proof.
  intros L. destruct (nth_error (breaks body) 1) as [b1|] eqn:B1; [|apply nth_error_None in B1; lia].
  assert (b1 < length body) as Lb by (apply nth_error_In, in_breaks in B1 as (l & N & _); apply nth_error_Some; congruence).
  assert (forall num, (forall k, k < num -> common_footer body k) -> num <= b1) as Le.
  { intros num H. destruct num as [|num]; [lia|]. destruct (H num (Nat.lt_succ_diag_r num)) as (c1 & l & C1 & Q & _). rewrite B1 in C1. injection C1 as <-. lia. }
  induction fuel as [|fuel IH]; intros num H F; [pose proof (Le num H); lia|]. cbn [footer_outer]. unfold pos_at. rewrite B1. cbn [bind].
  destruct (Nat.ltb_spec b1 (num + 1)) as [Q|Q]; cbn [orb].
  - exists num. split; auto. split; auto. intros (c1 & l & C1 & C & _). rewrite B1 in C1. injection C1 as <-. lia.
  - destruct (Nat.ltb_spec (length body - 1) (b1 - num - 1)) as [Q2|_]; [lia|]. unfold at_index.
    destruct (nth_error body (b1 - num - 1)) as [l|] eqn:E; [|apply nth_error_None in E; lia]. cbn [bind].
    assert (forall b, In b (skipn 2 (breaks body)) <-> exists j, 2 <= j /\ nth_error (breaks body) j = Some b) as Sk.
    { intros b. split.
      - intros I. apply In_nth_error in I as (j & I). exists (2 + j). split; [lia|]. rewrite <- (firstn_skipn 2 (breaks body)). rewrite nth_error_app2; rewrite firstn_length_le by lia; [|lia]. now replace (2 + j - 2) with j by lia.
      - intros (j & J & N). rewrite <- (firstn_skipn 2 (breaks body)) in N. rewrite nth_error_app2 in N; rewrite firstn_length_le in * by lia; [|lia]. eapply nth_error_In; eauto. }
    destruct (footer_inner_spec body num l (skipn 2 (breaks body))) as (r & -> & R).
    { intros b I. apply Sk in I as (j & J & N). pose proof (asc_nth _ (breaks_asc body) 1 j b1 b B1 N J). split; [lia|]. apply nth_error_In, in_breaks in N as (l0 & N & _). apply nth_error_Some. congruence. }
    cbn [bind]. assert (common_footer body num <-> r = true) as Hc.
    { rewrite R. split.
      - intros (c1 & l0 & C1 & _ & E0 & G) b I. rewrite B1 in C1. injection C1 as <-. rewrite E in E0. injection E0 as <-. apply Sk in I as (j & J & N). eauto.
      - intros G. exists b1, l. split; auto. split; auto. split; auto. intros j b J N. apply G. apply Sk. eauto. }
    destruct r.
    + apply IH; [|lia]. intros k K. destruct (Nat.eq_dec k num) as [->|]; [|apply H; lia]. now apply Hc.
    + exists num. split; auto. split; auto. intros C. apply Hc in C. discriminate.
Qed.
Lemma footer_number body : exists n, get_number_footer_lines body (breaks body) = Ok n /\ footer_count body n.
Proof.
  unfold get_number_footer_lines, footer_count. destruct (Nat.ltb_spec 2 (length (breaks body))) as [L|L]; [|eauto].
  apply footer_outer_spec; auto; [intros k K; lia|lia].
Qed.
Lemma removed_lines body : exists out, remove_page_boundary_lines body = Ok out /\
  (Forall (fun l => isspace l = true) body /\ out = body
   \/ exists nh nf, header_count body nh /\ footer_count body nf
        /\ (long_pages body nh nf -> removed (furniture body nh nf) 0 body out) /\ (~ long_pages body nh nf -> out = body)).
Proof.
  unfold remove_page_boundary_lines. destruct (document_contains_text body) eqn:E; cbn [negb].
  - rewrite positions_breaks. destruct (header_number body) as (nh & -> & Hh). destruct (footer_number body) as (nf & -> & Hf). cbn [bind].
    eexists. split; [reflexivity|]. right. exists nh, nf. split; auto. split; auto. apply strip_spec.
  - exists body. split; auto. left. split; auto. apply Forall_forall. intros l I. apply not_false_is_true. intros Q. unfold document_contains_text in E.
    assert (existsb (fun l => negb (isspace l)) body = true) as X by (apply existsb_exists; exists l; split; auto; now rewrite Q). congruence.
Qed.
