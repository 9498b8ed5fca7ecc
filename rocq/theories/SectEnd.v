(** The end of the section with the references for every way of marking them (C58). *)
From Coq Require Import List Arith NArith Bool String Lia.
From Verif Require Import PyStr ListFacts NumberFacts Regex RegexMeta RegexLang RegexParse Patterns DocText ParseTagged Tag Find RefText RefTextProofs MarkerProofs FindProofs CaptureLang PosProofs TaggerProofs ArxivProofs NumGrammar NumProofs NumFind NumForms SectGrammar SectProofs SectUse Shift.
Import ListNotations.
Local Open Scope nat_scope.
Local Notation length := List.length.

(** ** Reading markers *)
Definition unique (M : reading) : Prop := forall l w b fs w' b' fs', M l w b fs -> M l w' b' fs' -> w = w' /\ b = b' /\ fs = fs'.
(** the patterns [mk] read markers as [M] does *)
Definition read_by (mk : list rx) (M : reading) : Prop := unique M /\ forall s, match regex_match_list s mk with
  | Some (p, o) => exists w b fs, M s w b fs /\ s = w ++ b /\ m_end o = length w /\ group_named p s o (py "mark") = Ok (field_of Fmark fs)
      /\ (numbered p -> group_named p s o (py "marknum") = Ok (field_of Fnumber fs)) /\ (numbered p <-> field_of Fnumber fs <> None)
  | None => forall w b fs, ~ M s w b fs end.
Section Reading.
Variables (mk : list rx) (M : reading).
Hypothesis R : read_by mk M.
Lemma line_number_iff l n : line_number mk l = Some n <-> number_of M l n.
Proof using R.
  destruct R as (U & F). unfold line_number. specialize (F (strip l)). destruct (regex_match_list (strip l) mk) as [[p o]|].
  - destruct F as (w & b & fs & H & _ & _ & _ & G & Nm). unfold mark_number. split.
    + destruct (assoc_str (py "marknum") (rx_names p)) as [i|] eqn:A.
      * rewrite G by (unfold numbered; congruence). destruct (field_of Fnumber fs) as [t|] eqn:Ft; [|discriminate]. destruct (int_of_str t) as [x|] eqn:I; [|discriminate]. intros E. injection E as ->. exists w, b, fs, t. auto.
      * unfold group_named. rewrite A. discriminate.
    + intros (w' & b' & fs' & t & H' & Ft & I). destruct (U _ _ _ _ _ _ _ H H') as (<- & <- & <-). rewrite G by (apply Nm; congruence). now rewrite Ft, I.
  - split; [discriminate|]. intros (w & b & fs & t & H & _). now elim (F w b fs).
Qed.
Lemma last_number_of lines : last_of M lines (last_number mk lines).
Proof using R.
  induction lines as [|l lines IH] using rev_ind.
  - left. split; [reflexivity|]. intros l m [].
  - rewrite last_number_snoc. destruct (line_number mk l) as [n|] eqn:E.
    + right. exists lines, l, []. split; auto. split; [now apply line_number_iff|]. intros x m [].
    + assert (forall m, ~ number_of M l m) as N by (intros m H; apply line_number_iff in H; congruence). destruct IH as [(-> & H)|(l1 & x & l2 & Eq & A & B)].
      * left. split; auto. intros y m I. apply in_app_iff in I as [I|[<-|[]]]; auto.
      * right. exists l1, x, (l2 ++ [l]). rewrite Eq at 1. rewrite <- app_assoc. cbn [app]. split; auto. split; auto. intros y m I. apply in_app_iff in I as [I|[<-|[]]]; auto.
Qed.
Lemma number_of_unique l n n' : number_of M l n -> number_of M l n' -> n = n'.
Proof using R. intros H H'. apply line_number_iff in H, H'. congruence. Qed.
Lemma last_of_unique lines n n' : last_of M lines n -> last_of M lines n' -> n = n'.
Proof using R.
  revert n n'. induction lines as [|l lines IH] using rev_ind; intros n n'.
  - intros [(-> & _)|(l1 & l & l2 & E & _)] [(-> & _)|(l1' & l' & l2' & E' & _)]; auto; destruct l1 || destruct l1'; discriminate.
  - assert (forall m, last_of M (lines ++ [l]) m -> number_of M l m \/ ((forall x, ~ number_of M l x) /\ last_of M lines m)) as H.
    { intros m [(-> & N)|(l1 & x & l2 & E & A & B)].
      - right. split; [intros y; apply N, in_app_iff; right; now left|]. left. split; auto. intros y k I. apply N, in_app_iff. now left.
      - destruct l2 as [|y l2] using rev_ind; [apply app_inj_tail in E as (_ & ->); now left|]. clear IHl2. right. change (l1 ++ x :: l2 ++ [y]) with (l1 ++ (x :: l2) ++ [y]) in E. rewrite app_assoc in E. apply app_inj_tail in E as (-> & <-).
        split; [intros k; apply B, in_app_iff; right; now left|]. right. exists l1, x, l2. split; auto. split; auto. intros z k I. apply B, in_app_iff. now left. }
    intros A B. destruct (H _ A) as [A'|(A' & A'')], (H _ B) as [B'|(B' & B'')]; auto; [eapply number_of_unique; eauto|now elim (B' n)|now elim (A' n')].
Qed.
Lemma continues_iff c l : continues mk c l <-> goes_on M c l.
Proof using R.
  pose proof R as (U & F). unfold continues. specialize (F (strip l)). split.
  - intros (p & o & E & D & H). pose proof E as E2. apply regex_match_list_some in E2 as (_ & Rm). rewrite E in F. destruct F as (w & b & fs & Hm & Es & En & _ & _ & Nm). exists w, b, fs. split; auto. split.
    + apply re_match_some in Rm as (w' & x' & _ & _ & St & _). rewrite St, En, Es in D. unfold slice in D. rewrite Nat.sub_0_r in D. cbn [skipn] in D. rewrite firstn_app, firstn_all, Nat.sub_diag in D. cbn [firstn] in D. now rewrite app_nil_r in D.
    + intros Ft. apply line_number_iff. unfold line_number. rewrite E. apply H. now apply Nm.
  - intros (w & b & fs & Hm & D & H). destruct (regex_match_list (strip l) mk) as [[p o]|] eqn:E; [|now elim (F w b fs)]. destruct F as (w' & b' & fs' & Hm' & Es & En & _ & _ & Nm).
    destruct (U _ _ _ _ _ _ _ Hm Hm') as (<- & <- & <-). exists p, o. split; auto. split.
    + apply regex_match_list_some in E as (_ & Rm). apply re_match_some in Rm as (w' & x' & _ & _ & St & _). rewrite St, En, Es. unfold slice. rewrite Nat.sub_0_r. cbn [skipn]. rewrite firstn_app, firstn_all, Nat.sub_diag. cbn [firstn]. now rewrite app_nil_r.
    + intros Np. assert (number_of M l (c + 1)%N) as K by (apply H; now apply Nm). apply line_number_iff in K. unfold line_number in K. now rewrite E in K.
Qed.
Lemma next_section_iff lines n : next_section mk lines n <-> next_title M lines n.
Proof using R.
  split.
  - intros (line & E & Mt & C). apply next_found in Mt as (k & L & B). exists line, k, (last_number mk (firstn (S n) lines)). split; auto. split; auto. split; auto. split; [apply last_number_of|]. intros l I G. apply (C l I). now apply continues_iff.
  - intros (line & k & m & E & L & B & Lo & C). exists line. split; auto. split; [apply next_found; eauto|]. intros l I G. apply (C l I). apply continues_iff in G. now rewrite (last_of_unique _ _ _ Lo (last_number_of _)).
Qed.
End Reading.
(** the section takes [n] of the lines *)
Definition ends_after (M : reading) (lines : list str) (n : nat) : Prop :=
  n <= length lines /\ (forall j, j < n -> ~ next_title M lines j) /\ (forall j, S j < n -> ~ axis_at lines j)
  /\ (n = length lines \/ next_title M lines n \/ exists j, n = S j /\ axis_at lines j).
Lemma section_length_in mk M lines n : read_by mk M -> section_length mk lines n -> ends_after M lines n.
Proof.
  intros R (A & B & C & D). split; auto. split; [intros j J K; apply (A j J); now apply (next_section_iff mk M R)|]. split; auto. destruct C as [C|[C|C]]; auto. right. left. now apply (next_section_iff mk M R).
Qed.

(** ** The ways there are *)
Lemma read_any : read_by marker_patterns any_mark.
Proof.
  split; [intros l w b fs w' b' fs' (k & A) (k' & B); destruct (marker_unique _ _ _ _ _ _ _ _ _ A B) as (_ & H); exact H|].
  intros s. pose proof (mark_found s) as F. destruct (regex_match_list s marker_patterns) as [[p o]|].
  - destruct F as (k & w & b & fs & Ep & H & En & G & G1 & G2). pose proof H as (L & Es & P & _). exists w, b, fs. split; [now exists k|]. split; auto. split; auto. split; auto.
    assert (numbered p <-> number_form k = true) as Nf by (rewrite Ep; now apply numbered_form). rewrite Nf. split; auto. now apply (numbered_field k w b fs s).
  - intros w b fs (k & H). exact (marker_or _ _ _ _ _ H F).
Qed.
Lemma one_pattern p s : regex_match_list s [p] = match re_match (rx_re p) s with Some o => Some (p, o) | None => None end.
Proof. reflexivity. Qed.
Lemma read_mark k : k < 14 -> read_by [nth k marker_patterns rx0] (mark_form k).
Proof.
  intros L. split.
  - intros l w b fs w' b' fs' (E & P & Q) (E' & P' & Q'). rewrite E in E'. destruct (marks_det k L _ _ _ _ _ _ _ P P' E' Q Q') as (<- & <-). split; auto. split; auto. now apply app_inv_head in E'.
  - intros s. rewrite one_pattern. pose proof (on_match _ _ _ s (marks_fair k L) (mark_inj k L) (marks_read k L)) as S. rewrite <- nothing_nth in S by exact L. destruct (re_match (rx_re (nth k marker_patterns rx0)) s) as [o|] eqn:Mt.
    + destruct S as (w & b & fs & Es & P & En & G). exists w, b, fs. destruct (mark_name k L) as (A1 & A2 & A3 & A4). split; [|split; auto; split; auto; split; [|split]].
      * split; auto. split; auto. intros ->. apply bare_longest in Mt. rewrite En, Es, skipn_app, skipn_all, Nat.sub_diag in Mt. exact Mt.
      * unfold group_named. rewrite A1. f_equal. now apply G.
      * intros Nm. unfold group_named. rewrite (A4 Nm). f_equal. now apply G.
      * rewrite (numbered_form k L). pose proof (number_field k L _ _ _ _ P) as H. destruct (number_form k); [destruct H as (t & ->); split; auto; discriminate|rewrite H; split; [discriminate|congruence]].
    + intros w b fs (E & P & _). apply S. exists w, b, fs. auto.
Qed.

(** ** Numbers without a title *)
Lemma plain_after s o : re_match (rx_re re_number_markers) s = Some o -> ~ first_is is_space (skipn (m_end o) s).
Proof.
  intros H. unfold re_match in H. change (init s) with (here [] s) in H. apply run_m in H as (z & g & H & ->). cbn [m_end].
  assert (rx_re re_number_markers = Grp 1 (Cat (Grp 2 Eps) (Cat sp (Cat (Grp 3 (Rep true 1 None dg)) (Cat sp (Grp 4 Eps)))))) as E by reflexivity. rewrite E in H. clear E. rewrite m_group in H.
  apply peel in H as (u0 & s1 & c0 & g0 & -> & R0 & _ & H); [|reflexivity]. apply rd_grp in R0 as (c' & -> & R0). apply rd_eps in R0 as (-> & ->). cbn [app] in *.
  apply peel in H as (u & s2 & c1 & g1 & -> & _ & _ & H); [|reflexivity].
  apply peel in H as (t & s3 & c2 & g2 & -> & _ & _ & H); [|reflexivity].
  rewrite m_seq in H. apply peel_longest in H as (v & b & -> & V & _ & _ & K & N). rewrite m_group in K. cbn [m] in K. injection K as <- _.
  cbn [here pos]. intros (c & r & E & Sp). assert (b = c :: r) as ->.
  { rewrite <- E. rewrite !app_length. cbn [length]. replace (u ++ t ++ v ++ b) with ((u ++ t ++ v) ++ b) by now rewrite <- !app_assoc. rewrite skipn_app. rewrite (skipn_all2 (u ++ t ++ v)) by (rewrite !app_length; lia). replace (_ - _) with 0 by (rewrite !app_length; lia). reflexivity. }
  specialize (N (v ++ [c]) r). rewrite <- app_assoc in N. specialize (N eq_refl). specialize (N ltac:(rewrite forallb_app; apply andb_true_iff; split; [exact V|]; cbn [forallb]; now rewrite space_mem, Sp) ltac:(rewrite app_length; cbn; lia) I). rewrite m_group in N. cbn [m] in N. discriminate.
Qed.
Lemma plain_unique i : i < 3 -> unique (plain_form i).
Proof.
  intros L l w b fs w' b' fs' (E & P & Q) (E' & P' & Q'). destruct (Nat.eq_dec i 2) as [->|Ni].
  - specialize (Q eq_refl). specialize (Q' eq_refl). cbn [nth number_texts] in *.
    destruct P as (f & -> & (u & v & f1 & f2 & -> & -> & ((U & _) & ->) & (u1 & v1 & f3 & f4 & -> & -> & (? & -> & ((D & Dl & _) & ->)) & (u2 & v2 & f5 & f6 & -> & -> & (-> & -> & Nd) & ((V & _) & ->))))).
    destruct P' as (f' & -> & (u' & v' & f1' & f2' & -> & -> & ((U' & _) & ->) & (u1' & v1' & f3' & f4' & -> & -> & (? & -> & ((D' & Dl' & _) & ->)) & (u2' & v2' & f5' & f6' & -> & -> & (-> & -> & Nd') & ((V' & _) & ->))))).
    cbn [app] in *. rewrite E in E'. rewrite <- !app_assoc in E'.
    assert (forall x y : str, forallb is_digit x = true -> 1 <= length x -> forall c t, x ++ y = c :: t -> is_space c = false) as Hd.
    { intros x y Hx Lx c t Et. destruct x as [|d x]; [cbn in Lx; lia|]. injection Et as -> _. cbn [forallb] in Hx. apply andb_true_iff in Hx as (Hx & _). now apply digit_no_space. }
    assert (u = u') as <-. { eapply run_split; [exact U|exact U'| | |exact E']; intros c t Et; [exact (Hd _ _ D Dl c t Et)|exact (Hd _ _ D' Dl' c t Et)]. }
    apply app_inv_head in E'. assert (u1 = u1') as <-. { eapply run_split; [exact D|exact D'| | |exact E']; intros c t Et; match goal with |- ?x = false => destruct x eqn:Dc; auto end; exfalso; [apply Nd|apply Nd']; exists c, t; auto. }
    apply app_inv_head in E'. assert (v2 = v2') as <-. { eapply run_split; [exact V|exact V'| | |exact E']; intros c t Et; match goal with |- ?x = false => destruct x eqn:Dc; auto end; exfalso; [apply Q|apply Q']; exists c, t; auto. }
    apply app_inv_head in E'. auto.
  - assert (det always (nth i number_texts nothing)) as Dt by (destruct i as [|[|[|i]]]; [| |congruence|lia]; cbn [nth number_texts]; dets).
    rewrite E in E'. destruct (Dt _ _ _ _ _ _ _ P P' E' I I) as (<- & <-). apply app_inv_head in E'. auto.
Qed.
Lemma plain_fields i : i < 3 -> forall w b fs, nth i number_texts nothing [] w b fs -> (exists n, field_of Fnumber fs = Some n) /\ field_of Fmark fs = Some w.
Proof.
  intros L w b fs P. destruct i as [|[|[|i]]]; [| | |lia]; cbn [nth number_texts] in P; destruct P as (f & -> & P).
  - destruct P as (? & ? & ? & ? & _ & -> & (_ & ->) & (? & ? & ? & ? & _ & -> & (_ & ->) & (? & ? & ? & ? & _ & -> & (? & -> & (_ & ->)) & (? & ? & ? & ? & _ & -> & (_ & ->) & (_ & ->))))). cbn. eauto.
  - destruct P as (? & ? & ? & ? & _ & -> & (_ & ->) & (? & ? & ? & ? & _ & -> & (? & -> & (_ & ->)) & (? & ? & ? & ? & _ & -> & (_ & ->) & (_ & ->)))). cbn. eauto.
  - destruct P as (? & ? & ? & ? & _ & -> & (_ & ->) & (? & ? & ? & ? & _ & -> & (? & -> & (_ & ->)) & (? & ? & ? & ? & _ & -> & (_ & -> & _) & (_ & ->)))). cbn. eauto.
Qed.
Lemma read_plain i : i < 3 -> read_by [nth i number_rxs rx0] (plain_form i).
Proof.
  intros L. split; [now apply plain_unique|]. intros s. rewrite one_pattern. destruct (number_name i L) as (A1 & A2 & A3 & A4 & F).
  assert (numbered (nth i number_rxs rx0)) as Nm by (unfold numbered; rewrite A3; discriminate).
  destruct (re_match (rx_re (nth i number_rxs rx0)) s) as [o|] eqn:Mt.
  - assert (exists w b fs, plain_form i s w b fs /\ m_end o = length w /\ g_text s o (mark_no (nth i number_rxs rx0) Fmark) = field_of Fmark fs /\ g_text s o (mark_no (nth i number_rxs rx0) Fnumber) = field_of Fnumber fs) as (w & b & fs & H & En & G1 & G2).
    { destruct (Nat.eq_dec i 2) as [->|Ni].
      - cbn [nth number_rxs] in *. pose proof (plain_after s o Mt) as Pa. destruct (bare_digits s o Mt) as (u & t & v & b & -> & U & T & Tn & V & Nd & En & G1 & G2).
        exists (u ++ t ++ v), b, ((Fmark, u ++ t ++ v) :: [(Fnumber, t)]). rewrite G1, G2. split; [|auto]. unfold plain_form. split; [now rewrite <- !app_assoc|]. split.
        + cbn [nth number_texts]. exists [(Fnumber, t)]. split; auto. exists u, (t ++ v), [], [(Fnumber, t)]. rewrite app_nil_r. split; auto. split; auto. split; [repeat split; auto; cbn; lia|]. exists t, v, [(Fnumber, t)], []. split; auto. split; auto. split.
          * exists []. split; auto. repeat split; auto. destruct t; [congruence|cbn; lia].
          * exists [], v, [], []. split; auto. split; auto. split; [repeat split; auto|]. repeat split; auto. cbn. lia.
        + intros _. rewrite En in Pa. replace (u ++ t ++ v ++ b) with ((u ++ t ++ v) ++ b) in Pa by now rewrite <- !app_assoc. rewrite skipn_app, skipn_all, Nat.sub_diag in Pa. exact Pa.
      - pose proof (on_match _ _ _ s F (number_inj i L) (numbers_read i L)) as S. rewrite Mt in S. destruct S as (w & b & fs & E & P & En & G). exists w, b, fs. rewrite (G Fmark A2), (G Fnumber A4). split; auto. split; auto. split; [|lia].
        assert (nth i read_texts nothing = nth i number_texts nothing) as Q by (destruct i as [|[|[|i]]]; [reflexivity|reflexivity|congruence|lia]). now rewrite Q in P. }
    pose proof H as (Es & P & _). destruct (plain_fields i L w b fs P) as ((n & Fn) & Fm). exists w, b, fs. split; auto. split; auto. split; auto. unfold group_named. rewrite A1, A3, G1, G2. split; auto. split; auto. split; auto. rewrite Fn. discriminate.
  - intros w b fs (E & P & _). destruct (plain_fields i L w b fs P) as ((n & Fn) & Fm). apply (number_begins i n w s L); auto. exists w, b, fs. auto.
Qed.

(** ** Markers after the title *)
Definition silent (p : part) : Prop := forall a w b fs, p a w b fs -> fs = [].
Lemma silent_text P : silent (text P). Proof. intros a w b fs (_ & ->). reflexivity. Qed.
Lemma silent_place P : silent (place P). Proof. intros a w b fs (_ & -> & _). reflexivity. Qed.
Lemma silent_maybe p : silent p -> silent (maybe p). Proof. intros H a w b fs [(_ & ->)|A]; [reflexivity|exact (H _ _ _ _ A)]. Qed.
Lemma silent_either p q : silent p -> silent q -> silent (p or q). Proof. intros H K a w b fs [A|A]; [exact (H _ _ _ _ A)|exact (K _ _ _ _ A)]. Qed.
Lemma silent_seq p q : silent p -> silent q -> silent (p ;; q).
Proof. intros H K a w b fs (u & v & f1 & f2 & -> & -> & A & B). now rewrite (H _ _ _ _ A), (K _ _ _ _ B). Qed.
Ltac silence := repeat match goal with
  | |- silent (maybe _) => apply silent_maybe
  | |- silent (_ or _) => apply silent_either
  | |- silent (_ ;; _) => apply silent_seq
  | |- silent line_end => apply silent_place
  | |- silent line_start => apply silent_place
  | |- silent _ => apply silent_text
  end.
Lemma field_in f p q r a w b fs t : silent p -> silent q -> silent r -> (p ;; named f q ;; r) a w b fs -> field_of f fs = Some t -> exists a' b', q a' t b' [].
Proof.
  intros Sp Sq Sr (u & v & f1 & f2 & -> & -> & A & (u' & v' & f3 & f4 & -> & -> & (f0 & -> & B) & C)) F. rewrite (Sp _ _ _ _ A), (Sr _ _ _ _ C) in F. pose proof (Sq _ _ _ _ B) as ->. destruct f; cbn in F; injection F as <-; eauto.
Qed.
Definition space_list : list ch := [9;10;11;12;13;28;29;30;31;32;133;160;5760;8192;8193;8194;8195;8196;8197;8198;8199;8200;8201;8202;8232;8233;8239;8287;12288]%N.
Lemma space_in c : is_space c = true -> In c space_list.
Proof.
  unfold is_space. cbn [in_ranges]. intros H. repeat match type of H with context [(c <? ?x)%N] => destruct (N.ltb_spec c x); [try discriminate|] | context [(c <=? ?x)%N] => destruct (N.leb_spec c x); try discriminate end.
  all: unfold space_list; cbn [In].
  all: try (exfalso; lia).
  all: repeat match goal with |- ?x = ?y \/ _ => destruct (N.eq_dec x y); [now left|right] end.
  all: lia.
Qed.
Definition first_letters : list ch := flat_map letter_forms (py "rblcp").
Lemma no_blank_letter c d : In c first_letters -> same_letter c d -> is_space d = false.
Proof.
  intros I S. destruct (is_space d) eqn:E; auto. apply space_in in E.
  assert (forallb (fun c => forallb (fun d => negb (cls_mem (mkcls false true [CRange c c]) d)) space_list) first_letters = true) as T by (vm_compute; reflexivity).
  rewrite forallb_forall in T. specialize (T c I). cbn beta in T. rewrite forallb_forall in T. specialize (T d E). cbn beta in T. unfold same_letter in S. rewrite S in T. discriminate.
Qed.
Lemma silent_spaced t : silent (spaced t).
Proof.
  induction t as [|c t IH]; cbn [spaced]; [apply silent_text|]. destruct (is_space c); [apply silent_seq; [apply silent_text|exact IH]|]. destruct t as [|c2 t]; [silence|]. apply silent_seq; [apply silent_text|]. apply silent_seq; [apply silent_text|exact IH].
Qed.
Lemma spaced_head c t a w b fs : is_space c = false -> spaced (c :: t) a w b fs -> exists d r, w = d :: r /\ In d (letter_forms c).
Proof.
  cbn [spaced]. intros ->. assert (forall q, (a_letter c ;; q) a w b fs -> exists d r, w = d :: r /\ In d (letter_forms c)) as H.
  { intros q (u & v & f1 & f2 & -> & _ & ((d & -> & D) & _) & _). exists d, v. split; auto. unfold some_of in D. apply existsb_exists in D as (x & I & E). apply N.eqb_eq in E as ->. exact I. }
  destruct t; apply H.
Qed.
Lemma title_head k t l : has_title k t l -> exists c r, t = c :: r /\ In c first_letters.
Proof.
  intros (w & b & fs & _ & P & F). assert (k < length section_titles) as L.
  { destruct (Nat.lt_ge_cases k (length section_titles)) as [|G]; auto. rewrite nth_overflow in P by exact G. destruct P. }
  pose proof (nth_In section_titles nothing L) as I. unfold section_titles in I at 2. apply in_flat_map in I as (n & Hn & I). cbn [In] in I.
  assert (exists a' b', (spaced (py n) ;; maybe (blanks ;; spaced (py "section"))) a' t b' []) as (a' & b' & (u & v & f1 & f2 & -> & _ & A & _)).
  { assert (silent (spaced (py n) ;; maybe (blanks ;; spaced (py "section")))) as Sq by (apply silent_seq; [apply silent_spaced|]; apply silent_maybe, silent_seq; [apply silent_text|apply silent_spaced]).
    assert (silent title_tail) as St by (unfold title_tail, title_end; silence).
    destruct I as [I|[I|[]]]; rewrite <- I in P; unfold title_text in P.
    - assert (forall p1 p2 p3 p4 p5 q r, silent p1 -> silent p2 -> silent p3 -> silent p4 -> silent p5 -> silent q -> silent r -> (p1 ;; p2 ;; p3 ;; p4 ;; p5 ;; named Ftitle q ;; r) [] w b fs -> exists a' b', q a' t b' []) as K.
      { intros p1 p2 p3 p4 p5 q r S1 S2 S3 S4 S5 Q R (u1 & v1 & x1 & y1 & _ & -> & A1 & (u2 & v2 & x2 & y2 & _ & -> & A2 & (u3 & v3 & x3 & y3 & _ & -> & A3 & (u4 & v4 & x4 & y4 & _ & -> & A4 & A5)))).
        rewrite (S1 _ _ _ _ A1), (S2 _ _ _ _ A2), (S3 _ _ _ _ A3), (S4 _ _ _ _ A4), !app_nil_r in F. exact (field_in _ _ _ _ _ _ _ _ _ S5 Q R A5 F). }
      refine (K _ _ _ _ _ _ _ _ _ _ _ _ Sq St P); unfold section_number; silence.
    - assert (forall p1 p2 p3 q r, silent p1 -> silent p2 -> silent p3 -> silent q -> silent r -> (p1 ;; p2 ;; p3 ;; named Ftitle q ;; r) [] w b fs -> exists a' b', q a' t b' []) as K.
      { intros p1 p2 p3 q r S1 S2 S3 Q R (u1 & v1 & x1 & y1 & _ & -> & A1 & (u2 & v2 & x2 & y2 & _ & -> & A2 & A3)).
        rewrite (S1 _ _ _ _ A1), (S2 _ _ _ _ A2), !app_nil_r in F. exact (field_in _ _ _ _ _ _ _ _ _ S3 Q R A3 F). }
      refine (K _ _ _ _ _ _ _ _ Sq St P); silence. }
  assert (exists c s, py n = c :: s /\ is_space c = false /\ In c (py "rblcp")) as (c & s & En & Sp & Ic).
  { assert (forallb (fun n => match py n with c :: _ => negb (is_space c) && existsb (N.eqb c) (py "rblcp") | [] => false end) section_names = true) as T by (vm_compute; reflexivity).
    rewrite forallb_forall in T. specialize (T n Hn). cbn beta in T. destruct (py n) as [|c s]; [discriminate|]. apply andb_true_iff in T as (T1 & T2). exists c, s. split; auto. split; [now apply negb_true_iff|]. apply existsb_exists in T2 as (x & I2 & E2). apply N.eqb_eq in E2 as ->. exact I2. }
  rewrite En in A. apply spaced_head in A as (d & r & -> & Id); auto. exists d, (r ++ v). split; auto. unfold first_letters. apply in_flat_map. eauto.
Qed.
Lemma texts_det k : k < 14 -> det (mark_ends k) (named Fmark (nth k mark_texts nothing)).
Proof.
  intros L a w b fs w' b' fs' A A' E Q Q'. apply (marks_det k L a w b fs w' b' fs'); auto; rewrite (marks_nth k L); [exists [], w, [], fs|exists [], w', [], fs']; rewrite !app_nil_r; (split; [reflexivity|]); (split; [reflexivity|]); (split; [repeat split; auto; cbn; lia|assumption]).
Qed.
Lemma det_same P (R : ch -> ch -> Prop) t : det P (text (Forall2 R t)).
Proof.
  intros a w b fs w' b' fs' (F & ->) (F' & ->) E _ _. split; auto. clear a. revert w' F' E. induction F as [|c d t w _ F IH]; intros w' F' E; inversion F' as [|? d' ? v' _ F'']; subst; auto. cbn [app] in E. injection E as -> E. f_equal. now apply IH.
Qed.
Lemma title_unique t k : k < 14 -> (exists c r, t = c :: r /\ In c first_letters) -> unique (title_form same_letter t k).
Proof.
  intros L (c & r & -> & Ic) l w b fs w' b' fs' (E & P & Q) (E' & P' & Q'). rewrite (title_marks_nth _ k L) in P, P'. rewrite E in E'.
  assert (det (mark_ends k) (blanks ;; text (Forall2 same_letter (c :: r)) ;; named Fmark (nth k mark_texts nothing))) as D.
  { apply det_many; [|apply det_seq; [apply det_same|now apply texts_det]]. intros a x y z (u & v & f1 & f2 & -> & _ & (F & _) & _). inversion F as [|? d ? v' S F']; subst. exists d, (v' ++ v ++ y). split; [now rewrite <- !app_assoc|]. now apply (no_blank_letter c). }
  destruct (D _ _ _ _ _ _ _ P P' E' Q Q') as (<- & <-). apply app_inv_head in E'. auto.
Qed.
Lemma bodies_number n t : n < 14 -> mark_no (nth n marker_body_rxs rx0) Fnumber <> 0 /\ (numbered (title_marker t (nth n marker_body_rxs rx0)) -> assoc_str (py "marknum") (rx_names (nth n marker_body_rxs rx0)) = Some (mark_no (nth n marker_body_rxs rx0) Fnumber))
  /\ (numbered (title_marker t (nth n marker_body_rxs rx0)) <-> number_form n = true).
Proof.
  intros L. unfold numbered. cbn [title_marker rx_names]. do 14 (destruct n as [|n]; [split; [discriminate|split; [intros H; first [reflexivity | now elim H]|split; [reflexivity || (intros H; now elim H)|discriminate]]]|]). exfalso. lia.
Qed.
Lemma read_title t k : k < 14 -> (exists c r, t = c :: r /\ In c first_letters) -> read_by [title_marker t (nth k marker_body_rxs rx0)] (title_form same_letter t k).
Proof.
  intros L Ht. split; [now apply title_unique|]. intros s. rewrite one_pattern. pose proof (on_match _ _ _ s (title_marks_fair t k L) (bodies_inj k L) (title_marks_read t k L)) as S.
  destruct (re_match (rx_re (title_marker t (nth k marker_body_rxs rx0))) s) as [o|] eqn:Mt.
  - destruct S as (w & b & fs & Es & P & En & G). exists w, b, fs. destruct (bodies_name k L) as (A1 & A2). destruct (bodies_number k t L) as (A3 & A4 & A5). split; [|split; auto; split; auto; split; [|split]].
    + split; auto. split; auto. intros ->. apply bare_after in Mt. rewrite En, Es, skipn_app, skipn_all, Nat.sub_diag in Mt. exact Mt.
    + unfold group_named. cbn [title_marker rx_names]. rewrite A1. f_equal. now apply G.
    + intros Nm. unfold group_named. cbn [title_marker rx_names]. rewrite (A4 Nm). f_equal. now apply G.
    + rewrite A5. rewrite (title_marks_nth t k L) in P. destruct P as (u & v & f1 & f2 & -> & -> & (_ & ->) & (u' & v' & f3 & f4 & -> & -> & (_ & ->) & A)).
      assert (nth k marks nothing (([] ++ u) ++ u') v' b f4) as Pm. { rewrite (marks_nth k L). exists [], v', [], f4. rewrite !app_nil_r. split; auto. split; auto. split; [repeat split; auto; cbn; lia|exact A]. }
      pose proof (number_field k L _ _ _ _ Pm) as H. rewrite !app_nil_r. destruct (number_form k); [destruct H as (x & ->); split; auto; discriminate|rewrite H; split; [discriminate|congruence]].
  - intros w b fs (E & P & _). apply S. exists w, b, fs. auto.
Qed.

(** ** The section *)
(** how the references of the section that begins at [s] are marked *)
Definition marked_by (body : list str) (s : section_start) (M : reading) : Prop :=
  match s_title s with
  | Some t => exists line, nth_error body (s_line s) = Some line /\
      if d_same_line (s_details s) then exists k m, d_marker (s_details s) = Some m /\ mark_after same_letter t line k m /\ M = title_form same_letter t k
      else (forall k, k < 14 -> ~ begins (nth k (title_marks same_letter t) nothing) line)
           /\ exists r, first_mark (firstn 6 (skipn (s_line s) body)) r /\ d_marker (s_details s) = option_map snd r
                /\ M = match r with Some (k, _) => mark_form k | None => any_mark end
  | None => exists i line m, i < 3 /\ (forall i' j, i' < i -> ~ starts_at i' body j) /\ starts_at i body (s_line s) /\ (forall j, starts_at i body j -> j <= s_line s)
      /\ nth_error body (s_line s) = Some line /\ has_number i (py "1") m (strip line) /\ d_marker (s_details s) = Some (strip m) /\ M = plain_form i
  end.
(** a pattern that reads the markers [M], does not look at the text before and finds nothing in the empty text *)
Definition good (p : rx) (M : reading) : Prop := read_by [p] M /\ local (rx_re p) = true /\ forall w b fs, ~ M [] w b fs.
Lemma mark_nonempty k : k < 14 -> forall a b fs, ~ nth k mark_texts nothing a [] b fs.
Proof.
  intros L a b fs H. revert H. do 14 (try (destruct k as [|k]; [cbv [nth mark_texts]|])); [..|exfalso; lia].
  all: unfold bracketed, label; intros H.
  all: first [destruct H as ((c & H & _) & _); discriminate
    | destruct H as (u & v & f1 & f2 & E & _ & H & _); symmetry in E; apply app_eq_nil in E as (-> & ->); first [destruct H as ((c & H & _) & _); discriminate | destruct H as (x & _ & ((_ & H & _) & _)); cbn in H; lia]].
Qed.
Lemma good_mark k : k < 14 -> good (nth k marker_patterns rx0) (mark_form k).
Proof.
  intros L. split; [now apply read_mark|]. split; [do 14 (destruct k as [|k]; [reflexivity|]); exfalso; lia|]. intros w b fs (E & P & _). symmetry in E. apply app_eq_nil in E as (-> & ->).
  rewrite (marks_nth k L) in P. destruct P as (u & v & f1 & f2 & E & _ & _ & (f & _ & P)). symmetry in E. apply app_eq_nil in E as (-> & ->). exact (mark_nonempty k L _ _ _ P).
Qed.
Lemma lits_local t : local (re_lits fI t) = true. Proof. induction t as [|c [|c2 t] IH]; auto. Qed.
Lemma good_title t k : k < 14 -> (exists c r, t = c :: r /\ In c first_letters) -> good (title_marker t (nth k marker_body_rxs rx0)) (title_form same_letter t k).
Proof.
  intros L Ht. split; [now apply read_title|]. split; [cbn [title_marker rx_re local]; rewrite lits_local; clear Ht; do 14 (destruct k as [|k]; [reflexivity|]); exfalso; lia|]. intros w b fs (E & P & _). symmetry in E. apply app_eq_nil in E as (-> & ->).
  rewrite (title_marks_nth t k L) in P. destruct P as (u & v & f1 & f2 & E & _ & _ & (u' & v' & f3 & f4 & E' & _ & _ & (f & _ & P))). symmetry in E. apply app_eq_nil in E as (-> & ->). symmetry in E'. apply app_eq_nil in E' as (-> & ->). exact (mark_nonempty k L _ _ _ P).
Qed.
Lemma good_plain i : i < 3 -> good (nth i number_rxs rx0) (plain_form i).
Proof.
  intros L. split; [now apply read_plain|]. split; [do 3 (destruct i as [|i]; [reflexivity|]); exfalso; lia|]. intros w b fs (E & P & _). symmetry in E. apply app_eq_nil in E as (-> & ->).
  destruct i as [|[|[|i]]]; [| | |lia]; cbn [nth number_texts] in P; destruct P as (f & _ & (u & v & f1 & f2 & E & _ & H & P)); symmetry in E; apply app_eq_nil in E as (-> & ->).
  - destruct H as ((c & H & _) & _). discriminate.
  - destruct P as (u & v & f3 & f4 & E & _ & (x & _ & ((_ & H' & _) & _)) & _). symmetry in E. apply app_eq_nil in E as (-> & ->). cbn in H'. lia.
  - destruct P as (u & v & f3 & f4 & E & _ & (x & _ & ((_ & H' & _) & _)) & _). symmetry in E. apply app_eq_nil in E as (-> & ->). cbn in H'. lia.
Qed.
Lemma marked_spec body s : get_reference_section_beginning body = Ok (Some s) -> exists M, marked_by body s M /\ read_by (section_markers s) M
  /\ match d_pattern (s_details s) with Some p => d_marker (s_details s) <> None /\ good p M | None => d_marker (s_details s) = None end.
Proof.
  intros E. destruct (beginning_spec body) as (r & E' & B). rewrite E in E'. injection E' as <-. cbn [beginning] in B. destruct B as [B|(Nt & B)].
  - destruct (titled_spec body s B) as (k0 & line0 & t0 & _ & El0 & Ht & T0 & _). destruct B as (qs & p & rs & _ & (f & (line & o & t & E1 & M & G & T & D) & _) & _). rewrite T in T0. injection T0 as <-. rewrite E1 in El0. injection El0 as <-.
    apply title_head in Ht. unfold marked_by, section_markers. rewrite T. assert (exists r, firstn 6 (skipn (s_line s) body) = line :: r) as (r & Er).
    { pose proof E1 as E2. apply nth_error_split in E2 as (l1 & l2 & -> & E2). rewrite <- E2, skipn_app, skipn_all, Nat.sub_diag. cbn [skipn app firstn]. eauto. }
    unfold find_numeration_of_section, find_numeration_in_title in D. rewrite Er in *. pose proof (title_mark_found t line) as F. destruct (regex_match_list line (map (title_marker t) marker_body_rxs)) as [[p' o']|].
    + destruct F as (k & m & Ep & G' & F). rewrite G' in D. cbn [bind] in D. injection D as D _. rewrite <- D. cbn [d_same_line d_marker d_pattern]. exists (title_form same_letter t k). split.
      * exists line. split; auto. exists k, m. auto.
      * subst p'. destruct F as (w & b & fs & L & _). split; [now apply read_title|]. split; [discriminate|now apply good_title].
    + cbn [bind] in D. destruct (body_mark (line :: r)) as (q & Eb & Fm). rewrite Eb in D. cbn [bind] in D. injection D as D _. rewrite <- D. cbn [d_same_line d_marker d_pattern]. exists (match q with Some (k, _) => mark_form k | None => any_mark end). split.
      * exists line. split; auto. split; auto. exists q. auto.
      * destruct q as [[k m]|]; cbn [option_map form_rx fst snd]; [|split; [apply read_any|reflexivity]]. destruct Fm as (l1 & l & l2 & _ & (w & b & fs & (L & _) & _) & _). split; [now apply read_mark|]. split; [discriminate|now apply good_mark].
  - assert (exists i, i < 3 /\ number_section (nth i number_rxs rx0) body s /\ forall i', i' < i -> no_number (nth i' number_rxs rx0) body) as (i & L & Sn & No).
    { destruct B as [B|(N0 & [B|(N1 & B)])]; [exists 0|exists 1|exists 2]; (split; [lia|]); (split; [exact B|]); intros i' Li; destruct i' as [|[|i']]; try lia; assumption. }
    pose proof Sn as (_ & _ & _ & _ & Dp & _). apply number_section_iff in Sn as (T & A & Bl & (line & m & El & Hn & Dm)); auto. exists (plain_form i). unfold marked_by, section_markers. rewrite T, Dp, Dm. split; [|split; [now apply read_plain|split; [discriminate|now apply good_plain]]].
    exists i, line, m. split; auto. split; [intros i' j Li; apply no_number_iff; [lia|apply No; exact Li]|]. repeat (split; auto).
Qed.
Lemma extract_exact fulltext : exists body r, remove_page_boundary_lines fulltext = Ok body /\ get_reference_section_beginning body = Ok r /\ match r with
  | None => extract_references_from_fulltext fulltext = Ok ([], 4)
  | Some s => exists M n, marked_by body s M /\ ends_after M (skipn (s_line s) body) n /\
      extract_references_from_fulltext fulltext = (let* refs := rebuild_reference_lines (section_lines body s n) (d_pattern (s_details s)) in Ok (refs, 0)) end.
Proof.
  destruct (extract_spec fulltext) as (body & r & E & B & _ & H). exists body, r. split; auto. split; auto. destruct r as [s|]; auto. destruct H as (n & Sl & X & _). destruct (marked_spec body s B) as (M & Mb & R & _).
  exists M, n. split; auto. split; auto. now apply (section_length_in _ _ _ _ R).
Qed.
Lemma end_exact body start marker : (body = [] \/ length body < start) /\ find_end_of_reference_section body start marker None = Ok None
  \/ exists n, find_end_of_reference_section body start marker None = Ok (Some (start + n)) /\ start <= length body /\ ends_after any_mark (skipn start body) n.
Proof.
  destruct (end_spec body start marker None) as [H|(n & H & L & Sl)]; [discriminate|now left|right]. exists n. split; auto. split; auto. apply (section_length_in marker_patterns _ _ _ read_any). now destruct marker.
Qed.
Lemma marked_form body s : get_reference_section_beginning body = Ok (Some s) -> exists M, marked_by body s M.
Proof. intros H. destruct (marked_spec body s H) as (M & Mb & _). eauto. Qed.
