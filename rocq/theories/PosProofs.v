(** Which texts are taken for a reference to PoS, and what is written for them (C56). *)
From Coq Require Import List Arith NArith Bool String Lia.
From Verif Require Import PyStr ListFacts NumberFacts Regex RegexMeta RegexLang RegexParse Patterns Numeration Tag CaptureLang TaggerProofs ArxivProofs.
Import ListNotations.
Local Open Scope nat_scope.
Local Notation length := List.length.

(** ** The longest of the texts with which the rest can be read *)
Lemma rep_longest mn mx c (K : cont) : forall fuel n a s g res, length s + (mn - n) < fuel -> le_max n mx ->
  rep_loop true mn mx (Cls c) K fuel n (here a s) g = Some res -> exists w b, s = w ++ b /\ forallb (cls_mem c) w = true /\ mn <= n + length w /\ le_max (n + length w) mx
    /\ K (here (a ++ w) b) g = Some res /\ forall w' b', s = w' ++ b' -> forallb (cls_mem c) w' = true -> length w < length w' -> le_max (n + length w') mx -> K (here (a ++ w') b') g = None.
Proof.
  induction fuel as [|f IH]; intros n a s g res Hf Hm H; [lia|].
  assert (forall Q : Prop, Q -> (if mn <=? n then K (here a s) g else None) = Some res -> Q /\ mn <= n /\ K (here a s) g = Some res) as Stop.
  { intros Q q H'. destruct (Nat.leb_spec mn n); [auto|discriminate]. }
  assert (mn <= n -> K (here a s) g = Some res -> (forall d w' b', s = d :: w' ++ b' -> forallb (cls_mem c) (d :: w') = true -> le_max (n + S (length w')) mx -> K (here (a ++ d :: w') b') g = None) ->
    exists w b, s = w ++ b /\ forallb (cls_mem c) w = true /\ mn <= n + length w /\ le_max (n + length w) mx
    /\ K (here (a ++ w) b) g = Some res /\ forall w' b', s = w' ++ b' -> forallb (cls_mem c) w' = true -> length w < length w' -> le_max (n + length w') mx -> K (here (a ++ w') b') g = None) as Done.
  { intros L E S. exists [], s. cbn [app length forallb]. rewrite Nat.add_0_r, app_nil_r. split; auto. split; auto. split; auto. split; auto. split; auto. intros [|d w'] b' Es A Lt M; [cbn in Lt; lia|]. eapply S; eauto. }
  cbn [rep_loop] in H. destruct (below n mx) eqn:B.
  - cbn [m] in H. unfold step in H. unfold here at 1 in H. cbn [suf pos pre] in H. destruct s as [|d t].
    + cbn [orelse] in H. apply (Stop True) in H as (_ & L & E); auto. apply Done; auto. discriminate.
    + destruct (cls_mem c d) eqn:D.
      * match type of H with context [rep_loop _ _ _ _ _ _ _ ?y g] => replace y with (here (a ++ [d]) t) in H by (unfold here; cbn [pos pre]; rewrite rev_app_distr, app_length; cbn; f_equal; lia) end.
        assert (pos (here a (d :: t)) <? pos (here (a ++ [d]) t) = true) as Lt by (apply Nat.ltb_lt; cbn; rewrite app_length; cbn; lia). rewrite Lt, orb_true_r in H.
        destruct (rep_loop true mn mx (Cls c) K f (S n) (here (a ++ [d]) t) g) as [r|] eqn:Q.
        -- cbn [orelse] in H. injection H as ->. apply IH in Q as (w & b & -> & A & L & M & E & Z); [|cbn in Hf; lia|unfold below in B; destruct mx; cbn; auto; apply Nat.ltb_lt in B; lia].
           exists (d :: w), b. cbn [app forallb length]. rewrite D, A. rewrite <- app_assoc in E. rewrite Nat.add_succ_r. split; auto. split; auto. split; auto. split; auto. split; auto.
           intros [|d' w'] b' Es A' Lt' M'; [cbn in Lt'; lia|]. cbn [app] in Es. injection Es as <- Es. cbn [forallb] in A'. rewrite D in A'. cbn in A', Lt', M'. specialize (Z w' b' Es A' ltac:(lia)). rewrite <- app_assoc in Z. apply Z. now rewrite Nat.add_succ_r in M'.
        -- cbn [orelse] in H. apply (Stop True) in H as (_ & L & E); auto. apply Done; auto. intros d' w' b' Es A' M'. injection Es as <- Es. cbn [forallb] in A'. rewrite D in A'. cbn [andb] in A'.
           destruct (K (here (a ++ d :: w') b') g) as [r|] eqn:Kr; auto. exfalso. revert Q. clear Stop Done E.
           enough (forall (w' : list ch) (f n : nat) (a : str) (t b' : list ch) r, length t + (mn - n) < f -> mn <= n -> le_max (n + length w') mx -> t = w' ++ b' -> forallb (cls_mem c) w' = true -> K (here (a ++ w') b') g = Some r -> rep_loop true mn mx (Cls c) K f n (here a t) g <> None) as G.
           { apply (G w' f (S n) (a ++ [d]) t b' r); auto; [cbn [length] in Hf; unfold str, ch in *; lia|now rewrite Nat.add_succ_r in M'|now rewrite <- app_assoc]. }
           clear. induction w' as [|d w' IH]; intros f n a t b' r Hf L M -> A Kr; (destruct f as [|f]; [lia|]); cbn [rep_loop]; assert (mn <=? n = true) as -> by (apply Nat.leb_le; lia).
           ++ cbn [app] in *. rewrite app_nil_r in Kr. unfold orelse. match goal with |- (match ?q with Some _ => _ | None => _ end) <> None => destruct q end; congruence.
           ++ cbn [forallb] in A. apply andb_true_iff in A as [D A]. cbn [length] in M. assert (below n mx = true) as -> by (unfold below; destruct mx; auto; cbn in M; apply Nat.ltb_lt; lia).
              cbn [m]. unfold step. unfold here at 1. cbn [suf pos pre app]. rewrite D.
              assert (mkst (S (pos (here a (d :: w' ++ b')))) (d :: pre (here a (d :: w' ++ b'))) (w' ++ b') = here (a ++ [d]) (w' ++ b')) as -> by (unfold here; cbn [pos pre]; rewrite rev_app_distr, app_length; cbn; f_equal; lia).
              assert (pos (here a (d :: w' ++ b')) <? S (pos (here a (d :: w' ++ b'))) = true) as -> by (apply Nat.ltb_lt; lia). rewrite orb_true_r.
              specialize (IH f (S n) (a ++ [d]) (w' ++ b') b' r ltac:(cbn in Hf; lia) ltac:(lia) ltac:(destruct mx; cbn in *; auto; lia) eq_refl A ltac:(now rewrite <- app_assoc)).
              unfold orelse. match goal with |- (match ?q with Some _ => _ | None => _ end) <> None => destruct q end; [discriminate|congruence].
      * cbn [orelse] in H. apply (Stop True) in H as (_ & L & E); auto. apply Done; auto. intros d' w' b' Es A'. injection Es as <- Es. cbn [forallb] in A'. rewrite D in A'. discriminate.
  - cbn [orelse] in H. apply (Stop True) in H as (_ & L & E); auto. apply Done; auto. intros d w' b' _ _ M. unfold below in B. destruct mx as [k|]; [|discriminate]. apply Nat.ltb_ge in B. cbn in Hm, M. lia.
Qed.
Lemma peel_longest mn mx c a s g (K : cont) res : m (Rep true mn mx (Cls c)) (here a s) g K = Some res -> exists w b, s = w ++ b /\ forallb (cls_mem c) w = true /\ mn <= length w /\ le_max (length w) mx
    /\ K (here (a ++ w) b) g = Some res /\ forall w' b', s = w' ++ b' -> forallb (cls_mem c) w' = true -> length w < length w' -> le_max (length w') mx -> K (here (a ++ w') b') g = None.
Proof.
  intros H. change (rep_loop true mn mx (Cls c) K (S (mn + length s)) 0 (here a s) g = Some res) in H. apply rep_longest in H; auto; [lia|]. destruct mx; cbn; auto; lia.
Qed.
(** what the end of a pattern reads *)
Lemma m_last r a s g z gs : fair r = true -> m r (here a s) g accept = Some (z, gs) -> exists w b c gc, s = w ++ b /\ rd r a w b c /\ z = here (a ++ w) b /\ gs = gc ++ g /\ located (a ++ s) gc c.
Proof. intros F H. apply m_sound in H as (x' & g' & M & H). injection H as -> ->. apply (says_all r F) in M as (w & b & c & gc & -> & -> & R & -> & L). exists w, b, c, gc. auto. Qed.
Lemma m_none r a w b g : fair r = true -> m r (here a (w ++ b)) g accept = None -> forall c, ~ rd r a w b c.
Proof. intros F H c R. destruct (proj2 (says_all r F) _ _ _ _ g R) as (gc & M & _). revert H. eapply (m_complete (a ++ w ++ b)); [exact M|apply here_at|now apply fair_productive|discriminate]. Qed.

(** ** The parts *)
Definition blank (w : str) : Prop := forallb is_space w = true.
(** a comma, white space, a colon or a dash *)
Definition sep_char (c : ch) : bool := N.eqb c 44 || is_space c || N.eqb c 58 || N.eqb c 45.
Definition sep (w : str) : Prop := exists u c v, w = u ++ [c] ++ v /\ blank u /\ sep_char c = true /\ blank v.
Definition sep_opt (w : str) : Prop := sep w \/ blank w.
Definition year_num (y : str) : Prop := exists d e, (y = py "19" ++ [d; e] \/ y = py "20" ++ [d; e]) /\ is_digit d = true /\ is_digit e = true.
(** a year between white space or in parentheses *)
Definition year_text (w y : str) : Prop := year_num y /\ ((exists p q, w = [p] ++ y ++ [q] /\ is_space p = true /\ is_space q = true) \/ w = py "(" ++ y ++ py ")").
Definition pos_name (w : str) : Prop := forallb is_word w = true /\ 1 <= length w <= 10.
Definition pos_page (w : str) : Prop := forallb is_digit w = true /\ 1 <= length w <= 4.
Definition pos_title (w : str) : Prop := letters true (py "POS") w.

Definition sep_cls : cls := mkcls false true [CRange 44 44; CSpace true; CRange 58 58; CRange 45 45].
Lemma sep_mem d : cls_mem sep_cls d = sep_char d. Proof. unfold sep_cls, sep_char. classes. rewrite !orb_assoc. reflexivity. Qed.
Definition spaces : re := Rep true 0 None (Cls space_cls).
Definition sep_re : re := Cat spaces (Cat (Cls sep_cls) spaces).
Definition sepopt_re : re := Cat spaces (Cat (Rep true 0 (Some 1) (Cls sep_cls)) spaces).
Definition num_any (ci : bool) : re := Cat (Alt (word_re ci (py "19")) (word_re ci (py "20"))) (Rep true 2 (Some 2) (Cls digit_cls)).
Definition num_re : re := num_any true.
Definition year_re (i : nat) : re := Grp i (Grp (S i) (Alt (Cat (Cls space_cls) (thn num_re (Cls space_cls))) (lits true (py "(") (thn num_re (word_re true (py ")")))))).
Definition name_re (i : nat) : re := Grp i (Rep true 1 (Some 10) (Cls word_cls)).
Definition page_re (i : nat) : re := Grp i (Rep true 1 (Some 4) (Cls digit_cls)).
Definition front1 : re := lits true (py "POS") (thn sepopt_re (thn (year_re 1) sep_re)).
Definition front2 : re := lits true (py "POS") sep_re.
Definition front4 : re := lits true (py "POS") (thn sepopt_re (word_re true (py "("))).
Definition back1 : re := thn sepopt_re (thn (Grp 4 num_re) sep_re).
Definition back2 : re := thn sepopt_re (thn (Grp 2 num_re) (thn sepopt_re (thn (year_re 3) sepopt_re))).
Definition back3 : re := thn sepopt_re (thn (Grp 2 num_re) sep_re).
Definition back4 : re := thn sepopt_re (thn (Grp 2 num_re) (thn (word_re true (py ")")) sepopt_re)).
Definition tail3 : re := thn (page_re 3) (thn sepopt_re (year_re 4)).
Lemma shape1 : rx_re re_pos_1 = thn front1 (thn (name_re 3) (thn back1 (page_re 5))). Proof. reflexivity. Qed.
Lemma shape2 : rx_re re_pos_2 = thn front2 (thn (name_re 1) (thn back2 (page_re 5))). Proof. reflexivity. Qed.
Lemma shape3 : rx_re re_pos_3 = thn front2 (thn (name_re 1) (thn back3 tail3)). Proof. reflexivity. Qed.
Lemma shape4 : rx_re re_pos_4 = thn front4 (thn (name_re 1) (thn back4 (page_re 3))). Proof. reflexivity. Qed.

Lemma rd_spaces a w b c : rd spaces a w b c <-> blank w /\ c = []. Proof. apply (rd_many _ _ _ _ _ _ space_mem). Qed.
Lemma rd_sep a w b c : rd sep_re a w b c <-> sep w /\ c = [].
Proof.
  unfold sep_re. rewrite rd_cat. split.
  - intros (u & v & c1 & c2 & -> & -> & H1 & H). apply rd_spaces in H1 as (U & ->). apply rd_cat in H as (x & y & c3 & c4 & -> & -> & H1 & H2). apply rd_cls in H1 as (d & -> & D & ->). apply rd_spaces in H2 as (V & ->). rewrite sep_mem in D.
    split; auto. exists u, d, y. auto.
  - intros ((u & d & v & -> & U & D & V) & ->). exists u, ([d] ++ v), [], []. split; auto. split; auto. split; [now apply rd_spaces|]. apply rd_cat. exists [d], v, [], []. split; auto. split; auto. split; [|now apply rd_spaces].
    apply rd_cls. exists d. rewrite sep_mem. auto.
Qed.
Lemma rd_sepopt a w b c : rd sepopt_re a w b c <-> sep_opt w /\ c = [].
Proof.
  unfold sepopt_re. rewrite rd_cat. split.
  - intros (u & v & c1 & c2 & -> & -> & H1 & H). apply rd_spaces in H1 as (U & ->). apply rd_cat in H as (x & y & c3 & c4 & -> & -> & H1 & H2). apply rd_spaces in H2 as (V & ->). apply rd_opt in H1 as [(-> & ->)|H1].
    + split; auto. right. unfold blank in *. cbn [app]. now rewrite forallb_app, U, V.
    + apply rd_cls in H1 as (d & -> & D & ->). rewrite sep_mem in D. split; auto. left. exists u, d, y. auto.
  - intros ([(u & d & v & -> & U & D & V)|B] & ->).
    + exists u, ([d] ++ v), [], []. split; auto. split; auto. split; [now apply rd_spaces|]. apply rd_cat. exists [d], v, [], []. split; auto. split; auto. split; [|now apply rd_spaces]. apply rd_opt. right. apply rd_cls. exists d. rewrite sep_mem. auto.
    + exists w, [], [], []. rewrite app_nil_r. split; auto. split; auto. split; [now apply rd_spaces|]. apply rd_cat. exists [], [], [], []. split; auto. split; auto. split; [apply rd_opt; auto|]. apply rd_spaces. split; auto. reflexivity.
Qed.
Lemma rd_paren p a w b c : In p [py "("; py ")"] -> rd (word_re true p) a w b c <-> w = p /\ c = [].
Proof. intros I. rewrite rd_word by (destruct I as [<-|[<-|[]]]; discriminate). rewrite letters_plain by (destruct I as [<-|[<-|[]]]; reflexivity). reflexivity. Qed.
Lemma rd_num_any ci a w b c : rd (num_any ci) a w b c <-> year_num w /\ c = [].
Proof.
  unfold num_any. rewrite rd_cat. split.
  - intros (u & v & c1 & c2 & -> & -> & H1 & H2). apply rd_digits in H2 as (L & D & ->).
    assert ((u = py "19" \/ u = py "20") /\ c1 = []) as (U & ->).
    { apply rd_alt in H1 as [H|H]; (apply rd_word in H as (H & ->); [|discriminate]); (apply letters_plain in H; [|reflexivity]); subst u; auto. }
    split; auto. destruct v as [|d [|e [|x v]]]; try discriminate L. cbn [forallb] in D. apply andb_true_iff in D as [D E]. apply andb_true_iff in E as [E _]. exists d, e. destruct U as [->| ->]; auto.
  - intros ((d & e & Y & D & E) & ->). assert (exists u, (u = py "19" \/ u = py "20") /\ w = u ++ [d; e]) as (u & U & ->) by (destruct Y as [->| ->]; eauto). exists u, [d; e], [], []. split; auto. split; auto. split.
    + apply rd_alt. destruct U as [->| ->]; [left|right]; (apply rd_word; [discriminate|]); split; auto; now apply letters_plain.
    + apply rd_digits. split; auto. split; auto. cbn. now rewrite D, E.
Qed.
Lemma rd_num a w b c : rd num_re a w b c <-> year_num w /\ c = []. Proof. apply rd_num_any. Qed.
Ltac split_thn H := match type of H with rd (thn ?r ?k) _ _ _ _ => apply (proj1 (rd_thn r k _ _ _ _)) in H | _ => idtac end.
Ltac cat H u H1 := let v := fresh "v" in let c1 := fresh "c" in let c2 := fresh "c" in split_thn H; apply rd_cat in H as (u & v & c1 & c2 & -> & -> & H1 & H).
Ltac join := match goal with |- rd (thn ?r ?k) _ _ _ _ => apply (proj2 (rd_thn r k _ _ _ _)) | _ => idtac end; apply rd_cat.
Lemma rd_year i a w b c : rd (year_re i) a w b c <-> exists y, year_text w y /\ c = [(i, w); (S i, w)].
Proof.
  unfold year_re. rewrite rd_grp. split.
  - intros (c' & -> & H). apply rd_grp in H as (c2 & -> & H). apply rd_alt in H as [H|H].
    + apply rd_cat in H as (u & v & c1 & c3 & -> & -> & H1 & H). apply rd_cls in H1 as (p & -> & P & ->). rewrite space_mem in P. split_thn H; apply rd_cat in H as (y & x & c4 & c5 & -> & -> & H1 & H2). apply rd_num in H1 as (Y & ->). apply rd_cls in H2 as (q & -> & Q & ->). rewrite space_mem in Q.
      exists y. split; auto. split; auto. left. exists p, q. auto.
    + apply rd_lits in H as (x & v & -> & X & H). apply letters_plain in X; [|reflexivity]. subst x. split_thn H; apply rd_cat in H as (y & x & c4 & c5 & -> & -> & H1 & H2). apply rd_num in H1 as (Y & ->). apply rd_paren in H2 as (-> & ->); [|cbn; auto].
      exists y. split; auto. split; auto.
  - intros (y & (Y & [(p & q & -> & P & Q)| ->]) & ->).
    + exists [(S i, [p] ++ y ++ [q])]. split; auto. apply rd_grp. exists []. split; auto. apply rd_alt. left. apply rd_cat. exists [p], (y ++ [q]), [], []. split; auto. split; auto. split; [apply rd_cls; exists p; rewrite space_mem; auto|].
      join. exists y, [q], [], []. split; auto. split; auto. split; [now apply rd_num|]. apply rd_cls. exists q. rewrite space_mem. auto.
    + exists [(S i, py "(" ++ y ++ py ")")]. split; auto. apply rd_grp. exists []. split; auto. apply rd_alt. right. apply rd_lits. exists (py "("), (y ++ py ")"). split; auto. split; [now apply letters_plain|].
      join. exists y, (py ")"), [], []. split; auto. split; auto. split; [now apply rd_num|]. apply rd_paren; cbn; auto.
Qed.
Lemma rd_name i a w b c : rd (name_re i) a w b c <-> pos_name w /\ c = [(i, w)].
Proof.
  unfold name_re. rewrite rd_grp. split.
  - intros (c' & -> & H). apply rd_rep_cls in H as (A & L & M & ->). rewrite (class_all _ _ _ word_mem) in A. cbn in M. repeat split; auto.
  - intros ((A & L) & ->). exists []. split; auto. apply rd_rep_cls. rewrite (class_all _ _ _ word_mem). cbn. intuition.
Qed.
Lemma rd_page i a w b c : rd (page_re i) a w b c <-> pos_page w /\ c = [(i, w)].
Proof.
  unfold page_re. rewrite rd_grp. split.
  - intros (c' & -> & H). apply rd_rep_cls in H as (A & L & M & ->). rewrite (class_all _ _ _ digit_mem) in A. cbn in M. repeat split; auto.
  - intros ((A & L) & ->). exists []. split; auto. apply rd_rep_cls. rewrite (class_all _ _ _ digit_mem). cbn. intuition.
Qed.

(** ** The four forms *)
(** the beginning, with the year if it is there *)
Definition begin1 (f yt : str) : Prop := exists t s1 y s2, f = t ++ s1 ++ yt ++ s2 /\ pos_title t /\ sep_opt s1 /\ year_text yt y /\ sep s2.
Definition begin2 (f yt : str) : Prop := exists t s1, f = t ++ s1 /\ pos_title t /\ sep s1 /\ yt = [].
Definition begin4 (f yt : str) : Prop := exists t s1, f = t ++ s1 ++ py "(" /\ pos_title t /\ sep_opt s1 /\ yt = [].
(** what is between the name and the page *)
Definition mid1 (k n yt : str) : Prop := exists s1 s2, k = s1 ++ n ++ s2 /\ sep_opt s1 /\ year_num n /\ sep s2 /\ yt = [].
Definition mid2 (k n yt : str) : Prop := exists s1 s2 s3 y, k = s1 ++ n ++ s2 ++ yt ++ s3 /\ sep_opt s1 /\ year_num n /\ sep_opt s2 /\ year_text yt y /\ sep_opt s3.
Definition mid4 (k n yt : str) : Prop := exists s1 s2, k = s1 ++ n ++ py ")" ++ s2 /\ sep_opt s1 /\ year_num n /\ sep_opt s2 /\ yt = [].
(** what is behind the page *)
Definition end1 (e yt : str) : Prop := e = [] /\ yt = [].
Definition end3 (e yt : str) : Prop := exists s1 y, e = s1 ++ yt /\ sep_opt s1 /\ year_text yt y.
Definition caps_of (i : nat) (yt : str) : caps := match yt with [] => [] | _ => [(i, yt); (S i, yt)] end.
Lemma year_caps i yt y : year_text yt y -> caps_of i yt = [(i, yt); (S i, yt)].
Proof. intros (_ & [(p & q & -> & _)| ->]); reflexivity. Qed.

Lemma rd_begin1 a f b c : rd front1 a f b c <-> exists yt, begin1 f yt /\ c = caps_of 1 yt.
Proof.
  unfold front1. rewrite rd_lits. split.
  - intros (t & v & -> & T & H). cat H s1 H1. apply rd_sepopt in H1 as (S1 & ->). cat H yt H1. apply rd_year in H1 as (y & Y & ->). apply rd_sep in H as (S2 & ->). exists yt. rewrite (year_caps _ _ _ Y). split; auto. exists t, s1, y, v. auto.
  - intros (yt & (t & s1 & y & s2 & -> & T & S1 & Y & S2) & ->). rewrite (year_caps _ _ _ Y). exists t, (s1 ++ yt ++ s2). split; auto. split; auto. join. exists s1, (yt ++ s2), [], [(1, yt); (2, yt)]. split; auto. split; auto. split; [now apply rd_sepopt|].
    join. exists yt, s2, [(1, yt); (2, yt)], []. split; auto. split; auto. split; [apply rd_year; eauto|now apply rd_sep].
Qed.
Lemma rd_begin2 a f b c : rd front2 a f b c <-> exists yt, begin2 f yt /\ c = caps_of 1 yt.
Proof.
  unfold front2. rewrite rd_lits. split.
  - intros (t & v & -> & T & H). apply rd_sep in H as (S1 & ->). exists []. split; auto. exists t, v. auto.
  - intros (yt & (t & s1 & -> & T & S1 & ->) & ->). exists t, s1. split; auto. split; auto. now apply rd_sep.
Qed.
Lemma rd_begin4 a f b c : rd front4 a f b c <-> exists yt, begin4 f yt /\ c = caps_of 1 yt.
Proof.
  unfold front4. rewrite rd_lits. split.
  - intros (t & v & -> & T & H). cat H s1 H1. apply rd_sepopt in H1 as (S1 & ->). apply rd_paren in H as (-> & ->); [|cbn; auto]. exists []. split; auto. exists t, s1. auto.
  - intros (yt & (t & s1 & -> & T & S1 & ->) & ->). exists t, (s1 ++ py "("). split; auto. split; auto. join. exists s1, (py "("), [], []. split; auto. split; auto. split; [now apply rd_sepopt|]. apply rd_paren; cbn; auto.
Qed.
Lemma rd_group_num i a w b c : rd (Grp i num_re) a w b c <-> year_num w /\ c = [(i, w)].
Proof. rewrite rd_grp. split; [intros (c' & -> & H); apply rd_num in H as (Y & ->); auto|intros (Y & ->); exists []; split; auto; now apply rd_num]. Qed.
Lemma rd_mid1 i a k b c : rd (thn sepopt_re (thn (Grp i num_re) sep_re)) a k b c <-> exists n yt, mid1 k n yt /\ c = caps_of (S i) yt ++ [(i, n)].
Proof.
  split.
  - intros H. cat H s1 H1. apply rd_sepopt in H1 as (S1 & ->). cat H n H1. apply rd_group_num in H1 as (N & ->). apply rd_sep in H as (S2 & ->). exists n, []. split; auto. exists s1; eexists; split; [reflexivity|auto 6].
  - intros (n & yt & (s1 & s2 & -> & S1 & N & S2 & ->) & ->). join. exists s1, (n ++ s2), [], [(i, n)]. split; auto. split; auto. split; [now apply rd_sepopt|]. join. exists n, s2, [(i, n)], []. split; auto. split; auto. split; [now apply rd_group_num|now apply rd_sep].
Qed.
Lemma rd_mid2 a k b c : rd back2 a k b c <-> exists n yt, mid2 k n yt /\ c = caps_of 3 yt ++ [(2, n)].
Proof.
  unfold back2. split.
  - intros H. cat H s1 H1. apply rd_sepopt in H1 as (S1 & ->). cat H n H1. apply rd_group_num in H1 as (N & ->). cat H s2 H1. apply rd_sepopt in H1 as (S2 & ->). cat H yt H1. apply rd_year in H1 as (y & Y & ->). apply rd_sepopt in H as (S3 & ->).
    exists n, yt. rewrite (year_caps _ _ _ Y). split; auto. exists s1, s2; eexists; exists y; split; [reflexivity|auto 8].
  - intros (n & yt & (s1 & s2 & s3 & y & -> & S1 & N & S2 & Y & S3) & ->). rewrite (year_caps _ _ _ Y). join. exists s1, (n ++ s2 ++ yt ++ s3), [], ([(3, yt); (4, yt)] ++ [(2, n)]). split; auto. split; auto. split; [now apply rd_sepopt|].
    join. exists n, (s2 ++ yt ++ s3), [(2, n)], [(3, yt); (4, yt)]. split; auto. split; auto. split; [now apply rd_group_num|]. join. exists s2, (yt ++ s3), [], [(3, yt); (4, yt)]. split; auto. split; auto. split; [now apply rd_sepopt|].
    join. exists yt, s3, [(3, yt); (4, yt)], []. split; auto. split; auto. split; [apply rd_year; eauto|now apply rd_sepopt].
Qed.
Lemma rd_mid4 a k b c : rd back4 a k b c <-> exists n yt, mid4 k n yt /\ c = caps_of 3 yt ++ [(2, n)].
Proof.
  unfold back4. split.
  - intros H. cat H s1 H1. apply rd_sepopt in H1 as (S1 & ->). cat H n H1. apply rd_group_num in H1 as (N & ->). cat H p H1. apply rd_paren in H1 as (-> & ->); [|cbn; auto]. apply rd_sepopt in H as (S2 & ->). exists n, []. split; auto. exists s1; eexists; split; [reflexivity|auto 8].
  - intros (n & yt & (s1 & s2 & -> & S1 & N & S2 & ->) & ->). join. exists s1, (n ++ py ")" ++ s2), [], [(2, n)]. split; auto. split; auto. split; [now apply rd_sepopt|].
    join. exists n, (py ")" ++ s2), [(2, n)], []. split; auto. split; auto. split; [now apply rd_group_num|]. join. exists (py ")"), s2, [], []. split; auto. split; auto. split; [apply rd_paren; cbn; auto|now apply rd_sepopt].
Qed.
Lemma rd_end3 a e b c : rd (thn sepopt_re (year_re 4)) a e b c <-> exists yt, end3 e yt /\ c = caps_of 4 yt.
Proof.
  split.
  - intros H. cat H s1 H1. apply rd_sepopt in H1 as (S1 & ->). apply rd_year in H as (y & Y & ->). exists v. rewrite (year_caps _ _ _ Y). split; auto. exists s1, y. auto.
  - intros (yt & (s1 & y & -> & S1 & Y) & ->). rewrite (year_caps _ _ _ Y). join. exists s1, yt, [], [(4, yt); (5, yt)]. split; auto. split; auto. split; [now apply rd_sepopt|]. apply rd_year. eauto.
Qed.

(** ** What is written *)
Definition pos_tag (name num y page : str) : str :=
  wrap "JOURNAL" (py "PoS") ++ py " " ++ wrap "VOL" (name ++ num) ++ py " " ++ wrap "YR" (py "(" ++ y ++ py ")") ++ py " " ++ wrap "PG" page.
Lemma digit_no_space c : is_digit c = true -> is_space c = false. Proof. intros H. now apply isdigit_not_space, digit_isdigit. Qed.
Lemma strip_by_inner p (u x v : str) c d : forallb p u = true -> forallb p v = true -> p c = false -> p d = false -> strip_by p (u ++ (c :: x ++ [d]) ++ v) = c :: x ++ [d].
Proof.
  intros U V C D. unfold strip_by, rstrip_by, lstrip_by.
  assert (forall w s, forallb p w = true -> drop_while p (w ++ s) = drop_while p s) as W.
  { induction w as [|z w IH]; cbn [app forallb drop_while]; auto. intros s H. apply andb_true_iff in H as [-> H]. auto. }
  rewrite W by auto. cbn [app drop_while]. rewrite C. rewrite app_comm_cons, rev_app_distr, W.
  - rewrite app_comm_cons, rev_app_distr. cbn [rev app drop_while]. rewrite D. cbn [rev]. now rewrite rev_app_distr, rev_involutive.
  - rewrite forallb_forall in *. intros z I. apply V. now apply in_rev.
Qed.
Lemma year_shape y : year_num y -> exists c x d, y = c :: x ++ [d] /\ is_space c = false /\ is_space d = false /\ in_set (py "()") c = false /\ in_set (py "()") d = false.
Proof.
  intros (d & e & Y & D & E).
  assert (forall z, is_digit z = true -> in_set (py "()") z = false) as Q.
  { intros z Z. unfold in_set. cbn [py]. destruct (mem_ch z _) eqn:M; auto. apply mem_ch_in in M. vm_compute in M. destruct M as [<-|[<-|[]]]; discriminate Z. }
  destruct Y as [->| ->]; [exists 49%N, [57%N; d], e|exists 50%N, [48%N; d], e]; repeat split; auto using digit_no_space; reflexivity.
Qed.
Lemma year_shown yt y : year_text yt y -> strip_chars (py "()") (strip yt) = y.
Proof.
  intros (N & H). destruct (year_shape y N) as (c & x & d & -> & C & D & C' & D').
  assert (strip_chars (py "()") (c :: x ++ [d]) = c :: x ++ [d]) as Q.
  { pose proof (strip_by_inner (in_set (py "()")) [] x [] c d eq_refl eq_refl C' D') as H0. cbn [app] in H0. rewrite app_nil_r in H0. exact H0. }
  destruct H as [(p & q & -> & P & R)| ->].
  - unfold strip. rewrite strip_by_inner; auto; cbn [forallb]; now rewrite ?P, ?R.
  - unfold strip. pose proof (strip_by_inner is_space [] (c :: x ++ [d]) [] 40%N 41%N eq_refl eq_refl eq_refl eq_refl) as H0. cbn [app] in H0. rewrite app_nil_r in H0. change (py "(") with [40%N]. change (py ")") with [41%N]. cbn [app]. etransitivity; [exact (f_equal (strip_chars (py "()")) H0)|].
    apply (strip_by_inner (in_set (py "()")) [40%N] x [41%N] c d eq_refl eq_refl C' D').
Qed.
Lemma num_shown n : year_num n -> strip_chars (py "()") (strip n) = n.
Proof.
  intros N. destruct (year_shape n N) as (c & x & d & -> & C & D & C' & D').
  pose proof (strip_by_inner is_space [] x [] c d eq_refl eq_refl C D) as Q. cbn [app] in Q. rewrite app_nil_r in Q.
  pose proof (strip_by_inner (in_set (py "()")) [] x [] c d eq_refl eq_refl C' D') as Q'. cbn [app] in Q'. rewrite app_nil_r in Q'.
  etransitivity; [exact (f_equal (strip_chars (py "()")) Q)|exact Q'].
Qed.
Lemma year_of_num n : year_num n -> exists g, re_search (rx_re re_pos_year_num_rx) n = Some g /\ slice (m_start g) (m_end g) n = n.
Proof.
  intros Y. assert (rx_re re_pos_year_num_rx = num_any false) as -> by reflexivity. unfold re_search. destruct n as [|c n]; [destruct Y as (d & e & [Y|Y] & _); discriminate|]. cbn [search_at].
  change (mkst 0 [] (c :: n)) with (here [] (c :: n)). destruct (run (num_any false) false (here [] (c :: n))) as [o|] eqn:R.
  - pose proof R as R0. apply run_rd in R0 as (w & b & cs & E & Rd & S1 & S2 & _); [|reflexivity]. apply rd_num_any in Rd as (W & _).
    assert (forall y, year_num y -> length y = 4) as L4 by (intros y (d & e & [->| ->] & _); reflexivity). exists o. split; auto. rewrite S1, S2, E.
    assert (b = []) as ->. { apply (f_equal (@length ch)) in E. rewrite app_length in E. pose proof (L4 _ W). pose proof (L4 _ Y). destruct b; auto. cbn in *. lia. }
    pose proof (slice_mid [] w []) as Q. cbn [app] in Q. rewrite app_nil_r in *. exact Q.
  - exfalso. revert R. rewrite <- (app_nil_r (c :: n)). intros R. apply (run_not _ _ _ _ (eq_refl : fair (num_any false) = true) R []). now apply rd_num_any.
Qed.

(** ** One pass over the line *)
(** the year is the one written apart, or else that of the volume *)
Definition shown_year (n yt y : str) : Prop := year_text yt y \/ yt = [] /\ y = n.
Definition pos_text (BE : str -> str -> Prop) (MI : str -> str -> str -> Prop) (EN : str -> str -> Prop) (w f name k page e n yt : str) : Prop :=
  exists y1 y2 y3, w = f ++ name ++ k ++ page ++ e /\ BE f y1 /\ pos_name name /\ MI k n y2 /\ pos_page page /\ EN e y3 /\ yt = y1 ++ y2 ++ y3.
Definition pos_pass (BE : str -> str -> Prop) (MI : str -> str -> str -> Prop) (EN : str -> str -> Prop) : str -> str -> Prop :=
  tagged (fun a w b => exists f name k page e n yt, pos_text BE MI EN w f name k page e n yt)
    (fun a w b v => exists f name k page e n yt y, pos_text BE MI EN w f name k page e n yt
       /\ (forall w' b' name' k' page' e' n' yt', w ++ b = w' ++ b' -> pos_text BE MI EN w' f name' k' page' e' n' yt' -> length name' <= length name)
       /\ (length page = 4 \/ no_more is_digit (e ++ b)) /\ shown_year n yt y /\ v = pos_tag name n y page) [].
Definition pos_caps (fi i mi pi ei : nat) (name n page y1 y2 y3 : str) : caps :=
  (caps_of ei y3 ++ [(pi, page)]) ++ (caps_of mi y2 ++ [(S i, n)]) ++ [(i, name)] ++ caps_of fi y1.
Definition pos_reads (p : rx) (BE : str -> str -> Prop) (MI : str -> str -> str -> Prop) (EN : str -> str -> Prop) (fi i mi pi ei : nat) : Prop :=
  forall whole o f name k page e n y1 y2 y3, BE f y1 -> MI k n y2 -> EN e y3 -> year_num n -> (forall j, j <> 0 -> g_text whole o j = cap j (pos_caps fi i mi pi ei name n page y1 y2 y3)) ->
  exists y, shown_year n (y1 ++ y2 ++ y3) y /\ pos_tagger p whole o = pos_tag name n y page.
Lemma pos_pass_exact p F B T (BE : str -> str -> Prop) (MI : str -> str -> str -> Prop) (EN : str -> str -> Prop) fi i mi pi ei line :
  (forall a w b c, rd (rx_re p) a w b c <-> rd (Cat F (Cat (name_re i) (Cat B T))) a w b c) ->
  (forall x g k, m (rx_re p) x g k = m (Cat F (Cat (name_re i) (Cat B T))) x g k) -> fair (rx_re p) = true -> fair F = true -> fair (Cat B T) = true -> 1 <= minlen (rx_re p) ->
  (forall a w b c, rd F a w b c <-> exists yt, BE w yt /\ c = caps_of fi yt) ->
  (forall a w b c, rd B a w b c <-> exists n yt, MI w n yt /\ c = caps_of mi yt ++ [(S i, n)]) ->
  (forall a w b c, rd T a w b c <-> exists pg e yt, w = pg ++ e /\ pos_page pg /\ EN e yt /\ c = caps_of ei yt ++ [(pi, pg)]) ->
  (forall a s g z gs, m T (here a s) g accept = Some (z, gs) -> exists pg e yt b gc, s = pg ++ e ++ b /\ pos_page pg /\ EN e yt /\ (length pg = 4 \/ no_more is_digit (e ++ b)) /\ z = here (a ++ pg ++ e) b
     /\ gs = gc ++ g /\ located (a ++ s) gc (caps_of ei yt ++ [(pi, pg)])) ->
  (forall k n yt, MI k n yt -> year_num n) -> pos_reads p BE MI EN fi i mi pi ei -> pos_pass BE MI EN line (sub_with p (pos_tagger p) line).
Proof.
  intros Rd Mm Fp Ff Fb Mn KF KB KT MT Yn Rs. unfold sub_with. apply sub_tagged; auto.
  - intros a w b (f & name & k & page & e & n & yt & y1 & y2 & y3 & -> & Be & Na & Mi & Pg & En & ->). eexists. apply Rd. apply rd_cat. exists f, (name ++ k ++ page ++ e). do 2 eexists. split; [reflexivity|]. split; [reflexivity|]. split; [apply KF; eauto|].
    apply rd_cat. exists name, (k ++ page ++ e). do 2 eexists. split; [reflexivity|]. split; [reflexivity|]. split; [apply rd_name; eauto|]. apply rd_cat. exists k, (page ++ e). do 2 eexists. split; [reflexivity|]. split; [reflexivity|]. split; [apply KB; eauto|]. apply KT. eauto 8.
  - intros a w b o W R S T0. apply run_m in R as (z & gs & R & ->). rewrite Mm in R. apply peel in R as (f & s1 & c1 & g1 & E1 & R1 & L1 & R); auto. apply KF in R1 as (y1 & Be & ->).
    rewrite m_seq in R. unfold name_re in R. rewrite m_group in R. apply peel_longest in R as (name & s2 & E2 & Na & Ln & Mx & R & Long). rewrite (class_all _ _ _ word_mem) in Na. cbn in Mx.
    rewrite m_seq in R. pose proof R as R'. change (m (Cat B T) (here ((a ++ f) ++ name) s2) ((i, (pos (here (a ++ f) s1), pos (here ((a ++ f) ++ name) s2))) :: g1 ++ []) accept = Some (z, gs)) in R. clear R'.
    apply peel in R as (k & s3 & c3 & g3 & E3 & R3 & L3 & R); [|cbn [fair] in Fb; now apply andb_true_iff in Fb]. apply KB in R3 as (n & y2 & Mi & ->).
    apply MT in R as (page & e & y3 & b' & g4 & E4 & Pg & En & More & -> & -> & L4). cbn [m_end here pos] in T0.
    assert (w ++ b = (f ++ name ++ k ++ page ++ e) ++ b') as Ew by (rewrite E1, E2, E3, E4, <- !app_assoc; reflexivity).
    destruct (same_text w b (f ++ name ++ k ++ page ++ e) b' Ew) as [-> ->]. { rewrite !app_length in *. lia. }
    destruct (Rs line (mkmobj (length a) (length (((a ++ f) ++ name) ++ k ++ page ++ e)) (g4 ++ g3 ++ (i, (pos (here (a ++ f) s1), pos (here ((a ++ f) ++ name) s2))) :: g1)) f name k page e n y1 y2 y3) as (y & Sy & Ry); auto; [eauto| |].
    + intros j Hj. unfold g_text. replace (g_span _ j) with (lookup_group j (g4 ++ g3 ++ (i, (pos (here (a ++ f) s1), pos (here ((a ++ f) ++ name) s2))) :: g1)) by (destruct j; [congruence|reflexivity]).
      apply located_cap. subst line s1 s2 s3. rewrite <- !app_assoc in *. unfold pos_caps. apply located_more; [exact L4|]. apply located_more; [exact L3|]. apply (located_more _ [_] [(i, name)]); [|exact L1]. constructor; [|constructor]. split; [reflexivity|]. cbn [fst snd here pos].
      pose proof (slice_mid (a ++ f) name (k ++ page ++ e ++ b')) as Q. rewrite <- !app_assoc in Q. rewrite !app_length in *. rewrite !Nat.add_assoc in *. exact Q.
    + exists f, name, k, page, e, n, (y1 ++ y2 ++ y3), y. split; [exists y1, y2, y3; repeat split; auto; try lia; apply Pg|]. split; [|split; [auto|split; auto]].
      * intros w' b'0 name' k' page' e' n' yt' Eq (z1 & z2 & z3 & -> & Be' & (Na' & Ln') & Mi' & Pg' & En' & ->). destruct (Nat.le_gt_cases (length name') (length name)) as [|Lt]; auto. exfalso.
        rewrite <- !app_assoc in Eq. apply app_inv_head in Eq. assert (s1 = name' ++ k' ++ page' ++ e' ++ b'0) as E5 by (rewrite E2, E3, E4; exact Eq).
        specialize (Long name' (k' ++ page' ++ e' ++ b'0) E5). rewrite (class_all _ _ _ word_mem) in Long. specialize (Long Na' Lt ltac:(cbn; lia)).
        replace (k' ++ page' ++ e' ++ b'0) with ((k' ++ page' ++ e') ++ b'0) in Long by now rewrite <- !app_assoc.
        eapply (m_none (Cat B T)); [exact Fb|exact Long|]. apply rd_cat. exists k', (page' ++ e'). do 2 eexists. split; [reflexivity|]. split; [reflexivity|]. split; [apply KB; eauto|]. apply KT. eauto 8.
      * rewrite <- Ry, app_nil_r. cbn [here pos]. now rewrite <- !app_assoc.
Qed.

(** ** The four passes *)
Lemma page_last i a s g z gs : m (page_re i) (here a s) g accept = Some (z, gs) -> exists pg e yt b gc, s = pg ++ e ++ b /\ pos_page pg /\ end1 e yt /\ (length pg = 4 \/ no_more is_digit (e ++ b)) /\ z = here (a ++ pg ++ e) b
     /\ gs = gc ++ g /\ located (a ++ s) gc (caps_of 9 yt ++ [(i, pg)]).
Proof.
  unfold page_re. rewrite m_group. intros H. apply peel_most in H as (pg & b & -> & A & L & M & More & H); [|discriminate]. rewrite (class_all _ _ _ digit_mem) in A. cbn in M. injection H as <- <-.
  exists pg, [], [], b, [(i, (pos (here a (pg ++ b)), pos (here (a ++ pg) b)))]. split; auto. split; [split; auto|]. split; [split; auto|]. split; [|split; [now rewrite app_nil_r|split; [reflexivity|]]].
  - destruct More as [More|More]; [left; congruence|right]. destruct b; cbn [app]; [exact I|]. unfold no_more. now rewrite <- digit_mem.
  - constructor; [|constructor]. split; [reflexivity|]. cbn [fst snd here pos]. rewrite app_length. apply slice_mid.
Qed.
Lemma rd_page_last i a w b c : rd (page_re i) a w b c <-> exists pg e yt, w = pg ++ e /\ pos_page pg /\ end1 e yt /\ c = caps_of 9 yt ++ [(i, pg)].
Proof.
  rewrite rd_page. split.
  - intros (P & ->). exists w, [], []. rewrite app_nil_r. repeat split; auto; apply P.
  - intros (pg & e & yt & -> & P & (-> & ->) & ->). rewrite app_nil_r. auto.
Qed.
Lemma sep_no_digit c : sep_char c = true -> is_digit c = false.
Proof.
  unfold sep_char. rewrite !orb_true_iff, !N.eqb_eq. intros [[[->|H]| ->]| ->]; try reflexivity. destruct (is_digit c) eqn:D; auto. apply digit_no_space in D. congruence.
Qed.
Lemma end3_no_digit e yt b : end3 e yt -> no_more is_digit (e ++ b).
Proof.
  intros (s1 & y & -> & S & Y).
  assert (exists c t, yt = c :: t /\ is_digit c = false) as (c & t & -> & C).
  { destruct Y as (_ & [(p & q & -> & P & _)| ->]); [|exists 40%N, (y ++ py ")"); auto]. exists p, (y ++ [q]). split; auto. destruct (is_digit p) eqn:D; auto. apply digit_no_space in D. congruence. }
  destruct s1 as [|d s1]; [exact C|]. cbn [app]. unfold no_more. destruct S as [(u & x & v & E & U & X & V)|B].
  - destruct u as [|x' u]; injection E as <- _; [now apply sep_no_digit|]. cbn [forallb] in U. apply andb_true_iff in U as [U _]. destruct (is_digit d) eqn:D; auto. apply digit_no_space in D. congruence.
  - unfold blank in B. cbn [forallb] in B. apply andb_true_iff in B as [B _]. destruct (is_digit d) eqn:D; auto. apply digit_no_space in D. congruence.
Qed.
Lemma rd_tail3 a w b c : rd tail3 a w b c <-> exists pg e yt, w = pg ++ e /\ pos_page pg /\ end3 e yt /\ c = caps_of 4 yt ++ [(3, pg)].
Proof.
  unfold tail3. split.
  - intros H. cat H pg H1. apply rd_page in H1 as (P & ->). apply rd_end3 in H as (yt & E & ->). exists pg. eauto 8.
  - intros (pg & e & yt & -> & P & E & ->). join. exists pg, e, [(3, pg)], (caps_of 4 yt). split; auto. split; auto. split; [now apply rd_page|]. apply rd_end3. eauto.
Qed.
Lemma tail3_last a s g z gs : m tail3 (here a s) g accept = Some (z, gs) -> exists pg e yt b gc, s = pg ++ e ++ b /\ pos_page pg /\ end3 e yt /\ (length pg = 4 \/ no_more is_digit (e ++ b)) /\ z = here (a ++ pg ++ e) b
     /\ gs = gc ++ g /\ located (a ++ s) gc (caps_of 4 yt ++ [(3, pg)]).
Proof.
  intros H. apply m_last in H as (w & b & c & gc & -> & R & -> & -> & L); [|reflexivity]. apply rd_tail3 in R as (pg & e & yt & -> & P & E & ->). exists pg, e, yt, b, gc. rewrite <- app_assoc in *. repeat (split; auto). right. eapply end3_no_digit; eauto.
Qed.
Lemma mid1_num k n yt : mid1 k n yt -> year_num n. Proof. intros (s1 & s2 & _ & _ & N & _). exact N. Qed.
Lemma mid2_num k n yt : mid2 k n yt -> year_num n. Proof. intros (s1 & s2 & s3 & y & _ & _ & N & _). exact N. Qed.
Lemma mid4_num k n yt : mid4 k n yt -> year_num n. Proof. intros (s1 & s2 & _ & _ & N & _). exact N. Qed.
Lemma tagger_year p whole o (i1 i2 i3 i4 : nat) name n page yt y :
  assoc_str (py "volume_name") (rx_names p) = Some i1 -> assoc_str (py "volume_num") (rx_names p) = Some i2 -> assoc_str (py "page") (rx_names p) = Some i3 -> assoc_str (py "year") (rx_names p) = Some i4 ->
  g_text whole o i1 = Some name -> g_text whole o i2 = Some n -> g_text whole o i3 = Some page -> g_text whole o i4 = Some yt -> year_text yt y -> pos_tagger p whole o = pos_tag name n y page.
Proof.
  intros A1 A2 A3 A4 G1 G2 G3 G4 Y. unfold pos_tagger, pos_year, gd_get, group_named, pos_tag. rewrite A1, A2, A3, A4, G1, G2, G3, G4. cbn [show]. pose proof (year_shown yt y Y) as Q. destruct yt as [|c t].
  - destruct Y as (_ & [(p0 & q & E & _)|E]); discriminate.
  - now rewrite Q, <- !app_assoc.
Qed.
Lemma rd_cat_r r k k' : (forall a w b c, rd k a w b c <-> rd k' a w b c) -> forall a w b c, rd (Cat r k) a w b c <-> rd (Cat r k') a w b c.
Proof. intros E a w b c. rewrite !rd_cat. split; intros (u & v & c1 & c2 & A & B & C & D); exists u, v, c1, c2; repeat (split; auto); now apply E. Qed.
Lemma rd_thn3 r1 r2 r3 k a w b c : rd (thn r1 (thn r2 (thn r3 k))) a w b c <-> rd (Cat r1 (Cat r2 (Cat r3 k))) a w b c.
Proof.
  rewrite (rd_thn r1). apply rd_cat_r. intros a1 w1 b1 c1. rewrite (rd_thn r2). apply rd_cat_r. intros a2 w2 b2 c2. apply rd_thn.
Qed.
Lemma pos1_exact line : pos_pass begin1 mid1 end1 line (sub_with re_pos_1 (pos_tagger re_pos_1) line).
Proof.
  apply (pos_pass_exact re_pos_1 front1 back1 (page_re 5) begin1 mid1 end1 1 3 5 5 9).
  - intros a w b c. rewrite shape1. apply rd_thn3.
  - intros x g k. rewrite shape1. reflexivity.
  - reflexivity.
  - reflexivity.
  - reflexivity.
  - vm_compute; lia.
  - apply rd_begin1.
  - apply rd_mid1.
  - apply rd_page_last.
  - apply page_last.
  - apply mid1_num.
  - intros whole o f name k page e n y1 y2 y3 (t & s1 & y & s2 & _ & _ & _ & Y & _) (s3 & s4 & _ & _ & _ & _ & ->) (_ & ->) N G. exists y. unfold pos_caps in G. rewrite (year_caps _ _ _ Y) in G. cbn [app caps_of] in *. rewrite app_nil_r. split; [now left|].
    apply (tagger_year re_pos_1 whole o 3 4 5 1 name n page y1 y); auto; apply G; discriminate.
Qed.
Lemma pos2_exact line : pos_pass begin2 mid2 end1 line (sub_with re_pos_2 (pos_tagger re_pos_2) line).
Proof.
  apply (pos_pass_exact re_pos_2 front2 back2 (page_re 5) begin2 mid2 end1 1 1 3 5 9).
  - intros a w b c. rewrite shape2. apply rd_thn3.
  - intros x g k. rewrite shape2. reflexivity.
  - reflexivity.
  - reflexivity.
  - reflexivity.
  - vm_compute; lia.
  - apply rd_begin2.
  - apply rd_mid2.
  - apply rd_page_last.
  - apply page_last.
  - apply mid2_num.
  - intros whole o f name k page e n y1 y2 y3 (t & s1 & _ & _ & _ & ->) (s3 & s4 & s5 & y & _ & _ & _ & _ & Y & _) (_ & ->) N G. exists y. unfold pos_caps in G. rewrite (year_caps _ _ _ Y) in G. cbn [app caps_of] in *. rewrite app_nil_r. split; [now left|].
    apply (tagger_year re_pos_2 whole o 1 2 5 3 name n page y2 y); auto; apply G; discriminate.
Qed.
Lemma pos3_exact line : pos_pass begin2 mid1 end3 line (sub_with re_pos_3 (pos_tagger re_pos_3) line).
Proof.
  apply (pos_pass_exact re_pos_3 front2 back3 tail3 begin2 mid1 end3 1 1 3 3 4).
  - intros a w b c. rewrite shape3. apply rd_thn3.
  - intros x g k. rewrite shape3. reflexivity.
  - reflexivity.
  - reflexivity.
  - reflexivity.
  - vm_compute; lia.
  - apply rd_begin2.
  - apply rd_mid1.
  - apply rd_tail3.
  - apply tail3_last.
  - apply mid1_num.
  - intros whole o f name k page e n y1 y2 y3 (t & s1 & _ & _ & _ & ->) (s3 & s4 & _ & _ & _ & _ & ->) (s5 & y & _ & _ & Y) N G. exists y. unfold pos_caps in G. rewrite (year_caps _ _ _ Y) in G. cbn [app caps_of] in *. split; [now left|].
    apply (tagger_year re_pos_3 whole o 1 2 3 4 name n page y3 y); auto; apply G; discriminate.
Qed.
Lemma pos4_exact line : pos_pass begin4 mid4 end1 line (sub_with re_pos_4 (pos_tagger re_pos_4) line).
Proof.
  apply (pos_pass_exact re_pos_4 front4 back4 (page_re 3) begin4 mid4 end1 1 1 3 3 9).
  - intros a w b c. rewrite shape4. apply rd_thn3.
  - intros x g k. rewrite shape4. reflexivity.
  - reflexivity.
  - reflexivity.
  - reflexivity.
  - vm_compute; lia.
  - apply rd_begin4.
  - apply rd_mid4.
  - apply rd_page_last.
  - apply page_last.
  - apply mid4_num.
  - intros whole o f name k page e n y1 y2 y3 (t & s1 & _ & _ & _ & ->) (s3 & s4 & _ & _ & _ & _ & ->) (_ & ->) N G. exists n. unfold pos_caps in G. cbn [app caps_of] in *. split; [now right|].
    destruct (year_of_num n N) as (g & S & E). unfold pos_tagger, pos_year, gd_get, group_named, pos_tag.
    change (assoc_str (py "year") (rx_names re_pos_4)) with (@None nat). change (assoc_str (py "volume_name") (rx_names re_pos_4)) with (Some 1). change (assoc_str (py "volume_num") (rx_names re_pos_4)) with (Some 2). change (assoc_str (py "page") (rx_names re_pos_4)) with (Some 3).
    cbv beta iota. rewrite !G by discriminate. cbn [cap Nat.eqb show]. rewrite S, E. pose proof (num_shown n N) as Q. destruct n as [|c t0]; [destruct N as (d & d' & [Z|Z] & _); discriminate|]. now rewrite Q, <- !app_assoc.
Qed.
(** the four passes, one after the other *)
Lemma tag_pos_exact line : exists l1 l2 l3, pos_pass begin1 mid1 end1 line l1 /\ pos_pass begin2 mid2 end1 l1 l2 /\ pos_pass begin2 mid1 end3 l2 l3 /\ pos_pass begin4 mid4 end1 l3 (tag_pos_volume line).
Proof. do 3 eexists. split; [apply pos1_exact|]. split; [apply pos2_exact|]. split; [apply pos3_exact|]. apply pos4_exact. Qed.
