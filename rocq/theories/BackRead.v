(** A numeration behind a title is read in one way (C60): where it ends and what it says. *)
From Coq Require Import List Arith NArith Bool String Lia.
From Verif Require Import PyStr ListFacts NumberFacts Regex RegexMeta RegexLang RegexParse Patterns Elements ParseTagged CaptureLang NumGrammar NumProofs NumFind SectGrammar SectProofs SectUse BackGrammar BackNum.
Import ListNotations.
Local Open Scope nat_scope.
Local Notation length := List.length.
Local Arguments is_space : simpl never.

(** ** Decoding by the opening brackets *)
Definition not_lt (c : ch) : bool := negb (N.eqb c 60).
Definition clean (w : str) : Prop := forallb not_lt w = true.
Definition ser (c : ch) : bool := in_range 65 73 c || N.eqb c 86.
Fixpoint upto (s : str) : str * str := match s with [] => ([], []) | c :: t => if N.eqb c 60 then ([], s) else let (u, v) := upto t in (c :: u, v) end.
Lemma upto_ok u v : clean u -> upto (u ++ 60%N :: v) = (u, 60%N :: v).
Proof.
  unfold clean. induction u as [|c u IH]; auto. cbn [app forallb upto]. intros H. apply andb_true_iff in H as (A & B). unfold not_lt in A. destruct (N.eqb c 60); [discriminate|]. now rewrite IH.
Qed.
Definition has_year (s : str) : bool := match skipn 5 s with c :: _ => N.eqb c 89 | [] => false end.
Definition decode (s : str) : str * str * str * str :=
  let (h, s) := upto s in
  let (v, s) := upto (skipn 9 s) in
  let (_, s) := upto (skipn 10 s) in
  let (y, s) := if has_year s then let (y, s) := upto (skipn 9 s) in (removelast y, snd (upto (skipn 9 s))) else ([], s) in
  let (p, s) := upto (skipn 8 s) in
  (filter ser h ++ v, y, p, skipn 9 s).
Definition laid (w v y p : str) : Prop := exists h vol sep yt,
  w = h ++ py "<cds.VOL>" ++ vol ++ py "</cds.VOL>" ++ sep ++ yt ++ py "<cds.PG>" ++ p ++ py "</cds.PG>" /\ clean h /\ clean vol /\ clean sep /\ clean p /\ v = filter ser h ++ vol
  /\ (yt = [] /\ y = [] \/ exists sep2, yt = py "<cds.YR>(" ++ y ++ py ")</cds.YR>" ++ sep2 /\ clean y /\ clean sep2).
Lemma clean_app u v : clean u -> clean v -> clean (u ++ v). Proof. unfold clean. intros A B. now rewrite forallb_app, A, B. Qed.
Lemma laid_decode w v y p b : laid w v y p -> decode (w ++ b) = (v, y, p, b).
Proof.
  intros (h & vol & sep & yt & -> & Ch & Cv & Cs & Cp & -> & Y). unfold decode. rewrite <- !app_assoc.
  change (py "<cds.VOL>") with (60%N :: py "cds.VOL>"). change (py "</cds.VOL>") with (60%N :: py "/cds.VOL>"). change (py "<cds.PG>") with (60%N :: py "cds.PG>"). change (py "</cds.PG>") with (60%N :: py "/cds.PG>").
  cbn [app]. rewrite upto_ok by exact Ch. change (skipn 9 (60%N :: py "cds.VOL>" ++ vol ++ 60%N :: py "/cds.VOL>" ++ sep ++ yt ++ 60%N :: py "cds.PG>" ++ p ++ 60%N :: py "/cds.PG>" ++ b)) with (vol ++ 60%N :: py "/cds.VOL>" ++ sep ++ yt ++ 60%N :: py "cds.PG>" ++ p ++ 60%N :: py "/cds.PG>" ++ b).
  rewrite upto_ok by exact Cv. change (skipn 10 (60%N :: py "/cds.VOL>" ++ sep ++ yt ++ 60%N :: py "cds.PG>" ++ p ++ 60%N :: py "/cds.PG>" ++ b)) with (sep ++ yt ++ 60%N :: py "cds.PG>" ++ p ++ 60%N :: py "/cds.PG>" ++ b).
  destruct Y as [(-> & ->)|(sep2 & -> & Cy & C2)].
  - cbn [app]. rewrite upto_ok by exact Cs. change (has_year (60%N :: py "cds.PG>" ++ p ++ 60%N :: py "/cds.PG>" ++ b)) with false. cbv iota.
    change (skipn 8 (60%N :: py "cds.PG>" ++ p ++ 60%N :: py "/cds.PG>" ++ b)) with (p ++ 60%N :: py "/cds.PG>" ++ b). rewrite upto_ok by exact Cp. reflexivity.
  - rewrite <- !app_assoc. change (py "<cds.YR>(") with (60%N :: py "cds.YR>("). change (py ")</cds.YR>") with (py ")" ++ 60%N :: py "/cds.YR>"). rewrite <- !app_assoc. cbn [app]. rewrite upto_ok by exact Cs.
    match goal with |- context [has_year ?x] => change (has_year x) with true end. cbv iota.
    match goal with |- context [skipn 9 (60%N :: py "cds.YR>(" ++ ?x)] => change (skipn 9 (60%N :: py "cds.YR>(" ++ x)) with x end.
    rewrite (app_assoc y (py ")")). rewrite upto_ok by (apply clean_app; [exact Cy|reflexivity]). change (py ")") with [41%N]. rewrite removelast_last.
    match goal with |- context [skipn 9 (60%N :: py "/cds.YR>" ++ ?x)] => change (skipn 9 (60%N :: py "/cds.YR>" ++ x)) with x end. rewrite upto_ok by exact C2. cbn [snd].
    change (skipn 8 (60%N :: py "cds.PG>" ++ p ++ 60%N :: py "/cds.PG>" ++ b)) with (p ++ 60%N :: py "/cds.PG>" ++ b). rewrite upto_ok by exact Cp. reflexivity.
Qed.

(** ** What the parts say *)
Definition quiet (p : part) : Prop := forall a w b fs, p a w b fs -> clean w /\ filter ser w = [] /\ fs = [].
Lemma quiet_chars (p : ch -> bool) w : (forall c, p c = true -> not_lt c = true /\ ser c = false) -> forallb p w = true -> clean w /\ filter ser w = [].
Proof.
  intros H A. unfold clean. induction w as [|c w IH]; auto. cbn [forallb filter] in *. apply andb_true_iff in A as (A & B). destruct (H c A) as (-> & ->). apply IH in B as (-> & ->). auto.
Qed.
Lemma quiet_many lo hi p : (forall c, p c = true -> not_lt c = true /\ ser c = false) -> quiet (many lo hi p).
Proof. intros H a w b fs ((A & _) & ->). destruct (quiet_chars p w H A). auto. Qed.
Lemma quiet_one p : (forall c, p c = true -> not_lt c = true /\ ser c = false) -> quiet (one p).
Proof. intros H a w b fs ((c & -> & A) & ->). destruct (quiet_chars p [c] H); auto. cbn. now rewrite A. Qed.
Lemma quiet_word t : clean (py t) -> filter ser (py t) = [] -> quiet (word t).
Proof. intros A B a w b fs (-> & ->). auto. Qed.
Lemma quiet_maybe p : quiet p -> quiet (maybe p). Proof. intros H a w b fs [(-> & ->)|A]; [repeat split|eauto]. Qed.
Lemma quiet_or p q : quiet p -> quiet q -> quiet (p or q). Proof. intros H K a w b fs [A|A]; eauto. Qed.
Lemma quiet_seq p q : quiet p -> quiet q -> quiet (p ;; q).
Proof.
  intros H K a w b fs (u & v & f1 & f2 & -> & -> & A & B). apply H in A as (A1 & A2 & ->). apply K in B as (B1 & B2 & ->). rewrite filter_app, A2, B2. split; auto. now apply clean_app.
Qed.
Lemma quiet_start : quiet line_start. Proof. intros a w b fs (-> & -> & _). repeat split. Qed.
Lemma space_quiet c : is_space c = true -> not_lt c = true /\ ser c = false.
Proof.
  intros H. unfold not_lt, ser. split; [destruct (N.eqb_spec c 60) as [->|]; [discriminate|auto]|].
  destruct (in_range 65 73 c || N.eqb c 86) eqn:E; auto. exfalso. apply orb_true_iff in E as [E|E].
  - unfold in_range in E. apply andb_true_iff in E as (A & B). apply N.leb_le in A, B. assert (c = 65 \/ c = 66 \/ c = 67 \/ c = 68 \/ c = 69 \/ c = 70 \/ c = 71 \/ c = 72 \/ c = 73)%N as Q by lia. repeat (destruct Q as [->|Q]; [discriminate|]). subst. discriminate.
  - apply N.eqb_eq in E as ->. discriminate.
Qed.
Lemma of_quiet l c : forallb (fun c => not_lt c && negb (ser c)) l = true -> some_of l c = true -> not_lt c = true /\ ser c = false.
Proof. intros H A. apply existsb_exists in A as (d & I & E). apply N.eqb_eq in E as <-. rewrite forallb_forall in H. apply H, andb_true_iff in I as (A & B). split; auto. now apply negb_true_iff in B. Qed.
Ltac quiet := repeat match goal with
  | |- quiet (_ ;; _) => apply quiet_seq
  | |- quiet (_ or _) => apply quiet_or
  | |- quiet (maybe _) => apply quiet_maybe
  | |- quiet line_start => apply quiet_start
  | |- quiet blanks => apply quiet_many; exact space_quiet
  | |- quiet (many _ _ is_space) => apply quiet_many; exact space_quiet
  | |- quiet (one is_space) => apply quiet_one; exact space_quiet
  | |- quiet (any_of _) => apply quiet_one; intros ?; apply of_quiet; reflexivity
  | |- quiet (word _) => now apply quiet_word
  end.
Lemma series_spec a w b fs : series a w b fs -> clean w /\ filter ser w = w /\ (fs = [] /\ w = [] \/ fs = [(Fseries, w)]).
Proof.
  assert (forall w, forallb ser w = true -> clean w /\ filter ser w = w) as K.
  { clear. intros w H. unfold clean. induction w as [|c w IH]; auto. cbn [forallb filter] in *. apply andb_true_iff in H as (A & B). apply IH in B as (B1 & B2). rewrite A, B1, B2. split; auto. unfold not_lt. destruct (N.eqb_spec c 60) as [->|]; auto. }
  assert (forall c, some_of (py "I") c = true -> ser c = true) as SI. { intros c H. unfold some_of in H. cbn in H. rewrite orb_false_r in H. apply N.eqb_eq in H as ->. reflexivity. }
  assert (forall c, some_of (py "V") c = true -> ser c = true) as SV. { intros c H. unfold some_of in H. cbn in H. rewrite orb_false_r in H. apply N.eqb_eq in H as ->. reflexivity. }
  assert (forall w, forallb (some_of (py "I")) w = true -> forallb ser w = true) as MI. { intros x H. rewrite forallb_forall in *. auto. }
  intros [(-> & ->)|(f & -> & H)]; [repeat split; auto|]. enough (forallb ser w = true /\ f = []) as (A & ->). { destruct (K w A). auto. }
  destruct H as [((c & -> & H) & ->)|[H|H]].
  - split; auto. cbn. rewrite andb_true_r. unfold ser, in_range in *. apply andb_true_iff in H as (A & B). rewrite A. apply orb_true_iff. left. apply N.leb_le in B. cbn. apply N.leb_le. lia.
  - destruct H as (u & v & f1 & f2 & -> & -> & ((A & _) & ->) & [(-> & ->)|((c & -> & B) & ->)]); rewrite forallb_app, (MI _ A); cbn [forallb]; auto. rewrite SV; auto.
  - destruct H as (u & v & f1 & f2 & -> & -> & ((c & -> & B) & ->) & ((A & _) & ->)). rewrite forallb_app, (MI _ A). cbn [forallb]. rewrite SV; auto.
Qed.
Lemma quiet_first p q a w b fs : quiet p -> (p ;; q) a w b fs -> exists u v, w = u ++ v /\ clean u /\ filter ser u = [] /\ q (a ++ u) v b fs.
Proof. intros Q (u & v & f1 & f2 & -> & -> & A & B). apply Q in A as (C & F & ->). rewrite app_nil_r. exists u, v. auto. Qed.
Lemma within_spec n p a w b fs : within n p a w b fs -> exists u x y, w = py ("<cds." ++ n ++ ">") ++ u ++ py ("</cds." ++ n ++ ">") /\ p x u y fs.
Proof.
  intros (u & v & f1 & f2 & -> & -> & (-> & ->) & (u2 & v2 & f3 & f4 & -> & -> & A & (-> & ->))). rewrite app_nil_r. cbn [app]. eauto 7.
Qed.
Lemma inner_spec a w b fs : inner a w b fs -> clean w /\ fs = []. Proof. intros ((A & _) & ->). auto. Qed.
Definition silent (p : part) : Prop := forall a w b fs, p a w b fs -> clean w /\ fs = [].
Lemma year_part_spec p a w b fs : silent p -> within "YR" (any_of "(" ;; named Fyear p ;; any_of ")") a w b fs ->
  exists y, w = py "<cds.YR>(" ++ y ++ py ")</cds.YR>" /\ clean y /\ fs = [(Fyear, y)].
Proof.
  intros P H. apply within_spec in H as (u & x & y & -> & (u1 & u2 & f1 & f2 & -> & -> & ((c & -> & E) & ->) & (u3 & u4 & f3 & f4 & -> & -> & (f5 & -> & A) & ((c' & -> & E') & ->)))).
  apply P in A as (C & ->). unfold some_of in E, E'. cbn in E, E'. rewrite orb_false_r in E, E'. apply N.eqb_eq in E as ->. apply N.eqb_eq in E' as ->. exists u3. split; [|auto]. rewrite <- !app_assoc. reflexivity.
Qed.
Definition complete (fs : fields) : Prop := (exists v, field_of Fvolume fs = Some v) /\ exists p, field_of Fpage fs = Some p.
Lemma head_spec q1 q2 q3 r t a w b fs : quiet q1 -> quiet q2 -> quiet q3 -> silent r -> (series ;; q1 ;; q2 ;; q3 ;; within "VOL" (named Fvolume r) ;; t) a w b fs ->
  exists h vol w' sf a', w = h ++ py "<cds.VOL>" ++ vol ++ py "</cds.VOL>" ++ w' /\ clean h /\ clean vol /\ (sf = [] /\ filter ser h = [] \/ sf = [(Fseries, filter ser h)]) /\ exists f, fs = f ++ (Fvolume, vol) :: sf /\ t a' w' b f.
Proof.
  intros P1 P2 P3 R (u2 & v2 & f1 & f2 & -> & -> & S & H). apply series_spec in S as (C2 & F2 & S).
  apply quiet_first in H as (x1 & v3 & -> & C3 & F3 & H); auto. apply quiet_first in H as (x2 & v4 & -> & C4 & F4 & H); auto. apply quiet_first in H as (x3 & v5 & -> & C5 & F5 & H); auto.
  destruct H as (u4 & v6 & f3 & f4 & -> & -> & V & H). apply within_spec in V as (vol & x & y & -> & (f5 & -> & V)). apply R in V as (C6 & ->).
  exists (u2 ++ x1 ++ x2 ++ x3), vol, v6, f1. eexists. split; [rewrite <- !app_assoc; reflexivity|]. split; [auto using clean_app|]. split; auto. rewrite !filter_app, F2, F3, F4, F5, app_nil_r.
  split; [destruct S as [(-> & ->)| ->]; auto|]. exists f4. rewrite <- app_assoc. cbn [app]. split; eauto.
Qed.
Lemma fields_found y f pg vol sf : (f = [(Fyear, y)] \/ f = [] /\ y = []) -> (sf = [] \/ exists s, sf = [(Fseries, s)]) ->
  let fs := ((Fpage, pg) :: f) ++ (Fvolume, vol) :: sf in year_of fs = y /\ page_of fs = pg /\ volume_of fs = or_none (field_of Fseries sf) ++ vol /\ complete fs.
Proof. intros [->|(-> & ->)] [->|(s & ->)]; cbv beta zeta; (split; [reflexivity|]); (split; [reflexivity|]); (split; [reflexivity|]); split; eexists; reflexivity. Qed.
Lemma first_laid (p q : part) (D : Prop) a w b fs : quiet p -> (forall a v, q a v b fs -> laid v (volume_of fs) (year_of fs) (page_of fs) /\ D) -> (p ;; q) a w b fs -> laid w (volume_of fs) (year_of fs) (page_of fs) /\ D.
Proof.
  intros Q K H. apply quiet_first in H as (u & v & -> & C & F & H); auto. apply K in H as ((h & vol & sep & yt & -> & Ch & Cv & Cs & Cp & V & Y) & Dh). split; auto.
  exists (u ++ h), vol, sep, yt. split; [now rewrite <- app_assoc|]. split; [now apply clean_app|]. split; auto. split; auto. split; auto. split; auto. now rewrite filter_app, F.
Qed.
Lemma num_spec a w b fs : numeration a w b fs -> a = [] /\ laid w (volume_of fs) (year_of fs) (page_of fs) /\ complete fs.
Proof.
  intros H. split. { destruct H as (u & v & f1 & f2 & _ & _ & (_ & _ & ->) & _). auto. }
  revert H. unfold numeration. do 5 (apply first_laid; [solve [quiet]|]; clear a w; intros a w). intros H. apply head_spec in H as (h & vol & w' & sf & a' & -> & Ch & Cv & S & f & -> & H); [|quiet|quiet|quiet|intros ? ? ? ?; apply inner_spec].
  apply quiet_first in H as (s1 & v1 & -> & C1 & _ & H); [|quiet]. destruct H as (yt & v2 & f1 & f2 & -> & -> & Y & H). apply quiet_first in H as (s2 & v3 & -> & C2 & _ & H); [|quiet]. apply quiet_first in H as (s3 & v4 & -> & C3 & _ & H); [|quiet].
  apply within_spec in H as (p & x & y & -> & (f3 & -> & P)). apply inner_spec in P as (Cp & ->). cbn [app].
  assert (exists s4 y, (f1 = [(Fyear, y)] /\ yt = s4 ++ py "<cds.YR>(" ++ y ++ py ")</cds.YR>" \/ f1 = [] /\ y = [] /\ yt = s4) /\ clean s4 /\ clean y) as (s4 & yr & Y' & C4 & Cy).
  { destruct Y as [(-> & ->)|Y]; [exists [], []; repeat split; auto|]. apply quiet_first in Y as (s4 & v4 & -> & C4 & _ & Y); [|quiet]. apply year_part_spec in Y as (yr & -> & Cy & ->); [|intros ? ? ? ?; apply inner_spec]. exists s4, yr. auto. }
  destruct (fields_found yr f1 p vol sf) as (E1 & E2 & E3 & K); [tauto|destruct S as [(-> & _)| ->]; eauto|]. cbn [app] in E1, E2, E3, K. unfold str, ch in *. rewrite E1, E2, E3. split; auto.
  assert (or_none (field_of Fseries sf) = filter ser h) as ->. { destruct S as [(-> & S)| ->]; [now symmetry|reflexivity]. }
  destruct Y' as [(-> & ->)|(-> & -> & ->)].
  - exists h, vol, (s1 ++ s4), (py "<cds.YR>(" ++ yr ++ py ")</cds.YR>" ++ s2 ++ s3). split; [rewrite <- !app_assoc; reflexivity|]. split; auto. split; auto. split; [auto using clean_app|]. split; auto. split; auto. right. exists (s2 ++ s3). auto using clean_app.
  - exists h, vol, (s1 ++ s4 ++ s2 ++ s3), []. split; [rewrite <- !app_assoc; reflexivity|]. split; auto. split; auto. split; [auto using clean_app|]. split; auto.
Qed.
Lemma digits_clean lo hi a w b fs : many lo hi is_digit a w b fs -> clean w /\ fs = [].
Proof.
  intros ((A & _) & ->). split; auto. unfold clean. rewrite forallb_forall in *. intros c I. apply A in I. unfold not_lt. destruct (N.eqb_spec c 60) as [->|]; [discriminate|auto].
Qed.
Lemma silent_seq p q : silent p -> silent q -> silent (p ;; q).
Proof. intros H K a w b fs (u & v & f1 & f2 & -> & -> & A & B). apply H in A as (A & ->). apply K in B as (B & ->). auto using clean_app. Qed.
Lemma silent_or p q : silent p -> silent q -> silent (p or q). Proof. intros H K a w b fs [A|A]; eauto. Qed.
Lemma silent_maybe p : silent p -> silent (maybe p). Proof. intros H a w b fs [(-> & ->)|A]; [repeat split|eauto]. Qed.
Lemma silent_of l : forallb not_lt (py l) = true -> silent (any_of l).
Proof. intros H a w b fs ((c & -> & A) & ->). split; auto. unfold clean. cbn. apply existsb_exists in A as (d & I & E). apply N.eqb_eq in E as <-. rewrite forallb_forall in H. now rewrite H. Qed.
Lemma silent_digits lo hi : silent (many lo hi is_digit). Proof. intros a w b fs. apply digits_clean. Qed.
Lemma more_spec a w b fs : further a w b fs -> a = [] /\ laid w (volume_of fs) (year_of fs) (page_of fs) /\ complete fs /\ exists y, field_of Fyear fs = Some y.
Proof.
  intros H. split. { destruct H as (u & v & f1 & f2 & _ & _ & (_ & _ & ->) & _). auto. }
  revert H. unfold further. do 2 (apply first_laid; [solve [quiet]|]; clear a w; intros a w). intros H.
  apply head_spec in H as (h & vol & w' & sf & a' & -> & Ch & Cv & S & f & -> & H); [|quiet|quiet|quiet|apply silent_or; [apply silent_digits|apply silent_seq; [apply silent_digits|apply silent_seq; [now apply silent_of|apply silent_digits]]]].
  apply quiet_first in H as (s1 & v1 & -> & C1 & _ & H); [|quiet]. destruct H as (yt & v2 & f1 & f2 & -> & -> & Y & H).
  apply year_part_spec in Y as (yr & -> & Cy & ->); [|apply silent_seq; [now apply silent_of|apply silent_digits]].
  apply quiet_first in H as (s2 & v3 & -> & C2 & _ & H); [|quiet]. apply within_spec in H as (p & x & y & -> & (f3 & -> & P)).
  apply (silent_seq _ _ (silent_maybe _ (silent_of "RL" eq_refl)) (silent_seq _ _ (silent_digits _ _) (silent_maybe _ (silent_of "c" eq_refl)))) in P as (Cp & ->). cbn [app].
  destruct (fields_found yr [(Fyear, yr)] p vol sf) as (E1 & E2 & E3 & K); [tauto|destruct S as [(-> & _)| ->]; eauto|]. cbn [app] in E1, E2, E3, K. unfold str, ch in *. rewrite E1, E2, E3. split; [|split; [exact K|exists yr; destruct S as [(-> & _)| ->]; reflexivity]].
  assert (or_none (field_of Fseries sf) = filter ser h) as ->. { destruct S as [(-> & S)| ->]; [now symmetry|reflexivity]. }
  exists h, vol, s1, (py "<cds.YR>(" ++ yr ++ py ")</cds.YR>" ++ s2). split; [rewrite <- !app_assoc; reflexivity|]. split; auto. split; auto. split; auto. split; auto. split; auto. right. exists s2. auto.
Qed.

(** ** What follows does not matter *)
Definition free (p : part) : Prop := forall a w b a' b' fs, p a w b fs -> p a' w b' fs.
Lemma free_text P : free (text P). Proof. intros a w b a' b' fs H. exact H. Qed.
Lemma free_seq p q : free p -> free q -> free (p ;; q).
Proof. intros H K a w b a' b' fs (u & v & f1 & f2 & -> & -> & A & B). exists u, v, f1, f2. split; auto. split; auto. split; [eapply H|eapply K]; eauto. Qed.
Lemma free_or p q : free p -> free q -> free (p or q). Proof. intros H K a w b a' b' fs [A|A]; [left; eapply H|right; eapply K]; eauto. Qed.
Lemma free_maybe p : free p -> free (maybe p). Proof. intros H a w b a' b' fs [A|A]; [now left|right; eapply H; eauto]. Qed.
Lemma free_named f p : free p -> free (named f p). Proof. intros H a w b a' b' fs (f' & -> & A). exists f'. split; auto. eapply H; eauto. Qed.
Ltac free := repeat first [apply free_seq | apply free_or | apply free_maybe | apply free_named | apply free_text].
Lemma start_free p a w b b' fs : free p -> (line_start ;; p) a w b fs -> (line_start ;; p) a w b' fs.
Proof. intros F (u & v & f1 & f2 & -> & -> & (-> & -> & ->) & B). exists [], v, [], f2. split; auto. split; auto. split; [repeat split|]. eapply F; eauto. Qed.
Lemma num_free a w b b' fs : numeration a w b fs -> numeration a w b' fs.
Proof. apply start_free. unfold blanks, inner, series, within, any_of, word. free. Qed.
Lemma more_free a w b b' fs : further a w b fs -> further a w b' fs.
Proof. apply start_free. unfold blanks, digits, series, within, any_of, word. free. Qed.

(** ** What the patterns find *)
Lemma on_search g r p s : fair r = true -> (forall f f', g f = g f' -> f = f') -> reads_on g r p -> (forall a w b fs, p a w b fs -> a = []) -> match re_search r s with
  | Some o => exists w b fs, s = w ++ b /\ p [] w b fs /\ m_end o = length w /\ forall f, g f <> 0 -> g_text s o (g f) = field_of f fs
  | None => ~ begins p s end.
Proof.
  intros F Inj H S. pose proof (search_spec r s F) as M. destruct (re_search r s) as [o|].
  - destruct M as (a & w & b & c & E & R & _ & En & G & _). apply H in R as (fs & P & K). pose proof (S _ _ _ _ P) as Z. subst a. exists w, b, fs. split; auto. split; auto. split; auto. intros f N. rewrite G by auto. rewrite <- (cap_kept g f c), K. now apply cap_field.
  - intros (w & b & fs & E & P). apply H in P as (c & R & _). exact (M [] w b c E R).
Qed.
Lemma num_fair : fair (rx_re re_recognised_numeration) = true. Proof. vm_compute. reflexivity. Qed.
Lemma more_fair : fair (rx_re re_numeration_no_ibid_txt) = true. Proof. vm_compute. reflexivity. Qed.
Lemma same_rest {A B C} w w' (b b' : str) (v v' : A) (y y' : B) (p p' : C) : (v, y, p, b) = (v', y', p', b') -> w ++ b = w' ++ b' -> v = v' /\ y = y' /\ p = p' /\ w = w'.
Proof. intros [= -> -> -> ->] E. apply app_inv_tail in E. auto. Qed.
Lemma need_named p s o n i t : assoc_str (py n) (rx_names p) = Some i -> g_text s o i = Some t -> grp_need p s o n = Ok t.
Proof. intros A G. unfold grp_need, group_named. now rewrite A, G. Qed.
Lemma empty_named p s o n i f fs : assoc_str (py n) (rx_names p) = Some i -> g_text s o i = field_of f fs -> grp_or_empty p s o n = or_none (field_of f fs).
Proof. intros A G. unfold grp_or_empty, grp, group_named. rewrite A, G. reflexivity. Qed.
Lemma read_num w b fs : numeration [] w [] fs -> exists o v, re_search (rx_re re_recognised_numeration) (w ++ b) = Some o /\ m_end o = length w
  /\ grp_need re_recognised_numeration (w ++ b) o "vol" = Ok v /\ grp_or_empty re_recognised_numeration (w ++ b) o "series" ++ v = volume_of fs
  /\ grp_or_empty re_recognised_numeration (w ++ b) o "yr" = year_of fs /\ grp_need re_recognised_numeration (w ++ b) o "pg" = Ok (page_of fs).
Proof.
  intros H. apply (num_free _ _ _ b) in H. assert (forall f f', num_no re_recognised_numeration f = num_no re_recognised_numeration f' -> f = f') as Inj by (apply inj_of; vm_compute; reflexivity).
  pose proof (on_search _ _ _ (w ++ b) num_fair Inj num_reads (fun a w b fs P => proj1 (num_spec a w b fs P))) as M. destruct (re_search (rx_re re_recognised_numeration) (w ++ b)) as [o|]; [|elim M; now exists w, b, fs].
  destruct M as (w' & b' & fs' & E & P & En & G). destruct (num_spec _ _ _ _ H) as (_ & L & _). destruct (num_spec _ _ _ _ P) as (_ & L' & (v & V) & (p & Pg)).
  apply (laid_decode _ _ _ _ b) in L. apply (laid_decode _ _ _ _ b') in L'. rewrite E, L' in L. destruct (same_rest _ _ _ _ _ _ _ _ _ _ (eq_sym L) E) as (-> & -> & -> & ->).
  pose proof (G Fvolume ltac:(discriminate)) as GV. pose proof (G Fpage ltac:(discriminate)) as GP. pose proof (G Fyear ltac:(discriminate)) as GY. pose proof (G Fseries ltac:(discriminate)) as GS.
  exists o, v. split; auto. split; auto. split; [eapply need_named; [reflexivity|exact (eq_trans GV V)]|]. split; [|split].
  - erewrite empty_named; [|reflexivity|exact GS]. unfold volume_of. now rewrite V.
  - erewrite empty_named; [|reflexivity|exact GY]. reflexivity.
  - eapply need_named; [reflexivity|]. refine (eq_trans GP _). unfold page_of. now rewrite Pg.
Qed.
Lemma read_no_num s : ~ begins numeration s -> re_search (rx_re re_recognised_numeration) s = None.
Proof.
  intros H. assert (forall f f', num_no re_recognised_numeration f = num_no re_recognised_numeration f' -> f = f') as Inj by (apply inj_of; vm_compute; reflexivity).
  pose proof (on_search _ _ _ s num_fair Inj num_reads (fun a w b fs P => proj1 (num_spec a w b fs P))) as M. destruct (re_search (rx_re re_recognised_numeration) s) as [o|]; auto.
  elim H. destruct M as (w & b & fs & E & P & _). now exists w, b, fs.
Qed.
Lemma read_more w b fs : further [] w [] fs -> exists o v, re_match (rx_re re_numeration_no_ibid_txt) (w ++ b) = Some o /\ m_end o = length w
  /\ grp_need re_numeration_no_ibid_txt (w ++ b) o "vol" = Ok v /\ grp_or_empty re_numeration_no_ibid_txt (w ++ b) o "series" ++ v = volume_of fs
  /\ grp_need re_numeration_no_ibid_txt (w ++ b) o "yr" = Ok (year_of fs) /\ grp_need re_numeration_no_ibid_txt (w ++ b) o "pg" = Ok (page_of fs).
Proof.
  intros H. apply (more_free _ _ _ b) in H. assert (forall f f', num_no re_numeration_no_ibid_txt f = num_no re_numeration_no_ibid_txt f' -> f = f') as Inj by (apply inj_of; vm_compute; reflexivity).
  pose proof (on_match _ _ _ (w ++ b) more_fair Inj more_reads) as M. destruct (re_match (rx_re re_numeration_no_ibid_txt) (w ++ b)) as [o|]; [|elim M; now exists w, b, fs].
  destruct M as (w' & b' & fs' & E & P & En & G). destruct (more_spec _ _ _ _ H) as (_ & L & _). destruct (more_spec _ _ _ _ P) as (_ & L' & ((v & V) & (p & Pg)) & (y & Y)).
  apply (laid_decode _ _ _ _ b) in L. apply (laid_decode _ _ _ _ b') in L'. rewrite E, L' in L. destruct (same_rest _ _ _ _ _ _ _ _ _ _ (eq_sym L) E) as (-> & -> & -> & ->).
  pose proof (G Fvolume ltac:(discriminate)) as GV. pose proof (G Fpage ltac:(discriminate)) as GP. pose proof (G Fyear ltac:(discriminate)) as GY. pose proof (G Fseries ltac:(discriminate)) as GS.
  exists o, v. split; auto. split; auto. split; [eapply need_named; [reflexivity|exact (eq_trans GV V)]|]. split; [|split].
  - erewrite empty_named; [|reflexivity|exact GS]. unfold volume_of. now rewrite V.
  - eapply need_named; [reflexivity|]. refine (eq_trans GY _). unfold year_of. now rewrite Y.
  - eapply need_named; [reflexivity|]. refine (eq_trans GP _). unfold page_of. now rewrite Pg.
Qed.
Lemma read_no_more s : ~ begins further s -> re_match (rx_re re_numeration_no_ibid_txt) s = None.
Proof.
  intros H. assert (forall f f', num_no re_numeration_no_ibid_txt f = num_no re_numeration_no_ibid_txt f' -> f = f') as Inj by (apply inj_of; vm_compute; reflexivity).
  pose proof (on_match _ _ _ s more_fair Inj more_reads) as M. destruct (re_match (rx_re re_numeration_no_ibid_txt) s) as [o|]; auto.
  elim H. destruct M as (w & b & fs & E & P & _). now exists w, b, fs.
Qed.
Lemma read_ibids more : Forall (fun n => further [] (fst n) [] (snd n)) more -> forall rest, ~ begins further rest -> forall fuel title, length (flat_map fst more ++ rest) <= fuel ->
  extra_ibids_loop fuel title (flat_map fst more ++ rest) = Ok (ibids title more, rest).
Proof.
  induction 1 as [|[w fs] more F _ IH]; intros rest N fuel title L.
  - cbn [flat_map app]. destruct fuel; cbn [extra_ibids_loop]; now rewrite read_no_more.
  - cbn [flat_map fst snd] in *. rewrite <- app_assoc in *. destruct (read_more w (flat_map fst more ++ rest) fs F) as (o & v & M & En & V & S & Y & P).
    assert (w <> []) as Ne. { intros ->. apply more_spec in F as (_ & (h & vol & sep & yt & E & _) & _). apply (f_equal (@List.length ch)) in E. rewrite !app_length in E. cbn in E. lia. }
    rewrite app_length in L. destruct fuel as [|fuel]; [destruct w; [congruence|cbn in L; lia]|]. cbn [extra_ibids_loop]. rewrite M, V. cbn [bind]. rewrite Y. cbn [bind]. rewrite P. cbn [bind]. rewrite S, En, skipn_app, skipn_all, Nat.sub_diag. cbn [app skipn].
    rewrite IH; auto; [|destruct w; [congruence|cbn in L; lia]]. cbn [bind]. f_equal. f_equal. unfold ibids. cbn [snd]. f_equal. destruct more; reflexivity.
Qed.
