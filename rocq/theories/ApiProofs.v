(** Cleaning of PDF files, attaching keys and links, temporary files, batches
    (Engine.v, Api.v). *)
From Coq Require Import List Arith NArith Bool Lia String Permutation.
From Verif Require Import PyStr ListFacts Regex Elements Record Transform Tag Find RefText Kbs Pdf Engine Api RecordProofs EngineProofs.
Import ListNotations.
Local Open Scope nat_scope.
Local Notation length := List.length.
Local Notation concat := List.concat.

(** ** find and rfind *)
(** [occurs p s i]: the text p stands at position i of s *)
Definition occurs (p s : str) (i : nat) : Prop := exists u v, s = u ++ p ++ v /\ length u = i.
Lemma occurs_cons p c s i : occurs p s i -> occurs p (c :: s) (S i).
Proof. intros (u & v & -> & L). exists (c :: u), v. cbn. auto. Qed.
Lemma occurs_0 p s : occurs p s 0 <-> prefixb p s = true.
Proof.
  rewrite prefixb_app. split.
  - intros (u & v & -> & L). destruct u; [|discriminate]. cbn. eauto.
  - intros (t & ->). exists [], t. auto.
Qed.
Lemma occurs_S p c s i : occurs p (c :: s) (S i) -> occurs p s i.
Proof. intros (u & v & E & L). destruct u as [|d u]; [discriminate|]. cbn in E. inversion E; subst. exists u, v. auto. Qed.
Lemma find_sub_first p : forall s i, find_sub p s = Some i <-> occurs p s i /\ forall j, occurs p s j -> i <= j.
Proof.
  induction s as [|c s IH]; intros i.
  - cbn. destruct (prefixb p []) eqn:E.
    + split.
      * intros H; inversion H; subst. split; [now apply occurs_0|lia].
      * intros (O & M). f_equal. apply occurs_0 in E. specialize (M 0 E). lia.
    + split; [discriminate|]. intros ((u & v & Q & L) & _). exfalso. symmetry in Q. apply app_eq_nil in Q as [-> Q]. cbn in L.
      assert (occurs p [] 0) as O by (exists [], v; auto). apply occurs_0 in O. congruence.
  - cbn [find_sub]. destruct (prefixb p (c :: s)) eqn:E.
    + split.
      * intros H; inversion H; subst. split; [now apply occurs_0|lia].
      * intros (O & M). f_equal. apply occurs_0 in E. specialize (M 0 E). lia.
    + assert (~ occurs p (c :: s) 0) as N0 by (intros O; apply occurs_0 in O; congruence).
      destruct (find_sub p s) as [j|] eqn:F; cbn [option_map].
      * destruct (proj1 (IH j) eq_refl) as (O & M). split.
        -- intros H; inversion H; subst. split; [now apply occurs_cons|]. intros [|j'] O'; [contradiction|]. apply occurs_S in O'. apply M in O'. lia.
        -- intros (O' & M'). f_equal. destruct i as [|i]; [contradiction|]. f_equal. apply Nat.le_antisymm.
           ++ apply M. now apply occurs_S in O'.
           ++ assert (S i <= S j) by (apply M'; now apply occurs_cons). lia.
      * split; [discriminate|]. intros (O & M). destruct i as [|i]; [contradiction|]. apply occurs_S in O as (u & v & Q & _).
        exfalso. eapply find_sub_none; eauto.
Qed.
Lemma find_sub_absent p s : find_sub p s = None <-> forall i, ~ occurs p s i.
Proof.
  split.
  - intros H i (u & v & E & _). eapply find_sub_none; eauto.
  - intros H. destruct (find_sub p s) as [i|] eqn:E; auto. apply find_sub_first in E as (O & _). exfalso. eapply H; eauto.
Qed.
Lemma rfind_sub_last p : p <> [] -> forall s i, rfind_sub p s = Some i <-> occurs p s i /\ forall j, occurs p s j -> j <= i.
Proof.
  intros Np. assert (forall s, rfind_sub p s = None -> forall i, ~ occurs p s i) as None_.
  { induction s as [|c s IH]; cbn [rfind_sub]; intros H i O.
    - destruct O as (u & v & Q & _). symmetry in Q. apply app_eq_nil in Q as [_ Q]. apply app_eq_nil in Q as [Q _]. contradiction.
    - destruct (rfind_sub p s); [discriminate|]. destruct (prefixb p (c :: s)) eqn:E; [discriminate|].
      destruct i as [|i]; [apply occurs_0 in O; congruence|]. apply occurs_S in O. eapply IH; eauto. }
  induction s as [|c s IH]; intros i; cbn [rfind_sub].
  - destruct p; [congruence|]. cbn. split; [discriminate|]. intros ((u & v & Q & _) & _). symmetry in Q. apply app_eq_nil in Q as [_ Q]. discriminate.
  - destruct (rfind_sub p s) as [j|] eqn:R.
    + destruct (proj1 (IH j) eq_refl) as (O & M). split.
      * intros H; inversion H; subst. split; [now apply occurs_cons|]. intros [|j'] O'; [lia|]. apply occurs_S in O'. apply M in O'. lia.
      * intros (O' & M'). f_equal. apply Nat.le_antisymm; [now apply M', occurs_cons|]. destruct i as [|i]; [lia|]. apply occurs_S in O'. apply M in O'. lia.
    + destruct (prefixb p (c :: s)) eqn:E.
      * split.
        -- intros H; inversion H; subst. split; [now apply occurs_0|]. intros [|j] O; [lia|]. apply occurs_S in O. exfalso. eapply None_; eauto.
        -- intros (O & _). f_equal. destruct i as [|i]; auto. apply occurs_S in O. exfalso. eapply None_; eauto.
      * split; [discriminate|]. intros (O & _). exfalso. destruct i as [|i]; [apply occurs_0 in O; congruence|]. apply occurs_S in O. eapply None_; eauto.
Qed.

(** ** clean_pdf_file *)
(** a document between the first %PDF- and the last %%EOF *)
Definition document (mid : bytes) : bytes := pdf_marker ++ mid ++ eof_marker.
Definition framed (b junk mid tail : bytes) : Prop :=
  b = junk ++ document mid ++ tail
  /\ (forall i, occurs pdf_marker b i -> length junk <= i)
  /\ (forall i, occurs eof_marker b i -> i <= length junk + 5 + length mid).
Lemma clean_document b junk mid tail : framed b junk mid tail -> clean_pdf_file b = (document mid, Ok tt).
Proof.
  intros (E & F & L).
  assert (find_sub pdf_marker b = Some (length junk)) as Hf.
  { apply find_sub_first. split; auto. exists junk, ((mid ++ eof_marker) ++ tail). split; auto. }
  assert (rfind_sub eof_marker b = Some (length junk + 5 + length mid)) as Hr.
  { apply rfind_sub_last; [discriminate|]. split; auto. exists (junk ++ pdf_marker ++ mid), tail. split.
    - rewrite E. unfold document. now rewrite <- !app_assoc.
    - rewrite !app_length. change (length pdf_marker) with 5. lia. }
  assert (length (document mid) = 10 + length mid) as Ld by (unfold document; rewrite !app_length; change (length pdf_marker) with 5; change (length eof_marker) with 5; lia).
  assert (length b = length junk + length (document mid) + length tail) as Lb by (rewrite E, !app_length; lia).
  unfold clean_pdf_file. destruct b as [|c b']; [cbn in Lb; unfold bytes, str, ch in *; lia|]. set (b := c :: b') in *. rewrite Hf, Hr.
  destruct (Nat.ltb_spec 0 (length junk)) as [J|J].
  - destruct (Nat.ltb_spec (length junk + 5 + length mid + 5) (length junk)); [lia|].
    destruct (Nat.ltb_spec (length b) (length junk + 5 + length mid + 5)); [unfold bytes, str, ch in *; lia|].
    replace (length junk + 5 + length mid + 5 - length junk) with (length (document mid)) by (unfold bytes, str, ch in *; lia).
    assert (move_front b (length junk) (length (document mid)) = document mid ++ skipn (length (document mid)) b) as M.
    { unfold move_front, slice. f_equal. replace (length junk + length (document mid) - length junk) with (length (document mid)) by lia.
      rewrite E at 1. rewrite skipn_app, skipn_all, Nat.sub_diag. cbn [skipn app]. rewrite firstn_app, firstn_all, Nat.sub_diag. cbn [firstn]. apply app_nil_r. }
    rewrite M. unfold resize. rewrite firstn_app, firstn_all, Nat.sub_diag. cbn [firstn].
    replace (length (document mid) - length (document mid ++ skipn (length (document mid)) b)) with 0 by (rewrite app_length; lia).
    cbn [repeat]. rewrite !app_nil_r. destruct (Nat.eqb_spec (length (document mid)) 0); [unfold bytes, str, ch in *; lia|]. reflexivity.
  - assert (junk = []) as -> by (destruct junk; cbn in J; [auto|lia]). cbn [length app Nat.add] in *.
    set (n := S (S (S (S (S (length mid + 5)))))) in *.
    destruct (Nat.eqb_spec n (length b)) as [Q|Q].
    + assert (tail = []) as -> by (destruct tail; auto; cbn [length] in *; unfold bytes, str, ch in *; lia). rewrite app_nil_r in E. now rewrite E.
    + unfold resize. replace n with (length (document mid)) by (unfold bytes, str, ch in *; lia).
      rewrite E at 1. rewrite firstn_app, firstn_all, Nat.sub_diag. cbn [firstn].
      replace (length (document mid) - length b) with 0 by (unfold bytes, str, ch in *; lia). cbn [repeat]. rewrite !app_nil_r.
      destruct (Nat.eqb_spec (length (document mid)) 0); [unfold bytes, str, ch in *; lia|]. reflexivity.
Qed.
Lemma occurs_len p s i : occurs p s i -> i + length p <= length s.
Proof. intros (u & v & -> & <-). rewrite !app_length. lia. Qed.
Lemma framed_document b junk mid tail : framed b junk mid tail -> framed (document mid) [] mid [].
Proof.
  intros _. split; [now rewrite app_nil_r|]. split; [cbn; lia|]. intros i O. apply occurs_len in O. unfold document in O.
  rewrite !app_length in O. change (length pdf_marker) with 5 in O. change (length eof_marker) with 5 in O. cbn. unfold bytes, str, ch in *. lia.
Qed.
Lemma clean_other b : b <> [] -> (forall i, ~ occurs pdf_marker b i) -> clean_pdf_file b = (b, Ok tt).
Proof. intros N H. unfold clean_pdf_file. destruct b as [|c b]; [congruence|]. apply find_sub_absent in H. now rewrite H. Qed.

Lemma rfind_sub_absent p s : p <> [] -> (rfind_sub p s = None <-> forall i, ~ occurs p s i).
Proof.
  intros Np. split.
  - induction s as [|c s IH]; cbn [rfind_sub]; intros H i O.
    + destruct O as (u & v & Q & _). symmetry in Q. apply app_eq_nil in Q as [_ Q]. apply app_eq_nil in Q as [Q _]. contradiction.
    + destruct (rfind_sub p s); [discriminate|]. destruct (prefixb p (c :: s)) eqn:E; [discriminate|].
      destruct i as [|i]; [apply occurs_0 in O; congruence|]. apply occurs_S in O. eapply IH; eauto.
  - intros H. destruct (rfind_sub p s) as [i|] eqn:E; auto. apply rfind_sub_last in E as (O & _); auto. exfalso. eapply H; eauto.
Qed.
(** [first p s i] / [last_ p s i]: the first, last occurrence *)
Definition first (p s : str) (i : nat) : Prop := occurs p s i /\ forall j, occurs p s j -> i <= j.
Definition last_ (p s : str) (i : nat) : Prop := occurs p s i /\ forall j, occurs p s j -> j <= i.
Definition absent (p s : str) : Prop := forall i, ~ occurs p s i.
Lemma clean_no_end b : first pdf_marker b 0 -> absent eof_marker b -> clean_pdf_file b = (b, Ok tt).
Proof.
  intros F A. unfold clean_pdf_file. destruct b as [|c b]; [apply proj1, occurs_len in F; cbn in F; lia|].
  apply find_sub_first in F. rewrite F. apply rfind_sub_absent in A; [|discriminate]. rewrite A. reflexivity.
Qed.
Lemma clean_cut b start : first pdf_marker b start -> absent eof_marker b ->
  (4 < start -> clean_pdf_file b = (b, Err ValueError))
  /\ (start = 4 -> clean_pdf_file b = ([], Err OSError))
  /\ (0 < start < 4 -> clean_pdf_file b = (firstn (4 - start) pdf_marker, Ok tt)).
Proof.
  intros F A. pose proof (proj1 F) as O. pose proof (occurs_len _ _ _ O) as L. change (length pdf_marker) with 5 in L.
  unfold clean_pdf_file. destruct b as [|c b']; [cbn in L; lia|]. set (b := c :: b') in *.
  apply find_sub_first in F. rewrite F. apply rfind_sub_absent in A; [|discriminate]. rewrite A.
  split; [|split]; intros H.
  - destruct (Nat.ltb_spec 0 start); [|lia]. destruct (Nat.ltb_spec 4 start); [reflexivity|lia].
  - subst start. change (0 <? 4) with true. change (4 <? 4) with false. cbv iota.
    match goal with |- context [?a <? 4] => destruct (Nat.ltb_spec a 4) end; [unfold bytes, str, ch in *; lia|]. reflexivity.
  - destruct (Nat.ltb_spec 0 start); [|lia]. destruct (Nat.ltb_spec 4 start); [lia|]. match goal with |- context [?a <? 4] => destruct (Nat.ltb_spec a 4) end; [unfold bytes, str, ch in *; lia|].
    destruct O as (u & v & E & Lu). clearbody b. subst start. rewrite E.
    destruct u as [|x [|y [|z [|w u]]]]; cbn [length] in H; try lia; reflexivity.
Qed.
Lemma clean_end_first b start e : first pdf_marker b start -> last_ eof_marker b e -> 
  (e + 5 < start -> clean_pdf_file b = (b, Err ValueError)) /\ (e + 5 = start -> clean_pdf_file b = ([], Err OSError)).
Proof.
  intros F A. pose proof (occurs_len _ _ _ (proj1 F)) as L. change (length pdf_marker) with 5 in L.
  unfold clean_pdf_file. destruct b as [|c b']; [cbn in L; lia|]. set (b := c :: b') in *.
  apply find_sub_first in F. rewrite F. apply rfind_sub_last in A; [|discriminate]. rewrite A. split; intros H.
  - destruct (Nat.ltb_spec 0 start); [|lia]. destruct (Nat.ltb_spec (e + 5) start); [reflexivity|lia].
  - destruct (Nat.ltb_spec 0 start); [|lia]. destruct (Nat.ltb_spec (e + 5) start); [lia|]. match goal with |- context [?a <? (e + 5)] => destruct (Nat.ltb_spec a (e + 5)) end; [unfold bytes, str, ch in *; lia|].
    rewrite H, Nat.sub_diag. reflexivity.
Qed.
(** the markers do not overlap *)
Lemma occurs_nth p s i k c : occurs p s i -> nth_error p k = Some c -> nth_error s (i + k) = Some c.
Proof.
  intros (u & v & -> & <-) H. rewrite nth_error_app2 by lia. replace (length u + k - length u) with k by lia.
  rewrite nth_error_app1; auto. apply nth_error_Some. congruence.
Qed.
Lemma markers_apart b i j : occurs pdf_marker b i -> occurs eof_marker b j -> j + 5 <= i \/ i + 5 <= j.
Proof.
  intros P E. destruct (Nat.le_gt_cases (j + 5) i) as [|L1]; auto. destruct (Nat.le_gt_cases (i + 5) j) as [|L2]; auto. exfalso.
  assert (forall k c k' c', nth_error pdf_marker k = Some c -> nth_error eof_marker k' = Some c' -> i + k = j + k' -> c = c') as H.
  { intros k c k' c' H1 H2 Q. eapply occurs_nth in H1; eauto. eapply occurs_nth in H2; eauto. rewrite Q in H1. congruence. }
  assert (j + 5 = i + 1 \/ j + 5 = i + 2 \/ j + 5 = i + 3 \/ j + 5 = i + 4 \/ j + 5 = i + 5 \/ j + 5 = i + 6 \/ j + 5 = i + 7 \/ j + 5 = i + 8 \/ j + 5 = i + 9) as C by lia.
  destruct C as [C|[C|[C|[C|[C|[C|[C|[C|C]]]]]]]].
  - specialize (H 0 _ 4 _ eq_refl eq_refl). assert (37 = 70)%N by (apply H; lia). discriminate.
  - specialize (H 1 _ 4 _ eq_refl eq_refl). assert (80 = 70)%N by (apply H; lia). discriminate.
  - specialize (H 2 _ 4 _ eq_refl eq_refl). assert (68 = 70)%N by (apply H; lia). discriminate.
  - specialize (H 1 _ 2 _ eq_refl eq_refl). assert (80 = 69)%N by (apply H; lia). discriminate.
  - specialize (H 1 _ 1 _ eq_refl eq_refl). assert (80 = 37)%N by (apply H; lia). discriminate.
  - specialize (H 1 _ 0 _ eq_refl eq_refl). assert (80 = 37)%N by (apply H; lia). discriminate.
  - specialize (H 2 _ 0 _ eq_refl eq_refl). assert (68 = 37)%N by (apply H; lia). discriminate.
  - specialize (H 3 _ 0 _ eq_refl eq_refl). assert (70 = 37)%N by (apply H; lia). discriminate.
  - specialize (H 4 _ 0 _ eq_refl eq_refl). assert (45 = 37)%N by (apply H; lia). discriminate.
Qed.
Lemma marker_cases b : (absent pdf_marker b)
  \/ (exists start, first pdf_marker b start /\ absent eof_marker b)
  \/ (exists start e, first pdf_marker b start /\ last_ eof_marker b e /\ e + 5 <= start)
  \/ (exists junk mid tail, framed b junk mid tail).
Proof.
  destruct (find_sub pdf_marker b) as [start|] eqn:F; [|left; intros i; eapply find_sub_absent in F; exact F]. apply find_sub_first in F. right.
  destruct (rfind_sub eof_marker b) as [e|] eqn:R; [|left; exists start; split; auto; intros i; apply (proj1 (rfind_sub_absent eof_marker b ltac:(discriminate)) R)].
  apply rfind_sub_last in R; [|discriminate]. right. destruct (markers_apart b start e (proj1 F) (proj1 R)) as [L|L]; [left; exists start, e; repeat split; apply F || apply R || auto|right].
  destruct F as ((u & v & E & Lu) & F2), R as ((u' & v' & E' & Lu') & R2).
  exists u, (skipn 5 (skipn start (firstn e b))), v'. 
  assert (firstn e b = u') as Q1 by (rewrite E', <- Lu', firstn_app, firstn_all, Nat.sub_diag; cbn [firstn]; apply app_nil_r).
  assert (u' = u ++ pdf_marker ++ skipn 5 (skipn start u')) as Q2.
  { assert (firstn (start + 5) u' = u ++ pdf_marker) as Q.
    { rewrite <- Q1, firstn_firstn. replace (Nat.min (start + 5) e) with (length (u ++ pdf_marker)) by (rewrite app_length; change (length pdf_marker) with 5; unfold bytes, str, ch in *; lia).
      rewrite E, app_assoc, firstn_app, firstn_all, Nat.sub_diag. cbn [firstn]. apply app_nil_r. }
    rewrite <- (firstn_skipn (start + 5) u') at 1. rewrite Q, <- app_assoc. do 2 f_equal. clear - u'. revert u'. induction start as [|n IH]; intros u'; auto. destruct u' as [|x u']; [reflexivity|apply IH]. }
  rewrite Q1. set (mid := skipn 5 (skipn start u')) in *. split; [|split].
  - rewrite E', Q2 at 1. unfold document. rewrite <- !app_assoc. reflexivity.
  - intros i O. apply F2 in O. unfold bytes, str, ch in *. lia.
  - intros i O. apply R2 in O. apply (f_equal (@List.length ch)) in Q2. rewrite !app_length in Q2. change (length pdf_marker) with 5 in Q2. unfold bytes, str, ch in *. lia.
Qed.

(** ** attach *)
Lemma mem_str_in' x l : mem_str x l = true <-> In x l. Proof. apply mem_str_in. Qed.
Lemma dedupe_from_spec l : forall seen, NoDup (dedupe_from seen l) /\ (forall x, In x (dedupe_from seen l) <-> In x l /\ ~ In x seen).
Proof.
  induction l as [|a l IH]; intros seen; cbn [dedupe_from].
  - split; [constructor|]. cbn. tauto.
  - destruct (mem_str a seen) eqn:M.
    + apply mem_str_in in M. destruct (IH seen) as (A & B). split; auto. intros x. rewrite B. cbn. split; [tauto|]. intros [[->|H] N]; tauto.
    + assert (~ In a seen) as N by (intros I; apply mem_str_in in I; congruence). destruct (IH (a :: seen)) as (A & B). split.
      * constructor; auto. rewrite B. cbn. tauto.
      * intros x. cbn [In]. rewrite B. cbn [In]. destruct (str_eq_dec a x) as [->|D]; [tauto|]. tauto.
Qed.
Lemma dedupe_from_app a b : forall seen, exists c, dedupe_from seen (a ++ b) = dedupe_from seen a ++ c.
Proof.
  induction a as [|x a IH]; intros seen; cbn [app dedupe_from]; [eauto|].
  destruct (mem_str x seen); auto. destruct (IH (x :: seen)) as (c & ->). exists c. reflexivity.
Qed.
Lemma dedupe_nodup l : forall seen, NoDup l -> (forall x, In x l -> ~ In x seen) -> dedupe_from seen l = l.
Proof.
  induction l as [|a l IH]; intros seen N D; cbn; auto. inversion N; subst. destruct (mem_str a seen) eqn:M.
  - apply mem_str_in in M. exfalso. eapply D; eauto. left; auto.
  - f_equal. apply IH; auto. intros x I [->|J]; [contradiction|]. eapply D; eauto. right; auto.
Qed.
Lemma update_urls_get urls : forall r k, fget k (update_reference_with_urls r urls)
  = if fkey_eqb k Furl && existsb nonempty urls
    then Some (match fget Furl r with Some l => l | None => [] end ++ filter nonempty urls) else fget k r.
Proof.
  induction urls as [|u urls IH]; intros r k; cbn [update_reference_with_urls existsb filter].
  - now rewrite andb_false_r.
  - rewrite IH. rewrite !fget_add_subfield. destruct (fkey_eqb_spec k Furl) as [->|N]; cbn [andb].
    + assert (fkey_eqb Furl Furl = true) as -> by reflexivity. cbn [andb]. destruct (nonempty u) eqn:U; cbn [orb].
      * destruct (existsb nonempty urls) eqn:X.
        -- now rewrite <- app_assoc.
        -- assert (filter nonempty urls = []) as -> by (clear - X; induction urls as [|a t I]; cbn in *; auto; apply orb_false_iff in X as [X1 X2]; rewrite X1; auto). reflexivity.
      * destruct (existsb nonempty urls); reflexivity.
    + reflexivity.
Qed.
(** what attaching one entry does *)
Definition urls_of (r : ref) : list str := match fget Furl r with Some l => l | None => [] end.
Definition attached (r : ref) (e : str * list str) (r' : ref) : Prop :=
  fget Ftexkey r' = Some [fst e]
  /\ (forall k, k <> Ftexkey -> k <> Furl -> fget k r' = fget k r)
  /\ NoDup (urls_of r')
  /\ (forall u, In u (urls_of r') <-> In u (urls_of r) \/ (In u (snd e) /\ u <> []))
  /\ (NoDup (urls_of r) -> exists more, urls_of r' = urls_of r ++ more).
Definition set_like (f : list str -> list str) : Prop := forall l, NoDup (f l) /\ forall x, In x (f l) <-> In x l.
Lemma attach_spec W r e : set_like (set_order W) -> attached r e (attach W r e).
Proof.
  intros S. destruct (S (snd e)) as (Nd & Me). unfold attach. set (us := set_order W (snd e)) in *.
  set (r1 := update_reference_with_urls r us).
  assert (urls_of r1 = urls_of r ++ filter nonempty us) as U1.
  { unfold urls_of, r1. rewrite update_urls_get. assert (fkey_eqb Furl Furl = true) as -> by reflexivity. cbn [andb]. destruct (existsb nonempty us) eqn:X; auto.
    assert (filter nonempty us = []) as ->; [|now rewrite app_nil_r]. clear - X; induction us as [|a t I]; cbn in *; auto; apply orb_false_iff in X as [X1 X2]; rewrite X1; auto. }
  assert (forall k, k <> Furl -> fget k r1 = fget k r) as K1.
  { intros k N. unfold r1. rewrite update_urls_get. destruct (fkey_eqb_spec k Furl); [congruence|]. reflexivity. }
  set (r2 := match fget Furl r1 with Some (u :: us0) => fset Furl (dedupe_list (u :: us0)) r1 | _ => r1 end).
  assert (urls_of r2 = dedupe_list (urls_of r1)) as U2.
  { unfold r2, urls_of. destruct (fget Furl r1) as [[|u t]|] eqn:G.
    - now rewrite G.
    - rewrite fget_fset. reflexivity.
    - now rewrite G. }
  assert (forall k, k <> Furl -> fget k r2 = fget k r1) as K2.
  { intros k N. unfold r2. destruct (fget Furl r1) as [[|u t]|]; auto. rewrite fget_fset. destruct (fkey_eqb_spec k Furl); [congruence|auto]. }
  assert (urls_of (fset Ftexkey [fst e] r2) = urls_of r2) as U3 by (unfold urls_of; rewrite fget_fset; reflexivity).
  split; [rewrite fget_fset; reflexivity|]. split.
  { intros k N1 N2. rewrite fget_fset. destruct (fkey_eqb_spec k Ftexkey); [congruence|]. rewrite K2, K1; auto. }
  rewrite U3, U2, U1. unfold dedupe_list. destruct (dedupe_from_spec (urls_of r ++ filter nonempty us) []) as (A & B).
  split; auto. split.
  - intros u. rewrite B, in_app_iff, filter_In, Me. cbn. assert (nonempty u = true <-> u <> []) as -> by (destruct u; cbn; split; congruence). tauto.
  - intros N. destruct (dedupe_from_app (urls_of r) (filter nonempty us) []) as (c & ->). exists c. f_equal. apply dedupe_nodup; auto.
Qed.
Lemma zip_with_Forall2 {A B C} (f : A -> B -> C) (R : A -> B -> C -> Prop) : (forall a b, R a b (f a b)) ->
  forall la lb, length lb = length la -> length (zip_with f la lb) = length la
    /\ forall i a b, nth_error la i = Some a -> nth_error lb i = Some b -> exists c, nth_error (zip_with f la lb) i = Some c /\ R a b c.
Proof.
  intros H. induction la as [|a la IH]; intros [|b lb] L; cbn in L; try discriminate.
  - split; auto. intros [|i] a b; discriminate.
  - destruct (IH lb) as (A1 & A2); [lia|]. cbn [zip_with length]. split; [lia|]. intros [|i] a' b' Ha Hb; cbn in *.
    + inversion Ha; inversion Hb; subst. eauto.
    + eauto.
Qed.
Lemma attach_all_spec W refs keys : set_like (set_order W) ->
  (length keys <> length refs /\ attach_all W refs keys = refs)
  \/ (length keys = length refs /\ length (attach_all W refs keys) = length refs
      /\ forall i r e, nth_error refs i = Some r -> nth_error keys i = Some e ->
         exists r', nth_error (attach_all W refs keys) i = Some r' /\ attached r e r').
Proof.
  intros S. unfold attach_all. destruct (Nat.eqb_spec (length keys) (length refs)) as [E|E]; [right|left; auto].
  split; auto. apply (zip_with_Forall2 (attach W) attached); auto. intros; now apply attach_spec.
Qed.
(** the whole of extract_references_from_file *)
Lemma file_result W O b b2 out : extract_references_from_file W O (Some b) = (Some b2, Ok out) ->
  exists lines refs, parse_with O lines = Ok refs
    /\ ((mime_type W b2 = Ok (py "application/pdf") /\ out = attach_all W refs (extract_texkeys_and_urls_from_pdf (pypdf W b2)))
        \/ (exists m, mime_type W b2 = Ok m /\ m <> py "application/pdf" /\ out = refs)).
Proof.
  unfold extract_references_from_file. destruct (get_plaintext_document_body W false b) as [b1 [body|e]]; [|intros H; inversion H].
  destruct (extract_references_from_fulltext body) as [[reflines x]|e]; [|intros H; inversion H].
  match goal with |- (let '(b2, lines) := ?p in _) = _ -> _ => destruct p as [b2' lines] end. intros H. inversion H as [[E1 E2]]. subst b2'.
  inv_ok E2. inv_ok E2. inv_ok E2. exists a, a0. split; auto. destruct (eqs_spec a1 (py "application/pdf")) as [->|N].
  - left. inversion E2; subst. auto.
  - right. inversion E2; subst. eauto.
Qed.

(** ** extract_references_from_url *)
Lemma dir_del_fresh name s : dir_get name s = None -> dir_del name s = s.
Proof.
  unfold dir_del. induction s as [|(n, b) s IH]; cbn; auto. destruct (n =? name); [discriminate|]. cbn. intros H. f_equal. auto.
Qed.
Lemma dir_del_idem name s : dir_del name (dir_del name s) = dir_del name s.
Proof.
  unfold dir_del. induction s as [|(n, b) s IH]; cbn; auto. destruct (negb (n =? name)) eqn:E; cbn; rewrite ?E; congruence.
Qed.
Lemma dir_get_set name b s : dir_get name (dir_set name b s) = Some b.
Proof. cbn. now rewrite Nat.eqb_refl. Qed.
(** [only name s s1]: s1 is s with a file [name] *)
Definition only (name : nat) (s s1 : dir) : Prop := exists b, s1 = (name, b) :: s.
Lemma only_set name b s s1 : dir_get name s = None -> only name s s1 -> only name s (dir_set name b s1).
Proof.
  intros F (b0 & ->). exists b. unfold dir_set, dir_del. cbn [filter fst]. rewrite Nat.eqb_refl. cbn [negb].
  f_equal. now apply dir_del_fresh.
Qed.
Definition keeps {A} (name : nat) (s : dir) (p : prog A) : Prop := forall s1, only name s s1 -> only name s (fst (p s1)).
Lemma keeps_ret {A} name s (r : res A) : keeps name s (ret r). Proof. intros s1 H. exact H. Qed.
Lemma keeps_then {A B} name s (p : prog A) (k : A -> prog B) : keeps name s p -> (forall a, keeps name s (k a)) -> keeps name s (andthen p k).
Proof. intros P K s1 H. unfold andthen. specialize (P s1 H). destruct (p s1) as [s2 [a|e]]; cbn in *; auto. now apply K. Qed.
Lemma keeps_write name s b : dir_get name s = None -> keeps name s (write_file name b).
Proof. intros F s1 H. now apply only_set. Qed.
Lemma keeps_chunks name s l : dir_get name s = None -> forall acc, keeps name s (write_chunks name acc l).
Proof.
  intros F. induction l as [|[c|e] l IH]; intros acc; cbn [write_chunks]; [now apply keeps_write| |apply keeps_ret].
  apply keeps_then; auto. now apply keeps_write.
Qed.
Lemma keeps_file {A} name s (extract : option bytes -> option bytes * res A) : dir_get name s = None -> keeps name s (on_file extract name).
Proof.
  intros F s1 H. unfold on_file. destruct (extract (dir_get name s1)) as [[b|] r]; cbn [fst]; auto. now apply only_set.
Qed.
Lemma keeps_except {A} name s (p : prog A) e : keeps name s p -> keeps name s (except_http p e).
Proof. intros P s1 H. unfold except_http. specialize (P s1 H). destruct (p s1) as [s2 [a|[]]]; cbn in *; auto. Qed.
Lemma url_dir extract d s : (forall name, dl_mkstemp d = Ok name -> dir_get name s = None) -> dl_close d = Ok tt ->
  fst (extract_references_from_url extract d s) = s.
Proof.
  intros F C. unfold extract_references_from_url. unfold andthen at 1. destruct (dl_mkstemp d) as [name|e]; [|reflexivity].
  specialize (F name eq_refl). unfold andthen at 1, ret at 1. rewrite C.
  set (p := except_http _ _).
  assert (keeps name s p) as K.
  { apply keeps_except. repeat (apply keeps_then; [first [apply keeps_ret|now apply keeps_write|now apply keeps_chunks]|intros _]). now apply keeps_file. }
  unfold finally_. assert (only name s (dir_set name [] s)) as O.
  { exists []. unfold dir_set. now rewrite dir_del_fresh. }
  specialize (K _ O). destruct (p (dir_set name [] s)) as [s1 r]. cbn [fst] in K. destruct K as (b & ->).
  unfold remove_file. cbn [dir_get]. rewrite Nat.eqb_refl. cbn [fst]. unfold dir_del. cbn [filter fst]. rewrite Nat.eqb_refl. cbn. now apply dir_del_fresh.
Qed.
(** the outcome: that of the first step that fails, or of the extraction from the downloaded content *)
Fixpoint first_failure (l : list (res bytes)) : res bytes :=
  match l with
  | [] => Ok []
  | Ok c :: t => match first_failure t with Ok r => Ok (c ++ r) | Err e => Err e end
  | Err e :: _ => Err e
  end.
Definition url_outcome (extract : option bytes -> option bytes * res (list ref)) (d : download) : res (list ref) :=
  let* _ := dl_get d in
  let* _ := dl_status d in
  let* _ := dl_open d in
  let* content := first_failure (dl_chunks d) in
  snd (extract (Some content)).
Lemma write_chunks_result name l : forall acc s, dir_get name s = Some acc ->
  match first_failure l with
  | Ok r => dir_get name (fst (write_chunks name acc l s)) = Some (acc ++ r) /\ snd (write_chunks name acc l s) = Ok tt
  | Err e => snd (write_chunks name acc l s) = Err e
  end.
Proof.
  induction l as [|[c|e] l IH]; intros acc s H; cbn [first_failure write_chunks]; auto.
  - unfold write_file. cbn [fst snd]. rewrite dir_get_set, app_nil_r. auto.
  - unfold andthen, write_file. specialize (IH (acc ++ c) (dir_set name (acc ++ c) s) (dir_get_set _ _ _)).
    destruct (first_failure l); auto. now rewrite app_assoc.
Qed.
Lemma on_file_result {A} (extract : option bytes -> option bytes * res A) name s : snd (on_file extract name s) = snd (extract (dir_get name s)).
Proof. unfold on_file. now destruct (extract (dir_get name s)) as [[b|] r]. Qed.
Lemma url_result extract d s name : dl_mkstemp d = Ok name -> dir_get name s = None -> dl_close d = Ok tt ->
  snd (extract_references_from_url extract d s)
  = match url_outcome extract d with Err HTTPError => Err FullTextNotAvailableError | r => r end.
Proof.
  intros M F C. unfold extract_references_from_url. unfold andthen at 1. rewrite M. unfold andthen at 1, ret at 1. rewrite C.
  unfold finally_. set (p := andthen (ret (dl_get d)) _).
  assert (keeps name s p) as K.
  { repeat (apply keeps_then; [first [apply keeps_ret|now apply keeps_write|now apply keeps_chunks]|intros _]). now apply keeps_file. }
  assert (snd (p (dir_set name [] s)) = url_outcome extract d) as R.
  { unfold p, url_outcome, andthen, ret. destruct (dl_get d) as [[]|e]; [|reflexivity]. cbn [bind]. destruct (dl_status d) as [[]|e]; [|reflexivity]. cbn [bind].
    destruct (dl_open d) as [[]|e]; [|reflexivity]. cbn [bind]. unfold write_file.
    set (s1 := dir_set name [] (dir_set name [] s)). pose proof (write_chunks_result name (dl_chunks d) [] s1 (dir_get_set _ _ _)) as W.
    destruct (first_failure (dl_chunks d)) as [r|e]; cbn [bind].
    - destruct W as (W1 & W2). destruct (write_chunks name [] (dl_chunks d) s1) as [s2 x]. cbn [fst snd] in W1, W2. subst x.
      rewrite on_file_result. now rewrite W1.
    - destruct (write_chunks name [] (dl_chunks d) s1) as [s2 x]. cbn [snd] in W. subst x. reflexivity. }
  assert (only name s (dir_set name [] s)) as O by (exists []; unfold dir_set; now rewrite dir_del_fresh).
  specialize (K _ O). unfold except_http. destruct (p (dir_set name [] s)) as [s1 r]. cbn [fst snd] in K, R. subst r. destruct K as (b & ->).
  destruct (url_outcome extract d) as [x|[]]; unfold remove_file; cbn [dir_get]; rewrite Nat.eqb_refl; reflexivity.
Qed.
Lemma url_close_leak extract d s name e : dl_mkstemp d = Ok name -> dl_close d = Err e ->
  dir_get name (fst (extract_references_from_url extract d s)) = Some [].
Proof.
  intros M C. unfold extract_references_from_url. unfold andthen at 1. rewrite M. unfold andthen at 1, ret at 1. rewrite C. cbn [fst]. apply dir_get_set.
Qed.
