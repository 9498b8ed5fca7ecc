(** Tagging the collaborations one after the other (C61): the tags put in do not disturb the later ones. *)
From Coq Require Import Arith NArith Bool String List Lia.
From Verif Require Import PyStr ListFacts Regex RegexMeta RegexLang RegexParse CaptureLang Patterns TaggerProofs Kbs Tag KbFit UrlProofs AuthorProofs StripProofs CollabGrammar CollabProofs.
Import ListNotations.
Local Open Scope nat_scope.
Local Notation length := List.length.

(** M is the line with underscores in place of its tags *)
Definition masks (line M : str) : Prop := exists ps last,
  line = concat (map (fun q => fst q ++ snd q) ps) ++ last
  /\ M = concat (map (fun q => fst q ++ underscores (length (snd q))) ps) ++ last
  /\ Forall (fun q => tag_text (snd q)) ps
  /\ (forall a w b, M = a ++ w ++ b -> ~ tag_text w).
(** the collaborations are looked for one after the other, each in the line with the tags of those before masked *)
Inductive collabs_tagged : list str -> str -> str -> Prop :=
| no_collabs line : collabs_tagged [] line line
| next_collab X Xs line M mid out : masks line M -> replaced (collab_text X) (collab_put X) [] M line mid -> collabs_tagged Xs mid out -> collabs_tagged (X :: Xs) line out.

(** every tag of the line is masked *)
Definition covered (M L : str) : Prop := masked M L /\ forall a T b, L = a ++ T ++ b -> tag_text T -> exists a' b', M = a' ++ underscores (length T) ++ b' /\ length a' = length a.
Lemma masked_len M L : masked M L -> length M = length L. Proof. intros H. induction H; cbn; auto. Qed.
Lemma sub_bars line : forall ms p o, chain p ms (length line) -> In o ms -> exists x y, sub_from line bars p ms = x ++ bars o ++ y /\ length x = m_start o - p.
Proof.
  induction ms as [|o1 ms IH]; intros p o C I; [destruct I|]. destruct C as (C1 & C2 & C3). cbn [sub_from]. pose proof (chain_le _ _ _ C3). destruct I as [->|I].
  - eexists _, _. split; [reflexivity|]. apply slice_length; lia.
  - destruct (IH _ o C3 I) as (x & y & -> & L). pose proof (chain_in _ _ _ _ C3 I). exists (slice p (m_start o1) line ++ bars o1 ++ x), y. split; [now rewrite <- !app_assoc|]. rewrite !app_length, L, slice_length by lia. unfold bars. rewrite bars_length. lia.
Qed.
Lemma strip_covered line : not_nested line -> covered (strip_tags line) line.
Proof.
  intros N. set (ms := re_finditer (rx_re re_tag) line). pose proof (finditer_ok (rx_re re_tag) line) as (O & C). fold ms in O, C.
  destruct (strip_loop line N ms [] 0 []) as (R1 & R2 & R3); auto; [constructor|intros q []|]. cbn [app skipn] in R1, R2, R3.
  change (fold_left (fun l o => re_sub1 (rx_re re_tag) (fun _ => bars o) l) ms line) with (strip_tags line) in *. split; auto.
  intros a T b E Tt. destruct (starts_all line N line [] ms a T b (masked_refl line) eq_refl (fun o I => match I with end) E Tt) as (o & I & S).
  destruct (tag_found line o I) as (a1 & w1 & b1 & E1 & T1 & S1 & N1). rewrite E in E1. apply split_len in E1 as (<- & E1); [|lia]. apply (tag_unique T w1) in E1 as <-; auto.
  rewrite R1. destruct (sub_bars line ms 0 o C I) as (x & y & -> & L). exists x, y. unfold bars. rewrite N1, S1. replace (length a + length T - length a) with (length T) by lia. split; auto. lia.
Qed.
Lemma covered_rest m1 m2 l1 l2 : length m1 = length l1 -> covered (m1 ++ m2) (l1 ++ l2) -> covered m2 l2.
Proof.
  intros Le (M & C). split.
  - apply Forall2_app_inv_l in M as (x & y & Mx & My & E). pose proof (masked_len _ _ Mx). apply split_len in E as (-> & ->); auto. exact (eq_trans (eq_sym Le) H).
  - intros a T b -> Tt. destruct (C (l1 ++ a) T b) as (a' & b' & E & L); [now rewrite <- app_assoc|auto|]. symmetry in E. rewrite app_length in L. destruct (prefix_split _ _ _ _ E) as (u & -> & E2); [lia|]. exists u, b'. split; auto. rewrite app_length in L. lia.
Qed.
Lemma open_letters X r : uppers X -> ~ In 60%N (py "cds." ++ X ++ py ">" ++ r) \/ In 60%N r.
Proof.
  intros (_ & U). destruct (in_dec N.eq_dec 60%N r) as [|N]; auto. left. intros I. cbn in I. repeat (destruct I as [I|I]; [discriminate|]). apply in_app_or in I as [I|I].
  - rewrite forallb_forall in U. apply U in I. discriminate.
  - cbn in I. destruct I as [I|I]; [discriminate|auto].
Qed.
(** an opening tag that begins in k and does not end there has no "<" behind k *)
Lemma open_inside X : uppers X -> forall (k : str) (d : ch) (t a r : str), d = 60%N -> k ++ d :: t = a ++ (py "<cds." ++ X ++ py ">") ++ r -> length a < length k -> exists k2, k = a ++ (py "<cds." ++ X ++ py ">") ++ k2 /\ r = k2 ++ d :: t.
Proof.
  intros U k d t a r Ed E L. symmetry in E. set (tag := py "<cds." ++ X ++ py ">") in *. rewrite app_assoc in E. destruct (le_lt_dec (length (a ++ tag)) (length k)) as [Le|Gt].
  - symmetry in E. destruct (prefix_split _ _ _ _ E Le) as (u & -> & Eu). exists u. rewrite <- app_assoc. auto.
  - exfalso. destruct (prefix_split _ _ _ _ E) as (u & Eu & Ev); [lia|]. destruct u as [|x u]; [apply (f_equal (@length ch)) in Eu; rewrite app_nil_r in Eu; rewrite Eu in Gt; lia|].
    cbn [app] in Ev. injection Ev as -> _. destruct (prefix_split _ _ _ _ (eq_sym Eu)) as (v & -> & Ev); [lia|]. destruct v as [|y v]; [rewrite app_nil_r in L; lia|]. unfold tag in Ev. change (py "<cds." ++ X ++ py ">") with (60%N :: (py "cds." ++ X ++ py ">" ++ [])) in Ev. cbn [app] in Ev. injection Ev as _ Ev.
    destruct (open_letters X [] U) as [H|[]]. apply H. assert (In 60%N (v ++ d :: u)) as Iv; [|rewrite Ev in Iv; exact Iv]. apply in_or_app. right. left. exact Ed.
Qed.
Lemma nested_kept (P : str -> str -> str -> Prop) (R : str -> str -> str -> str -> Prop) :
  (forall a w b v, R a w b v -> w <> [] /\ ~ In 95%N w /\ exists t, ~ In 60%N t /\ v = py "<cds.COLLABORATION>" ++ t ++ py "</cds.COLLABORATION>") ->
  forall a M L out, replaced P R a M L out -> covered M L -> not_nested L -> not_nested out.
Proof.
  intros HR. induction 1 as [a s l Le No|a k w b kl wl bl v t L1 L2 L3 No Ro Re IH]; intros C N; auto.
  destruct (HR _ _ _ _ Ro) as (W1 & W2 & x & Nx & ->). assert (not_nested bl) as Nb.
  { intros a0 X r U E. apply (N (kl ++ wl ++ a0) X r U). rewrite E. now rewrite <- !app_assoc. }
  assert (covered b bl) as Cb. { apply (covered_rest (k ++ w) b (kl ++ wl) bl); [rewrite !app_length; lia|]. now rewrite <- !app_assoc. }
  specialize (IH Cb Nb). intros a0 X r U E. set (v := py "<cds.COLLABORATION>" ++ x ++ py "</cds.COLLABORATION>") in *.
  destruct (le_lt_dec (length kl) (length a0)) as [Ge|Lt].
  - destruct (prefix_split _ _ _ _ (eq_sym E) Ge) as (a1 & -> & E1). clear E. destruct (le_lt_dec (length v) (length a1)) as [Ge1|Lt1].
    + destruct (prefix_split _ _ _ _ E1 Ge1) as (a2 & -> & E2). apply (IH a2 X r U). auto.
    + symmetry in E1. destruct a1 as [|y a1].
      * unfold v in E1. cbn [app] in E1. exists x, (py "COLLABORATION"), t. split; auto. split; [split; [discriminate|reflexivity]|].
        rewrite <- !app_assoc in E1. change (py "<cds.COLLABORATION>" ++ x ++ py "</cds.COLLABORATION>" ++ t) with (py "<cds." ++ py "COLLABORATION" ++ 62%N :: x ++ py "</cds.COLLABORATION>" ++ t) in E1. apply app_inv_head in E1.
        apply (az_unique (py "COLLABORATION") X 62%N 62%N) in E1 as (_ & _ & E1); auto; try (split; [discriminate|reflexivity]).
      * exfalso. assert (exists c, v = 60%N :: c ++ py "</cds.COLLABORATION>" /\ ~ In 60%N c) as (c & Ev & Nc).
        { exists (py "cds.COLLABORATION>" ++ x). split; [unfold v; now rewrite <- app_assoc|]. intros I. apply in_app_or in I as [I|I]; auto. vm_compute in I. intuition discriminate. }
        rewrite Ev in E1, Lt1. cbn [app length] in E1, Lt1. injection E1 as <- E1. rewrite <- app_assoc in E1.
        destruct (le_lt_dec (length c) (length a1)) as [Ge2|Lt2].
        -- destruct (prefix_split _ _ _ _ (eq_sym E1) Ge2) as (a2 & -> & E2). rewrite !app_length in Lt1. cbn in Lt1. clear -E2 Lt1 U. let l := eval vm_compute in (py "</cds.COLLABORATION>") in change (py "</cds.COLLABORATION>") with l in E2. change (py "<cds.") with [60; 99; 100; 115; 46]%N in E2. cbn [app] in E2.
           destruct a2 as [|y a2]; [discriminate|].
           do 19 (destruct a2 as [|? a2]; [cbn [app] in E2; discriminate|]). cbn in Lt1. lia.
        -- clear Ev. destruct (prefix_split _ _ _ _ E1) as (u & Eu & Ev); [lia|]. destruct u as [|y u]; [rewrite app_nil_r in Eu; rewrite Eu in Lt2; lia|]. cbn [app] in Ev. injection Ev as -> _. apply Nc. rewrite Eu. apply in_or_app. right. now left.
  - unfold v in E. change (py "<cds.COLLABORATION>") with (60%N :: py "cds.COLLABORATION>") in E. cbn [app] in E. apply (open_inside X U kl 60%N) in E as (k2 & -> & ->); auto.
    destruct (N a0 X (k2 ++ wl ++ bl) U) as (c & Y & r2 & Cc & Uy & E2); [now rewrite <- !app_assoc|].
    destruct (le_lt_dec (length (c ++ py "</cds." ++ Y ++ py ">")) (length k2)) as [Le|Gt].
    + rewrite (app_assoc c) in E2. destruct (prefix_split _ _ _ _ E2 Le) as (u & -> & _). exists c, Y, (u ++ 60%N :: py "cds.COLLABORATION>" ++ x ++ py "</cds.COLLABORATION>" ++ t). split; auto. split; auto. now rewrite <- !app_assoc.
    + exfalso. destruct C as (_ & C). destruct (C a0 ((py "<cds." ++ X ++ py ">") ++ c ++ py "</cds." ++ Y ++ py ">") r2) as (a' & b' & E3 & L4).
      * rewrite <- !app_assoc. f_equal. f_equal. f_equal. f_equal. rewrite <- !app_assoc in E2. exact E2.
      * exists X. split; auto. right. exists c, Y. split; auto. split; auto. now rewrite <- !app_assoc.
      * set (T := (py "<cds." ++ X ++ py ">") ++ c ++ py "</cds." ++ Y ++ py ">") in *. rewrite (app_assoc a') in E3. destruct w as [|y w]; [congruence|]. cbn [app] in E3.
        assert (length k < length (a' ++ underscores (length T))) as Lk. { rewrite L1, !app_length, bars_length, L4. unfold T. rewrite (app_length (py "<cds." ++ X ++ py ">")). rewrite !app_length in *. lia. }
        symmetry in E3. destruct (prefix_split _ _ _ _ E3) as (u & Eu & Ev); [lia|]. destruct u as [|z u]; [rewrite app_nil_r in Eu; rewrite Eu in Lk; lia|]. cbn [app] in Ev. injection Ev as -> _.
        destruct (prefix_split _ _ _ _ (eq_sym Eu)) as (v' & Ev & Ew); [rewrite L4, L1, !app_length; lia|]. assert (In y (underscores (length T))) as I by (rewrite <- Ew; apply in_or_app; right; now left).
        apply repeat_spec in I. apply W2. left. auto.
Qed.

(** ** The characters of a name *)
Definition calm (X : str) : bool := forallb (fun c => negb (N.eqb c 60) && negb (N.eqb c 95)) X.
Lemma white_not w c : whites w -> is_space c = false -> ~ In c w.
Proof. intros W S I. unfold whites in W. rewrite forallb_forall in W. apply W in I. congruence. Qed.
Lemma case_not d c word w : (c < 65)%N \/ (90 < c < 97)%N -> Forall2 (fun c d => In c (case_variants d)) word w -> d = c -> ~ In c word -> ~ In c w.
Proof.
  intros B H -> N I. induction H as [|x y word w D H IH]; [destruct I|]. destruct I as [->|I]; [|apply IH; auto; intros J; apply N; now right].
  destruct (variants c x) as [->|V]; auto; [now apply N; left|]. revert D.
  assert (case_variants c = [c]) as ->. { unfold case_variants, is_lower_ascii, is_upper_ascii, in_range. destruct (N.leb_spec 97 c); [lia|]. destruct (N.leb_spec 65 c), (N.leb_spec c 90); try lia; cbn; destruct (N.ltb_spec c 128); auto; lia. }
  intros [->|[]]. apply N. now left.
Qed.
Lemma any_not word w c : (c < 65)%N \/ (90 < c < 97)%N -> in_any_case word w -> ~ In c (py word) -> ~ In c w.
Proof. intros B H. now apply (case_not c c (py word) w B H). Qed.
Lemma spelled_not X w c : (c < 65)%N \/ (90 < c < 97)%N -> is_space c = false -> spelled X w -> ~ In c X -> ~ In c w.
Proof.
  intros B S H N I. unfold spelled in H. induction H as [|x y X w D H IH]; [destruct I|]. destruct I as [->|I]; [|apply IH; auto; intros J; apply N; now right].
  destruct (N.eqb x 32); [congruence|]. apply (case_not c c [x] [c] B); [constructor; [exact D|constructor]|reflexivity| |now left]. intros [->|[]]. apply N. now left.
Qed.
Ltac absent := let I := fresh in intros I; vm_compute in I; intuition discriminate.
Lemma names_calm X g c : c = 60%N \/ c = 95%N -> calm X = true -> names X g -> ~ In c g.
Proof.
  intros Cc Ca (x & sp & t & -> & S & Sp & T) I. assert ((c < 65)%N \/ (90 < c < 97)%N) as B by lia. assert (is_space c = false) as Sc by (destruct Cc as [->| ->]; reflexivity).
  apply in_app_or in I as [I|I]. { revert I. apply (spelled_not X x c B Sc S). intros J. unfold calm in Ca. rewrite forallb_forall in Ca. apply Ca in J. destruct Cc as [->| ->]; discriminate. }
  destruct I as [->|I]; [congruence|]. cbn [app] in I. destruct T as [->|(bl & co & e & -> & W & Co & E)]; [destruct I|]. apply in_app_or in I as [I|I]; [now apply (white_not _ _ W Sc) in I|].
  apply in_app_or in I as [I|I]; [revert I; apply (any_not "coll" co c B Co); destruct Cc as [->| ->]; absent|].
  destruct E as [->|[E|[E| ->]]]; [destruct I|revert I; apply (any_not "aboration" e c B E); destruct Cc as [->| ->]; absent|revert I; apply (any_not "aborations" e c B E); destruct Cc as [->| ->]; absent|].
  revert I. destruct Cc as [->| ->]; absent.
Qed.
Lemma leads_calm a l : leads a l -> ~ In 95%N l.
Proof.
  intros (s & bl & th & -> & S & W & T) I. apply in_app_or in I as [I|I].
  - destruct S as [(-> & _)|(c & -> & [C|C])]; [destruct I| |]; destruct I as [->|[]]; [revert C; unfold one_of; absent|discriminate].
  - apply in_app_or in I as [I|I]; [now apply (white_not _ _ W) in I|]. destruct T as [->|(wd & sp & -> & Wd & Sp & _)]; [destruct I|]. apply in_app_or in I as [I|I]; [|now apply (white_not _ _ Sp) in I].
    revert I. destruct Wd as [Wd|Wd]; [apply (any_not "the" wd)|apply (any_not "and" wd)]; auto; try lia; absent.
Qed.
Lemma put_calm X : calm X = true -> forall a w b v, collab_put X a w b v -> w <> [] /\ ~ In 95%N w /\ exists t, ~ In 60%N t /\ v = py "<cds.COLLABORATION>" ++ t ++ py "</cds.COLLABORATION>".
Proof.
  intros Ca a w b v (l & g & t & -> & L & G & _ & _ & (p & q & Eg & _) & ->). split; [|split].
  - destruct G as (x & sp & t' & -> & _). destruct l; [destruct x; discriminate|discriminate].
  - intros I. apply in_app_or in I as [I|I]; [now apply leads_calm in L|]. revert I. apply (names_calm X g); auto.
  - exists t. split; auto. intros I. apply (names_calm X g 60%N) in G; auto. apply G. rewrite Eg. apply in_or_app. right. apply in_or_app. now left.
Qed.

(** ** All collaborations *)
Lemma collabs_run : forall Xs kb line, map (fun q => rx_re (snd q)) kb = map collab_re Xs -> forallb calm Xs = true -> not_nested line ->
  exists out, identify_and_tag_collaborations line kb = Ok out /\ collabs_tagged Xs line out.
Proof.
  induction Xs as [|X Xs IH]; intros [|(n & p) kb] line E C N; try discriminate; cbn [identify_and_tag_collaborations].
  - exists line. split; auto. constructor.
  - cbn [map snd] in E. injection E as E1 E2. cbn [forallb] in C. apply andb_true_iff in C as (C1 & C2). rewrite E1. destruct (collab_one X line (strip_length line N)) as (mid & -> & R). cbn [bind].
    pose proof (nested_kept _ _ (put_calm X C1) _ _ _ _ R (strip_covered line N) N) as N2. destruct (IH kb mid E2 C2 N2) as (out & O & T). exists out. split; auto. econstructor; [|exact R|exact T]. exact (strip_spec line N).
Qed.
Lemma shipped_calm : forallb calm shipped_names = true. Proof. vm_compute. reflexivity. Qed.
Lemma shipped_tagged line : not_nested line -> exists out, identify_and_tag_collaborations line shipped_collabs_kb = Ok out /\ collabs_tagged shipped_names line out.
Proof. exact (fun N => collabs_run shipped_names shipped_collabs_kb line (proj2 shipped_form) shipped_calm N). Qed.
