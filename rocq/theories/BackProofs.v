(** A tagged line is read back as it was written (C60). *)
From Coq Require Import List Arith NArith Bool String Lia.
From Verif Require Import PyStr ListFacts NumberFacts Regex RegexMeta Patterns Elements ParseTagged ParseProofs NumGrammar SectGrammar SectUse BackGrammar BackNum BackRead.
Import ListNotations.
Local Open Scope nat_scope.
Local Notation length := List.length.
Local Arguments is_space : simpl never.

(** ** The first tag *)
Lemma splits {A} (a x b y : list A) : a ++ x = b ++ y -> (exists z, z <> [] /\ b = a ++ z /\ x = z ++ y) \/ (a = b /\ x = y) \/ (exists z, z <> [] /\ a = b ++ z /\ y = z ++ x).
Proof.
  revert b. induction a as [|c a IH]; intros [|d b] E; cbn in *; auto.
  - left. exists (d :: b). repeat split; auto; congruence.
  - right. right. exists (c :: a). repeat split; auto; congruence.
  - injection E as -> E. destruct (IH b E) as [(z & N & -> & ->)|[(-> & ->)|(z & N & -> & ->)]]; [left|right; left|right; right]; eauto.
Qed.
(** a word whose only bracket is its first character does not reach into the next tag *)
Lemma no_reach (p x y z : str) : clean (tl p) -> x <> [] -> x ++ 60%N :: y = p ++ z -> exists u, x = p ++ u.
Proof.
  intros C N E. destruct (splits _ _ _ _ E) as [(u & U & -> & E')|[(-> & _)|(u & _ & -> & _)]]; [|exists []; now rewrite app_nil_r|eauto]. exfalso.
  destruct u as [|c u]; [congruence|]. injection E' as <- _. destruct x as [|d x]; [congruence|]. cbn [app tl] in C. unfold clean in C. rewrite forallb_app in C. cbn [forallb] in C. apply andb_true_iff in C as (_ & C). discriminate.
Qed.
Lemma open_head n t : opening n t -> exists u, t = py "<cds." ++ u.
Proof. intros [->|(c & _ & ->)]; eauto. Qed.
Definition letters (n : str) : Prop := forallb is_letter n = true.
Lemma name_letters n : In n tag_names -> letters n.
Proof. intros H. enough (forallb (forallb is_letter) tag_names = true) as K by (rewrite forallb_forall in K; now apply K). vm_compute. reflexivity. Qed.
Lemma letters_clean n : letters n -> clean n.
Proof. intros H. unfold clean, letters in *. rewrite forallb_forall in *. intros c I. apply H in I. unfold not_lt. destruct (N.eqb_spec c 60) as [->|]; [discriminate|auto]. Qed.
Lemma open_tail n t : In n tag_names -> opening n t -> clean (tl t).
Proof.
  intros N O. apply name_letters, letters_clean in N. destruct O as [->|(c & S & ->)]; cbn [py app tl]; (apply (clean_app (py "cds.")); [reflexivity|]); apply clean_app; auto; [reflexivity|].
  destruct (space_quiet c S) as (Q & _). unfold clean. cbn. now rewrite Q.
Qed.
Lemma space_letter c : is_space c = true -> is_letter c = false.
Proof.
  intros H. destruct (is_letter c) eqn:E; auto. exfalso. unfold is_letter, in_range in E. apply orb_true_iff in E.
  assert ((65 <= c <= 90) \/ (97 <= c <= 122))%N as Q by (destruct E as [E|E]; apply andb_true_iff in E as (A & B); apply N.leb_le in A; apply N.leb_le in B; [left|right]; split; assumption).
  assert (forallb (fun k => negb (is_space (N.of_nat k))) (List.seq 65 58) = true) as K by (vm_compute; reflexivity). rewrite forallb_forall in K. assert (In (N.to_nat c) (List.seq 65 58)) as I by (apply in_seq; lia). apply K in I. rewrite N2Nat.id, H in I. discriminate I.
Qed.
Lemma open_same n t n' t' b b' : In n tag_names -> In n' tag_names -> opening n t -> opening n' t' -> t ++ b = t' ++ b' -> n = n' /\ t = t'.
Proof.
  intros N N' O O' E. apply name_letters in N, N'. unfold letters in *.
  assert (exists x, t ++ b = py "<cds." ++ n ++ x /\ forall c v, x = c :: v -> is_letter c = false) as (x & X & Lx). { destruct O as [->|(c & S & ->)]; rewrite <- !app_assoc; eexists; (split; [reflexivity|]); cbn [py app]; intros d v [= <- _]; [reflexivity|now apply space_letter]. }
  assert (exists x, t' ++ b' = py "<cds." ++ n' ++ x /\ forall c v, x = c :: v -> is_letter c = false) as (x' & X' & Lx'). { destruct O' as [->|(c & S & ->)]; rewrite <- !app_assoc; eexists; (split; [reflexivity|]); cbn [py app]; intros d v [= <- _]; [reflexivity|now apply space_letter]. }
  rewrite E, X' in X. apply app_inv_head in X. assert (n' = n) as -> by (eapply run_split; [exact N'|exact N| | |exact X]; auto). split; auto.
  destruct O as [->|(c & S & ->)], O' as [->|(c' & S' & ->)]; auto; rewrite <- !app_assoc in E; do 2 apply app_inv_head in E; cbn [py app] in E; [injection E as <- _; discriminate|injection E as -> _; discriminate|]. injection E as -> _. reflexivity.
Qed.
Lemma first_tag a n t b : plain a -> In n tag_names -> opening n t -> exists o, re_search (rx_re re_tagged_citation) (a ++ t ++ b) = Some o /\ m_start o = length a /\ m_end o = length a + length t
  /\ g_str (a ++ t ++ b) o 1 = n /\ grp_or_empty re_tagged_citation (a ++ t ++ b) o "ibid" = (if eqs n (py "JOURNALibid") then py "ibid" else []).
Proof.
  intros P N O. destruct (re_search (rx_re re_tagged_citation) (a ++ t ++ b)) as [o|] eqn:S; [|apply search_none in S; elim (S n t a b N O eq_refl)].
  exists o. split; auto. apply search_tag in S as (a' & n' & t' & b' & E & N' & O' & U & Ms & Me & G1 & G2). destruct (splits _ _ _ _ E) as [(z & Z & -> & E')|[(-> & E')|(z & Z & -> & E')]].
  - exfalso. destruct (open_head _ _ O') as (u & Eu). assert (t' ++ b' = 60%N :: py "cds." ++ u ++ b') as Q by (rewrite Eu, <- app_assoc; reflexivity). rewrite Q in E'. symmetry in E'.
    destruct (no_reach t z _ b (open_tail _ _ N O) Z E') as (v & ->). exact (U n t a v N O eq_refl).
  - destruct (open_same n t n' t' b b' N N' O O' E') as (<- & <-). auto.
  - exfalso. destruct (open_head _ _ O) as (u & Eu). assert (t ++ b = 60%N :: py "cds." ++ u ++ b) as Q by (rewrite Eu, <- app_assoc; reflexivity). rewrite Q in E'.
    destruct (open_head _ _ O') as (u' & Eu'). rewrite Eu', <- app_assoc in E'. symmetry in E'. destruct (no_reach (py "<cds.") z _ _ eq_refl Z E') as (v & ->). exact (proj1 (P a' v) eq_refl).
Qed.
Lemma plain_untagged a : plain a -> untagged a.
Proof. intros P n t u v _ O ->. destruct (open_head _ _ O) as (w & ->). apply (proj1 (P u (w ++ v))). now rewrite <- app_assoc. Qed.
Lemma first_closing n c rest : plain c -> find_sub (closing n) (c ++ closing n ++ rest) = Some (length c).
Proof.
  intros P. destruct (find_sub (closing n) (c ++ closing n ++ rest)) as [i|] eqn:F; [|elim (find_sub_none _ _ F c rest eq_refl)]. f_equal.
  pose proof (find_sub_least _ _ _ F c rest eq_refl) as L. apply find_closing in F as (c' & rest' & E & <- & _). destruct (splits _ _ _ _ E) as [(z & Z & -> & E')|[(-> & _)|(z & Z & -> & E')]]; auto; exfalso.
  - rewrite app_length in L. destruct z; [congruence|cbn in L; lia].
  - unfold closing in E'. rewrite <- !app_assoc in E'. symmetry in E'. change (py "</cds." ++ n ++ py ">" ++ rest) with (60%N :: py "/cds." ++ n ++ py ">" ++ rest) in E'. destruct (no_reach (py "</cds.") z _ _ eq_refl Z E') as (v & ->). exact (proj2 (P c' v) eq_refl).
Qed.
(** ** One item *)
Definition one_url (i : item) : list (str * str) := match i with Url u d => [(u, d)] | _ => [] end.
Definition one_doi (i : item) : list str := match i with Doi d => [d] | _ => [] end.
Definition done (s s' : pstate) (a : str) (i : item) (rest : str) : Prop :=
  ps_line s' = rest /\ ps_urls s = one_url i ++ ps_urls s' /\ ps_dois s = one_doi i ++ ps_dois s' /\
  match element (ps_misc s ++ a) i with inl e => ps_misc s' = [] /\ ps_els s' = ps_els s ++ [e] | inr m => ps_misc s' = m /\ ps_els s' = ps_els s end.
Lemma tag_opening n t : tag n t = (py "<cds." ++ py n ++ py ">") ++ t ++ closing (py n). Proof. reflexivity. Qed.
Section Item.
Context (s : pstate) (o : mobj) (a n c rest : str) (L : ps_line s = a ++ (py "<cds." ++ n ++ py ">") ++ c ++ closing n ++ rest)
  (Ms : m_start o = length a) (Me : m_end o = length a + length (py "<cds." ++ n ++ py ">")) (P : plain c).
Local Notation misc := (ps_misc s ++ a).
Lemma find_it : find_from (closing n) (ps_line s) (m_end o) = Some (m_end o + length c).
Proof. rewrite (find_open s o a _ _ L Me), first_closing by exact P. reflexivity. Qed.
Lemma slice_it : slice (m_end o) (m_end o + length c) (ps_line s) = c.
Proof. rewrite (slice_more s o a _ _ L Ms Me), firstn_app, firstn_all, Nat.sub_diag. cbn. apply app_nil_r. Qed.
Lemma skip_it : skipn (m_end o + length c + length (closing n)) (ps_line s) = rest.
Proof. rewrite <- Nat.add_assoc, (skip_more s o a _ _ L Me), app_assoc, <- app_length, skipn_app, skipn_all, Nat.sub_diag. reflexivity. Qed.
Lemma skip_open_it : skipn (m_end o) (ps_line s) = c ++ closing n ++ rest. Proof. exact (skip_open s o a _ _ L Me). Qed.
Lemma report_it arxiv : report_step s o misc (closing n) arxiv = mkps rest [] (ps_urls s) (ps_dois s) (add_reportnum (ps_counts s))
  (ps_els s ++ [mkel REPORTNUMBER misc ((Kreport_num, VS c) :: if arxiv then [(Kis_arxiv, VB true)] else [])]).
Proof. unfold report_step. rewrite find_it, slice_it, skip_it. destruct arxiv; reflexivity. Qed.
Lemma misc_it : misc_step s o misc (closing n) = mkps rest (misc ++ c) (ps_urls s) (ps_dois s) (ps_counts s) (ps_els s).
Proof. unfold misc_step, convert_unusable_tag_to_misc. rewrite find_it, slice_it, skip_it. reflexivity. Qed.
Lemma subfield_it t k : subfield_step s o misc t n k = mkps rest [] (ps_urls s) (ps_dois s) (ps_counts s) (ps_els s ++ [mkel t misc [(k, VS c)]]).
Proof.
  unfold subfield_step, map_tag_to_subfield. rewrite skip_open_it. change (py "</cds." ++ n ++ py ">") with (closing n). rewrite first_closing by exact P.
  rewrite firstn_app, firstn_all, Nat.sub_diag, app_assoc, <- app_length, skipn_app, skipn_all, Nat.sub_diag. cbn [firstn skipn app]. rewrite app_nil_r. reflexivity.
Qed.
Lemma auth_it k : In k ["stnd"; "etal"; "incl"]%string -> n = py ("AUTH" ++ k) ->
  auth_step s o misc (py k) = mkps rest [] (ps_urls s) (ps_dois s) (add_auth (ps_counts s)) (ps_els s ++ [mkel AUTH misc [(Kauth_txt, VS c); (Kauth_type, VS (py k))]]).
Proof.
  intros I E. unfold auth_step. assert (py "</cds.AUTH" ++ py k ++ py ">" = closing n) as -> by (rewrite E; reflexivity).
  assert (length (py "</cds.AUTHxxxx>") = length (closing n)) as -> by (rewrite E; destruct I as [<-|[<-|[<-|[]]]]; reflexivity). rewrite find_it, slice_it, skip_it. reflexivity.
Qed.
Lemma title_it (ibid : bool) : grp_or_empty re_tagged_citation (ps_line s) o "ibid" = (if ibid then py "ibid" else []) -> n = py (if ibid then "JOURNALibid" else "JOURNAL") -> ~ begins numeration rest ->
  journal_step s o misc = Ok (mkps rest (misc ++ c) (ps_urls s) (ps_dois s) (ps_counts s) (ps_els s)).
Proof.
  intros G E B. unfold journal_step. rewrite G. match goal with |- context [nonempty ?x] => assert (nonempty x = ibid) as -> by (destruct ibid; reflexivity) end. cbn zeta.
  assert ((if ibid then py "</cds.JOURNALibid>" else py "</cds.JOURNAL>") = closing n) as -> by (rewrite E; destruct ibid; reflexivity).
  rewrite find_it, slice_it, skip_it, read_no_num by exact B. reflexivity.
Qed.
Lemma journal_it (ibid : bool) w fs more rest' : grp_or_empty re_tagged_citation (ps_line s) o "ibid" = (if ibid then py "ibid" else []) -> n = py (if ibid then "JOURNALibid" else "JOURNAL") ->
  rest = w ++ flat_map fst more ++ rest' -> numeration [] w [] fs -> Forall (fun n => further [] (fst n) [] (snd n)) more -> ~ begins further rest' ->
  exists cs, journal_step s o misc = Ok (mkps rest' [] (ps_urls s) (ps_dois s) cs (ps_els s ++
    [mkel JOURNAL misc [(Ktitle, VS c); (Kvolume, VS (volume_of fs)); (Kyear, VS (year_of fs)); (Kpage, VS (page_of fs)); (Kis_ibid, VB ibid); (Kextra_ibids, VIbids (ibids c more))]])).
Proof.
  intros G E R N M B. unfold journal_step. rewrite G. match goal with |- context [nonempty ?x] => assert (nonempty x = ibid) as -> by (destruct ibid; reflexivity) end. cbn zeta.
  assert ((if ibid then py "</cds.JOURNALibid>" else py "</cds.JOURNAL>") = closing n) as -> by (rewrite E; destruct ibid; reflexivity).
  rewrite find_it, slice_it, skip_it, R. destruct (read_num w (flat_map fst more ++ rest') fs N) as (q & v & -> & Q & V & S & Y & Pg). rewrite V. cbn [bind]. rewrite Pg. cbn [bind]. rewrite S, Y, Q, skipn_app, skipn_all, Nat.sub_diag. cbn [app skipn].
  rewrite read_ibids by auto. cbn [bind]. eexists. reflexivity.
Qed.
End Item.

Lemma tag_found s a n c x : ps_line s = a ++ ((py "<cds." ++ n ++ py ">") ++ c ++ closing n) ++ x -> plain a -> In n tag_names ->
  exists o, re_search (rx_re re_tagged_citation) (ps_line s) = Some o /\ m_start o = length a /\ m_end o = length a + length (py "<cds." ++ n ++ py ">") /\ g_str (ps_line s) o 1 = n
  /\ grp_or_empty re_tagged_citation (ps_line s) o "ibid" = (if eqs n (py "JOURNALibid") then py "ibid" else []) /\ firstn (m_start o) (ps_line s) = a
  /\ ps_line s = a ++ (py "<cds." ++ n ++ py ">") ++ c ++ closing n ++ x.
Proof.
  intros L P N. rewrite <- (app_assoc (py "<cds." ++ n ++ py ">")) in L. rewrite <- (app_assoc c) in L. destruct (first_tag a n (py "<cds." ++ n ++ py ">") (c ++ closing n ++ x) P N (or_introl eq_refl)) as (o & S & Ms & Me & G1 & G2). rewrite <- L in S, G1, G2.
  exists o. split; auto. split; auto. split; auto. split; auto. split; auto. split; auto. exact (before_open s o a _ _ L Ms).
Qed.
Lemma id_found s a n x : ps_line s = a ++ (py "<cds." ++ n ++ py " />") ++ x -> plain a -> In n tag_names ->
  exists o, re_search (rx_re re_tagged_citation) (ps_line s) = Some o /\ g_str (ps_line s) o 1 = n /\ firstn (m_start o) (ps_line s) = a /\ skipn (m_end o) (ps_line s) = x.
Proof.
  intros L P N. assert (opening n (py "<cds." ++ n ++ py " />")) as O by (right; exists 32%N; split; reflexivity). destruct (first_tag a n _ x P N O) as (o & S & Ms & Me & G1 & G2). rewrite <- L in S, G1, G2.
  exists o. split; auto. split; auto. split; [exact (before_open s o a _ _ L Ms)|exact (skip_open s o a _ _ L Me)].
Qed.
Ltac inl := cbn [tag_names map In]; tauto.
Ltac found L P H n := destruct (tag_found _ _ (py n) _ _ L P ltac:(inl)) as (o & H & Ms & Me & G1 & G2 & Fn & L').
Lemma item_step s a i rest us ds : ps_line s = a ++ write i ++ rest -> plain a -> item_ok i rest -> ps_urls s = one_url i ++ us -> ps_dois s = one_doi i ++ ds ->
  exists o s', re_search (rx_re re_tagged_citation) (ps_line s) = Some o /\ tag_step s o = Ok s' /\ ps_line s' = rest /\ ps_urls s' = us /\ ps_dois s' = ds /\
  match element (ps_misc s ++ a) i with inl e => ps_misc s' = [] /\ ps_els s' = ps_els s ++ [e] | inr m => ps_misc s' = m /\ ps_els s' = ps_els s end.
Proof.
  intros L P K U D. destruct i as [t|t|u d|d|k t|t|t|t|t|k t|ib t|ib t [w fs] more]; cbn [write name_of one_url one_doi app element item_ok] in *.
  - found L P H "REPORTNUMBER"%string. exists o. eexists. split; [exact H|]. unfold tag_step. rewrite G1, Fn. split; [exact (f_equal Ok (report_it s o a _ t rest L' Ms Me K false))|]. cbn. auto.
  - found L P H "ARXIV"%string. exists o. eexists. split; [exact H|]. unfold tag_step. rewrite G1, Fn. split; [exact (f_equal Ok (report_it s o a _ t rest L' Ms Me K true))|]. cbn. auto.
  - destruct (id_found s a (py "URL") rest L P ltac:(inl)) as (o & H & G1 & Fn & Sk). exists o. exists (mkps rest [] us ds (add_url (ps_counts s)) (ps_els s ++ [mkel URL (ps_misc s ++ a) [(Kurl_string, VS u); (Kurl_desc, VS d)]])). split; [exact H|]. unfold tag_step. rewrite G1, Fn.
    split; [|cbn; auto]. refine (eq_trans (_ : _ = url_step s o (ps_misc s ++ a)) _); [reflexivity|]. unfold url_step. rewrite U, Sk, <- D. reflexivity.
  - destruct (id_found s a (py "DOI") rest L P ltac:(inl)) as (o & H & G1 & Fn & Sk). exists o. exists (mkps rest [] us ds (add_doi (ps_counts s)) (ps_els s ++ [mkel DOI (ps_misc s ++ a) [(Kdoi_string, VS d)]])). split; [exact H|]. unfold tag_step. rewrite G1, Fn.
    split; [|cbn; auto]. refine (eq_trans (_ : _ = doi_step s o (ps_misc s ++ a)) _); [reflexivity|]. unfold doi_step. rewrite D, Sk, <- U. reflexivity.
  - destruct K as (K & I). pose proof I as I'. cbn [In] in I'. assert (In (py ("AUTH" ++ k)) tag_names) as N by (destruct I' as [<-|[<-|[<-|[]]]]; inl). destruct (tag_found _ _ (py ("AUTH" ++ k)) t rest L P N) as (o & H & Ms & Me & G1 & G2 & Fn & L').
    exists o. eexists. split; [exact H|]. unfold tag_step. rewrite G1, Fn. pose proof (auth_it s o a _ t rest L' Ms Me K k I eq_refl) as E. destruct I' as [<-|[<-|[<-|[]]]]; (split; [exact (f_equal Ok E)|]; cbn; auto).
  - found L P H "QUOTED"%string. exists o. eexists. split; [exact H|]. unfold tag_step. rewrite G1, Fn. split; [exact (f_equal Ok (subfield_it s o a _ t rest L' Me K QUOTED Ktitle))|]. cbn. auto.
  - found L P H "ISBN"%string. exists o. eexists. split; [exact H|]. unfold tag_step. rewrite G1, Fn. split; [exact (f_equal Ok (subfield_it s o a _ t rest L' Me K ISBN KISBN))|]. cbn. auto.
  - found L P H "PUBLISHER"%string. exists o. eexists. split; [exact H|]. unfold tag_step. rewrite G1, Fn. split; [exact (f_equal Ok (subfield_it s o a _ t rest L' Me K PUBLISHER Kpublisher))|]. cbn. auto.
  - found L P H "COLLABORATION"%string. exists o. eexists. split; [exact H|]. unfold tag_step. rewrite G1, Fn. split; [exact (f_equal Ok (subfield_it s o a _ t rest L' Me K COLLABORATION Kcollaboration))|]. cbn. auto.
  - destruct K as (K & I). cbn [In] in I. assert (In (py k) tag_names) as N by (destruct I as [<-|[<-|[<-|[<-|[]]]]]; inl). destruct (tag_found _ _ (py k) t rest L P N) as (o & H & Ms & Me & G1 & G2 & Fn & L').
    exists o. eexists. split; [exact H|]. unfold tag_step. rewrite G1, Fn. pose proof (misc_it s o a _ t rest L' Ms Me K) as E. destruct I as [<-|[<-|[<-|[<-|[]]]]]; (split; [exact (f_equal Ok E)|]; cbn; auto).
  - destruct K as (K & B). set (n := if ib then "JOURNALibid"%string else "JOURNAL"%string). assert (In (py n) tag_names) as N by (subst n; destruct ib; inl).
    assert (ps_line s = a ++ tag n t ++ rest) as L0 by (rewrite L; subst n; destruct ib; reflexivity). destruct (tag_found _ _ (py n) t rest L0 P N) as (o & H & Ms & Me & G1 & G2 & Fn & L').
    exists o. eexists. split; [exact H|]. unfold tag_step. rewrite G1, Fn. assert (grp_or_empty re_tagged_citation (ps_line s) o "ibid" = (if ib then py "ibid" else [])) as G3 by (rewrite G2; subst n; destruct ib; reflexivity).
    pose proof (title_it s o a _ t rest L' Ms Me K ib G3 ltac:(subst n; destruct ib; reflexivity) B) as E. split; [subst n; destruct ib; exact E|]. cbn. auto.
  - destruct K as (K & Nu & M & B). cbn [fst snd] in *. set (n := if ib then "JOURNALibid"%string else "JOURNAL"%string). assert (In (py n) tag_names) as N by (subst n; destruct ib; inl).
    assert (ps_line s = a ++ tag n t ++ w ++ flat_map fst more ++ rest) as L0 by (rewrite L, <- !app_assoc; subst n; destruct ib; reflexivity). destruct (tag_found _ _ (py n) t _ L0 P N) as (o & H & Ms & Me & G1 & G2 & Fn & L').
    assert (grp_or_empty re_tagged_citation (ps_line s) o "ibid" = (if ib then py "ibid" else [])) as G3 by (rewrite G2; subst n; destruct ib; reflexivity).
    destruct (journal_it s o a _ t _ L' Ms Me K ib w fs more rest G3 ltac:(subst n; destruct ib; reflexivity) eq_refl Nu M B) as (cs & E).
    exists o. eexists. split; [exact H|]. unfold tag_step. rewrite G1, Fn. split; [subst n; destruct ib; exact E|]. cbn. auto.
Qed.
(** ** The whole line *)
Lemma nonempty_strip cs s : nonempty (strip_chars cs s) = negb (forallb (some_of cs) s).
Proof.
  destruct (nonempty (strip_chars cs s)) eqn:E.
  - destruct (forallb (some_of cs) s) eqn:F; auto. exfalso. enough (strip_chars cs s = []) as Q by (rewrite Q in E; discriminate). unfold strip_chars, strip_by, lstrip_by.
    assert (drop_while (in_set cs) s = []) as ->; [|reflexivity]. clear E. induction s as [|c s IH]; auto. cbn [forallb drop_while] in *. apply andb_true_iff in F as (A & B). assert (in_set cs c = true) as ->; [|auto].
    unfold in_set. apply mem_ch_in. apply existsb_exists in A as (d & I & Q). apply N.eqb_eq in Q as ->. exact I.
  - symmetry. apply negb_false_iff, forallb_forall. intros c I. apply existsb_exists. exists c. split; [exact (strip_chars_empty _ _ E c I)|apply N.eqb_refl].
Qed.
Lemma loop_reads l : forall last s us ds fuel, contents_ok l last -> ps_line s = write_line l last -> ps_urls s = urls_of l ++ us -> ps_dois s = dois_of l ++ ds -> length (ps_line s) <= fuel ->
  exists s', tag_loop fuel s = Ok s' /\ ps_els s ++ elements (ps_misc s) l last = ps_els s' ++ (let misc := ps_misc s' ++ ps_line s' in if nonempty (strip_chars (py " .;,") misc) then [mkel MISC misc []] else []).
Proof.
  induction l as [|[a i] l IH]; intros last s us ds fuel K L U D F.
  - cbn [contents_ok write_line flat_map app] in *. exists s. split.
    + destruct fuel; cbn [tag_loop]; rewrite L; rewrite (proj2 (search_none last) (plain_untagged _ K)); reflexivity.
    + rewrite L, nonempty_strip. cbn [elements]. destruct (forallb _ _); reflexivity.
  - cbn [contents_ok] in K. destruct K as (Pa & Ki & K). unfold write_line in L. cbn [flat_map fst snd] in L. rewrite <- !app_assoc in L. change (flat_map _ l ++ last) with (write_line l last) in L.
    destruct (item_step s a i (write_line l last) (urls_of l ++ us) (dois_of l ++ ds) L Pa Ki) as (o & s' & S & T & L' & U' & D' & E).
    { rewrite U. unfold urls_of. cbn [flat_map snd]. rewrite <- app_assoc. reflexivity. } { rewrite D. unfold dois_of. cbn [flat_map snd]. rewrite <- app_assoc. reflexivity. }
    assert (write i <> []) as Ne. { clear. destruct i as [t|t|u d|d|k t|t|t|t|t|k t|ib t|ib t n more]; cbn [write]; unfold tag; try destruct ib; cbn; discriminate. }
    assert (length (ps_line s') < length (ps_line s)) as Sh. { rewrite L, L', !app_length. destruct (write i); [congruence|cbn; lia]. }
    destruct fuel as [|fuel]; [lia|]. cbn [tag_loop]. rewrite S, T. cbn [bind]. destruct (IH last s' us ds fuel K L' U' D' ltac:(lia)) as (s2 & -> & E2). exists s2. split; auto. refine (eq_trans _ E2).
    cbn [elements]. destruct (element (ps_misc s ++ a) i) as [e|m]; destruct E as (-> & ->); auto. now rewrite <- app_assoc.
Qed.
Lemma parse_written l last us ds : contents_ok l last -> exists c, parse_tagged_reference_line (write_line l last) (dois_of l ++ ds) (urls_of l ++ us) = Ok (elements [] l last, c).
Proof.
  intros K. unfold parse_tagged_reference_line. destruct (loop_reads l last (mkps (write_line l last) [] (urls_of l ++ us) (dois_of l ++ ds) counts0 []) us ds (length (write_line l last)) K eq_refl eq_refl eq_refl (le_n _)) as (s & -> & E). cbn [bind ps_els ps_misc app] in *.
  rewrite E. destruct (nonempty _); rewrite ?app_nil_r; eauto.
Qed.
(** ** Numerations in the examples *)
Lemma num_text s o : re_search (rx_re re_recognised_numeration) s = Some o -> m_end o = length s ->
  exists fs, numeration [] s [] fs /\ volume_of fs = g_str s o 1 ++ g_str s o 2 /\ year_of fs = g_str s o 3 /\ page_of fs = g_str s o 4.
Proof.
  intros S E. assert (forall f f', num_no re_recognised_numeration f = num_no re_recognised_numeration f' -> f = f') as Inj by (apply NumProofs.inj_of; vm_compute; reflexivity).
  pose proof (on_search _ _ _ s num_fair Inj num_reads (fun a w b fs P => proj1 (num_spec a w b fs P))) as M. rewrite S in M. destruct M as (w & b & fs & -> & P & En & G). rewrite En, app_length in E. destruct b; [|cbn in E; lia]. rewrite app_nil_r in *.
  exists fs. split; auto. unfold volume_of, year_of, page_of, g_str. rewrite <- (G Fseries ltac:(discriminate)), <- (G Fvolume ltac:(discriminate)), <- (G Fyear ltac:(discriminate)), <- (G Fpage ltac:(discriminate)). repeat split.
Qed.
Lemma more_text s o : re_match (rx_re re_numeration_no_ibid_txt) s = Some o -> m_end o = length s ->
  exists fs, further [] s [] fs /\ volume_of fs = g_str s o 3 ++ g_str s o 4 /\ year_of fs = g_str s o 5 /\ page_of fs = g_str s o 6.
Proof.
  intros S E. assert (forall f f', num_no re_numeration_no_ibid_txt f = num_no re_numeration_no_ibid_txt f' -> f = f') as Inj by (apply NumProofs.inj_of; vm_compute; reflexivity).
  pose proof (on_match _ _ _ s more_fair Inj more_reads) as M. rewrite S in M. destruct M as (w & b & fs & -> & P & En & G). rewrite En, app_length in E. destruct b; [|cbn in E; lia]. rewrite app_nil_r in *.
  exists fs. split; auto. unfold volume_of, year_of, page_of, g_str. rewrite <- (G Fseries ltac:(discriminate)), <- (G Fvolume ltac:(discriminate)), <- (G Fyear ltac:(discriminate)), <- (G Fpage ltac:(discriminate)). repeat split.
Qed.
Lemma no_num s : re_search (rx_re re_recognised_numeration) s = None -> ~ begins numeration s.
Proof.
  intros S. assert (forall f f', num_no re_recognised_numeration f = num_no re_recognised_numeration f' -> f = f') as Inj by (apply NumProofs.inj_of; vm_compute; reflexivity).
  pose proof (on_search _ _ _ s num_fair Inj num_reads (fun a w b fs P => proj1 (num_spec a w b fs P))) as M. now rewrite S in M.
Qed.
Lemma no_more s : re_match (rx_re re_numeration_no_ibid_txt) s = None -> ~ begins further s.
Proof.
  intros S. assert (forall f f', num_no re_numeration_no_ibid_txt f = num_no re_numeration_no_ibid_txt f' -> f = f') as Inj by (apply NumProofs.inj_of; vm_compute; reflexivity).
  pose proof (on_match _ _ _ s more_fair Inj more_reads) as M. now rewrite S in M.
Qed.
Lemma clean_plain t : clean t -> plain t.
Proof. intros C u v. split; intros ->; unfold clean in C; rewrite forallb_app in C; cbn [py app forallb] in C; apply andb_true_iff in C as (_ & C); discriminate. Qed.
