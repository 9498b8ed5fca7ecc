(** The parser of tagged lines (ParseTagged.v): its tags, that it ends, when it fails, its
    counters and what becomes of the text. *)
From Coq Require Import List Arith NArith Bool String Lia.
From Verif Require Import PyStr ListFacts NumberFacts Elements Regex RegexParse RegexMeta RegexLang RegexWords Patterns ParseTagged RecordProofs MarkerProofs.
Import ListNotations.
Local Notation length := List.length.
Local Notation concat := List.concat.
Local Open Scope nat_scope.
Local Arguments is_space : simpl never.

(** ** Tags *)
Definition tag_names : list str := map py
  ["JOURNAL"; "JOURNALibid"; "VOL"; "YR"; "PG"; "REPORTNUMBER"; "ARXIV"; "SER"; "URL"; "DOI"; "QUOTED"; "ISBN";
   "PUBLISHER"; "COLLABORATION"; "AUTHstnd"; "AUTHetal"; "AUTHincl"]%string.
(** [t] is an opening tag with the name [n]: "<cds.n>" or "<cds.n />" *)
Definition opening (n t : str) : Prop :=
  t = py "<cds." ++ n ++ py ">" \/ exists c, is_space c = true /\ t = py "<cds." ++ n ++ [c] ++ py "/>".
Definition closing (n : str) : str := py "</cds." ++ n ++ py ">".

Definition inner_groups (n : str) : groups :=
  if eqs n (py "JOURNALibid") then [(2, (12, 16))]
  else if prefixb (py "AUTH") n then [(3, (9, 13))] else [].
Definition sp_cls : cls := mkcls false false [CSpace true].
Definition tag_word1 (n : str) : gword :=
  (lit_word (py "<cds.") ++ lit_word n ++ lit_word (py ">"), (1, (5, 5 + length n)) :: inner_groups n).
Definition tag_word2 (n : str) : gword :=
  (lit_word (py "<cds.") ++ lit_word n ++ [sp_cls] ++ lit_word (py "/>"),
   (4, (5 + length n, 7 + length n)) :: (1, (5, 5 + length n)) :: inner_groups n).
Lemma tag_words : gwords (rx_re re_tagged_citation) = Some (flat_map (fun n => [tag_word1 n; tag_word2 n]) tag_names).
Proof. vm_compute. reflexivity. Qed.
Lemma sp_cls_mem c : cls_mem sp_cls c = is_space c.
Proof. unfold cls_mem, sp_cls. cbn [c_neg c_ci c_items existsb item_mem]. destruct (is_space c); reflexivity. Qed.
Lemma reads_word1 n t : reads (fst (tag_word1 n)) t <-> t = py "<cds." ++ n ++ py ">".
Proof.
  cbn [tag_word1 fst]. rewrite reads_app. split.
  - intros (a & b & -> & A & B). apply reads_lits in A as ->. apply reads_app in B as (b1 & b2 & -> & B1 & B2). apply reads_lits in B1 as ->. apply reads_lits in B2 as ->. reflexivity.
  - intros ->. exists (py "<cds."), (n ++ py ">"). split; auto. split; [now apply reads_lits|]. apply reads_app. exists n, (py ">"). split; auto. split; now apply reads_lits.
Qed.
Lemma reads_word2 n t : reads (fst (tag_word2 n)) t <-> exists c, is_space c = true /\ t = py "<cds." ++ n ++ [c] ++ py "/>".
Proof.
  cbn [tag_word2 fst]. rewrite reads_app. split.
  - intros (a & b & -> & A & B). apply reads_lits in A as ->. apply reads_app in B as (b1 & b2 & -> & B1 & B2). apply reads_lits in B1 as ->.
    apply reads_app in B2 as (c1 & c2 & -> & C1 & C2). apply reads_lits in C2 as ->. inversion C1 as [|? c ? ? M R]; subst. inversion R; subst. rewrite sp_cls_mem in M. exists c. auto.
  - intros (c & S & ->). exists (py "<cds."), (n ++ [c] ++ py "/>"). split; auto. split; [now apply reads_lits|]. apply reads_app. exists n, ([c] ++ py "/>"). split; auto. split; [now apply reads_lits|].
    apply reads_app. exists [c], (py "/>"). split; auto. split; [|now apply reads_lits]. constructor; [now rewrite sp_cls_mem|constructor].
Qed.
Lemma tag_mt x x' g' : mt (rx_re re_tagged_citation) x [] x' g' ->
  exists n t, In n tag_names /\ opening n t /\ fwd x t x' /\ lookup_group 1 g' = Some (pos x + 5, pos x + (5 + length n))
    /\ lookup_group 2 g' = (if eqs n (py "JOURNALibid") then Some (pos x + 12, pos x + 16) else None).
Proof.
  intros M. apply (gwords_mt _ _ tag_words) in M as (u & t & I & R & F & ->). apply in_flat_map in I as (n & N & I). exists n, t. split; auto.
  assert (lookup_group 2 (shift (pos x) (inner_groups n)) = if eqs n (py "JOURNALibid") then Some (pos x + 12, pos x + 16) else None) as G.
  { unfold inner_groups. destruct (eqs n (py "JOURNALibid")); [reflexivity|]. destruct (prefixb (py "AUTH") n); reflexivity. }
  destruct I as [<-|[<-|[]]].
  - apply reads_word1 in R. split; [now left|]. split; auto. rewrite app_nil_r. split; [reflexivity|]. exact G.
  - apply reads_word2 in R. split; [now right|]. split; auto. rewrite app_nil_r. split; [reflexivity|]. exact G.
Qed.
Lemma tag_mt_back n t x x' : In n tag_names -> opening n t -> fwd x t x' -> exists g', mt (rx_re re_tagged_citation) x [] x' g'.
Proof.
  intros N O F. destruct O as [O|O].
  - eexists. apply (gwords_mt _ _ tag_words). exists (tag_word1 n), t. split; [apply in_flat_map; exists n; split; auto; now left|]. split; [now apply reads_word1|]. split; auto.
  - eexists. apply (gwords_mt _ _ tag_words). exists (tag_word2 n), t. split; [apply in_flat_map; exists n; split; auto; right; now left|]. split; [now apply reads_word2|]. split; auto.
Qed.
Lemma tag_productive : productive (rx_re re_tagged_citation) = true. Proof. vm_compute. reflexivity. Qed.
(** no opening tag in a text *)
Definition untagged (s : str) : Prop := forall n t a b, In n tag_names -> opening n t -> s <> a ++ t ++ b.
Lemma search_tag line o : re_search (rx_re re_tagged_citation) line = Some o ->
  exists a n t b, line = a ++ t ++ b /\ In n tag_names /\ opening n t /\ untagged a /\ m_start o = length a /\ m_end o = length a + length t
    /\ g_str line o 1 = n /\ grp_or_empty re_tagged_citation line o "ibid" = (if eqs n (py "JOURNALibid") then py "ibid" else []).
Proof.
  intros H. pose proof (re_search_first _ _ _ H tag_productive) as First. apply re_search_some in H as (a & w & b & x' & -> & F & M & S & E).
  apply tag_mt in M as (n & t & N & O & F' & G1 & G2). assert (w = t) as <- by (eapply fwd_fun; eauto). clear F'.
  exists a, n, w, b. split; auto. split; auto. split; auto. split.
  { intros n' t' a' b' N' O' ->. rewrite <- !app_assoc in First.
    destruct (tag_mt_back n' t' (here a' (t' ++ b' ++ w ++ b)) (here (a' ++ t') (b' ++ w ++ b)) N' O' (fwd_here _ _ _)) as (g' & M').
    apply (First a' (t' ++ b' ++ w ++ b) _ _ eq_refl) in M'; auto. rewrite S, !app_length.
    assert (0 < length t') by (destruct O' as [->|(c & _ & ->)]; rewrite app_length; cbn; lia). lia. }
  split; auto. split; auto.
  cbn [pos here] in G1, G2. split.
  - unfold g_str, g_text, g_span. cbn [Nat.eqb]. rewrite G1. unfold slice. replace (length a + (5 + length n) - (length a + 5)) with (length n) by lia.
    assert (exists r, w = py "<cds." ++ n ++ r) as (r & ->) by (destruct O as [->|(c & _ & ->)]; eauto).
    rewrite skipn_app, skipn_all2 by lia. replace (length a + 5 - length a) with 5 by lia. rewrite <- !app_assoc. cbn. now rewrite firstn_app, firstn_all, Nat.sub_diag, app_nil_r.
  - unfold grp_or_empty, grp, group_named. change (assoc_str (py "ibid") (rx_names re_tagged_citation)) with (Some 2). unfold g_text, g_span. cbn [Nat.eqb]. rewrite G2.
    destruct (eqs n (py "JOURNALibid")) eqn:Q; [|reflexivity]. apply eqs_eq in Q. subst n.
    assert (exists r, w = py "<cds.JOURNALibid" ++ r) as (r & ->) by (destruct O as [->|(c & _ & ->)]; eexists; reflexivity).
    unfold slice. rewrite skipn_app, skipn_all2 by lia. replace (length a + 12 - length a) with 12 by lia. replace (length a + 16 - (length a + 12)) with 4 by lia. reflexivity.
Qed.
Lemma search_none line : re_search (rx_re re_tagged_citation) line = None <-> untagged line.
Proof.
  split.
  - intros H n t a b N O ->. destruct (tag_mt_back n t (here a (t ++ b)) (here (a ++ t) b) N O (fwd_here _ _ _)) as (g' & M).
    eapply (re_search_none _ _ H tag_productive a (t ++ b)); eauto.
  - intros H. destruct (re_search _ _) as [o|] eqn:E; auto. apply search_tag in E as (a & n & t & b & -> & N & O & _). exfalso. eapply H; eauto.
Qed.

(** ** Numerations *)
Definition tagged (n c : str) : str := (py "<cds." ++ n ++ py ">") ++ c ++ closing n.
(** the characters of "Ser.", "and", the series and the separators *)
Definition num_seps : str := py "SerandABCDEFGHIV.,:;".
(** a sequence of volumes, years and pages with nothing but separators between them *)
Inductive numeration : str -> Prop :=
| nm_nil : numeration []
| nm_cons sep n c rest : forallb (blank_or num_seps) sep = true -> In n (map py ["VOL"; "YR"; "PG"]%string) -> ~ In 60%N c -> numeration rest ->
    numeration (sep ++ tagged n c ++ rest).
Lemma numeration_app a b : numeration a -> numeration b -> numeration (a ++ b).
Proof. induction 1; intros B; auto. rewrite <- !app_assoc. now constructor; auto. Qed.
Lemma mts_tagged n mid x g x' g' : forallb (avoids 60%N) mid = true ->
  mts (map Cls (lit_word (py "<cds." ++ n ++ py ">")) ++ mid ++ map Cls (lit_word (closing n))) x g x' g' ->
  exists c, fwd x (tagged n c) x' /\ ~ In 60%N c.
Proof.
  intros A H. apply mts_app in H as (y & h & H1 & H). apply mts_app in H as (z & i & H2 & H3). apply mts_lits in H1 as (F1 & ->). apply mts_lits in H3 as (F3 & ->).
  destruct (avoids_texts _ _ _ _ _ _ H2 A) as (c & F2 & C). exists c. split; auto. unfold tagged. eapply fwd_app; eauto. eapply fwd_app; eauto.
Qed.
Definition num_seq (sep mid : list re) (n : str) : list re :=
  sep ++ map Cls (lit_word (py "<cds." ++ n ++ py ">")) ++ mid ++ map Cls (lit_word (closing n)).
Lemma mts_num sep mid n x g x' g' : forallb (only num_seps) sep = true -> forallb (avoids 60%N) mid = true -> In n (map py ["VOL"; "YR"; "PG"]%string) ->
  mts (num_seq sep mid n) x g x' g' -> exists w, fwd x w x' /\ numeration w /\ w <> [].
Proof.
  intros S A N H. unfold num_seq in H. apply mts_app in H as (y & h & H1 & H). destruct (only_texts _ _ _ _ _ _ H1 S) as (s & F1 & P).
  apply mts_tagged in H as (c & F2 & C); auto. exists (s ++ tagged n c). split; [eapply fwd_app; eauto|]. split.
  - rewrite <- (app_nil_r (tagged n c)). constructor; auto. constructor.
  - intros E. apply app_eq_nil in E as [_ E]. discriminate.
Qed.

Definition fac := factors (rx_re re_recognised_numeration).
Definition year_part : re := match nth_error fac 30 with Some (Rep true 0 (Some 1) a) => a | _ => Eps end.
Definition sub_list {A} (i n : nat) (l : list A) : list A := firstn n (skipn i l).
Lemma recognised_shape : fac = num_seq (firstn 9 fac) (sub_list 18 1 fac) (py "VOL") ++ sub_list 29 1 fac ++ [Rep true 0 (Some 1) year_part] ++ num_seq (sub_list 31 2 fac) (sub_list 41 1 fac) (py "PG").
Proof. vm_compute. reflexivity. Qed.
Lemma year_shape : factors year_part = num_seq (firstn 1 (factors year_part)) (sub_list 9 3 (factors year_part)) (py "YR").
Proof. vm_compute. reflexivity. Qed.
Lemma mts_opt_num r sep mid n x g x' g' : factors r = num_seq sep mid n -> forallb (only num_seps) sep = true -> forallb (avoids 60%N) mid = true ->
  In n (map py ["VOL"; "YR"; "PG"]%string) -> mt (Rep true 0 (Some 1) r) x g x' g' -> exists w, fwd x w x' /\ numeration w.
Proof.
  intros E S A N H. apply mt_opt_inv in H as [(-> & ->)|H]; [exists []; split; [apply fwd_refl|constructor]|].
  apply mt_factors in H. rewrite E in H. apply mts_num in H as (w & F & W & _); eauto.
Qed.
Lemma numeration_sep s w : forallb (blank_or num_seps) s = true -> numeration w -> w <> [] -> numeration (s ++ w).
Proof.
  intros S W Ne. destruct W as [|sep n c rest P N C R]; [congruence|]. rewrite app_assoc. constructor; auto. now apply forallb_cat.
Qed.
Lemma recognised_text x g x' g' : mt (rx_re re_recognised_numeration) x g x' g' -> pos x = 0 /\ exists w, fwd x w x' /\ numeration w /\ w <> [].
Proof.
  intros H. split.
  { apply mt_factors in H. change (factors (rx_re re_recognised_numeration)) with (Bos :: skipn 1 fac) in H. inversion H as [|? ? ? ? y h ? ? A B]; subst. inversion A; subst. auto. }
  apply mt_factors in H. fold fac in H. rewrite recognised_shape in H.
  apply mts_app in H as (y1 & h1 & H1 & H). apply mts_app in H as (y2 & h2 & H2 & H). apply mts_app in H as (y3 & h3 & H3 & H4).
  apply mts_num in H1 as (w1 & F1 & W1 & Ne1); [|vm_compute; reflexivity|vm_compute; reflexivity|now left].
  apply (only_texts num_seps) in H2 as (w2 & F2 & W2); [|vm_compute; reflexivity].
  apply mts_one in H3. apply (mts_opt_num _ _ _ _ _ _ _ _ year_shape) in H3 as (w3 & F3 & W3); [|vm_compute; reflexivity|vm_compute; reflexivity|right; now left].
  apply mts_num in H4 as (w4 & F4 & W4 & Ne4); [|vm_compute; reflexivity|vm_compute; reflexivity|right; right; now left].
  exists (w1 ++ w2 ++ w3 ++ w4). split; [repeat (eapply fwd_app; eauto)|]. split.
  - apply numeration_app; auto. apply numeration_sep; auto; [now apply numeration_app|]. intros E. apply app_eq_nil in E as [_ E]. auto.
  - intros E. apply app_eq_nil in E as [E _]. auto.
Qed.
Lemma recognised_search line o : re_search (rx_re re_recognised_numeration) line = Some o ->
  exists w rest, line = w ++ rest /\ numeration w /\ w <> [] /\ m_start o = 0 /\ m_end o = length w.
Proof.
  intros H. apply re_search_some in H as (a & w & b & x' & -> & F & M & S & E). apply recognised_text in M as (P & w' & F' & W & Ne).
  assert (w = w') as <- by (eapply fwd_fun; eauto). cbn in P. destruct a; [|discriminate]. exists w, b. split; auto.
Qed.
Lemma recognised_groups line o : re_search (rx_re re_recognised_numeration) line = Some o ->
  (exists v, grp_need re_recognised_numeration line o "vol" = Ok v) /\ (exists v, grp_need re_recognised_numeration line o "pg" = Ok v).
Proof.
  intros H. apply re_search_ok in H. unfold grp_need. split.
  - destruct (in_all_text line re_recognised_numeration o (py "vol") eq_refl H) as (i & a & b & _ & _ & _ & ->). eauto.
  - destruct (in_all_text line re_recognised_numeration o (py "pg") eq_refl H) as (i & a & b & _ & _ & _ & ->). eauto.
Qed.

Definition noibid := match rx_re re_numeration_no_ibid_txt with Cat Bos (Grp 1 a) => a | _ => Eps end.
Definition nfac := factors noibid.
Lemma noibid_shape : rx_re re_numeration_no_ibid_txt = Cat Bos (Grp 1 noibid). Proof. vm_compute. reflexivity. Qed.
Lemma noibid_factors : nfac = num_seq (firstn 5 nfac) (sub_list 14 1 nfac) (py "VOL")
  ++ num_seq (sub_list 25 1 nfac) (sub_list 34 3 nfac) (py "YR") ++ num_seq (sub_list 46 1 nfac) (sub_list 55 1 nfac) (py "PG").
Proof. vm_compute. reflexivity. Qed.
Lemma noibid_text x g x' g' : mt (rx_re re_numeration_no_ibid_txt) x g x' g' -> exists w, fwd x w x' /\ numeration w /\ w <> [].
Proof.
  rewrite noibid_shape. intros H. apply mt_cat_iff in H as (y & h & A & H). inversion A; subst. apply mt_grp_iff in H as (h' & H & _).
  apply mt_factors in H. fold nfac in H. rewrite noibid_factors in H.
  apply mts_app in H as (y1 & h1 & H1 & H). apply mts_app in H as (y2 & h2 & H2 & H3).
  apply mts_num in H1 as (w1 & F1 & W1 & Ne1); [|vm_compute; reflexivity|vm_compute; reflexivity|now left].
  apply mts_num in H2 as (w2 & F2 & W2 & Ne2); [|vm_compute; reflexivity|vm_compute; reflexivity|right; now left].
  apply mts_num in H3 as (w3 & F3 & W3 & Ne3); [|vm_compute; reflexivity|vm_compute; reflexivity|right; right; now left].
  exists (w1 ++ w2 ++ w3). split; [repeat (eapply fwd_app; eauto)|]. split.
  - apply numeration_app; auto. apply numeration_app; auto.
  - intros E. apply app_eq_nil in E as [E _]. auto.
Qed.
(** the loop over further numerations ends and takes numerations only *)
Lemma extra_ibids_spec : forall fuel title line, length line <= fuel ->
  exists l w rest, extra_ibids_loop fuel title line = Ok (l, rest) /\ line = w ++ rest /\ numeration w.
Proof.
  induction fuel as [|f IH]; intros title line L; cbn [extra_ibids_loop].
  - destruct line; [|cbn in L; lia]. exists [], [], []. split; [vm_compute; reflexivity|]. split; auto. constructor.
  - destruct (re_match (rx_re re_numeration_no_ibid_txt) line) as [o|] eqn:M.
    + pose proof (re_match_ok _ _ _ M) as (O & _). unfold grp_need.
      destruct (in_all_text line re_numeration_no_ibid_txt o (py "vol") eq_refl O) as (i1 & a1 & b1 & _ & _ & _ & ->).
      destruct (in_all_text line re_numeration_no_ibid_txt o (py "yr") eq_refl O) as (i2 & a2 & b2 & _ & _ & _ & ->).
      destruct (in_all_text line re_numeration_no_ibid_txt o (py "pg") eq_refl O) as (i3 & a3 & b3 & _ & _ & _ & ->). cbn [bind].
      apply re_match_some in M as (w & x' & F & T & _ & E & W1 & W2). apply noibid_text in T as (w' & F' & N & Ne). assert (w = w') as <- by (eapply fwd_fun; eauto).
      destruct (IH [] (skipn (m_end o) line)) as (l & w2 & rest & -> & Q & N2).
      { rewrite skipn_length. assert (0 < length w) by (destruct w; [congruence|cbn; lia]). lia. }
      cbn [bind]. eexists _, (w ++ w2), rest. split; [reflexivity|]. split; [|now apply numeration_app].
      rewrite <- app_assoc, <- Q, <- W1. symmetry. apply firstn_skipn.
    + exists [], [], line. split; auto. split; auto. constructor.
Qed.

(** ** What one iteration takes off the line *)
(** the value that an element takes from the line, or from the identified URLs and DOIs *)
Definition main_key (t : ety) : key :=
  match t with
  | REPORTNUMBER => Kreport_num | URL => Kurl_string | DOI => Kdoi_string | AUTH => Kauth_txt | ISBN => KISBN
  | PUBLISHER => Kpublisher | COLLABORATION => Kcollaboration | _ => Ktitle
  end.
Definition content (e : el) : str := match get (main_key (e_type e)) e with Some (VS s) => s | _ => [] end.
Definition items : list (str * ety) :=
  [(py "REPORTNUMBER", REPORTNUMBER); (py "ARXIV", REPORTNUMBER); (py "AUTHstnd", AUTH); (py "AUTHetal", AUTH); (py "AUTHincl", AUTH);
   (py "QUOTED", QUOTED); (py "ISBN", ISBN); (py "PUBLISHER", PUBLISHER); (py "COLLABORATION", COLLABORATION)].
Definition strict_names : list str := map py ["QUOTED"; "ISBN"; "PUBLISHER"; "COLLABORATION"]%string.
(** [c] ends at the nearest closing tag *)
Definition nearest (n c : str) : Prop := forall u v, c ++ closing n = u ++ closing n ++ v -> v = [].
Definition no_closing (n s : str) : Prop := forall u v, s <> u ++ closing n ++ v.
(** [removed p k e rest]: the text [p], followed by [rest], is taken off the line; of it [k]
    is kept as misc text and [e] as an element (its type and value) *)
Inductive removed : str -> str -> option (ety * str) -> str -> Prop :=
| tk_alone n t rest : In n tag_names -> opening n t -> no_closing n rest -> removed t [] None rest
| tk_misc n t c rest : In n (map py ["SER"; "VOL"; "YR"; "PG"; "JOURNAL"; "JOURNALibid"]%string) -> opening n t -> nearest n c ->
    removed (t ++ c ++ closing n) c None rest
| tk_item n ty t c rest : In (n, ty) items -> opening n t -> nearest n c -> removed (t ++ c ++ closing n) [] (Some (ty, c)) rest
| tk_id n ty t c rest : In (n, ty) [(py "URL", URL); (py "DOI", DOI)] -> opening n t -> removed t [] (Some (ty, c)) rest
| tk_journal n t c num rest : In n (map py ["JOURNAL"; "JOURNALibid"]%string) -> opening n t -> nearest n c -> numeration num -> num <> [] ->
    removed (t ++ c ++ closing n ++ num) [] (Some (JOURNAL, c)) rest.
(** an opening tag without closing tag, and at most as many characters as it has *)
Definition dropped (p : str) (rest : str) : Prop :=
  exists n t d, In n strict_names /\ opening n t /\ p = t ++ d /\ no_closing n (d ++ rest) /\ length d <= length (py "<cds." ++ n ++ py ">").
Definition taken (p k : str) (e : option (ety * str)) (rest : str) : Prop := removed p k e rest \/ k = [] /\ e = None /\ dropped p rest.

Lemma find_from_app p a b : find_from p (a ++ b) (length a) = option_map (Nat.add (length a)) (find_sub p b).
Proof.
  unfold find_from. rewrite app_length. destruct (Nat.ltb_spec (length a + length b) (length a)); [lia|]. now rewrite skipn_app, skipn_all, Nat.sub_diag.
Qed.
Lemma find_sub_least p : forall s i, find_sub p s = Some i -> forall u v, s = u ++ p ++ v -> i <= length u.
Proof.
  induction s as [|c s IH]; intros i H u v E; cbn in H.
  - destruct (prefixb p []); inversion H; subst. lia.
  - destruct (prefixb p (c :: s)) eqn:P; [inversion H; lia|]. destruct (find_sub p s) as [j|] eqn:F; inversion H; subst.
    destruct u as [|d u]; [cbn in E; assert (prefixb p (c :: s) = true) by (apply prefixb_app; eauto); congruence|].
    injection E as -> ->. specialize (IH j eq_refl u v eq_refl). cbn. lia.
Qed.
Lemma find_closing n b i : find_sub (closing n) b = Some i ->
  exists c rest, b = c ++ closing n ++ rest /\ length c = i /\ nearest n c /\ firstn i b = c /\ skipn (i + length (closing n)) b = rest.
Proof.
  intros H. pose proof (find_sub_least _ _ _ H) as Least. apply find_sub_some in H as (L & E). exists (firstn i b), (skipn (i + length (closing n)) b).
  assert (b = firstn i b ++ closing n ++ skipn (i + length (closing n)) b) as B.
  { rewrite <- E at 1. replace (i + length (closing n)) with (length (closing n) + i) by lia. rewrite <- (firstn_skipn i b) at 1. f_equal.
    rewrite <- (firstn_skipn (length (closing n)) (skipn i b)) at 1. f_equal. rewrite skipn_skipn. f_equal. }
  split; auto. assert (length (firstn i b) = i) as Li by (apply firstn_length_le; lia). split; auto. split; auto.
  intros u v Q. assert (i <= length u) as G.
  { apply (Least u (v ++ skipn (i + length (closing n)) b)). rewrite B at 1. rewrite !app_assoc. f_equal. rewrite <- !app_assoc. exact Q. }
  apply (f_equal (@length _)) in Q. rewrite !app_length, Li in Q. destruct v; auto. cbn in Q. lia.
Qed.
Lemma find_no_closing n b : find_sub (closing n) b = None -> no_closing n b.
Proof. intros H u v. now apply find_sub_none. Qed.

Definition extras (e : el) : nat := match get Kextra_ibids e with Some (VIbids l) => length l | _ => 0 end.
Definition count_el (e : el) (c : counts) : counts :=
  match e_type e with
  | JOURNAL => add_title (S (extras e)) c
  | REPORTNUMBER => add_reportnum c
  | URL => add_url c
  | DOI => add_doi c
  | AUTH => add_auth c
  | MISC => add_misc c
  | _ => c
  end.
(** the state after an iteration that took [p] after [a] *)
Definition stepped (s s' : pstate) (a p k : str) (e : option (ety * str)) : Prop :=
  ps_line s = a ++ p ++ ps_line s' /\ p <> [] /\ taken p k e (ps_line s') /\
  match e with
  | None => ps_misc s' = ps_misc s ++ a ++ k /\ ps_els s' = ps_els s /\ ps_counts s' = ps_counts s /\ ps_urls s' = ps_urls s /\ ps_dois s' = ps_dois s
  | Some (ty, c) =>
    ps_misc s' = [] /\ (exists x, ps_els s' = ps_els s ++ [x] /\ e_type x = ty /\ content x = c /\ e_misc x = ps_misc s ++ a /\ ps_counts s' = count_el x (ps_counts s))
    /\ (if ety_eqb ty URL then exists d, ps_urls s = (c, d) :: ps_urls s' else ps_urls s' = ps_urls s)
    /\ (if ety_eqb ty DOI then ps_dois s = c :: ps_dois s' else ps_dois s' = ps_dois s)
  end.
Lemma opening_ne n t : opening n t -> t <> [].
Proof. intros [->|(c & _ & ->)]; discriminate. Qed.
Section Steps.
Context (s : pstate) (o : mobj) (a n t b : str) (L : ps_line s = a ++ t ++ b) (O : opening n t)
  (Ms : m_start o = length a) (Me : m_end o = length a + length t).
Local Notation misc := (ps_misc s ++ a).
Lemma open_ne : t <> [].
Proof. exact (opening_ne _ _ O). Qed.
Lemma open_app_ne (u : str) : t ++ u <> [].
Proof. pose proof open_ne. destruct t; [congruence|discriminate]. Qed.
Lemma skip_open : skipn (m_end o) (ps_line s) = b.
Proof. rewrite Me, L, app_assoc, <- app_length. rewrite skipn_app, skipn_all, Nat.sub_diag. reflexivity. Qed.
Lemma find_open m : find_from (closing m) (ps_line s) (m_end o) = option_map (Nat.add (m_end o)) (find_sub (closing m) b).
Proof. rewrite Me, L, app_assoc, <- app_length. apply find_from_app. Qed.
Lemma skip_more i : skipn (m_end o + i) (ps_line s) = skipn i b.
Proof. rewrite Nat.add_comm, <- skipn_skipn. now rewrite skip_open. Qed.
Lemma slice_more i : slice (m_end o) (m_end o + i) (ps_line s) = firstn i b.
Proof. unfold slice. rewrite skip_open. f_equal. lia. Qed.
Lemma before_open : firstn (m_start o) (ps_line s) = a.
Proof. rewrite Ms, L, firstn_app, firstn_all, Nat.sub_diag. cbn. now rewrite app_nil_r. Qed.

Lemma alone_step : In n tag_names -> find_sub (closing n) b = None ->
  stepped s (mkps (skipn (m_end o) (ps_line s)) misc (ps_urls s) (ps_dois s) (ps_counts s) (ps_els s)) a t [] None.
Proof.
  intros N F. unfold stepped. cbn [ps_line ps_misc ps_urls ps_dois ps_counts ps_els]. rewrite skip_open. split; auto. split; [apply open_ne|].
  split; [left; eapply tk_alone; eauto using find_no_closing|]. rewrite app_nil_r. auto.
Qed.
Lemma journal_stepped : In n (map py ["JOURNAL"; "JOURNALibid"]%string) ->
  grp_or_empty re_tagged_citation (ps_line s) o "ibid" = (if eqs n (py "JOURNALibid") then py "ibid" else []) ->
  exists s' p k e, journal_step s o misc = Ok s' /\ stepped s s' a p k e.
Proof.
  intros N G. unfold journal_step. rewrite G. cbn zeta.
  set (ib := nonempty _). assert ((if ib then py "</cds.JOURNALibid>" else py "</cds.JOURNAL>") = closing n) as ->.
  { unfold ib. destruct N as [<-|[<-|[]]]; reflexivity. }
  rewrite find_open. destruct (find_sub (closing n) b) as [i|] eqn:F; cbn [option_map].
  - apply find_closing in F as (c & rest & B & Lc & Nr & E1 & E2). rewrite slice_more, E1. rewrite <- Nat.add_assoc, skip_more, E2.
    destruct (re_search (rx_re re_recognised_numeration) rest) as [num|] eqn:R.
    + destruct (recognised_groups _ _ R) as ((vol & ->) & (pg & ->)). cbn [bind]. apply recognised_search in R as (w & rest1 & -> & W & Ne & _ & Ew).
      rewrite Ew, skipn_app, skipn_all, Nat.sub_diag. cbn [app skipn].
      destruct (extra_ibids_spec (length rest1) c rest1 (le_n _)) as (l & w2 & rest2 & -> & -> & W2). cbn [bind].
      eexists _, (t ++ c ++ closing n ++ w ++ w2), [], (Some (JOURNAL, c)). split; [reflexivity|].
      unfold stepped. cbn [ps_line ps_misc ps_urls ps_dois ps_counts ps_els]. split; [rewrite L, B, <- !app_assoc; reflexivity|]. split; [apply open_app_ne|]. split.
      { left. apply tk_journal; auto; [now apply numeration_app|]. intros Q. apply app_eq_nil in Q as [Q _]. auto. }
      split; auto. split; [|split; reflexivity]. eexists. split; [reflexivity|]. split; [reflexivity|]. split; [reflexivity|]. split; [reflexivity|]. reflexivity.
    + eexists _, (t ++ c ++ closing n), c, None. split; [reflexivity|]. unfold stepped. cbn [ps_line ps_misc ps_urls ps_dois ps_counts ps_els].
      split; [rewrite L, B, <- !app_assoc; reflexivity|]. split; [apply open_app_ne|]. split.
      { left. apply tk_misc; auto. do 4 right. destruct N as [<-|[<-|[]]]; [now left|right; now left]. }
      rewrite <- app_assoc. auto.
  - eexists _, t, [], None. split; [reflexivity|]. apply alone_step; auto. destruct N as [<-|[<-|[]]]; [now left|right; now left].
Qed.
Lemma report_stepped arxiv : In (n, REPORTNUMBER) items -> In n tag_names -> exists p k e, stepped s (report_step s o misc (closing n) arxiv) a p k e.
Proof.
  intros N N'. unfold report_step. rewrite find_open. destruct (find_sub (closing n) b) as [i|] eqn:F; cbn [option_map].
  - apply find_closing in F as (c & rest & B & Lc & Nr & E1 & E2). rewrite slice_more, E1. rewrite <- Nat.add_assoc, skip_more, E2.
    exists (t ++ c ++ closing n), [], (Some (REPORTNUMBER, c)). unfold stepped. cbn [ps_line ps_misc ps_urls ps_dois ps_counts ps_els].
    split; [rewrite L, B, <- !app_assoc; reflexivity|]. split; [apply open_app_ne|]. split; [left; now apply tk_item|]. split; auto. split; [|split; reflexivity].
    eexists. split; [reflexivity|]. destruct arxiv; (split; [reflexivity|]; split; [reflexivity|]; split; [reflexivity|]; reflexivity).
  - exists t, [], None. now apply alone_step.
Qed.
Lemma auth_stepped ty : n = py "AUTH" ++ ty -> In (n, AUTH) items -> In n tag_names -> exists p k e, stepped s (auth_step s o misc ty) a p k e.
Proof.
  intros E N N'. assert (length n = 8) as Ln. { destruct N as [[= Q]|[[= Q]|[[= <-]|[[= <-]|[[= <-]|[[= Q]|[[= Q]|[[= Q]|[[= Q]|[]]]]]]]]]]; reflexivity. }
  unfold auth_step. assert (py "</cds.AUTH" ++ ty ++ py ">" = closing n) as -> by (rewrite E; reflexivity).
  rewrite find_open. destruct (find_sub (closing n) b) as [i|] eqn:F; cbn [option_map].
  - assert (length (py "</cds.AUTHxxxx>") = length (closing n)) as -> by (unfold closing; rewrite !app_length, Ln; reflexivity).
    apply find_closing in F as (c & rest & B & Lc & Nr & E1 & E2). rewrite slice_more, E1. rewrite <- Nat.add_assoc, skip_more, E2.
    exists (t ++ c ++ closing n), [], (Some (AUTH, c)). unfold stepped. cbn [ps_line ps_misc ps_urls ps_dois ps_counts ps_els].
    split; [rewrite L, B, <- !app_assoc; reflexivity|]. split; [apply open_app_ne|]. split; [left; now apply tk_item|]. split; auto. split; [|split; reflexivity].
    eexists. split; [reflexivity|]. split; [reflexivity|]. split; [reflexivity|]. split; [reflexivity|]. reflexivity.
  - exists t, [], None. now apply alone_step.
Qed.
Lemma misc_stepped : In n (map py ["SER"; "VOL"; "YR"; "PG"]%string) -> In n tag_names -> exists p k e, stepped s (misc_step s o misc (closing n)) a p k e.
Proof.
  intros N N'. unfold misc_step, convert_unusable_tag_to_misc. rewrite find_open. destruct (find_sub (closing n) b) as [i|] eqn:F; cbn [option_map].
  - apply find_closing in F as (c & rest & B & Lc & Nr & E1 & E2). rewrite slice_more, E1. rewrite <- Nat.add_assoc, skip_more, E2.
    exists (t ++ c ++ closing n), c, None. unfold stepped. cbn [ps_line ps_misc ps_urls ps_dois ps_counts ps_els].
    split; [rewrite L, B, <- !app_assoc; reflexivity|]. split; [apply open_app_ne|]. split.
    { left. apply tk_misc; auto. destruct N as [<-|[<-|[<-|[<-|[]]]]]; cbn [map In]; tauto. }
    rewrite <- app_assoc. auto.
  - exists t, [], None. now apply alone_step.
Qed.
Lemma subfield_stepped ty dest : In (n, ty) items -> In n strict_names -> dest = main_key ty -> (ty = QUOTED \/ ty = ISBN \/ ty = PUBLISHER \/ ty = COLLABORATION) ->
  exists p k e, stepped s (subfield_step s o misc ty n dest) a p k e.
Proof.
  intros N N' -> T. unfold subfield_step, map_tag_to_subfield. rewrite skip_open. change (py "</cds." ++ n ++ py ">") with (closing n).
  destruct (find_sub (closing n) b) as [i|] eqn:F.
  - apply find_closing in F as (c & rest & B & Lc & Nr & E1 & E2). rewrite E1, E2.
    exists (t ++ c ++ closing n), [], (Some (ty, c)). unfold stepped. cbn [ps_line ps_misc ps_urls ps_dois ps_counts ps_els].
    split; [rewrite L, B, <- !app_assoc; reflexivity|]. split; [apply open_app_ne|]. split; [left; now apply tk_item|]. split; auto.
    split; [|destruct T as [->|[->|[->| ->]]]; split; reflexivity]. eexists. split; [reflexivity|].
    destruct T as [->|[->|[->| ->]]]; (split; [reflexivity|]; split; [reflexivity|]; split; [reflexivity|]; reflexivity).
  - set (m := length (py "<cds." ++ n ++ py ">")). exists (t ++ firstn m b), [], None. unfold stepped. cbn [ps_line ps_misc ps_urls ps_dois ps_counts ps_els].
    split; [rewrite L, <- app_assoc, firstn_skipn; reflexivity|]. split; [apply open_app_ne|]. split.
    { right. split; auto. split; auto. exists n, t, (firstn m b). split; auto. split; auto. split; auto. split; [rewrite firstn_skipn; now apply find_no_closing|]. apply firstn_le_length. }
    rewrite !app_nil_r. auto.
Qed.
End Steps.
Lemma url_stepped s o a t b : ps_line s = a ++ t ++ b -> opening (py "URL") t -> m_end o = length a + length t ->
  match ps_urls s with
  | [] => url_step s o (ps_misc s ++ a) = Err IndexError
  | (u, d) :: us => exists s', url_step s o (ps_misc s ++ a) = Ok s' /\ stepped s s' a t [] (Some (URL, u))
  end.
Proof.
  intros L O Me. unfold url_step. destruct (ps_urls s) as [|[u d] us] eqn:U; auto. eexists. split; [reflexivity|].
  unfold stepped. cbn [ps_line ps_misc ps_urls ps_dois ps_counts ps_els]. rewrite (skip_open s o a t b L Me).
  split; auto. split; [eapply open_ne; eauto|]. split; [left; eapply tk_id; eauto; now left|]. split; auto. split; [|split; [cbn; eauto|reflexivity]].
  eexists. split; [reflexivity|]. split; [reflexivity|]. split; [reflexivity|]. split; [reflexivity|]. reflexivity.
Qed.
Lemma doi_stepped s o a t b : ps_line s = a ++ t ++ b -> opening (py "DOI") t -> m_end o = length a + length t ->
  match ps_dois s with
  | [] => doi_step s o (ps_misc s ++ a) = Err IndexError
  | d :: ds => exists s', doi_step s o (ps_misc s ++ a) = Ok s' /\ stepped s s' a t [] (Some (DOI, d))
  end.
Proof.
  intros L O Me. unfold doi_step. destruct (ps_dois s) as [|d ds] eqn:U; auto. eexists. split; [reflexivity|].
  unfold stepped. cbn [ps_line ps_misc ps_urls ps_dois ps_counts ps_els]. rewrite (skip_open s o a t b L Me).
  split; auto. split; [eapply open_ne; eauto|]. split; [left; eapply tk_id; eauto; right; now left|]. split; auto. split; [|split; [reflexivity|auto]].
  eexists. split; [reflexivity|]. split; [reflexivity|]. split; [reflexivity|]. split; [reflexivity|]. reflexivity.
Qed.
Ltac inl := cbn [map In strict_names items tag_names]; tauto.
Lemma tag_stepped s o : re_search (rx_re re_tagged_citation) (ps_line s) = Some o ->
  exists a, untagged a /\
  ((exists s' p k e, tag_step s o = Ok s' /\ stepped s s' a p k e)
   \/ (exists t b, tag_step s o = Err IndexError /\ ps_line s = a ++ t ++ b
        /\ (opening (py "URL") t /\ ps_urls s = [] \/ opening (py "DOI") t /\ ps_dois s = []))).
Proof.
  intros H. apply search_tag in H as (a & n & t & b & L & N & O & U & Ms & Me & G1 & G2). exists a. split; auto.
  assert (forall r, (exists p k e, stepped s r a p k e) -> exists s' p k e, Ok r = Ok s' /\ stepped s s' a p k e) as Good.
  { intros r (p & k & e & S). exists r, p, k, e. auto. }
  pose proof N as N0. unfold tag_step. rewrite G1, (before_open s o a t b L Ms). clear G1.
  cbn [tag_names map In] in N.
  destruct N as [<-|[<-|[<-|[<-|[<-|[<-|[<-|[<-|[<-|[<-|[<-|[<-|[<-|[<-|[<-|[<-|[<-|[]]]]]]]]]]]]]]]]]].
  - left. eapply (journal_stepped s o a (py "JOURNAL") t b); eauto. inl.
  - left. eapply (journal_stepped s o a (py "JOURNALibid") t b); eauto. inl.
  - left. apply Good. apply (misc_stepped s o a (py "VOL") t b); auto. inl.
  - left. apply Good. apply (misc_stepped s o a (py "YR") t b); auto. inl.
  - left. apply Good. apply (misc_stepped s o a (py "PG") t b); auto. inl.
  - left. apply Good. apply (report_stepped s o a (py "REPORTNUMBER") t b); auto. inl.
  - left. apply Good. apply (report_stepped s o a (py "ARXIV") t b); auto. inl.
  - left. apply Good. apply (misc_stepped s o a (py "SER") t b); auto. inl.
  - pose proof (url_stepped s o a t b L O Me) as S. destruct (ps_urls s) as [|[u d] us] eqn:E.
    + right. exists t, b. split; [exact S|]. split; auto.
    + left. destruct S as (s' & S1 & S2). exists s', t, [], (Some (URL, u)). split; auto.
  - pose proof (doi_stepped s o a t b L O Me) as S. destruct (ps_dois s) as [|d ds] eqn:E.
    + right. exists t, b. split; [exact S|]. split; auto.
    + left. destruct S as (s' & S1 & S2). exists s', t, [], (Some (DOI, d)). split; auto.
  - left. apply Good. apply (subfield_stepped s o a (py "QUOTED") t b); auto; inl.
  - left. apply Good. apply (subfield_stepped s o a (py "ISBN") t b); auto; inl.
  - left. apply Good. apply (subfield_stepped s o a (py "PUBLISHER") t b); auto; inl.
  - left. apply Good. apply (subfield_stepped s o a (py "COLLABORATION") t b); auto; inl.
  - left. apply Good. apply (auth_stepped s o a (py "AUTHstnd") t b); auto. inl.
  - left. apply Good. apply (auth_stepped s o a (py "AUTHetal") t b); auto. inl.
  - left. apply Good. apply (auth_stepped s o a (py "AUTHincl") t b); auto. inl.
Qed.

(** ** The loop *)
Record piece := mkpiece { p_before : str; p_text : str; p_kept : str; p_item : option (ety * str) }.
(** the line is cut into these pieces and [last] *)
Inductive pieces (T : str -> str -> option (ety * str) -> str -> Prop) : str -> list piece -> str -> Prop :=
| pieces_nil l : pieces T l [] l
| pieces_cons p l ps last : untagged (p_before p) -> T (p_text p) (p_kept p) (p_item p) l -> pieces T l ps last ->
    pieces T (p_before p ++ p_text p ++ l) (p :: ps) last.
Notation cut := (pieces taken).
Definition view (e : el) : str * (ety * str) := (e_misc e, (e_type e, content e)).
(** the elements made of the pieces: misc text, type, value; and the misc text that is left *)
Fixpoint gather (acc : str) (ps : list piece) : list (str * (ety * str)) * str :=
  match ps with
  | [] => ([], acc)
  | p :: t => let acc := acc ++ p_before p ++ p_kept p in
              match p_item p with
              | None => gather acc t
              | Some x => let (l, r) := gather [] t in ((acc, x) :: l, r)
              end
  end.
Definition values_of (ty : ety) (ps : list piece) : list str :=
  flat_map (fun p => match p_item p with Some (t, c) => if ety_eqb t ty then [c] else [] | None => [] end) ps.

Inductive run : pstate -> list piece -> pstate -> Prop :=
| run_nil s : run s [] s
| run_cons s p s1 ps s2 : untagged (p_before p) -> stepped s s1 (p_before p) (p_text p) (p_kept p) (p_item p) -> run s1 ps s2 -> run s (p :: ps) s2.
Lemma taken_kept p k c rest : taken p k (Some c) rest -> k = []. Proof. intros [H|(-> & _)]; auto. inversion H; auto. Qed.
Lemma run_cut s ps s' : run s ps s' -> cut (ps_line s) ps (ps_line s').
Proof. induction 1; [constructor|]. destruct H0 as (-> & _ & T & _). now constructor. Qed.
Lemma run_counts s ps s' : run s ps s' -> exists l, ps_els s' = ps_els s ++ l /\ ps_counts s' = fold_left (fun c e => count_el e c) l (ps_counts s).
Proof.
  induction 1 as [s|s p s1 ps s2 U S R (l & E & C)]; [exists []; rewrite app_nil_r; auto|]. destruct S as (_ & _ & _ & S). destruct (p_item p) as [[ty c]|].
  - destruct S as (_ & (x & X & _ & _ & _ & X') & _). exists (x :: l). rewrite E, X, C, X', <- app_assoc. auto.
  - destruct S as (_ & S1 & S2 & _). exists l. rewrite E, C, S1, S2. auto.
Qed.
Lemma run_gather s ps s' : run s ps s' -> exists l, ps_els s' = ps_els s ++ l /\ gather (ps_misc s) ps = (map view l, ps_misc s').
Proof.
  induction 1 as [s|s p s1 ps s2 U S R (l & E & G)]; [exists []; rewrite app_nil_r; auto|]. destruct S as (_ & _ & T & S). cbn [gather]. destruct (p_item p) as [[ty c]|].
  - destruct S as (M & (x & X & Ty & Co & Mi & _) & _). exists (x :: l). rewrite E, X, <- app_assoc. split; auto. rewrite M in G. rewrite G. cbn [map]. f_equal. f_equal.
    apply taken_kept in T. rewrite T, app_nil_r. unfold view. now rewrite Mi, Ty, Co.
  - destruct S as (S0 & S1 & _). exists l. rewrite E, S1. split; auto. rewrite <- S0, G. auto.
Qed.
Lemma run_ids s ps s' : run s ps s' -> map fst (ps_urls s) = values_of URL ps ++ map fst (ps_urls s') /\ ps_dois s = values_of DOI ps ++ ps_dois s'.
Proof.
  induction 1 as [s|s p s1 ps s2 U S R (A & B)]; [auto|]. destruct S as (_ & _ & _ & S). cbn [values_of flat_map]. fold (values_of URL ps). fold (values_of DOI ps).
  destruct (p_item p) as [[ty c]|].
  - destruct S as (_ & _ & S1 & S2). split.
    + destruct (ety_eqb ty URL); [destruct S1 as (d & S1); rewrite S1; cbn; now rewrite A|]. cbn. now rewrite <- S1, A.
    + destruct (ety_eqb ty DOI); [rewrite S2; cbn; now rewrite B|]. cbn. now rewrite <- S2, B.
  - destruct S as (_ & _ & _ & S1 & S2). cbn. now rewrite <- S1, <- S2, A, B.
Qed.
Lemma tag_loop_spec : forall fuel s, length (ps_line s) <= fuel ->
  (exists s' ps, tag_loop fuel s = Ok s' /\ run s ps s' /\ untagged (ps_line s'))
  \/ (tag_loop fuel s = Err IndexError /\ exists s' ps a t b, run s ps s' /\ ps_line s' = a ++ t ++ b
       /\ (opening (py "URL") t /\ ps_urls s' = [] \/ opening (py "DOI") t /\ ps_dois s' = [])).
Proof.
  induction fuel as [|f IH]; intros s L; cbn [tag_loop].
  - destruct (re_search _ _) as [o|] eqn:R.
    + exfalso. apply search_tag in R as (a & n & t & b & E & _ & O & _). rewrite E, !app_length in L. apply opening_ne in O. destruct t; [congruence|]. cbn in L. lia.
    + left. exists s, []. split; auto. split; [constructor|]. now apply search_none.
  - destruct (re_search _ _) as [o|] eqn:R.
    + destruct (tag_stepped s o R) as (a & U & [(s1 & p & k & e & E & S)|(t & b & E & Q & F)]).
      * rewrite E. cbn [bind]. assert (length (ps_line s1) <= f) as L1.
        { destruct S as (S1 & S2 & _). rewrite S1, !app_length in L. destruct p; [congruence|]. cbn in L. lia. }
        assert (forall ps s', run s1 ps s' -> run s (mkpiece a p k e :: ps) s') as C by (intros; econstructor; eauto).
        destruct (IH s1 L1) as [(s' & ps & E' & R' & U')|(E' & s' & ps & a' & t' & b' & R' & Q)].
        -- left. exists s', (mkpiece a p k e :: ps). auto.
        -- right. split; auto. exists s', (mkpiece a p k e :: ps), a', t', b'. auto.
      * rewrite E. cbn [bind]. right. split; auto. exists s, [], a, t, b. split; [constructor|]. split; auto.
    + left. exists s, []. split; auto. split; [constructor|]. now apply search_none.
Qed.

(** ** The parser *)
Definition only_separators (s : str) : Prop := forall c, In c s -> In c (py " .;,").
Lemma strip_chars_empty cs s : nonempty (strip_chars cs s) = false -> forall c, In c s -> In c cs.
Proof.
  unfold strip_chars. intros H c I. destruct (strip_by (in_set cs) s) as [|d t] eqn:E; [|discriminate]. apply mem_ch_in.
  clear H. change (in_set cs c = true). destruct (in_set cs c) eqn:Q; auto. exfalso. revert E.
  unfold strip_by. destruct (rstrip_by_split (in_set cs) (lstrip_by (in_set cs) s)) as (q & E1 & E2). intros E. rewrite E in E1. cbn in E1.
  destruct (lstrip_by_split (in_set cs) s) as (r & E3 & E4). rewrite E3 in I. apply in_app_or in I as [I|I].
  - rewrite forallb_forall in E4. apply E4 in I. congruence.
  - rewrite E1 in I. rewrite forallb_forall in E2. apply E2 in I. congruence.
Qed.
Lemma parse_spec line dois urls :
  (exists ps last els0 c0 rest, parse_tagged_reference_line line dois urls = Ok (els0 ++ rest, fold_left (fun c e => count_el e c) rest c0)
     /\ cut line ps last /\ untagged last
     /\ (exists left_, gather [] ps = (map view els0, left_) /\ (rest = [mkel MISC (left_ ++ last) []] \/ rest = [] /\ only_separators (left_ ++ last)))
     /\ c0 = fold_left (fun c e => count_el e c) els0 counts0
     /\ (exists us, map fst urls = values_of URL ps ++ us) /\ (exists ds, dois = values_of DOI ps ++ ds))
  \/ (parse_tagged_reference_line line dois urls = Err IndexError /\
      exists ps l a t b, cut line ps l /\ l = a ++ t ++ b /\
        (opening (py "URL") t /\ map fst urls = values_of URL ps \/ opening (py "DOI") t /\ dois = values_of DOI ps)).
Proof.
  unfold parse_tagged_reference_line.
  destruct (tag_loop_spec (length line) (mkps line [] urls dois counts0 []) (le_n _)) as [(s' & ps & -> & R & U)|(-> & s' & ps & a & t & b & R & Q)].
  - left. cbn [bind]. pose proof (run_cut _ _ _ R) as C. destruct (run_counts _ _ _ R) as (l & E1 & E2). destruct (run_gather _ _ _ R) as (l' & E1' & E3). destruct (run_ids _ _ _ R) as (I1 & I2).
    cbn [ps_line ps_els ps_counts ps_misc ps_urls ps_dois app] in *. rewrite E1 in E1'. subst l'.
    destruct (nonempty (strip_chars (py " .;,") (ps_misc s' ++ ps_line s'))) eqn:Ne.
    + exists ps, (ps_line s'), l, (fold_left (fun c e => count_el e c) l counts0), [mkel MISC (ps_misc s' ++ ps_line s') []].
      rewrite E1, E2. split; [reflexivity|]. split; auto. split; auto. split; [exists (ps_misc s'); auto|]. split; auto. split; eauto.
    + exists ps, (ps_line s'), l, (fold_left (fun c e => count_el e c) l counts0), []. rewrite E1, E2, app_nil_r. split; [reflexivity|]. split; auto. split; auto.
      split; [exists (ps_misc s'); split; auto; right; split; auto; intros c; now apply strip_chars_empty|]. split; auto. split; eauto.
  - right. split; auto. pose proof (run_cut _ _ _ R) as C. destruct (run_ids _ _ _ R) as (I1 & I2). cbn [ps_line ps_urls ps_dois] in *.
    destruct Q as (Q & F). exists ps, (ps_line s'), a, t, b. split; auto. split; auto. destruct F as [(O & F)|(O & F)]; [left|right]; (split; auto).
    + rewrite F in I1. cbn in I1. now rewrite app_nil_r in I1.
    + rewrite F in I2. now rewrite app_nil_r in I2.
Qed.

(** ** When the parser fails *)
(** the text starts with an opening tag of this name *)
Definition opens (n s : str) : bool :=
  prefixb (py "<cds." ++ n ++ py ">") s
  || (prefixb (py "<cds." ++ n) s && match skipn (5 + length n) s with c :: 47%N :: 62%N :: _ => is_space c | _ => false end).
(** the number of places where an opening tag of this name starts *)
Fixpoint count_tags (n s : str) : nat :=
  match s with [] => 0 | _ :: t => (if opens n s then 1 else 0) + count_tags n t end.
Lemma opens_iff n s : opens n s = true <-> exists t r, opening n t /\ s = t ++ r.
Proof.
  unfold opens. rewrite orb_true_iff, andb_true_iff, !prefixb_app. split.
  - intros [(r & ->)|((r & ->) & H)]; [exists (py "<cds." ++ n ++ py ">"), r; split; auto; now left|].
    replace (5 + length n) with (length (py "<cds." ++ n)) in H by (rewrite app_length; reflexivity). rewrite skipn_app, skipn_all, Nat.sub_diag in H. cbn [app skipn] in H.
    destruct r as [|c [|d [|e r]]]; try discriminate; [destruct d as [|p]; try discriminate; repeat (destruct p; try discriminate)|].
    exists (py "<cds." ++ n ++ [c] ++ py "/>"), r. assert (d = 47%N /\ e = 62%N /\ is_space c = true) as (-> & -> & S).
    { destruct d as [|p]; [discriminate|]. destruct e as [|q]; repeat (destruct p; try discriminate); repeat (destruct q; try discriminate); auto. }
    split; [right; eauto|]. rewrite <- !app_assoc. reflexivity.
  - intros (t & r & [->|(c & S & ->)] & ->); [left; eauto|right]. split; [exists ([c] ++ py "/>" ++ r); rewrite <- !app_assoc; reflexivity|].
    replace (5 + length n) with (length (py "<cds." ++ n)) by (rewrite app_length; reflexivity).
    replace ((py "<cds." ++ n ++ [c] ++ py "/>") ++ r) with ((py "<cds." ++ n) ++ c :: 47%N :: 62%N :: r) by (rewrite <- !app_assoc; reflexivity).
    rewrite skipn_app, skipn_all, Nat.sub_diag. exact S.
Qed.
Lemma count_tags_app n a b : count_tags n b <= count_tags n (a ++ b).
Proof. induction a as [|c a IH]; cbn [app count_tags]; [lia|]. lia. Qed.
Lemma count_tags_open n a t b : opening n t -> S (count_tags n b) <= count_tags n (a ++ t ++ b).
Proof.
  intros O. eapply Nat.le_trans; [|apply count_tags_app]. assert (opens n (t ++ b) = true) as H by (apply opens_iff; eauto).
  apply opening_ne in O. destruct t as [|c t]; [congruence|]. cbn [app count_tags] in *. rewrite H. pose proof (count_tags_app n t b). lia.
Qed.
Lemma taken_id p k ty c rest n : taken p k (Some (ty, c)) rest -> In (n, ty) [(py "URL", URL); (py "DOI", DOI)] -> opening n p.
Proof.
  intros [H|(_ & H & _)] I; [|discriminate]. inversion H as [| |n' ? ? ? ? N|n' ? ? ? ? N|]; subst; auto.
  - exfalso. destruct I as [[= <- <-]|[[= <- <-]|[]]]; repeat (destruct N as [[=]|N]); destruct N.
  - destruct I as [[= <- <-]|[[= <- <-]|[]]]; destruct N as [[= <-]|[[= <-]|[]]]; auto.
  - exfalso. destruct I as [[=]|[[=]|[]]].
Qed.
Lemma cut_count n ty line ps last : In (n, ty) [(py "URL", URL); (py "DOI", DOI)] -> cut line ps last ->
  length (values_of ty ps) + count_tags n last <= count_tags n line.
Proof.
  intros I. induction 1 as [l|p l ps last U T C IH]; [cbn; lia|]. cbn [values_of flat_map]. fold (values_of ty ps). rewrite app_length.
  destruct (p_item p) as [[t c]|].
  - destruct (ety_eqb t ty) eqn:E.
    + assert (t = ty) as -> by (destruct t, ty; try discriminate; reflexivity). pose proof (count_tags_open n (p_before p) (p_text p) l (taken_id _ _ _ _ _ _ T I)). cbn [length]. lia.
    + pose proof (count_tags_app n (p_before p ++ p_text p) l) as A. rewrite <- app_assoc in A. cbn [length]. lia.
  - pose proof (count_tags_app n (p_before p ++ p_text p) l) as A. rewrite <- app_assoc in A. cbn [length]. lia.
Qed.
Lemma parse_total line dois urls : count_tags (py "URL") line <= length urls -> count_tags (py "DOI") line <= length dois ->
  exists r, parse_tagged_reference_line line dois urls = Ok r.
Proof.
  intros A B. destruct (parse_spec line dois urls) as [(ps & last & els0 & c0 & rest & -> & _)|(_ & ps & l & a & t & b & C & -> & F)]; eauto. exfalso.
  destruct F as [(O & F)|(O & F)].
  - pose proof (cut_count (py "URL") URL _ _ _ (or_introl eq_refl) C). pose proof (count_tags_open _ a _ b O). apply (f_equal (@length _)) in F. rewrite map_length in F. lia.
  - pose proof (cut_count (py "DOI") DOI _ _ _ (or_intror (or_introl eq_refl)) C). pose proof (count_tags_open _ a _ b O). apply (f_equal (@length _)) in F. lia.
Qed.
Lemma parse_errors line dois urls e : parse_tagged_reference_line line dois urls = Err e -> e = IndexError.
Proof.
  destruct (parse_spec line dois urls) as [(ps & last & els0 & c0 & rest & -> & _)|(-> & _)]; congruence.
Qed.

(** ** Counters *)
Definition number (ty : ety) (els : list el) : nat := length (filter (is_type ty) els).
Definition ibids (els : list el) : nat := list_sum (map extras (filter (is_type JOURNAL) els)).
Lemma number_cons ty e els : number ty (e :: els) = (if is_type ty e then 1 else 0) + number ty els.
Proof. unfold number. cbn [filter]. destruct (is_type ty e); reflexivity. Qed.
Lemma ibids_cons e els : ibids (e :: els) = (if is_type JOURNAL e then extras e else 0) + ibids els.
Proof. unfold ibids. cbn [filter]. destruct (is_type JOURNAL e); reflexivity. Qed.
Lemma count_fold els : forall c, let c' := fold_left (fun c e => count_el e c) els c in
  c_title c' = c_title c + number JOURNAL els + ibids els /\ c_reportnum c' = c_reportnum c + number REPORTNUMBER els
  /\ c_url c' = c_url c + number URL els /\ c_doi c' = c_doi c + number DOI els /\ c_auth c' = c_auth c + number AUTH els /\ c_misc c' = c_misc c + number MISC els.
Proof.
  induction els as [|e els IH]; intros c; cbn [fold_left]; [unfold number, ibids; cbn; repeat split; lia|].
  specialize (IH (count_el e c)). cbn zeta in *. destruct IH as (-> & -> & -> & -> & -> & ->).
  rewrite !number_cons, ibids_cons. unfold count_el, is_type. generalize (extras e). intros k.
  destruct (e_type e); cbn [ety_eqb ety_code Nat.eqb add_title add_reportnum add_url add_doi add_auth add_misc c_title c_reportnum c_url c_doi c_auth c_misc]; repeat split; lia.
Qed.
Lemma parse_counts line dois urls els c : parse_tagged_reference_line line dois urls = Ok (els, c) ->
  c_title c = number JOURNAL els + ibids els /\ c_reportnum c = number REPORTNUMBER els /\ c_url c = number URL els
  /\ c_doi c = number DOI els /\ c_auth c = number AUTH els /\ c_misc c = number MISC els.
Proof.
  destruct (parse_spec line dois urls) as [(ps & last & els0 & c0 & rest & -> & _ & _ & _ & -> & _)|(-> & _)]; [|discriminate]. intros H. injection H as <- <-.
  rewrite <- fold_left_app. apply (count_fold (els0 ++ rest) counts0).
Qed.

(** ** The text *)
(** the tags whose contents are lost without a closing tag are closed *)
Definition closed_tags (line : str) : Prop :=
  forall n t a b, In n strict_names -> opening n t -> line = a ++ t ++ b -> exists u v, b = u ++ closing n ++ v.
Definition kept_text (p : piece) : str := p_before p ++ p_kept p.
Lemma gather_text ps : forall acc l r, gather acc ps = (l, r) -> concat (map fst l) ++ r = acc ++ concat (map kept_text ps).
Proof.
  induction ps as [|p ps IH]; intros acc l r H; cbn [gather] in H.
  - injection H as <- <-. cbn. now rewrite app_nil_r.
  - unfold kept_text at 1. cbn [map concat]. fold kept_text. destruct (p_item p) as [x|].
    + destruct (gather [] ps) as [l' r'] eqn:G. injection H as <- <-. apply IH in G. cbn [map concat fst]. rewrite <- app_assoc, G. cbn [app]. unfold kept_text at 2. rewrite <- !app_assoc. reflexivity.
    + apply IH in H. rewrite H. unfold kept_text at 2. rewrite <- !app_assoc. reflexivity.
Qed.
Lemma cut_closed line ps last : closed_tags line -> pieces taken line ps last -> pieces removed line ps last.
Proof.
  intros C. induction 1 as [l|p l ps last U T P IH]; [constructor|]. constructor; auto.
  - destruct T as [T|(_ & _ & n & t & d & N & O & E & Nc & _)]; auto. exfalso. rewrite E, <- app_assoc in C. destruct (C n t (p_before p) (d ++ l) N O eq_refl) as (u & v & Q). exact (Nc u v Q).
  - apply IH. intros n t a b N O ->. apply (C n t (p_before p ++ p_text p ++ a) b N O). rewrite <- !app_assoc. reflexivity.
Qed.
Lemma pieces_line T line ps last : pieces T line ps last -> line = concat (map (fun p => p_before p ++ p_text p) ps) ++ last.
Proof. induction 1 as [l|p l ps last U _ P IH]; auto. cbn [map concat]. rewrite <- !app_assoc, <- IH. reflexivity. Qed.
Lemma parse_text line dois urls els c : parse_tagged_reference_line line dois urls = Ok (els, c) ->
  exists ps last, pieces taken line ps last /\ (closed_tags line -> pieces removed line ps last) /\ untagged last
    /\ (exists lost, concat (map e_misc els) ++ lost = concat (map kept_text ps) ++ last /\ only_separators lost)
    /\ (let (l, left_) := gather [] ps in map view els = l ++ [(left_ ++ last, (MISC, []))] \/ map view els = l /\ only_separators (left_ ++ last))
    /\ (exists us, map fst urls = values_of URL ps ++ us) /\ (exists ds, dois = values_of DOI ps ++ ds).
Proof.
  destruct (parse_spec line dois urls) as [(ps & last & els0 & c0 & rest & -> & C & U & (lf & G & R) & _ & I1 & I2)|(-> & _)]; [|discriminate].
  intros H. injection H as <- _. exists ps, last. split; auto. split; [intros; now apply cut_closed|]. split; auto. rewrite G.
  pose proof (gather_text _ _ _ _ G) as T. cbn [app] in T. rewrite map_map in T. change (fun x => fst (view x)) with e_misc in T.
  split; [|split; [|split; auto]].
  - destruct R as [->|(-> & R)].
    + exists []. split; [|intros ? []]. rewrite app_nil_r, map_app, concat_app, <- T. cbn. rewrite app_nil_r, <- app_assoc. reflexivity.
    + exists (lf ++ last). split; auto. rewrite app_nil_r, <- T, <- app_assoc. reflexivity.
  - destruct R as [->|(-> & R)]; [left; rewrite map_app; reflexivity|right; rewrite app_nil_r; auto].
Qed.
Fixpoint closed_check (s : str) : bool :=
  forallb (fun n => implb (opens n s) (contains (closing n) (skipn (6 + length n) s))) strict_names && match s with [] => true | _ :: r => closed_check r end.
Lemma closing_not_head n c b u v : c <> 60%N -> c :: b = u ++ closing n ++ v -> exists u', b = u' ++ closing n ++ v.
Proof. intros C. destruct u as [|x u]; intros E; [exfalso; injection E as E _; contradiction|]. injection E as _ E. eauto. Qed.
Lemma contains_app p s : contains p s = true -> exists u v, s = u ++ p ++ v.
Proof. unfold contains. destruct (find_sub p s) as [i|] eqn:F; [|discriminate]. intros _. apply find_sub_some in F as (_ & E). exists (firstn i s), (skipn (length p) (skipn i s)). rewrite <- E at 1. now rewrite firstn_skipn, firstn_skipn. Qed.
Lemma closed_check_ok s : closed_check s = true -> closed_tags s.
Proof.
  induction s as [|c s IH]; cbn [closed_check]; intros H n t a b N O E.
  - exfalso. destruct a; [|discriminate]. apply opening_ne in O. destruct t; [contradiction|discriminate].
  - apply andb_prop in H as [H1 H2]. destruct a as [|x a].
    + rewrite forallb_forall in H1. specialize (H1 n N). assert (opens n (c :: s) = true) as Q by (apply opens_iff; eauto). rewrite Q in H1. cbn [implb] in H1.
      apply contains_app in H1 as (u & v & H1). rewrite E in H1. cbn [app] in H1. destruct O as [->|(d & S & ->)].
      * replace (6 + length n) with (length (py "<cds." ++ n ++ py ">")) in H1 by (rewrite !app_length; cbn; lia).
        rewrite skipn_app, skipn_all, Nat.sub_diag in H1. eauto.
      * replace (6 + length n) with (length (py "<cds." ++ n ++ [d])) in H1 by (rewrite !app_length; cbn; lia).
        replace ((py "<cds." ++ n ++ [d] ++ py "/>") ++ b) with ((py "<cds." ++ n ++ [d]) ++ 47%N :: 62%N :: b) in H1 by (rewrite <- !app_assoc; reflexivity).
        rewrite skipn_app, skipn_all, Nat.sub_diag in H1. cbn [app skipn] in H1.
        apply closing_not_head in H1 as (u' & H1); [|discriminate]. apply closing_not_head in H1 as (u'' & H1); [|discriminate]. eauto.
    + injection E as -> E. apply (IH H2 n t a b N O E).
Qed.
