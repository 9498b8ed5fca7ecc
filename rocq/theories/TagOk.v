(** Tagging a line raises nothing when the knowledge bases fit together. *)
From Coq Require Import List Arith NArith Bool String Lia.
From Verif Require Import PyStr ListFacts Regex RegexMeta RegexLang RegexWords RegexParse Patterns Numeration DocText Elements Transform Tag RecordProofs
  ComposeProofs SpanProofs NumTotal ElementsOk.
Import ListNotations.
Local Open Scope nat_scope.
Local Notation length := List.length.

(** ** Knowledge bases that fit together *)
Definition is_some {A} (o : option A) : bool := match o with Some _ => true | None => false end.
(** the text of a pattern that matches only one word *)
Definition lit_of (c : cls) : option N :=
  match c with mkcls false false [CRange a b] => if N.eqb a b then Some a else None | _ => None end.
Fixpoint lits_of (w : list cls) : option str :=
  match w with
  | [] => Some []
  | c :: t => match lit_of c, lits_of t with Some d, Some s => Some (d :: s) | _, _ => None end
  end.
Definition only_word (r : re) (s : str) : bool :=
  match gwords r with Some ws => forallb (fun u => match lits_of (fst u) with Some t => eqs t s | None => false end) ws | None => false end.
(** group n of the pattern is there and always set *)
Definition always_named (p : rx) (n : string) : bool :=
  match assoc_str (py n) (rx_names p) with Some i => negb (i =? 0) && always i (rx_re p) | None => false end.
Definition named (p : rx) (n : string) : bool := is_some (assoc_str (py n) (rx_names p)).
Definition fit_journals (kb : journals_kb) : bool :=
  forallb (fun t => is_some (assoc_str t (jk_search kb)) && (is_ibid_text t || is_some (assoc_str t (jk_std kb)))) (jk_keys kb) && negb (mem_str (py "key") (jk_keys kb)).
Definition fit_journals_re (kb : list (str * str)) : bool :=
  forallb (fun e => match compile noflags (fst e) with Ok p => only_word (rx_re p) (fst e) | Err _ => false end) kb.
Definition fit_reports (kb : repnum_kb) : bool :=
  forallb (fun c => is_some (assoc_rep c (rk_std kb)) && match assoc_rep c (rk_search kb) with Some p => always_named p "numn" && always 1 (rx_re p) | None => false end) (map fst (rk_std kb)).
Definition fit_collabs (kb : list (str * rx)) : bool := forallb (fun e => always 1 (rx_re (snd e))) kb.
Definition fit_kbs (K : kbs) : bool :=
  fit_journals (k_journals K) && fit_journals_re (k_journals_re K) && fit_reports (k_reports K) && fit_collabs (k_collabs K) && fit_books (k_books K).
(** the author patterns have the groups that the code reads *)
Definition fit_env (E : env) : bool :=
  forallb (named (re_auth E)) ["et"; "et2"; "es"; "ee"; "multi_auth"; "multi_surs"]%string && always_named (re_auth E) "author_names"
  && forallb (named (re_auth_near_miss E)) ["es"; "ee"]%string.

(** ** Small facts *)
Lemma lit_of_ok c d : lit_of c = Some d -> forall e, cls_mem c e = true -> e = d.
Proof.
  destruct c as [[] [] [|[a b| | |] [|]]]; cbn; try discriminate. destruct (N.eqb_spec a b) as [<-|]; [|discriminate]. intros [= <-] e. apply (lit_cls_mem a).
Qed.
Lemma lits_of_ok : forall w s, lits_of w = Some s -> forall t, reads w t -> t = s.
Proof.
  induction w as [|c w IH]; cbn; intros s E t R; inversion R; subst; [now injection E|]. destruct (lit_of c) as [d|] eqn:D; [|discriminate]. destruct (lits_of w) as [u|]; [|discriminate].
  injection E as <-. f_equal; [eapply lit_of_ok; eauto|auto].
Qed.
Lemma fwd_slice line x w x' : at_ line x -> fwd x w x' -> slice (pos x) (pos x') line = w.
Proof.
  intros (P & <-) (S & _ & P'). rewrite S, P', P. unfold slice. rewrite <- (rev_length (pre x)), skipn_app, skipn_all, Nat.sub_diag. cbn [app skipn].
  replace (length (rev (pre x)) + length w - length (rev (pre x))) with (length w) by lia. rewrite firstn_app, firstn_all, Nat.sub_diag. cbn [firstn]. apply app_nil_r.
Qed.
Lemma only_word_ok r s line o : only_word r s = true -> obj_ok line r o -> slice (m_start o) (m_end o) line = s.
Proof.
  unfold only_word. destruct (gwords r) as [ws|] eqn:G; [|discriminate]. rewrite forallb_forall. intros F (x & x' & A & A' & M & -> & -> & _ & _).
  apply (gwords_mt _ _ G) in M as (u & t & I & R & Fw & _). specialize (F u I). destruct (lits_of (fst u)) as [v|] eqn:L; [|discriminate]. destruct (eqs_spec v s) as [->|]; [|discriminate].
  apply (lits_of_ok _ _ L) in R. subst t. now apply fwd_slice.
Qed.
Lemma always_named_ok p s o n : always_named p n = true -> obj_ok s (rx_re p) o -> exists t, group_named p s o (py n) = Ok (Some t).
Proof.
  unfold always_named, group_named. destruct (assoc_str (py n) (rx_names p)) as [i|]; [|discriminate]. intros H O. apply andb_true_iff in H as [Z H]. apply negb_true_iff, Nat.eqb_neq in Z.
  pose proof (obj_always _ _ _ _ O H Z) as G. unfold g_text. destruct (g_span o i) as [(a, b)|]; [eauto|congruence].
Qed.
Lemma named_ok p s o n : named p n = true -> exists t, group_named p s o (py n) = Ok t.
Proof. unfold named, group_named. destruct (assoc_str (py n) (rx_names p)); [eauto|discriminate]. Qed.
Lemma finditer_obj r s o : In o (re_finditer r s) -> obj_ok s r o.
Proof. intros I. destruct (finditer_ok r s) as (F & _). rewrite Forall_forall in F. auto. Qed.
Lemma iget_in {A} k (v : A) m : iget k m = Some v -> In (k, v) m.
Proof. induction m as [|(a, b) m IH]; cbn; [discriminate|]. destruct (Nat.eqb_spec k a) as [->|]; [intros [= ->]; auto|auto]. Qed.
Lemma iget_some {A} k (m : imap A) : In k (ikeys m) -> exists v, iget k m = Some v /\ In (k, v) m.
Proof.
  unfold ikeys. induction m as [|(a, b) m IH]; cbn; [tauto|]. destruct (Nat.eqb_spec k a) as [->|Ne]; [eauto|]. intros [->|I]; [congruence|]. destruct (IH I) as (v & -> & J). eauto.
Qed.
Lemma iput_incl {A} k (v : A) m e : In e (iput k v m) -> e = (k, v) \/ In e m.
Proof.
  induction m as [|(a, b) m IH]; cbn [iput]; [cbn; intuition|]. destruct (k =? a); [cbn; intuition|]. destruct (k <? a); [cbn; intuition|]. intros [<-|I]; [right; now left|]. apply IH in I as [->|I]; [auto|right; now right].
Qed.
Lemma iput_key {A} k (v : A) m j : In j (ikeys (iput k v m)) -> j = k \/ In j (ikeys m).
Proof. unfold ikeys. intros I. apply in_map_iff in I as ((a & b) & <- & I). apply iput_incl in I as [[= -> ->]|I]; auto. right. apply in_map_iff. exists (a, b). auto. Qed.
Lemma iupdate_incl {A} (b a : imap A) e : In e (iupdate a b) -> In e a \/ In e b.
Proof.
  unfold iupdate. revert a. induction b as [|(k, v) b IH]; cbn [fold_left fst snd]; intros a I; auto. apply IH in I as [I|I]; [|cbn; auto]. apply iput_incl in I as [->|I]; cbn; auto.
Qed.

Section Es.
Variable es : list exn.

(** ** The three passes *)
Lemma journals_re_good line : forall kb acc, fit_journals_re kb = true -> good es (fun m => forall e, In e m -> In e acc \/ In (snd e) (map fst kb)) (identify_journals_re line kb acc).
Proof.
  induction kb as [|(p, t) kb IH]; intros acc F; cbn [identify_journals_re]; [cbn; auto|]. cbn [fit_journals_re forallb fst] in F. apply andb_true_iff in F as [F1 F2].
  destruct (compile noflags p) as [q|]; [|discriminate]. cbn [bind].
  assert (forall acc', (forall e, In e acc' -> In e acc \/ In (snd e) (map fst ((p, t) :: kb))) ->
    good es (fun m => forall e, In e m -> In e acc \/ In (snd e) (map fst ((p, t) :: kb))) (identify_journals_re line kb acc')) as Q.
  { intros acc' A. eapply good_impl; [|apply IH; exact F2]. intros m M e I. apply M in I as [I|I]; auto. right. now right. }
  destruct (re_search (rx_re q) line) as [o|] eqn:S; apply Q; [|auto]. intros e I. apply iput_incl in I as [->|I]; auto. right. left. cbn [snd].
  symmetry. eapply only_word_ok; eauto. now apply re_search_ok.
Qed.
Lemma hits_good p std subject : always_named p "numn" = true -> always 1 (rx_re p) = true -> forall ms s, (forall o, In o ms -> obj_ok subject (rx_re p) o) ->
  ikeys (r_repl s) = ikeys (r_len s) -> good es (fun s' => ikeys (r_repl s') = ikeys (r_len s')) (repnum_hits p std subject ms s).
Proof.
  intros N O. induction ms as [|o ms IH]; intros s H K; cbn [repnum_hits]; [exact K|]. destruct (always_named_ok _ _ o _ N (H o ltac:(now left))) as (t & ->). cbn [bind].
  pose proof (obj_always _ _ _ 1 (H o ltac:(now left)) O ltac:(discriminate)) as G. destruct (g_span o 1) as [(a, b)|]; [|congruence]. apply IH; [intros; apply H; now right|].
  cbn. now apply iput_keys.
Qed.
Lemma categs_good kb : fit_reports kb = true -> forall cs s, incl cs (map fst (rk_std kb)) ->
  ikeys (r_repl s) = ikeys (r_len s) -> good es (fun s' => ikeys (r_repl s') = ikeys (r_len s')) (repnum_categs kb cs s).
Proof.
  intros F. unfold fit_reports in F. rewrite forallb_forall in F. induction cs as [|c cs IH]; intros s Inc K; cbn [repnum_categs]; [exact K|]. specialize (F c (Inc c ltac:(now left))).
  apply andb_true_iff in F as [F1 F2]. destruct (assoc_rep c (rk_search kb)) as [p|]; [|discriminate]. destruct (assoc_rep c (rk_std kb)) as [std|]; [|discriminate].
  apply andb_true_iff in F2 as [F2 F3]. eapply good_bind; [apply hits_good; eauto; intros; now apply finditer_obj|]. intros s' K'. apply IH; auto. intros x I. apply Inc. now right.
Qed.
Lemma reports_good line kb : fit_reports kb = true -> good es (fun s => ikeys (r_repl s) = ikeys (r_len s)) (identify_report_numbers line kb).
Proof. intros F. apply categs_good; auto. intros c I. now apply sort_desc_in. Qed.
Lemma journals_good kb : forall titles s, (forall t, In t titles -> is_some (assoc_str t (jk_search kb)) = true) ->
  good es (fun s' => (forall e, In e (j_matches s') -> In e (j_matches s) \/ In (snd e) titles) /\ (forall k, In k (map fst (j_count s')) -> In k (map fst (j_count s)) \/ In k titles))
    (identify_journals_from (jk_search kb) titles s).
Proof.
  induction titles as [|t titles IH]; intros s F; cbn [identify_journals_from]; [cbn; auto|]. pose proof (F t ltac:(now left)) as Ft. destruct (assoc_str t (jk_search kb)) as [r|]; [|discriminate].
  eapply good_impl; [|apply IH; intros; apply F; now right]. intros s' (A & B).
  set (ms := re_finditer r (j_line s)) in *. clearbody ms.
  assert ((forall e, In e (j_matches (fold_left (journal_hit t) ms s)) -> In e (j_matches s) \/ snd e = t) /\ (forall k, In k (map fst (j_count (fold_left (journal_hit t) ms s))) -> In k (map fst (j_count s)) \/ k = t)) as (C & D).
  { clear. revert s. induction ms as [|o ms IH]; intros s; cbn [fold_left]; [auto|]. destruct (IH (journal_hit t s o)) as (P & Q). split.
    - intros e I. apply P in I as [I|I]; auto. cbn [journal_hit j_matches] in I. apply iput_incl in I as [->|I]; auto.
    - intros k I. apply Q in I as [I|I]; auto. cbn [journal_hit j_count] in I. clear - I. induction (j_count s) as [|(a, n) m IHm]; cbn in *; [intuition|]. destruct (eqs_spec t a) as [->|]; cbn in *; intuition. }
  split.
  - intros e I. apply A in I as [I|I]; [apply C in I as [I|I]|]; cbn; auto.
  - intros k I. apply B in I as [I|I]; [apply D in I as [I|I]|]; cbn; auto.
Qed.
Lemma ibid_known w : ibid_text w -> is_ibid_text w = true.
Proof. intros (a & b & c & [-> | ->] & [-> | ->] & [-> | ->] & ->); reflexivity. Qed.
Lemma ibids_good line e : In e (fst (identify_ibids line)) -> is_ibid_text (snd e) = true.
Proof.
  unfold identify_ibids. pose proof (finditer_obj (rx_re re_ibid) line) as F. revert F. generalize (re_finditer (rx_re re_ibid) line). intros ms F.
  assert (forall st, (forall e, In e (fst st) -> is_ibid_text (snd e) = true) -> forall e, In e (fst (fold_left (fun st o => (iput (m_start o) (slice (m_start o) (m_end o) line) (fst st), mask (m_start o) (m_end o) (m_end o - m_start o) (snd st))) ms st)) -> is_ibid_text (snd e) = true) as Q.
  { induction ms as [|o ms IH]; intros st H; cbn [fold_left]; auto. apply IH; [intros; apply F; now right|]. cbn [fst]. intros e0 I. apply iput_incl in I as [->|I]; auto. cbn [snd].
    destruct (F o ltac:(now left)) as (x & x' & A & A' & M & -> & -> & _ & _). apply ibid_lang in M as (w & Fw & W). rewrite (fwd_slice line x w x' A Fw). now apply ibid_known. }
  apply Q. intros ? [].
Qed.
Lemma publishers_good line kb e : In e (identify_publishers line kb) -> assoc_str (snd e) kb <> None.
Proof.
  unfold identify_publishers. intros I. assert (In (snd e) (map fst kb)) as J.
  { assert (forall todo acc, (forall e, In e acc -> In (snd e) (map fst kb)) -> incl todo kb ->
      forall e, In e (fold_left (fun acc e => fold_left (fun acc o => iput (m_start o) (fst e) acc) (re_finditer (rx_re (fst (snd e))) line) acc) todo acc) -> In (snd e) (map fst kb)) as Q.
    { induction todo as [|b todo IH]; intros acc A Inc; cbn [fold_left]; auto. apply IH; [|intros x Hx; apply Inc; now right].
      generalize (re_finditer (rx_re (fst (snd b))) line). intros ms. revert acc A. induction ms as [|o ms IHm]; intros acc A; cbn [fold_left]; auto. apply IHm. intros e0 J. apply iput_incl in J as [->|J]; auto.
      cbn [snd]. apply in_map. apply Inc. now left. }
    apply (Q kb []); auto; [intros ? []|apply incl_refl]. }
  intros N. now apply assoc_none in N.
Qed.

(** ** Rebuilding the line *)
Lemma numeration_tag_good i : num_ok i -> good es (fun _ => True) (create_numeration_tag i).
Proof.
  intros (V & _). unfold create_numeration_tag. destruct (n_volume i) as [v|]; [|discriminate]. destruct (n_series i) as [[|c t]|]; cbn; auto.
Qed.
Lemma journal_numeration_good line chunk sp series : good es (fun _ => True) (journal_numeration line chunk sp series).
Proof.
  unfold journal_numeration. destruct (find_numeration_ok (skipn sp line)) as (r & -> & R). cbn [bind].
  assert (exists r2, match r with Some _ => Ok r | None => find_numeration_more (chunk ++ py " " ++ skipn sp line) end = Ok r2 /\ forall i, r2 = Some i -> num_ok i) as (r2 & -> & R2).
  { destruct r as [i|]; [exists (Some i); split; auto; intros j [= <-]; apply R; auto|]. apply find_numeration_more_ok. }
  cbn [bind]. destruct r2 as [i|]; [|exact I]. specialize (R2 i eq_refl). destruct R2 as (V & _). unfold create_numeration_tag. cbn [n_series n_volume n_year n_page n_page_end].
  destruct (n_volume i) as [v|]; [|discriminate]. cbn [need bind]. destruct (if truthy_str series && negb (truthy_str (n_series i)) then series else n_series i) as [[|c t]|]; exact I.
Qed.
Definition known (std : list (str * str)) (info : str) : Prop := is_ibid_text info = true \/ assoc_str info std <> None.
Lemma add_journal_good line info previous sp idx extras std : known std info -> good es (fun _ => True) (add_tagged_journal line info previous sp idx extras std).
Proof.
  intros Kn. unfold add_tagged_journal.
  assert (forall chunk series title, good es (fun _ => True) (let* r := journal_numeration line chunk (skip_ponctuation line (idx + length info + extras)) series in
    match r with None => Ok ([], sp, previous) | Some (chunk', sp', s) => Ok (chunk', sp', Some (title, s)) end)) as F.
  { intros chunk series title. eapply good_bind; [apply journal_numeration_good|]. intros [((c & s) & q)|] _; exact I. }
  destruct (is_ibid_text info) eqn:Ib.
  - destruct previous as [(t, s)|]; [apply F|exact I].
  - destruct Kn as [Kn|Kn]; [congruence|]. destruct (assoc_str info std) as [t|]; [|congruence]. destruct (rsplit1 59%N t) as [(a, b)|]; apply F.
Qed.
Record lm_ok (M : lmatches) (std : list (str * str)) (pk : publishers_kb) : Prop := mklmok {
  lo_j : forall e, In e (lm_journals M) -> known std (snd e);
  lo_r : ikeys (lm_reprepl M) = ikeys (lm_replen M);
  lo_p : forall e, In e (lm_publishers M) -> assoc_str (snd e) pk <> None }.
Definition todo_ok (M : lmatches) (e : nat * kind) : Prop :=
  In (fst e) (match snd e with KJournal => ikeys (lm_journals M) | KReport => ikeys (lm_reprepl M) | KPublisher => ikeys (lm_publishers M) end).
Lemma types_ok M e : In e (get_replacement_types (ikeys (lm_journals M)) (ikeys (lm_reprepl M)) (ikeys (lm_publishers M))) -> todo_ok M e.
Proof.
  unfold get_replacement_types, put_kind.
  assert (forall k l m, (forall i, In i l -> todo_ok M (i, k)) -> (forall e, In e m -> todo_ok M e) -> forall e, In e (fold_left (fun m i => iput i k m) l m) -> todo_ok M e) as Q.
  { intros k. induction l as [|i l IH]; intros m A B; cbn [fold_left]; auto. apply IH; [intros; apply A; now right|]. intros e0 J. apply iput_incl in J as [->|J]; auto. apply A. now left. }
  apply Q; [auto|]. apply Q; [auto|]. apply Q; [auto|]. intros ? [].
Qed.
Lemma rebuild_good line M std pk : lm_ok M std pk -> forall todo sp previous, (forall e, In e todo -> todo_ok M e) -> good es (fun _ => True) (rebuild_loop line M std pk todo sp previous).
Proof.
  intros L. induction todo as [|(i, k) todo IH]; intros sp previous T; cbn [rebuild_loop]; [exact I|]. pose proof (T _ ltac:(now left)) as Ti. unfold todo_ok in Ti. cbn [fst snd] in Ti.
  assert (forall e, In e todo -> todo_ok M e) as T' by (intros; apply T; now right). destruct k.
  - destruct (iget_some _ _ Ti) as (info & -> & In_). cbn [key_err bind]. destruct (account_for_stripped_whitespace _ _ _) as (idx, extras).
    eapply good_bind; [apply add_journal_good; exact (lo_j _ _ _ L _ In_)|]. intros ((c & s) & p) _. eapply good_bind; [now apply IH|]. intros r _. exact I.
  - destruct (iget_some _ _ Ti) as (repl & -> & _). rewrite (lo_r _ _ _ L) in Ti. destruct (iget_some _ _ Ti) as (len & -> & _). cbn [key_err bind].
    destruct (account_for_stripped_whitespace _ _ _) as (idx, extras). destruct (add_tagged_report_number _ _ _ _ _ _) as (c, s). eapply good_bind; [now apply IH|]. intros r _. exact I.
  - destruct (iget_some _ _ Ti) as (name & -> & In_). cbn [key_err bind]. destruct (account_for_stripped_whitespace _ _ _) as (idx, extras). unfold add_tagged_publisher.
    pose proof (lo_p _ _ _ L _ In_) as Pn. cbn [snd] in Pn. destruct (assoc_str name pk) as [(p & repl)|]; [|congruence]. cbn [bind]. eapply good_bind; [now apply IH|]. intros r _. exact I.
Qed.

(** ** Authors and collaborations *)
Definition apos_ok (a : apos) : Prop := is_some (a_names a) = true.
Lemma positions_good p subject line : forallb (named p) ["et"; "et2"; "es"; "ee"; "multi_auth"; "multi_surs"]%string = true -> always_named p "author_names" = true ->
  forall ms from, (forall o, In o ms -> obj_ok subject (rx_re p) o) -> good es (Forall apos_ok) (author_positions p subject line ms from).
Proof.
  intros Nm A. rewrite forallb_forall in Nm. induction ms as [|o ms IH]; intros from H; cbn [author_positions]; [constructor|].
  assert (forall o, In o ms -> obj_ok subject (rx_re p) o) as H' by (intros; apply H; now right). destruct (mem_ch 95%N _); [now apply IH|].
  destruct (named_ok p subject o "et") as (et & ->); [apply Nm; cbn; auto|]. cbn [bind].
  assert (exists et2, (if truthy_str et then Ok None else group_named p subject o (py "et2")) = Ok et2) as (et2 & ->).
  { destruct (truthy_str et); [eauto|]. apply named_ok. apply Nm. cbn. auto. }
  cbn [bind]. destruct (named_ok p subject o "es") as (? & ->); [apply Nm; cbn; auto|]. cbn [bind]. destruct (named_ok p subject o "ee") as (? & ->); [apply Nm; cbn; auto|]. cbn [bind].
  destruct (named_ok p subject o "multi_auth") as (? & ->); [apply Nm; cbn; auto 10|]. cbn [bind]. destruct (named_ok p subject o "multi_surs") as (? & ->); [apply Nm; cbn; auto 10|]. cbn [bind].
  destruct (always_named_ok p subject o "author_names" A (H o ltac:(now left))) as (t & ->). cbn [bind]. eapply good_bind; [now apply IH|]. intros rest R. constructor; auto. reflexivity.
Qed.
Lemma tag_author_good near out a : forallb (named near) ["es"; "ee"]%string = true -> apos_ok a -> good es (fun _ => True) (tag_author near out a).
Proof.
  intros Nm A. rewrite forallb_forall in Nm. unfold tag_author. eapply (good_bind es (fun _ => True)).
  - destruct (existsb _ _); [exact I|]. destruct (_ && _); [|exact I]. destruct (re_match (rx_re near) (a_before a)) as [w|]; [|exact I].
    destruct (named_ok near (a_before a) w "es") as (e1 & ->); [apply Nm; cbn; auto|]. cbn [bind].
    assert (exists e2, (if truthy_str e1 then Ok None else group_named near (a_before a) w (py "ee")) = Ok e2) as (e2 & ->).
    { destruct (truthy_str e1); [eauto|]. apply named_ok, Nm. cbn. auto. }
    cbn [bind]. destruct (_ || _); exact I.
  - intros (start, dump) _. destruct (a_ed a).
    + unfold apos_ok in A. destruct (a_names a); [|discriminate]. exact I.
    + destruct dump; exact I.
Qed.
Lemma tag_authors_good near : forallb (named near) ["es"; "ee"]%string = true -> forall l out, Forall apos_ok l -> good es (fun _ => True) (tag_authors near out l).
Proof. intros Nm. induction l as [|a l IH]; intros out F; cbn [tag_authors]; [exact I|]. inversion F; subst. eapply good_bind; [now apply tag_author_good|]. intros out' _. now apply IH. Qed.
Lemma authors_good E line kb : fit_env E = true -> good es (fun _ => True) (identify_and_tag_authors E line kb).
Proof.
  intros F. unfold fit_env in F. apply andb_true_iff in F as [F F3]. apply andb_true_iff in F as [F1 F2]. unfold identify_and_tag_authors.
  set (out := fold_left _ kb line). destruct (_ <? _).
  - eapply good_bind; [apply positions_good; auto; intros; now apply finditer_obj|]. intros ps P. apply tag_authors_good; auto. now apply Forall_rev.
  - eapply good_bind; [apply positions_good; auto; intros; now apply finditer_obj|]. intros ps P. apply tag_authors_good; auto. now apply Forall_rev.
Qed.
Lemma collab_good p subject : always 1 (rx_re p) = true -> forall ms line, (forall o, In o ms -> obj_ok subject (rx_re p) o) -> good es (fun _ => True) (tag_collab subject ms line).
Proof.
  intros A. induction ms as [|o ms IH]; intros line H; cbn [tag_collab]; [exact I|]. pose proof (obj_always _ _ _ 1 (H o ltac:(now left)) A ltac:(discriminate)) as G. unfold g_text.
  destruct (g_span o 1) as [(a, b)|]; [|congruence]. apply IH. intros; apply H; now right.
Qed.
Lemma collabs_good : forall kb line, fit_collabs kb = true -> good es (fun _ => True) (identify_and_tag_collaborations line kb).
Proof.
  induction kb as [|(n, p) kb IH]; intros line F; cbn [identify_and_tag_collaborations]; [exact I|]. cbn [fit_collabs forallb snd] in F. apply andb_true_iff in F as [F1 F2].
  eapply good_bind; [apply (collab_good p); auto|intros line' _; now apply IH]. intros o J. apply in_rev in J. now apply finditer_obj.
Qed.

(** ** The whole *)
Lemma process_good E line M std K : fit_env E = true -> fit_collabs (k_collabs K) = true -> lm_ok M std (k_publishers K) -> good es (fun _ => True) (process_reference_line E line M std K).
Proof.
  intros Fe Fc L. unfold process_reference_line. eapply (good_bind es (fun _ => True)).
  - destruct (_ =? 0); [exact I|]. eapply good_bind; [apply rebuild_good; [exact L|intros e; apply types_ok]|]. intros l _. exact I.
  - intros l _. eapply good_bind; [now apply authors_good|]. intros l' _. eapply good_bind; [now apply collabs_good|]. intros l'' _. exact I.
Qed.
Lemma tag_good E line K titles : fit_env E = true -> fit_kbs K = true -> nokey titles ->
  good es (fun r => let '(_, t, std) := r in nokey t /\ std = supdate (jk_std (k_journals K)) (k_journals_re K)) (tag_reference_line E line K titles).
Proof.
  intros Fe F Nk. unfold fit_kbs in F. rewrite !andb_true_iff in F. destruct F as ((((F1 & F2) & F3) & F4) & _). unfold fit_journals in F1. apply andb_true_iff in F1 as [F1 F5]. rewrite forallb_forall in F1.
  unfold tag_reference_line. set (std := supdate _ _). set (l1 := working_line1 E line). clearbody l1.
  eapply good_bind; [apply journals_re_good; exact F2|]. intros jm Jm. destruct (remove_and_record_multiple_spaces_in_line _) as (spaces, l2).
  eapply good_bind; [apply reports_good; exact F3|]. intros r Rk.
  eapply good_bind; [apply (journals_good (k_journals K) (jk_keys (k_journals K)) (mkjst [] (r_line r) []))|].
  { intros t I. specialize (F1 t I). now apply andb_true_iff in F1 as [F1 _]. }
  cbn [j_matches j_count map]. intros j (Jj & Jc).
  assert (~ In (py "key") (map fst (j_count j))) as Nc.
  { intros I. apply Jc in I as [[]|I]. apply negb_true_iff in F5. unfold mem_str in F5. rewrite <- not_true_iff_false, existsb_exists in F5. apply F5. exists (py "key"). split; auto. }
  destruct (sum_2_nokey _ _ Nk Nc) as (-> & Nk'). cbn [bind].
  assert (forall e, In e (iupdate jm (j_matches j)) -> known std (snd e)) as Kn.
  { intros e I. apply iupdate_incl in I as [I|I].
    - apply Jm in I as [[]|I]. right. unfold std. clear - I. revert I. generalize (jk_std (k_journals K)). induction (k_journals_re K) as [|(p, t) kb IH]; cbn [map fst]; intros m I; [destruct I|].
      change (supdate m ((p, t) :: kb)) with (supdate (sput p t m) kb). destruct I as [<-|I]; [|now apply IH]. apply assoc_supdate_present. rewrite assoc_sput. destruct (eqs_spec p p); congruence.
    - apply Jj in I as [[]|I]. specialize (F1 _ I). apply andb_true_iff in F1 as [_ F1]. apply orb_true_iff in F1 as [F1|F1]; [now left|]. right. apply assoc_supdate_present. destruct (assoc_str _ _); [discriminate|discriminate F1]. }
  destruct (if contains (py "IBID") (upper (j_line j)) then _ else _) as (jm', l3) eqn:Ej.
  assert (forall e, In e jm' -> known std (snd e)) as Kn'.
  { destruct (contains _ _).
    - pose proof (ibids_good (j_line j)) as Ib. destruct (identify_ibids (j_line j)) as (ib, l). injection Ej as <- <-. intros e I. apply iupdate_incl in I as [I|I]; auto. left. now apply Ib.
    - injection Ej as <- <-. exact Kn. }
  eapply good_bind; [apply process_good; auto; constructor; cbn; auto; intros e; apply publishers_good|]. intros tagged _. cbn. auto.
Qed.
End Es.
