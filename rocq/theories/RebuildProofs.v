(** Rebuilding a line from what was recognised in it: every recognised text is replaced by its tag and the rest is kept. *)
From Coq Require Import List Arith NArith Bool String Lia.
From Verif Require Import PyStr ListFacts Regex RegexMeta Patterns Elements RecordProofs Numeration Tag SpanProofs.
Import ListNotations.
Local Open Scope nat_scope.
Local Notation length := List.length.

(** What is recognised at a place of the line: a text of some length and what is put for it *)
Inductive item :=
| Report (len : nat) (number : str)
| Publisher (len : nat) (name : str)
| Title (len : nat) (title : str) (series : option str)
| Ibid (len : nat).
(** the items of the matches, at their places in the line *)
Definition item_of (M : lmatches) (std : list (str * str)) (pk : publishers_kb) (i : nat) (k : kind) : option (nat * item) :=
  match k with
  | KJournal =>
    match iget i (lm_journals M) with
    | Some t =>
      let (p, x) := account_for_stripped_whitespace (lm_spaces M) (Some (length t)) i in
      if is_ibid_text t then Some (p, Ibid (length t + x))
      else match assoc_str t std with
           | Some s => Some (p, match rsplit1 59%N s with
                                | Some (title, series) => Title (length t + x) title (Some (strip series))
                                | None => Title (length t + x) s None
                                end)
           | None => None
           end
    | None => None
    end
  | KReport =>
    match iget i (lm_replen M), iget i (lm_reprepl M) with
    | Some n, Some r => let (p, x) := account_for_stripped_whitespace (lm_spaces M) (Some n) i in Some (p, Report (n + x) r)
    | _, _ => None
    end
  | KPublisher =>
    match iget i (lm_publishers M) with
    | Some t => let (p, x) := account_for_stripped_whitespace (lm_spaces M) None i in
                match assoc_str t pk with Some (_, r) => Some (p, Publisher (length t + x) r) | None => None end
    | None => None
    end
  end.
Fixpoint items_of (M : lmatches) (std : list (str * str)) (pk : publishers_kb) (todo : imap kind) : option (list (nat * item)) :=
  match todo with
  | [] => Some []
  | (i, k) :: t => match item_of M std pk i k, items_of M std pk t with Some x, Some l => Some (x :: l) | _, _ => None end
  end.

Definition closing (s : str) : Prop := s = py "]" \/ s = py ")".
(** a run of the punctuation after a title, as long as possible *)
Definition punct_run (p rest : str) : Prop :=
  Forall (fun c => In c (py ".:-)")) p /\ match rest with c :: _ => ~ In c (py ".:-)") | [] => True end.
(** volume, page and year behind the title; else looked for around it *)
Inductive numbered (chunk text : str) (i : numinfo) : Prop :=
| behind : find_numeration text = Ok (Some i) -> numbered chunk text i
| around : find_numeration text = Ok None -> find_numeration_more (chunk ++ py " " ++ text) = Ok (Some i) -> numbered chunk text i.
Definition not_numbered (chunk text : str) : Prop := find_numeration text = Ok None /\ find_numeration_more (chunk ++ py " " ++ text) = Ok None.
(** the series of the title is used when the numeration has none *)
Definition series_of (series : option str) (i : numinfo) : option str :=
  match n_series i, series with Some (_ :: _), _ => n_series i | _, Some (_ :: _) => series | _, _ => n_series i end.
Definition numeration_tags (series : option str) (i : numinfo) : str :=
  py " <cds.VOL>" ++ match series with Some s => s | None => [] end ++ show (n_volume i) ++ py "</cds.VOL>"
  ++ match n_year i with Some (c :: y) => py " <cds.YR>(" ++ (c :: y) ++ py ")</cds.YR>" | _ => [] end
  ++ py " <cds.PG>" ++ show (n_page i) ++ match n_page_end i with Some (c :: y) => py "-" ++ c :: y | _ => [] end ++ py "</cds.PG>".

(** [rebuilds its used p s out]: when the first [used] characters of the line are dealt with and s is the rest of it, the
    items give out; p is the last title.  Nothing is said from an item on that begins inside text already used or
    when the line is at its end. *)
Inductive rebuilds : list (nat * item) -> nat -> prev -> str -> str -> Prop :=
| rb_end used p s : rebuilds [] used p s s
| rb_overlap i x its used p s out : i < used -> rebuilds ((i, x) :: its) used p s out
| rb_beyond i x its used p s out : s = [] \/ used + length s < i -> rebuilds ((i, x) :: its) used p s out
| rb_report i n num its used p before sep m close rest out :
    i = used + length before + length sep -> length m = n \/ close = [] /\ rest = [] /\ length m <= n ->
    length sep <= 1 -> (sep = [] -> before = []) ->
    closing close \/ close = [] /\ (forall c r, rest = c :: r -> ~ closing [c]) ->
    rebuilds its (i + n + length close) p rest out ->
    rebuilds ((i, Report n num) :: its) used p (before ++ sep ++ m ++ close ++ rest)
      (before ++ py "<cds.REPORTNUMBER>" ++ num ++ py "</cds.REPORTNUMBER>" ++ out)
| rb_publisher i n name its used p before m rest out :
    i = used + length before -> length m = n \/ rest = [] /\ length m <= n ->
    rebuilds its (i + n) p rest out ->
    rebuilds ((i, Publisher n name) :: its) used p (before ++ m ++ rest)
      (before ++ py "<cds.PUBLISHER>" ++ name ++ py "</cds.PUBLISHER>" ++ out)
| rb_title i n title series its used p before m punct text num out :
    i = used + length before -> length m = n \/ punct = [] /\ text = [] /\ length m <= n -> punct_run punct text ->
    let chunk := before ++ py "<cds.JOURNAL>" ++ title ++ py "</cds.JOURNAL>" in
    numbered chunk text num ->
    rebuilds its (i + n + length punct + n_len num) (Some (title, series_of series num)) (skipn (n_len num) text) out ->
    rebuilds ((i, Title n title series) :: its) used p (before ++ m ++ punct ++ text) (chunk ++ numeration_tags (series_of series num) num ++ out)
| rb_title_alone i n title series its used p before m punct text out :
    i = used + length before -> length m = n \/ punct = [] /\ text = [] /\ length m <= n -> punct_run punct text ->
    not_numbered (before ++ py "<cds.JOURNAL>" ++ title ++ py "</cds.JOURNAL>") text ->
    rebuilds its used p (before ++ m ++ punct ++ text) out ->
    rebuilds ((i, Title n title series) :: its) used p (before ++ m ++ punct ++ text) out
| rb_ibid i n title series its used before m punct text num out :
    i = used + length before -> length m = n \/ punct = [] /\ text = [] /\ length m <= n -> punct_run punct text ->
    let chunk := before ++ py " <cds.JOURNALibid>" ++ title ++ py "</cds.JOURNALibid>" in
    numbered chunk text num ->
    rebuilds its (i + n + length punct + n_len num) (Some (title, series_of series num)) (skipn (n_len num) text) out ->
    rebuilds ((i, Ibid n) :: its) used (Some (title, series)) (before ++ m ++ punct ++ text) (chunk ++ numeration_tags (series_of series num) num ++ out)
| rb_ibid_alone i n title series its used before m punct text out :
    i = used + length before -> length m = n \/ punct = [] /\ text = [] /\ length m <= n -> punct_run punct text ->
    not_numbered (before ++ py " <cds.JOURNALibid>" ++ title ++ py "</cds.JOURNALibid>") text ->
    rebuilds its used (Some (title, series)) (before ++ m ++ punct ++ text) out ->
    rebuilds ((i, Ibid n) :: its) used (Some (title, series)) (before ++ m ++ punct ++ text) out
| rb_ibid_first i n its used s out : rebuilds its used None s out -> rebuilds ((i, Ibid n) :: its) used None s out.

(** ** Proof *)
Lemma count_punct_run s : exists p r, s = p ++ r /\ length p = count_punct s /\ punct_run p r.
Proof.
  induction s as [|c s IH]; cbn [count_punct]; [exists [], []; repeat split; constructor|]. destruct (mem_ch c (py ".:-)")) eqn:M.
  - destruct IH as (p & r & -> & L & F & R). exists (c :: p), r. cbn. split; [reflexivity|]. split; [now rewrite L|]. split; auto. constructor; auto. now apply ListFacts.mem_ch_in.
  - exists [], (c :: s). repeat split; auto. intros I. apply ListFacts.mem_ch_in in I. congruence.
Qed.
Lemma skipn_cut (s : str) a b : a <= b -> skipn a s = slice a b s ++ skipn b s.
Proof.
  intros H. unfold slice. rewrite <- (firstn_skipn (b - a) (skipn a s)) at 1. f_equal. rewrite skipn_skipn. f_equal. lia.
Qed.
Lemma slice_len_le (s : str) a b : a <= length s -> length (slice a b s) = min (b - a) (length s - a).
Proof. intros H. unfold slice. rewrite firstn_length, skipn_length. reflexivity. Qed.
(** the text of an item that begins at i, behind text used up to u *)
Lemma item_text line u i n : u <= i -> i <= length line -> exists before m, skipn u line = before ++ m ++ skipn (i + n) line /\ slice u i line = before /\ i = u + length before
  /\ (length m = n \/ skipn (i + n) line = [] /\ length m <= n).
Proof.
  intros U I. exists (slice u i line), (slice i (i + n) line). split; [|split; [reflexivity|]].
  - rewrite <- skipn_cut by lia. apply skipn_cut. exact U.
  - rewrite !slice_len_le by lia. split; [lia|]. destruct (le_lt_dec (i + n) (length line)); [left; lia|right]. split; [|lia]. apply skipn_all2. lia.
Qed.
Lemma tags_ok y se v p e n t : create_numeration_tag (mknum y se v p e n) = Ok t -> t = numeration_tags se (mknum y se v p e n).
Proof.
  unfold create_numeration_tag, numeration_tags. cbn [n_series n_volume n_year n_page n_page_end]. intros H. inv_ok H. apply (f_equal (fun r => match r with Ok a => a | Err _ => [] end)) in H. cbv beta iota in H. subst t.
  assert (a = match se with Some s => s | None => [] end ++ show v) as ->.
  { destruct se as [[|c u]|]; cbn in E; try (inversion E; reflexivity). destruct v; cbn in E; inversion E. reflexivity. }
  destruct y as [[|c1 y]|], e as [[|c2 e]|]; cbn [truthy_str show]; rewrite <- ?app_assoc; cbn [List.app]; rewrite <- ?app_assoc; reflexivity.
Qed.
Lemma tags_fields a b se : n_year a = n_year b -> n_volume a = n_volume b -> n_page a = n_page b -> n_page_end a = n_page_end b -> numeration_tags se a = numeration_tags se b.
Proof. unfold numeration_tags. intros -> -> -> ->. reflexivity. Qed.
Lemma numeration_ok line chunk after series r : journal_numeration line chunk after series = Ok r ->
  match r with
  | None => not_numbered chunk (skipn after line)
  | Some (chunk', sp, s) => exists i, numbered chunk (skipn after line) i /\ sp = after + n_len i /\ s = series_of series i
                                      /\ chunk' = chunk ++ numeration_tags (series_of series i) i
  end.
Proof.
  unfold journal_numeration. intros H. inv_ok H. inv_ok H.
  assert (match a0 with Some i => numbered chunk (skipn after line) i | None => not_numbered chunk (skipn after line) end) as N.
  { destruct a as [i1|]; [inversion E0; subst; now apply behind|]. destruct a0 as [i|]; [now apply around|split; auto]. }
  destruct a0 as [i|]; [|inversion H; subst; exact N]. inv_ok H. injection H as <-. exists i. split; [exact N|]. split; [reflexivity|].
  assert ((if truthy_str series && negb (truthy_str (n_series i)) then series else n_series i) = series_of series i) as S.
  { unfold series_of. destruct series as [[|]|], (n_series i) as [[|]|]; reflexivity. }
  rewrite S in *. split; [reflexivity|]. f_equal. apply tags_ok in E1. rewrite E1. now apply tags_fields.
Qed.
Lemma journal_ok line info previous sp idx x std chunk sp' previous' :
  add_tagged_journal line info previous sp idx x std = Ok (chunk, sp', previous') -> sp <= idx -> idx <= length line ->
  forall i its out, i = idx ->
  (forall it, it = (if is_ibid_text info then Some (Ibid (length info + x))
               else match assoc_str info std with
                    | Some s => Some (match rsplit1 59%N s with
                                      | Some (title, series) => Title (length info + x) title (Some (strip series))
                                      | None => Title (length info + x) s None
                                      end)
                    | None => None
                    end) -> exists y, it = Some y /\ (rebuilds its sp' previous' (skipn sp' line) out -> rebuilds ((i, y) :: its) sp previous (skipn sp line) (chunk ++ out))).
Proof.
  unfold add_tagged_journal. intros H Le Lt i its out -> it ->.
  destruct (item_text line sp idx (length info + x) Le Lt) as (before & m & Es & Eb & Ei & Lm). rewrite Eb in H.
  rewrite Nat.add_assoc in Es, Lm. destruct (count_punct_run (skipn (idx + length info + x) line)) as (pu & text & Ep & Lp & Rp).
  assert (skipn (skip_ponctuation line (idx + length info + x)) line = text) as Et.
  { unfold skip_ponctuation. rewrite <- Lp, Nat.add_comm, <- skipn_skipn, Ep, skipn_app, skipn_all, Nat.sub_diag. reflexivity. }
  assert (skip_ponctuation line (idx + length info + x) = idx + (length info + x) + length pu) as Ek by (unfold skip_ponctuation; rewrite <- Lp; lia).
  assert (length m = length info + x \/ pu = [] /\ text = [] /\ length m <= length info + x) as Lm'.
  { destruct Lm as [Lm|[Nil Lm]]; auto. right. rewrite Nil in Ep. destruct pu, text; try discriminate. auto. }
  rewrite Ep in Es.
  assert (forall chunk0 series title (y : item) pv,
    (let* r := journal_numeration line chunk0 (skip_ponctuation line (idx + length info + x)) series in
     match r with None => Ok ([], sp, previous) | Some (chunk', sp1, s) => Ok (chunk', sp1, Some (title, s)) end) = Ok (chunk, sp', previous') ->
    (forall num, numbered chunk0 text num -> rebuilds its (idx + (length info + x) + length pu + n_len num) (Some (title, series_of series num)) (skipn (n_len num) text) out ->
       rebuilds ((idx, y) :: its) sp pv (before ++ m ++ pu ++ text) (chunk0 ++ numeration_tags (series_of series num) num ++ out)) ->
    (not_numbered chunk0 text -> rebuilds its sp previous (before ++ m ++ pu ++ text) out -> rebuilds ((idx, y) :: its) sp pv (before ++ m ++ pu ++ text) out) ->
    rebuilds its sp' previous' (skipn sp' line) out -> rebuilds ((idx, y) :: its) sp pv (skipn sp line) (chunk ++ out)) as F.
  { intros chunk0 series title y pv Hr Fn Fa R. inv_ok Hr. apply numeration_ok in E. rewrite Et in E. rewrite Es. destruct a as [((c1 & sp1) & s1)|].
    - injection Hr as -> -> <-. destruct E as (num & Nn & -> & -> & ->). rewrite <- app_assoc. apply Fn; auto.
      rewrite <- Et, skipn_skipn. rewrite Ek in R. rewrite Ek. rewrite (Nat.add_comm (n_len num)). exact R.
    - injection Hr as <- <- <-. cbn [app]. apply Fa; auto. now rewrite <- Es. }
  destruct (is_ibid_text info) eqn:Ib.
  - eexists. split; [reflexivity|]. destruct previous as [(title & series)|].
    + eapply F; [exact H| |].
      * intros num Nn R. apply (rb_ibid idx (length info + x)); auto.
      * intros Nn R. apply (rb_ibid_alone idx (length info + x)); auto. 
    + injection H as <- <- <-. intros R. cbn [app]. now apply rb_ibid_first.
  - destruct (assoc_str info std) as [t|]; [|discriminate]. eexists. split; [reflexivity|]. destruct (rsplit1 59%N t) as [(title & series)|].
    + eapply F; [exact H| |].
      * intros num Nn R. apply (rb_title idx (length info + x)); auto.
      * intros Nn R. apply (rb_title_alone idx (length info + x)); auto.
    + eapply F; [exact H| |].
      * intros num Nn R. apply (rb_title idx (length info + x)); auto.
      * intros Nn R. apply (rb_title_alone idx (length info + x)); auto.
Qed.
Lemma not_closing c : closing_brace (Some c) = false -> ~ closing [c].
Proof. cbn. intros H [E|E]; injection E as ->; discriminate. Qed.
Lemma report_ok line len num sp idx x chunk sp' its p out : add_tagged_report_number line len num sp idx x = (chunk, sp') -> sp <= idx -> idx <= length line ->
  rebuilds its sp' p (skipn sp' line) out -> rebuilds ((idx, Report (len + x) num) :: its) sp p (skipn sp line) (chunk ++ out).
Proof.
  unfold add_tagged_report_number. intros H Le Lt. injection H as <- <-. rewrite <- Nat.add_assoc.
  assert (exists before sep, (if sp + 1 <=? idx then slice sp (idx - 1) line else slice sp idx line) = before /\ skipn sp line = before ++ sep ++ skipn idx line
    /\ idx = sp + length before + length sep /\ length sep <= 1 /\ (sep = [] -> before = [])) as (before & sep & -> & Es & Ei & L1 & N).
  { destruct (Nat.leb_spec (sp + 1) idx).
    - exists (slice sp (idx - 1) line), (slice (idx - 1) idx line). rewrite !slice_len_le by lia. split; [reflexivity|]. split; [|split; [lia|split; [lia|]]].
      + rewrite <- skipn_cut by lia. apply skipn_cut. lia.
      + intros E. apply (f_equal (@length ch)) in E. rewrite slice_len_le in E by lia. cbn in E. lia.
    - assert (sp = idx) as -> by lia. exists (slice idx idx line), []. rewrite slice_len_le, Nat.sub_diag by lia. cbn. unfold slice. rewrite Nat.sub_diag. cbn. repeat split; lia. }
  set (e := idx + (len + x)). assert (skipn idx line = slice idx e line ++ skipn e line) as Em by (apply skipn_cut; unfold e; lia).
  assert (length (slice idx e line) = len + x \/ skipn e line = [] /\ length (slice idx e line) <= len + x) as Lm.
  { rewrite slice_len_le by lia. unfold e. destruct (le_lt_dec (idx + (len + x)) (length line)); [left; lia|right]. split; [apply skipn_all2; lia|lia]. }
  intros R. rewrite Es, Em. rewrite <- app_assoc. unfold wrap. rewrite <- !app_assoc.
  destruct (nth_error line e) as [c|] eqn:Nc.
  - assert (skipn e line = c :: skipn (e + 1) line) as Ec.
    { rewrite (skipn_cut line e (e + 1)) by lia. replace (slice e (e + 1) line) with [c]; [reflexivity|]. unfold slice. replace (e + 1 - e) with 1 by lia.
      destruct (skipn e line) as [|d t] eqn:Sk; [|cbn]; rewrite <- (firstn_skipn e line), Sk in Nc.
      - rewrite app_nil_r in Nc. assert (nth_error (firstn e line) e <> None) as X by congruence. apply nth_error_Some in X. rewrite firstn_length in X. lia.
      - rewrite nth_error_app2 in Nc by (rewrite firstn_length; lia). assert (length line > e) as Ll by (apply nth_error_Some; rewrite <- (firstn_skipn e line), Sk, nth_error_app2 by (rewrite firstn_length; lia); congruence).
        rewrite firstn_length, Nat.min_l, Nat.sub_diag in Nc by lia. cbn in Nc. congruence. }
    destruct (closing_brace (Some c)) eqn:Cb.
    + rewrite Ec. change (c :: skipn (e + 1) line) with ([c] ++ skipn (e + 1) line).
      apply (rb_report idx (len + x) num its sp p before sep (slice idx e line) [c] (skipn (e + 1) line) out); auto.
      * destruct Lm as [Lm|[Nil _]]; auto. rewrite Ec in Nil. discriminate.
      * left. cbn in Cb. unfold closing. destruct (N.eqb_spec c 93) as [->|]; auto. destruct (N.eqb_spec c 41) as [->|]; auto. discriminate.
    + change (skipn e line) with ([] ++ skipn e line) at 1. apply (rb_report idx (len + x) num its sp p before sep (slice idx e line) [] (skipn e line) out); auto.
      * destruct Lm as [Lm|[Nil Lm]]; auto.
      * right. split; auto. intros d r Ed. rewrite Ec in Ed. injection Ed as <- _. now apply not_closing.
      * cbn [List.length]. rewrite Nat.add_0_r. exact R.
  - cbn in R. change (skipn e line) with ([] ++ skipn e line) at 1. apply (rb_report idx (len + x) num its sp p before sep (slice idx e line) [] (skipn e line) out); auto.
    + destruct Lm as [Lm|[Nil Lm]]; auto.
    + right. split; auto. intros d r Ed. apply nth_error_None in Nc. rewrite skipn_all2 in Ed by lia. discriminate.
    + cbn [List.length]. rewrite Nat.add_0_r. exact R.
Qed.
Lemma publisher_ok line name sp idx x pk chunk sp' its p out : add_tagged_publisher line name sp idx x pk = Ok (chunk, sp') -> sp <= idx -> idx <= length line ->
  exists q r, assoc_str name pk = Some (q, r) /\
  (rebuilds its sp' p (skipn sp' line) out -> rebuilds ((idx, Publisher (length name + x) r) :: its) sp p (skipn sp line) (chunk ++ out)).
Proof.
  unfold add_tagged_publisher. intros H Le Lt. destruct (assoc_str name pk) as [(q & r)|]; [|discriminate]. exists q, r. split; [reflexivity|]. injection H as <- <-. intros R.
  destruct (item_text line sp idx (length name + x) Le Lt) as (before & m & Es & Eb & Ei & Lm). rewrite Es, Eb. unfold wrap. rewrite <- !app_assoc. rewrite Nat.add_assoc in *.
  apply (rb_publisher idx (length name + x)); auto. now rewrite Nat.add_assoc.
Qed.
Theorem rebuild_ok line M std pk : forall todo sp previous out, rebuild_loop line M std pk todo sp previous = Ok out ->
  exists its, items_of M std pk todo = Some its /\ rebuilds its sp previous (skipn sp line) out.
Proof.
  assert (forall idx sp y its pv out, ~ (sp <= idx /\ idx <= length line) -> rebuilds ((idx, y) :: its) sp pv (skipn sp line) out) as Off.
  { intros idx sp y its pv out H. destruct (le_lt_dec sp idx); [|now apply rb_overlap]. apply rb_beyond. rewrite skipn_length. destruct (le_lt_dec (length line) sp); [|lia]. left. now apply skipn_all2. }
  assert (forall idx sp, {sp <= idx /\ idx <= length line} + {~ (sp <= idx /\ idx <= length line)}) as Dec.
  { intros idx sp. destruct (le_lt_dec sp idx); [destruct (le_lt_dec idx (length line))|]; [now left|right; lia|right; lia]. }
  induction todo as [|(i & k) t IH]; intros sp previous out; cbn [rebuild_loop items_of]; intros H.
  - injection H as <-. exists []. split; [reflexivity|constructor].
  - unfold item_of. destruct k.
    + destruct (iget i (lm_journals M)) as [info|]; [|discriminate]. cbn [key_err bind] in H.
      destruct (account_for_stripped_whitespace _ _ _) as (idx & x). inv_ok H. destruct a as ((chunk & sp') & pv). inv_ok H. injection H as <-.
      destruct (IH _ _ _ E0) as (its & -> & R). destruct (Dec idx sp) as [(Le & Lt)|No].
      * destruct (journal_ok _ _ _ _ _ _ _ _ _ _ E Le Lt idx its a eq_refl _ eq_refl) as (y & Ey & F).
        destruct (is_ibid_text info); [|destruct (assoc_str info std) as [s|]; [|discriminate]]; injection Ey as <-; eexists; (split; [reflexivity|]); auto.
      * unfold add_tagged_journal in E. destruct (is_ibid_text info); [eexists; split; [reflexivity|now apply Off]|]. destruct (assoc_str info std); [|discriminate]. eexists. split; [reflexivity|]. now apply Off.
    + destruct (iget i (lm_replen M)) as [len|]; [|discriminate]. cbn [key_err bind] in H. destruct (iget i (lm_reprepl M)) as [r|]; [|discriminate]. cbn [key_err bind] in H.
      destruct (account_for_stripped_whitespace _ _ _) as (idx & x). destruct (add_tagged_report_number _ _ _ _ _ _) as (chunk & sp') eqn:E. inv_ok H. injection H as <-.
      destruct (IH _ _ _ E0) as (its & -> & R). eexists. split; [reflexivity|]. destruct (Dec idx sp) as [(Le & Lt)|No]; [|now apply Off].
      eapply report_ok; eauto.
    + destruct (iget i (lm_publishers M)) as [name|]; [|discriminate]. cbn [key_err bind] in H.
      destruct (account_for_stripped_whitespace _ _ _) as (idx & x). inv_ok H. destruct a as (chunk & sp'). inv_ok H. injection H as <-.
      destruct (IH _ _ _ E0) as (its & -> & R). destruct (Dec idx sp) as [(Le & Lt)|No].
      * destruct (publisher_ok _ _ _ _ _ _ _ _ its previous a E Le Lt) as (q & r & -> & F). eexists. split; [reflexivity|]. auto.
      * unfold add_tagged_publisher in E. destruct (assoc_str name pk) as [(q & r)|]; [|discriminate]. eexists. split; [reflexivity|]. now apply Off.
Qed.
