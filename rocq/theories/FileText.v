(** The lines of a document: page breaks (pdf.py 47-97), the two tries of extract_references_from_file (api.py 102-164),
    the lines of a string (api.py 199), and the journal of a line (api.py 219-231). *)
From Coq Require Import List Arith NArith Bool String Lia.
From Verif Require Import PyStr ListFacts Regex RegexParse Patterns RegexMeta RegexLang CaptureLang Elements Record Transform Tag Find RefText Kbs Pdf Engine Api TaggerProofs DoiProofs SplitProofs.
Import ListNotations.
Local Open Scope nat_scope.
Local Notation length := List.length.
Local Notation concat := List.concat.

(** ** Page breaks *)
(** a line, perhaps with the newline at its end *)
Definition one_line (l body nl : str) : Prop := l = body ++ nl /\ ~ In 10%N body /\ (nl = [] \/ nl = [10%N]).
(** white space, a page break and a text *)
Definition break_at (body sp rest : str) : Prop := body = sp ++ 12%N :: rest /\ forallb is_space sp = true /\ rest <> [].
Definition page_line (l : str) (out : list str) : Prop := exists body nl, one_line l body nl
  /\ ((exists sp rest, break_at body sp rest /\ (forall sp' rest', break_at body sp' rest' -> length sp' <= length sp) /\ out = [[12%N]; rest])
      \/ ((forall sp rest, ~ break_at body sp rest) /\ out = [l])).

Definition spc_cls : cls := mkcls false false [CSpace true].
Definition brk_re : re := Cat (Cls (mkcls false false [CRange 12 12]%N)) (Cat (Grp 1 (Rep true 1 None Any)) Eos).
Lemma break_is : rx_re re_break_in_line = Cat Bos (Cat (Rep true 0 None (Cls spc_cls)) brk_re). Proof. reflexivity. Qed.
Lemma spc_mem c : cls_mem spc_cls c = is_space c. Proof. unfold cls_mem, spc_cls. cbn [c_neg c_ci c_items existsb item_mem]. destruct (is_space c); reflexivity. Qed.
Lemma anys_rd w : w <> [] -> ~ In 10%N w -> forall a b, rd (Rep true 1 None Any) a w b [].
Proof.
  intros N H a b. change (reps (rd Any) 1 None a w b []). assert (forall w mn a, mn <= length w -> ~ In 10%N w -> reps (rd Any) mn None a w b []) as Q.
  { clear. induction w as [|d w IH]; intros mn a L H; [cbn in L; replace mn with 0 by lia; constructor|]. change (d :: w) with ([d] ++ w). change (@nil (nat * str)) with (@nil (nat * str) ++ []).
    apply reps_more; [discriminate| |apply IH; [cbn in L; lia|intros I; apply H; now right]]. exists d. split; auto. split; auto. intros ->. apply H. now left. }
  apply Q; auto. destruct w; [congruence|cbn; lia].
Qed.
Lemma rd_anys a w b c : rd (Rep true 1 None Any) a w b c -> w <> [] /\ ~ In 10%N w /\ c = [].
Proof.
  intros H. change (reps (rd Any) 1 None a w b c) in H. assert (forall mn mx a w b c, reps (rd Any) mn mx a w b c -> mn <= length w /\ ~ In 10%N w /\ c = []) as Q.
  { clear. induction 1 as [|mn mx a u v b c1 c2 N P R (L & I & ->)]; [cbn; auto|]. destruct P as (d & -> & D & ->). cbn [app length]. split; [lia|]. split; auto. intros [->|J]; auto. }
  apply Q in H as (L & I & ->). split; auto. destruct w; [cbn in L; lia|discriminate].
Qed.
Lemma brk_rd a w b c : rd brk_re a w b c -> exists rest, w = 12%N :: rest /\ rest <> [] /\ ~ In 10%N rest /\ (b = [] \/ b = [10%N]) /\ cap 1 c = Some rest.
Proof.
  intros (u & v & c1 & c2 & -> & -> & (d & -> & D & ->) & (x & y & c3 & c4 & -> & -> & (c' & -> & X) & (-> & -> & B))).
  apply rd_anys in X as (N & I & ->). assert (d = 12%N) as -> by (apply (proj1 (one_char false 12%N d)) in D; exact D). exists x. rewrite app_nil_r in *. cbn [app] in *. repeat split; auto.
Qed.
Lemma rd_brk a rest b : rest <> [] -> ~ In 10%N rest -> b = [] \/ b = [10%N] -> rd brk_re a (12%N :: rest) b [(1, rest)].
Proof.
  intros N I B. exists [12%N], rest, [], [(1, rest)]. split; auto. split; auto. split; [exists 12%N; repeat split; reflexivity|]. exists rest, [], [(1, rest)], []. rewrite app_nil_r. split; auto. split; auto. split; [exists []; split; auto; now apply anys_rd|]. cbn; auto.
Qed.
Lemma same_line l body nl body' nl' : one_line l body nl -> (exists sp rest, body' = sp ++ 12%N :: rest /\ rest <> [] /\ ~ In 10%N rest) -> l = body' ++ nl' -> nl' = [] \/ nl' = [10%N] -> body = body' /\ nl = nl'.
Proof.
  intros (-> & I & N) (sp & rest & -> & Nr & Ir) E N'. destruct (exists_last Nr) as (r & d & ->). assert (d <> 10%N) as D by (intros ->; apply Ir, in_or_app; right; now left).
  destruct N as [-> | ->], N' as [-> | ->].
  - rewrite !app_nil_r in E. auto.
  - rewrite app_nil_r in E. subst body. exfalso. apply I, in_or_app. right. now left.
  - exfalso. rewrite app_nil_r in E. change (12%N :: r ++ [d]) with ((12%N :: r) ++ [d]) in E. rewrite app_assoc in E. apply app_inj_tail in E as (_ & E). congruence.
  - apply app_inj_tail in E as (-> & _). auto.
Qed.
Lemma break_line l body nl : one_line l body nl ->
  match re_match (rx_re re_break_in_line) l with
  | Some o => exists sp rest, break_at body sp rest /\ (forall sp' rest', break_at body sp' rest' -> length sp' <= length sp) /\ g_str l o 1 = rest
  | None => forall sp rest, ~ break_at body sp rest
  end.
Proof.
  intros O. pose proof O as (El & Nb & Nl). unfold re_match. change (init l) with (here [] l). destruct (run (rx_re re_break_in_line) false (here [] l)) as [o|] eqn:R.
  - apply run_m in R as (z & g & H & ->). rewrite break_is in H. apply peel in H as (u & s' & c & gc & Eu & (-> & -> & _) & Lc & H); [|reflexivity]. cbn [app] in *. subst s'. inversion Lc; subst gc. cbn [app] in H. clear Lc.
    rewrite m_seq in H. set (K := fun x' g' => m brk_re x' g' accept) in H. change (rep_loop true 0 None (Cls spc_cls) K (S (0 + length l)) 0 (here [] l) [] = Some (z, g)) in H.
    apply loop_longest in H as (sp & b & Es & Sp & _ & H & Mx); [|cbn; lia]. cbn [app] in *. rewrite (class_all spc_cls is_space) in Sp by apply spc_mem.
    assert (run brk_re false (here sp b) = Some (mkmobj (length sp) (pos z) g)) as R by (apply run_m; exists z, g; split; [exact H|reflexivity]).
    apply run_rd in R as (w & nl' & c & Eb & Rd & _ & _ & G); [|reflexivity]. apply brk_rd in Rd as (rest & -> & Nr & Ir & Nn & Cp).
    assert (l = (sp ++ 12%N :: rest) ++ nl') as El' by (rewrite Es, Eb, <- app_assoc; reflexivity).
    destruct (same_line l body nl _ nl' O ltac:(eauto) El' Nn) as (Ebody & ->). exists sp, rest. split; [split; auto|]. split.
    + intros sp' rest' (E' & S' & N'). destruct (Nat.le_gt_cases (length sp') (length sp)) as [|Lt]; auto. exfalso.
      rewrite Ebody in E'. apply app_split in E' as [(q & Nq & -> & Eq)|[(q & Nq & -> & Eq)|(-> & _)]]; [|rewrite app_length in Lt; lia|lia].
      assert (~ In 10%N rest') as I' by (intros J; apply Nb; rewrite Ebody; apply in_or_app; right; rewrite Eq; apply in_or_app; right; now right).
      assert (K (here (sp ++ q) (12%N :: rest' ++ nl')) [] = None) as Q.
      { apply (Mx q); [rewrite Eb, Eq, <- app_assoc; reflexivity|exact Nq|]. rewrite (class_all spc_cls is_space) by apply spc_mem. rewrite forallb_app in S'. now apply andb_true_iff in S' as [_ S']. }
      refine (run_not brk_re (sp ++ q) (12%N :: rest') nl' eq_refl _ _ (rd_brk (sp ++ q) rest' nl' N' I' Nn)).
      destruct (run brk_re false (here (sp ++ q) ((12%N :: rest') ++ nl'))) as [o'|] eqn:R'; auto. apply run_m in R' as (z' & g' & R' & _). unfold K in Q. pose proof (eq_trans (eq_sym R') Q) as Z. discriminate.
    + specialize (G 1 ltac:(discriminate)). rewrite Cp in G. unfold g_str. assert (g_text l (mkmobj (length (@nil ch)) (pos z) g) 1 = Some rest) as -> by (rewrite Es; exact G). reflexivity.
  - intros sp rest (-> & Sp & Nr). rewrite El in R. rewrite <- app_assoc in R. cbn [app] in R. change (sp ++ 12%N :: rest ++ nl) with (sp ++ (12%N :: rest) ++ nl) in R. rewrite app_assoc in R.
    refine (run_not _ [] (sp ++ 12%N :: rest) nl _ R ([(1, rest)] ++ []) _); [reflexivity|]. rewrite break_is. exists [], (sp ++ 12%N :: rest), [], [(1, rest)]. split; auto. split; auto. split; [cbn; auto|].
    exists sp, (12%N :: rest), [], [(1, rest)]. split; auto. split; auto. split; [apply rd_rep_cls; rewrite (class_all spc_cls is_space) by apply spc_mem; split; auto; split; [lia|split; [exact I|reflexivity]]|].
    apply rd_brk; auto. intros J. apply Nb, in_or_app. right. now right.
Qed.
Theorem page_breaks out : (forall l, In l out -> exists body nl, one_line l body nl) -> exists parts, split_page_breaks out = concat parts /\ Forall2 page_line out parts.
Proof.
  induction out as [|l out IH]; intros H; [exists []; split; constructor|]. destruct IH as (parts & E & F); [intros; apply H; now right|]. destruct (H l (or_introl eq_refl)) as (body & nl & O). pose proof (break_line l body nl O) as B. cbn [split_page_breaks].
  destruct (re_match (rx_re re_break_in_line) l) as [o|].
  - destruct B as (sp & rest & B & M & ->). exists ([[12%N]; rest] :: parts). rewrite E. split; auto. constructor; auto. exists body, nl. split; auto. left. exists sp, rest. auto.
  - exists ([l] :: parts). rewrite E. split; auto. constructor; auto. exists body, nl. auto.
Qed.

(** ** The two tries *)
Definition with_pdftotext (f : bool -> bytes -> res (list str)) (W : services) : services := mksrv (mime_type W) (read_lines W) f (pypdf W) (set_order W).
Lemma document_body W layout b : get_plaintext_document_body W layout b = (fst (clean_pdf_file b), match snd (clean_pdf_file b) with
  | Err e => Err e | Ok _ => let b' := fst (clean_pdf_file b) in let* mime := mime_type W b' in
         if eqs mime (py "text/plain") then read_lines W b'
         else if eqs mime (py "application/pdf") then let* out := pdftotext W layout b' in Ok (split_page_breaks out)
         else Err UnknownDocumentTypeError end).
Proof. unfold get_plaintext_document_body. destruct (clean_pdf_file b) as [b' [u|e]]; reflexivity. Qed.
Lemma body_same f W layout b : f layout (fst (clean_pdf_file b)) = pdftotext W layout (fst (clean_pdf_file b)) -> get_plaintext_document_body (with_pdftotext f W) layout b = get_plaintext_document_body W layout b.
Proof. intros H. rewrite !document_body. cbn [mime_type read_lines pdftotext with_pdftotext]. now rewrite H. Qed.
Theorem first_try W O b body l ls d f : snd (get_plaintext_document_body W false b) = Ok body -> extract_references_from_fulltext body = Ok (l :: ls, d) ->
  f false = pdftotext W false -> extract_references_from_file (with_pdftotext f W) O (Some b) = extract_references_from_file W O (Some b).
Proof.
  intros B X F. unfold extract_references_from_file. rewrite body_same by (now rewrite F). destruct (get_plaintext_document_body W false b) as [b1 r]. cbn [snd] in B. subst r. rewrite X. reflexivity.
Qed.
Theorem second_try W O b body d : clean_pdf_file (fst (clean_pdf_file b)) = clean_pdf_file b ->
  snd (get_plaintext_document_body W false b) = Ok body -> extract_references_from_fulltext body = Ok ([], d) ->
  extract_references_from_file W O (Some b) = extract_references_from_file (with_pdftotext (fun _ => pdftotext W true) W) O (Some b).
Proof.
  intros C B X. set (V := with_pdftotext (fun _ => pdftotext W true) W).
  assert (forall layout c, get_plaintext_document_body V layout c = get_plaintext_document_body W true c) as HV by (intros layout c; rewrite !document_body; reflexivity).
  assert (forall U layout, get_plaintext_document_body U layout (fst (clean_pdf_file b)) = get_plaintext_document_body U layout b) as HC by (intros U layout; rewrite !document_body, C; reflexivity).
  assert (forall U layout c, fst (get_plaintext_document_body U layout c) = fst (clean_pdf_file c)) as Hf by (intros U layout c; rewrite document_body; reflexivity).
  unfold extract_references_from_file. destruct (get_plaintext_document_body W false b) as [b1 r] eqn:E1. cbn [snd] in B. subst r. rewrite X.
  assert (b1 = fst (clean_pdf_file b)) as -> by (rewrite <- (Hf W false b), E1; reflexivity). rewrite HC, HV. destruct (get_plaintext_document_body W true b) as [b2 r2] eqn:E2.
  assert (b2 = fst (clean_pdf_file b)) as -> by (rewrite <- (Hf W true b), E2; reflexivity). destruct r2 as [body2|e]; [|reflexivity].
  destruct (extract_references_from_fulltext body2) as [[ls d2]|e] eqn:X2; cbn [bind]; [|reflexivity]. destruct ls as [|l ls]; [|reflexivity].
  rewrite HV, HC, E2, X2. reflexivity.
Qed.

(** ** Lines of a string *)
Fixpoint joined (ls : list str) : str := match ls with [] => [] | [l] => l | l :: t => l ++ 10%N :: joined t end.
Lemma joined_cons l (L : list str) : L <> [] -> joined (l :: L) = l ++ 10%N :: joined L.
Proof. destruct L; [congruence|reflexivity]. Qed.
Lemma split_spec (s : str) : forall cur : str, ~ In 10%N cur -> split_lines s cur <> [] /\ joined (split_lines s cur) = rev cur ++ s /\ Forall (fun l => ~ In 10%N l) (split_lines s cur).
Proof.
  induction s as [|c s IH]; intros cur N; cbn [split_lines].
  - split; [discriminate|]. cbn [joined]. rewrite app_nil_r. split; auto. constructor; auto. now rewrite <- in_rev.
  - destruct (N.eqb_spec c 10) as [->|D].
    + destruct (IH [] (@in_nil _ _)) as (Z & J & F). split; [discriminate|]. split; [|constructor; auto; now rewrite <- in_rev]. etransitivity; [exact (joined_cons (rev cur) _ Z)|]. f_equal. f_equal. exact J.
    + destruct (IH (c :: cur)) as (Z & J & F); [intros [->|I]; auto|]. split; auto. split; auto. rewrite J. cbn [rev]. now rewrite <- app_assoc.
Qed.

(** ** The journal of a line *)
Lemma first_journal_spec cits : match first_journal cits with
  | Some e => e_type e = JOURNAL /\ exists before after, concat cits = before ++ e :: after /\ Forall (fun x => e_type x <> JOURNAL) before
  | None => Forall (fun x => e_type x <> JOURNAL) (concat cits) end.
Proof.
  induction cits as [|c t IH]; cbn [first_journal]; [constructor|]. unfold first_of_type.
  assert (forall c, match find (is_type JOURNAL) c with Some e => e_type e = JOURNAL /\ exists x y, c = x ++ e :: y /\ Forall (fun x => e_type x <> JOURNAL) x | None => Forall (fun x => e_type x <> JOURNAL) c end) as Q.
  { clear. induction c as [|e c IH]; cbn [find]; [constructor|]. destruct (is_type JOURNAL e) eqn:T.
    - split; [now apply is_type_true in T|]. exists [], c. auto.
    - assert (e_type e <> JOURNAL) as N by (intros E; apply is_type_true in E; congruence). destruct (find (is_type JOURNAL) c) as [f|]; [|constructor; auto]. destruct IH as (A & x & y & -> & F). split; auto. exists (e :: x), y. auto. }
  specialize (Q c). destruct (find (is_type JOURNAL) c) as [e|].
  - destruct Q as (T & x & y & -> & F). split; auto. exists x, (y ++ concat t). cbn [concat]. rewrite <- app_assoc. auto.
  - destruct (first_journal t) as [e|]; cbn [concat]; [|apply Forall_app; auto]. destruct IH as (T & x & y & E & F). split; auto. exists (c ++ x), y. rewrite E, <- app_assoc. split; auto. apply Forall_app; auto.
Qed.
Lemma joined_one (L : list str) : forall M, L <> [] -> M <> [] -> Forall (fun l => ~ In 10%N l) L -> Forall (fun l => ~ In 10%N l) M -> joined L = joined M -> L = M.
Proof.
  set (p := fun c : ch => negb (N.eqb 10 c)). assert (forall l : str, ~ In 10%N l -> forallb p l = true) as P.
  { intros l N. apply forallb_forall. intros x I. unfold p. destruct (N.eqb_spec 10 x) as [<-|]; [elim (N I)|reflexivity]. }
  induction L as [|l L IH]; intros [|k M] NL NM FL FM E; try congruence. apply Forall_inv in FL as Hl. apply Forall_inv_tail in FL. apply Forall_inv in FM as Hk. apply Forall_inv_tail in FM.
  destruct L as [|l' L], M as [|k' M].
  - cbn [joined] in E. now subst.
  - exfalso. rewrite (joined_cons k) in E by discriminate. cbn [joined] in E. apply Hl. rewrite E. apply in_or_app. right. now left.
  - exfalso. rewrite (joined_cons l) in E by discriminate. cbn [joined] in E. apply Hk. rewrite <- E. apply in_or_app. right. now left.
  - rewrite !joined_cons in E by discriminate. apply (first_stop p) in E as (-> & _ & E); auto. f_equal. apply IH; auto; discriminate.
Qed.
Theorem split_exact (s : str) L : split_lines s [] = L <-> L <> [] /\ joined L = s /\ Forall (fun l => ~ In 10%N l) L.
Proof.
  destruct (split_spec s [] (@in_nil _ _)) as (Z & J & F). split; [intros <-; auto|]. intros (Z' & J' & F'). apply joined_one; auto. now rewrite J'.
Qed.
Theorem journal_spec E K line cits m n o r : parse_reference_line E (mkctx K [] 0) None line = Ok (cits, m, n, o) -> extract_journal_reference E (Ok K) line = Ok r ->
  match r with
  | Some e => e_type e = JOURNAL /\ exists before after, concat cits = before ++ e :: after /\ Forall (fun x => e_type x <> JOURNAL) before
  | None => Forall (fun x => e_type x <> JOURNAL) (concat cits)
  end.
Proof. intros P H. unfold extract_journal_reference in H. cbn [bind] in H. rewrite P in H. cbn [bind] in H. injection H as <-. apply first_journal_spec. Qed.
Theorem pdf_lines W layout b b' lines out : get_plaintext_document_body W layout b = (b', Ok lines) -> mime_type W b' = Ok (py "application/pdf") -> pdftotext W layout b' = Ok out ->
  (forall l, In l out -> exists body nl, one_line l body nl) -> exists parts, lines = concat parts /\ Forall2 page_line out parts.
Proof.
  intros H M P L. unfold get_plaintext_document_body in H. destruct (clean_pdf_file b) as [c [u|e]]; [|discriminate]. injection H as -> H. rewrite M in H. cbn [bind] in H. change (eqs (py "application/pdf") (py "text/plain")) with false in H. change (eqs (py "application/pdf") (py "application/pdf")) with true in H. cbv iota in H. rewrite P in H. cbn [bind] in H. injection H as <-. now apply page_breaks.
Qed.
