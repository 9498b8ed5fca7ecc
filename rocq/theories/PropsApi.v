(** Properties C33-C38: PDF files, keys and links, temporary files, batches. *)
From Coq Require Import List Arith NArith ZArith Bool String Permutation Sorting Lia.
From Verif Require Import PyStr ListFacts Elements Record Transform Tag Find RefText Kbs Pdf Engine Api Demo
  RecordProofs EngineProofs ComposeProofs ApiProofs PdfProofs PropsEngine.
Import ListNotations.
Local Open Scope nat_scope.
Local Notation length := List.length.
Local Notation concat := List.concat.

(** ** C33 *)
(** [framed b junk mid tail]: b is junk, "%PDF-", mid, "%%EOF", tail, with no earlier "%PDF-"
    and no later "%%EOF".  Then exactly the document remains, without failure. *)
Theorem C33_document_kept : forall b junk mid tail, framed b junk mid tail -> clean_pdf_file b = (document mid, Ok tt).
Proof. exact clean_document. Qed.
Print Assumptions C33_document_kept.
Example C33_case : framed (py "x%PDF-1.4 %%EOF a %%EOF" ++ [10%N; 0%N]) (py "x") (py "1.4 %%EOF a ") [10%N; 0%N].
Proof.
  split; [reflexivity|]. split; intros i O.
  - refine (proj2 (proj1 (find_sub_first pdf_marker _ 1) _) i O). vm_compute. reflexivity.
  - refine (proj2 (proj1 (rfind_sub_last eof_marker _ _ 18) _) i O); [discriminate|vm_compute; reflexivity].
Qed.
Theorem C33_idempotent : forall b junk mid tail, framed b junk mid tail ->
  clean_pdf_file (fst (clean_pdf_file b)) = clean_pdf_file b.
Proof.
  intros b junk mid tail H. rewrite (clean_document _ _ _ _ H). cbn [fst].
  apply (clean_document (document mid) [] mid []). eapply framed_document; eauto.
Qed.
Print Assumptions C33_idempotent.
(** non-empty files without "%PDF-", and files that begin with it but have no "%%EOF", stay as they are *)
Theorem C33_others_kept : forall b, b <> [] -> absent pdf_marker b \/ (first pdf_marker b 0 /\ absent eof_marker b) ->
  clean_pdf_file b = (b, Ok tt).
Proof. intros b N [H|(H1 & H2)]; [now apply clean_other|now apply clean_no_end]. Qed.
Print Assumptions C33_others_kept.
Example C33_others_case : absent pdf_marker (py "plain text") /\ first pdf_marker (py "%PDF-1.4 cut") 0 /\ absent eof_marker (py "%PDF-1.4 cut").
Proof.
  split; [exact (proj1 (find_sub_absent pdf_marker (py "plain text")) eq_refl)|]. split; [apply find_sub_first; reflexivity|].
  refine (proj1 (rfind_sub_absent eof_marker (py "%PDF-1.4 cut") _) eq_refl). discriminate.
Qed.
(** Every other file is spoiled or makes the step fail: the empty file; a file where "%PDF-"
    comes later and "%%EOF" is absent, or comes before it. *)
Theorem C33_other_files : forall b, b = []
  \/ (exists junk mid tail, framed b junk mid tail)
  \/ absent pdf_marker b \/ (first pdf_marker b 0 /\ absent eof_marker b)
  \/ (exists start, 0 < start /\ first pdf_marker b start /\ absent eof_marker b
        /\ ((4 < start /\ clean_pdf_file b = (b, Err ValueError))
            \/ (start = 4 /\ clean_pdf_file b = ([], Err OSError))
            \/ (start < 4 /\ clean_pdf_file b = (firstn (4 - start) pdf_marker, Ok tt))))
  \/ (exists start e, first pdf_marker b start /\ last_ eof_marker b e
        /\ ((e + 5 < start /\ clean_pdf_file b = (b, Err ValueError))
            \/ (e + 5 = start /\ clean_pdf_file b = ([], Err OSError)))).
Proof.
  intros b. destruct (marker_cases b) as [H|[(start & F & A)|[(start & e & F & L & Q)|H]]]; auto.
  - destruct start as [|start]; [right; right; right; left; auto|]. right. right. right. right. left. exists (S start). split; [lia|]. split; auto. split; auto.
    destruct (clean_cut b (S start) F A) as (C1 & C2 & C3). destruct (Nat.lt_trichotomy (S start) 4) as [K|[K|K]]; auto.
    right. right. split; auto. apply C3. lia.
  - right. right. right. right. right. exists start, e. split; auto. split; auto. destruct (clean_end_first b start e F L) as (C1 & C2).
    destruct (Nat.eq_dec (e + 5) start); [right; auto|left]. split; [lia|]. apply C1. lia.
Qed.
Print Assumptions C33_other_files.
(** so "keeps the document and never fails" is false *)
Theorem C33_never_fails_refuted : clean_pdf_file [] = ([], Err ValueError)
  /\ clean_pdf_file (py "xx%PDF-1.4 a document cut short") = (py "%P", Ok tt)
  /\ clean_pdf_file (py "%%EOF%PDF-1.4 a document") = ([], Err OSError)
  /\ clean_pdf_file (py "A text about %PDF- headers") = (py "A text about %PDF- headers", Err ValueError).
Proof. vm_compute. repeat split. Qed.
Print Assumptions C33_never_fails_refuted.

(** ** C34 *)
(** [attached r e r']: r' has the texkey of e, the URLs of r and then those of e, none twice,
    and otherwise the fields of r.  [set_like]: the order in which Python iterates over a
    set is any order of its elements. *)
Theorem C34_all_or_none : forall W refs keys, set_like (set_order W) ->
  (length keys <> length refs /\ attach_all W refs keys = refs)
  \/ (length keys = length refs /\ length (attach_all W refs keys) = length refs
      /\ forall i r e, nth_error refs i = Some r -> nth_error keys i = Some e ->
         exists r', nth_error (attach_all W refs keys) i = Some r' /\ attached r e r').
Proof. exact attach_all_spec. Qed.
Print Assumptions C34_all_or_none.
(** for a whole extraction from a file *)
Theorem C34_file : forall W O b b2 out, set_like (set_order W) -> extract_references_from_file W O (Some b) = (Some b2, Ok out) ->
  exists lines refs, parse_with O lines = Ok refs
    /\ (out = refs
        \/ (mime_type W b2 = Ok (py "application/pdf") /\ length out = length refs
            /\ exists keys, keys = extract_texkeys_and_urls_from_pdf (pypdf W b2) /\ length keys = length refs
            /\ forall i r e, nth_error refs i = Some r -> nth_error keys i = Some e ->
               exists r', nth_error out i = Some r' /\ attached r e r')).
Proof.
  intros W O b b2 out HS H. apply file_result in H as (lines & refs & P & [(M & ->)|(m & M & N & ->)]).
  - exists lines, refs. split; auto. destruct (attach_all_spec W refs (extract_texkeys_and_urls_from_pdf (pypdf W b2)) HS) as [(L & Q)|(L1 & L2 & Q)]; auto.
    right. split; auto. split; auto. eexists. split; [reflexivity|]. auto.
  - exists lines, refs. auto.
Qed.
Print Assumptions C34_file.
Definition demo_services : services :=
  mksrv (fun b => if prefixb pdf_marker b then Ok (py "application/pdf") else Ok (py "text/plain")) (fun b => Ok (split_lines b []))
        (fun _ b => Ok (split_lines b []))
        (fun _ => Ok ([mkdest (py "cite.Doe:2000ab") 3 600 (Some 70%Z) (Some 500%Z)],
                      [mklink (py "http://arxiv.org/abs/hep-th/0101001") 3 600 200 480]))
        dedupe_list.
Lemma demo_set_like : set_like (set_order demo_services).
Proof. intros l. cbn. destruct (dedupe_from_spec l []) as (A & B). split; [exact A|]. intros x. rewrite B. cbn. tauto. Qed.
Definition demo_options : options := mkopt demo_env (Ok demo_kbs) None default_format.
Definition lf : str := [10%N].
Definition demo_pdf : bytes := py "%PDF-" ++ lf ++ py "Some introduction" ++ lf ++ py "References" ++ lf ++ py "[1] J. Doe, A paper, 2000" ++ lf ++ py "%%EOF".
Example C34_case : exists b2 r, extract_references_from_file demo_services demo_options (Some demo_pdf) = (Some b2, Ok [r])
  /\ fget Ftexkey r = Some [py "Doe:2000ab"] /\ fget Furl r = Some [py "http://arxiv.org/abs/hep-th/0101001"]
  /\ fget Fauthor r = Some [py "J. Doe"].
Proof. eexists. eexists. split; [vm_compute; reflexivity|]. vm_compute. auto. Qed.
(** keys for two references but one reference found: nothing is attached *)
Example C34_none_case : forall r, attach_all demo_services [r] [(py "a", []); (py "b", [])] = [r].
Proof. reflexivity. Qed.

(** ** C35 *)
(** the entries are those of the destinations named "cite." and a key, and only URLs of link
    annotations are reported *)
Theorem C35_only_links : forall dests links l, texkeys_and_urls dests links = Ok l ->
  Permutation (map fst l) (map key_of (filter is_cited dests))
  /\ Forall (fun e => forall u, In u (snd e) -> In u (map l_uri links)) l.
Proof. exact texkeys_sub. Qed.
Print Assumptions C35_only_links.
Theorem C35_names : forall name k, texkey_of name = Some k <->
  ~ In 10%N k /\ (name = py "cite." ++ k \/ name = py "cite." ++ k ++ [10%N]).
Proof. exact texkey_spec. Qed.
Print Assumptions C35_names.
(** In one column of one page, with destinations at different heights and no link exactly at
    the height of one: the entries come from top to bottom, and each reports the URLs of
    exactly those links that are below its destination and above all lower ones.  So a
    link below the topmost destination is attributed to one reference only. *)
Theorem C35_one_column : forall P c dests links,
  (forall d, In d dests -> is_cited d = true -> dest_on P c d) -> (forall u, In u links -> link_on P c u) ->
  NoDup (map top (filter is_cited dests)) ->
  (forall d u, In d dests -> is_cited d = true -> In u links -> l_top u <> top d) ->
  exists l order, texkeys_and_urls dests links = Ok l /\ Permutation order (filter is_cited dests)
    /\ StronglySorted (fun d d' => top d' < top d)%Z order
    /\ Forall2 (fun d e => texkey_of (n_key d) = Some (fst e)
        /\ forall v, In v (snd e) <-> exists u, In u links /\ l_uri u = v /\ (l_top u < top d)%Z
             /\ forall d', In d' dests -> is_cited d' = true -> (top d' < top d)%Z -> (top d' < l_top u)%Z) order l.
Proof. exact one_column. Qed.
Print Assumptions C35_one_column.
Definition at_ (key : string) (page top : Z) : dest := mkdest (py key) page 600 (Some 70%Z) (Some top).
Definition link_at (uri : string) (page top : Z) : link := mklink (py uri) page 600 200 top.
Example C35_case :
  let dests := [at_ "cite.b" 1 300; at_ "section.1" 1 350; at_ "cite.a" 1 700] in
  let links := [link_at "u1" 1 650; link_at "u2" 1 320; link_at "u3" 1 100; link_at "u0" 1 720] in
  (forall d, In d dests -> is_cited d = true -> dest_on 1 0 d) /\ (forall u, In u links -> link_on 1 0 u)
  /\ NoDup (map top (filter is_cited dests))
  /\ (forall d u, In d dests -> is_cited d = true -> In u links -> l_top u <> top d)
  /\ texkeys_and_urls dests links = Ok [(py "a", [py "u1"; py "u2"]); (py "b", [py "u3"])].
Proof.
  cbv zeta. split; [|split; [|split; [|split]]].
  - intros d I _. destruct I as [<-|[<-|[<-|[]]]]; (split; [reflexivity|]; split; [discriminate|]; split; eexists; (split; [reflexivity|]); try split; try discriminate; reflexivity).
  - intros u I. destruct I as [<-|[<-|[<-|[<-|[]]]]]; (split; [reflexivity|]; split; [discriminate|reflexivity]).
  - vm_compute. repeat constructor; cbn; intuition discriminate.
  - intros d u I _ J. destruct I as [<-|[<-|[<-|[]]]]; destruct J as [<-|[<-|[<-|[<-|[]]]]]; discriminate.
  - vm_compute. reflexivity.
Qed.
(** With more pages a link may be given to two references (u stands below c on the second
    page, and is given to a on the first page, too), or to none (the end of reference a at
    the top of the second page); a link exactly as high as a destination may be given to
    two. *)
Theorem C35_exactly_one_refuted :
  texkeys_and_urls [at_ "cite.a" 1 700; at_ "cite.b" 1 300; at_ "cite.c" 2 700] [link_at "u" 2 500]
    = Ok [(py "a", [py "u"]); (py "b", []); (py "c", [py "u"])]
  /\ texkeys_and_urls [at_ "cite.a" 1 100; at_ "cite.b" 2 500] [link_at "u" 2 700] = Ok [(py "a", []); (py "b", [])]
  /\ texkeys_and_urls [at_ "cite.a" 1 700; at_ "cite.b" 1 500] [link_at "u" 1 500] = Ok [(py "a", [py "u"]); (py "b", [py "u"])].
Proof. vm_compute. repeat split. Qed.
Print Assumptions C35_exactly_one_refuted.

(** ** C36 *)
(** The temporary directory is the same afterwards on every outcome: of creating the file,
    of the request, of the response, of every chunk and of the extraction (whatever it
    does to the file).  Assumed: mkstemp makes a new name, closing it succeeds. *)
Theorem C36_temporary_file_removed : forall extract d s, (forall name, dl_mkstemp d = Ok name -> dir_get name s = None) -> dl_close d = Ok tt ->
  fst (extract_references_from_url extract d s) = s.
Proof. exact url_dir. Qed.
Print Assumptions C36_temporary_file_removed.
(** the outcome is the first failure, an HTTP error being reported as FullTextNotAvailableError, or
    that of the extraction from the content downloaded *)
Theorem C36_outcome : forall extract d s name, dl_mkstemp d = Ok name -> dir_get name s = None -> dl_close d = Ok tt ->
  snd (extract_references_from_url extract d s)
  = match url_outcome extract d with Err HTTPError => Err FullTextNotAvailableError | r => r end.
Proof. exact url_result. Qed.
Print Assumptions C36_outcome.
Theorem C36_downloaded : forall extract chunks s name, dir_get name s = None ->
  snd (extract_references_from_url extract (mkdl (Ok name) (Ok tt) (Ok tt) (Ok tt) (Ok tt) (map Ok chunks)) s)
  = match snd (extract (Some (concat chunks))) with Err HTTPError => Err FullTextNotAvailableError | r => r end.
Proof.
  intros extract chunks s name F. rewrite (url_result _ _ _ name); auto. unfold url_outcome. cbn [dl_get dl_status dl_open dl_chunks bind].
  assert (first_failure (map Ok chunks) = Ok (concat chunks)) as E by (induction chunks as [|c t IH]; cbn; auto; now rewrite IH).
  rewrite E. reflexivity.
Qed.
Print Assumptions C36_downloaded.
Example C36_case : forall s, dir_get 7 s = None ->
  let run d := extract_references_from_url (extract_references_from_file demo_services demo_options) d s in
  run (mkdl (Ok 7) (Ok tt) (Ok tt) (Err HTTPError) (Ok tt) []) = (s, Err FullTextNotAvailableError)
  /\ run (mkdl (Ok 7) (Ok tt) (Ok tt) (Ok tt) (Ok tt) [Ok (py "%PDF-"); Err OSError]) = (s, Err OSError)
  /\ run (mkdl (Ok 7) (Ok tt) (Ok tt) (Ok tt) (Ok tt) []) = (s, Err ValueError)
  /\ exists r, run (mkdl (Ok 7) (Ok tt) (Ok tt) (Ok tt) (Ok tt) [Ok (firstn 20 demo_pdf); Ok (skipn 20 demo_pdf)]) = (s, Ok [r]).
Proof.
  intros s F run. assert (forall d, dl_mkstemp d = Ok 7 -> dl_close d = Ok tt ->
    run d = (s, match url_outcome (extract_references_from_file demo_services demo_options) d with Err HTTPError => Err FullTextNotAvailableError | r => r end)) as H.
  { intros d M C. pose proof (url_result (extract_references_from_file demo_services demo_options) d s 7 M F C) as R.
    assert (fst (run d) = s) as Q by (apply url_dir; auto; intros name E; congruence). unfold run in *.
    destruct (extract_references_from_url (extract_references_from_file demo_services demo_options) d s); cbn [fst snd] in *. congruence. }
  split; [rewrite H; reflexivity|]. split; [rewrite H; reflexivity|]. split; [rewrite H; reflexivity|].
  rewrite H by reflexivity. set (o := url_outcome _ _). assert (match o with Ok l => length l | Err _ => 0 end = 1) as L by (vm_compute; reflexivity).
  clearbody o. destruct o as [[|r [|]]|]; try discriminate L. now exists r.
Qed.
(** closing the descriptor happens before the try: if it fails the file stays *)
Theorem C36_close_refuted : forall extract d s name e, dl_mkstemp d = Ok name -> dl_close d = Err e ->
  dir_get name (fst (extract_references_from_url extract d s)) = Some [].
Proof. exact url_close_leak. Qed.
Print Assumptions C36_close_refuted.

(** ** C37 *)
(** one result per item, in order; a failing or empty extraction gives the raw text alone *)
Theorem C37_isolated : forall extract raws, length (extract_references_from_list extract raws) = length raws
  /\ forall i raw, nth_error raws i = Some raw ->
     exists r, nth_error (extract_references_from_list extract raws) i = Some r
       /\ ((exists rest, extract raw = Ok (r :: rest))
           \/ (r = [(Fraw_ref, [raw])] /\ (extract raw = Ok [] \/ exists e, extract raw = Err e))).
Proof.
  intros extract raws. unfold extract_references_from_list. split; [apply map_length|]. intros i raw H.
  eexists. split; [apply map_nth_error; exact H|]. cbv beta. destruct (extract raw) as [[|r rest]|e].
  - right. split; auto.
  - left. eauto.
  - right. split; eauto.
Qed.
Print Assumptions C37_isolated.
(** with the extraction from strings every result has exactly one raw text *)
Theorem C37_raw_text : forall O only_refs raws r, In r (extract_references_from_list (extract_references_from_string O only_refs) raws) ->
  exists raw, fget Fraw_ref r = Some [raw].
Proof.
  intros O f raws r I. unfold extract_references_from_list in I. apply in_map_iff in I as (raw & <- & _).
  destruct (extract_references_from_string O f raw) as [[|r rest]|e] eqn:E; [exists raw; reflexivity| |exists raw; reflexivity].
  unfold extract_references_from_string in E. inv_ok E. unfold parse_with in E. inv_ok E. inv_ok E. destruct a1 as [refs stats]. inversion E; subst.
  apply C01_line_blocks in E2 as (blocks & Q & F).
  assert (In r (concat blocks)) as I by (rewrite <- Q; now left). apply in_concat in I as (b & Ib & Ir).
  destruct (Forall2_in_r _ _ _ F _ Ib) as (line & _ & _ & A). exists line. eapply Forall_forall in A; eauto.
Qed.
Print Assumptions C37_raw_text.
Example C37_case : map (fget Fraw_ref) (extract_references_from_list (extract_references_from_string demo_options true) [py "[1] J. Doe, Nature 2000"; []; py "[2] X"])
  = [Some [py "[1] J. Doe, Nature 2000"]; Some [[]]; Some [py "[2] X"]]
  /\ map (fget Fraw_ref) (extract_references_from_list (fun s => if eqs s (py "b") then Err KeyError else Ok []) [py "a"; py "b"; py "c"])
  = [Some [py "a"]; Some [py "b"]; Some [py "c"]].
Proof. vm_compute. split; reflexivity. Qed.

(** ** C38 *)
(** entry for one publication info: absent or empty texts give none *)
Definition info_entry (extract : str -> res (option el)) (i : option str) : res (option el) :=
  match i with Some (c :: s) => extract (c :: s) | _ => Ok None end.
Theorem C38_all_or_nothing : forall extract infos,
  (extract_journal_info extract infos = None <-> exists i e, In i infos /\ info_entry extract i = Err e)
  /\ forall l, extract_journal_info extract infos = Some l -> Forall2 (fun i x => info_entry extract i = Ok x) infos l.
Proof.
  intros extract infos. unfold extract_journal_info. induction infos as [|i t (IH1 & IH2)]; cbn [journal_infos].
  - split; [split; [discriminate|intros (i & e & [] & _)]|]. intros l H; inversion H; constructor.
  - fold (info_entry extract i). destruct (info_entry extract i) as [x|e] eqn:E; cbn [bind].
    + destruct (journal_infos extract t) as [r|e]; cbn [bind].
      * split.
        -- split; [discriminate|]. intros (j & e & [<-|I] & Q); [congruence|]. assert (Some r = None) as Z by (apply IH1; eauto). discriminate Z.
        -- intros l H; inversion H; subst. constructor; auto.
      * split; [|discriminate]. split; auto. intros _. destruct (proj1 IH1 eq_refl) as (j & e' & I & Q). exists j, e'. split; auto. now right.
    + split; [|discriminate]. split; auto. intros _. exists i, e. split; auto. now left.
Qed.
Print Assumptions C38_all_or_nothing.
Example C38_case : option_map (map (option_map (fun e => (get Ktitle e, get Kvolume e, get Kpage e))))
    (extract_journal_info (extract_journal_reference demo_env (Ok demo_kbs)) [Some (py "Phys. Rev. Lett. 13 (2001) 5"); None; Some []; Some (py "nothing here")])
    = Some [Some (Some (VS (py "Phys.Rev.Lett.")), Some (VS (py "13")), Some (VS (py "5"))); None; None; None]
  /\ extract_journal_info (fun s => if eqs s (py "b") then Err KeyError else Ok None) [Some (py "a"); Some (py "b")] = None.
Proof. vm_compute. split; reflexivity. Qed.
