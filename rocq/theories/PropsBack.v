(** C60: a tagged line is read back as it was written. *)
From Coq Require Import List Arith NArith Bool String.
From Verif Require Import PyStr Regex Patterns Elements ParseTagged NumGrammar SectGrammar BackGrammar BackRead BackProofs.
Import ListNotations.
Local Open Scope string_scope.
Local Open Scope list_scope.

Theorem C60_read_back : forall l last dois urls, contents_ok l last ->
  exists c, parse_tagged_reference_line (write_line l last) (dois_of l ++ dois) (urls_of l ++ urls) = Ok (elements [] l last, c).
Proof. exact (fun l last dois urls H => parse_written l last urls dois H). Qed.
Print Assumptions C60_read_back.
(** The patterns of the code read the grammars of numerations and nothing else: what is found is written so, and what is so written is found. *)
Theorem C60_numeration : forall w rest fs, numeration [] w [] fs -> exists o v, re_search (rx_re re_recognised_numeration) (w ++ rest) = Some o /\ m_end o = List.length w
  /\ grp_need re_recognised_numeration (w ++ rest) o "vol" = Ok v /\ (grp_or_empty re_recognised_numeration (w ++ rest) o "series" ++ v = volume_of fs)
  /\ grp_or_empty re_recognised_numeration (w ++ rest) o "yr" = year_of fs /\ grp_need re_recognised_numeration (w ++ rest) o "pg" = Ok (page_of fs).
Proof. exact read_num. Qed.
Print Assumptions C60_numeration.
Theorem C60_further : forall w rest fs, further [] w [] fs -> exists o v, re_match (rx_re re_numeration_no_ibid_txt) (w ++ rest) = Some o /\ m_end o = List.length w
  /\ grp_need re_numeration_no_ibid_txt (w ++ rest) o "vol" = Ok v /\ (grp_or_empty re_numeration_no_ibid_txt (w ++ rest) o "series" ++ v = volume_of fs)
  /\ grp_need re_numeration_no_ibid_txt (w ++ rest) o "yr" = Ok (year_of fs) /\ grp_need re_numeration_no_ibid_txt (w ++ rest) o "pg" = Ok (page_of fs).
Proof. exact read_more. Qed.
Print Assumptions C60_further.
Theorem C60_no_numeration : forall s, re_search (rx_re re_recognised_numeration) s = None <-> ~ begins numeration s.
Proof. exact (fun s => conj (no_num s) (read_no_num s)). Qed.
Print Assumptions C60_no_numeration.
Theorem C60_no_further : forall s, re_match (rx_re re_numeration_no_ibid_txt) s = None <-> ~ begins further s.
Proof. exact (fun s => conj (no_more s) (read_no_more s)). Qed.
Print Assumptions C60_no_further.

(** a line with every kind of item *)
Definition num1 : str := py ", Ser. B: <cds.VOL>12</cds.VOL> <cds.YR>(1990)</cds.YR> <cds.PG>345</cds.PG>".
Definition num2 : str := py " and A <cds.VOL>13-14</cds.VOL> <cds.YR>(1991)</cds.YR> <cds.PG>L6</cds.PG>".
Definition num3 : str := py " <cds.VOL>7</cds.VOL> <cds.PG>89</cds.PG>".
Definition demo (f1 f2 f3 : fields) : contents :=
  [(py " ", Author "stnd" (py "A. Smith")); (py ", ", Quoted (py "On it")); (py " ", Journal false (py "Nucl. Phys.") (num1, f1) [(num2, f2)]); (py "; ", Report (py "CERN-TH-1990-12"));
   (py " [", Arxiv (py "hep-th/9001001")); (py "] ", Url (py "http://x.org") (py "here")); (py " ", Doi (py "10.1/2")); (py " in ", Title true (py "Nucl. Phys.")); (py " vol ", Loose "VOL" (py "5"));
   (py ", ", Collaboration (py "ATLAS")); (py ", ", Isbn (py "978")); (py " ", Publisher (py "Wiley")); (py " ", Journal true (py "JHEP") (num3, f3) [])].
Example C60_example : exists f1 f2 f3 c, contents_ok (demo f1 f2 f3) (py ", see there") /\
  write_line (demo f1 f2 f3) (py ", see there") = py " <cds.AUTHstnd>A. Smith</cds.AUTHstnd>, <cds.QUOTED>On it</cds.QUOTED> <cds.JOURNAL>Nucl. Phys.</cds.JOURNAL>, Ser. B: <cds.VOL>12</cds.VOL> <cds.YR>(1990)</cds.YR> <cds.PG>345</cds.PG> and A <cds.VOL>13-14</cds.VOL> <cds.YR>(1991)</cds.YR> <cds.PG>L6</cds.PG>; <cds.REPORTNUMBER>CERN-TH-1990-12</cds.REPORTNUMBER> [<cds.ARXIV>hep-th/9001001</cds.ARXIV>] <cds.URL /> <cds.DOI /> in <cds.JOURNALibid>Nucl. Phys.</cds.JOURNALibid> vol <cds.VOL>5</cds.VOL>, <cds.COLLABORATION>ATLAS</cds.COLLABORATION>, <cds.ISBN>978</cds.ISBN> <cds.PUBLISHER>Wiley</cds.PUBLISHER> <cds.JOURNALibid>JHEP</cds.JOURNALibid> <cds.VOL>7</cds.VOL> <cds.PG>89</cds.PG>, see there" /\
  parse_tagged_reference_line (write_line (demo f1 f2 f3) (py ", see there")) [py "10.1/2"] [(py "http://x.org", py "here")] = Ok (
    [mkel AUTH (py " ") [(Kauth_txt, VS (py "A. Smith")); (Kauth_type, VS (py "stnd"))]; mkel QUOTED (py ", ") [(Ktitle, VS (py "On it"))];
     mkel JOURNAL (py " ") [(Ktitle, VS (py "Nucl. Phys.")); (Kvolume, VS (py "B12")); (Kyear, VS (py "1990")); (Kpage, VS (py "345")); (Kis_ibid, VB false); (Kextra_ibids, VIbids [(py "Nucl. Phys.", py "A13-14", py "1991", py "L6")])];
     mkel REPORTNUMBER (py "; ") [(Kreport_num, VS (py "CERN-TH-1990-12"))]; mkel REPORTNUMBER (py " [") [(Kreport_num, VS (py "hep-th/9001001")); (Kis_arxiv, VB true)];
     mkel URL (py "] ") [(Kurl_string, VS (py "http://x.org")); (Kurl_desc, VS (py "here"))]; mkel DOI (py " ") [(Kdoi_string, VS (py "10.1/2"))];
     mkel COLLABORATION (py " in Nucl. Phys. vol 5, ") [(Kcollaboration, VS (py "ATLAS"))]; mkel ISBN (py ", ") [(KISBN, VS (py "978"))]; mkel PUBLISHER (py " ") [(Kpublisher, VS (py "Wiley"))];
     mkel JOURNAL (py " ") [(Ktitle, VS (py "JHEP")); (Kvolume, VS (py "7")); (Kyear, VS []); (Kpage, VS (py "89")); (Kis_ibid, VB true); (Kextra_ibids, VIbids [])]; mkel MISC (py ", see there") []], c).
Proof.
  destruct (re_search (rx_re re_recognised_numeration) num1) as [o1|] eqn:S1; [|vm_compute in S1; discriminate]. destruct (num_text num1 o1 S1) as (f1 & N1 & V1 & Y1 & P1); [vm_compute in S1; injection S1 as <-; vm_compute; reflexivity|].
  destruct (re_match (rx_re re_numeration_no_ibid_txt) num2) as [o2|] eqn:S2; [|vm_compute in S2; discriminate]. destruct (more_text num2 o2 S2) as (f2 & N2 & V2 & Y2 & P2); [vm_compute in S2; injection S2 as <-; vm_compute; reflexivity|].
  destruct (re_search (rx_re re_recognised_numeration) num3) as [o3|] eqn:S3; [|vm_compute in S3; discriminate]. destruct (num_text num3 o3 S3) as (f3 & N3 & V3 & Y3 & P3); [vm_compute in S3; injection S3 as <-; vm_compute; reflexivity|].
  vm_compute in S1, S2, S3. injection S1 as <-. injection S2 as <-. injection S3 as <-.
  assert (volume_of f1 = py "B12") as V1' by (rewrite V1; vm_compute; reflexivity). assert (year_of f1 = py "1990") as Y1' by (rewrite Y1; vm_compute; reflexivity). assert (page_of f1 = py "345") as P1' by (rewrite P1; vm_compute; reflexivity). assert (volume_of f2 = py "A13-14") as V2' by (rewrite V2; vm_compute; reflexivity). assert (year_of f2 = py "1991") as Y2' by (rewrite Y2; vm_compute; reflexivity). assert (page_of f2 = py "L6") as P2' by (rewrite P2; vm_compute; reflexivity). assert (volume_of f3 = py "7") as V3' by (rewrite V3; vm_compute; reflexivity). assert (year_of f3 = @nil ch) as Y3' by (rewrite Y3; vm_compute; reflexivity). assert (page_of f3 = py "89") as P3' by (rewrite P3; vm_compute; reflexivity).
  assert (contents_ok (demo f1 f2 f3) (py ", see there")) as K.
  { cbn [demo contents_ok item_ok fst snd].
    repeat match goal with |- _ /\ _ => split | |- plain _ => apply clean_plain; reflexivity | |- True => exact I | |- In _ _ => cbn; tauto | |- Forall _ _ => constructor | |- ~ begins numeration _ => apply no_num; vm_compute; reflexivity | |- ~ begins further _ => apply no_more; vm_compute; reflexivity end; assumption. }
  destruct (C60_read_back (demo f1 f2 f3) (py ", see there") [] [] K) as (c & E). exists f1, f2, f3, c. split; [exact K|]. split; [vm_compute; reflexivity|].
  refine (eq_trans E _). f_equal. f_equal. cbn [demo elements element snd fst ibids map]. rewrite V1', Y1', P1', V2', Y2', P2', V3', Y3', P3'. vm_compute. reflexivity.
Qed.
