(** The small knowledge bases the package ships (refextract/references/kbs), line by line. *)
From Coq Require Import List NArith String.
From Verif Require Import PyStr.
Import ListNotations.
Local Open Scope string_scope.

(** collaborations.kb *)
Definition shipped_collabs : list str := map (fun l => (l ++ [10%N])%list) [
  py "# This file holds text which must be recognised alongside authors, and hence included in the $h subfields.";
  py "# Matches using this data do not affect how references are split.";
  py "# (Just simply appends to the most recent $h subfield for the datafield, or makes a new one).";
  py "# Do not append an 's' to the end.";
  py "# Insert only the Upper cased version.";
  py "CMS Collaboration---CMS Collaboration";
  py "ATLAS Collaboration---ATLAS Collaboration";
  py "ALICE Collaboration---ALICE Collaboration";
  py "LEP Collaboration---LEP Collaboration";
  py "CDF Collaboration---CDF Collaboration";
  py "D0 Collaboration---D0 Collaboration";
  py "ALEPH Collaboration---ALEPH Collaboration";
  py "DELPHI Collaboration---DELPHI Collaboration";
  py "L3 Collaboration---L3 Collaboration";
  py "OPAL Collaboration---OPAL Collaboration";
  py "CTEQ Collaboration---CTEQ Collaboration";
  py "GEANT4 Collaboration---GEANT4 Collaboration";
  py "LHC-B Collaboration---LHC-B Collaboration";
  py "CDF II Collaboration---CDF II Collaboration";
  py "RD 48 Collaboration---RD 48 Collaboration";
  py "SLD Collaboration---SLD Collaboration";
  py "H1 Collaboration---H1 Collaboration";
  py "COMPASS Collaboration---COMPASS Collaboration";
  py "HERMES Collaboration---HERMES Collaboration";
  py "European Muon Collaboration---European Muon Collaboration";
  py "Spin Muon Collaboration---Spin Muon Collaboration";
  py "E143 Collaboration---E143 Collaboration";
  py "Particle Data Group Collaboration---Particle Data Group Collaboration";
  py "ATLAS Inner Detector software group Collaboration---ATLAS Inner Detector software group Collaboration";
  [68%N; 216%N; 32%N; 67%N; 111%N; 108%N; 108%N; 97%N; 98%N; 111%N; 114%N; 97%N; 116%N; 105%N; 111%N; 110%N; 45%N; 45%N; 45%N; 68%N; 216%N; 32%N; 67%N; 111%N; 108%N; 108%N; 97%N; 98%N; 111%N; 114%N; 97%N; 116%N; 105%N; 111%N; 110%N];
  py "CUORE Collaboration---CUORE Collaboration";
  py "Belle Collaboration---Belle Collaboration"].
(** journal-titles-re.kb *)
Definition shipped_journals_re : list str := map (fun l => (l ++ [10%N])%list) [
  py "DAN---Dokl.Akad.Nauk Ser.Fiz."].
(** authors.kb *)
Definition shipped_authors : list str := map (fun l => (l ++ [10%N])%list) [
  [68%N; 117%N; 32%N; 776%N; 104%N; 114%N; 115%N; 115%N; 101%N; 110%N; 45%N; 45%N; 45%N; 68%N; 252%N; 104%N; 114%N; 115%N; 115%N; 101%N; 110%N]].
(** publishers.kb *)
Definition shipped_publishers : list str := map (fun l => (l ++ [10%N])%list) [
  py "SHAKER---Shaker";
  py "ELSEVIER---Elsevier";
  py "NORTH HOLLAND---North-Holland";
  py "BRANS---Brans";
  py "BIRKHAEUSER---Birkhaeuser";
  py "SCI PR---Sci. Pr.";
  py "UNIV FORL---Univ.-Forl.";
  py "LBL---LBL";
  py "DE GRUYTER---de Gruyter";
  py "AEG---AEG";
  py "BEUTH---Beuth";
  py "ELITERA---Elitera";
  py "SPRINGER---Springer";
  py "VEB VERL TECH---VEB Verl. Tech.";
  py "CRC PR---CRC Pr.";
  py "PITAGORA---Pitagora";
  py "BIRKHAEUSER---Birkhaeuser";
  py "GERSBACH---Gersbach";
  py "VIEWEG---Vieweg";
  py "HILGER---Hilger";
  py "IOP---IOP";
  py "MATH SCI PR---Math. Sci. Pr.";
  py "UNIV PR---Univ. Pr.";
  py "MIT PR---MIT Pr.";
  py "UNIV PR---Univ. Pr.";
  py "WILEY---Wiley";
  py "RUTHERFORD LAB---Rutherford Lab.";
  py "DARESBURY LAB---Daresbury Lab.";
  py "TEOCHE MITTLER---Teoche-Mittler";
  py "KLUWER ACADEMIC---Kluwer Academic";
  py "REIDEL---Reidel";
  py "ED FRONTIERES---Ed. Frontieres";
  py "VDI---VDI";
  py "FIZ4---FIZ4";
  py "PHILIPS---Philips";
  py "PRENTICE HALL---Prentice-Hall";
  py "GIRARDET---Girardet";
  py "UMSCHAU---Umschau";
  py "ED FRONTIERES---Ed. Frontieres";
  py "WORLD SCIENTIFIC---World Scientific";
  py "GIOI PUBL---Gioi Publ.";
  py "HUETIG---Huetig";
  py "#BRAUN---Braun";
  py "FACHBUCHVERL---Fachbuchverl.";
  py "ACADEMIC---Academic";
  py "ADDISON WESLEY---Addison-Wesley";
  py "#BUTTERWORTH---Butterworth";
  py "HARWOOD ACAD---Harwood Acad.";
  py "HEINEMANN EDUC BOOKS---Heinemann Educ. Books";
  py "IMP COLL PR---Imp. Coll. Pr.";
  py "MCGRAW HILL---McGraw-Hill";
  py "PERGAMON---Pergamon";
  py "ROUTLEDGE & KEGAN PAUL---Routledge & Kegan Paul";
  py "ROY SOC---Roy. Soc.";
  py "WILEY---Wiley";
  py "LANL---LANL";
  py "TINNON BROWN---Tinnon-Brown";
  py "BIBLIOGRAPH INST---Bibliograph. Inst.";
  py "AIP---AIP";
  py "EDITRICE ABITARE SEGESTA---Editrice Abitare Segesta";
  py "UNIV PR---Univ. Pr.";
  py "GERSBACH---Gersbach";
  py "HANSER---Hanser";
  py "OLDENBOURG---Oldenbourg";
  py "PIPER---Piper";
  py "THIEMIG---Thiemig";
  py "ACADEMIC---Academic";
  py "AM SOC MECH ENG---Am. Soc. Mech. Eng.";
  py "AIP---AIP";
  py "BENJAMIN---Benjamin";
  py "DOVER---Dover";
  py "GORDON AND BREACH---Gordon and Breach";
  py "INTERSCIENCE---Interscience";
  py "KLUWER ACADEMIC---Kluwer Academic";
  py "MCGRAW HILL---McGraw-Hill";
  py "NOVA SCI PUBL---Nova Sci. Publ.";
  py "PERGAMON---Pergamon";
  py "PLENUM---Plenum";
  py "SPRINGER---Springer";
  py "WILEY---Wiley";
  py "CEBAF---CEBAF";
  py "CLARENDON---Clarendon";
  py "PERGAMON---Pergamon";
  py "UNIV PR---Univ. Pr.";
  py "ANNUAL REVIEWS---Annual Reviews";
  py "INP---INP";
  py "SIAM---SIAM";
  py "VAN NOSTRAND---van Nostrand";
  py "UNIV PR---Univ. Pr.";
  py "ADDISON WESLEY---Addison-Wesley";
  py "WORLD SCIENTIFIC---World Scientific";
  py "MUELLER---Mueller";
  py "ECOWIN VERL---Ecowin Verl.";
  py "#FREEMAN---Freeman";
  py "PITMAN---Pitman";
  py "WORLD SCIENTIFIC---World Scientific";
  py "NAT TECH INFORM SERV---Nat. Tech. Inform. Serv.";
  py "SLAC---SLAC";
  py "BERL UNION---Berl. Union";
  py "TEUBNER---Teubner";
  py "SWED PHYS ARCHIVE---Swed. Phys. Archive";
  py "DEUTSCH---Deutsch";
  py "KEK---KEK";
  py "IAEA---IAEA";
  py "SPRINGER---Springer";
  py "IEEE---IEEE";
  py "PHYSIK VERL---Physik-Verl.";
  py "WILEY VCH---Wiley-VCH";
  py "AIP---AIP"].
(** special-journals.kb *)
Definition shipped_special : list str := map (fun l => (l ++ [10%N])%list) [
  py "JHEP";
  py "JCAP"].
