(** The report number knowledge base the package ships, refextract/references/kbs/report-numbers.kb, line by line. *)
From Coq Require Import List NArith String.
From Verif Require Import PyStr.
Import ListNotations.
Local Open Scope string_scope.

Definition shipped_reports : list str := map (fun l => (l ++ [10%N])%list) [
  py "*****LANL*****";
  py "<s/syymm999>";
  py "<syymm999>";
  py "";
  [65%N; 67%N; 67%N; 32%N; 80%N; 72%N; 89%N; 83%N; 9%N; 45%N; 45%N; 45%N; 97%N; 99%N; 99%N; 45%N; 112%N; 104%N; 121%N; 115%N];
  [65%N; 68%N; 65%N; 80%N; 32%N; 79%N; 82%N; 71%N; 9%N; 45%N; 45%N; 45%N; 97%N; 100%N; 97%N; 112%N; 45%N; 111%N; 114%N; 103%N];
  [65%N; 76%N; 71%N; 32%N; 71%N; 69%N; 79%N; 77%N; 9%N; 45%N; 45%N; 45%N; 97%N; 108%N; 103%N; 45%N; 103%N; 101%N; 111%N; 109%N];
  [65%N; 79%N; 32%N; 83%N; 67%N; 73%N; 9%N; 9%N; 45%N; 45%N; 45%N; 97%N; 111%N; 45%N; 115%N; 99%N; 105%N];
  [65%N; 85%N; 84%N; 79%N; 32%N; 70%N; 77%N; 83%N; 9%N; 45%N; 45%N; 45%N; 97%N; 117%N; 116%N; 111%N; 45%N; 102%N; 109%N; 115%N];
  [66%N; 65%N; 89%N; 69%N; 83%N; 32%N; 65%N; 78%N; 9%N; 45%N; 45%N; 45%N; 98%N; 97%N; 121%N; 101%N; 115%N; 45%N; 97%N; 110%N];
  [67%N; 68%N; 32%N; 72%N; 71%N; 9%N; 9%N; 45%N; 45%N; 45%N; 99%N; 100%N; 45%N; 104%N; 103%N];
  [67%N; 77%N; 80%N; 32%N; 76%N; 71%N; 9%N; 9%N; 45%N; 45%N; 45%N; 99%N; 109%N; 112%N; 45%N; 108%N; 103%N];
  [67%N; 79%N; 77%N; 80%N; 32%N; 71%N; 65%N; 83%N; 9%N; 45%N; 45%N; 45%N; 99%N; 111%N; 109%N; 112%N; 45%N; 103%N; 97%N; 115%N];
  [68%N; 71%N; 32%N; 71%N; 65%N; 9%N; 9%N; 45%N; 45%N; 45%N; 100%N; 103%N; 45%N; 103%N; 97%N];
  [70%N; 85%N; 78%N; 67%N; 84%N; 32%N; 65%N; 78%N; 9%N; 45%N; 45%N; 45%N; 102%N; 117%N; 110%N; 99%N; 116%N; 45%N; 97%N; 110%N];
  [71%N; 82%N; 32%N; 81%N; 67%N; 9%N; 9%N; 45%N; 45%N; 45%N; 103%N; 114%N; 45%N; 113%N; 99%N];
  [65%N; 82%N; 88%N; 73%N; 86%N; 72%N; 69%N; 80%N; 32%N; 69%N; 88%N; 9%N; 45%N; 45%N; 45%N; 104%N; 101%N; 112%N; 45%N; 101%N; 120%N];
  [65%N; 82%N; 88%N; 73%N; 86%N; 72%N; 69%N; 80%N; 32%N; 80%N; 72%N; 9%N; 45%N; 45%N; 45%N; 104%N; 101%N; 112%N; 45%N; 112%N; 104%N];
  [65%N; 82%N; 88%N; 73%N; 86%N; 72%N; 69%N; 80%N; 32%N; 84%N; 72%N; 9%N; 45%N; 45%N; 45%N; 104%N; 101%N; 112%N; 45%N; 116%N; 104%N];
  [76%N; 67%N; 32%N; 79%N; 77%N; 9%N; 9%N; 45%N; 45%N; 45%N; 108%N; 99%N; 45%N; 111%N; 109%N];
  [77%N; 84%N; 82%N; 76%N; 32%N; 84%N; 72%N; 9%N; 9%N; 45%N; 45%N; 45%N; 109%N; 116%N; 114%N; 108%N; 45%N; 116%N; 104%N];
  [78%N; 69%N; 85%N; 82%N; 79%N; 32%N; 67%N; 69%N; 76%N; 9%N; 45%N; 45%N; 45%N; 110%N; 101%N; 117%N; 114%N; 111%N; 45%N; 99%N; 101%N; 108%N];
  [78%N; 69%N; 85%N; 82%N; 79%N; 32%N; 68%N; 69%N; 86%N; 9%N; 45%N; 45%N; 45%N; 110%N; 101%N; 117%N; 114%N; 111%N; 45%N; 100%N; 101%N; 118%N];
  [78%N; 69%N; 85%N; 82%N; 79%N; 32%N; 83%N; 67%N; 73%N; 9%N; 45%N; 45%N; 45%N; 110%N; 101%N; 117%N; 114%N; 111%N; 45%N; 115%N; 99%N; 105%N];
  [80%N; 65%N; 84%N; 84%N; 32%N; 83%N; 79%N; 76%N; 9%N; 45%N; 45%N; 45%N; 112%N; 97%N; 116%N; 116%N; 45%N; 115%N; 111%N; 108%N];
  py "";
  py "";
  py "*****Fermilab extensions*****";
  py "<s9?9?9?9(?: AD?)?(?: AE)?(?: APC)?(?: CD)?(?: CMS)?(?: DI)?(?: E)?(?: ESH)?(?: LDRD)?(?: ND)?(?: PPD)?(?: TD?)?(?: WDRS)?\b>";
  py "<syys9?9?9?9(?: AD?)?(?: AE)?(?: APC)?(?: CD)?(?: CMS)?(?: DI)?(?: E)?(?: ESH)?(?: LDRD)?(?: ND)?(?: PPD)?(?: TD?)?(?: WDRS)?\b>";
  py "<syyyys9?9?9?9(?: AD?)?(?: AE)?(?: APC)?(?: CD)?(?: CMS)?(?: DI)?(?: E)?(?: ESH)?(?: LDRD)?(?: ND)?(?: PPD)?(?: TD?)?(?: WDRS)?\b>";
  py "";
  py "";
  py "FERMILAB CONF   ---FERMILAB-Conf";
  py "FERMILAB FN     ---FERMILAB-FN";
  py "FERMILAB PUB    ---FERMILAB-Pub";
  py "FERMILAB TM     ---FERMILAB-TM";
  py "FERMILAB SLIDES ---FERMILAB-SLIDES";
  py "FERMILAB POSTER ---FERMILAB-POSTER";
  py "";
  py "";
  py "";
  py "*****Fermilab no extensions*****";
  py "<s9?9?9?9>";
  py "<syys9?9?9\b>";
  py "<syyyys9?9?9\b>";
  py "";
  py "";
  py "FERMILAB CODE   ---FERMILAB-CODE";
  py "FERMILAB DESIGN ---FERMILAB-Design";
  py "FERMILABDESIGN  ---FERMILAB-Design";
  py "FERMILAB PROPOSAL ---FERMILAB-Proposal";
  py "FERMILAB THESIS ---FERMILAB-Thesis";
  py "FERMILAB MASTERS---FERMILAB-Masters";
  py "";
  py "";
  [42%N; 42%N; 42%N; 42%N; 42%N; 70%N; 101%N; 114%N; 109%N; 105%N; 108%N; 97%N; 98%N; 32%N; 68%N; 216%N; 32%N; 110%N; 111%N; 116%N; 101%N; 115%N; 42%N; 42%N; 42%N; 42%N; 42%N];
  py "<s9?9?9?9>";
  py "<s9?9?9?9 CONF>";
  py "";
  [68%N; 216%N; 32%N; 78%N; 79%N; 84%N; 69%N; 45%N; 45%N; 45%N; 68%N; 48%N; 45%N; 78%N; 111%N; 116%N; 101%N];
  py "D0 NOTE---D0-Note";
  py "";
  py "*****Fermilab CDF*****";
  py "<s9?9?9?9>";
  py "";
  py "CDF                       ---CDF";
  py "CDF ANAL ELECTROWEAK CDFR ---CDF-ANAL-ELECTROWEAK-CDFR";
  py "CDF ANAL EXOTIC CDFR      ---CDF-ANAL-EXOTIC-CDFR";
  py "CDF ANAL EXOTIC PUBLIC    ---CDF-ANAL-EXOTIC-PUBLIC";
  py "CDF ANAL JET PUBLIC       ---CDF-ANAL-JET-PUBLIC";
  py "CDF ANAL TOP CDFR         ---CDF-ANAL-TOP-CDFR";
  py "CDF ANAL TOP PUBLIC       ---CDF-ANAL-TOP-PUBLIC";
  py "CDF DOC CDF CDFR          ---CDF-DOC-CDF-CDFR";
  py "CDF DOC CDF PUBLIC        ---CDF-DOC-CDF-PUBLIC";
  py "CDF DOC PLUG UPGR CDFR    ---CDF-DOC-PLUG-UPGR-CDFR";
  py "CDF NOTE                  ---CDF-NOTE";
  py "CDF PHYS BOTTOM PUBLIC    ---CDF-PHYS-BOTTOM-PUBLIC";
  py "CDF PUB                   ---CDF-PUB";
  py "CDF PUB BOTTOM CDFR       ---CDF-PUB-BOTTOM-CDFR";
  py "CDF PUB BOTTOM PUBLIC     ---CDF-PUB-BOTTOM-PUBLIC";
  py "CDF PUB CDF PUBLIC        ---CDF-PUB-CDF-PUBLIC";
  py "CDF PUB ELECTROWEAK CDFR  ---CDF-PUB-ELECTROWEAK-CDFR";
  py "CDF PUB ELECTROWEAK PUBLIC---CDF-PUB-ELECTROWEAK-PUBLIC";
  py "CDF PUB EXOTIC CDFR       ---CDF-PUB-EXOTIC-CDFR";
  py "CDF PUB EXOTIC PUBLIC     ---CDF-PUB-EXOTIC-PUBLIC";
  py "CDF PUB HEAVYFLAVOR PUBLIC---CDF-PUB-HEAVYFLAVOR-PUBLIC";
  py "CDF PUB JET CDFR          ---CDF-PUB-JET-CDFR";
  py "CDF PUB JET PUBLIC        ---CDF-PUB-JET-PUBLIC";
  py "CDF PUB MIN BIAS PUBLIC   ---CDF-PUB-MIN-BIAS-PUBLIC";
  py "CDF PUB PLUG UPGR PUBLIC  ---CDF-PUB-PLUG-UPGR-PUBLIC";
  py "CDF PUB PUBLIC            ---CDF-PUB-PUBLIC";
  py "CDF PUB SEC VTX PUBLIC    ---CDF-PUB-SEC-VTX-PUBLIC";
  py "CDF PUB SEC_VTX PUBLIC    ---CDF-PUB-SEC-VTX-PUBLIC";
  py "CDF PUB TOP CDFR          ---CDF-PUB-TOP-CDFR";
  py "CDF PUB TOP PUBLIC        ---CDF-PUB-TOP-PUBLIC";
  py "CDF THESIS BOTTOM PUBLIC  ---CDF-THESIS-BOTTOM-PUBLIC";
  py "CDF THESIS CDF PUBLIC     ---CDF-THESIS-CDF-PUBLIC";
  py "CDF THESIS TOP PUBLIC     ---CDF-THESIS-TOP-PUBLIC";
  py "CDF TOP PUBLIC            ---CDF-TOP-PUBLIC";
  py "";
  py "";
  py "*****Fermilab MicroBooNE*****";
  py "<s9?9?9?9(?: PUB| TECH)>";
  py "";
  py "MICROBOONE NOTE           ---MICROBOONE-NOTE";
  py "MICROBOONE PUBLIC NOTE    ---MICROBOONE-NOTE";
  py "";
  py "*****CERN*****";
  py "<syys9?9?9>";
  py "<syyyys9?9?9>";
  py "";
  py "AB NOTE                ---AB-NOTE";
  py "ALEPH                  ---ALEPH";
  py "ALICE                  ---ALICE";
  py "ALICE INT              ---ALICE-INT";
  py "ALICE NOTE             ---ALICE-INT";
  py "ALICE PUBLIC           ---ALICE-PUBLIC";
  py "ATL CAL                ---ATL-CAL";
  py "ATL COM                ---ATL-COM";
  py "ATL COM SOFT           ---ATL-COM-SOFT";
  py "ATL COM PUB            ---ATL-COM-DAQ";
  py "ATL COM DAQ            ---ATL-COM-DAQ";
  py "ATL COM INDENT         ---ATL-COM-INDENT";
  py "ATL COM LUM            ---ATL-COM-LUM";
  py "ATL COM MUON           ---ATL-COM-MUON";
  py "ATL COM PHYS           ---ATL-COM-PHYS";
  py "ATL COMPHYS            ---ATL-COM-PHYS";
  py "ATLCOM PHYS            ---ATL-COM-PHYS";
  py "TL COM PHYS            ---ATL-COM-PHYS";
  py "ATLAS COM PHYS         ---ATLAS-COM-PHYS";
  py "ATL COM TILECAL        ---ATL-COM-TILECAL";
  py "ATL COM LARG           ---ATL-COM-LARG";
  py "ATLAS COM CONF         ---ATLAS-COM-CONF";
  py "ATLASCOM CONF          ---ATLAS-COM-CONF";
  py "ATLAS COMCONF          ---ATLAS-COM-CONF";
  py "ATLAS CONF             ---ATLAS-CONF";
  py "ATLASCONF              ---ATLAS-CONF";
  py "ATL DAQ                ---ATL-DAQ";
  py "ATL DAQ CONF           ---ATL-DAQ-CONF";
  py "ATL DAQ PUB            ---ATL-DAQ-PUB";
  py "ATL DAQ PROC           ---ATL-DAQ-PROC";
  py "ATL GEN                ---ATL-GEN";
  py "ATLAS HIGG             ---ATLAS-HIGG";
  py "ATL INDET              ---ATL-INDET";
  py "ATL INDET PUB          ---ATL-INDET-PUB";
  py "ATL INDET PROC         ---ATL-INDET-PROC";
  py "ATL LARG               ---ATL-LARG";
  py "ATL MUON               ---ATL-MUON";
  py "ATL MUON PUB           ---ATL-MUON-PUB";
  py "ATL PUB MUON           ---ATL-PUB-MUON";
  py "ATL PHYS               ---ATL-PHYS";
  py "ATL PHYS CONF          ---ATL-PHYS-CONF";
  py "ATL PHYS INT           ---ATL-PHYS-INT";
  py "ATL PHYSINT            ---ATL-PHYS-INT";
  py "ATLPHYS INT            ---ATL-PHYS-INT";
  py "ATL PHYS PUB           ---ATL-PHYS-PUB";
  py "ATL PHYSPUB            ---ATL-PHYS-PUB";
  py "ATLPHYS PUB            ---ATL-PHYS-PUB";
  py "ATLAS PHYS PUB         ---ATL-PHYS-PUB";
  py "ATL PHYS PROC          ---ATL-PHYS-PROC";
  py "ATL TECH               ---ATL-TECH";
  py "ATL TILECAL            ---ATL-TILECAL";
  py "ATL TILECAL PUB        ---ATL-TILECAL-PUB";
  py "ATL TILECAL PROC       ---ATL-TILECAL-PROC";
  py "ATL SOFT               ---ATL-SOFT";
  py "ATL SOFT PUB           ---ATL-SOFT-PUB";
  py "ATL SOFT PROC          ---ATL-SOFT-PROC";
  py "ATL IS EN              ---ATL-IS-EN";
  py "ATL IS QA              ---ATL-IS-QA";
  py "ATL LARG PUB           ---ATL-LARG-PUB";
  py "ATL COM LARG           ---ATL-COM-LARG";
  py "TL COM LARG            ---ATL-COM-LARG";
  py "ATLCOM LARG            ---ATL-COM-LARG";
  py "ATL MAGNET PUB         ---ATL-MAGNET-PUB";
  py "ATL UPGRADE PUB        ---ATL-UPGRADE-PUB";
  py "ATL UPGRADE PROC       ---ATL-UPGRADE-PROC";
  py "CERN AB                ---CERN-AB";
  py "CERN AB NOTE           ---CERN-NOTE";
  py "CERN ALEPH             ---CERN-ALEPH";
  py "CERN ALEPH PHYSIC      ---CERN-ALEPH-PHYSIC";
  py "CERN ALEPH PUB         ---CERN-ALEPH-PUB";
  py "CERN ALICE INT         ---CERN-ALICE-INT";
  py "CERN ALICE PUB         ---CERN-ALICE-PUB";
  py "CERN ALI               ---CERN-ALI";
  py "CERN AS                ---CERN-AS";
  py "CERN AT                ---CERN-AT";
  py "CERN ATL COM CAL       ---CERN-ATL-COM-CAL";
  py "CERN ATL COM DAQ       ---CERN-ATL-COM-DAQ";
  py "CERN ATL COM GEN       ---CERN-ATL-COM-GEN";
  py "CERN ATL COM INDET     ---CERN-ATL-COM-INDET";
  py "CERN ATL COM LARG      ---CERN-ATL-COM-LARG";
  py "CERN ATL COM MUON      ---CERN-ATL-COM-MUON";
  py "CERN ATL COM PHYS      ---CERN-ATL-COM-PHYS";
  py "CERN ATL COM TECH      ---CERN-ATL-COM";
  py "CERN ATL COM TILECAL   ---CERN-ATL-COM";
  py "CERN ATL DAQ           ---CERN-ATL-DAQ";
  py "CERN ATL SOFT          ---CERN-ATL-SOFT";
  py "CERN ATL SOFT INT      ---CERN-ATL-SOFT-INT";
  py "CERN ATL SOFT PUB      ---CERN-ATL-SOFT-PUB";
  py "CERN ATS               ---CERN-ATS";
  py "CERNATS                ---CERN-ATS";
  py "CERN ATS NOTE          ---CERN-ATS-NOTE";
  py "CERNATS NOTE           ---CERN-ATS-NOTE";
  py "CERN BE                ---CERN-BE";
  py "CERN BE NOTE           ---CERN-BE-NOTE";
  py "CERN CMS               ---CERN-CMS";
  py "CERN CMS CR            ---CERN-CMS-CR";
  py "CERN CMS DP            ---CERN-CMS-DP";
  py "CERN CMS NOTE          ---CERN-CMS-NOTE";
  py "CERN CN                ---CERN-CN";
  py "CERN DD                ---CERN-DD";
  py "CERN DELPHI            ---CERN-DELPHI";
  py "CERN ECP               ---CERN-ECP";
  py "CERN EF                ---CERN-EF";
  py "CERN EP                ---CERN-EP";
  py "CERN EST               ---CERN-EST";
  py "CERN ETT               ---CERN-ETT";
  py "CERN INTC              ---CERN-INTC";
  py "CERN IT                ---CERN-IT";
  py "CERN LCGAPP            ---CERN-LCGAPP";
  py "CERN LHCB              ---CERN-LHCB";
  py "CERN LHCB DP           ---CERN-LHCB-DP";
  py "CERN LHCB CONF         ---CERN-LHCB-CONF";
  py "CERN LHCB INT          ---CERN-LHCB-INT";
  py "CERN LHCB PUB          ---CERN-LHCB-PUB";
  py "CERN LHCC              ---CERN-LHCC";
  py "CERNLHCC               ---CERN-LHCC";
  py "CERN LHC               ---CERN-LHC";
  py "CERN LHC PHO           ---CERN-LHC-PHO";
  py "CERN LHC PROJECT REPORT---CERN-LHC-Project-Report";
  py "CERN OPEN              ---CERN-OPEN";
  py "CERNOPEN               ---CERNOPEN";
  py "CERN PH EP             ---CERN-PH-EP";
  py "CERNPH EP              ---CERN-PH-EP";
  py "CERN PHEP              ---CERN-PH-EP";
  py "CERN PH LPCC           ---CERN-PH-LPCC";
  py "CERN PH TH             ---CERN-PH-TH";
  py "CERN PPE               ---CERN-PPE";
  py "CERN PROCEEDINGS       ---CERN-PROCEEDINGS";
  py "CERN PS                ---CERN-PS";
  py "CERN SL                ---CERN-SL";
  py "CERN SL NOTE           ---CERN-SL-NOTE";
  py "CERN SPSC              ---CERN-SPSC";
  py "CERNSPSC               ---CERN-SPSC";
  py "CERN ST                ---CERN-ST";
  py "CERN TH                ---CERN-TH";
  py "CERN THESIS            ---CERN-THESIS";
  py "CERNTHESIS             ---CERN-THESIS";
  py "CERN TIS               ---CERN-TIS";
  py "CERN ATS               ---CERN-ATS";
  py "CERN ATSNOTE           ---CERN-ATSNOTE";
  py "CERN                   ---CERN";
  py "CLICDP NOTE            ---CLICDP-NOTE";
  py "CMS AN                 ---CMS-AN";
  py "CMS CR                 ---CMS-CR";
  py "CMS DP                 ---CMS-DP";
  py "CMS NOTE               ---CMS-NOTE";
  py "CMSNOTE                ---CMS-NOTE";
  py "CMS EXO                ---CMS-EXO";
  py "CMS TS                 ---CMS-TS";
  py "DELPHI                 ---DELPHI";
  py "DELPHI NOTE            ---DELPHI-NOTE";
  py "DIRAC NOTE             ---DIRAC-NOTE";
  py "DN                     ---DIRAC-NOTE";
  py "LHCB                   ---LHCB";
  py "LHCB DP                ---LHCB-DP";
  py "LHCB JOURNAL           ---LHCB-JOURNAL";
  py "LHCB ANA               ---LHCB-ANA";
  py "LHCB CONF              ---LHCB-CONF";
  py "LHCBCONF               ---LHCB-CONF";
  py "LHCB INT               ---LHCB-INT";
  py "LHCB PUB               ---LHCB-PUB";
  py "LHCB PAPER             ---LHCB-PAPER";
  py "LHCB PROC              ---LHCB-PROC";
  py "LHCB TALK              ---LHCB-TALK";
  py "LHCHXSWG               ---LHCHXSWG";
  py "LHCHXSWG DRAFT INT     ---LHCHXSWG-DRAFT-INT";
  py "LHCHXSWG INT           ---LHCHXSWG-INT";
  py "SN ATLAS               ---SN-ATLAS";
  py "PAS SUSY               ---CMS-PAS-SUS";
  py "CMS PAS EXO            ---CMS-PAS-EXO";
  py "CMS PAS HIN            ---CMS-PAS-HIN";
  py "CMS PAS QCD            ---CMS-PAS-QCD";
  py "CMS PAS TOP            ---CMS-PAS-TOP";
  py "CMS PAS SUS            ---CMS-PAS-SUS";
  py "CMS PAS BPH            ---CMS-PAS-BPH";
  py "CMS PAS SMP            ---CMS-PAS-SMP";
  py "CMS PAS HIG            ---CMS-PAS-HIG";
  py "CMS PAS EWK            ---CMS-PAS-EWK";
  py "CMS PAS BTV            ---CMS-PAS-BTV";
  py "CMS PAS FWD            ---CMS-PAS-FWD";
  py "CMS PAS TRK            ---CMS-PAS-TRK";
  py "CMS PAS SMP            ---CMS-PAS-SMP";
  py "CMS PAS PFT            ---CMS-PAS-PFT";
  py "CMS PAS MUO            ---CMS-PAS-MUO";
  py "CMS PAS JME            ---CMS-PAS-JME";
  py "CMS PAS EGM            ---CMS-PAS-EGM";
  py "CMS PAS DIF            ---CMS-PAS-DIF";
  py "CMS PAS B2G            ---CMS-PAS-B2G";
  py "ATLTILECAL PUB         ---ATLTILECAL-PUB";
  py "ATLAS TECH PUB         ---ATLAS-TECH-PUB";
  py "TLCOM MAGNET           ---TLCOM-MAGNET";
  py "ATLLARG                ---ATL-LARG";
  py "SL NOTE                ---SL-NOTE";
  py "TOTEM                  ---TOTEM";
  py "TS NOTE                ---TS-NOTE";
  py "";
  py "*****CERN MORE*****";
  py "<s9>";
  py "";
  py "CMS UG TP       ---CMS-UG-TP";
  py "";
  py "";
  py "*****CERN DIFFERENT FORMAT*****";
  py "<s9999999>";
  py "CERN GE         ---CERN-GE";
  py "";
  py "*****CERN with language*****";
  py "<syyyys9?9?9sEng>";
  py "";
  py "CERN BROCHURE   ---CERN-BROCHURE";
  py "";
  py "";
  py "*****LHC*****";
  py "<s9?9?9?9>";
  py "";
  py "CERN CLIC NOTE          ---CLIC-Note";
  py "LHC PROJECT NOTE        ---LHC-Project-Note";
  py "CERN LHC PROJECT REPORT ---CERN-LHC-Project-Report";
  py "LHC PROJECT REPORT      ---CERN-LHC-Project-Report";
  py "CLIC NOTE               ---CLIC-Note";
  py "ATLAS TDR               ---ATL-TDR";
  py "CMS TDR                 ---CMS-TDR";
  py "ATC TT ID               ---ATC-TT-ID";
  py "ATC TT IN               ---ATC-TT-IN";
  py "LHCCP                   ---LHCCP";
  py "";
  py "***LHC OTHER FORMAT*****";
  py "<syyyys9?9?9?9>";
  py "";
  py "CERN ACC               ---CERN-ACC";
  py "CERN ACC NOTE          ---CERN-ACC-NOTE";
  py "";
  py "*****KEK*****";
  py "<s9?9?9?9>";
  py "<syys9?9?9>";
  py "<syyyys9?9?9>";
  py "";
  py "KEK CP        ---KEK-CP";
  py "KEK INT       ---KEK-Internal";
  py "KEK INTERNAL  ---KEK-Internal";
  py "KEK PREPRINT  ---KEK-Preprint";
  [75%N; 69%N; 75%N; 32%N; 84%N; 72%N; 9%N; 32%N; 32%N; 32%N; 32%N; 32%N; 32%N; 45%N; 45%N; 45%N; 75%N; 69%N; 75%N; 45%N; 84%N; 72%N];
  py "";
  py "";
  py "*****DESY*****";
  py "<syys9?9?9>";
  py "<syyyys9?9?9>";
  py "";
  [68%N; 69%N; 83%N; 89%N; 9%N; 9%N; 45%N; 45%N; 45%N; 68%N; 69%N; 83%N; 89%N];
  [68%N; 69%N; 83%N; 89%N; 32%N; 77%N; 9%N; 9%N; 45%N; 45%N; 45%N; 68%N; 69%N; 83%N; 89%N; 45%N; 77%N];
  py "DESY THESIS     ---DESY-THESIS";
  py "DESYTHESIS      ---DESY-THESIS";
  py "DESY TESLA FEL  ---DESY-TESLA-FEL";
  py "DESY PROC       ---DESY-PROC";
  py "DESYPROC        ---DESY-PROC";
  py "TESLA FEL       ---DESY-TESLA-FEL";
  py "";
  py "";
  py "*****DESY F*****";
  py "<99s9>";
  py "<9s99s99>";
  py "<99s99s99>";
  py "";
  py "DESY F      ---DESY-F";
  py "";
  py "";
  py "*****SLAC*****";
  py "<s9?9?9?9?9>";
  py "<syys9?9?9>";
  py "";
  [83%N; 76%N; 65%N; 67%N; 32%N; 65%N; 80%N; 9%N; 9%N; 45%N; 45%N; 45%N; 83%N; 76%N; 65%N; 67%N; 45%N; 65%N; 80%N];
  [83%N; 76%N; 65%N; 67%N; 32%N; 80%N; 85%N; 66%N; 9%N; 45%N; 45%N; 45%N; 83%N; 76%N; 65%N; 67%N; 45%N; 80%N; 85%N; 66%N];
  [83%N; 76%N; 65%N; 67%N; 32%N; 82%N; 9%N; 9%N; 45%N; 45%N; 45%N; 83%N; 76%N; 65%N; 67%N; 45%N; 82%N];
  [83%N; 76%N; 65%N; 67%N; 32%N; 84%N; 78%N; 9%N; 9%N; 45%N; 45%N; 45%N; 83%N; 76%N; 65%N; 67%N; 45%N; 84%N; 78%N];
  [83%N; 76%N; 65%N; 67%N; 32%N; 87%N; 80%N; 9%N; 9%N; 45%N; 45%N; 45%N; 83%N; 76%N; 65%N; 67%N; 45%N; 87%N; 80%N];
  py "";
  py "";
  py "*****Berkeley Lab*****";
  py "<s9?9?9?9?9>";
  py "LBNL         ---LBNL";
  py "";
  py "";
  py "";
  py "*****Argonne National Laboratory*****";
  py "<syys9?9>";
  py "";
  py "ANL HEP TR   ---ANL-HEP-TR";
  py "";
  py "";
  py "*****Antares*****";
  py "<syyyys9?9?9>";
  py "";
  py "ANTARES SOFT  ---ANTARES-SOFT";
  py "ANTARES PHYS  ---ANTARES-Phys";
  py "ANTARES OPMO  ---ANTARES-Opmo";
  py "";
  py "*****LIGO*****";
  py "<sTyy9999s00sa>";
  py "";
  py "LIGO          ---LIGO";
  py "";
  py "*****Pierre Auger*****";
  py "<syyyys9?9?9>";
  py "";
  py "GAP           ---GAP";
  py "";
  py "*****ILC*****";
  py "<syyyys9?9?9>";
  py "";
  py "EUDET MEMO    ---EUDET-MEMO";
  py "EUDET REPORT  ---EUDET-REPORT";
  py "EUROTEV REPORT---EUROTEV-REPORT";
  py "ILC NOTE      ---ILC-NOTE";
  py "ILC REPORT    ---ILC-REPORT";
  py "LC DET        ---LC-DET";
  py "LC PHSM       ---LC-PHSM";
  py "LC REP        ---LC-REP";
  py "LC REPORT     ---LC-REPORT";
  py "LC TOOL       ---LC-TOOL";
  py "LC TH         ---LC-TH";
  py "LCD NOTE      ---LCD-NOTE";
  py "";
  py "*****IHEP*****";
  py "<syys9?9?9>";
  py "<syyyys9?9?9>";
  py "";
  py "IHEP AC       ---IHEP-AC";
  py "IHEP CEPC DR  ---IHEP-CEPC-DR";
  py "IHEP EP       ---IHEP-EP";
  py "IHEP TH       ---IHEP-TH";
  py "";
  py "*****IPAC*****";
  py "<syyyysaaaaa9?9?9>";
  py "";
  py "IPAC          ---IPAC";
  py "";
  py "*****JINR*****";
  py "<[EP]9?9syys9?9?9>";
  py "<[EP]9?9syyyys9?9?9>";
  py "";
  py "JINR          ---JINR";
  py "";
  py "*****Other institutes (standard format)*****";
  py "<syys9?9?9?9>";
  py "<syyyys9?9?9?9>";
  py "";
  py "BONN IR       ---BONN-IR";
  py "BONN IB       ---BONN-IB";
  py "DAMTP         ---DAMTP";
  py "ESS           ---ESS";
  py "EUCARD CON    ---EUCARD-CON";
  py "INO           ---INO";
  py "JAI           ---JAI";
  py "KFKI          ---KFKI";
  py "LPHE          ---LPHE";
  py "MPP           ---MPP";
  py "NIKHEF        ---NIKHEF";
  py "RAL TR        ---RAL-TR";
  py "SLS TME TA    ---SLS-TME-TA"].
