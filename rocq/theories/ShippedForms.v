(** The institutes of the report number knowledge base the package ships, refextract/references/kbs/report-numbers.kb: for each the
    number of the line that ends its entry (kbs.py keys the patterns by it), its categories as they stand there, and the forms of its
    numbers, those with the longer pattern first. *)
From Coq Require Import List NArith String.
From Verif Require Import PyStr ReportGrammar.
Import ListNotations.
Local Open Scope string_scope.
Local Open Scope list_scope.

Definition shipped_institutes : list (nat * list str * list (list piece)) := [
  (28, [py "ACC PHYS" ++ [9%N]; py "ADAP ORG" ++ [9%N]; py "ALG GEOM" ++ [9%N]; py "AO SCI" ++ [9%N; 9%N]; py "AUTO FMS" ++ [9%N]; py "BAYES AN" ++ [9%N]; py "CD HG" ++ [9%N; 9%N]; py "CMP LG" ++ [9%N; 9%N]; py "COMP GAS" ++ [9%N]; py "DG GA" ++ [9%N; 9%N]; py "FUNCT AN" ++ [9%N]; py "GR QC" ++ [9%N; 9%N]; py "ARXIVHEP EX" ++ [9%N]; py "ARXIVHEP PH" ++ [9%N]; py "ARXIVHEP TH" ++ [9%N]; py "LC OM" ++ [9%N; 9%N]; py "MTRL TH" ++ [9%N; 9%N]; py "NEURO CEL" ++ [9%N]; py "NEURO DEV" ++ [9%N]; py "NEURO SCI" ++ [9%N]; py "PATT SOL" ++ [9%N]],
   [[Blanks; Exact "/"; Blanks; Year2; Month; Digit; Digit; Digit];
    [Blanks; Year2; Month; Digit; Digit; Digit]]);
  (43, [py "FERMILAB CONF   "; py "FERMILAB FN     "; py "FERMILAB PUB    "; py "FERMILAB TM     "; py "FERMILAB SLIDES "; py "FERMILAB POSTER "],
   [[Blanks; Year4; Blanks; MaybeDigit; MaybeDigit; MaybeDigit; Digit; Maybe " A" "D"; Maybe " AE" ""; Maybe " APC" ""; Maybe " CD" ""; Maybe " CMS" ""; Maybe " DI" ""; Maybe " E" ""; Maybe " ESH" ""; Maybe " LDRD" ""; Maybe " ND" ""; Maybe " PPD" ""; Maybe " T" "D"; Maybe " WDRS" ""; WordEdge];
    [Blanks; Year2; Blanks; MaybeDigit; MaybeDigit; MaybeDigit; Digit; Maybe " A" "D"; Maybe " AE" ""; Maybe " APC" ""; Maybe " CD" ""; Maybe " CMS" ""; Maybe " DI" ""; Maybe " E" ""; Maybe " ESH" ""; Maybe " LDRD" ""; Maybe " ND" ""; Maybe " PPD" ""; Maybe " T" "D"; Maybe " WDRS" ""; WordEdge];
    [Blanks; MaybeDigit; MaybeDigit; MaybeDigit; Digit; Maybe " A" "D"; Maybe " AE" ""; Maybe " APC" ""; Maybe " CD" ""; Maybe " CMS" ""; Maybe " DI" ""; Maybe " E" ""; Maybe " ESH" ""; Maybe " LDRD" ""; Maybe " ND" ""; Maybe " PPD" ""; Maybe " T" "D"; Maybe " WDRS" ""; WordEdge]]);
  (57, [py "FERMILAB CODE   "; py "FERMILAB DESIGN "; py "FERMILABDESIGN  "; py "FERMILAB PROPOSAL "; py "FERMILAB THESIS "; py "FERMILAB MASTERS"],
   [[Blanks; Year4; Blanks; MaybeDigit; MaybeDigit; Digit; WordEdge];
    [Blanks; Year2; Blanks; MaybeDigit; MaybeDigit; Digit; WordEdge];
    [Blanks; MaybeDigit; MaybeDigit; MaybeDigit; Digit]]);
  (64, [[68%N; 216%N; 32%N; 78%N; 79%N; 84%N; 69%N]; py "D0 NOTE"],
   [[Blanks; MaybeDigit; MaybeDigit; MaybeDigit; Digit; Exact " CONF"];
    [Blanks; MaybeDigit; MaybeDigit; MaybeDigit; Digit]]);
  (103, [py "CDF                       "; py "CDF ANAL ELECTROWEAK CDFR "; py "CDF ANAL EXOTIC CDFR      "; py "CDF ANAL EXOTIC PUBLIC    "; py "CDF ANAL JET PUBLIC       "; py "CDF ANAL TOP CDFR         "; py "CDF ANAL TOP PUBLIC       "; py "CDF DOC CDF CDFR          "; py "CDF DOC CDF PUBLIC        "; py "CDF DOC PLUG UPGR CDFR    "; py "CDF NOTE                  "; py "CDF PHYS BOTTOM PUBLIC    "; py "CDF PUB                   "; py "CDF PUB BOTTOM CDFR       "; py "CDF PUB BOTTOM PUBLIC     "; py "CDF PUB CDF PUBLIC        "; py "CDF PUB ELECTROWEAK CDFR  "; py "CDF PUB ELECTROWEAK PUBLIC"; py "CDF PUB EXOTIC CDFR       "; py "CDF PUB EXOTIC PUBLIC     "; py "CDF PUB HEAVYFLAVOR PUBLIC"; py "CDF PUB JET CDFR          "; py "CDF PUB JET PUBLIC        "; py "CDF PUB MIN BIAS PUBLIC   "; py "CDF PUB PLUG UPGR PUBLIC  "; py "CDF PUB PUBLIC            "; py "CDF PUB SEC VTX PUBLIC    "; py "CDF PUB SEC_VTX PUBLIC    "; py "CDF PUB TOP CDFR          "; py "CDF PUB TOP PUBLIC        "; py "CDF THESIS BOTTOM PUBLIC  "; py "CDF THESIS CDF PUBLIC     "; py "CDF THESIS TOP PUBLIC     "; py "CDF TOP PUBLIC            "],
   [[Blanks; MaybeDigit; MaybeDigit; MaybeDigit; Digit]]);
  (109, [py "MICROBOONE NOTE           "; py "MICROBOONE PUBLIC NOTE    "],
   [[Blanks; MaybeDigit; MaybeDigit; MaybeDigit; Digit; Either " PUB" " TECH"]]);
  (309, [py "AB NOTE                "; py "ALEPH                  "; py "ALICE                  "; py "ALICE INT              "; py "ALICE NOTE             "; py "ALICE PUBLIC           "; py "ATL CAL                "; py "ATL COM                "; py "ATL COM SOFT           "; py "ATL COM PUB            "; py "ATL COM DAQ            "; py "ATL COM INDENT         "; py "ATL COM LUM            "; py "ATL COM MUON           "; py "ATL COM PHYS           "; py "ATL COMPHYS            "; py "ATLCOM PHYS            "; py "TL COM PHYS            "; py "ATLAS COM PHYS         "; py "ATL COM TILECAL        "; py "ATL COM LARG           "; py "ATLAS COM CONF         "; py "ATLASCOM CONF          "; py "ATLAS COMCONF          "; py "ATLAS CONF             "; py "ATLASCONF              "; py "ATL DAQ                "; py "ATL DAQ CONF           "; py "ATL DAQ PUB            "; py "ATL DAQ PROC           "; py "ATL GEN                "; py "ATLAS HIGG             "; py "ATL INDET              "; py "ATL INDET PUB          "; py "ATL INDET PROC         "; py "ATL LARG               "; py "ATL MUON               "; py "ATL MUON PUB           "; py "ATL PUB MUON           "; py "ATL PHYS               "; py "ATL PHYS CONF          "; py "ATL PHYS INT           "; py "ATL PHYSINT            "; py "ATLPHYS INT            "; py "ATL PHYS PUB           "; py "ATL PHYSPUB            "; py "ATLPHYS PUB            "; py "ATLAS PHYS PUB         "; py "ATL PHYS PROC          "; py "ATL TECH               "; py "ATL TILECAL            "; py "ATL TILECAL PUB        "; py "ATL TILECAL PROC       "; py "ATL SOFT               "; py "ATL SOFT PUB           "; py "ATL SOFT PROC          "; py "ATL IS EN              "; py "ATL IS QA              "; py "ATL LARG PUB           "; py "ATL COM LARG           "; py "TL COM LARG            "; py "ATLCOM LARG            "; py "ATL MAGNET PUB         "; py "ATL UPGRADE PUB        "; py "ATL UPGRADE PROC       "; py "CERN AB                "; py "CERN AB NOTE           "; py "CERN ALEPH             "; py "CERN ALEPH PHYSIC      "; py "CERN ALEPH PUB         "; py "CERN ALICE INT         "; py "CERN ALICE PUB         "; py "CERN ALI               "; py "CERN AS                "; py "CERN AT                "; py "CERN ATL COM CAL       "; py "CERN ATL COM DAQ       "; py "CERN ATL COM GEN       "; py "CERN ATL COM INDET     "; py "CERN ATL COM LARG      "; py "CERN ATL COM MUON      "; py "CERN ATL COM PHYS      "; py "CERN ATL COM TECH      "; py "CERN ATL COM TILECAL   "; py "CERN ATL DAQ           "; py "CERN ATL SOFT          "; py "CERN ATL SOFT INT      "; py "CERN ATL SOFT PUB      "; py "CERN ATS               "; py "CERNATS                "; py "CERN ATS NOTE          "; py "CERNATS NOTE           "; py "CERN BE                "; py "CERN BE NOTE           "; py "CERN CMS               "; py "CERN CMS CR            "; py "CERN CMS DP            "; py "CERN CMS NOTE          "; py "CERN CN                "; py "CERN DD                "; py "CERN DELPHI            "; py "CERN ECP               "; py "CERN EF                "; py "CERN EP                "; py "CERN EST               "; py "CERN ETT               "; py "CERN INTC              "; py "CERN IT                "; py "CERN LCGAPP            "; py "CERN LHCB              "; py "CERN LHCB DP           "; py "CERN LHCB CONF         "; py "CERN LHCB INT          "; py "CERN LHCB PUB          "; py "CERN LHCC              "; py "CERNLHCC               "; py "CERN LHC               "; py "CERN LHC PHO           "; py "CERN LHC PROJECT REPORT"; py "CERN OPEN              "; py "CERNOPEN               "; py "CERN PH EP             "; py "CERNPH EP              "; py "CERN PHEP              "; py "CERN PH LPCC           "; py "CERN PH TH             "; py "CERN PPE               "; py "CERN PROCEEDINGS       "; py "CERN PS                "; py "CERN SL                "; py "CERN SL NOTE           "; py "CERN SPSC              "; py "CERNSPSC               "; py "CERN ST                "; py "CERN TH                "; py "CERN THESIS            "; py "CERNTHESIS             "; py "CERN TIS               "; py "CERN ATS               "; py "CERN ATSNOTE           "; py "CERN                   "; py "CLICDP NOTE            "; py "CMS AN                 "; py "CMS CR                 "; py "CMS DP                 "; py "CMS NOTE               "; py "CMSNOTE                "; py "CMS EXO                "; py "CMS TS                 "; py "DELPHI                 "; py "DELPHI NOTE            "; py "DIRAC NOTE             "; py "DN                     "; py "LHCB                   "; py "LHCB DP                "; py "LHCB JOURNAL           "; py "LHCB ANA               "; py "LHCB CONF              "; py "LHCBCONF               "; py "LHCB INT               "; py "LHCB PUB               "; py "LHCB PAPER             "; py "LHCB PROC              "; py "LHCB TALK              "; py "LHCHXSWG               "; py "LHCHXSWG DRAFT INT     "; py "LHCHXSWG INT           "; py "SN ATLAS               "; py "PAS SUSY               "; py "CMS PAS EXO            "; py "CMS PAS HIN            "; py "CMS PAS QCD            "; py "CMS PAS TOP            "; py "CMS PAS SUS            "; py "CMS PAS BPH            "; py "CMS PAS SMP            "; py "CMS PAS HIG            "; py "CMS PAS EWK            "; py "CMS PAS BTV            "; py "CMS PAS FWD            "; py "CMS PAS TRK            "; py "CMS PAS SMP            "; py "CMS PAS PFT            "; py "CMS PAS MUO            "; py "CMS PAS JME            "; py "CMS PAS EGM            "; py "CMS PAS DIF            "; py "CMS PAS B2G            "; py "ATLTILECAL PUB         "; py "ATLAS TECH PUB         "; py "TLCOM MAGNET           "; py "ATLLARG                "; py "SL NOTE                "; py "TOTEM                  "; py "TS NOTE                "],
   [[Blanks; Year4; Blanks; MaybeDigit; MaybeDigit; Digit];
    [Blanks; Year2; Blanks; MaybeDigit; MaybeDigit; Digit]]);
  (315, [py "CMS UG TP       "],
   [[Blanks; Digit]]);
  (319, [py "CERN GE         "],
   [[Blanks; Digit; Digit; Digit; Digit; Digit; Digit; Digit]]);
  (325, [py "CERN BROCHURE   "],
   [[Blanks; Year4; Blanks; MaybeDigit; MaybeDigit; Digit; Blanks; Exact "Eng"]]);
  (345, [py "CERN CLIC NOTE          "; py "LHC PROJECT NOTE        "; py "CERN LHC PROJECT REPORT "; py "LHC PROJECT REPORT      "; py "CLIC NOTE               "; py "ATLAS TDR               "; py "CMS TDR                 "; py "ATC TT ID               "; py "ATC TT IN               "; py "LHCCP                   "; py "CERN ACC               "; py "CERN ACC NOTE          "],
   [[Blanks; Year4; Blanks; MaybeDigit; MaybeDigit; MaybeDigit; Digit];
    [Blanks; MaybeDigit; MaybeDigit; MaybeDigit; Digit]]);
  (357, [py "KEK CP        "; py "KEK INT       "; py "KEK INTERNAL  "; py "KEK PREPRINT  "; [75%N; 69%N; 75%N; 32%N; 84%N; 72%N; 9%N; 32%N; 32%N; 32%N; 32%N; 32%N; 32%N]],
   [[Blanks; Year4; Blanks; MaybeDigit; MaybeDigit; Digit];
    [Blanks; Year2; Blanks; MaybeDigit; MaybeDigit; Digit];
    [Blanks; MaybeDigit; MaybeDigit; MaybeDigit; Digit]]);
  (371, [py "DESY" ++ [9%N; 9%N]; py "DESY M" ++ [9%N; 9%N]; py "DESY THESIS     "; py "DESYTHESIS      "; py "DESY TESLA FEL  "; py "DESY PROC       "; py "DESYPROC        "; py "TESLA FEL       "],
   [[Blanks; Year4; Blanks; MaybeDigit; MaybeDigit; Digit];
    [Blanks; Year2; Blanks; MaybeDigit; MaybeDigit; Digit]]);
  (379, [py "DESY F      "],
   [[Digit; Digit; Blanks; Digit; Digit; Blanks; Digit; Digit];
    [Digit; Blanks; Digit; Digit; Blanks; Digit; Digit];
    [Digit; Digit; Blanks; Digit]]);
  (390, [py "SLAC AP" ++ [9%N; 9%N]; py "SLAC PUB" ++ [9%N]; py "SLAC R" ++ [9%N; 9%N]; py "SLAC TN" ++ [9%N; 9%N]; py "SLAC WP" ++ [9%N; 9%N]],
   [[Blanks; MaybeDigit; MaybeDigit; MaybeDigit; MaybeDigit; Digit];
    [Blanks; Year2; Blanks; MaybeDigit; MaybeDigit; Digit]]);
  (396, [py "LBNL         "],
   [[Blanks; MaybeDigit; MaybeDigit; MaybeDigit; MaybeDigit; Digit]]);
  (402, [py "ANL HEP TR   "],
   [[Blanks; Year2; Blanks; MaybeDigit; Digit]]);
  (409, [py "ANTARES SOFT  "; py "ANTARES PHYS  "; py "ANTARES OPMO  "],
   [[Blanks; Year4; Blanks; MaybeDigit; MaybeDigit; Digit]]);
  (414, [py "LIGO          "],
   [[Blanks; Exact "T"; Year2; Digit; Digit; Digit; Digit; Blanks; Exact "00"; Blanks; Letter]]);
  (419, [py "GAP           "],
   [[Blanks; Year4; Blanks; MaybeDigit; MaybeDigit; Digit]]);
  (435, [py "EUDET MEMO    "; py "EUDET REPORT  "; py "EUROTEV REPORT"; py "ILC NOTE      "; py "ILC REPORT    "; py "LC DET        "; py "LC PHSM       "; py "LC REP        "; py "LC REPORT     "; py "LC TOOL       "; py "LC TH         "; py "LCD NOTE      "],
   [[Blanks; Year4; Blanks; MaybeDigit; MaybeDigit; Digit]]);
  (444, [py "IHEP AC       "; py "IHEP CEPC DR  "; py "IHEP EP       "; py "IHEP TH       "],
   [[Blanks; Year4; Blanks; MaybeDigit; MaybeDigit; Digit];
    [Blanks; Year2; Blanks; MaybeDigit; MaybeDigit; Digit]]);
  (449, [py "IPAC          "],
   [[Blanks; Year4; Blanks; Letter; Letter; Letter; Letter; Letter; MaybeDigit; MaybeDigit; Digit]]);
  (455, [py "JINR          "],
   [[OneChar "EP"; MaybeDigit; Digit; Blanks; Year4; Blanks; MaybeDigit; MaybeDigit; Digit];
    [OneChar "EP"; MaybeDigit; Digit; Blanks; Year2; Blanks; MaybeDigit; MaybeDigit; Digit]]);
  (471, [py "BONN IR       "; py "BONN IB       "; py "DAMTP         "; py "ESS           "; py "EUCARD CON    "; py "INO           "; py "JAI           "; py "KFKI          "; py "LPHE          "; py "MPP           "; py "NIKHEF        "; py "RAL TR        "; py "SLS TME TA    "],
   [[Blanks; Year4; Blanks; MaybeDigit; MaybeDigit; MaybeDigit; Digit];
    [Blanks; Year2; Blanks; MaybeDigit; MaybeDigit; MaybeDigit; Digit]])].
