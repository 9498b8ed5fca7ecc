-Q theories Verif
theories/UnicodeTables.v
theories/PyStr.v
theories/Uppercase.v
theories/ListFacts.v
theories/Regex.v
theories/RegexParse.v
theories/Patterns.v
theories/RegexMeta.v
theories/AuthorPatterns.v
theories/Elements.v
theories/Record.v
theories/Transform.v
theories/Numeration.v
theories/Split.v
theories/Post.v
theories/ParseTagged.v
theories/DocText.v
theories/Tag.v
theories/Find.v
theories/RefText.v
theories/Kbs.v
theories/Pdf.v
theories/Engine.v
theories/Api.v
theories/RecordProofs.v
theories/SplitProofs.v
theories/SplitMore.v
theories/PostProofs.v
theories/EngineProofs.v
theories/ComposeProofs.v
theories/Demo.v
theories/YearProofs.v
theories/LinkProofs.v
theories/CleanupProofs.v
theories/PropsEngine.v
theories/RegexLang.v
theories/NumberFacts.v
theories/TransformProofs.v
theories/NormalProofs.v
theories/EdProofs.v
theories/PropsTransform.v
theories/ApiProofs.v
theories/PdfProofs.v
theories/PropsApi.v
theories/Session.v
theories/SessionProofs.v
theories/KbProofs.v
theories/PropsKbs.v
theories/RefTextProofs.v
theories/MarkerProofs.v
theories/WashProofs.v
theories/PageProofs.v
theories/FindProofs.v
theories/PropsText.v
theories/RegexWords.v
theories/ParseProofs.v
theories/PropsParse.v
theories/SpaceProofs.v
theories/StripProofs.v
theories/ShippedReports.v
theories/SpanProofs.v
theories/UrlProofs.v
theories/BookProofs.v
theories/PropsTag.v
theories/PropsBook.v
theories/HitProofs.v
theories/TagCount.v
theories/NumTotal.v
theories/ElementsOk.v
theories/TagOk.v
theories/LinesOk.v
theories/PropsCrash.v
theories/RebuildProofs.v
theories/AuthorProofs.v
theories/DropYear.v
theories/IbidProofs.v
theories/OneLine.v
theories/PropsLine.v
theories/SectionProofs.v
theories/HandleProofs.v
theories/PatternsOk.v
theories/WashMore.v
theories/ScanProofs.v
theories/UrlRepair.v
theories/PropsSection.v
theories/ShippedKbs.v
theories/KbFit.v
theories/PropsShipped.v
theories/FieldProofs.v
theories/CaptureLang.v
theories/TaggerProofs.v
theories/ArxivProofs.v
theories/ArxivNew.v
theories/PropsFields.v
theories/FoundProofs.v
theories/PosProofs.v
theories/PropsTagger.v
theories/NumGrammar.v
theories/NumProofs.v
theories/NumFind.v
theories/NumTail.v
theories/NumForms.v
theories/PropsNum.v
theories/SectGrammar.v
theories/SectProofs.v
theories/SectUse.v
theories/SectForms.v
theories/Shift.v
theories/SectEnd.v
theories/SectCut.v
theories/PropsMarks.v
theories/ReportProofs.v
theories/PropsReports.v
theories/TagRebuild.v
theories/LateTags.v
theories/LateNames.v
theories/LateLine.v
theories/Chars.v
theories/TagLine.v
theories/PlainText.v
theories/PlainKbs.v
theories/PropsPlain.v
theories/BackGrammar.v
theories/BackNum.v
theories/BackRead.v
theories/BackProofs.v
theories/PropsBack.v
theories/CollabGrammar.v
theories/CollabProofs.v
theories/CollabNest.v
theories/PropsCollab.v
theories/BookMisc.v
theories/PropsMisc.v
theories/ReportGrammar.v
theories/ShippedForms.v
theories/ReportForms.v
theories/ReportFound.v
theories/ReportLine.v
theories/PropsForms.v
theories/PubGrammar.v
theories/PubProofs.v
theories/PropsPub.v
theories/TitleFound.v
theories/PropsTitles.v
theories/LineFound.v
theories/PropsFound.v
theories/PdfOrder.v
theories/PropsPdf.v
theories/DoiProofs.v
theories/PropsDoi.v
theories/FileText.v
theories/PropsFile.v
