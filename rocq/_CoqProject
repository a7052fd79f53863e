-Q theories Verif
theories/Py.v
theories/PyFacts.v
theories/Span.v
theories/ItoStr.v
theories/SpecStr.v
theories/ItoStrFacts.v
theories/ItoStrFacts2.v
theories/ItoStrFacts3.v
theories/ItoStrFacts4.v
theories/ItoStrFacts5.v
theories/Properties_Str.v
theories/Heap.v
theories/SpecHeap.v
theories/HeapFacts.v
theories/Tree.v
theories/HeapFacts2.v
theories/HeapFacts3.v
theories/HeapFacts4.v
theories/Properties_Heap.v
theories/AddHier.v
theories/SpecHier.v
theories/HierFacts.v
theories/HierFacts2.v
theories/HierFacts3.v
theories/HierFacts4.v
theories/HierHeap.v
theories/HierHeap2.v
theories/HierHeap3.v
theories/HierHeap4.v
theories/HierHeap5.v
theories/HierHeap6.v
theories/HierHeap7.v
theories/Properties_Hier.v
theories/Util.v
theories/SpecUtil.v
theories/UtilFacts.v
theories/UtilFacts2.v
theories/Properties_Util.v
theories/Combin.v
theories/SpecCombin.v
theories/CombinFacts.v
theories/CombinFacts2.v
theories/CombinFacts3.v
theories/CombinFacts4.v
theories/Properties_Combin.v
theories/Axis.v
theories/SpecAxis.v
theories/AxisFacts.v
theories/AxisFacts2.v
theories/AxisFacts3.v
theories/Properties_Axis.v
theories/Query.v
theories/SpecQuery.v
theories/QueryFacts.v
theories/QueryFacts2.v
theories/QueryFacts3.v
theories/QueryFacts4.v
theories/QueryFacts5.v
theories/QueryFacts6.v
theories/QueryFacts7.v
theories/QueryFacts8.v
theories/QueryFacts9.v
theories/QueryFacts10.v
theories/QueryFacts11.v
theories/QueryFacts12.v
theories/QueryFacts13.v
theories/QueryFacts14.v
theories/QueryFacts15.v
theories/QueryFacts16.v
theories/QueryDemo.v
theories/Properties_Query.v
theories/Json.v
theories/SpecJson.v
theories/JsonFacts.v
theories/JsonFacts2.v
theories/JsonFacts3.v
theories/Properties_Json.v
theories/Arbor.v
theories/SpecArbor.v
theories/ArborFacts.v
theories/ArborFacts2.v
theories/ArborFacts3.v
theories/ArborFacts4.v
theories/Properties_Arbor.v
theories/Onto.v
theories/SpecOnto.v
theories/OntoFacts.v
theories/OntoFacts2.v
theories/Properties_Onto.v
theories/Highlight.v
theories/SpecHighlight.v
theories/HighlightFacts.v
theories/HighlightFacts2.v
theories/Properties_Highlight.v
theories/Format.v
theories/SpecFormat.v
theories/FormatFacts.v
theories/FormatFacts2.v
theories/Properties_Format.v
theories/Api.v
theories/SpecApi.v
theories/ApiFacts.v
theories/Properties_Api.v
theories/Pepo.v
theories/SpecPepo.v
theories/PepoFacts.v
theories/PepoFacts2.v
theories/PepoFacts3.v
theories/Properties_Pepo.v
theories/Box.v
theories/SpecBox.v
theories/BoxFacts.v
theories/BoxFacts2.v
theories/BoxFacts3.v
theories/BoxFacts4.v
theories/BoxFacts5.v
theories/Properties_Box.v
theories/Xml.v
theories/SpecXml.v
theories/XmlFacts.v
theories/XmlFacts2.v
theories/XmlFacts3.v
theories/XmlFacts4.v
theories/XmlFacts5.v
theories/XmlFacts6.v
theories/XmlFacts7.v
theories/XmlFacts8.v
theories/XmlFacts9.v
theories/XmlFacts10.v
theories/Properties_Xml.v
theories/XmlHelp.v
theories/SpecXmlHelp.v
theories/XmlHelpFacts.v
theories/XmlHelpFacts2.v
theories/XmlHelpFacts3.v
theories/XmlHelpFacts4.v
theories/XmlHelpFacts5.v
theories/XmlHelpFacts6.v
theories/XmlHelpFacts7.v
theories/Properties_XmlHelp.v
theories/Nlp.v
theories/SpecNlp.v
theories/NlpDoc.v
theories/NlpFacts.v
theories/NlpFacts2.v
theories/NlpFacts3.v
theories/NlpFacts4.v
theories/NlpFacts5.v
theories/NlpFacts6.v
theories/NlpFacts7.v
theories/NlpFacts8.v
theories/NlpFacts9.v
theories/NlpFacts10.v
theories/NlpFacts11.v
theories/NlpFacts12.v
theories/NlpFacts13.v
theories/NlpFacts14.v
theories/NlpFacts15.v
theories/NlpConf.v
theories/Properties_Nlp.v
theories/SpecPara.v
theories/NlpFacts16.v
theories/Properties_Para.v
theories/Version.v
theories/SpecVersion.v
theories/VersionFacts.v
theories/Properties_Version.v
theories/Table.v
theories/SpecTable.v
theories/TableFacts.v
theories/TableFacts2.v
theories/TableFacts3.v
theories/TableFacts4.v
theories/TableFacts5.v
theories/TableFacts6.v
theories/TableFacts7.v
theories/TableFacts8.v
theories/TableFacts9.v
theories/TableFacts10.v
theories/TableFacts11.v
theories/TableFacts12.v
theories/TableFacts13.v
theories/Properties_Table.v
theories/SpecStyle.v
theories/StyleFacts.v
theories/Properties_Style.v
theories/TypeMagic.v
theories/SpecTypes.v
theories/TypeFacts.v
theories/Properties_Types.v
theories/Properties_Util2.v
theories/ArborClone.v
theories/Properties_Clone.v
theories/XmlFind.v
theories/SpecXmlFind.v
theories/Properties_XmlFind.v
theories/RegexItor.v
theories/Properties_RegexItor.v
theories/Infix.v
theories/Properties_Infix.v
theories/ItoRegex.v
theories/Properties_ItoRegex.v
theories/DenFacts.v
theories/VersionParse.v
theories/SpecParse.v
theories/VersionParseFacts.v
theories/VersionParseFacts2.v
theories/VersionParseFacts3.v
theories/VersionParseFacts4.v
theories/VersionParseFacts5.v
theories/Properties_VersionParse.v
theories/Properties_RegexSplit.v
theories/OntQuery.v
theories/SpecOntQuery.v
theories/OntQueryFacts.v
theories/Properties_OntQuery.v
theories/CharSet.v
theories/SpecCharSet.v
theories/Properties_CharSet.v
theories/SpecPipe.v
theories/PipeFacts.v
theories/PipeFacts2.v
theories/Properties_Pipe.v
theories/Ctors.v
theories/SpecCtors.v
theories/Properties_Ctors.v
theories/SpecCopies.v
theories/CopyFacts.v
theories/CopyFacts2.v
theories/CopyFacts3.v
theories/Properties_Copies.v
theories/Errors.v
theories/Properties_Errors.v
theories/ChildSlices.v
theories/SpecSlices.v
theories/SliceFacts.v
theories/Properties_Slices.v
theories/Properties_Duality.v
theories/SpecRun.v
theories/QueryFacts17.v
theories/QueryFacts18.v
theories/QueryFacts19.v
theories/Properties_Run.v
theories/HierHeap8.v
theories/JsonDoc.v
theories/SpecDoc.v
theories/JsonDocFacts.v
theories/JsonDocFacts2.v
theories/JsonDocFacts3.v
theories/Properties_Doc.v
theories/SpecPy.v
theories/PyChar.v
theories/PyUniq.v
theories/Properties_Py.v
theories/SpecLogic.v
theories/QueryFacts20.v
theories/Properties_Logic.v
theories/ChildSeq.v
theories/ChildSeqFacts.v
theories/Properties_Seq.v
theories/SpecNames.v
theories/QueryFacts21.v
theories/Properties_Names.v
theories/SpecSimple.v
theories/ArborFacts9.v
theories/Properties_Simple.v
theories/LineFacts.v
theories/Properties_Line.v
theories/SpecWs.v
theories/WsFacts.v
theories/Properties_Ws.v
theories/SpecGaps.v
theories/GapFacts.v
theories/GapFacts2.v
theories/Properties_Gaps.v
theories/SpecPlace.v
theories/PlaceFacts.v
theories/Properties_Place.v
theories/LawFacts.v
theories/Properties_Law.v
theories/NavFacts.v
theories/Properties_Nav.v
