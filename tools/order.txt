Py PyFacts Span ItoStr SpecStr ItoStrFacts ItoStrFacts2 ItoStrFacts3 ItoStrFacts4 ItoStrFacts5 Properties_Str Heap SpecHeap HeapFacts Tree HeapFacts2 HeapFacts3 HeapFacts4 Properties_Heap AddHier SpecHier HierFacts HierFacts2 HierFacts3 HierFacts4 HierHeap HierHeap2 HierHeap3 HierHeap4 HierHeap5 HierHeap6 HierHeap7 Properties_Hier Util SpecUtil UtilFacts UtilFacts2 Properties_Util Combin SpecCombin CombinFacts CombinFacts2 CombinFacts3 CombinFacts4 Properties_Combin Axis SpecAxis AxisFacts AxisFacts2 AxisFacts3 Properties_Axis Query SpecQuery QueryFacts QueryFacts2 QueryFacts3 QueryFacts4 QueryFacts5 QueryFacts6 QueryFacts7 QueryFacts8 QueryFacts9 QueryFacts10 QueryFacts11 QueryFacts12 QueryFacts13 QueryFacts14 QueryFacts15 QueryFacts16 QueryDemo Properties_Query Json SpecJson JsonFacts JsonFacts2 JsonFacts3 Properties_Json Arbor SpecArbor ArborFacts ArborFacts2 ArborFacts3 ArborFacts4 Properties_Arbor Onto SpecOnto OntoFacts OntoFacts2 Properties_Onto Highlight SpecHighlight HighlightFacts HighlightFacts2 Properties_Highlight Format SpecFormat FormatFacts FormatFacts2 Properties_Format Api SpecApi ApiFacts Properties_Api Pepo SpecPepo PepoFacts PepoFacts2 PepoFacts3 Properties_Pepo Box SpecBox BoxFacts BoxFacts2 BoxFacts3 BoxFacts4 BoxFacts5 Properties_Box Xml SpecXml XmlFacts XmlFacts2 XmlFacts3 XmlFacts4 XmlFacts5 XmlFacts6 XmlFacts7 XmlFacts8 XmlFacts9 XmlFacts10 Properties_Xml XmlHelp SpecXmlHelp XmlHelpFacts XmlHelpFacts2 XmlHelpFacts3 XmlHelpFacts4 XmlHelpFacts5 XmlHelpFacts6 XmlHelpFacts7 Properties_XmlHelp Nlp SpecNlp NlpDoc NlpFacts NlpFacts2 NlpFacts3 NlpFacts4 NlpFacts5 NlpFacts6 NlpFacts7 NlpFacts8 NlpFacts9 NlpFacts10 NlpFacts11 NlpFacts12 NlpFacts13 NlpFacts14 NlpFacts15 NlpConf Properties_Nlp SpecPara NlpFacts16 Properties_Para Version SpecVersion VersionFacts Properties_Version Table SpecTable TableFacts TableFacts2 TableFacts3 TableFacts4 TableFacts5 TableFacts6 TableFacts7 TableFacts8 TableFacts9 TableFacts10 TableFacts11 TableFacts12 TableFacts13 Properties_Table SpecStyle StyleFacts Properties_Style TypeMagic SpecTypes TypeFacts Properties_Types Properties_Util2 ArborClone Properties_Clone XmlFind SpecXmlFind Properties_XmlFind RegexItor Properties_RegexItor Infix Properties_Infix ItoRegex Properties_ItoRegex DenFacts VersionParse SpecParse VersionParseFacts VersionParseFacts2 VersionParseFacts3 VersionParseFacts4 VersionParseFacts5 Properties_VersionParse Properties_RegexSplit OntQuery SpecOntQuery OntQueryFacts Properties_OntQuery CharSet SpecCharSet Properties_CharSet SpecPipe PipeFacts PipeFacts2 Properties_Pipe Ctors SpecCtors Properties_Ctors SpecCopies CopyFacts CopyFacts2 CopyFacts3 Properties_Copies Errors Properties_Errors ChildSlices SpecSlices SliceFacts Properties_Slices Properties_Duality SpecRun QueryFacts17 QueryFacts18 QueryFacts19 Properties_Run HierHeap8 JsonDoc SpecDoc JsonDocFacts JsonDocFacts2 JsonDocFacts3 Properties_Doc SpecPy PyChar PyUniq Properties_Py SpecLogic QueryFacts20 Properties_Logic ChildSeq ChildSeqFacts Properties_Seq SpecNames QueryFacts21 Properties_Names SpecSimple ArborFacts9 Properties_Simple LineFacts Properties_Line SpecWs WsFacts Properties_Ws SpecGaps GapFacts GapFacts2 Properties_Gaps SpecPlace PlaceFacts Properties_Place LawFacts Properties_Law NavFacts Properties_Nav
