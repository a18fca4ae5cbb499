-Q theories Verif
theories/AdaptModel.v
theories/AdaptProofs.v
theories/AdaptProps.v
theories/AdaptSpec.v
theories/ApplyMore.v
theories/ApplyProofs.v
theories/ApplyProps.v
theories/ApplySpec.v
theories/AreaProofs.v
theories/ArrayModel.v
theories/ArrayProofs.v
theories/ArrayProps.v
theories/ArraySpec.v
theories/Base.v
theories/BaseProofs.v
theories/BitModel.v
theories/BitProofs.v
theories/BitProps.v
theories/BitSpec.v
theories/BlackboardModel.v
theories/BlackboardProofs.v
theories/BlackboardProps.v
theories/CapiModel.v
theories/CapiProofs.v
theories/CapiProps.v
theories/CapiSpec.v
theories/CatProofs.v
theories/CatProps.v
theories/CatSpec.v
theories/ClientModel.v
theories/ClientProofs.v
theories/ClientProps.v
theories/ClientSpec.v
theories/CommandModel.v
theories/CommandProofs.v
theories/CommandProps.v
theories/CommandSpec.v
theories/ConfigProofs.v
theories/ConfigProofs2.v
theories/ConfigProps.v
theories/ConfigSpec.v
theories/CriterionModel.v
theories/CriterionProofs.v
theories/CriterionProps.v
theories/CriterionSpec.v
theories/DeclDemo.v
theories/DeclModel.v
theories/DeclProofs.v
theories/DeclProps.v
theories/DeclSpec.v
theories/DeclSysProofs.v
theories/Demo.v
theories/DocProofs.v
theories/DocProps.v
theories/DocSpec.v
theories/DomXmlHist.v
theories/DomXmlHistProps.v
theories/DomXmlInv.v
theories/DomXmlModel.v
theories/DomXmlProps.v
theories/DomXmlRound.v
theories/DomXmlSpec.v
theories/DomainApply.v
theories/DomainInv.v
theories/DomainModel.v
theories/DomainProofs.v
theories/DomainSpec.v
theories/DomainsInv.v
theories/EddExitProofs.v
theories/EddLineProofs.v
theories/EddLineProps.v
theories/EddMeanProofs.v
theories/EddModel.v
theories/EddProofs.v
theories/EddProps.v
theories/EddRunProofs.v
theories/EddRunProps.v
theories/EddRunSpec.v
theories/EddSpec.v
theories/EddValueProofs.v
theories/EditProofs.v
theories/EditProps.v
theories/FileModel.v
theories/FileProofs.v
theories/FileProps.v
theories/FileSpec.v
theories/FixProofs.v
theories/FixProps.v
theories/FloatProofs.v
theories/FloatProps.v
theories/GenModel.v
theories/GenProofs.v
theories/GenProps.v
theories/GenSpec.v
theories/HostModel.v
theories/HostProofs.v
theories/HostProps.v
theories/HostSpec.v
theories/IntProofs.v
theories/IntProps.v
theories/LoadModel.v
theories/LoadProofs.v
theories/LoadProps.v
theories/LoadSpec.v
theories/LocalProofs.v
theories/MapModel.v
theories/MapProofs.v
theories/MapProps.v
theories/MapSpec.v
theories/MemProofs.v
theories/MemSpec.v
theories/MgrFlow.v
theories/MgrModel.v
theories/MgrProofs.v
theories/MgrProps.v
theories/MgrSkel.v
theories/MgrSpec.v
theories/ObjModel.v
theories/ObjProofs.v
theories/ObjProps.v
theories/ObjSpec.v
theories/ParamTypeModel.v
theories/ParamTypeSpec.v
theories/PlatModel.v
theories/PlatProofs.v
theories/PlatProps.v
theories/PlatSpec.v
theories/PrintProofs.v
theories/PrintProps.v
theories/QueryProps.v
theories/RaceModel.v
theories/RaceProofs.v
theories/RaceProps.v
theories/RaceSpec.v
theories/ReadProofs.v
theories/RealModel.v
theories/RealProofs.v
theories/RealSpec.v
theories/RemoteModel.v
theories/RemoteProofs.v
theories/RemoteProps.v
theories/RemoteSpec.v
theories/ReportModel.v
theories/ReportProofs.v
theories/ReportProofs2.v
theories/ReportProps.v
theories/ReportSpec.v
theories/RogueProofs.v
theories/RuleModel.v
theories/RuleProofs.v
theories/RuleProps.v
theories/RuleSpec.v
theories/SimModel.v
theories/SimProofs.v
theories/SimProps.v
theories/SimSpec.v
theories/StrucModel.v
theories/StrucProofs.v
theories/StrucProps.v
theories/StrucSpec.v
theories/SyncModel.v
theories/SyncProofs.v
theories/TextModel.v
theories/TextProofs.v
theories/TextProps.v
theories/TextSpec.v
theories/ThreadModel.v
theories/ThreadProofs.v
theories/ThreadProps.v
theories/ThreadSpec.v
theories/TightProps.v
theories/TightProps2.v
theories/TightProps3.v
theories/TightProps4.v
theories/ToolModel.v
theories/ToolProofs.v
theories/ToolProps.v
theories/ToolSpec.v
theories/TreeModel.v
theories/TreeProofs.v
theories/TreeProps.v
theories/TreeSpec.v
theories/TypeModel.v
theories/TypeProofs.v
theories/TypeProps.v
theories/TypeSpec.v
theories/ValueProofs.v
theories/ValueSpec.v
theories/XmlDemo.v
theories/XmlFlat.v
theories/XmlLeaf.v
theories/XmlMgr.v
theories/XmlModel.v
theories/XmlProofs.v
theories/XmlProps.v
theories/XmlRestore.v
theories/XmlSpec.v
theories/XmlWords.v
