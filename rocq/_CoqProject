-Q theories Verif
theories/GoLib.v
theories/GoLibFacts.v
theories/RbacModel.v
theories/RbacSpec.v
theories/RbacProofs.v
theories/RbacProofs2.v
theories/RbacProofs3.v
theories/RbacProps.v
theories/SchemaModel.v
theories/SchemaFacts.v
theories/WalkModel.v
theories/WalkSpec.v
theories/WalkProofs.v
theories/WalkProps.v
theories/RefModel.v
theories/RefProofs.v
theories/RefProps.v
theories/DescModel.v
theories/DescSpec.v
theories/DescProofs.v
theories/DescProps.v
theories/ValidSpec.v
theories/FlattenModel.v
theories/FlattenSpec.v
theories/FlattenProofs.v
theories/FlattenProofs2.v
theories/FlattenProofs3.v
theories/FlattenProofs4.v
theories/FlattenProofs5.v
theories/FlattenProofs6.v
theories/FlattenProofs7.v
theories/FlattenProofs8.v
theories/FlattenProps.v
theories/MapFacts.v
theories/YamlModel.v
theories/YamlSpec.v
theories/YamlProofs.v
theories/YamlProofs2.v
theories/YamlProofs3.v
theories/YamlProps.v
theories/WebhookModel.v
theories/WebhookSpec.v
theories/WebhookProofs.v
theories/WebhookProps.v
theories/ErrorsModel.v
theories/ErrorsSpec.v
theories/ErrorsProofs.v
theories/ErrorsProps.v
theories/RegistryModel.v
theories/RegistrySpec.v
theories/RegistryProofs.v
theories/RegistryProps.v
theories/GenallModel.v
theories/GenallSpec.v
theories/GenallProofs.v
theories/GenallProps.v
theories/DocModel.v
theories/DocSpec.v
theories/DocProofs.v
theories/DocProps.v
theories/ScanModel.v
theories/ParseModel.v
theories/ParseSpec.v
theories/ScanProofs.v
theories/ParseTerm.v
theories/ParseProofs.v
theories/ParseGrammar.v
theories/ParseDefs.v
theories/ParseWrite.v
theories/ParseProps.v
theories/MarkModel.v
theories/MarkSpec.v
theories/MarkProofs.v
theories/MarkMeaning.v
theories/MarkOrder.v
theories/MarkProps.v
theories/StructModel.v
theories/NeedModel.v
theories/StructSpec.v
theories/StructProofs.v
theories/StructCrash.v
theories/StructProps.v
theories/NeedProofs.v
theories/NeedProps.v
theories/MarshalSpec.v
theories/MarshalProofs.v
theories/MarshalProps.v
theories/CrdModel.v
theories/CrdSpec.v
theories/CrdProofs.v
theories/CrdProofs2.v
theories/CrdProofs3.v
theories/CrdProofs4.v
theories/CrdProps.v
theories/DeepModel.v
theories/DeepSpec.v
theories/DeepProofs.v
theories/DeepProofs2.v
theories/DeepProofs3.v
theories/DeepProofs4.v
theories/DeepProps.v
theories/DeepTypes.v
theories/DeepTypesProofs.v
theories/DeepEnds.v
theories/DeepTypesProps.v
theories/ImportModel.v
theories/ImportSpec.v
theories/ImportProofs.v
theories/ImportProps.v
theories/CheckModel.v
theories/CheckSpec.v
theories/CheckProofs.v
theories/CheckProps.v
theories/LoadModel.v
theories/LoadSpec.v
theories/LoadProofs.v
theories/LoadProps.v
theories/CollectModel.v
theories/CollectSpec.v
theories/CollectProofs.v
theories/CollectFile.v
theories/CollectProps.v
theories/VisitModel.v
theories/VisitProps.v
theories/ObjectModel.v
theories/ObjectSpec.v
theories/ObjectProofs.v
theories/ObjectFile.v
theories/ObjectProps.v
theories/RefsModel.v
theories/RefsProps.v
theories/RootsModel.v
theories/RootsSpec.v
theories/RootsProofs.v
theories/RootsProps.v
theories/SyntaxModel.v
theories/SyntaxSpec.v
theories/SyntaxProofs.v
theories/SyntaxProps.v
theories/ManifestModel.v
theories/ManifestSpec.v
theories/ManifestProofs.v
theories/ManifestProps.v
theories/CacheModel.v
theories/CacheProps.v
theories/IndexModel.v
theories/IndexProps.v
theories/KnownModel.v
theories/KnownSpec.v
theories/KnownProps.v
theories/HelpModel.v
theories/HelpSpec.v
theories/HelpProps.v
theories/ApplyModel.v
theories/ApplyProps.v
theories/MainModel.v
theories/MainProps.v
theories/HelpgenModel.v
theories/HelpgenSpec.v
theories/HelpgenProofs.v
theories/HelpgenProofs2.v
theories/HelpgenProps.v
theories/TablesModel.v
theories/TablesSpec.v
theories/TablesProofs.v
theories/TablesProofs2.v
theories/TablesProofs3.v
theories/TablesProofs4.v
theories/TablesProps.v
theories/SourceModel.v
theories/SourceSpec.v
theories/SourceProofs.v
theories/SourceProofs2.v
theories/SourceProofs3.v
theories/SourceProofs4.v
theories/SourceProps.v
theories/EmitModel.v
theories/EmitSpec.v
theories/EmitProofs.v
theories/EmitProofs2.v
theories/EmitProofs3.v
theories/EmitProofs4.v
theories/EmitProofs5.v
theories/EmitProofs6.v
theories/EmitFuel.v
theories/EmitProps.v
theories/WholeModel.v
theories/WholeSpec.v
theories/WholeProofs.v
theories/WholeProps.v
theories/ScaffoldModel.v
theories/ScaffoldSpec.v
theories/ScaffoldProofs.v
theories/ScaffoldProps.v
theories/PatcherModel.v
theories/PatcherSpec.v
theories/PatcherProofs.v
theories/PatcherProps.v
theories/OriginModel.v
theories/OriginSpec.v
theories/OriginProofs.v
theories/OriginProofs2.v
theories/OriginProps.v
theories/OriginSpec2.v
theories/OriginProps2.v
theories/CopiesModel.v
theories/CopiesSpec.v
theories/CopiesProofs.v
theories/CopiesProofs2.v
theories/CopiesProps.v
theories/TextSpec.v
theories/TextModel.v
theories/TextProofs.v
theories/TextProofs2.v
theories/TextProofs3.v
theories/TextProofs4.v
theories/TextProofs5.v
theories/TextProofs6.v
theories/TextProps.v
theories/PrettyModel.v
theories/PrettySpec.v
theories/PrettyProofs.v
theories/PrettyProofs2.v
theories/PrettyProps.v
theories/LevelsModel.v
theories/LevelsSpec.v
theories/LevelsProps.v
theories/WhichModel.v
theories/WhichProps.v
