-Q theories Verif
theories/Model/Base.v
theories/Model/Regex.v
theories/Model/Identity.v
theories/Spec/IdentitySpec.v
theories/Proofs/BaseFacts.v
theories/Proofs/RegexFacts.v
theories/Proofs/IdentityFacts.v
theories/Props/P01_Identity.v
theories/Model/HashMap.v
theories/Model/Values.v
theories/Model/Shapes.v
theories/Model/SemModel.v
theories/Proofs/HashMapFacts.v
theories/Spec/MapSpec.v
theories/Spec/ModelSpec.v
theories/Proofs/ValueFacts.v
theories/Proofs/ShapeFacts.v
theories/Proofs/ModelFacts.v
theories/Proofs/MergeFacts.v
theories/Spec/Witness.v
theories/Props/P02_Model.v
theories/Model/Actions.v
theories/Spec/ActionsSpec.v
theories/Proofs/ActionFacts.v
theories/Props/P03_Actions.v
theories/Model/Lines.v
theories/Spec/ReorderSpec.v
theories/Spec/LinesSpec.v
theories/Proofs/LinesFacts.v
theories/Proofs/LinesUnique.v
theories/Props/P04_Lines.v
theories/Model/Json.v
theories/Spec/JsonSpec.v
theories/Proofs/ReorderFacts.v
theories/Proofs/JsonFacts.v
theories/Props/P05_Json.v
theories/Model/Visitor.v
theories/Spec/VisitorSpec.v
theories/Proofs/VisitorFacts.v
theories/Model/Selector.v
theories/Props/P06_Visitor.v
theories/Model/Prelude.v
theories/Model/Builder.v
theories/Spec/BuilderSpec.v
theories/Proofs/BuilderFacts.v
theories/Props/P07_Builder.v
theories/Model/Urn.v
theories/Model/Query.v
theories/Spec/UrnSpec.v
theories/Proofs/UrnFacts.v
theories/Spec/QuerySpec.v
theories/Props/P08_Urn_Query.v
theories/Model/Assembler.v
theories/Spec/AssemblerSpec.v
theories/Proofs/RegistryFacts.v
theories/Proofs/MultiMergeFacts.v
theories/Proofs/AssemblerFacts.v
theories/Props/P09_Assembler.v
theories/Model/Rdf.v
theories/Spec/RdfSpec.v
theories/Proofs/RdfFacts.v
theories/Proofs/RdfKeepFacts.v
theories/Proofs/RdfGraphFacts.v
theories/Props/P10_Rdf.v
theories/Model/Peg.v
theories/Model/SelectorGrammar.v
theories/Model/SelectorParse.v
theories/Proofs/PegFacts.v
theories/Spec/SelectorSpec.v
theories/Proofs/SelectorGrammarFacts.v
theories/Proofs/SelectorFacts.v
theories/Proofs/SelectorSound.v
theories/Proofs/SelectorWhole.v
theories/Props/P11_Selector.v
theories/Model/SmithyGrammar.v
theories/Model/SmithyParse.v
theories/Model/SmithyWrite.v
theories/Spec/SmithySpec.v
theories/Proofs/SmithyGrammarFacts.v
theories/Proofs/SmithyValueFacts.v
theories/Proofs/SmithyTraitFacts.v
theories/Proofs/SmithyShapeFacts.v
theories/Proofs/SmithyFacts.v
theories/Proofs/SmithyDocFacts.v
theories/Proofs/SmithyBuildFacts.v
theories/Props/P12_Smithy.v
theories/Model/Fluent.v
theories/Spec/FluentSpec.v
theories/Proofs/FluentFacts.v
theories/Props/P13_Fluent.v
theories/Spec/LayoutSpec.v
theories/Proofs/LayoutFacts.v
theories/Proofs/LayoutSim.v
theories/Proofs/LayoutParse.v
theories/Model/ShapeApi.v
theories/Spec/ShapeApiSpec.v
theories/Proofs/ShapeApiFacts.v
theories/Props/P14_ShapeApi.v
theories/Model/SelectorBuild.v
theories/Spec/SelectorBuildSpec.v
theories/Proofs/SelectorBuildFacts.v
theories/Props/P15_SelectorBuild.v
theories/Model/ValueBuild.v
theories/Spec/ValueBuildSpec.v
theories/Props/P16_ValueBuild.v
theories/Model/GraphML.v
theories/Spec/XmlSpec.v
theories/Spec/GraphMLSpec.v
theories/Proofs/GraphMLFacts.v
theories/Props/P17_GraphML.v
theories/Model/PlantUml.v
theories/Spec/UmlSpec.v
theories/Proofs/UmlFacts.v
theories/Props/P18_PlantUml.v
theories/Model/Document.v
theories/Spec/DocumentSpec.v
theories/Proofs/DocumentFacts.v
theories/Proofs/DocumentOrder.v
theories/Props/P19_Document.v
theories/Model/Cli.v
theories/Spec/CliSpec.v
theories/Proofs/CliFacts.v
theories/Props/P20_Cli.v
theories/Model/RdfReader.v
theories/Spec/RdfReaderSpec.v
theories/Proofs/RdfReaderFacts.v
theories/Props/P21_RdfReader.v
theories/Spec/MessageSpec.v
theories/Proofs/MessageFacts.v
theories/Model/Io.v
theories/Spec/IoSpec.v
theories/Proofs/IoFacts.v
theories/Props/P22_Io.v
theories/Model/SelectorApi.v
theories/Spec/SelectorApiSpec.v
theories/Proofs/SelectorApiFacts.v
theories/Props/P23_SelectorApi.v
theories/Model/Queries.v
theories/Model/Errors.v
theories/Spec/QueriesSpec.v
theories/Spec/ErrorsSpec.v
theories/Proofs/QueriesFacts.v
theories/Proofs/ErrorsFacts.v
theories/Props/P24_Queries.v
theories/Props/P25_Small.v
theories/Proofs/ReorderEquiv.v
theories/Proofs/JsonCanonFacts.v
theories/Spec/JsonStableSpec.v
theories/Proofs/JsonStableFacts.v
theories/Props/P26_JsonStable.v
theories/Proofs/SmithyStableFacts.v
theories/Props/P27_SmithyStable.v
theories/Proofs/OrderFacts.v
theories/Proofs/MergeOrderFacts.v
theories/Props/P28_Order.v
theories/Props/P29_MergeBack.v
theories/Spec/OrderSpec.v
theories/Proofs/DrawingOrder.v
theories/Props/P30_DrawingOrder.v
theories/Proofs/RdfIso.v
theories/Spec/EqualitySpec.v
theories/Proofs/EqualityFacts.v
theories/Props/P31_Equality.v
theories/Props/P32_Idl.v
theories/Spec/IdlSpec.v
theories/Proofs/BlockFacts.v
theories/Proofs/IdlValueFacts.v
theories/Proofs/IdlShapeFacts.v
theories/Proofs/IdlDocFacts.v
theories/Proofs/IdlBuildFacts.v
theories/Spec/IdlFaultSpec.v
theories/Proofs/IdlFaultFacts.v
theories/Props/P33_IdlFaults.v
theories/Spec/SelectorTextSpec.v
theories/Proofs/SelectorLayout.v
theories/Proofs/SelectorTextSound.v
theories/Props/P35_SelectorText.v
theories/Spec/IdlLanguageSpec.v
theories/Proofs/IdlSound.v
theories/Proofs/IdlBrackets.v
theories/Props/P34_IdlLanguage.v
theories/Model/JsonText.v
theories/Spec/JsonTextSpec.v
theories/Proofs/JsonTextFacts.v
theories/Proofs/JsonTextValues.v
theories/Proofs/JsonTextWrite.v
theories/Proofs/JsonTextModel.v
theories/Proofs/JsonTextDepth.v
theories/Props/P36_JsonText.v
theories/Tests/SelectorFixtures.v
theories/Spec/ReaderSpec.v
theories/Proofs/ReaderFacts.v
theories/Props/P37_Readers.v
theories/Spec/ProjectSpec.v
theories/Proofs/ProjectFacts.v
theories/Props/P38_Projects.v
theories/Model/CommandLine.v
theories/Props/P39_CommandLine.v
theories/Props/P40_Conversions.v
theories/Tests/AssemblerFixtures.v
theories/Tests/JsonFixtures.v
theories/Tests/IdlFixtures.v
theories/Tests/CoreFixtures.v
theories/Tests/DocumentFixtures.v
