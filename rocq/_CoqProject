-Q theories Verif
theories/Base.v
theories/ParserModel.v
theories/ParserSpec.v
theories/ParserProofs.v
theories/ParserProps.v
theories/LiteralModel.v
theories/LiteralSpec.v
theories/LiteralProofs.v
theories/LiteralProps.v
theories/StringModel.v
theories/StringSpec.v
theories/StringProofs.v
theories/StringProps.v
theories/AnnotModel.v
theories/AnnotSpec.v
theories/AnnotProofs.v
theories/AnnotStore.v
theories/AnnotFinal.v
theories/AnnotProps.v
theories/CollectModel.v
theories/CollectSpec.v
theories/CollectProofs.v
theories/CollectProps.v
theories/GraphModel.v
theories/GraphSpec.v
theories/GraphWalk.v
theories/GraphBuild.v
theories/GraphPlace.v
theories/GraphProofs.v
theories/GraphFinal.v
theories/GraphProps.v
theories/OrderModel.v
theories/OrderSpec.v
theories/OrderProofs.v
theories/OrderProps.v
theories/InlineModel.v
theories/InlineSpec.v
theories/InlineProofs.v
theories/InlineProps.v
theories/EmitModel.v
theories/EmitSpec.v
theories/EmitMap.v
theories/EmitProofs.v
theories/EmitFold.v
theories/EmitFinal.v
theories/EmitProps.v
theories/ModuleModel.v
theories/ModuleSpec.v
theories/ModuleChunks.v
theories/ModuleProofs.v
theories/ModuleFinal.v
theories/ModuleProps.v
theories/CommandModel.v
theories/CommandSpec.v
theories/CommandProofs.v
theories/CommandProps.v
theories/ToolModel.v
theories/ToolSpec.v
theories/ToolProofs.v
theories/ToolProps.v
theories/TemplateModel.v
theories/TemplateSpec.v
theories/TemplateProofs.v
theories/TemplateProps.v
theories/InspectModel.v
theories/InspectSpec.v
theories/InspectProofs.v
theories/InspectProps.v
theories/PrinterModel.v
theories/PrinterSpec.v
theories/PrinterProofs.v
theories/PrinterProps.v
theories/TextModel.v
theories/TextSpec.v
theories/TextProofs.v
theories/TextFinal.v
theories/TextProps.v
theories/CallSpec.v
theories/CallProofs.v
theories/CallProps.v
theories/ImportSpec.v
theories/ImportProofs.v
theories/ImportProps.v
theories/ExecSpec.v
theories/ExecProofs.v
theories/ExecProps.v
theories/BuildModel.v
theories/BuildSpec.v
theories/BuildProofs.v
theories/BuildProps.v
theories/MessageModel.v
theories/MessageSpec.v
theories/MessageProofs.v
theories/MessageProps.v
theories/MacroModel.v
theories/MacroSpec.v
theories/MacroProofs.v
theories/MacroProps.v
theories/AccessSpec.v
theories/AccessProofs.v
theories/AccessProps.v
theories/ManualSpec.v
theories/ManualProofs.v
theories/ManualProps.v
theories/AliasModel.v
theories/AliasSpec.v
theories/AliasProofs.v
theories/AliasProps.v
theories/DefaultModel.v
theories/DefaultSpec.v
theories/DefaultProofs.v
theories/DefaultProps.v
theories/SplitSpec.v
theories/SplitProofs.v
theories/SplitProps.v
theories/WrapModel.v
theories/WrapProofs.v
theories/WrapProps.v
theories/InvalidSpec.v
theories/InvalidProofs.v
theories/InvalidProps.v
theories/FindSpec.v
theories/FindProofs.v
theories/FindProps.v
theories/DispatchSpec.v
theories/DispatchProofs.v
theories/DispatchProps.v
theories/PublicSpec.v
theories/PublicProofs.v
theories/PublicProps.v
theories/StoreSpec.v
theories/StoreProofs.v
theories/StoreProps.v
theories/OptionSpec.v
theories/OptionProofs.v
theories/OptionProps.v
theories/ClangModel.v
theories/ClangSpec.v
theories/ClangProofs.v
theories/ClangProps.v
theories/NameModel.v
theories/NameSpec.v
theories/NameProofs.v
theories/NameProps.v
theories/PropertySpec.v
theories/PropertyProofs.v
theories/PropertyProps.v
theories/MroSpec.v
theories/MroProofs.v
theories/MroProps.v
theories/HidingSpec.v
theories/HidingProofs.v
theories/HidingProps.v
theories/ConvertSpec.v
theories/ConvertProofs.v
theories/ConvertProps.v
theories/LifeSpec.v
theories/LifeProofs.v
theories/LifeProps.v
theories/OperSpec.v
theories/OperProofs.v
theories/OperProps.v
theories/StreamSpec.v
theories/StreamProofs.v
theories/StreamProps.v
theories/ViewModel.v
theories/ViewSpec.v
theories/ViewProofs.v
theories/ViewProps.v
theories/PolicySpec.v
theories/PolicyProofs.v
theories/PolicyProps.v
theories/DocSpec.v
theories/DocProofs.v
theories/DocProps.v
theories/SharedSpec.v
theories/SharedProofs.v
theories/SharedProps.v
theories/EnumSpec.v
theories/EnumProofs.v
theories/EnumProps.v
theories/CreateSpec.v
theories/CreateProofs.v
theories/CreateProps.v
theories/DetailSpec.v
theories/DetailProofs.v
theories/DetailProps.v
theories/RunsSpec.v
theories/RunsProofs.v
theories/RunsProps.v
theories/LocalSpec.v
theories/LocalProofs.v
theories/LocalProps.v
theories/RewriteSpec.v
theories/RewriteProofs.v
theories/RewriteProps.v
theories/VirtualSpec.v
theories/VirtualProofs.v
theories/VirtualProps.v
theories/ArrangeSpec.v
theories/ArrangeProofs.v
theories/ArrangeProps.v
theories/LayoutSpec.v
theories/LayoutProofs.v
theories/LayoutProps.v
theories/CosmeticSpec.v
theories/CosmeticProofs.v
theories/CosmeticProps.v
theories/TitleSpec.v
theories/TitleProofs.v
theories/TitleProps.v
theories/BareSpec.v
theories/BareProofs.v
theories/BareProps.v
theories/AbsentSpec.v
theories/AbsentProofs.v
theories/AbsentProps.v
theories/HideSpec.v
theories/HideProofs.v
theories/HideProps.v
theories/WithdrawSpec.v
theories/WithdrawProofs.v
theories/WithdrawProps.v
theories/RequestSpec.v
theories/RequestProofs.v
theories/RequestProps.v
theories/RerunProofs.v
theories/RerunProps.v
theories/SwitchProofs.v
theories/SwitchProps.v
theories/AsideSpec.v
theories/AsideProofs.v
theories/AsideProps.v
theories/BasisProps.v
theories/ActiveSpec.v
theories/ActiveProofs.v
theories/ActiveProps.v
theories/SourceSpec.v
theories/SourceProofs.v
theories/SourceProps.v
theories/LevelSpec.v
theories/LevelProofs.v
theories/LevelProps.v
theories/KindProps.v
theories/NoteSpec.v
theories/NoteProofs.v
theories/NoteProps.v
