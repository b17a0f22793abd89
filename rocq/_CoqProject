-Q theories Verif
theories/AccModel.v
theories/AccProofs.v
theories/AccProps.v
theories/AccSpec.v
theories/ArrayModel.v
theories/ArrayProps.v
theories/AtomicBook.v
theories/AtomicProofs.v
theories/AtomicProps.v
theories/AtomicRun.v
theories/AtomicSpec.v
theories/AtomicUse.v
theories/BlockEnds.v
theories/BlockKeeps.v
theories/BlockProofs.v
theories/BlockProps.v
theories/BlockSafe.v
theories/BlockSpec.v
theories/CallModel.v
theories/CallProofs.v
theories/CallProps.v
theories/CallSpec.v
theories/CastModel.v
theories/CastProps.v
theories/ConstModel.v
theories/ConstProofs.v
theories/ConstProps.v
theories/ConstSpec.v
theories/CreateModel.v
theories/CreateProofs.v
theories/CreateProps.v
theories/CreateSpec.v
theories/DeferModel.v
theories/DeferProofs.v
theories/DeferProps.v
theories/DeferSpec.v
theories/DelayProofs.v
theories/DelayProps.v
theories/DelaySpec.v
theories/DispatchModel.v
theories/DispatchProofs.v
theories/DispatchProps.v
theories/DispatchSpec.v
theories/ExitModel.v
theories/ExitProofs.v
theories/ExitProps.v
theories/ExitSpec.v
theories/FailProofs.v
theories/FailProps.v
theories/FailSpec.v
theories/FinallyModel.v
theories/FinallyProps.v
theories/FlagsProps.v
theories/FnModel.v
theories/FnProofs.v
theories/FnProps.v
theories/FnSpec.v
theories/HierModel.v
theories/HierProofs.v
theories/HierProps.v
theories/HierSpec.v
theories/InheritModel.v
theories/InheritProofs.v
theories/InheritProps.v
theories/InheritSpec.v
theories/KeepModel.v
theories/KeepProofs.v
theories/KeepProps.v
theories/KeepSpec.v
theories/LateProofs.v
theories/LateProps.v
theories/LateSpec.v
theories/LayoutModel.v
theories/LayoutProofs.v
theories/LayoutProps.v
theories/LayoutSpec.v
theories/LinkProofs.v
theories/LinkProps.v
theories/LinkSpec.v
theories/ListsModel.v
theories/ListsProofs.v
theories/ListsProps.v
theories/ListsSpec.v
theories/MakeModel.v
theories/MakeProofs.v
theories/MakeProps.v
theories/MakeRun.v
theories/MakeSpec.v
theories/ModuleModel.v
theories/ModuleProofs.v
theories/ModuleProofs2.v
theories/ModuleProofs3.v
theories/ModuleProps.v
theories/ModuleSpec.v
theories/NameModel.v
theories/NameProofs.v
theories/NameProps.v
theories/NameSpec.v
theories/OomModel.v
theories/OomProofs.v
theories/OomProps.v
theories/OomSpec.v
theories/OrderProofs.v
theories/OrderProps.v
theories/OrderSpec.v
theories/RaceModel.v
theories/RaceProofs.v
theories/RaceProps.v
theories/RaceSpec.v
theories/ReflBuilder.v
theories/ReflCtors.v
theories/ReflDefer.v
theories/ReflExec.v
theories/ReflFinal.v
theories/ReflModel.v
theories/ReflMono.v
theories/ReflMore.v
theories/ReflProofs.v
theories/ReflProps.v
theories/ReflProps2.v
theories/ReflProps3.v
theories/ReflProps4.v
theories/ReflQueries.v
theories/ReflSpec.v
theories/ReflTerm.v
theories/ReflWait.v
theories/RefsModel.v
theories/RefsProofs.v
theories/RefsProps.v
theories/RefsSpec.v
theories/RegistryModel.v
theories/RegistryProofs.v
theories/RegistryProps.v
theories/ReplayRegistration.v
theories/ReplayTests.v
theories/ReturnModel.v
theories/ReturnProofs.v
theories/ReturnProps.v
theories/ReturnSpec.v
theories/SelectModel.v
theories/SelectProofs.v
theories/SelectProps.v
theories/SelectSpec.v
theories/StringsModel.v
theories/StringsProofs.v
theories/StringsProps.v
theories/StringsSpec.v
theories/TempModel.v
theories/TempProofs.v
theories/TempProps.v
theories/TempSpec.v
theories/ThreadModel.v
theories/ThreadProofs.v
theories/ThreadProps.v
theories/ThreadSpec.v
theories/TypeListModel.v
theories/TypeListProps.v
theories/TypesModel.v
theories/TypesProofs.v
theories/TypesProps.v
theories/TypesSpec.v
theories/Util.v
theories/VarModel.v
theories/VarProofs.v
theories/VarProps.v
theories/VarSpec.v
