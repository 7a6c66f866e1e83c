-Q theories Verif
theories/Base.v
theories/BaseLemmas.v
theories/UpdatersModel.v
theories/UpdatersSpec.v
theories/UpdatersProofs.v
theories/UpdatersProofs2.v
theories/UpdatersProofs3.v
theories/UpdatersProofs4.v
theories/UpdatersProofs5.v
theories/UpdatersExamples.v
theories/UpdatersProperties.v
theories/SessionModel.v
theories/SessionSpec.v
theories/SessionStrings.v
theories/SessionProofs.v
theories/SessionProofs2.v
theories/SessionProofs3.v
theories/CurveModel.v
theories/CurveSpec.v
theories/CurveProofs.v
theories/SessionExamples.v
theories/SessionProperties.v
theories/SessionProofs4.v
theories/LoopModel.v
theories/LoopSpec.v
theories/LoopProofs.v
theories/LoopProofs2.v
theories/LoopProofs3.v
theories/LoopProofs4.v
theories/LoopExamples.v
theories/LoopProperties.v
theories/ParamModel.v
theories/ParamSpec.v
theories/ParamProofs.v
theories/ParamProofs2.v
theories/ParamExamples.v
theories/ParamProperties.v
theories/DynModel.v
theories/DynSpec.v
theories/DynProofs.v
theories/DynProofs2.v
theories/DynProofs3.v
theories/DynProofs4.v
theories/DynProofs5.v
theories/DynProofs6.v
theories/DynProofs7.v
theories/DynProperties.v
theories/FaModel.v
theories/FaSpec.v
theories/FaProofs.v
theories/FaProofs2.v
theories/FaProofs3.v
theories/FaProofs4.v
theories/FaProofs5.v
theories/FaProofs6.v
theories/FaProofs7.v
theories/FaProofs8.v
theories/FaProofs9.v
theories/FaProofs10.v
theories/FaProofs11.v
theories/FaProofs12.v
theories/FaProofs13.v
theories/FaProofs14.v
theories/FaProofs15.v
theories/FaExamples.v
theories/FaProperties.v
theories/TrajModel.v
theories/TrajSpec.v
theories/TrajProofs.v
theories/TrajProofs2.v
theories/TrajProofs3.v
theories/TrajProofs4.v
theories/TrajProofs5.v
theories/TrajProofs6.v
theories/TrajProofs7.v
theories/TrajExamples.v
theories/TrajProperties.v
theories/TrajProperties2.v
theories/DmpModel.v
theories/DmpSpec.v
theories/DmpProofs.v
theories/DmpProofs2.v
theories/DmpProofs3.v
theories/DmpProofs4.v
theories/DmpProofs5.v
theories/DmpProofs6.v
theories/DmpProofs7.v
theories/DmpProofs8.v
theories/DmpProofs9.v
theories/DmpProofs10.v
theories/DmpProofs11.v
theories/DmpProofs12.v
theories/DmpProofs13.v
theories/DmpProofs14.v
theories/DmpProofs15.v
theories/DmpProofs16.v
theories/DmpProofs17.v
theories/DmpProofs18.v
theories/DmpExamples.v
theories/DmpProperties.v
theories/ContextModel.v
theories/ContextSpec.v
theories/ContextProofs.v
theories/ContextProofs2.v
theories/ContextProofs3.v
theories/ContextProofs4.v
theories/ContextExamples.v
theories/ContextProperties.v
theories/TrajProofs8.v
theories/TrajProperties3.v
theories/TaskModel.v
theories/TaskSpec.v
theories/TaskProofs.v
theories/TaskProofs2.v
theories/TaskProofs3.v
theories/TaskExamples.v
theories/TaskProperties.v
theories/DmpSpec2.v
theories/DmpProofs19.v
theories/DmpProofs20.v
theories/DmpProperties2.v
theories/CppModel.v
theories/CppSpec.v
theories/CppProofs.v
theories/CppProofs2.v
theories/CppProofs3.v
theories/CppProofs4.v
theories/CppProofs5.v
theories/CppProofs6.v
theories/CppProofs7.v
theories/CppProofs8.v
theories/CppProofs9.v
theories/CppProofs10.v
theories/CppExamples.v
theories/CppProperties.v
theories/SchedModel.v
theories/SchedSpec.v
theories/SchedProofs.v
theories/SchedProofs2.v
theories/SchedProofs3.v
theories/SchedProofs4.v
theories/SchedExamples.v
theories/SchedProperties.v
theories/IntSpec.v
theories/IntModel.v
theories/IntProofs.v
theories/IntProofs2.v
theories/IntProofs3.v
theories/IntProofs4.v
theories/IntProofs5.v
theories/IntProofs6.v
theories/IntProofs7.v
theories/IntProofs8.v
theories/IntProofs9.v
theories/IntProofs10.v
theories/IntProperties.v
theories/EquivSpec.v
theories/EquivProofs.v
theories/EquivProofs2.v
theories/EquivProofs3.v
theories/EquivExamples.v
theories/EquivProperties.v
theories/AliasModel.v
theories/AliasDyn.v
theories/AliasFa.v
theories/AliasDmp.v
theories/AliasSpec.v
theories/AliasProofs.v
theories/AliasProofs2.v
theories/AliasProofs3.v
theories/AliasProofs4.v
theories/AliasProofs5.v
theories/AliasProofs6.v
theories/AliasProofs7.v
theories/AliasProperties.v
theories/CppTrajModel.v
theories/CppTrajSpec.v
theories/CppTrajProofs.v
theories/CppTrajProofs2.v
theories/CppTrajProofs3.v
theories/CppTrajExamples.v
theories/CppTrajProperties.v
theories/ThrowModel.v
theories/ThrowSpec.v
theories/ThrowProofs.v
theories/ThrowProofs2.v
theories/ThrowProofs3.v
theories/ThrowProofs4.v
theories/ThrowExamples.v
theories/ThrowProperties.v
theories/ExploreSpec.v
theories/ExploreModel.v
theories/ExploreProofs.v
theories/ExploreProofs2.v
theories/ExploreProofs3.v
theories/ExploreProperties.v
theories/FieldModel.v
theories/FieldSpec.v
theories/FieldProofs.v
theories/FieldProofs2.v
theories/FieldProofs3.v
theories/FieldProperties.v
theories/TuneModel.v
theories/TuneSpec.v
theories/TuneProofs.v
theories/TuneProofs2.v
theories/TuneProperties.v
theories/OptModel.v
theories/OptSpec.v
theories/OptProofs.v
theories/OptProofs2.v
theories/OptProofs3.v
theories/OptProofs4.v
theories/OptProperties.v
theories/ViaSpec.v
theories/ViaProofs.v
theories/ViaProofs2.v
theories/ViaProofs3.v
theories/ViaProofs4.v
theories/ViaProofs5.v
theories/ViaExamples.v
theories/ViaProperties.v
theories/AffineSpec.v
theories/AffineProofs.v
theories/AffineProofs2.v
theories/AffineProofs3.v
theories/AffineProofs4.v
theories/AffineProperties.v
theories/ReproSpec.v
theories/ReproProofs.v
theories/ReproProofs2.v
theories/ReproProofs3.v
theories/ReproProperties.v
theories/SlowSpec.v
theories/SlowProofs.v
theories/SlowProperties.v
theories/SafeSpec.v
theories/SafeProofs.v
theories/SafeProofs2.v
theories/SafeProperties.v
theories/PushSpec.v
theories/PushProofs.v
theories/PushProofs2.v
theories/PushProperties.v
theories/ReachSpec.v
theories/ReachProofs.v
theories/ReachProofs2.v
theories/ReachProofs3.v
theories/ReachProofs4.v
theories/ReachProperties.v
theories/DimSpec.v
theories/DimProofs.v
theories/DimProofs2.v
theories/DimProofs3.v
theories/DimProofs4.v
theories/DimProperties.v
