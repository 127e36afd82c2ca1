-Q theories Verif
theories/Base.v
theories/Types.v
theories/StdVec.v
theories/VecVoid.v
theories/VecCopy.v
theories/SliceCopy.v
theories/Value.v
theories/VecDyn.v
theories/Spec.v
theories/ViewSpec.v
theories/PanicSpec.v
theories/Machine.v
theories/DynSpec.v
theories/DynPanicSpec.v
theories/DynMachine.v
theories/Reach.v
theories/TypesProofs.v
theories/VecVoidProofs.v
theories/VecCopyProofs.v
theories/SliceProofs.v
theories/CallProofs.v
theories/CtorProofs.v
theories/MachineProofs.v
theories/LedgerProofs.v
theories/ReachProofs.v
theories/DynLemmas.v
theories/DynCallProofs.v
theories/DynPois.v
theories/ValueProofs.v
theories/DynOps.v
theories/DynOps2.v
theories/DynMachineProofs.v
theories/DynSteps.v
theories/DynReach.v
theories/DynRunProofs.v
theories/CopyFacts.v
theories/CopyFacts2.v
theories/CopyFacts3.v
theories/SliceFacts.v
theories/WrapFacts.v
theories/GrowFacts.v
theories/UpcastFacts.v
theories/CopyFacts4.v
theories/CheckedFacts.v
theories/Views.v
theories/ViewFacts.v
theories/PanicFacts.v
theories/DynFacts.v
theories/DynPanicFacts.v
theories/WrapDynFacts.v
theories/GrowDynFacts.v
theories/DynFacts2.v
theories/DynFacts3.v
theories/DynFacts4.v
theories/DynFacts5.v
theories/DynFacts6.v
theories/DynFacts7.v
theories/DynLoud.v
theories/DynFacts8.v
theories/DynTable.v
theories/DynTableFacts.v
theories/Extra.v
theories/ExtraFacts.v
theories/RoomFacts.v
theories/Examples.v
theories/RoomExamples.v
theories/RoomDynFacts.v
theories/ConvFacts.v
theories/CloneFacts.v
theories/LostFacts.v
theories/LoudSpec.v
theories/LoudFacts.v
theories/DynExamples.v
theories/RoomDynExamples.v
theories/Derive.v
theories/DeriveSem.v
theories/DeriveSpec.v
theories/DeriveProofs.v
theories/DeriveMap.v
theories/DeriveItems.v
theories/DeriveCheck.v
theories/DeriveFacts.v
theories/DeriveAttr.v
theories/DeriveAttrSpec.v
theories/DeriveAttrFacts.v
theories/DynCaps.v
theories/DynCapsFacts.v
theories/DeriveCycle.v
theories/DeriveSig.v
theories/DeriveSigSpec.v
theories/DeriveSigFacts.v
theories/Numeric.v
theories/NumericSpec.v
theories/NumericProofs.v
theories/NumericFacts.v
theories/Borrow.v
theories/BorrowFlow.v
theories/BorrowSpec.v
theories/BorrowProofs.v
theories/BorrowFlowProofs.v
theories/Threads.v
theories/ThreadsSpec.v
theories/ThreadsFacts.v
theories/MacroRules.v
theories/MacroSpec.v
theories/MacroFacts.v
theories/MacroNum.v
theories/MacroNumSpec.v
theories/MacroNumFacts.v
theories/PropertiesCopy.v
theories/PropertiesDyn.v
theories/PropertiesView.v
theories/PropertiesDerive.v
theories/PropertiesSig.v
theories/PropertiesNumeric.v
theories/PropertiesStatic.v
theories/PropertiesMacro.v
theories/PropertiesMacroNum.v
