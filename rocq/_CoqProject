-Q theories Verif
theories/Words.v
theories/Config.v
theories/Spec.v
theories/ConfigFacts.v
theories/Pointer.v
theories/PointerFacts.v
theories/Fmt.v
theories/SpecFmt.v
theories/FmtFacts.v
theories/Mem.v
theories/Box.v
theories/Props_Pointer.v
theories/SpecMem.v
theories/MemFacts.v
theories/BoxFacts.v
theories/Bump.v
theories/Props_Box.v
theories/Arms.v
theories/Macro.v
theories/SpecMacro.v
theories/MacroFacts.v
theories/Props_Macro.v
theories/Rustc.v
theories/Props_Layout.v
theories/Props_Variants.v
theories/Props_DocNumbers.v
theories/Props_Clone.v
theories/Tokens.v
theories/SpecTokens.v
theories/TokensFacts.v
theories/Props_Tokens.v
theories/Props_EnumDrop.v
theories/Manual.v
theories/Tests.v
theories/Bench.v
theories/Docs.v
theories/Cargo.v
theories/Props_Manual.v
theories/Session.v
theories/SpecSession.v
theories/SessionFacts.v
theories/Props_Session.v
theories/Containers.v
theories/SpecContainers.v
theories/Props_Containers.v
theories/Multi.v
theories/SpecMulti.v
theories/Props_Multi.v
theories/Props_Tests.v
theories/Props_Docs.v
theories/SpecLeak.v
theories/Props_Leak.v
theories/Props_Debug.v
theories/Traits.v
theories/Props_Traits.v
theories/Decls.v
theories/Props_Decls.v
theories/Nested.v
theories/Props_Nested.v
theories/Interior.v
theories/Props_Interior.v
theories/Props_Mixed.v
theories/Props_Cargo.v
theories/Props_Unsound.v
theories/Messages.v
theories/Props_Messages.v
theories/SpecMessageText.v
theories/Props_MessageText.v
theories/Names.v
theories/SpecNames.v
theories/NamesFacts.v
theories/Props_Names.v
theories/Threads.v
theories/SpecThreads.v
theories/ThreadsFacts.v
theories/Props_Threads.v
theories/Refs.v
theories/SpecRefs.v
theories/Props_Refs.v
theories/Heads.v
theories/SpecHeads.v
theories/Props_Heads.v
theories/Compile.v
theories/SpecCompile.v
theories/Props_Compile.v
theories/KThreads.v
theories/SpecKThreads.v
theories/KThreadsFacts.v
theories/KThreadsWp.v
theories/KThreadsInv.v
theories/Props_KThreads.v
theories/Lexer.v
theories/Source.v
theories/MacroRules.v
theories/CrateMacros.v
theories/SpecText.v
theories/MacroRulesFacts.v
theories/TextFacts.v
theories/TextMacros.v
theories/TextParts.v
theories/TextEnums.v
theories/TextWhole.v
theories/TextRefused.v
theories/Props_Text.v
theories/Generated.v
theories/Props_Generated.v
theories/Constants.v
theories/Props_Unused.v
theories/Provenance.v
theories/SpecProvenance.v
theories/ProvenanceFacts.v
theories/Props_Provenance.v
theories/KProvenance.v
theories/KProvenanceFacts.v
theories/Props_KProvenance.v
theories/DropPanics.v
theories/SpecDropPanics.v
theories/DropPanicsFacts.v
theories/Props_DropPanics.v
theories/KDropPanics.v
theories/SpecKDropPanics.v
theories/KDropPanicsFacts.v
theories/Props_KDropPanics.v
theories/Destructors.v
theories/SpecDestructors.v
theories/DestructorsFacts.v
theories/Props_Destructors.v
theories/KDestructors.v
theories/SpecKDestructors.v
theories/KDestructorsFacts.v
theories/Props_KDestructors.v
theories/OwnDrop.v
theories/SpecOwnDrop.v
theories/OwnDropFacts.v
theories/Props_OwnDrop.v
theories/OwnEffects.v
theories/SpecOwnEffects.v
theories/OwnEffectsFacts.v
theories/Props_OwnEffects.v
