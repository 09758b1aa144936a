-Q theories Verif
theories/Prelude.v
theories/PreludeFacts.v
theories/Container.v
theories/ContainerFacts.v
theories/Letter.v
theories/LetterFacts.v
theories/Requirements.v
theories/RequirementsFacts.v
theories/Tools.v
theories/Crypto.v
theories/Session.v
theories/SpecSession.v
theories/SessionFacts.v
theories/SessionComplete.v
theories/SessionProps.v
theories/SuiteFacts.v
theories/Toy.v
theories/Core.v
theories/Envelope.v
theories/CoreRel.v
theories/CoreState.v
theories/SpecCore.v
theories/CoreSession.v
theories/CoreMaterial.v
theories/SpecKeys.v
theories/CoreKeys.v
theories/CoreTrip.v
theories/CoreRound.v
theories/SpecOpen.v
theories/CoreOpen.v
theories/PropHistory.v
theories/PropTrip.v
theories/PropKeys.v
theories/PropCodec.v
theories/PropReq.v
theories/PropSession.v
theories/PropOpen.v
theories/CorePanic.v
theories/PropLetter.v
theories/PropSide.v
theories/CoreWire.v
theories/WireOps.v
theories/WireMat.v
theories/SpecWire.v
theories/WireRun.v
theories/SpecWorking.v
theories/WireLive.v
theories/PropWire.v
theories/WireHurt.v
theories/PropWireHurt.v
theories/SpecRatchet.v
theories/WireHist.v
theories/PropRatchet.v
theories/SpecReplay.v
theories/ReplayFacts.v
theories/PropReplay.v
theories/Encodings.v
theories/EncodingsFacts.v
theories/Lhash.v
theories/SpecHash.v
theories/PropHash.v
theories/Search.v
theories/Armor.v
theories/SpecArmor.v
theories/ArmorFacts.v
theories/PropArmor.v
theories/FileSig.v
theories/SpecFile.v
theories/PropFile.v
theories/Text.v
theories/SpecText.v
theories/TextFacts.v
theories/PropText.v
theories/Json.v
theories/SpecJson.v
theories/PropJson.v
theories/Supply.v
theories/SpecSupply.v
theories/PropSupply.v
theories/KeyStore.v
theories/SpecKeyStore.v
theories/PropKeyStore.v
theories/Signets.v
theories/SpecExport.v
theories/PropExport.v
theories/PropRsa.v
theories/TrustStore.v
theories/SpecStore.v
theories/PropStore.v
theories/Keyring.v
theories/SpecKeyring.v
theories/PropKeyring.v
theories/Wizard.v
theories/SpecWizard.v
theories/WizardFacts.v
theories/WizardLevel.v
theories/PropWizard.v
theories/PropManage.v
theories/Generate.v
theories/SpecGenerate.v
theories/PropGenerate.v
theories/Report.v
theories/Cmd.v
theories/SpecCmd.v
theories/PropCmd.v
theories/SpecReport.v
theories/PropReport.v
theories/CmdKeys.v
theories/PropCmdKeys.v
theories/PropTool.v
theories/Password.v
theories/SpecPassword.v
theories/PropPassword.v
theories/SpecPost.v
theories/Post.v
theories/PropPost.v
theories/PropFileTrip.v
theories/CmdFiles.v
theories/SpecCmdFiles.v
theories/PropCmdFiles.v
theories/CmdSign.v
theories/SpecCmdSign.v
theories/PropCmdSign.v
theories/Main.v
theories/SpecMain.v
theories/PropMain.v
theories/CmdPassword.v
theories/SpecCmdPassword.v
theories/PropCmdPassword.v
theories/PropRegistry.v
theories/SpecClose.v
theories/PropClose.v
theories/SpecMail.v
theories/PropMail.v
theories/PropInPlace.v
theories/SpecReaders.v
theories/PropReaders.v
theories/Shared.v
theories/SpecShared.v
theories/SharedFacts.v
theories/SharedVerify.v
theories/PropShared.v
theories/PropWireStart.v
theories/Mutex.v
theories/SpecLinear.v
theories/LinearFacts.v
theories/PropLinear.v
theories/SpecLeak.v
theories/LeakFacts.v
theories/PropLeak.v
theories/SpecWipe.v
theories/PropWipe.v
theories/Columns.v
theories/SpecColumns.v
theories/ColumnsFacts.v
theories/PropColumns.v
theories/SpecColumnsMore.v
theories/PropColumnsMore.v
theories/SuiteMenu.v
theories/PropSuiteMenu.v
theories/EditMenu.v
theories/PropEditMenu.v
theories/Registry.v
theories/SpecRegistry.v
theories/PropRegister.v
theories/Random.v
theories/SpecRandom.v
theories/PropRandom.v
theories/ReqText.v
theories/PropReqText.v
theories/ApplyFlag.v
theories/PropApplyFlag.v
theories/PropReplayStart.v
theories/ReplayMore.v
theories/PropReplayMore.v
