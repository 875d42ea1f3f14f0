-Q theories Verif
theories/Bytes.v
theories/Outcome.v
theories/TarSpec.v
theories/TarModel.v
theories/TarProofs.v
theories/Samples.v
theories/TarMore.v
theories/PropertiesTar.v
theories/Layout.v
theories/LayoutSpec.v
theories/LayoutProofs.v
theories/LayoutMore.v
theories/PropertiesLayout.v
theories/OrderCodec.v
theories/OrderCodecProofs.v
theories/Mover.v
theories/MoverSpec.v
theories/MoverProofs.v
theories/MoverMore.v
theories/OrderMore.v
theories/OrderRobust.v
theories/PropertiesOrders.v
theories/PropertiesMover.v
theories/Boss.v
theories/BossProofs.v
theories/BossMore.v
theories/BossRuns.v
theories/Worker.v
theories/WorkerProofs.v
theories/Assemble.v
theories/AssembleProofs.v
theories/PropertiesBoss.v
theories/Spider.v
theories/SpiderSpec.v
theories/SpiderProofs.v
theories/SpiderMore.v
theories/PropertiesScan.v
theories/Args.v
theories/ArgsSpec.v
theories/ArgsProofs.v
theories/Program.v
theories/ProgramProofs.v
theories/PropertiesProgram.v
theories/EndSpec.v
theories/EndProofs.v
theories/EndMore.v
theories/EndRefuted.v
theories/PropertiesEnd.v
theories/Legacy.v
theories/LegacyProofs.v
theories/LegacyLayout.v
theories/LegacySpec.v
theories/LegacyLayoutProofs.v
theories/LegacyRanks.v
theories/LegacyMore.v
theories/PropertiesLegacy.v
theories/LegacyScan.v
theories/LegacyScanProofs.v
theories/PropertiesLegacyScan.v
theories/LegacyCodec.v
theories/LegacyCodecProofs.v
theories/LegacyWrite.v
theories/LegacySeats.v
theories/LegacyImage.v
theories/LegacyArchive.v
theories/LegacyEndSpec.v
theories/LegacyDriftSpec.v
theories/LegacyWalk.v
theories/LegacySend.v
theories/LegacyEnd.v
theories/LegacyRun.v
theories/LegacyHead.v
theories/LegacyBridge.v
theories/LegacyCreate.v
theories/LegacyTreeSpec.v
theories/LegacyCreateProofs.v
theories/LegacyTotal.v
theories/LegacyEndMore.v
theories/PropertiesLegacyEnd.v
theories/WholeSpec.v
theories/Whole.v
theories/PropertiesWhole.v
theories/CrashSpec.v
theories/Crash.v
theories/PropertiesCrash.v
theories/LegacyAgreeSpec.v
theories/LegacyAgree.v
theories/PropertiesLegacyAgree.v
theories/Objects.v
theories/ObjectsSpec.v
theories/ObjectsProofs.v
theories/PropertiesObjects.v
theories/LegacyHeap.v
theories/LegacyHeapProofs.v
theories/PropertiesLegacyHeap.v
theories/PropertiesRefuse.v
theories/LayoutGreedy.v
theories/MembersSpec.v
theories/Members.v
theories/PropertiesMembers.v
theories/UnpackSpec.v
theories/Unpack.v
theories/PropertiesUnpack.v
theories/DriftSpec.v
theories/Drift.v
theories/DriftProofs.v
theories/PropertiesDrift.v
theories/TargetSpec.v
theories/Target.v
theories/Versions.v
theories/Slash.v
theories/PropertiesTarget.v
theories/Mpi.v
theories/MpiProofs.v
theories/MpiBound.v
theories/MpiSpec.v
theories/MpiEnd.v
theories/MpiMore.v
theories/MpiRefuse.v
theories/MpiExact.v
theories/PropertiesMpi.v
theories/LegacyMpi.v
theories/LegacyMpiSpec.v
theories/LegacyMpiProofs.v
theories/LegacyMpiMore.v
theories/LegacyMpiEnd.v
theories/LegacyMpiWhole.v
theories/LegacyMpiRun.v
theories/LegacyMpiHang.v
theories/LegacyMpiTree.v
theories/LegacyVanish.v
theories/LegacyDrift.v
theories/PropertiesLegacyMpi.v
theories/LegacyDriftBad.v
theories/PropertiesLegacyDrift.v
theories/PropertiesLegacyText.v
theories/BehaviorSpec.v
theories/Behavior.v
theories/BehaviorProofs.v
theories/PropertiesBehavior.v
theories/WriteTest.v
theories/WriteTestSpec.v
theories/WriteTestProofs.v
theories/PropertiesWriteTest.v
theories/ApartSpec.v
theories/Apart.v
theories/LegacyApart.v
theories/MpiApart.v
theories/TextFit.v
theories/PropertiesApart.v
theories/RepackSpec.v
theories/Repack.v
theories/PropertiesRepack.v
theories/PropertiesMigrate.v
theories/PropertiesSamePlace.v
theories/LegacyRepeatSpec.v
theories/LegacyRepeat.v
theories/PropertiesLegacyRepeat.v
theories/SizeSpec.v
theories/Size.v
theories/PropertiesSize.v
theories/MemberOrderSpec.v
theories/MemberOrder.v
theories/PropertiesMemberOrder.v
theories/LegacyOrderSpec.v
theories/LegacyOrder.v
theories/PropertiesLegacyOrder.v
