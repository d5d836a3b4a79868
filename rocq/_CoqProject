-Q theories Verif
theories/Base.v
theories/BitOps.v
theories/Frame.v
theories/Part.v
theories/Frames.v
theories/Packet.v
theories/Config.v
theories/Writer.v
theories/Reader.v
theories/Encode.v
theories/BaseFacts.v
theories/BitOpsFacts.v
theories/FrameFacts.v
theories/EccSpec.v
theories/EccFacts.v
theories/CrcFacts.v
theories/PartSpec.v
theories/PartFacts.v
theories/PartFromFacts.v
theories/FramesFacts.v
theories/P_Frame.v
theories/P_Part.v
theories/P_Part2.v
theories/PartList.v
theories/PartListSpec.v
theories/P_PartList.v
theories/PacketFacts.v
theories/ContainerSpec.v
theories/WriterFacts.v
theories/ReaderFacts.v
theories/ConfigSpec.v
theories/ConfigFacts.v
theories/EncodeSpec.v
theories/EncodeFacts.v
theories/P_Packet.v
theories/P_Bitstream.v
theories/P_Bitstream2.v
theories/Fasm.v
theories/FasmSpec.v
theories/FasmFacts.v
theories/FasmSafe.v
theories/FasmShape.v
theories/FasmFile.v
theories/FasmLines.v
theories/FasmWrap.v
theories/FasmSkip.v
theories/P_Fasm.v
theories/Absl.v
theories/DbText.v
theories/DbJson.v
theories/Database.v
theories/Assembler.v
theories/AsmSpec.v
theories/MapFacts.v
theories/AsmFacts.v
theories/LookupFacts.v
theories/ProcessFacts.v
theories/StepdownFacts.v
theories/AsmLines.v
theories/AsmWhole.v
theories/RegistryFacts.v
theories/ProcessCrash.v
theories/AsmItems.v
theories/AsmExample.v
theories/P_Assembler.v
theories/P_Assembler2.v
theories/OutcomeFacts.v
theories/P_Assembler3.v
theories/P_Assembler4.v
theories/P_Lookup.v
theories/P_Implied.v
theories/P_Main.v
theories/P_Main2.v
theories/EndSpec.v
theories/EndFacts.v
theories/P_EndToEnd.v
theories/DbSpec.v
theories/DbFacts.v
theories/P_Database.v
theories/YamlFacts.v
theories/P_Database2.v
theories/JsonSpec.v
theories/OrderFacts.v
theories/JsonFacts.v
theories/JsonFacts2.v
theories/P_Database3.v
theories/LoadSpec.v
theories/LoadFacts.v
theories/P_Database4.v
theories/BigEndian.v
theories/BigEndianSpec.v
theories/P_Span.v
theories/Print.v
theories/PrintSpec.v
theories/P_Print.v
theories/DecodeSpec.v
theories/P_Decode.v
theories/SameSpec.v
theories/SameFacts.v
theories/P_Repro.v
theories/ResultSpec.v
theories/ResultFacts.v
theories/P_Result.v
theories/RefuseSpec.v
theories/P_Refuse.v
theories/FasmLog.v
theories/MessageSpec.v
theories/MessageFacts.v
theories/AsmLog.v
theories/P_Messages.v
theories/P_Equiv.v
theories/CrcSpec.v
theories/P_Crc.v
theories/EccCodeSpec.v
theories/P_EccCode.v
theories/Tidy.v
theories/TidyPool.v
theories/TidyFacts.v
theories/TidyInv.v
theories/TidyRun.v
theories/TidySpec.v
theories/TidyKeyFacts.v
theories/TidyReportFacts.v
theories/P_TidyPool.v
theories/P_TidyKey.v
theories/P_TidyReport.v
theories/PlaceSpec.v
theories/PlaceFacts.v
theories/P_Place.v
theories/MainLog.v
theories/MainLogSpec.v
theories/MainLogFacts.v
theories/NoErrFacts.v
theories/P_MainLog.v
theories/CutFacts.v
theories/P_Cut.v
theories/Device.v
theories/DeviceSpec.v
theories/DeviceFacts.v
theories/P_Device.v
theories/Clock.v
theories/ClockSpec.v
theories/ClockFacts.v
theories/P_Clock.v
theories/Opens.v
theories/OpensSpec.v
theories/OpensFacts.v
theories/OpensFacts2.v
theories/P_Opens.v
theories/MapsSpec.v
theories/Maps.v
theories/P_Maps.v
theories/RepoTests.v
theories/RepoTests2.v
theories/LocalSpec.v
theories/P_Local.v
theories/ArchSpec.v
theories/Arch.v
theories/ArchFacts.v
theories/P_Arch.v
theories/TidyCmd.v
theories/TidyCmdSpec.v
theories/TidyCmdFacts.v
theories/P_TidyCmd.v
theories/LoadLog.v
theories/LoadLogSpec.v
theories/LoadLogFacts.v
theories/LoadLogTrue.v
theories/LoadLogTrue2.v
theories/LoadLogTrue3.v
theories/LoadLogRefute.v
theories/P_LoadLog.v
theories/FpgaSpec.v
theories/FpgaFacts.v
theories/FpgaFacts2.v
theories/FpgaFacts3.v
theories/FpgaFacts4.v
theories/P_Fpga.v
theories/P_Fpga2.v
theories/TidyOut.v
theories/TidyOutSpec.v
theories/P_TidyOut.v
theories/SnapSpec.v
theories/SnapFacts.v
theories/P_Snapshot.v
theories/P_Part3.v
theories/P_Packet2.v
theories/P_Cases.v
theories/P_Input.v
theories/FasmTextSpec.v
theories/P_FasmText.v
theories/P_Rows.v
theories/ConsumerSpec.v
theories/P_Consumer.v
theories/GrowthSpec.v
theories/P_Growth.v
theories/ConflictSpec.v
theories/P_Conflict.v
theories/SpellSpec.v
theories/P_Spelling.v
theories/DisasmSpec.v
theories/P_Disasm.v
theories/RewriteSpec.v
theories/P_Rewrite.v
theories/MergeSpec.v
theories/P_Merge.v
theories/DropSpec.v
theories/P_Drop.v
theories/BisectSpec.v
theories/P_Bisect.v
