-Q theories Verif
theories/Model/Base.v
theories/Model/BytesParser.v
theories/Model/LenEnc.v
theories/Model/Utf8.v
theories/Model/Bitmap.v
theories/Spec/Nums.v
theories/Spec/Decoders.v
theories/Proofs/BaseLemmas.v
theories/Proofs/BytesParserProofs.v
theories/Spec/Codec.v
theories/Proofs/CodecProofs.v
theories/Properties/C01_Integers.v
theories/Properties/C02_ShortReads.v
theories/Spec/LenEncSpec.v
theories/Proofs/LenEncProofs.v
theories/Properties/C03_LenEncInt.v
theories/Properties/C04_LenEncStr.v
theories/Spec/BitmapSpec.v
theories/Proofs/BitmapProofs.v
theories/Properties/C05_Bitmaps.v
theories/Model/Conn.v
theories/Spec/Framing.v
theories/Proofs/ConnProofs.v
theories/Properties/C06_C08_Framing.v
theories/Model/Flags.v
theories/Model/Packet.v
theories/Spec/Wire.v
theories/Proofs/WireLemmas.v
theories/Spec/Packets.v
theories/Proofs/PacketProofs.v
theories/Properties/C09_C13_Packets.v
theories/Model/Auth.v
theories/Spec/AuthSpec.v
theories/Spec/Sha.v
theories/Spec/Session.v
theories/Proofs/AuthProofs.v
theories/Properties/C14_C15_Auth.v
theories/Model/Cmd.v
theories/Spec/Commands.v
theories/Proofs/CmdProofs.v
theories/Properties/C16_C19_Commands.v
theories/Model/Fmt.v
theories/Model/Time.v
theories/Model/Decimal.v
theories/Model/Col.v
theories/Model/Row.v
theories/Model/Stmt.v
theories/Spec/Values.v
theories/Proofs/ValueProofs.v
theories/Spec/Execute.v
theories/Proofs/ExecuteProofs.v
theories/Properties/C20_C24_Values.v
theories/Spec/Temporal.v
theories/Proofs/TimeProofs.v
theories/Properties/C47_C48_Time.v
theories/Spec/DecimalSpec.v
theories/Proofs/DecimalProofs.v
theories/Properties/C37_Decimal.v
theories/Model/Event.v
theories/Spec/BinlogSpec.v
theories/Proofs/EventProofs.v
theories/Properties/C29_C33_Binlog.v
theories/Model/EventBody.v
theories/Model/Rows.v
theories/Spec/EventBodies.v
theories/Spec/BinlogValues.v
theories/Proofs/EventBodyProofs.v
theories/Proofs/BinlogValueProofs.v
theories/Proofs/RowsProofs.v
theories/Properties/C34_C36_Rows.v
theories/Properties/C38_C39_EventBodies.v
theories/Model/Extract.v
theories/Spec/ExtractSpec.v
theories/Proofs/ExtractProofs.v
theories/Properties/C25_C26_Extract.v
theories/Model/Session.v
theories/Spec/ResultSets.v
theories/Proofs/SessionProofs.v
theories/Proofs/CommandProofs.v
theories/Properties/C27_C28_C50_Sessions.v
theories/Model/Transform.v
theories/Spec/SqlSpec.v
theories/Spec/JsonSpec.v
theories/Proofs/CalendarProofs.v
theories/Proofs/SqlProofs.v
theories/Proofs/SqlStmtProofs.v
theories/Proofs/SqlFindings.v
theories/Proofs/JsonProofs.v
theories/Properties/C40_C42_Transform.v
theories/Model/Stream.v
theories/Spec/StreamSpec.v
theories/Proofs/StreamProofs.v
theories/Properties/C43_Stream.v
theories/Model/MyBinlog.v
theories/Model/Tools.v
theories/Spec/DmlSpec.v
theories/Proofs/DmlProofs.v
theories/Properties/C44_Dml.v
theories/Spec/Catalogue.v
theories/Proofs/LocalProofs.v
theories/Proofs/TotalProofs.v
theories/Proofs/PanicProofs.v
theories/Proofs/EventPanicProofs.v
theories/Properties/C45_C46_Decoders.v
theories/Spec/Programs.v
theories/Proofs/ScheduleProofs.v
theories/Proofs/DmlScheduleProofs.v
theories/Properties/C51_C52_Schedules.v
theories/Spec/Hostile.v
theories/Proofs/HostileProofs.v
theories/Properties/C53_C54_Hostile.v
theories/Properties/C06_C43_Surface.v
theories/Spec/Replay.v
theories/Spec/ReplayLog.v
theories/Proofs/ReplayProofs.v
theories/Proofs/ReplayLogProofs.v
theories/Properties/C55_Replay.v
theories/Spec/Echo.v
theories/Proofs/EchoProofs.v
theories/Properties/C56_Echo.v
theories/Conformance/Data.v
theories/Conformance/UnitTests.v
theories/Conformance/Binlogs.v
theories/Spec/ToolSpec.v
theories/Proofs/ToolProofs.v
theories/Proofs/ToolHostile.v
theories/Proofs/ToolSchedule.v
theories/Proofs/CapsProofs.v
theories/Properties/C57_C58_Tools.v
theories/Spec/Failures.v
theories/Spec/Abandon.v
theories/Proofs/FailureProofs.v
theories/Proofs/AbandonProofs.v
theories/Properties/C59_C60_Failures.v
theories/Spec/Unicode.v
theories/Proofs/UnicodeProofs.v
theories/Properties/C61_Text.v
theories/Spec/Scripts.v
theories/Proofs/ScriptProofs.v
theories/Properties/C62_Answers.v
theories/Spec/BothWays.v
theories/Proofs/BothWaysProofs.v
theories/Properties/C63_BothWays.v
theories/Spec/Resume.v
theories/Proofs/ResumeProofs.v
theories/Properties/C64_Resume.v
theories/Spec/Variables.v
theories/Proofs/VariablesProofs.v
theories/Properties/C65_Variables.v
theories/Spec/ServerLog.v
theories/Proofs/ServerLogProofs.v
theories/Proofs/ServerLimitProofs.v
theories/Properties/C66_Replica.v
theories/Spec/StoredValues.v
theories/Proofs/DecimalExact.v
theories/Proofs/TextExact.v
theories/Proofs/ExactProofs.v
theories/Spec/JsonLog.v
theories/Proofs/JsonLogProofs.v
theories/Properties/C67_JsonLog.v
theories/Model/NumFuture.v
theories/Model/StmtDefs.v
theories/Spec/NumFutureSpec.v
theories/Proofs/NumFutureProofs.v
theories/Properties/C68_NumFutures.v
theories/Spec/Sizes.v
theories/Proofs/SizeProofs.v
theories/Proofs/RowSizeProofs.v
theories/Properties/C69_Sizes.v
theories/Spec/Damage.v
theories/Proofs/CrcProofs.v
theories/Proofs/DamageProofs.v
theories/Properties/C70_Damage.v
theories/Proofs/SecretProofs.v
theories/Properties/C71_Secrets.v
theories/Model/Release.v
theories/Spec/ReleaseSpec.v
theories/Proofs/ReleaseProofs.v
theories/Proofs/ReleaseTotal.v
theories/Proofs/ReleasePrograms.v
theories/Properties/C72_Release.v
theories/Model/Execute.v
theories/Spec/ExecuteMany.v
theories/Proofs/ExecuteManyProofs.v
theories/Properties/C73_Executions.v
theories/Spec/Dialogue.v
theories/Proofs/DialogueProofs.v
theories/Properties/C74_Dialogue.v
theories/Spec/Panics.v
theories/Proofs/ExactPanicProofs.v
theories/Properties/C45_Exact.v
theories/Spec/Images.v
theories/Proofs/ImageProofs.v
theories/Properties/C41_C42_Images.v
theories/Spec/Delimited.v
theories/Proofs/DelimitedProofs.v
theories/Properties/C13_C18_Exact.v
theories/Spec/HostileExact.v
theories/Proofs/HostileExactProofs.v
theories/Properties/C53_Exact.v
theories/Spec/Storable.v
theories/Properties/C40_C42_Exact.v
theories/Spec/Accepts.v
theories/Proofs/AcceptsProofs.v
theories/Proofs/AcceptsPackets.v
theories/Proofs/AcceptsRows.v
theories/Properties/C75_Replies.v
theories/Spec/AcceptsEvents.v
theories/Proofs/AcceptsEvents.v
theories/Proofs/AcceptsBodies.v
theories/Properties/C76_Events.v
theories/Spec/AcceptsRowEvents.v
theories/Proofs/AcceptsValues.v
theories/Proofs/AcceptsImages.v
theories/Properties/C77_RowEvents.v
theories/Spec/DumpRequests.v
theories/Proofs/DumpRequestsProofs.v
theories/Properties/C19_Requests.v
theories/Spec/AcceptsFile.v
theories/Proofs/AcceptsFileProofs.v
theories/Properties/C76_Files.v
theories/Spec/Verdicts.v
theories/Proofs/VerdictsProofs.v
theories/Properties/C78_Verdicts.v
theories/Proofs/VerdictsLogin.v
theories/Properties/C78_Login.v
theories/Spec/VerdictsCalls.v
theories/Proofs/VerdictsCalls.v
theories/Properties/C78_Calls.v
theories/Spec/ReleaseAccepts.v
theories/Proofs/ReleaseAccepts.v
theories/Proofs/ReleaseVerdicts.v
theories/Properties/C79_Release.v
theories/Spec/TimeText.v
theories/Proofs/TimeTextProofs.v
theories/Properties/C48_Accepts.v
theories/Spec/ReleaseValues.v
theories/Proofs/ReleaseValues.v
theories/Properties/C79_Values.v
theories/Spec/ReleasePanics.v
theories/Proofs/ReleasePanics.v
theories/Properties/C72_RowPanics.v
theories/Spec/ReleaseEventPanics.v
theories/Proofs/ReleaseEventPanics.v
theories/Properties/C72_EventPanics.v
