-Q theories Verif
theories/Base.v
theories/Key.v
theories/Match.v
theories/Stage.v
theories/KeyNames.v
theories/Text.v
theories/ParseSeq.v
theories/Config.v
theories/MultiStage.v
theories/Server.v
theories/Replay.v
theories/TestConfig.v
theories/TestStage.v
theories/TestServer.v
theories/MatchProofs.v
theories/MatchSpec.v
theories/MatchLang.v
theories/MatchGroup.v
theories/MatchMore.v
theories/StageFrame.v
theories/StageTerm.v
theories/StageSpec.v
theories/StageSafe.v
theories/StageOut.v
theories/StageShape.v
theories/StageRound.v
theories/StageRel.v
theories/StuckSpec.v
theories/StuckMatch.v
theories/StageStuck.v
theories/Properties.v
theories/StageProperties.v
theories/StuckProperties.v
theories/UntouchedSpec.v
theories/StageUntouched.v
theories/StageHeld.v
theories/UntouchedProperties.v
theories/StageRoute.v
theories/RouteProperties.v
theories/PassSpec.v
theories/StagePass.v
theories/PassProperties.v
theories/MultiSpec.v
theories/MultiProofs.v
theories/MultiProperties.v
theories/ServerSpec.v
theories/ServerProofs.v
theories/ServerQueue.v
theories/ServerFlush.v
theories/ServerLoop.v
theories/ServerVirtual.v
theories/ServerLift.v
theories/ServerInput.v
theories/ServerSafe.v
theories/ServerReset.v
theories/ServerTime.v
theories/ServerProperties.v
theories/Serial.v
theories/SerialSpec.v
theories/SerialProofs.v
theories/SerialStream.v
theories/SerialLocal.v
theories/SerialProperties.v
theories/Client.v
theories/ClientSpec.v
theories/ClientProofs.v
theories/ClientContexts.v
theories/ClientControl.v
theories/ClientInject.v
theories/ClientProperties.v
theories/Ctl.v
theories/CtlSpec.v
theories/CtlLink.v
theories/CtlSystem.v
theories/CtlExchange.v
theories/CtlResults.v
theories/CtlTimeout.v
theories/CtlCheck.v
theories/CtlLine.v
theories/CtlProperties.v
theories/TextSpec.v
theories/TextProofs.v
theories/ParseProofs.v
theories/ParseSpec.v
theories/ParseOutput.v
theories/ParseInput.v
theories/ParseProperties.v
theories/ConfigShape.v
theories/ConfigParse.v
theories/ConfigSpec.v
theories/ConfigProofs.v
theories/ConfigLogical.v
theories/ConfigForward.v
theories/ConfigLoad.v
theories/ConfigProperties.v
theories/MacroSpec.v
theories/MacroTokens.v
theories/MacroProofs.v
theories/MacroCalls.v
theories/ConfigTerm.v
theories/MacroProperties.v
theories/ExprSpec.v
theories/ExprProofs.v
theories/ExprProperties.v
theories/ExpandSpec.v
theories/ExpandBuiltin.v
theories/ExpandProofs.v
theories/FileSpec.v
theories/FileStore.v
theories/FileHeader.v
theories/FileLines.v
theories/FileProofs.v
theories/FileProperties.v
theories/Device.v
theories/DeviceSpec.v
theories/DeviceProofs.v
theories/DeviceWheel.v
theories/ServerStrokes.v
theories/DeviceProperties.v
theories/ServerPass.v
theories/ThroughProperties.v
theories/StuckStagesSpec.v
theories/StuckStages.v
theories/StuckServerSpec.v
theories/ServerStuck.v
theories/StuckServerProperties.v
theories/Typer.v
theories/TyperSpec.v
theories/TyperProofs.v
theories/TyperServer.v
theories/TyperXkb.v
theories/TyperProperties.v
theories/TyperComposeSpec.v
theories/TyperComposeProofs.v
theories/TyperComposeProperties.v
theories/CommandSpec.v
theories/CommandProofs.v
theories/CommandProperties.v
theories/Grab.v
theories/GrabSpec.v
theories/GrabProofs.v
theories/GrabRun.v
theories/GrabAlign.v
theories/GrabProperties.v
theories/Session.v
theories/SessionSpec.v
theories/SessionProofs.v
theories/SessionRun.v
theories/SessionProperties.v
theories/Focus.v
theories/FocusSpec.v
theories/FocusProofs.v
theories/FocusClient.v
theories/FocusRun.v
theories/FocusProperties.v
theories/AnySpec.v
theories/AnyProofs.v
theories/AnyProperties.v
theories/ClientMain.v
theories/ClientMainSpec.v
theories/ClientMainProofs.v
theories/ClientMainProperties.v
theories/LoadSpec.v
theories/LoadDefined.v
theories/LoadProperties.v
theories/WinServer.v
theories/WinSpec.v
theories/WinProofs.v
theories/WinKeeps.v
theories/WinClosed.v
theories/WinProperties.v
theories/WinInput.v
theories/WinInputSpec.v
theories/WinInputProofs.v
theories/WinTyped.v
theories/WinDevices.v
theories/WinDevicesSpec.v
theories/WinDevicesProofs.v
theories/WinInputProperties.v
theories/Mac.v
theories/MacSpec.v
theories/MacProofs.v
theories/MacTyper.v
theories/MacTyperSpec.v
theories/MacTyperProofs.v
theories/MacProperties.v
theories/KeyNameSpec.v
theories/KeyNameProperties.v
theories/WinCommand.v
theories/WinCommandSpec.v
theories/WinCommandProperties.v
theories/Host.v
theories/HostSpec.v
theories/HostProperties.v
theories/WinClient.v
theories/WinClientSpec.v
theories/WinClientProofs.v
theories/WinClientProperties.v
theories/StringInputSpec.v
theories/StringInputProofs.v
theories/StringInputProperties.v
theories/TriggerSpec.v
theories/TriggerProofs.v
theories/TriggerProperties.v
theories/Tray.v
theories/TraySpec.v
theories/TrayProofs.v
theories/TrayProperties.v
theories/MacFocus.v
theories/MacFocusProperties.v
theories/KeyInfoSpec.v
theories/KeyInfoProofs.v
theories/KeyInfoProperties.v
theories/ServerWait.v
theories/WaitProperties.v
theories/AskedProperties.v
theories/StaleProperties.v
theories/TypeCommand.v
theories/TypeCommandProperties.v
theories/RestProperties.v
theories/HostName.v
theories/HostNameProperties.v
theories/ErrorPlace.v
theories/ErrorPlaceProperties.v
theories/KnownProperties.v
