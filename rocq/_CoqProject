-Q theories Verif
theories/Model/Base.v
theories/Model/Parsenum.v
theories/Model/Parsename.v
theories/Spec/Num.v
theories/Spec/Name.v
theories/Proof/Tac.v
theories/Proof/NumP.v
theories/Proof/NameP.v
theories/Props/PropNum.v
theories/Props/PropName.v
theories/Model/Inet.v
theories/Model/InetIsc.v
theories/Model/Parsehostport.v
theories/Spec/Ip.v
theories/Spec/Hostport.v
theories/Proof/HostportP.v
theories/Proof/InetIscP.v
theories/Proof/IpP.v
theories/Props/PropHostport.v
theories/Props/PropIp.v
theories/Model/Str.v
theories/Spec/Text.v
theories/Proof/StrP.v
theories/Props/PropStr.v
theories/Model/Sys.v
theories/Model/Io.v
theories/Model/Framed.v
theories/Spec/Stream.v
theories/Proof/SysP.v
theories/Proof/IoP.v
theories/Proof/FrameP.v
theories/Props/PropIo.v
theories/Model/Buffer.v
theories/Proof/BufferP.v
theories/Props/PropBuffer.v
theories/Model/Stralloc.v
theories/Spec/Grow.v
theories/Proof/StrallocP.v
theories/Props/PropStralloc.v
theories/Model/Proxy.v
theories/Spec/Proxy.v
theories/Proof/ProxyP.v
theories/Props/PropProxy.v
theories/Model/Pem.v
theories/Spec/PemFile.v
theories/Proof/PemP.v
theories/Props/PropPem.v
theories/Model/Log.v
theories/Model/Resolve.v
theories/Model/Fdio.v
theories/Spec/LogText.v
theories/Spec/Resolver.v
theories/Spec/Waiting.v
theories/Proof/LogP.v
theories/Proof/ResolveP.v
theories/Proof/FdioP.v
theories/Props/PropLog.v
theories/Props/PropResolve.v
theories/Props/PropFdio.v
theories/Model/Heap.v
theories/Spec/HeapSpec.v
theories/Proof/HeapP.v
theories/Props/PropHeap.v
theories/Model/Jail.v
theories/Model/Scalar.v
theories/Model/Keyjail.v
theories/Model/Stubs.v
theories/Spec/Restrict.v
theories/Proof/JailP.v
theories/Props/PropJail.v
theories/Model/Conn.v
theories/Spec/Descriptors.v
theories/Spec/Attempt.v
theories/Proof/ConnP.v
theories/Props/PropConn.v
theories/Model/Config.v
theories/Spec/Settings.v
theories/Proof/ConfigP.v
theories/Props/PropConfig.v
theories/Model/Choose.v
theories/Model/Smtp.v
theories/Spec/Choice.v
theories/Spec/Curve.v
theories/Spec/Protocol.v
theories/Spec/InStep.v
theories/Spec/SmtpSpec.v
theories/Proof/CallsP.v
theories/Proof/ChooseP.v
theories/Proof/ScalarP.v
theories/Proof/WaitsP.v
theories/Proof/KeyjailP.v
theories/Proof/DialogueP.v
theories/Proof/StubsP.v
theories/Proof/InStepP.v
theories/Proof/SmtpIoP.v
theories/Proof/SmtpStP.v
theories/Proof/SmtpP.v
theories/Proof/SmtpReplyP.v
theories/Proof/SmtpCmdP.v
theories/Proof/SmtpTalkP.v
theories/Proof/SmtpPolicyP.v
theories/Proof/SmtpSessP.v
theories/Props/PropChoose.v
theories/Props/PropScalar.v
theories/Props/PropKeyjail.v
theories/Props/PropInStep.v
theories/Spec/SmtpView.v
theories/Proof/SmtpViewP.v
theories/Proof/SmtpFactsP.v
theories/Proof/PlayP.v
theories/Props/PropSmtp.v
theories/Model/Relay.v
theories/Spec/Flow.v
theories/Spec/Farewell.v
theories/Proof/WpP.v
theories/Proof/TcpP.v
theories/Props/PropTcp.v
theories/Model/Session.v
theories/Spec/Starttls.v
theories/Spec/Scan.v
theories/Proof/CurP.v
theories/Proof/ClearP.v
theories/Props/PropClear.v
theories/Model/Tlsphase.v
theories/Model/Ending.v
theories/Spec/Tlsrelay.v
theories/Proof/TlsphaseP.v
theories/Props/PropTlsphase.v
theories/Props/PropScan.v
theories/Model/Applet.v
theories/Model/Conninfo.v
theories/Model/Options.v
theories/Spec/Endpoints.v
theories/Spec/Cmdline.v
theories/Props/PropApplet.v
theories/Props/PropConninfo.v
theories/Proof/OptionsP.v
theories/Props/PropOptions.v
theories/Model/Profile.v
theories/Model/Main.v
theories/Spec/Process.v
theories/Proof/SafeP.v
theories/Proof/MainCallsP.v
theories/Proof/MainP.v
theories/Proof/PerformP.v
theories/Props/PropMain.v
theories/Props/PropProfile.v
theories/Spec/Program.v
theories/Spec/Fdtable.v
theories/Proof/ChildP.v
theories/Proof/ConnFailP.v
theories/Proof/DescP.v
theories/Proof/ToldP.v
theories/Props/PropDesc.v
theories/Props/PropProgram.v
theories/Model/Getopt.v
theories/Model/Lookup.v
theories/Model/Tcpmain.v
theories/Model/Smtpmain.v
theories/Spec/Words.v
theories/Proof/GetoptP.v
theories/Props/PropCommands.v
theories/Spec/Forward.v
theories/Proof/ForwardP.v
theories/Proof/TcpJailP.v
theories/Proof/BlameP.v
theories/Proof/QuitP.v
theories/Proof/ProfileP.v
theories/Proof/UsesP.v
theories/Proof/TcpmainP.v
theories/Proof/TcpDestP.v
theories/Proof/HelperP.v
theories/Proof/TcpHelpP.v
theories/Props/PropTcpmain.v
theories/Props/PropForward.v
theories/Spec/Server.v
theories/Proof/ServerP.v
theories/Proof/SmtpCallsP.v
theories/Proof/SmtpJailP.v
theories/Props/PropSmtpmain.v
theories/Spec/Mailer.v
theories/Spec/Blame.v
theories/Spec/Quit.v
theories/Spec/Engine.v
theories/Spec/Watchdog.v
theories/Proof/SmtpResolveP.v
theories/Proof/SmtpDestP.v
theories/Proof/SmtpmainP.v
theories/Proof/SmtpHelpP.v
theories/Props/PropMailer.v
theories/Model/Certs.v
theories/Spec/Pemobj.v
theories/Proof/CertsP.v
theories/Props/PropCerts.v
theories/Proof/WatchdogP.v
theories/Proof/ChildClockP.v
theories/Props/PropWatchdog.v
theories/Spec/Clocks.v
theories/Proof/ClocksP.v
theories/Props/PropClocks.v
theories/Spec/Spin.v
theories/Proof/SpinP.v
theories/Props/PropSpin.v
theories/Spec/Secrets.v
theories/Proof/SecretsP.v
theories/Props/PropSecrets.v
theories/Spec/Tlsdone.v
theories/Proof/TlsdoneP.v
theories/Props/PropTlsdone.v
theories/Spec/Sound.v
theories/Proof/SoundP.v
theories/Proof/SoundMainP.v
theories/Props/PropSound.v
theories/Model/Logip.v
theories/Spec/Logaddr.v
theories/Proof/LogipP.v
theories/Props/PropLogip.v
theories/Spec/Waits.v
theories/Spec/Inject.v
theories/Props/PropInject.v
theories/Props/PropInjectMain.v
theories/Props/PropEnding.v
theories/Props/PropChain.v
theories/Props/PropChainMain.v
theories/Props/PropThrough.v
theories/Proof/DeadlockP.v
theories/Props/PropDeadlock.v
theories/Props/PropAsked.v
theories/Props/PropAnswer.v
