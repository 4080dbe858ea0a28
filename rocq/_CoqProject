-Q theories Verif
theories/Bytes.v
theories/GoErr.v
theories/GoVal.v
theories/Encoder.v
theories/Decoder.v
theories/BytesFacts.v
theories/SpecPack.v
theories/SpecValues.v
theories/SpecGrammar.v
theories/SpecRefuse.v
theories/PackFacts.v
theories/DecodeFacts.v
theories/ValueFacts.v
theories/FrameFacts.v
theories/WriteFacts.v
theories/ReadFacts.v
theories/TotalFacts.v
theories/CutFacts.v
theories/SpecCut.v
theories/CutExact.v
theories/SpecCodec.v
theories/LinkFacts.v
theories/ShapeFacts.v
theories/TimeFacts.v
theories/RecvFacts.v
theories/CodecFacts.v
theories/GrammarFacts.v
theories/RefuseFacts.v
theories/Memory.v
theories/SpecMemory.v
theories/MemoryFacts.v
theories/PropsCodec.v
theories/SpecParse.v
theories/ParseFacts.v
theories/Messages.v
theories/Connection.v
theories/SpecServer.v
theories/Link.v
theories/ExecFacts.v
theories/ServeFacts.v
theories/CallFacts.v
theories/Wire.v
theories/WireFacts.v
theories/Errors.v
theories/SpecSession.v
theories/OpenFacts.v
theories/AnyNetFacts.v
theories/SessionFacts.v
theories/TxFacts.v
theories/WatchFacts.v
theories/SpecTalk.v
theories/TalkFacts.v
theories/WishFacts.v
theories/Demo.v
theories/DemoFacts.v
theories/MessageFacts.v
theories/Result.v
theories/ResultFacts.v
theories/Concurrency.v
theories/ConcurFacts.v
theories/UnguardedFacts.v
theories/Cases.v
theories/CaseFacts.v
theories/SpecEcho.v
theories/EchoFacts.v
theories/SpecTurns.v
theories/TurnFacts.v
theories/SpecDialect.v
theories/DialectFacts.v
theories/PropsMessages.v
theories/SpecReport.v
theories/ReportFacts.v
theories/PropsConnection.v
theories/GoStr.v
theories/Routing.v
theories/Pool.v
theories/SpecPool.v
theories/EraseFacts.v
theories/RoutingFacts.v
theories/PoolFacts.v
theories/LendFacts.v
theories/SteadyFacts.v
theories/WatchPoolFacts.v
theories/RouteFacts.v
theories/SizeFacts.v
theories/LimitFacts.v
theories/RotateFacts.v
theories/ReturnFacts.v
theories/PoolRace.v
theories/RaceFacts.v
theories/ExcludeFacts.v
theories/TableFacts.v
theories/RoundFacts.v
theories/RoundCases.v
theories/DemoPool.v
theories/DemoPoolFacts.v
theories/PoolCases.v
theories/StopCases.v
theories/StartCases.v
theories/TwiceFacts.v
theories/LifeFacts.v
theories/LifeCases.v
theories/Refresher.v
theories/SpecLife.v
theories/RefresherFacts.v
theories/RefresherCases.v
theories/PropsRouting.v
theories/Url.v
theories/Client.v
theories/Log.v
theories/SpecClient.v
theories/UrlFacts.v
theories/ClientFacts.v
theories/ClientCases.v
theories/MiscFacts.v
theories/Texts.v
theories/SpecTexts.v
theories/TextFacts.v
theories/ClientSeedFacts.v
theories/OptionFacts.v
theories/Refusal.v
theories/SpecRefusal.v
theories/RefusalFacts.v
theories/Printout.v
theories/SpecPrintout.v
theories/PrintoutFacts.v
theories/PropsClient.v
theories/Timing.v
theories/SpecTime.v
theories/DeadlineFacts.v
theories/SpecStop.v
theories/GiveUpFacts.v
theories/SendFacts.v
theories/Clock.v
theories/ClockFacts.v
theories/ClockCases.v
theories/SocketRace.v
theories/SocketFacts.v
theories/PropsTime.v
theories/DriverPool.v
theories/SpecDriver.v
theories/DriverFacts.v
theories/DriverHistory.v
theories/DemoDriver.v
theories/DriverUsers.v
theories/SpecUsers.v
theories/UserFacts.v
theories/PropsDriver.v
theories/SpecShare.v
theories/RestFacts.v
theories/ShareCases.v
theories/PrepFacts.v
theories/ShareFacts.v
theories/RouteShare.v
theories/SpecHolder.v
theories/HolderFacts.v
theories/HolderCases.v
theories/PropsHolder.v
theories/SpecDials.v
theories/DialFacts.v
theories/PropsDials.v
theories/DemoShare.v
theories/PropsShare.v
theories/SpecWhole.v
theories/WholeFacts.v
theories/PropsWhole.v
theories/Stdout.v
theories/SpecStdout.v
theories/StdoutFacts.v
theories/PropsStdout.v
theories/Refs.v
theories/SpecRefs.v
theories/RefsFacts.v
theories/FaresFacts.v
theories/PropsRefs.v
theories/SpecSocket.v
theories/HangFacts.v
theories/PropsSocket.v
theories/Settings.v
theories/SpecSettings.v
theories/SettingsFacts.v
theories/SettingsCases.v
theories/PropsSettings.v
theories/SpecJourney.v
theories/JourneyFacts.v
theories/JourneyCases.v
theories/PropsJourney.v
theories/SpecManners.v
theories/TouchFacts.v
theories/MannersFacts.v
theories/CareFacts.v
theories/MannersCases.v
theories/PropsManners.v
theories/SpecBooks.v
theories/BooksFacts.v
theories/AliveFacts.v
theories/BooksCases.v
theories/PropsBooks.v
theories/SpecCrowd.v
theories/CrowdFacts.v
theories/CrowdCases.v
theories/CrowdGrows.v
theories/PropsCrowd.v
theories/SpecThrong.v
theories/ThrongFacts.v
theories/ThrongAlive.v
theories/ThrongCases.v
theories/LeaveGrows.v
theories/PropsThrong.v
theories/SpecCrew.v
theories/CrewFacts.v
theories/CrewSize.v
theories/PropsCrew.v
theories/SpecLeave.v
theories/LeaveFacts.v
theories/LeaveSize.v
theories/LeaveCases.v
theories/PropsLeave.v
theories/SpecKinds.v
theories/KindFacts.v
theories/KindSize.v
theories/KindCases.v
theories/PropsKinds.v
theories/SpecLedger.v
theories/LedgerFacts.v
theories/LedgerStep.v
theories/LedgerRun.v
theories/FirmFacts.v
theories/LedgerCases.v
theories/PropsLedger.v
