-Q theories Verif
theories/Base.v
theories/BaseLemmas.v
theories/Utf8.v
theories/Utf8Spec.v
theories/Utf8_Proofs.v
theories/Iri.v
theories/IriSpec.v
theories/PathClean_Proofs.v
theories/IriObs.v
theories/IriSafeSpec.v
theories/Canon_Proofs.v
theories/Iri_Proofs.v
theories/Iri_Proofs2.v
theories/Iri_Proofs3.v
theories/Iri_Grammar_Proofs.v
theories/Iri_Len_Proofs.v
theories/Iri_Final_Proofs.v
theories/Prop_Iri.v
theories/TwoWay.v
theories/TwoWay_Proofs.v
theories/Compat.v
theories/Compat_Proofs.v
theories/Memmem_Proofs.v
theories/Prop_Compat.v
theories/IriOut.v
theories/IriOutSpec.v
theories/IriOut_Proofs.v
theories/Prop_IriOut.v
theories/Puny.v
theories/PunySpec.v
theories/Puny_Proofs.v
theories/Puny_Proofs2.v
theories/Puny_Safe_Proofs.v
theories/Prop_Puny.v
theories/Conf.v
theories/ConfSpec.v
theories/Prop_Conf.v
theories/Mime.v
theories/MimeSpec.v
theories/Prop_Mime.v
theories/Fcgi.v
theories/FcgiSpec.v
theories/Fcgi_Proofs.v
theories/Prop_Fcgi.v
theories/Fmt.v
theories/FmtSpec.v
theories/Prop_Fmt.v
theories/Iri_Last_Proofs.v
theories/Server.v
theories/ServerSpec.v
theories/Server_Proofs.v
theories/Decide_Proofs.v
theories/RequestSpec.v
theories/Request_Proofs.v
theories/Prop_Server.v
theories/HistorySpec.v
theories/Run_Proofs.v
theories/Wiring_Proofs.v
theories/Hist_Proofs.v
theories/Prop_History.v
theories/SafeSpec.v
theories/Safe_Proofs.v
theories/LegitSpec.v
theories/Legit_Proofs.v
theories/Prop_Safe.v
theories/BodySpec.v
theories/Body_Proofs.v
theories/Prop_Body.v
theories/RelaySpec.v
theories/Relay_Proofs.v
theories/FcgiRelay_Proofs.v
theories/RelayOpen_Proofs.v
theories/Prop_Relay.v
theories/ProxyRelay_Proofs.v
theories/ProxyOpen_Proofs.v
theories/Prop_Proxy.v
theories/ProxyProto.v
theories/ProxyProtoSpec.v
theories/ProxyProto_Proofs.v
theories/ProxyRead_Proofs.v
theories/Prop_ProxyProto.v
theories/Parse.v
theories/Prop_Parse.v
theories/Clients.v
theories/Prop_Clients.v
theories/Config.v
theories/Prop_Config.v
theories/Crypto.v
theories/Prop_Crypto.v
theories/Reload.v
theories/Prop_Reload.v
theories/Imsg.v
theories/Imsg_Proofs.v
theories/Prop_Imsg.v
theories/Proc.v
theories/Prop_Proc.v
theories/Vis.v
theories/VisSpec.v
theories/Vis_Proofs.v
theories/Prop_Vis.v
theories/Log.v
theories/LogSpec.v
theories/Prop_Log.v
theories/Logged_Proofs.v
theories/Prop_Logged.v
theories/Prop_Handshake.v
theories/Tls.v
theories/TlsSpec.v
theories/Tls_Proofs.v
theories/Prop_Tls.v
theories/LiveSpec.v
theories/Live_Proofs.v
theories/Prop_Live.v
theories/Fds.v
theories/FdsSpec.v
theories/Prop_Fds.v
theories/Prop_Split.v
theories/UpTls.v
theories/UpTlsSpec.v
theories/Ups_Proofs.v
theories/Prop_UpTls.v
theories/Lex.v
theories/LexSpec.v
theories/Lex_Proofs.v
theories/Spell_Proofs.v
theories/Prop_Lex.v
theories/Gram.v
theories/GramSpec.v
theories/Gram_Proofs.v
theories/Text_Proofs.v
theories/Mean_Proofs.v
theories/Prop_Gram.v
theories/Gram_Case.v
theories/Lex_Nul.v
theories/WellSpec.v
theories/Well_Proofs.v
theories/Prop_Well.v
theories/Titan.v
theories/TitanSpec.v
theories/Titan_Proofs.v
theories/Prop_Titan.v
theories/Gg.v
theories/GgSpec.v
theories/Gg_Proofs.v
theories/Prop_Gg.v
theories/Splay.v
theories/SplaySpec.v
theories/Splay_Proofs.v
theories/Prop_Splay.v
theories/Ge.v
theories/GeSpec.v
theories/Ge_Proofs.v
theories/GeDir_Proofs.v
theories/Prop_Ge.v
theories/Prop_GeCert.v
theories/Stale.v
theories/Stale_Proofs.v
theories/Prop_Stale.v
theories/Main.v
theories/MainSpec.v
theories/Main_Proofs.v
theories/MainTest_Proofs.v
theories/Prop_Main.v
theories/Prop_MainTest.v
theories/Pid.v
theories/Prop_Pid.v
theories/Opt_Proofs.v
theories/End.v
theories/Prop_End.v
theories/Tailq.v
theories/Tailq_Proofs.v
theories/Prop_Tailq.v
theories/Sandbox.v
theories/Prop_Sandbox.v
theories/Ibuf.v
theories/Prop_Ibuf.v
theories/Arr.v
theories/ArrSpec.v
theories/Arr_Proofs.v
theories/Table_Proofs.v
theories/Scan_Proofs.v
theories/List_Proofs.v
theories/Prop_Arr.v
theories/Keys.v
theories/KeysSpec.v
theories/Keys_Proofs.v
theories/KeysRun_Proofs.v
theories/Prop_Keys.v
theories/Logger.v
theories/LoggerSpec.v
theories/Prop_Logger.v
