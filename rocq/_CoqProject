-Q theories Verif
theories/Base.v
theories/BaseFacts.v
theories/Data.v
theories/Types.v
theories/Spec.v
theories/MKex.v
theories/MUserAuth.v
theories/MChannel.v
theories/MMessage.v
theories/MSession.v
theories/DataFacts.v
theories/MsgFacts.v
theories/MsgThm.v
theories/MsgThm2.v
theories/MsgThm3.v
theories/PropMsg.v
theories/Packet.v
theories/SpecPacket.v
theories/PacketFacts.v
theories/PacketThm.v
theories/PropPacket.v
theories/Channel.v
theories/SpecChannel.v
theories/ChannelFacts.v
theories/ChannelThm.v
theories/RxThm.v
theories/PropChannel.v
theories/Ident.v
theories/SpecIdent.v
theories/IdentThm.v
theories/PropIdent.v
theories/Kex.v
theories/SpecKex.v
theories/KexThm.v
theories/Host.v
theories/SpecHost.v
theories/HostThm.v
theories/HostThm2.v
theories/HostToy.v
theories/PropHost.v
theories/Auth.v
theories/SpecAuth.v
theories/ConnFacts.v
theories/AuthThm.v
theories/AuthThm2.v
theories/AuthToy.v
theories/PropAuth.v
theories/Arena.v
theories/Session.v
theories/SpecSession.v
theories/ArenaThm.v
theories/SessionThm.v
theories/SessionThm2.v
theories/SessionThm3.v
theories/SessionThm4.v
theories/SessionThm5.v
theories/SessionThm6.v
theories/SessionThm7.v
theories/SessionToy.v
theories/PropSession.v
theories/SpecStream.v
theories/HostThm3.v
theories/AuthThm3.v
theories/SessionThm8.v
theories/PropStream.v
theories/Sync.v
theories/SpecSync.v
theories/SyncThm.v
theories/PropSync.v
theories/Scp.v
theories/SpecScp.v
theories/ScpThm.v
theories/ScpThm2.v
theories/PropScp.v
theories/Sshd.v
theories/SpecSshd.v
theories/SshdThm.v
theories/SshdThm2.v
theories/PropSshd.v
theories/Server.v
theories/SpecServer.v
theories/ServerThm.v
theories/PropServer.v
theories/SpecLeak.v
theories/LeakThm.v
theories/PropLeak.v
theories/Cancel.v
theories/SpecCancel.v
theories/CancelThm.v
theories/CancelThm2.v
theories/CancelThm3.v
theories/CancelThm4.v
theories/PropCancel.v
theories/Broken.v
theories/SpecBroken.v
theories/BrokenThm.v
theories/BrokenThm2.v
theories/BrokenThm3.v
theories/PropBroken.v
theories/SpecSession2.v
theories/SessionThm9.v
theories/SessionThm10.v
theories/PropSession2.v
theories/SpecCancel2.v
theories/CancelThm5.v
theories/CancelThm6.v
theories/CancelThm7.v
theories/CancelThm8.v
theories/PropCancel2.v
theories/Faults.v
theories/SpecFaults.v
theories/FaultsThm.v
theories/FaultsThm2.v
theories/FaultsThm3.v
theories/PropFaults.v
theories/Async.v
theories/SpecAsync.v
theories/AsyncThm.v
theories/AsyncThm2.v
theories/AsyncThm3.v
theories/AsyncThm4.v
theories/AsyncThm5.v
theories/AsyncThm6.v
theories/PropAsync.v
theories/SpecMore.v
theories/IdentThm2.v
theories/SyncThm2.v
theories/StrongThm.v
theories/PropMore.v
theories/SpecSec.v
theories/SecThm.v
theories/SecThm2.v
theories/PropSec.v
theories/Login.v
theories/SpecLogin.v
theories/LoginThm.v
theories/LoginThm2.v
theories/LoginThm3.v
theories/LoginThm4.v
theories/LoginThm5.v
theories/PropLogin.v
theories/Prim.v
theories/SpecPrim.v
theories/PrimThm.v
theories/PrimeThm.v
theories/PolyThm.v
theories/PolyThm2.v
theories/PrimThm2.v
theories/PropPrim.v
theories/EdThm.v
theories/FieldThm.v
theories/DhThm.v
theories/OrderThm.v
theories/SpecDh.v
theories/DhThm2.v
theories/PropDh.v
theories/Sig.v
theories/SpecSig.v
theories/SigThm.v
theories/SigThm2.v
theories/SigThm3.v
theories/PropSig.v
theories/ScpMain.v
theories/SpecScpMain.v
theories/ScpMainThm.v
theories/PropScpMain.v
theories/OfferThm.v
theories/PropOffer.v
theories/TargetThm.v
theories/PropTarget.v
