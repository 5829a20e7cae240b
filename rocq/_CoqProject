-Q theories Verif

theories/Bytes.v
theories/Utf8.v
theories/Base64.v
theories/Num.v
theories/Types.v
theories/World.v
theories/Mechname.v
theories/Simple.v
theories/OAuth.v
theories/ScramParser.v
theories/Scram.v
theories/Gssapi.v
theories/Session.v
theories/Registry.v
theories/Apps.v
theories/BytesFacts.v
theories/Base64Facts.v
theories/NumFacts.v
theories/CallbackSpec.v
theories/WorldFacts.v
theories/Spec_Basic.v
theories/Spec_Callback.v
theories/ExampleEnv.v
theories/Spec_Wire.v
theories/Proof_Wire.v
theories/Proof_Basic.v
theories/Proof_Callback.v
theories/Props_Wire.v
theories/Props_Basic.v
theories/Props_Callback.v
theories/Frame.v
theories/MonadFacts.v
theories/Calm.v
theories/Spec_Registry.v
theories/Proof_Registry.v
theories/Props_Registry.v
theories/Spec_Docs.v
theories/Spec_Order.v
theories/Proof_Order.v
theories/Props_Order.v
theories/Spec_Simple.v
theories/Proof_Simple.v
theories/Props_Simple.v
theories/Spec_Session.v
theories/Sim.v
theories/Local.v
theories/Proof_Session.v
theories/Props_Session.v
theories/Spec_OAuth.v
theories/Utf8Facts.v
theories/Proof_OAuth.v
theories/Props_OAuth.v
theories/Utf8Chars.v
theories/Spec_ScramText.v
theories/Proof_ScramText.v
theories/Props_ScramText.v
theories/Spec_Scram.v
theories/Proof_Scram.v
theories/Proof_ScramRun.v
theories/Proof_ScramMain.v
theories/Proof_ScramErrors.v
theories/Proof_ScramPanic.v
theories/Proof_Credentials.v
theories/Proof_ScramProps.v
theories/Proof_ScramCor.v
theories/ExampleScram.v
theories/Props_Scram.v
theories/Props_ScramExchange.v
theories/Props_ScramErrors.v
theories/Spec_History.v
theories/Triple.v
theories/Proof_History.v
theories/Proof_Recover.v
theories/Spec_Gssapi.v
theories/Proof_Gssapi.v
theories/Proof_Utf8.v
theories/Proof_Text.v
theories/Proof_Docs.v
theories/Props_Text.v
theories/Props_Docs.v
theories/Props_History.v
theories/Props_Gssapi.v
theories/Spec_Apps.v
theories/Proof_Apps.v
theories/Props_Apps.v
theories/Spec_Errors.v
theories/Proof_Errors.v
theories/Props_Errors.v
theories/Spec_Talk.v
theories/Proof_Talk.v
theories/Props_Talk.v
theories/Sha.v
theories/Spec_Rfc.v
theories/Proof_Sha.v
theories/Props_Sha.v
theories/Spec_Flow.v
theories/Proof_Flow.v
theories/Props_Flow.v
theories/Interop.v
theories/Spec_Net.v
theories/Spec_Interop.v
theories/Proof_Net.v
theories/Proof_ScramEnd.v
theories/Proof_Interop.v
theories/Props_ScramEnd.v
theories/Props_Interop.v
theories/Spec_Agree.v
theories/Proof_Agree.v
theories/Props_Agree.v
theories/Spec_GssPair.v
theories/Proof_GssPair.v
theories/Props_GssPair.v
theories/RepoTests.v
theories/Json.v
theories/Spec_Json.v
theories/Proof_Json.v
theories/Proof_JsonWrite.v
theories/Props_Json.v
theories/Spec_Keys.v
theories/Proof_Keys.v
theories/Props_Keys.v
theories/Spec_Random.v
theories/Proof_Random.v
theories/Props_Random.v
theories/Spec_Policy.v
theories/Proof_Policy.v
theories/Props_Policy.v
theories/Spec_Size.v
theories/Proof_Size.v
theories/Props_Size.v
theories/Spec_Grammar.v
theories/Proof_Grammar.v
theories/Props_Grammar.v
theories/Spec_Bearer.v
theories/Proof_Bearer.v
theories/Props_Bearer.v
theories/Spec_SimpleText.v
theories/Proof_SimpleText.v
theories/Props_SimpleText.v
theories/ChannelBindings.v
theories/Proof_Channel.v
theories/Props_Channel.v
theories/Spec_Prefer.v
theories/Proof_Prefer.v
theories/Props_Prefer.v
theories/Spec_Abort.v
theories/Proof_Abort.v
theories/Props_Abort.v
theories/Spec_Peer.v
theories/Proof_Peer.v
theories/Props_Peer.v
theories/Spec_Evidence.v
theories/Proof_Evidence.v
theories/Props_Evidence.v
theories/Spec_Failed.v
theories/Proof_Failed.v
theories/Props_Failed.v
theories/Spec_Confuse.v
theories/Proof_Confuse.v
theories/Props_Confuse.v
theories/Spec_Creds.v
theories/Proof_Creds.v
theories/Props_Creds.v
theories/Spec_Role.v
theories/Proof_Role.v
theories/Props_Role.v
theories/Step64.v
theories/Spec_Step64.v
theories/Proof_Step64.v
theories/Props_Step64.v
theories/Spec_Answer.v
theories/Proof_Answer.v
theories/Props_Answer.v
theories/Features.v
theories/Spec_Features.v
theories/Proof_Features.v
theories/Props_Features.v
theories/Erased.v
theories/Spec_Erased.v
theories/Proof_Erased.v
theories/Props_Erased.v
theories/Custom.v
theories/Spec_Custom.v
theories/Proof_Custom.v
theories/Proof_Coded.v
theories/Props_Custom.v
theories/Proof_Primer.v
theories/Props_Primer.v
theories/Process.v
theories/Spec_Process.v
theories/Proof_Shift.v
theories/Proof_Process.v
theories/Props_Process.v
theories/Spec_Stream.v
theories/Proof_Stream.v
theories/Props_Stream.v
theories/Proof_GssSingle.v
theories/Props_GssSingle.v
theories/Selectors.v
theories/Spec_Selectors.v
theories/Proof_Selectors.v
theories/Props_Selectors.v
theories/Spec_Sent.v
theories/Proof_Sent.v
theories/Props_Sent.v
theories/Spec_Nonce.v
theories/Proof_Nonce.v
theories/Props_Nonce.v
theories/DocLoop.v
theories/Proof_DocLoop.v
theories/Props_DocLoop.v
theories/Spec_Derive.v
theories/Proof_Derive.v
theories/Props_Derive.v
theories/Display.v
theories/Spec_Display.v
theories/Proof_Display.v
theories/Props_Display.v
theories/Spec_Early.v
theories/Proof_Early.v
theories/Props_Early.v
theories/Spec_Hear.v
theories/Proof_Hear.v
theories/Props_Hear.v
theories/Spec_Show.v
theories/Proof_Show.v
theories/Props_Show.v
theories/Spec_Utter.v
theories/Proof_Utter.v
theories/Props_Utter.v
theories/Spec_Clear.v
theories/Proof_Clear.v
theories/Props_Clear.v
theories/TestUtils.v
theories/Proof_TestUtils.v
theories/Props_TestUtils.v
theories/Spec_Pieces.v
theories/Proof_Pieces.v
theories/Props_Pieces.v
theories/Spec_Lines.v
theories/Proof_Lines.v
theories/Props_Lines.v
theories/Spec_Locks.v
theories/Proof_Locks.v
theories/Props_Locks.v
theories/Api.v
theories/Spec_Api.v
theories/Proof_Api.v
theories/Props_Api.v
theories/Spec_Decline.v
theories/Proof_Decline.v
theories/Props_Decline.v
theories/Mains.v
theories/Spec_Mains.v
theories/Proof_Mains.v
theories/Props_Mains.v
theories/Spec_Authzid.v
theories/Proof_Blind.v
theories/Proof_Authzid.v
theories/Props_Authzid.v
theories/Spec_Empty.v
theories/Proof_Empty.v
theories/Props_Empty.v
theories/Spec_Names.v
theories/Proof_Names.v
theories/Props_Names.v
theories/Spec_Secrets.v
theories/Proof_Secrets.v
theories/Props_Secrets.v
theories/Spec_Outlet.v
theories/Proof_Outlet.v
theories/Props_Outlet.v
theories/Spec_Asked.v
theories/Proof_Asked.v
theories/Props_Asked.v
