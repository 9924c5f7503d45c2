-Q theories Verif
theories/Base.v
theories/BaseFacts.v
theories/Codec.v
theories/CodecFacts.v
theories/Json.v
theories/JsonParse.v
theories/Deps.v
theories/Types.v
theories/Did.v
theories/Keys.v
theories/KeyStore.v
theories/Doc.v
theories/Identity.v
theories/Hashlink.v
theories/UserConnection.v
theories/Proof.v
theories/Vc.v
theories/Suite.v
theories/JsonFacts.v
theories/JsonParseFacts.v
theories/SchemaFacts.v
theories/ParseFacts.v
theories/JsonSpec.v
theories/Spec.v
theories/IdentitySpec.v
theories/Hash.v
theories/HashFacts.v
theories/Demo.v
theories/DemoFacts.v
theories/DidFacts.v
theories/PropsDid.v
theories/IdentityFacts.v
theories/PropsIdentity.v
theories/ShapeFacts.v
theories/ReadFacts.v
theories/DocFacts.v
theories/PropsDoc.v
theories/VcSpec.v
theories/VcFacts.v
theories/PropsVc.v
theories/SuiteSpec.v
theories/SuiteFacts.v
theories/PropsSuite.v
theories/MiscSpec.v
theories/MiscFacts.v
theories/PropsMisc.v
theories/Grammar.v
theories/GrammarFacts.v
theories/TextSpec.v
theories/TextFacts.v
theories/TextDemo.v
theories/PropsText.v
theories/FlowSpec.v
theories/DocTextFacts.v
theories/FlowFacts.v
theories/ExactSpec.v
theories/ExactFacts.v
theories/FlowDemo.v
theories/PropsFlow.v
theories/PropsExact.v
theories/CanonSpec.v
theories/CanonFacts.v
theories/OrderFacts.v
theories/CanonDemo.v
theories/PropsCanon.v
theories/ConnSpec.v
theories/ConnFacts.v
theories/PropsConn.v
theories/GenericSpec.v
theories/GenericFacts.v
theories/PropsGeneric.v
theories/Replay.v
theories/ChainSpec.v
theories/ChainFacts.v
theories/PropsChain.v
theories/BuiltSpec.v
theories/BuiltFacts.v
theories/PropsBuilt.v
theories/DecodeSpec.v
theories/DecodeFacts.v
theories/PropsDecode.v
theories/ErrorText.v
theories/ErrorFacts.v
theories/PropsError.v
theories/VarintSpec.v
theories/VarintFacts.v
theories/PropsVarint.v
theories/DirectSpec.v
theories/DirectFacts.v
theories/PropsDirect.v
theories/SealSpec.v
theories/SealFacts.v
theories/PropsSeal.v
theories/WorldSpec.v
theories/WorldFacts.v
theories/PropsWorld.v
theories/ShortSpec.v
theories/ShortFacts.v
theories/PropsShort.v
theories/Float.v
theories/FloatFacts.v
theories/FloatText.v
theories/FloatSpec.v
theories/FloatLaws.v
theories/FloatWorld.v
theories/FloatDemo.v
theories/PropsFloat.v
theories/Fast.v
theories/FastSpec.v
theories/FastFacts.v
theories/FastDemo.v
theories/PropsFast.v
theories/Time.v
theories/TimeSpec.v
theories/TimeFacts.v
theories/TimeDemo.v
theories/PropsTime.v
theories/Bases.v
theories/BasesSpec.v
theories/BasesFacts.v
theories/BasesDemo.v
theories/PropsBases.v
theories/DigestSpec.v
theories/DigestFacts.v
theories/PropsDigest.v
theories/DigitsSpec.v
theories/DigitsFacts.v
theories/DigitsText.v
theories/DigitsDemo.v
theories/PropsDigits.v
theories/Primes.v
theories/Primes25519.v
theories/Fp.v
theories/Edwards.v
theories/Ed25519.v
theories/Ed25519Spec.v
theories/CurveFacts.v
theories/Ed25519Facts.v
theories/Ed25519Points.v
theories/Ed25519World.v
theories/PropsEd25519.v
theories/Primes1305.v
theories/Aead.v
theories/AeadSpec.v
theories/AeadFacts.v
theories/AeadWorld.v
theories/PropsAead.v
theories/ShaSpec.v
theories/ShaFacts.v
theories/ShaWorld.v
theories/PropsSha.v
theories/ArxSpec.v
theories/ArxFacts.v
theories/ArxWorld.v
theories/PropsArx.v
theories/Pem.v
theories/PemSpec.v
theories/PemFacts.v
theories/Argon2.v
theories/Argon2Spec.v
theories/Argon2Facts.v
theories/Argon2World.v
theories/PemWorld.v
theories/PropsPem.v
theories/WholeSpec.v
theories/WholeFacts.v
theories/PropsWhole.v
theories/Addr.v
theories/AddrSpec.v
theories/AddrFacts.v
theories/AddrDemo.v
theories/PropsAddr.v
theories/SessionSpec.v
theories/SessionFacts.v
theories/PropsSession.v
theories/X25519.v
theories/Montgomery.v
theories/X25519Spec.v
theories/X25519Facts.v
theories/X25519World.v
theories/PropsX25519.v
theories/PropsArgon2.v
theories/Blake2Spec.v
theories/Blake2Facts.v
theories/Blake2World.v
theories/PropsBlake2.v
theories/Peer.v
theories/PeerSpec.v
theories/PeerFacts.v
theories/PropsPeer.v
theories/RawSpec.v
theories/RawFacts.v
theories/PropsRaw.v
theories/MoveSpec.v
theories/MoveFacts.v
theories/PropsMove.v
theories/NameSpec.v
theories/NameFacts.v
theories/PropsName.v
