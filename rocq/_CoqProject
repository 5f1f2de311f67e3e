-Q theories Verif
theories/Prelude.v
theories/PreludeFacts.v
theories/BytesNum.v
theories/BufOutModel.v
theories/BufOut.v
theories/SpecTransducer.v
theories/TransformModel.v
theories/ShortReads.v
theories/Transform.v
theories/TransformTotal.v
theories/BlockModel.v
theories/CipherModel.v
theories/SpecBlock.v
theories/BlockCipher.v
theories/SpecPadding.v
theories/BlockTotal.v
theories/BlockFits.v
theories/Padding.v
theories/SpecModes.v
theories/SpecModesFacts.v
theories/Modes.v
theories/CipherSpec.v
theories/CipherFacts.v
theories/CipherApi.v
theories/History.v
theories/BadRange.v
theories/BufHistory.v
theories/CtrLimit.v
theories/BlockBounds.v
theories/Lawful.v
theories/EncModel.v
theories/SpecEnc.v
theories/Charwise.v
theories/Encodings.v
theories/EncLawful.v
theories/EncTotal.v
theories/EncApi.v
theories/LibTransform.v
theories/ApiFacts.v
theories/StreamHang.v
theories/Toy.v
theories/PropsBuffer.v
theories/EncFacts.v
theories/PropsTransform.v
theories/PropsCipher.v
theories/PropsEnc.v
theories/MiscModel.v
theories/Misc.v
theories/PropsMisc.v
theories/Word.v
theories/HashModel.v
theories/SpecHash.v
theories/MdModel.v
theories/ShaModel.v
theories/HashSpec.v
theories/HashFacts.v
theories/MdHash.v
theories/Sha.v
theories/SpecRipemd.v
theories/RipemdModel.v
theories/Ripemd.v
theories/SpecKeccak.v
theories/KeccakModel.v
theories/Keccak.v
theories/KeccakHash.v
theories/WordIO.v
theories/SpecBlake2.v
theories/Blake2Model.v
theories/Blake2.v
theories/SpecBlake3.v
theories/Blake3Model.v
theories/Blake3.v
theories/Blake3Chunk.v
theories/Blake3Tree.v
theories/Blake3Hash.v
theories/Md5Model.v
theories/Md5.v
theories/HashSize.v
theories/PropsHash.v
theories/SpecMac.v
theories/MacModel.v
theories/Hmac.v
theories/Mac.v
theories/MacApi.v
theories/SipModel.v
theories/Sip.v
theories/HashLib.v
theories/Md5Size.v
theories/PropsMac.v
theories/SpecAes.v
theories/AesField.v
theories/AesModel.v
theories/Aes.v
theories/AesniModel.v
theories/Aesni.v
theories/BlockObj.v
theories/AesApi.v
theories/SpecDes.v
theories/DesModel.v
theories/DesBits.v
theories/Des.v
theories/DesApi.v
theories/SpecBlowfish.v
theories/BlowfishModel.v
theories/Blowfish.v
theories/PropsBlock.v
theories/SpecStream.v
theories/StreamModel.v
theories/StreamObj.v
theories/Rc4.v
theories/Chacha.v
theories/StreamApi.v
theories/PropsStream.v
theories/SpecPoly.v
theories/PolyModel.v
theories/Poly64.v
theories/Poly32.v
theories/Poly.v
theories/SpecGhash.v
theories/GhashModel.v
theories/LinBits.v
theories/Ghash.v
theories/Pclmul.v
theories/PropsGf.v
theories/AuthModel.v
theories/AeadModel.v
theories/SpecAead.v
theories/Auth.v
theories/Gcm.v
theories/GcmObj.v
theories/ChaPoly.v
theories/AuthHash.v
theories/AeadApi.v
theories/PropsAead.v
theories/RngModel.v
theories/SpecRng.v
theories/Rng.v
theories/PropsRng.v
theories/NumTheory.v
theories/BnModel.v
theories/PkModel.v
theories/SpecPk.v
theories/Bn.v
theories/Pk.v
theories/PkGen.v
theories/Pk2.v
theories/Pk3.v
theories/PrimeCert.v
theories/PkCases.v
theories/PropsPk.v
theories/ZlibModel.v
theories/SpecZlib.v
theories/Zlib.v
theories/Zlib2.v
theories/Zlib3.v
theories/ZlibCases.v
theories/PropsZlib.v
theories/GcModel.v
theories/Gc.v
theories/PropsGc.v
theories/SpecWipe.v
theories/WipeSafe.v
theories/WipeCipher.v
theories/WipeHash.v
theories/WipeMac.v
theories/WipeErase.v
theories/WipeMore.v
theories/WipeApi.v
theories/PropsWipe.v
theories/MacCons.v
theories/MacKeys.v
theories/DesParity.v
theories/PropsKey.v
theories/BlockSizes.v
theories/SizeFacts.v
theories/FlushFacts.v
theories/PropsSize.v
theories/KeyStream.v
theories/AeadMore.v
theories/PropsMore.v
theories/Ranges.v
theories/SpecRandom.v
theories/RandomFacts.v
theories/DeriveFacts.v
theories/PropsApi.v
theories/SpecAlias.v
theories/AliasModel.v
theories/Alias.v
theories/PropsAlias.v
theories/SourcesModel.v
theories/Sources.v
theories/PropsSources.v
theories/SpecWipe2.v
theories/WipeComp.v
theories/WipeAuth.v
theories/WipeGcm.v
theories/WipeErase2.v
theories/WipeErase3.v
theories/WipeOnce.v
theories/PropsWipe2.v
theories/WipeBlake3.v
theories/BnHeapModel.v
theories/SpecPkMem.v
theories/BnHeap.v
theories/PkHeap.v
theories/PkHeap2.v
theories/PkHeap3.v
theories/PkHeap4.v
theories/PkHeap5.v
theories/PkHeap6.v
theories/PkHeapCases.v
theories/BnHeapDhModel.v
theories/PkHeap7.v
theories/PropsPkMem.v
theories/BufDropModel.v
theories/SpecDrop.v
theories/BufDrop.v
theories/BufDrop2.v
theories/PropsDrop.v
theories/InPlaceModel.v
theories/SpecInPlace.v
theories/InPlace.v
theories/InPlace2.v
theories/PropsInPlace.v
theories/SpecRefuse.v
theories/Refuse.v
theories/PropsRefuse.v
theories/SpecRngMem.v
theories/RngMemModel.v
theories/RngMem.v
theories/PropsRngMem.v
theories/SpecPlatform.v
theories/PlatformModel.v
theories/Platform.v
theories/PlatformApi.v
theories/XorPlatformModel.v
theories/XorPlatform.v
theories/PropsPlatform.v
theories/SpecWinRng.v
theories/WinRngModel.v
theories/WinRng.v
theories/PropsWinRng.v
theories/SpecZero.v
theories/WipeZero.v
theories/PropsZero.v
theories/Roots.v
theories/Prime1305.v
theories/GfField.v
theories/PolyForge.v
theories/GhashForge.v
theories/SpecForge.v
theories/Forge.v
theories/PropsForge.v
theories/SpecCollide.v
theories/SpecCollide2.v
theories/Collide.v
theories/MdCollide.v
theories/SpongeCollide.v
theories/Blake2Collide.v
theories/Blake3Collide.v
theories/HmacCollide.v
theories/PropsCollide.v
theories/SpecSponge.v
theories/KeccakPerm.v
theories/SpongeInner.v
theories/PropsSponge.v
theories/MacCollide.v
theories/PropsCbcMac.v
theories/SpecDigest.v
theories/DigestSize.v
theories/PropsDigest.v
theories/SpecSameKey.v
theories/SameKey.v
theories/DesInvert.v
theories/PropsSameKey.v
theories/SpecSpread.v
theories/Spread.v
theories/PropsSpread.v
theories/SpecResume.v
theories/Resume.v
theories/ResumeStream.v
theories/PropsResume.v
theories/LentModel.v
theories/SpecLent.v
theories/Lent.v
theories/PropsLent.v
theories/SharedModel.v
theories/SpecShared.v
theories/Shared.v
theories/PropsShared.v
theories/SpecAssoc.v
theories/Assoc.v
theories/PropsAssoc.v
theories/BufWordModel.v
theories/SpecBufWord.v
theories/BufWord.v
theories/PropsBufWord.v
theories/SpecExtend.v
theories/Extend.v
theories/PropsExtend.v
theories/PkRaw.v
theories/PropsRaw.v
theories/SpecOracle.v
theories/Oracle.v
theories/PropsOracle.v
theories/Visible.v
theories/PropsVisible.v
theories/SpecRepeat.v
theories/Repeat.v
theories/PropsRepeat.v
theories/Early.v
theories/PropsEarly.v
theories/SpecLeak.v
theories/LeakModel.v
theories/Leak.v
theories/PropsLeak.v
theories/Crt.v
theories/PropsCrt.v
theories/DhExact.v
theories/PropsDhExact.v
theories/Exact.v
theories/PropsExact.v
theories/RngWipe.v
theories/PropsRngWipe.v
theories/SpecAgain.v
theories/Again.v
theories/SpecMacAgain.v
theories/MacAgain.v
theories/TripleAgain.v
theories/SpecBlake2Again.v
theories/Blake2Again.v
theories/SpecSipAgain.v
theories/SipAgain.v
theories/HmacAgain.v
theories/PropsAgain.v
theories/SpecSession.v
theories/Session.v
theories/SessionMd.v
theories/SessionHmac.v
theories/SessionTriple.v
theories/SpecSipSession.v
theories/SessionSip.v
theories/SpecBlake2Session.v
theories/SessionBlake2.v
theories/PropsSession.v
