-Q theories Verif
theories/Base.v
theories/BaseFacts.v
theories/Hex.v
theories/HexSpec.v
theories/HexFacts.v
theories/Bits.v
theories/BitsSpec.v
theories/BitsFacts.v
theories/PropertiesBits.v
theories/PropertiesHex.v
theories/Str.v
theories/Prims.v
theories/Toy.v
theories/Bip39.v
theories/DictEnglish.v
theories/DictFrench.v
theories/DictJapanese.v
theories/DictKorean.v
theories/DictChineseSimplified.v
theories/DictChineseTraditional.v
theories/DictItalian.v
theories/DictSpanish.v
theories/Dict.v
theories/StrFacts.v
theories/Bip39Spec.v
theories/Bip39Facts.v
theories/DictFacts.v
theories/KeyPath.v
theories/KeyPathSpec.v
theories/KeyPathFacts.v
theories/PropertiesKeyPath.v
theories/Errors.v
theories/XPrv.v
theories/XPrvSpec.v
theories/XPrvFacts.v
theories/Keys.v
theories/KeysSpec.v
theories/KeysFacts.v
theories/SeedFacts.v
theories/PropertiesXPrv.v
theories/PropertiesKeys.v
theories/PropertiesBip39.v
theories/Crypt.v
theories/CryptSpec.v
theories/CryptFacts.v
theories/PropertiesCrypt.v
theories/FMap.v
theories/FMapFacts.v
theories/Base64.v
theories/Json.v
theories/JsonFacts.v
theories/Data.v
theories/DataSpec.v
theories/DataFacts.v
theories/PropertiesData.v
theories/Mnemonic.v
theories/Keychain.v
theories/Manager.v
theories/ManagerSpec.v
theories/ManagerFacts.v
theories/MnemonicFacts.v
theories/WalletFacts.v
theories/HistorySpec.v
theories/HistoryFacts.v
theories/LifeFacts.v
theories/StoryFacts.v
theories/PropertiesManager.v
theories/PropertiesHistory.v
theories/Display.v
theories/Ffi.v
theories/FfiSpec.v
theories/TextFacts.v
theories/FfiFacts.v
theories/FfiTheorems.v
theories/FfiCallSpec.v
theories/FfiCallFacts.v
theories/FfiCheck.v
theories/PropertiesFfi.v
theories/PropertiesCalls.v
theories/Conc.v
theories/ConcSpec.v
theories/ConcFacts.v
theories/ConcTheorems.v
theories/ConcCheck.v
theories/PropertiesConc.v
theories/CodingSpec.v
theories/CodingFacts.v
theories/DictSpec.v
theories/DictWords.v
theories/PropertiesCoding.v
theories/PropertiesDict.v
theories/JsonSpec.v
theories/DocumentSpec.v
theories/JsonReadFacts.v
theories/DocumentFacts.v
theories/PropertiesDocument.v
theories/TextSpec.v
theories/DisplayFacts.v
theories/PhraseFacts.v
theories/SignFacts.v
theories/PropertiesText.v
theories/PropertiesPhrase.v
theories/PropertiesSign.v
theories/InteropSpec.v
theories/InteropFacts.v
theories/PropertiesInterop.v
theories/Lang.v
theories/LangSpec.v
theories/LangFacts.v
theories/PropertiesLang.v
theories/Features.v
theories/FeatureSpec.v
theories/FeatureFacts.v
theories/PropertiesFeatures.v
theories/Raw.v
theories/RawSpec.v
theories/RawFacts.v
theories/RawTheorems.v
theories/RawCheck.v
theories/RawCase.v
theories/PropertiesRaw.v
theories/FfiWalletSpec.v
theories/FfiWalletFacts.v
theories/PropertiesWallet.v
theories/Values.v
theories/ValuesSpec.v
theories/ValuesFacts.v
theories/PropertiesValues.v
theories/Target.v
theories/TargetSpec.v
theories/TargetFacts.v
theories/PropertiesTarget.v
theories/StdHash.v
theories/StdCipher.v
theories/StdCurve.v
theories/Std.v
theories/StdFacts.v
theories/StdVectors.v
theories/PropertiesStd.v
theories/Reads.v
theories/ReadsSpec.v
theories/ReadsFacts.v
theories/PropertiesReads.v
theories/Failing.v
theories/Threads.v
theories/FailingSpec.v
theories/ThreadsSpec.v
theories/FailingFacts.v
theories/ThreadsFacts.v
theories/ThreadsTheorems.v
theories/PropertiesFailing.v
theories/PropertiesThreads.v
theories/RawThreads.v
theories/RawThreadsSpec.v
theories/RawThreadsFacts.v
theories/RawThreadsTheorems.v
theories/PropertiesRawThreads.v
theories/Custom.v
theories/CustomSpec.v
theories/CustomFacts.v
theories/PropertiesCustom.v
theories/LangCode.v
theories/LangCodeSpec.v
theories/LangCodeFacts.v
theories/PropertiesLangCode.v
theories/Serde.v
theories/SerdeSpec.v
theories/SerdeFacts.v
theories/PropertiesSerde.v
theories/PrimeFacts.v
theories/FpFacts.v
theories/GroupFacts.v
theories/EdwardsFacts.v
theories/WeierstrassFacts.v
theories/EdGroupFacts.v
theories/SecpGroupFacts.v
theories/EdSignFacts.v
theories/SecpSignFacts.v
theories/CurveSpec.v
theories/EdCurveFacts.v
theories/SecpCurveFacts.v
theories/SecpEcdsaFacts.v
theories/CurveFacts.v
theories/PropertiesCurve.v
theories/PolyFacts.v
theories/CipherSpec.v
theories/CipherFacts.v
theories/PropertiesCipher.v
theories/Debug.v
theories/DebugSpec.v
theories/DebugFacts.v
theories/PropertiesDebug.v
theories/Order.v
theories/OrderSpec.v
theories/OrderFacts.v
theories/PropertiesOrder.v
theories/ChecksumSpec.v
theories/ChecksumFacts.v
theories/PropertiesChecksum.v
theories/NormalSpec.v
theories/NormalFacts.v
theories/PropertiesNormal.v
