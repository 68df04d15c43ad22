-Q theories Verif
theories/Base.v
theories/Sha512.v
theories/BaseFacts.v
theories/HashModel.v
theories/HashTreeModel.v
theories/HashSpec.v
theories/HashProofs.v
theories/HashMore.v
theories/HashTreeProofs.v
theories/Properties_Hash.v
theories/EntitiesModel.v
theories/CfbModel.v
theories/CfbProofs.v
theories/FileModel.v
theories/FileSpec.v
theories/FileProofs.v
theories/FilePathSpec.v
theories/FileMore.v
theories/Properties_Libs.v
theories/SignModel.v
theories/SignSpec.v
theories/ToyCurve.v
theories/SignProofs.v
theories/Properties_Sign.v
theories/FloatModel.v
theories/PiastresModel.v
theories/PiastresSpec.v
theories/PiastresProofs.v
theories/Properties_Piastres.v
theories/JsonModel.v
theories/UnicodeSpec.v
theories/UnicodeProofs.v
theories/JsonProofs.v
theories/MemberSpec.v
theories/MemberProofs.v
theories/TimeModel.v
theories/TimeProofs.v
theories/FloatText.v
theories/MemJsonModel.v
theories/CodecProofs.v
theories/MemSpec.v
theories/MemJsonProofs.v
theories/JsonMore.v
theories/JsonFixtures.v
theories/Properties_Json.v
theories/TransferModel.v
theories/TransferProofs.v
theories/TreeCodec.v
theories/StoreModel.v
theories/StoreSpec.v
theories/StoreProofs.v
theories/StoreInvariant.v
theories/StoreHistory.v
theories/StoreTheorems.v
theories/StoreClear.v
theories/StoreRefuted.v
theories/StoreFixtures.v
theories/StoreMore.v
theories/Properties_Store.v
theories/FloatFacts.v
theories/MinerModel.v
theories/MinerSpec.v
theories/MinerProofs.v
theories/MinerMore.v
theories/Properties_Miner.v
theories/BucketModel.v
theories/BucketSpec.v
theories/BucketProofs.v
theories/BucketMore.v
theories/Properties_Bucket.v
theories/IdentityModel.v
theories/IdentitySpec.v
theories/IdentityProofs.v
theories/IdentityMore.v
theories/Properties_Identity.v
theories/PeersModel.v
theories/PeersSpec.v
theories/PeersProofs.v
theories/TrimProofs.v
theories/Properties_Peers.v
theories/AppModel.v
theories/AppSpec.v
theories/AppProofs.v
theories/Properties_App.v
theories/CancelModel.v
theories/CancelSpec.v
theories/CancelProofs.v
theories/Properties_Cancel.v
theories/LedgerSpec.v
theories/LedgerProofs.v
theories/LedgerConserved.v
theories/Properties_Ledger.v
theories/ConcurrentModel.v
theories/ConcurrentSpec.v
theories/ConcurrentProofs.v
theories/ConcurrentInvariant.v
theories/ConcurrentTheorems.v
theories/ConcurrentRefuted.v
theories/ConcurrentMore.v
theories/ConcurrentGenesis.v
theories/Properties_Concurrent.v
theories/NumberTheory.v
theories/Primes25519.v
theories/Field25519.v
theories/EdwardsLaw.v
theories/GroupMultiples.v
theories/Edwards25519Model.v
theories/LittleEndian.v
theories/Edwards25519Proofs.v
theories/Edwards25519More.v
theories/Sha256.v
theories/Ed25519Curve.v
theories/CurveSpec.v
theories/Edwards25519Digits.v
theories/CurveProofs.v
theories/CurveLedger.v
theories/Properties_Curve.v
theories/GoIntModel.v
theories/LimbCode.v
theories/LimbModel.v
theories/LimbSpec.v
theories/GoIntCheck.v
theories/LimbProofs.v
theories/LimbScalars.v
theories/LimbCalls.v
theories/LimbPoints.v
theories/LimbCurve.v
theories/TextSpec.v
theories/LimbTexts.v
theories/Properties_Limb.v
theories/BuilderSpec.v
theories/BuilderProofs.v
theories/Properties_Builders.v
theories/FormatSpec.v
theories/FormatProofs.v
theories/Properties_Format.v
theories/GrammarSpec.v
theories/GrammarProofs.v
theories/Properties_Grammar.v
theories/CalendarSpec.v
theories/CalendarProofs.v
theories/CalendarText.v
theories/Properties_Calendar.v
theories/Properties_Outcomes.v
theories/NumberSpec.v
theories/FloatRound.v
theories/FloatRead.v
theories/FloatSpec.v
theories/FloatValue.v
theories/FloatParse.v
theories/FloatForms.v
theories/FloatShort.v
theories/FloatUnique.v
theories/Properties_Floats.v
theories/KeygenModel.v
theories/KeygenSpec.v
theories/KeygenProofs.v
theories/Blake2Spec.v
theories/Blake2Proofs.v
theories/Properties_Keygen.v
theories/UrlModel.v
theories/UrlSpec.v
theories/UrlProofs.v
theories/UrlParts.v
theories/UrlWhole.v
theories/UrlBack.v
theories/Properties_Url.v
theories/RsaModel.v
theories/RsaSpec.v
theories/RsaNumbers.v
theories/RsaCrypt.v
theories/RsaText.v
theories/RsaKeys.v
theories/RsaExact.v
theories/Properties_Rsa.v
theories/AesModel.v
theories/AesSpec.v
theories/AesField.v
theories/AesBlock.v
theories/AesKey.v
theories/AesCfb.v
theories/AesChange.v
theories/Properties_Aes.v
theories/AddressStore.v
theories/Properties_Address.v
theories/DocumentSpec.v
theories/DocumentProofs.v
theories/Properties_Members.v
theories/PaddingModel.v
theories/PaddingSpec.v
theories/PaddingProofs.v
theories/Properties_Padding.v
theories/StoredSpec.v
theories/StoredProofs.v
theories/StoredCrash.v
theories/Properties_Stored.v
theories/OwnSpec.v
theories/OwnProofs.v
theories/Properties_Own.v
theories/SliceModel.v
theories/SliceProofs.v
theories/Properties_Slices.v
theories/ZoneModel.v
theories/ZoneSpec.v
theories/ZoneProofs.v
theories/Properties_Zones.v
theories/SecretSpec.v
theories/SecretProofs.v
theories/SecretCurve.v
theories/Properties_Secret.v
theories/IndexModel.v
theories/IndexSpec.v
theories/IndexProofs.v
theories/Properties_Index.v
theories/KindSpec.v
theories/KindProofs.v
theories/Properties_Kinds.v
theories/ChangeSpec.v
theories/ChangeProofs.v
theories/ChangeCurve.v
theories/Properties_Changed.v
theories/PointerModel.v
theories/PointerSpec.v
theories/PointerProofs.v
theories/Properties_Pointers.v
