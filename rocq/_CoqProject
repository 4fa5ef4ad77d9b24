-Q theories Verif
theories/Bytes.v
theories/BytesFacts.v
theories/Tlv.v
theories/SpecTlv.v
theories/TlvFacts.v
theories/PropsTlv.v
theories/Util.v
theories/Crypto.v
theories/Toy.v
theories/Secret.v
theories/SpecSecret.v
theories/SecretFacts.v
theories/PropsSecret.v
theories/Public.v
theories/SpecPublic.v
theories/PublicFacts.v
theories/PropsPublic.v
theories/Text.v
theories/SpecText.v
theories/TextFacts.v
theories/Auth.v
theories/SpecAuth.v
theories/AuthFacts.v
theories/AuthRuns.v
theories/ToyAuth.v
theories/PropsAuth.v
theories/Base64.v
theories/Base64Facts.v
theories/Json.v
theories/JsonFacts.v
theories/SecretStore.v
theories/SpecStore.v
theories/Utf8Facts.v
theories/StoreFacts.v
theories/StoreHeap.v
theories/SpecStoreHeap.v
theories/StoreHeapFacts.v
theories/Pem.v
theories/PemFacts.v
theories/Der.v
theories/SpecDer.v
theories/DerFacts.v
theories/KeyStore.v
theories/SpecKeyStore.v
theories/KeyStoreFacts.v
theories/KeyStoreLocks.v
theories/SpecJson.v
theories/JsonText.v
theories/Base32.v
theories/SpecBase32.v
theories/Base32Facts.v
theories/SpecCodec.v
theories/CodecFacts.v
theories/ReadLine.v
theories/Cmd.v
theories/Login.v
theories/SpecGo.v
theories/GoFacts.v
theories/GoClaims.v
theories/PropsStore.v
theories/KeyStoreRuns.v
theories/KeyStoreCerts.v
theories/KeyStoreClaims.v
theories/PropsKeyStore.v
theories/PropsJson.v
theories/SpecReadLine.v
theories/ReadLineFacts.v
theories/StoreText.v
theories/SpecCmd.v
theories/CmdFacts.v
theories/CmdSecrets.v
theories/Display.v
theories/CmdSecretsFacts.v
theories/SpecCmdSecrets.v
theories/CmdSecretsClaims.v
theories/PemKeys.v
theories/PemKeysFacts.v
theories/PropsSecretsCmd.v
theories/CmdCli.v
theories/SpecCli.v
theories/CmdCliFacts.v
theories/CmdCliState.v
theories/CmdCliClaims.v
theories/PropsCli.v
theories/SpecShow.v
theories/ShowFacts.v
theories/PropsShow.v
theories/CmdJournal.v
theories/SpecJournal.v
theories/CmdJournalFacts.v
theories/PropsJournal.v
theories/CmdOtp.v
theories/SpecOtp.v
theories/CmdOtpFacts.v
theories/PropsOtp.v
theories/Path.v
theories/SpecPath.v
theories/PathFacts.v
theories/Passcrypt.v
theories/SpecPasscrypt.v
theories/PasscryptFacts.v
theories/PasscryptPackFacts.v
theories/PasscryptDerFacts.v
theories/PasscryptCmdFacts.v
theories/PasscryptOpenFacts.v
theories/PasscryptCopyFacts.v
theories/PasscryptClaims.v
theories/PropsPasscrypt.v
theories/KeySrv.v
theories/SpecKeySrv.v
theories/KeySrvFacts.v
theories/KeySrvRuns.v
theories/KeySrvClaims.v
theories/KeySrvStart.v
theories/PropsKeySrv.v
theories/SpecHttp.v
theories/KeySrvHttp.v
theories/PropsHttp.v
theories/Fcrypt.v
theories/SpecFcrypt.v
theories/FcryptFacts.v
theories/FcryptClaims.v
theories/FcryptStore.v
theories/FcryptFiles.v
theories/Flag.v
theories/Duration.v
theories/Mains.v
theories/SpecFlag.v
theories/SpecMains.v
theories/SpecFcryptLine.v
theories/FcryptLine.v
theories/PropsFcrypt.v
theories/JsonTorn.v
theories/PemText.v
theories/PropsCodec.v
theories/SpecLogin.v
theories/LoginFacts.v
theories/LoginRuns.v
theories/LoginClaims.v
theories/LoginMore.v
theories/PropsLogin.v
theories/SpecLives.v
theories/KeySrvLives.v
theories/FcryptTorn.v
theories/PropsLives.v
theories/TotpUrl.v
theories/SpecUrl.v
theories/TotpUrlFacts.v
theories/TotpUrlClaims.v
theories/PropsUrl.v
theories/FlagFacts.v
theories/DurationFacts.v
theories/MainsFacts.v
theories/PropsFlags.v
theories/Hash.v
theories/Salsa.v
theories/Aes.v
theories/Curve.v
theories/SpecReal.v
theories/RealFacts.v
theories/ToyCurve.v
theories/RealClaims.v
theories/PropsReal.v
theories/Prime.v
theories/Primes.v
theories/Edwards.v
theories/Fp.v
theories/FpFacts.v
theories/Ed25519.v
theories/EdGroup.v
theories/EdOrder.v
theories/EdEnc.v
theories/EdMont.v
theories/EdLaws.v
theories/SpecCurve.v
theories/CurveClaims.v
theories/PropsCurve.v
theories/SpecAes.v
theories/AesFacts.v
theories/AesInverse.v
theories/YubiClaims.v
theories/PropsYubi.v
theories/SpecWritten.v
theories/WrittenClaims.v
theories/PropsWritten.v
theories/PiDigits.v
theories/Bcrypt.v
theories/SpecBcrypt.v
theories/BcryptFacts.v
theories/BcryptClaims.v
theories/PropsBcrypt.v
theories/SpecArchive.v
theories/ArchiveClaims.v
theories/PropsArchive.v
theories/OtpShow.v
theories/SpecOtpShow.v
theories/OtpShowClaims.v
theories/PropsOtpShow.v
theories/JournalTmp.v
theories/SpecJournalTmp.v
theories/JournalTmpClaims.v
theories/PropsJournalTmp.v
theories/Calendar.v
theories/SpecCalendar.v
theories/CalendarFacts.v
theories/CalendarClaims.v
theories/PropsCalendar.v
theories/Listings.v
theories/SpecListings.v
theories/ListingsClaims.v
theories/PropsListings.v
theories/Verbose.v
theories/SpecVerbose.v
theories/VerboseFacts.v
theories/PropsVerbose.v
theories/Routes.v
theories/SpecRoutes.v
theories/RoutesFacts.v
theories/PropsRoutes.v
theories/SpecFraction.v
theories/FractionFacts.v
theories/PropsFraction.v
