-Q theories Verif
theories/Base.v
theories/Crypto.v
theories/Policy.v
theories/Tools.v
theories/Sharing.v
theories/Spec.v
theories/Poly.v
theories/PolicyProofs.v
theories/SharingProofs.v
theories/Msp.v
theories/MspProofs.v
theories/Dnf.v
theories/Symmetric.v
theories/Peg.v
theories/Grammar.v
theories/Parse.v
theories/PegProofs.v
theories/ParseProofs.v
theories/ParseText.v
theories/ParseHuman.v
theories/Cost.v
theories/CostProofs.v
theories/CostJson.v
theories/Layout.v
theories/LexProofs.v
theories/LayoutProofs.v
theories/JsonLayoutProofs.v
theories/SizeProofs.v
theories/SerializeExact.v
theories/DepthProofs.v
theories/SchemeLib.v
theories/CoreProofs.v
theories/PruneMinimal.v
theories/Files.v
theories/Utf8Proofs.v
theories/FilesProofs.v
theories/Bsw.v
theories/BswProofs.v
theories/Ghw11.v
theories/Ghw11Proofs.v
theories/Lsw.v
theories/LswProofs.v
theories/Yct14.v
theories/Yct14Proofs.v
theories/Ac17.v
theories/Ac17Proofs.v
theories/Aw11.v
theories/Aw11Proofs.v
theories/DnfProofs.v
theories/Bdabe.v
theories/BdabeProofs.v
theories/Mke08.v
theories/Mke08Proofs.v
theories/DnfExact.v
theories/EdgeProofs.v
theories/TruncationProofs.v
theories/RobustProofs.v
theories/ValueProofs.v
theories/MspText.v
theories/MspTextProofs.v
theories/OrderProofs.v
theories/TotalProofs.v
theories/HashFail.v
theories/EquationProofs.v
theories/AcEquationProofs.v
theories/ChainProofs.v
theories/RerandProofs.v
theories/RecoverProofs.v
theories/LswNegation.v
theories/ExactProofs.v
theories/AcExactProofs.v
theories/Instance.v
theories/Primes.v
theories/BnInstance.v
theories/Sessions.v
theories/SessionProofs.v
theories/Witnesses.v
theories/Borsh.v
theories/BorshProofs.v
theories/BorshExact.v
theories/Console.v
theories/WordProofs.v
theories/ConsoleProofs.v
theories/ConsoleWitnesses.v
theories/ConsoleFiles.v
theories/CommandLine.v
theories/DependProofs.v
theories/Refusals.v
theories/PropertiesPolicy.v
theories/PropertiesSharing.v
theories/PropertiesSchemes.v
theories/PropertiesMisc.v
theories/PropertiesAttacks.v
theories/PropertiesConsole.v
theories/PropertiesCommand.v
theories/BnWitnesses.v
theories/PropertiesField.v
theories/Generic.v
theories/Views.v
theories/GenericProofs.v
theories/GenericDnfProofs.v
theories/GenericWitnesses.v
theories/PropertiesGeneric.v
theories/Insiders.v
theories/InsiderProofs.v
theories/InsiderDnfProofs.v
theories/InsiderWitnesses.v
theories/PropertiesInsider.v
theories/Errors.v
theories/ErrorProofs.v
theories/PropertiesError.v
theories/Payloads.v
theories/PayloadProofs.v
theories/UniformProofs.v
theories/UniformWitnesses.v
theories/PropertiesPayload.v
theories/Mixing.v
theories/MixingProofs.v
theories/PropertiesMixing.v
theories/Sha3.v
theories/Gcm.v
theories/PrimitiveSpec.v
theories/PrimitiveProofs.v
theories/RealInstance.v
theories/PropertiesReal.v
theories/Blending.v
theories/BlendingProofs.v
theories/PropertiesBlending.v
theories/Serde.v
theories/SerdeProofs.v
theories/SerdeTypes.v
theories/SerdeExact.v
theories/SerdeConsole.v
theories/PropertiesSerde.v
theories/SerdeLayout.v
theories/SerdeResult.v
theories/Lengths.v
theories/LengthsProofs.v
theories/PropertiesLengths.v
theories/Coalition.v
theories/CoalitionProofs.v
theories/PropertiesCoalition.v
theories/Prints.v
theories/PrintsProofs.v
theories/PropertiesPrints.v
theories/Chances.v
theories/ChancesProofs.v
theories/ChancesDnfProofs.v
theories/ChancesAwProofs.v
theories/ChancesWitnesses.v
theories/PropertiesChances.v
theories/ConsolePrints.v
theories/ConsolePrintsProofs.v
theories/PropertiesConsolePrints.v
theories/ConsoleRefusals.v
theories/PropertiesConsoleRefusals.v
theories/Escrow.v
theories/EscrowProofs.v
theories/PropertiesEscrow.v
theories/Words.v
theories/WordsProofs.v
theories/PropertiesWords.v
theories/Working.v
theories/WorkingProofs.v
theories/PropertiesWorking.v
theories/BorshLayout.v
theories/PropertiesBorshLayout.v
theories/BorshTwins.v
theories/PropertiesBorshTwins.v
theories/LayoutNames.v
theories/ConsoleTraces.v
theories/PropertiesConsoleTraces.v
theories/PropertiesLayoutNames.v
theories/WordsTraces.v
theories/PropertiesWordsTraces.v
theories/DnfSize.v
theories/PropertiesDnfSize.v
theories/BillsEncrypt.v
theories/BillsEncryptProofs.v
theories/PropertiesBillsEncrypt.v
theories/GlobalContext.v
theories/GlobalContextProofs.v
theories/PropertiesGlobalContext.v
theories/BillsKeygen.v
theories/BillsKeygenProofs.v
theories/PropertiesBillsKeygen.v
theories/Thinning.v
theories/ThinningProofs.v
theories/PropertiesThinning.v
theories/Alternative.v
theories/AlternativeProofs.v
theories/PropertiesAlternative.v
theories/AlternativeAuthority.v
theories/AlternativeAuthorityProofs.v
theories/PropertiesAlternativeAuthority.v
theories/Selected.v
theories/SelectedProofs.v
theories/PropertiesSelected.v
theories/Agree.v
theories/PropertiesAgree.v
theories/Renewal.v
theories/RenewalProofs.v
theories/PropertiesRenewal.v
theories/RenewalPartsProofs.v
theories/PropertiesRenewalParts.v
theories/Refresh.v
theories/RefreshProofs.v
theories/PropertiesRefresh.v
theories/Lessened.v
theories/LessenedProofs.v
theories/PropertiesLessened.v
theories/LessenedAuthorityProofs.v
theories/PropertiesLessenedAuthority.v
theories/Retarget.v
theories/RetargetProofs.v
theories/PropertiesRetarget.v
theories/Rekey.v
theories/RekeyProofs.v
theories/PropertiesRekey.v
theories/Sever.v
theories/SeverProofs.v
theories/PropertiesSever.v
theories/Isolate.v
theories/IsolateProofs.v
theories/PropertiesIsolate.v
theories/Pad.v
theories/PadProofs.v
theories/PropertiesPad.v
theories/Dual.v
theories/DualProofs.v
theories/PropertiesDual.v
theories/Benches.v
theories/BenchesProofs.v
theories/PropertiesBenches.v
theories/SerdeCbor.v
theories/PropertiesSerdeForm.v
theories/TextExact.v
theories/PropertiesTextExact.v
theories/Ffi.v
theories/FfiProofs.v
theories/PropertiesFfi.v
theories/Fips202.v
theories/Fips202Proofs.v
theories/Fips197.v
theories/Fips197Proofs.v
theories/Sp80038d.v
theories/Sp80038dProofs.v
theories/PropertiesStandards.v
theories/Messages.v
theories/MessagesProofs.v
theories/PropertiesMessages.v
theories/UnitTests.v
theories/UnitTestProofs.v
theories/PropertiesTests.v
theories/Bills.v
theories/BillsProofs.v
theories/PropertiesBills.v
theories/Draws.v
theories/DrawsProofs.v
theories/ShowsProofs.v
theories/PropertiesDraws.v
theories/PropertiesRobust.v
theories/PropertiesEquations.v
theories/PropertiesCost.v
theories/PropertiesExact.v
theories/PropertiesLayout.v
theories/PropertiesFurther.v
theories/PropertiesSerialize.v
theories/PropertiesValues.v
theories/PropertiesDepth.v
theories/PropertiesProgram.v
theories/PropertiesFiles.v
theories/PropertiesPrune.v
theories/PropertiesOrder.v
theories/PropertiesText.v
theories/PropertiesRefuse.v
