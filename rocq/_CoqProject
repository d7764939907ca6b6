-Q theories Verif

theories/Model/Prelude.v
theories/Model/Utf8.v
theories/Model/Base64.v
theories/Model/Percent.v
theories/Model/Float.v
theories/Model/FloatCount.v
theories/Model/Json.v
theories/Model/Types.v
theories/Model/Deps.v
theories/Model/Chrono.v
theories/Model/Serde.v
theories/Model/Errors.v
theories/Model/Jwt.v
theories/Model/AccessToken.v
theories/Model/CredentialIssuer.v
theories/Model/Wire.v
theories/Model/SerdeOptions.v
theories/Proofs/StrFacts.v
theories/Proofs/Utf8Facts.v
theories/Proofs/Base64Facts.v
theories/Proofs/PercentFacts.v
theories/SpecNumber.v
theories/Spec.v
theories/SpecToken.v
theories/SpecOffer.v
theories/SpecErrors.v
theories/SpecJwt.v
theories/SpecEvaluation.v
theories/SpecResponse.v
theories/SpecJson.v
theories/SpecDocuments.v
theories/SpecSession.v
theories/SpecWire.v
theories/SpecTime.v
theories/SpecEvidence.v
theories/SpecCodes.v
theories/Proofs/Base64Bits.v
theories/Proofs/FloatFacts.v
theories/Proofs/FloatText.v
theories/Proofs/NumberFacts.v
theories/Proofs/NumberValues.v
theories/Proofs/FloatCountFacts.v
theories/Proofs/NumberAgain.v
theories/Proofs/JsonFacts.v
theories/Proofs/ReaderFacts.v
theories/Proofs/GrammarFacts.v
theories/Proofs/AnyDepth.v
theories/Proofs/CompactFacts.v
theories/Proofs/KeptFacts.v
theories/Proofs/SpellingFacts.v
theories/Proofs/SerdeFacts.v
theories/Proofs/TokenFacts.v
theories/Proofs/OfferFacts.v
theories/Proofs/ErrorFacts.v
theories/Proofs/MessageFacts.v
theories/Proofs/ErrorTexts.v
theories/Proofs/ErrorCompact.v
theories/Proofs/JwtFacts.v
theories/Proofs/ShapeFacts.v
theories/Proofs/EvalFacts.v
theories/Proofs/EvalFacts2.v
theories/Proofs/EvalFacts3.v
theories/Proofs/ResponseFacts.v
theories/Proofs/OrderFacts.v
theories/Proofs/OkTac.v
theories/Proofs/DocumentFacts.v
theories/Proofs/SessionFacts.v
theories/Proofs/WireFacts.v
theories/Proofs/WrittenFacts.v
theories/SpecResults.v
theories/Proofs/ResultFacts.v
theories/Proofs/TimeFacts.v
theories/Proofs/TimeDocs.v
theories/Examples.v
theories/Conformance.v
theories/Properties/AccessToken.v
theories/Properties/Offers.v
theories/Properties/Errors.v
theories/Properties/Jwt.v
theories/Properties/Evaluation.v
theories/Properties/Responses.v
theories/Properties/Documents.v
theories/Properties/Sessions.v
theories/Properties/Wire.v
theories/Proofs/EvidenceFacts.v
theories/Proofs/CodeFacts.v
theories/Properties/Time.v
theories/Properties/Evidence.v
theories/Properties/Codes.v
theories/Properties/Results.v
theories/Properties/Numbers.v
theories/Proofs/ValidationFacts.v
theories/Properties/Validation.v
theories/Proofs/DepthFacts.v
theories/Properties/Depth.v
theories/Proofs/MethodFacts.v
theories/Properties/Methods.v
theories/Proofs/PartyFacts.v
theories/Properties/Parties.v
theories/SpecServer.v
theories/Proofs/ServerFacts.v
theories/Properties/Server.v
theories/SpecRelay.v
theories/Proofs/RelayFacts.v
theories/Proofs/RenumberFacts.v
theories/Proofs/AnyNumbers.v
theories/SpecHops.v
theories/Proofs/HopsFacts.v
theories/Properties/Relay.v
theories/Model/Equality.v
theories/Model/Defaults.v
theories/Model/Hashing.v
theories/SpecEquality.v
theories/Proofs/EqualityFacts.v
theories/Proofs/SamenessFacts.v
theories/Proofs/DefaultFacts.v
theories/Proofs/HashFacts.v
theories/Properties/Equality.v
theories/Properties/Defaults.v
theories/SpecAnyErrors.v
theories/Proofs/AnyErrors.v
theories/Properties/Held.v
theories/SpecHistory.v
theories/SpecSizes.v
theories/SpecKinds.v
theories/Proofs/HistoryFacts.v
theories/Proofs/NumberSize.v
theories/Proofs/SizeFacts.v
theories/Proofs/GrowthFacts.v
theories/Proofs/DateSize.v
theories/Properties/History.v
theories/Proofs/KindFacts.v
theories/Properties/Sizes.v
theories/Properties/Kinds.v
theories/SpecPin.v
theories/Proofs/PinFacts.v
theories/Properties/Pins.v
theories/SpecTwice.v
theories/Proofs/TwiceFacts.v
theories/Properties/Twice.v
theories/SpecCut.v
theories/Proofs/CutFacts.v
theories/Properties/Cut.v
theories/SpecDraft.v
theories/Proofs/DraftFacts.v
theories/Properties/Draft.v
theories/Proofs/FollowFacts.v
theories/Properties/Follow.v
theories/SpecSendable.v
theories/Proofs/SendableFacts.v
theories/Properties/Describe.v
theories/SpecInterop.v
theories/Proofs/InteropFacts.v
theories/Properties/Interop.v
theories/Proofs/FormedFacts.v
theories/Properties/Formed.v
theories/SpecDepend.v
theories/Proofs/DependFacts.v
theories/Properties/Depend.v
theories/SpecReported.v
theories/Proofs/ReportedFacts.v
theories/Properties/Reported.v
theories/SpecGuess.v
theories/Proofs/GuessFacts.v
theories/Properties/Guess.v
theories/SpecProbe.v
theories/Proofs/ProbeFacts.v
theories/Properties/Probe.v
theories/Proofs/AgreeFacts.v
theories/Properties/Agree.v
theories/SpecChance.v
theories/Proofs/ChanceFacts.v
theories/Properties/Chance.v
theories/SpecComplete.v
theories/Proofs/CompleteFacts.v
theories/Proofs/CompleteFacts2.v
theories/Properties/Complete.v
theories/SpecAgreement.v
theories/Proofs/AgreementFacts.v
theories/Properties/Agreement.v
theories/SpecCareful.v
theories/Proofs/CarefulFacts.v
theories/Properties/Careful.v
theories/SpecRace.v
theories/Proofs/RaceFacts.v
theories/Properties/Race.v
theories/SpecRespell.v
theories/Proofs/RespellFacts.v
theories/Properties/Respell.v
theories/SpecVersions.v
theories/Proofs/VersionsFacts.v
theories/Properties/Versions.v
theories/SpecCritical.v
theories/Proofs/CriticalFacts.v
theories/Properties/Critical.v
theories/SpecSuits.v
theories/Proofs/SuitsFacts.v
theories/Properties/Suits.v
theories/SpecRegistry.v
theories/Proofs/RegistryFacts.v
theories/Properties/Registry.v
theories/SpecIdentity.v
theories/Proofs/IdentityFacts.v
theories/Properties/Identity.v
theories/SpecDots.v
theories/Proofs/DotsFacts.v
theories/Properties/Dots.v
theories/SpecDirect.v
theories/Proofs/DirectFacts.v
theories/Properties/Direct.v
theories/SpecSound.v
theories/Proofs/SoundFacts.v
theories/Properties/Sound.v
