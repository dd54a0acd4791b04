-Q theories Verif
theories/Base.v
theories/Types.v
theories/Arena.v
theories/Time.v
theories/Channel.v
theories/Contract.v
theories/Baseline.v
theories/BaseProofs.v
theories/ArenaSpec.v
theories/ArenaProofs.v
theories/PropertiesArena.v
theories/BaselineSpec.v
theories/BaselineProofs.v
theories/BaselineMono.v
theories/PropertiesBaseline.v
theories/RecordSpec.v
theories/RecordProofs.v
theories/PropertiesRecord.v
theories/PropertiesTime.v
theories/PropertiesIter.v
theories/Dynamic.v
theories/PropertiesDynamic.v
theories/PropertiesChannel.v
theories/Engine.v
theories/PropertiesEngine.v
theories/Flat.v
theories/Serializer.v
theories/Deserializer.v
theories/PropertiesTags.v
theories/SerialSpec.v
theories/DeserProofs.v
theories/DeserFinish.v
theories/DeserTotal.v
theories/PropertiesDeser.v
theories/DeserExact.v
theories/DeserPanic.v
theories/PropertiesDeserExact.v
theories/SerProofs.v
theories/PropertiesSer.v
theories/PropertiesRound.v
theories/PropertiesRoundExact.v
theories/Macro.v
theories/PropertiesMacro.v
theories/Mangle.v
theories/PropertiesMangle.v
theories/Color.v
theories/PropertiesColor.v
theories/Tween.v
theories/TweenProofs.v
theories/PropertiesTween.v
theories/ArenaIter.v
theories/ArenaIterProofs.v
theories/PropertiesArenaIter.v
theories/FloatBits.v
theories/CircleGame.v
theories/CircleSpec.v
theories/Table.v
theories/CircleProofs.v
theories/PropertiesCircle.v
theories/FloatSpec.v
theories/FloatReal.v
theories/CircleReal.v
theories/PropertiesCircleReal.v
theories/UnityDemo.v
theories/UnityProofs.v
theories/PropertiesUnity.v
theories/Managed.v
theories/ManagedSpec.v
theories/ManagedProofs.v
theories/PropertiesManaged.v
theories/PropertiesReach.v
theories/TimeFloat.v
theories/TimeFloatSpec.v
theories/TimeFloatProofs.v
theories/PropertiesTimeFloat.v
theories/Text.v
theories/TextSpec.v
theories/TextProofs.v
theories/PropertiesText.v
theories/CApi.v
theories/CApiSpec.v
theories/CApiProofs.v
theories/CApiStep.v
theories/CApiFrame.v
theories/CApiWrite.v
theories/PropertiesCApi.v
theories/CList.v
theories/CListSpec.v
theories/CListProofs.v
theories/PropertiesCList.v
theories/Substitute.v
theories/SubstituteSpec.v
theories/SubstituteProofs.v
theories/PropertiesSubstitute.v
theories/CSharp.v
theories/CSharpSpec.v
theories/CSharpProofs.v
theories/CSharpSim.v
theories/CSharpOwned.v
theories/PropertiesCSharp.v
theories/TweenReal.v
theories/PropertiesTweenReal.v
theories/Sources.v
theories/Handlebars.v
theories/Codegen.v
theories/CodegenProofs.v
theories/PropertiesCodegen.v
theories/Exports.v
theories/LinkSpec.v
theories/PropertiesLink.v
theories/PInvoke.v
theories/PropertiesPInvoke.v
theories/Wire.v
theories/WireRead.v
theories/WireWrite.v
theories/WireBuild.v
theories/WireSchema.v
theories/WireSerial.v
theories/WireRefine.v
theories/WireMono.v
theories/WireSize.v
theories/WireMass.v
theories/WireMany.v
theories/PropertiesWire.v
theories/Views.v
theories/PropertiesViews.v
theories/DynEnum.v
theories/Indexing.v
theories/PropertiesDynEnum.v
theories/Provenance.v
theories/DeserHistory.v
theories/Again.v
theories/PropertiesAgain.v
theories/PropertiesGiven.v
theories/BuildScript.v
theories/BuildSpec.v
theories/BuildProofs.v
theories/BuildExample.v
theories/PropertiesBuild.v
theories/BuildAndroid.v
theories/PropertiesAndroid.v
theories/Release.v
theories/PropertiesRelease.v
theories/TestsRust.v
theories/TestsText.v
theories/TestsCs.v
theories/TestsList.v
theories/TestsBall.v
theories/TestsWire.v
theories/PropertiesAssert.v
theories/Keys.v
theories/PropertiesKeys.v
theories/PropertiesFaults.v
theories/Clients.v
theories/PropertiesClients.v
theories/PanicProofs.v
theories/PropertiesPanic.v
theories/CallerIter.v
theories/PropertiesCallerIter.v
theories/PropertiesSerFail.v
theories/PropertiesWireFail.v
theories/LoadAny.v
theories/PropertiesLoadFail.v
theories/Ordered.v
theories/PropertiesOrdered.v
