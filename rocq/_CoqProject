-Q theories Verif
theories/PyStr.v
theories/Tags.v
theories/B64.v
theories/B85.v
theories/Json.v
theories/JsonText.v
theories/JsonTextProofs.v
theories/Base.v
theories/Heap.v
theories/Registry.v
theories/LoadClass.v
theories/Pickler.v
theories/Unpickler.v
theories/Samples.v
theories/CodecProofs.v
theories/PropCodec.v
theories/RegistryProofs.v
theories/PropRegistry.v
theories/LoadClassProofs.v
theories/PropLoadClass.v
theories/Backend.v
theories/BackendProofs.v
theories/PropBackend.v
theories/UGen.v
theories/RestoreProofs.v
theories/SpecJson.v
theories/PlainProofs.v
theories/MissingProofs.v
theories/PropRestore.v
theories/SpecGraph.v
theories/WP.v
theories/RTBase.v
theories/RTStep.v
theories/RTPure.v
theories/RTDesc.v
theories/SpecRefs.v
theories/RTWalk.v
theories/RTCont.v
theories/RTOrder.v
theories/RTKinds.v
theories/RTInst.v
theories/RTObj.v
theories/RTShapes.v
theories/RTLate.v
theories/RTMain.v
theories/PGen.v
theories/PTerm.v
theories/PSame.v
theories/PRel.v
theories/IsoProofs.v
theories/PDoc.v
theories/SpecDoc.v
theories/EncodeProofs.v
theories/PropEncode.v
theories/PStep.v
theories/SpecRun.v
theories/HeapProofs.v
theories/SpecDepth.v
theories/SpecIso.v
theories/DepthProofs.v
theories/PropDepth.v
theories/IterProofs.v
theories/SpecIter.v
theories/IterRT.v
theories/FailProofs.v
theories/OptionProofs.v
theories/PropOptions.v
theories/RTProps.v
theories/PropRoundtrip.v
theories/PropKeys.v
theories/PropIso.v
theories/PropIter.v
theories/PropRefs.v
theories/PropProtocols.v
theories/Handlers.v
theories/PropHandlers.v
theories/PropLimits.v
theories/PropMisses.v
theories/SpecPlain.v
theories/PlainEncode.v
theories/PropPlain.v
theories/SpecFail.v
theories/BalanceProofs.v
theories/PropFail.v
theories/SpecHoles.v
theories/HolesProofs.v
theories/FillProofs.v
theories/CleanProofs.v
theories/PropHoles.v
theories/SpecLack.v
theories/LackProofs.v
theories/PropLack.v
theories/SpecErr.v
theories/ErrProofs.v
theories/PropErr.v
theories/Utf8.v
theories/Pandas.v
theories/PropPandas.v
theories/DtypeTags.v
theories/PropDtypeTags.v
theories/Signature.v
theories/ContextProofs.v
theories/PropContext.v
theories/IdReuse.v
theories/PropIdReuse.v
theories/Detect.v
theories/SpecDetect.v
theories/DetectProofs.v
theories/PropDetect.v
theories/Numpy.v
theories/SpecNumpy.v
theories/NumpyProofs.v
theories/PropNumpy.v
theories/SpecProps.v
theories/PropsProofs.v
theories/PropsEncode.v
theories/PropProps.v
theories/Sort.v
theories/SpecSort.v
theories/SortProofs.v
theories/PropSort.v
theories/SpecKeys.v
theories/PropCoerce.v
theories/SpecUnfold.v
theories/UnfoldProofs.v
theories/UnfoldDecode.v
theories/PropUnfold.v
theories/PropMember.v
theories/Frames.v
theories/PropFrames.v
theories/Session.v
theories/SessionProofs.v
theories/PropSession.v
theories/Ext.v
theories/ExtProofs.v
theories/PropExt.v
theories/PropCustom.v
theories/Writer.v
theories/SpecText.v
theories/TextProofs.v
theories/WriterProofs.v
theories/PropText.v
theories/ExtValues.v
theories/PropExtValues.v
theories/SpecV1.v
theories/V1Proofs.v
theories/PropV1.v
theories/PropNumeric.v
theories/SpecBack.v
theories/BackEncode.v
theories/BackProofs.v
theories/BackTrip.v
theories/PropBack.v
theories/SpecNames.v
theories/CongProofs.v
theories/NameProofs.v
theories/SpecTame.v
theories/TameProofs.v
theories/PropNames.v
theories/PropState.v
theories/SpecScope.v
theories/RegSim.v
theories/RegCong.v
theories/PropScope.v
theories/PropElse.v
theories/SpecReadonly.v
theories/ReadonlyCong.v
theories/PropReadonly.v
theories/SpecMissing.v
theories/MissCong.v
theories/PropMissing.v
theories/PropSafe.v
theories/SpecOptions.v
theories/OptSim.v
theories/PropKeysWarn.v
theories/PropPrivate.v
theories/ClsCong.v
theories/SpecFurther.v
theories/PropFurther.v
theories/PropCases.v
theories/Ufunc.v
theories/SpecUfunc.v
theories/UfuncProofs.v
theories/PropUfunc.v
theories/Reentry.v
theories/SpecReentry.v
theories/PropReentry.v
theories/SpecBase.v
theories/PropBase.v
theories/SpecTagOrder.v
theories/PropTagOrder.v
theories/SpecTagPlaces.v
theories/PropTagPlaces.v
theories/OldFrames.v
theories/SpecOldFrames.v
theories/PropOldFrames.v
theories/Yaml.v
theories/PropYaml.v
theories/LoadRepr.v
theories/PropLoadRepr.v
theories/NumpyLists.v
theories/PropNumpyLists.v
