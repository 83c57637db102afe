-Q theories Verif
theories/Word.v
theories/MemoryUtils.v
theories/BitManip.v
theories/Bitset.v
theories/BitSpec.v
theories/WordFacts.v
theories/MemoryFacts.v
theories/BitManipFacts.v
theories/BitsetFacts.v
theories/CoreFacts.v
theories/Prop_Core.v
theories/Hash.v
theories/HashFacts.v
theories/Headers.v
theories/HeadersFacts.v
theories/Packing.v
theories/PackSpec.v
theories/PackingFacts.v
theories/Prop_Format.v
theories/Float32.v
theories/Float32Facts.v
theories/Quant.v
theories/QuantFacts.v
theories/Interp.v
theories/InterpFacts.v
theories/Prop_Float.v
theories/Segment.v
theories/SubTracks.v
theories/Strip.v
theories/SeekSpec.v
theories/SegmentFacts.v
theories/SubTracksFacts.v
theories/StripFacts.v
theories/SeekFacts.v
theories/Prop_Seek.v
theories/TrackArray.v
theories/Hierarchy.v
theories/TrackSpec.v
theories/TrackArrayFacts.v
theories/HierarchyFacts.v
theories/Prop_Tracks.v
theories/DbStream.v
theories/StreamSpec.v
theories/DbStreamFacts.v
theories/DbStreamInv.v
theories/DbStreamSys.v
theories/DbStreamStep.v
theories/StreamFacts.v
theories/RequestFacts.v
theories/Prop_Stream.v
theories/FloatOrder.v
theories/StripOrder.v
theories/StripSpec.v
theories/StripOrderFacts.v
theories/ClipOrderFacts.v
theories/StripKeyFacts.v
theories/Prop_Strip.v
theories/DbTiers.v
theories/TierSpec.v
theories/DbTiersFacts.v
theories/Prop_Tiers.v
theories/DbBuild.v
theories/ClipRewrite.v
theories/BuildSpec.v
theories/ByteFacts.v
theories/DbBuildFacts.v
theories/DbHeaderFacts.v
theories/DbSampleFacts.v
theories/DbBuildTop.v
theories/TierJobFacts.v
theories/RewriteFacts.v
theories/DbEndFacts.v
theories/Prop_Build.v
theories/BuildExamples.v
theories/Pieces.v
theories/DbLayout.v
theories/LayoutSpec.v
theories/LayoutFacts.v
theories/LayoutOps.v
theories/LayoutBuild.v
theories/ValidFacts.v
theories/Prop_Layout.v
theories/ScalarEnc.v
theories/ScalarDec.v
theories/ScalarSpec.v
theories/ScalarDecFacts.v
theories/ScalarSeekFacts.v
theories/ScalarRead.v
theories/ScalarLanes.v
theories/ScalarTrackFacts.v
theories/ScalarLink.v
theories/ScalarPlay.v
theories/ScalarCodec.v
theories/ScalarCodec2.v
theories/ScalarBits.v
theories/ScalarWrite.v
theories/ScalarExamples.v
theories/Prop_Scalar.v
theories/Prop_ScalarCodec.v
theories/ScalarMeta.v
theories/ScalarMetaFacts.v
theories/TransMeta.v
theories/TransMetaSpec.v
theories/TransMetaFacts.v
theories/Prop_Meta.v
theories/Settings.v
theories/SettingsFacts.v
theories/Prop_Settings.v
theories/TransDec.v
theories/TransRing.v
theories/TransSpec.v
theories/TransMem.v
theories/TransConst.v
theories/TransFloat.v
theories/TransAnim.v
theories/TransAnim2.v
theories/TransAnim3.v
theories/TransPose.v
theories/TransPoseFacts.v
theories/TransSingle.v
theories/TransEnc.v
theories/TransEncSpec.v
theories/TransEncFacts.v
theories/TransEncAnim.v
theories/TransEncAnim2.v
theories/TransEncBytes.v
theories/TransEncBytes2.v
theories/TransEncBytes3.v
theories/TransClipSpec.v
theories/TransClip.v
theories/TransClip2.v
theories/TransFile.v
theories/TransSeek.v
theories/TransFileSizes.v
theories/TransFileBytes.v
theories/TransFileFacts.v
theories/TransFileSegs.v
theories/TransFilePack.v
theories/TransFileMeta.v
theories/TransFilePlay.v
theories/TransPlaySpec.v
theories/TransFilePlay2.v
theories/TransFilePlay3.v
theories/Alloc.v
theories/AllocFacts.v
theories/Prop_Alloc.v
theories/FpEnv.v
theories/Prop_FpEnv.v
theories/TransTop.v
theories/TransHist.v
theories/TransExample.v
theories/Prop_Trans.v
theories/TransQuant.v
theories/TransQuantFloat.v
theories/TransQuantLane.v
theories/TransQuantStream.v
theories/TransQuantRange.v
theories/TransQuantSub.v
theories/TransQuantSpec.v
theories/TransQuantError.v
theories/TransQuantTop.v
theories/TransQuantSize.v
theories/TransQuantClip.v
theories/Prop_Quant.v
theories/TransList.v
theories/TransListSpec.v
theories/TransListFacts.v
theories/TransListTop.v
theories/TransListClip.v
theories/Prop_List.v
theories/TransSame.v
theories/TransSame2.v
theories/Prop_Same.v
theories/TransBind.v
theories/BindSpec.v
theories/TransView.v
theories/TransViewPlay.v
theories/TransBindMem.v
theories/TransBindSrc.v
theories/TransBindParts.v
theories/TransBindFill.v
theories/TransBindFill2.v
theories/TransBindView.v
theories/TransBindFacts.v
theories/TransBindClip.v
theories/TransBindTop.v
theories/Prop_Bind.v
theories/Prop_StreamFill.v
theories/Prop_BindStreams.v
theories/Prop_BindList.v
theories/RateSearch.v
theories/RateOrder.v
theories/RateFacts.v
theories/RateLocal.v
theories/RateEnds.v
theories/Prop_Rates.v
theories/TrackError.v
theories/TrackErrorSpec.v
theories/TrackErrorFacts.v
theories/Prop_Error.v
theories/Sampling.v
theories/Prop_Sampling.v
theories/ObjectSpace.v
theories/Prop_Object.v
theories/PreProcess.v
theories/Prop_Pre.v
