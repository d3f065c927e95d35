-Q theories Verif
theories/Py.v
theories/PyFacts.v
theories/Value.v
theories/Callables.v
theories/Printing.v
theories/Peg.v
theories/Grammar.v
theories/Visitor.v
theories/SpecId.v
theories/PrintingFacts.v
theories/DataText.v
theories/NumFacts.v
theories/Readable.v
theories/IdFacts.v
theories/Prop_Ids.v
theories/PegFacts.v
theories/SpecParse.v
theories/RegexFacts.v
theories/StrFacts.v
theories/ParseFacts.v
theories/ParseValue.v
theories/ParseWhat.v
theories/GrammarFacts.v
theories/ParseTotal.v
theories/WsFacts.v
theories/ParseAll.v
theories/RoundTrip.v
theories/ClassText.v
theories/ParseFail.v
theories/NumText.v
theories/Prop_Parse.v
theories/SpecWhat.v
theories/WhatOps.v
theories/WhatFacts.v
theories/GetFacts.v
theories/EqFacts.v
theories/DictFacts.v
theories/Prop_What.v
theories/PluginManager.v
theories/SpecPlugins.v
theories/PluginFacts.v
theories/PrintsFacts.v
theories/Prop_Plugins.v
theories/Registry.v
theories/RegistryFacts.v
theories/Prop_Registry.v
theories/Recorder.v
theories/SpecRecorder.v
theories/RecorderFacts.v
theories/Prop_Recorder.v
theories/Misc.v
theories/SpecMisc.v
theories/MiscFacts.v
theories/Prop_Misc.v
theories/Protocol.v
theories/Prop_Protocol.v
theories/Order.v
theories/SpecOrder.v
theories/OrderFacts.v
theories/WhatUtils.v
theories/SpecUtils.v
theories/UtilsFacts.v
theories/Prop_Utils.v
theories/Heap.v
theories/SpecHeap.v
theories/HeapFacts.v
theories/Prop_Heap.v
theories/OldIds.v
theories/SpecOld.v
theories/OldFacts.v
theories/OldNew.v
theories/Prop_Old.v
theories/Hashing.v
theories/SpecHash.v
theories/HashFacts.v
theories/HashOrder.v
theories/HashRead.v
theories/Prop_Hash.v
theories/SklearnTables.v
theories/Sklearn.v
theories/SpecSklearn.v
theories/SklearnFacts.v
theories/Prop_Sklearn.v
theories/Closures.v
theories/Prop_Closures.v
theories/Imports.v
theories/Prop_Imports.v
theories/Frames.v
theories/Prop_Frames.v
theories/SklearnAll.v
theories/Prop_SklearnAll.v
theories/Info.v
theories/Prop_Info.v
theories/Sources.v
theories/Prop_Sources.v
theories/RecordObjects.v
theories/Prop_RecordObjects.v
theories/Parsed.v
theories/Normal.v
theories/Prop_Normal.v
theories/Arrays.v
theories/SpecArrays.v
theories/ArrayFacts.v
theories/Prop_Arrays.v
theories/Sharing.v
theories/SpecSharing.v
theories/ShareFacts.v
theories/ShareRead.v
theories/Prop_Sharing.v
theories/OneOrMany.v
theories/Prop_OneOrMany.v
theories/Libraries.v
theories/Prop_Libraries.v
theories/SpecNames.v
theories/NameFacts.v
theories/Prop_Names.v
theories/SpecBlanks.v
theories/BlankFacts.v
theories/Prop_Blanks.v
theories/SpecShown.v
theories/ShownFacts.v
theories/Prop_Shown.v
theories/SpecCycles.v
theories/CycleFacts.v
theories/CycleMore.v
theories/Prop_Cycles.v
theories/ToDf.v
theories/SpecToDf.v
theories/Prop_ToDf.v
theories/SklearnReport.v
theories/SpecReport.v
theories/Prop_SklearnReport.v
theories/Prop_Rng.v
theories/Objects.v
theories/SpecObjects.v
theories/ObjectFacts.v
theories/Prop_Objects.v
theories/Repr.v
theories/SpecRepr.v
theories/ReprFacts.v
theories/ReprRead.v
theories/Prop_Repr.v
theories/Signatures.v
theories/SpecSignatures.v
theories/Prop_Signatures.v
theories/Curry.v
theories/SpecCurry.v
theories/Prop_Curry.v
theories/Reentrant.v
theories/SpecReentrant.v
theories/Prop_Reentrant.v
theories/SpecTexts.v
theories/TextFacts.v
theories/Prop_Texts.v
theories/Binary64.v
theories/BinaryFacts.v
theories/SpecFloat.v
theories/FloatFacts.v
theories/FloatText.v
theories/FloatRepr.v
theories/FloatShort.v
theories/FloatRead.v
theories/Prop_Floats.v
theories/PickleBytes.v
theories/SpecBytes.v
theories/BytesFacts.v
theories/Prop_Bytes.v
theories/Prop_BytesWork.v
theories/Mixed.v
theories/SpecMixed.v
theories/MixedFacts.v
theories/Prop_Mixed.v
theories/SpecTrimmed.v
theories/Prop_Trimmed.v
theories/Equality.v
theories/Prop_Equality.v
theories/SpecAlpha.v
theories/AlphaFacts.v
theories/OrderMeaning.v
theories/Prop_Order.v
theories/SpecSubscript.v
theories/SubscriptFacts.v
theories/Prop_Subscript.v
