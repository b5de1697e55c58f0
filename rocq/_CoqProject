-Q theories Verif
theories/Base.v
theories/Types.v
theories/Layout.v
theories/AlignedBytes.v
theories/Strs.v
theories/Spec.v
theories/Deser.v
theories/Ser.v
theories/Buf.v
theories/BaseFacts.v
theories/TypesFacts.v
theories/LayoutFacts.v
theories/Histories.v
theories/AlignedFacts.v
theories/Utf8Facts.v
theories/StrFacts.v
theories/DeserFacts.v
theories/LongSpec.v
theories/ArrayFacts.v
theories/StructFacts.v
theories/ReadFacts.v
theories/AccessFacts.v
theories/ReadClaims.v
theories/IndexFacts.v
theories/EqFacts.v
theories/EncFacts.v
theories/RoundFacts.v
theories/LongFacts.v
theories/WildFacts.v
theories/SerSpec.v
theories/SerFacts.v
theories/SerStruct.v
theories/SerMain.v
theories/ViewFacts.v
theories/WrapFacts.v
theories/PadFacts.v
theories/SerClaims.v
theories/OwnSpec.v
theories/MoveFacts.v
theories/EmptyFacts.v
theories/OwnClaims.v
theories/Tests.v
theories/Cmp.v
theories/CmpSpec.v
theories/CmpFacts.v
theories/Fmt.v
theories/FmtSpec.v
theories/FmtFacts.v
theories/Fuzz.v
theories/FuzzSpec.v
theories/FuzzFacts.v
theories/OstreeLs.v
theories/OstreeSpec.v
theories/OstreeFacts.v
theories/Marker.v
theories/MarkerSpec.v
theories/MarkerFacts.v
theories/Mut.v
theories/MutSpec.v
theories/MutFacts.v
theories/SizeSpec.v
theories/SizeFacts.v
theories/LaidFacts.v
theories/Errors.v
theories/ParseSpec.v
theories/ParseFacts.v
theories/Reader.v
theories/ReaderSpec.v
theories/ReaderFacts.v
theories/CoreFmt.v
theories/PrintSpec.v
theories/PrintFacts.v
theories/LossyFacts.v
theories/TellFacts.v
theories/Unwind.v
theories/UnwindSpec.v
theories/UnwindFacts.v
theories/LocalSpec.v
theories/LocalFacts.v
theories/PaperSpec.v
theories/PaperFacts.v
theories/VarFacts.v
theories/Writer.v
theories/WriterSpec.v
theories/WriterFacts.v
theories/SwapSpec.v
theories/SwapFacts.v
theories/Features.v
theories/FeatureFacts.v
theories/Traits.v
theories/TraitSpec.v
theories/TraitFacts.v
theories/Iter.v
theories/IterSpec.v
theories/IterFacts.v
theories/Offsets.v
theories/CmpTraitFacts.v
theories/TableSpec.v
theories/TableFacts.v
theories/ConvSpec.v
theories/ConvFacts.v
theories/Compare.v
theories/CompareSpec.v
theories/CompareFacts.v
theories/Flags.v
theories/FlagSpec.v
theories/FlagFacts.v
theories/PrettyFacts.v
theories/WrapSpec.v
theories/WrapReadFacts.v
theories/WrapMore.v
theories/LexSpec.v
theories/Gen.v
theories/TextSpec.v
theories/LexFacts.v
theories/GenFacts.v
theories/GenClaims.v
theories/GenMain.v
theories/NameSpec.v
theories/NameFacts.v
theories/Run.v
theories/RunFacts.v
theories/DocRead.v
theories/DocFacts.v
theories/BuildSpec.v
theories/BuildFacts.v
theories/OstreeMain.v
theories/OstreeMainFacts.v
theories/SumSpec.v
theories/SumFacts.v
theories/SumClaims.v
theories/FuzzGlib.v
theories/GlibSpec.v
theories/GlibFacts.v
theories/GlibClaims.v
theories/BuildMore.v
theories/Custom.v
theories/CustomSpec.v
theories/CustomFacts.v
theories/CustomMore.v
theories/Copies.v
theories/CopiesSpec.v
theories/CopiesFacts.v
theories/CopiesMore.v
theories/Programs.v
theories/ProgSpec.v
theories/ProgFacts.v
theories/ValSpec.v
theories/ValFacts.v
theories/ValMain.v
theories/LazySpec.v
theories/LazyFacts.v
theories/LazyMain.v
theories/Prop_Types.v
theories/Prop_Layout.v
theories/Prop_Aligned.v
theories/Prop_Strings.v
theories/Prop_Read.v
theories/Prop_Array.v
theories/Prop_Eq.v
theories/Prop_Ser.v
theories/Prop_Owned.v
theories/Prop_Long.v
theories/Prop_Cmp.v
theories/Prop_Fmt.v
theories/Prop_Fuzz.v
theories/Prop_Ostree.v
theories/Prop_Marker.v
theories/Prop_Mut.v
theories/Prop_Size.v
theories/Prop_Parse.v
theories/Prop_Reader.v
theories/Prop_Print.v
theories/Prop_Unwind.v
theories/Prop_Local.v
theories/Prop_Paper.v
theories/Prop_Variant.v
theories/Prop_Writer.v
theories/Prop_Order.v
theories/Prop_Features.v
theories/Prop_Traits.v
theories/Prop_Iter.v
theories/Prop_CmpTraits.v
theories/Prop_Table.v
theories/Prop_Conv.v
theories/Prop_Compare.v
theories/Prop_Flags.v
theories/Prop_Pretty.v
theories/Prop_Wrap.v
theories/Prop_Alike.v
theories/Prop_Gen.v
theories/Prop_Run.v
theories/Prop_Doc.v
theories/Prop_Build.v
theories/Prop_Glib.v
theories/EndFacts.v
theories/Prop_End.v
theories/Prop_Sum.v
theories/Prop_Custom.v
theories/Prop_Copies.v
theories/ProgEq.v
theories/Prop_Programs.v
theories/Prop_Values.v
theories/Prop_Lazy.v
theories/BuildProgSpec.v
theories/BuildProg.v
theories/Prop_BuildProg.v
theories/LooseSpec.v
theories/LooseFacts.v
theories/LooseProg.v
theories/Prop_Loose.v
theories/NeedSpec.v
theories/NeedFacts.v
theories/NeedLeastFacts.v
theories/Decl.v
theories/DeclSpec.v
theories/DeclFacts.v
theories/DeclMore.v
theories/Prop_Need.v
theories/Cost.v
theories/CostSpec.v
theories/CostFacts.v
theories/OrderFacts.v
theories/EqOrderFacts.v
theories/Prop_Cost.v
theories/PiecesFacts.v
theories/Prop_Pieces.v
theories/GenSizeFacts.v
theories/Prop_GenSize.v
theories/PrintSizeFacts.v
theories/OrderSizeFacts.v
theories/Prop_PrintSize.v
theories/WrittenFacts.v
theories/Prop_Written.v
theories/Prop_Decl.v
theories/Heap.v
theories/HeapSpec.v
theories/HeapFacts.v
theories/Prop_Heap.v
theories/SerCost.v
theories/SerCostSpec.v
theories/SerCostFacts.v
theories/SerCalls.v
theories/Prop_SerCost.v
theories/Alloc.v
theories/AllocSpec.v
theories/AllocFacts.v
theories/Prop_Alloc.v
theories/FmtCost.v
theories/FmtCostSpec.v
theories/FmtCostFacts.v
theories/Prop_FmtCost.v
theories/LeastSpec.v
theories/LeastFacts.v
theories/LeastEq.v
theories/Prop_Least.v
theories/ParseCost.v
theories/ParseCostSpec.v
theories/ParseCostFacts.v
theories/Prop_ParseCost.v
theories/LayoutCost.v
theories/LayoutCostSpec.v
theories/LayoutCostFacts.v
theories/Prop_LayoutCost.v
