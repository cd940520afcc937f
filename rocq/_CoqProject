-Q theories Verif
theories/Base.v
theories/SchedModel.v
theories/SchedSpec.v
theories/SchedProofs.v
theories/SegModel.v
theories/SegSpec.v
theories/SegProofs.v
theories/SchedProps.v
theories/Mem.v
theories/MemLemmas.v
theories/MergeModel.v
theories/MergeSpec.v
theories/MergeProofs.v
theories/Merge2Proofs.v
theories/MergeProps.v
theories/Num.v
theories/Par.v
theories/BinsModel.v
theories/BinsSpec.v
theories/BinsProofs.v
theories/Bins2Proofs.v
theories/Bins3Proofs.v
theories/BinsProps.v
theories/Inter.v
theories/GroupModel.v
theories/GroupSpec.v
theories/GroupProofs.v
theories/Group2Proofs.v
theories/Group3Proofs.v
theories/GroupProps.v
theories/AccumModel.v
theories/AccumSpec.v
theories/AccumProofs.v
theories/Accum2Proofs.v
theories/Accum3Proofs.v
theories/Accum4Proofs.v
theories/Accum5Proofs.v
theories/AccumProps.v
theories/GrpxModel.v
theories/GrpxSpec.v
theories/GrpxProofs.v
theories/Grpx2Proofs.v
theories/Grpx3Proofs.v
theories/Float64.v
theories/GrpxFloatProofs.v
theories/Grpx4Proofs.v
theories/GrpxProps.v
theories/SortModel.v
theories/SortSpec.v
theories/SortProofs.v
theories/Sort2Proofs.v
theories/Sort3Proofs.v
theories/Sort4Proofs.v
theories/Sort5Proofs.v
theories/Sort6Proofs.v
theories/Sort7Proofs.v
theories/Sort8Proofs.v
theories/SortProps.v
theories/HashModel.v
theories/HashTable.v
theories/HashSpec.v
theories/HashProofs.v
theories/HashMember.v
theories/HashGroup.v
theories/HashAlign.v
theories/HashLinks.v
theories/HashLinks2.v
theories/HashFixup.v
theories/HashProps.v
theories/CalcModel.v
theories/CalcSpec.v
theories/CalcProofs.v
theories/CalcProps.v
theories/DateModel.v
theories/DateSpec.v
theories/DateProofs.v
theories/DateProps.v
theories/RecModel.v
theories/RecSpec.v
theories/RecProofs.v
theories/RecProps.v
theories/ConvModel.v
theories/ConvSpec.v
theories/ConvProofs.v
theories/ConvProps.v
theories/MaskModel.v
theories/MaskSpec.v
theories/MaskProofs.v
theories/MaskProps.v
theories/CombModel.v
theories/CombSpec.v
theories/CombProofs.v
theories/CombProps.v
theories/LayoutModel.v
theories/LayoutSpec.v
theories/LayoutProofs.v
theories/LayoutProps.v
theories/WorkModel.v
theories/WorkSpec.v
theories/WorkProofs.v
theories/WorkProps.v
theories/RecycleModel.v
theories/RecycleSpec.v
theories/RecycleProofs.v
theories/RecycleProps.v
theories/RollModel.v
theories/RollSpec.v
theories/RollProofs.v
theories/RollProps.v
theories/HeapModel.v
theories/HeapSpec.v
theories/HeapProofs.v
theories/Heap2Proofs.v
theories/Heap3Proofs.v
theories/Heap4Proofs.v
theories/Heap5Proofs.v
theories/HeapGrpModel.v
theories/Heap6Proofs.v
theories/Heap7Proofs.v
theories/HeapProps.v
theories/EmaModel.v
theories/EmaSpec.v
theories/EmaProofs.v
theories/Ema2Proofs.v
theories/Ema3Proofs.v
theories/EmaProps.v
theories/InterpModel.v
theories/InterpSpec.v
theories/InterpProofs.v
theories/InterpProps.v
theories/LogModel.v
theories/LogSpec.v
theories/LogProofs.v
theories/Log2Proofs.v
theories/Log3Proofs.v
theories/LogProps.v
theories/SvcModel.v
theories/SvcSpec.v
theories/SvcProofs.v
theories/Svc2Proofs.v
theories/SvcProps.v
theories/SdsModel.v
theories/SdsSpec.v
theories/SdsProofs.v
theories/Sds2Proofs.v
theories/Sds3Proofs.v
theories/Sds4Proofs.v
theories/Sds5Proofs.v
theories/Sds6Proofs.v
theories/Sds7Proofs.v
theories/SdsProps.v
theories/RedModel.v
theories/RedSpec.v
theories/RedProofs.v
theories/Red2Proofs.v
theories/Red3Proofs.v
theories/Red4Proofs.v
theories/Red5Proofs.v
theories/Red6Proofs.v
theories/Red7Proofs.v
theories/RedProps.v
theories/TwoModel.v
theories/TwoSpec.v
theories/TwoProofs.v
theories/Two2Proofs.v
theories/TwoProps.v
theories/CmpModel.v
theories/CmpSpec.v
theories/CmpProofs.v
theories/Cmp2Proofs.v
theories/CmpProps.v
theories/MathModel.v
theories/MathSpec.v
theories/MathProofs.v
theories/Math2Proofs.v
theories/Math3Proofs.v
theories/MathFloat.v
theories/Math4Proofs.v
theories/MathProps.v
theories/OutModel.v
theories/OutSpec.v
theories/OutProofs.v
theories/Out2Proofs.v
theories/OutProps.v
theories/WhereModel.v
theories/WhereSpec.v
theories/WhereProofs.v
theories/WhereProps.v
theories/UnaryModel.v
theories/UnarySpec.v
theories/UnaryProofs.v
theories/Unary2Proofs.v
theories/UnaryProps.v
theories/UoutModel.v
theories/UoutSpec.v
theories/UoutProofs.v
theories/UoutProps.v
theories/StrpModel.v
theories/StrpSpec.v
theories/StrpProofs.v
theories/Strp2Proofs.v
theories/Strp3Proofs.v
theories/StrpProps.v
theories/MtgModel.v
theories/MtgSpec.v
theories/MtgProofs.v
theories/Mtg2Proofs.v
theories/Mtg3Proofs.v
theories/Mtg4Proofs.v
theories/MtgProps.v
theories/ZipModel.v
theories/ZipSpec.v
theories/ZipProofs.v
theories/ZipProps.v
theories/LstModel.v
theories/LstSpec.v
theories/LstProofs.v
theories/LstProps.v
theories/CatModel.v
theories/CatSpec.v
theories/CatProofs.v
theories/CatProps.v
theories/StackModel.v
theories/StackSpec.v
theories/StackProofs.v
theories/Stack2Proofs.v
theories/Stack3Proofs.v
theories/Stack4Proofs.v
theories/Stack5Proofs.v
theories/Stack6Proofs.v
theories/Stack7Proofs.v
theories/Stack8Proofs.v
theories/StackProps.v
theories/OneModel.v
theories/OneSpec.v
theories/OneProofs.v
theories/One2Proofs.v
theories/One3Proofs.v
theories/OneProps.v
theories/SieveModel.v
theories/SieveSpec.v
theories/SieveProofs.v
theories/Sieve2Proofs.v
theories/Sieve3Proofs.v
theories/Sieve4Proofs.v
theories/SieveProps.v
theories/VarModel.v
theories/VarSpec.v
theories/VarProofs.v
theories/Var2Proofs.v
theories/VarProps.v
theories/AllModel.v
theories/AllSpec.v
theories/AllProofs.v
theories/All2Proofs.v
theories/All3Proofs.v
theories/All4Proofs.v
theories/All5Proofs.v
theories/AllProps.v
theories/PileModel.v
theories/PileSpec.v
theories/PileProofs.v
theories/Pile2Proofs.v
theories/Pile3Proofs.v
theories/Pile4Proofs.v
theories/PileProps.v
theories/PxModel.v
theories/PxSpec.v
theories/PxProofs.v
theories/Px2Proofs.v
theories/Px3Proofs.v
theories/Px4Proofs.v
theories/Px5Proofs.v
theories/Px6Proofs.v
theories/PxProps.v
theories/IsmModel.v
theories/IsmSpec.v
theories/IsmProofs.v
theories/Ism2Proofs.v
theories/IsmProps.v
theories/EaModel.v
theories/EaSpec.v
theories/EaProofs.v
theories/Ea2Proofs.v
theories/Ea3Proofs.v
theories/EaProps.v
theories/LxModel.v
theories/LxSpec.v
theories/LxProofs.v
theories/Lx2Proofs.v
theories/Lx3Proofs.v
theories/LxProps.v
theories/GlModel.v
theories/GlSpec.v
theories/GlProofs.v
theories/Gl2Proofs.v
theories/Gl3Proofs.v
theories/Gl4Proofs.v
theories/GlProps.v
theories/WnModel.v
theories/WnSpec.v
theories/WnProofs.v
theories/Wn2Proofs.v
theories/Wn3Proofs.v
theories/WnProps.v
theories/BnModel.v
theories/BnSpec.v
theories/BnProofs.v
theories/Bn2Proofs.v
theories/Bn3Proofs.v
theories/BnProps.v
theories/MkModel.v
theories/MkSpec.v
theories/MkProofs.v
theories/Mk2Proofs.v
theories/Mk3Proofs.v
theories/MkProps.v
theories/SrModel.v
theories/SrSpec.v
theories/SrProofs.v
theories/SrProps.v
theories/CfModel.v
theories/CfSpec.v
theories/CfProofs.v
theories/CfProps.v
theories/DtModel.v
theories/DtSpec.v
theories/DtProofs.v
theories/DtProps.v
theories/RkModel.v
theories/RkSpec.v
theories/RkProofs.v
theories/RkProps.v
theories/AkModel.v
theories/AkSpec.v
theories/AkProofs.v
theories/AkProps.v
theories/BgModel.v
theories/BgSpec.v
theories/BgProofs.v
theories/BgProps.v
theories/GpModel.v
theories/GpSpec.v
theories/GpProofs.v
theories/GpProps.v
theories/ShModel.v
theories/ShSpec.v
theories/ShProofs.v
theories/ShProps.v
theories/MwModel.v
theories/MwSpec.v
theories/MwProofs.v
theories/MwProps.v
theories/RvModel.v
theories/RvSpec.v
theories/RvProofs.v
theories/RvProps.v
theories/BxModel.v
theories/BxSpec.v
theories/BxProofs.v
theories/BxProps.v
theories/FxModel.v
theories/FxSpec.v
theories/FxProofs.v
theories/FxProps.v
theories/GxModel.v
theories/GxSpec.v
theories/GxProofs.v
theories/GxProps.v
theories/IqModel.v
theories/IqSpec.v
theories/IqProofs.v
theories/IqProps.v
theories/MyModel.v
theories/MySpec.v
theories/MyProofs.v
theories/MyProps.v
