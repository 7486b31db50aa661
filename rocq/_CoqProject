-Q theories Verif
theories/Base.v
theories/BaseLemmas.v
theories/Idx.v
theories/IndexModel.v
theories/IndexProofs.v
theories/IndexThms.v
theories/IndexProps.v
theories/PGModel.v
theories/PGViewModel.v
theories/PGSpec.v
theories/PGInv.v
theories/PGAlloc.v
theories/PGFree.v
theories/PGOps1.v
theories/PGOps2.v
theories/PGOps3.v
theories/PGOps4.v
theories/PGOps5.v
theories/PGOps6.v
theories/PGOps7.v
theories/PGOps8.v
theories/PGOps9.v
theories/PGObs.v
theories/PGGrow.v
theories/PGRun.v
theories/PGReplay.v
theories/PG1Thms.v
theories/PG1Props.v
theories/PG2Thms.v
theories/PG2Props.v
theories/PG3Thms.v
theories/PG3Props.v
theories/PGInsert.v
theories/PG4Thms.v
theories/PG4Props.v
theories/AGSpec.v
theories/AGThms.v
theories/AGProps.v
theories/MapModel.v
theories/MapSpec.v
theories/MapThms.v
theories/MapProps.v
theories/HierModel.v
theories/HierSpec.v
theories/HierInv.v
theories/HierOps.v
theories/HierThms.v
theories/HierProps.v
theories/LcaModel.v
theories/LcaProofs.v
theories/LcaThms.v
theories/LcaProps.v
theories/AlgModel.v
theories/AlgSpec.v
theories/TopoProofs.v
theories/AlgPG.v
theories/TopoThms.v
theories/TopoProps.v
theories/PostProofs.v
theories/PostThms.v
theories/PostProps.v
theories/DomAbs.v
theories/DomProofs.v
theories/DomPG.v
theories/DomThms.v
theories/DomProps.v
theories/ConvexModel.v
theories/ConvexSpec.v
theories/TccProofs.v
theories/ConvexPG.v
theories/LccBuild.v
theories/LccQuery.v
theories/ConvexThms.v
theories/ConvexProps.v
theories/DynModel.v
theories/DynSpec.v
theories/BfsProofs.v
theories/DynProofs.v
theories/DynSearch.v
theories/DynLink.v
theories/DynOrder.v
theories/DynConvex.v
theories/DynBound.v
theories/DynThms.v
theories/DynProps.v
theories/MultiModel.v
theories/MultiSpec.v
theories/MultiPG.v
theories/MultiInv.v
theories/MultiOps1.v
theories/MultiOps2.v
theories/MultiOps3.v
theories/MultiOps4.v
theories/MultiOps5.v
theories/MultiOps6.v
theories/MultiOps7.v
theories/MultiOps8.v
theories/MultiView.v
theories/MultiCount.v
theories/MultiOps9.v
theories/MultiRun.v
theories/MultiThms.v
theories/MultiProps.v
theories/MTopoModel.v
theories/MTopoProofs.v
theories/MTopoSpec.v
theories/MTopoThms.v
theories/MTopoProps.v
theories/ViewModel.v
theories/ViewSpec.v
theories/ViewProofs.v
theories/ViewInst.v
theories/ViewBase.v
theories/ViewMore.v
theories/ViewThms.v
theories/ViewProps.v
theories/RegionModel.v
theories/RegionSpec.v
theories/RegionProofs.v
theories/RegionThms.v
theories/RegionProps.v
theories/BoundModel.v
theories/BoundSpec.v
theories/BoundProofs.v
theories/BoundCopy.v
theories/BoundThms.v
theories/BoundProps.v
theories/PordModel.v
theories/PordSpec.v
theories/PordTopo.v
theories/PordProofs.v
theories/PordLoop.v
theories/PordThms.v
theories/PordProps.v
theories/LineModel.v
theories/LineSpec.v
theories/LineProofs.v
theories/LineThms.v
theories/LineProps.v
theories/GLcc.v
theories/VAlgModel.v
theories/VAlgSpec.v
theories/VAlgProofs.v
theories/VAlgThms.v
theories/VAlgProps.v
theories/IterModel.v
theories/IterSpec.v
theories/IterProofs.v
theories/IterMulti.v
theories/IterMulti2.v
theories/IterThms.v
theories/IterProps.v
theories/TAddSpec.v
theories/TAddProofs.v
theories/TAddThms.v
theories/TAddProps.v
theories/FlatSpec.v
theories/FlatThms.v
theories/FlatProps.v
theories/WeightModel.v
theories/WeightSpec.v
theories/WeightProofs.v
theories/WeightThms.v
theories/WeightProps.v
theories/InsertModel.v
theories/InsertSpec.v
theories/InsertProofs.v
theories/InsertMulti.v
theories/InsertThms.v
theories/InsertProps.v
theories/MCopyModel.v
theories/MCopySpec.v
theories/MCopyProofs.v
theories/MCopyThms.v
theories/MCopyProps.v
theories/VLineModel.v
theories/VLineThms.v
theories/VLineProps.v
theories/PetModel.v
theories/PetSpec.v
theories/PetThms.v
theories/PetProps.v
theories/DotModel.v
theories/DotSpec.v
theories/DotThms.v
theories/DotProps.v
theories/LcaVThms.v
theories/LcaVProps.v
theories/MermModel.v
theories/MermSpec.v
theories/MermProofs.v
theories/MermThms.v
theories/MermProps.v
theories/SerdeModel.v
theories/SerdeSpec.v
theories/SerdeProofs.v
theories/SerdeThms.v
theories/SerdeProps.v
theories/DotTextModel.v
theories/DotTextSpec.v
theories/DotTextProofs.v
theories/DotTextThms.v
theories/DotTextProps.v
theories/DebugModel.v
theories/DebugSpec.v
theories/DebugProofs.v
theories/DebugThms.v
theories/DebugProps.v
theories/EqModel.v
theories/EqSpec.v
theories/EqProofs.v
theories/EqThms.v
theories/EqProps.v
theories/GenModel.v
theories/GenSpec.v
theories/GenProofs.v
theories/GenInst.v
theories/GenThms.v
theories/GenProps.v
theories/HEqModel.v
theories/HEqSpec.v
theories/HEqProofs.v
theories/HEqThms.v
theories/HEqProps.v
theories/MEqModel.v
theories/MEqSpec.v
theories/MEqThms.v
theories/MEqProps.v
theories/ErrModel.v
theories/ErrSpec.v
theories/ErrThms.v
theories/ErrProps.v
theories/MTextSpec.v
theories/MTextProofs.v
theories/MTextThms.v
theories/MTextProps.v
theories/CapModel.v
theories/CapSpec.v
theories/CapThms.v
theories/CapProps.v
theories/VCapSpec.v
theories/VCapThms.v
theories/VCapProps.v
theories/ReuseThms.v
theories/ReuseProps.v
theories/KeyModel.v
theories/KeySpec.v
theories/KeyThms.v
theories/KeyProps.v
theories/MNodesModel.v
theories/MNodesThms.v
theories/MNodesProps.v
theories/DynStaleThms.v
theories/DynStaleProps.v
