-Q theories Verif
theories/Base.v
theories/BaseLemmas.v
theories/UndoModel.v
theories/UndoSpec.v
theories/UndoProofs.v
theories/UndoProofs2.v
theories/UndoProps.v
theories/ActionModel.v
theories/ActionSpec.v
theories/ActionProofs.v
theories/ActionProps.v
theories/FloatModel.v
theories/FloatProofs.v
theories/FloatProps.v
theories/MeshModel.v
theories/MeshSpec.v
theories/MeshProofs.v
theories/MeshAdj.v
theories/MeshConstruct.v
theories/MeshUndo.v
theories/MeshEdits.v
theories/MeshEdits2.v
theories/MeshMerge.v
theories/MeshFacts.v
theories/MeshWitness.v
theories/MeshProps.v
theories/FloatReal.v
theories/UtilModel.v
theories/UtilSpec.v
theories/UtilProofs.v
theories/UtilSort.v
theories/UtilProps.v
theories/PolyModel.v
theories/PolySpec.v
theories/PolyProofs.v
theories/BoxProofs.v
theories/PolyProps.v
theories/ApiModel.v
theories/ApiSpec.v
theories/ApiProofs.v
theories/ApiUndo.v
theories/ApiSafety.v
theories/ApiMemory.v
theories/ApiFinal.v
theories/ApiWitness.v
theories/ApiProps.v
theories/GeomModel.v
theories/GeomSpec.v
theories/GeomProofs.v
theories/GeomArea.v
theories/GeomWitness.v
theories/GeomProps.v
theories/FaceModel.v
theories/FaceSpec.v
theories/GridModel.v
theories/GridSpec.v
theories/GridProofs.v
theories/GridClean.v
theories/GridTypes.v
theories/GridEdits.v
theories/GridPolygon.v
theories/GridLines.v
theories/GridFace.v
theories/GridRefine.v
theories/GridBorder.v
theories/GridHistory.v
theories/GridBoundary.v
theories/FaceProofs.v
theories/FaceSearch.v
theories/FaceMain.v
theories/FaceProps.v
theories/FaceUseModel.v
theories/FaceUseSpec.v
theories/FaceUse.v
theories/FaceRegions.v
theories/FaceExport.v
theories/FaceUseMain.v
theories/FaceUseProps.v
theories/GridMain.v
theories/GridWitness.v
theories/GridProps.v
theories/NetworkModel.v
theories/NetworkSpec.v
theories/NetworkProofs.v
theories/NetworkMain.v
theories/NetworkProps.v
theories/AverageModel.v
theories/AverageSpec.v
theories/AverageProofs.v
theories/AverageMain.v
theories/AverageProps.v
theories/ContactsModel.v
theories/ContactsSpec.v
theories/ContactsProofs.v
theories/ContactsMain.v
theories/ContactsOther.v
theories/ContactsBoundary.v
theories/ContactsWitness.v
theories/ContactsProps.v
theories/SplitModel.v
theories/SplitSpec.v
theories/SplitProofs.v
theories/SplitMain.v
theories/SplitEffect.v
theories/SplitLoop.v
theories/SplitFinal.v
theories/SplitWitness.v
theories/SplitProps.v
theories/ConvertModel.v
theories/ConvertSpec.v
theories/ConvertProofs.v
theories/ConvertMain.v
theories/ConvertFront.v
theories/ConvertGrow.v
theories/ConvertFinal.v
theories/ConvertComplete.v
theories/ConvertTop.v
theories/ConvertWitness.v
theories/ConvertProps.v
theories/FlipModel.v
theories/FlipSpec.v
theories/FlipProofs.v
theories/FlipStep.v
theories/FlipMain.v
theories/FlipFinal.v
theories/NodeTypeModel.v
theories/NodeTypeSpec.v
theories/NodeTypeProofs.v
theories/FlipWitness.v
theories/FlipProps.v
theories/RefineModel.v
theories/RefineSpec.v
theories/RefineProofs.v
theories/RefineSpread.v
theories/RefineSplit.v
theories/RefineHang.v
theories/RefineBrothers.v
theories/RefineMasks.v
theories/RefineWhole.v
theories/RefineExact.v
theories/RefineUniform.v
theories/RefineFinal.v
theories/RefineWitness.v
theories/RefineProps.v
theories/LandSpec.v
theories/LandModel.v
theories/LandNear.v
theories/LandFaces.v
theories/FloatSum.v
theories/LandPaths.v
theories/LandWalk.v
theories/LandWhole.v
theories/LandAssign.v
theories/LandWitness.v
theories/LandProps.v
theories/CasulliModel.v
theories/CasulliSpec.v
theories/CasulliWalk.v
theories/CasulliMask.v
theories/CasulliTable.v
theories/CasulliNodes.v
theories/CasulliConnect.v
theories/CasulliFinal.v
theories/CasulliMain.v
theories/CasulliWitness.v
theories/CasulliProps.v
theories/GridMoveModel.v
theories/GridMoveSpec.v
theories/GridMoveProofs.v
theories/GridMoveSmooth.v
theories/GridMoveAttract.v
theories/GridMoveShift.v
theories/GridMoveSnap.v
theories/GridMoveMirror.v
theories/GridMoveWitness.v
theories/GridMoveProps.v
theories/GridMakeModel.v
theories/GridMakeSpec.v
theories/GridMakeProofs.v
theories/GridMakeFloat.v
theories/GridMakeMeasure.v
theories/GridMakeWitness.v
theories/GridMakeProps.v
theories/PolyEditModel.v
theories/PolyEditSpec.v
theories/PolyEditProofs.v
theories/PolyEditWitness.v
theories/PolyEditProps.v
theories/GridCircleModel.v
theories/GridCircleSpec.v
theories/GridCircleProofs.v
theories/GridCircleWitness.v
theories/GridCircleProps.v
theories/GlobalModel.v
theories/GlobalSpec.v
theories/GlobalProofs.v
theories/GlobalWitness.v
theories/GlobalProps.v
