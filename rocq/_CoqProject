-Q theories Verif
theories/Base.v
theories/F32.v
theories/Arith.v
theories/Geom.v
theories/NdArray.v
theories/GridMap.v
theories/RayCaster.v
theories/NoiseModel.v
theories/F64.v
theories/Kitti.v
theories/RepoTests.v
theories/FloatFacts.v
theories/RoundError.v
theories/Spec.v
theories/MathProofs.v
theories/SpecOdds.v
theories/OddsProofs.v
theories/ConverterProofs.v
theories/GeomProofs.v
theories/BoundsProofs.v
theories/CloudProofs.v
theories/TransformProofs.v
theories/ApproxProofs.v
theories/SpecMap.v
theories/NdProofs.v
theories/GridProofs.v
theories/ExpandProofs.v
theories/UnalignedProofs.v
theories/MapProofs.v
theories/AlignProofs.v
theories/BuiltProofs.v
theories/RayProofs.v
theories/CastProofs.v
theories/RaysProofs.v
theories/SpecNoise.v
theories/NoiseProofs.v
theories/IndexProofs.v
theories/IdealRay.v
theories/RayRange.v
theories/SpecRay.v
theories/MergeProofs.v
theories/ReturnProofs.v
theories/MirrorProofs.v
theories/RayReach.v
theories/IntegrateRange.v
theories/RayLimit.v
theories/ScanProofs.v
theories/ForgetProofs.v
theories/OrderProofs.v
theories/SpecKitti.v
theories/KittiProofs.v
theories/OxtProofs.v
theories/DirProofs.v
theories/GpsProofs.v
theories/Viz.v
theories/Pose.v
theories/Resize.v
theories/Draw.v
theories/SpecViz.v
theories/SpecPose.v
theories/SpecMain.v
theories/SpecDraw.v
theories/VizProofs.v
theories/MainProofs.v
theories/PoseProofs.v
theories/StartProofs.v
theories/ProgramProofs.v
theories/LiveProofs.v
theories/CornerProofs.v
theories/SettleProofs.v
theories/Examples.v
theories/ExamplesGeom.v
theories/ExamplesRay.v
theories/ExamplesMerge.v
theories/ExamplesMap.v
theories/ExamplesNoise.v
theories/ExamplesReturn.v
theories/ExamplesMirror.v
theories/ExamplesKitti.v
theories/ExamplesViz.v
theories/ExamplesLive.v
theories/ExamplesForget.v
theories/ExamplesOrder.v
theories/ExamplesSettle.v
theories/ExamplesPose.v
theories/PropsMath.v
theories/BoundaryProofs.v
theories/PropsConverter.v
theories/PropsGeom.v
theories/SpecBuilt.v
theories/BuiltReal.v
theories/ExamplesBuilt.v
theories/PropsMap.v
theories/PropsRay.v
theories/IndexPoints.v
theories/ExamplesIndex.v
theories/PropsNoise.v
theories/PropsTaken.v
theories/PropsMirror.v
theories/PropsKitti.v
theories/PropsViz.v
theories/ResizeProofs.v
theories/ExamplesResize.v
theories/SceneProofs.v
theories/ExamplesScene.v
theories/DrawProofs.v
theories/ExamplesDraw.v
theories/PropsDraw.v
theories/PropsMain.v
theories/PropsResize.v
theories/PropsOdds.v
theories/PropsSettle.v
theories/PropsOrder.v
theories/ScaleFacts.v
theories/SpecScale.v
theories/ScaleProofs.v
theories/ScaleMapProofs.v
theories/ExamplesScale.v
theories/PropsScale.v
theories/SpecExtent.v
theories/ExtentProofs.v
theories/ExamplesExtent.v
theories/PropsExtent.v
theories/SpecSwap.v
theories/SwapProofs.v
theories/SwapMapProofs.v
theories/ExamplesSwap.v
theories/PropsSwap.v
theories/Number.v
theories/SpecNumber.v
theories/NumberProofs.v
theories/NumberRoundProofs.v
theories/NumberReadProofs.v
theories/ExamplesNumber.v
theories/PropsNumber.v
theories/SpecShift.v
theories/ShiftProofs.v
theories/ShiftFloatProofs.v
theories/MoveFloatProofs.v
theories/ShiftMapProofs.v
theories/ShiftGrowProofs.v
theories/ExamplesShift.v
theories/PropsShift.v
theories/SpecMove.v
theories/MoveProofs.v
theories/MoveMapProofs.v
theories/ExamplesMove.v
theories/PropsMove.v
theories/SpecBack.v
theories/BackProofs.v
theories/ExamplesBack.v
theories/SameProofs.v
theories/LimitSameProofs.v
theories/ExamplesSame.v
theories/PropsBack.v
theories/PropsSame.v
theories/SplitProofs.v
theories/ExamplesSplit.v
theories/PropsSplit.v
theories/SpecMeet.v
theories/MeetProofs.v
theories/MeetMapProofs.v
theories/ExamplesMeet.v
theories/PropsMeet.v
theories/SpecText.v
theories/TextProofs.v
theories/ExamplesText.v
theories/PropsText.v
theories/SpecNear.v
theories/NearProofs.v
theories/NearMapProofs.v
theories/ExamplesNear.v
theories/PropsNear.v
theories/SpecWorld.v
theories/WorldProofs.v
theories/WorldMapProofs.v
theories/ExamplesWorld.v
theories/PropsWorld.v
theories/SpecWall.v
theories/WallProofs.v
theories/ExamplesWall.v
theories/PropsWall.v
theories/SpecTour.v
theories/TourProofs.v
theories/TourFileProofs.v
theories/ExamplesTour.v
theories/PropsTour.v
theories/SpecFull.v
theories/FullProofs.v
theories/ExamplesFull.v
theories/PropsFull.v
theories/SpecDrive.v
theories/DriveProofs.v
theories/ExamplesDrive.v
theories/PropsDrive.v
