-Q theories Verif

theories/Res.v
theories/DbvtModel.v
theories/DbvtGhost.v
theories/DbvtInv.v
theories/DbvtInsert.v
theories/DbvtRemove.v
theories/DbvtRotate.v
theories/DbvtRefit.v
theories/DbvtUpdate.v
theories/DbvtQuery.v
theories/DbvtSpec.v
theories/DbvtHistory.v
theories/PropsDbvt.v
theories/DbvtExample.v
theories/DbvtVisitors.v
theories/PropsRay.v
theories/PropsRotation.v
theories/PropsStack.v
theories/Num.v
theories/FloatMono.v
theories/BroadModel.v
theories/PropsBroad.v
theories/Vec.v
theories/AabbModel.v
theories/AabbTree.v
theories/PropsAabb.v
theories/Xr.v
theories/PropsRayBox.v
theories/PropsAgree.v
theories/PropsAabbTree.v
theories/AabbTreeExample.v
theories/PropsAabbReal.v
theories/GeoModel.v
theories/RealGeo.v
theories/PropsSphere.v
theories/PropsPlane.v
theories/PropsLine.v
theories/PrimModel.v
theories/ShapeSpec.v
theories/PropsSupport.v
theories/MinkModel.v
theories/MinkSpec.v
theories/Gjk2.v
theories/PropsGjk2.v
theories/Gjk3.v
theories/PropsGjk3.v
theories/Epa2.v
theories/PropsEpa2.v
theories/Dist.v
theories/PrimEnum.v
theories/XformModel.v
theories/PropsDist.v
theories/PropsNarrow.v
theories/Toi2.v
theories/PropsToi.v
theories/PropsToiHang.v
theories/ToiHalt.v
theories/Complex.v
theories/ComplexModel.v
theories/PropsComplex.v
theories/PropsBound.v
theories/RaySpec.v
theories/PropsPrimRay.v
theories/CylRay.v
theories/PropsCylRay.v
theories/PropsCapRay.v
theories/PropsBoxRay.v
theories/PropsPolyRay.v
theories/PropsXform.v
theories/MeshSpec.v
theories/MeshModel.v
theories/MeshBuild.v
theories/MeshGeo.v
theories/MeshClimb.v
theories/PropsMesh.v
theories/MeshCover.v
theories/MeshRay.v
theories/MeshFind.v
theories/PropsMeshRay.v
theories/PropsDedup.v
theories/Epa3Chain.v
theories/Epa3Cover.v
theories/Epa3.v
theories/PropsEpa3.v
theories/PrimRay.v
theories/PropsPrimXf.v
theories/InterpModel.v
theories/PropsInterp.v
theories/PropsMet.v
theories/PropsCull.v
theories/PropsSphereTree.v
theories/PropsPipeline.v
theories/PropsRobust.v
theories/PropsEpaXr.v
theories/ApproxModel.v
theories/PropsApprox.v
theories/PropsExtra.v
theories/PropsToiHalt.v
theories/DistBox.v
theories/PropsDistBox.v
theories/PropsDist3.v
theories/PropsComplex3.v
theories/Toi3.v
theories/PropsToi3.v
theories/PropsToiHang3.v
theories/PropsToiHang3R.v
theories/PropsAxis.v
theories/PropsHill.v
theories/ConformGjk.v
theories/ConformPrim.v
theories/ConformTree.v
theories/ConformVol.v
theories/PropsFloatSup.v
