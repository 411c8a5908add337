-Q theories Verif
theories/AABBModel.v
theories/AABBProofs.v
theories/AABBSpec.v
theories/ABBoxModel.v
theories/ABBoxProofs.v
theories/ArrayModel.v
theories/ArrayProofs.v
theories/ArraySpec.v
theories/BVHModel.v
theories/BVHProofs.v
theories/BVHQuery.v
theories/BVHSpec.v
theories/BVHWalk.v
theories/BitSetModel.v
theories/BitSetProofs.v
theories/BitSetProofs2.v
theories/BitSetSpec.v
theories/BoolModel.v
theories/BoolProofs.v
theories/BoolSpec.v
theories/BoxModel.v
theories/BoxProofs.v
theories/BoxSpec.v
theories/ConeModel.v
theories/ConeProofs.v
theories/ConeSpec.v
theories/CutTubeModel.v
theories/CutTubeModel2.v
theories/CutTubeSpec.v
theories/EllConeModel.v
theories/EllConeProofs.v
theories/EllConeProofs2.v
theories/EllConeProofs3.v
theories/EllConeSpec.v
theories/EllTubeModel.v
theories/EllTubeProofs.v
theories/EllTubeProofs2.v
theories/EllTubeProofs3.v
theories/EllTubeProofs4.v
theories/EllTubeSpec.v
theories/EllipsoidModel.v
theories/EllipsoidProofs.v
theories/EllipsoidProofs2.v
theories/EllipsoidProofs3.v
theories/EllipsoidProofs4.v
theories/EllipsoidSpec.v
theories/ExtentModel.v
theories/ExtentProofs.v
theories/ExtentSpec.v
theories/FlattenModel.v
theories/FlattenProofs.v
theories/FlattenSpec.v
theories/GeoManagerModel.v
theories/GeoManagerProofs.v
theories/GeoManagerProofs2.v
theories/GeoManagerProofs3.v
theories/GeoManagerProofs4.v
theories/GeoManagerProofs5.v
theories/GeoManagerSpec.v
theories/GeoVisitProofs.v
theories/HybridModel.v
theories/HybridProofs.v
theories/HybridQuery.v
theories/HybridSpec.v
theories/LocateModel.v
theories/LocateProofs.v
theories/LocateSpec.v
theories/MultiUnionModel.v
theories/MultiUnionProofs.v
theories/MultiUnionSpec.v
theories/NavPathModel.v
theories/NavPathProofs.v
theories/NavPathProofs2.v
theories/NavPathProofs3.v
theories/NavPathSpec.v
theories/NavStateProofs.v
theories/NavTableModel.v
theories/NavTableProofs.v
theories/NavTableSpec.v
theories/NonZeroProofs.v
theories/OrbModel.v
theories/OrbProofs.v
theories/OrbSpec.v
theories/ParaModel.v
theories/ParaProofs.v
theories/ParaSpec.v
theories/ParabModel.v
theories/ParabProofs.v
theories/ParabProofs2.v
theories/ParabProofs3.v
theories/ParabSpec.v
theories/PlanesModel.v
theories/PlanesProofs.v
theories/PlanesProofs2.v
theories/PlanesProofs3.v
theories/PlanesSpec.v
theories/PolyconeModel.v
theories/PolyconeProofs.v
theories/PolyconeProofs2.v
theories/PolyconeProofs3.v
theories/PolyconeProofs4.v
theories/PolyconeProofs5.v
theories/PolyconeProofs6.v
theories/PolyconeProofs7.v
theories/PolyconeSpec.v
theories/PolygonModel.v
theories/PolygonProofs.v
theories/PolygonProofs2.v
theories/PolygonProofs3.v
theories/PolygonProofs4.v
theories/PolygonSpec.v
theories/PropArray.v
theories/PropBVH.v
theories/PropBitSet.v
theories/PropBool.v
theories/PropBox.v
theories/PropCone.v
theories/PropCutTube.v
theories/PropCutTube2.v
theories/PropCutTube3.v
theories/PropCutTube4.v
theories/PropEllCone.v
theories/PropEllCone2.v
theories/PropEllCone3.v
theories/PropEllCone4.v
theories/PropEllTube.v
theories/PropEllTube2.v
theories/PropEllTube3.v
theories/PropEllTube4.v
theories/PropEllipsoid.v
theories/PropEllipsoid2.v
theories/PropEllipsoid3.v
theories/PropExtent.v
theories/PropFlatten.v
theories/PropGeoManager.v
theories/PropLocate.v
theories/PropMultiUnion.v
theories/PropNav.v
theories/PropOrb.v
theories/PropPara.v
theories/PropPara2.v
theories/PropPara3.v
theories/PropParab.v
theories/PropParab2.v
theories/PropParab3.v
theories/PropPlanes.v
theories/PropPolycone.v
theories/PropPolygon.v
theories/PropPolygon2.v
theories/PropPolygon3.v
theories/PropRng.v
theories/PropSExtru.v
theories/PropSExtru2.v
theories/PropSExtru3.v
theories/PropSafety.v
theories/PropScaled.v
theories/PropSearch.v
theories/PropShell.v
theories/PropStep.v
theories/PropTet.v
theories/PropTransform.v
theories/PropTrap.v
theories/PropTrap2.v
theories/PropTrap3.v
theories/PropTrap4.v
theories/PropTrd.v
theories/PropTrd2.v
theories/PropTrd3.v
theories/PropTrd4.v
theories/PropTube.v
theories/PropTube2.v
theories/PropTube3.v
theories/PropTube4.v
theories/PropTube5.v
theories/PropTube6.v
theories/PropVector.v
theories/PropVoxel.v
theories/PropWedge.v
theories/Real3.v
theories/RngModel.v
theories/SExtruModel.v
theories/SExtruProofs.v
theories/SExtruSpec.v
theories/SafetyModel.v
theories/SafetyProofs.v
theories/SafetySpec.v
theories/ScaledModel.v
theories/ScaledProofs.v
theories/ScaledSpec.v
theories/SearchModel.v
theories/SearchProofs.v
theories/SearchSpec.v
theories/ShapeModel.v
theories/SortModel.v
theories/SortProofs.v
theories/StepModel.v
theories/StepProofs.v
theories/StepSpec.v
theories/TetModel.v
theories/TetProofs.v
theories/TetProofs2.v
theories/TetProofs3.v
theories/TransModel.v
theories/TransProofs.v
theories/TransProofs2.v
theories/TransSpec.v
theories/TrapModel.v
theories/TrapProofs.v
theories/TrapProofs2.v
theories/TrapSpec.v
theories/TrdModel.v
theories/TrdProofs.v
theories/TrdProofs2.v
theories/TrdSpec.v
theories/TubeModel.v
theories/TubeProofs.v
theories/TubeProofs2.v
theories/TubeProofs3.v
theories/TubeProofs4.v
theories/TubeProofs5.v
theories/TubeProofs6.v
theories/TubeSpec.v
theories/VectorModel.v
theories/VectorProofs.v
theories/VectorSpec.v
theories/VoxelLocate.v
theories/VoxelModel.v
theories/VoxelProofs.v
theories/VoxelSpec.v
theories/WedgeModel.v
theories/WedgeProofs.v
theories/WedgeProofs2.v
theories/WedgeSpec.v
