-Q theories Verif
theories/Base/Bits.v
theories/Base/Bytes.v
theories/Base/F32.v
theories/Base/GoNum.v
theories/Base/Grid.v
theories/Base/Num.v
theories/Base/Res.v
theories/Model/Bounds.v
theories/Model/BuildLog.v
theories/Model/BuildMesh.v
theories/Model/BvTree.v
theories/Model/ChunkyMesh.v
theories/Model/Compact.v
theories/Model/Contour.v
theories/Model/ContourGeom.v
theories/Model/Create.v
theories/Model/Delaunay.v
theories/Model/Dirs.v
theories/Model/Erode.v
theories/Model/Filter.v
theories/Model/FindPath.v
theories/Model/Geom.v
theories/Model/HeightData.v
theories/Model/HeightSearch.v
theories/Model/Heightfield.v
theories/Model/Holes.v
theories/Model/Hull.v
theories/Model/InputGeom.v
theories/Model/MeshDetail.v
theories/Model/MeshLinks.v
theories/Model/MeshLoader.v
theories/Model/MeshTiles.v
theories/Model/MeshTypes.v
theories/Model/NavData.v
theories/Model/Node.v
theories/Model/NodeQueue.v
theories/Model/Poly.v
theories/Model/PolyDetail.v
theories/Model/PolyMeshOps.v
theories/Model/PolyRef.v
theories/Model/Raster.v
theories/Model/Raycast.v
theories/Model/Region.v
theories/Model/RegionMerge.v
theories/Model/SegDist.v
theories/Model/Serial.v
theories/Model/Sliced.v
theories/Model/SoloMesh.v
theories/Model/Status.v
theories/Model/StraightPath.v
theories/Model/TileQuery.v
theories/Model/Triangulate.v
theories/Model/WalkableTris.v
theories/Proofs/AdjacencyProofs.v
theories/Proofs/BasicsProofs.v
theories/Proofs/BuildAll.v
theories/Proofs/BuildProofs.v
theories/Proofs/BuildTop.v
theories/Proofs/BvProofs.v
theories/Proofs/ChunkyBuild.v
theories/Proofs/ChunkyProofs.v
theories/Proofs/ChunkyQuery.v
theories/Proofs/CompactProofs.v
theories/Proofs/CreateAll.v
theories/Proofs/CreateBase.v
theories/Proofs/CreateNeeds.v
theories/Proofs/CreateProofs.v
theories/Proofs/CreateTile.v
theories/Proofs/DelaunayArea.v
theories/Proofs/DelaunayGeo.v
theories/Proofs/DelaunayLoop.v
theories/Proofs/DelaunayPick.v
theories/Proofs/DelaunayRows.v
theories/Proofs/DelaunayTable.v
theories/Proofs/DirsProofs.v
theories/Proofs/DivideProofs.v
theories/Proofs/DivideQ.v
theories/Proofs/EdgeProofs.v
theories/Proofs/ErodeDist.v
theories/Proofs/ErodeOpen.v
theories/Proofs/ErodeProofs.v
theories/Proofs/FilterProofs.v
theories/Proofs/FindPathEnd.v
theories/Proofs/FindPathProofs.v
theories/Proofs/FitProofs.v
theories/Proofs/FloatAdd.v
theories/Proofs/FloatDiv.v
theories/Proofs/FloatMag.v
theories/Proofs/FloatMono.v
theories/Proofs/FloatOk.v
theories/Proofs/HeightCenter.v
theories/Proofs/HeightFlood.v
theories/Proofs/HeightRegion.v
theories/Proofs/HeightfieldProofs.v
theories/Proofs/HolesProofs.v
theories/Proofs/HullProofs.v
theories/Proofs/IntLinkProofs.v
theories/Proofs/LinkProofs.v
theories/Proofs/LinkTile.v
theories/Proofs/LinkValid.v
theories/Proofs/MergeBase.v
theories/Proofs/MergeCollect.v
theories/Proofs/MergeCompress.v
theories/Proofs/MergeFilter.v
theories/Proofs/MergeJoin.v
theories/Proofs/MergeLoop.v
theories/Proofs/MergeProofs.v
theories/Proofs/MeshDetailProofs.v
theories/Proofs/MeshHist.v
theories/Proofs/MeshInv.v
theories/Proofs/MeshQueryProofs.v
theories/Proofs/MeshStep.v
theories/Proofs/NavDataProofs.v
theories/Proofs/NearProofs.v
theories/Proofs/NodePoolProofs.v
theories/Proofs/NodePoolRefine.v
theories/Proofs/NodeQueueProofs.v
theories/Proofs/OpenList.v
theories/Proofs/PipelineProofs.v
theories/Proofs/PlaneProofs.v
theories/Proofs/PolyDetailEdge.v
theories/Proofs/PolyDetailRefine.v
theories/Proofs/PolyRefProofs.v
theories/Proofs/PortalProofs.v
theories/Proofs/QuantProofs.v
theories/Proofs/RasterProofs.v
theories/Proofs/RayProofs.v
theories/Proofs/RegionBase.v
theories/Proofs/RegionMergeProofs.v
theories/Proofs/RegionRow.v
theories/Proofs/RegionSweep.v
theories/Proofs/RemoveProofs.v
theories/Proofs/RemoveVertex.v
theories/Proofs/SaveProofs.v
theories/Proofs/ScanProofs.v
theories/Proofs/SearchEnd.v
theories/Proofs/SearchInv.v
theories/Proofs/SearchStep.v
theories/Proofs/SegProofs.v
theories/Proofs/SerialProofs.v
theories/Proofs/SimplifyEnd.v
theories/Proofs/SimplifyMain.v
theories/Proofs/SimplifyProofs.v
theories/Proofs/SlicedEnd.v
theories/Proofs/SlicedPath.v
theories/Proofs/SlicedProofs.v
theories/Proofs/SlotProofs.v
theories/Proofs/SpiralProofs.v
theories/Proofs/StraightEnd.v
theories/Proofs/StraightProofs.v
theories/Proofs/TableProofs.v
theories/Proofs/TileQueryProofs.v
theories/Proofs/ToolProofs.v
theories/Proofs/TraceAll.v
theories/Proofs/TraceEnd.v
theories/Proofs/TraceRegions.v
theories/Proofs/TraceStep.v
theories/Proofs/TraceVert.v
theories/Proofs/TraceWalk.v
theories/Proofs/TriangulateProofs.v
theories/Proofs/WalkableTrisProofs.v
theories/Proofs/WeldProofs.v
theories/Properties/BuildMesh.v
theories/Properties/Chunky.v
theories/Properties/ContourSimplify.v
theories/Properties/Contours.v
theories/Properties/Delaunay.v
theories/Properties/DetourBasics.v
theories/Properties/DetourBv.v
theories/Properties/DetourCreate.v
theories/Properties/DetourMesh.v
theories/Properties/DetourNodes.v
theories/Properties/DetourPath.v
theories/Properties/DetourPathEnd.v
theories/Properties/DetourQuant.v
theories/Properties/DetourRay.v
theories/Properties/DetourSave.v
theories/Properties/DetourSerial.v
theories/Properties/DetourSliced.v
theories/Properties/DetourStraight.v
theories/Properties/Erode.v
theories/Properties/ExampleMesh.v
theories/Properties/Geometry.v
theories/Properties/HeightData.v
theories/Properties/HeightSearch.v
theories/Properties/HoleMerge.v
theories/Properties/Hull.v
theories/Properties/MeshDetail.v
theories/Properties/Pipeline.v
theories/Properties/PolyDetail.v
theories/Properties/PolyMesh.v
theories/Properties/Raster.v
theories/Properties/RecastHeightfield.v
theories/Properties/RecastTools.v
theories/Properties/RegionMerge.v
theories/Properties/Regions.v
theories/Properties/RemoveVertex.v
theories/Properties/TileBuild.v
theories/Properties/WalkableTris.v
theories/Spec/AreaSpec.v
theories/Spec/BuildSpec.v
theories/Spec/BvSpec.v
theories/Spec/ChunkySpec.v
theories/Spec/CompactSpec.v
theories/Spec/ContourSpec.v
theories/Spec/CreateSpec.v
theories/Spec/DelaunaySpec.v
theories/Spec/DivideSpec.v
theories/Spec/ErodeSpec.v
theories/Spec/HeightSpec.v
theories/Spec/HeightfieldSpec.v
theories/Spec/HolesSpec.v
theories/Spec/HullSpec.v
theories/Spec/LinkSpec.v
theories/Spec/MergeSpec.v
theories/Spec/MeshDetailSpec.v
theories/Spec/MeshOpsSpec.v
theories/Spec/MeshSpec.v
theories/Spec/NavDataSpec.v
theories/Spec/NodePoolSpec.v
theories/Spec/PathSpec.v
theories/Spec/PipelineSpec.v
theories/Spec/PlaneSpec.v
theories/Spec/PolyDetailSpec.v
theories/Spec/QuantSpec.v
theories/Spec/QuerySpec.v
theories/Spec/RaySpec.v
theories/Spec/RegionSpec.v
theories/Spec/SegSpec.v
theories/Spec/SerialSpec.v
theories/Spec/SlicedSpec.v
theories/Spec/SpiralSpec.v
theories/Spec/StraightSpec.v
theories/Spec/ToolSpec.v
theories/Spec/TraceSpec.v
theories/Spec/WalkableTrisSpec.v
