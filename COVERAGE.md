# Functions and the model files that cite them

Generated by `tools/coverage.py` from the line citations in the model. A function with no model file is not
modelled. The cited share is the part of its lines within a citation; what a definition leaves out is said in its comment.

259 of 327 functions are cited.

## detour/common.go

| function | lines | model | cited |
|---|---|---|---|
| `TriArea2D` | 18-24 | Geom | 100% |
| `IntersectSegSeg2D` | 28-38 | Geom | 100% |
| `OverlapQuantBounds` | 49-62 | Bounds | 100% |
| `OverlapBounds` | 74-85 | Bounds | 100% |
| `distancePtPolyEdgesSqr` | 87-101 | Geom | 100% |
| `IntersectSegmentPoly2D` | 103-153 | Geom | 100% |
| `distancePtSegSqr2D` | 155-173 | Geom | 100% |
| `closestHeightPointTriangle` | 175-202 | Geom | 100% |
| `oppositeTile` | 204-206 | Bounds | 100% |

## detour/mesh.go

| function | lines | model | cited |
|---|---|---|---|
| `Decode` | 68-124 | MeshTiles, Serial | 100% |
| `NavMesh.SaveToFile` | 127-134 | not modelled |  |
| `NavMesh.ToWriter` | 137-178 | MeshTiles | 100% |
| `NavMesh.Size` | 181-198 | MeshTiles | 100% |
| `NavMesh.InitForSingleTile` | 210-236 | MeshTiles | 100% |
| `NavMesh.Init` | 244-283 | MeshTiles, PolyRef | 100% |
| `NavMesh.AddTile` | 310-438 | MeshTiles | 100% |
| `NavMesh.RemoveTile` | 453-538 | MeshTiles | 100% |
| `NavMesh.TileAt` | 548-567 | MeshTiles | 100% |
| `NavMesh.connectIntLinks` | 569-610 | MeshLinks | 100% |
| `NavMesh.polyRefBase` | 624-631 | MeshLinks | 100% |
| `computeTileHash` | 633-640 | MeshTiles | 100% |
| `allocLink` | 642-649 | MeshLinks | 100% |
| `freeLink` | 651-654 | MeshLinks | 100% |
| `NavMesh.encodePolyID` | 662-665 | PolyRef | 100% |
| `NavMesh.decodePolyIDTile` | 767-770 | PolyRef | 100% |
| `NavMesh.decodePolyIDSalt` | 775-778 | PolyRef | 100% |
| `NavMesh.baseOffMeshLinks` | 781-851 | MeshLinks | 100% |
| `NavMesh.FindNearestPolyInTile` | 854-898 | MeshLinks | 100% |
| `NavMesh.queryPolygonsInTile` | 901-994 | MeshLinks | 100% |
| `NavMesh.decodePolyIDPoly` | 1000-1003 | PolyRef | 100% |
| `NavMesh.closestPointOnPoly` | 1012-1102 | MeshLinks | 100% |
| `NavMesh.TileAndPolyByRefUnsafe` | 1111-1116 | MeshLinks | 100% |
| `NavMesh.DecodePolyID` | 1128-1136 | PolyRef | 100% |
| `NavMesh.connectExtOffMeshLinks` | 1139-1221 | MeshLinks | 100% |
| `NavMesh.TilesAt` | 1235-1251 | MeshTiles | 100% |
| `NavMesh.connectExtLinks` | 1254-1319 | MeshLinks | 100% |
| `NavMesh.findConnectingPolys` | 1323-1388 | MeshLinks | 100% |
| `NavMesh.unconnectLinks` | 1390-1419 | MeshLinks | 100% |
| `calcSlabEndPoints` | 1421-1447 | MeshLinks | 100% |
| `slabCoord` | 1449-1456 | MeshLinks | 100% |
| `overlapSlabs` | 1458-1492 | MeshLinks | 100% |
| `NavMesh.neighbourTilesAt` | 1495-1522 | Bounds, MeshTiles | 100% |
| `NavMesh.TileRefAt` | 1534-1548 | MeshTiles | 100% |
| `NavMesh.TileByRef` | 1550-1564 | MeshTiles | 100% |
| `NavMesh.TileRefAt` | 1567-1581 | not modelled |  |
| `NavMesh.TileRef` | 1585-1592 | not modelled |  |
| `NavMesh.IsValidPolyRef` | 1595-1611 | MeshTiles | 100% |
| `NavMesh.TileAndPolyByRef` | 1622-1640 | MeshTiles, StraightPath | 100% |
| `NavMesh.CalcTileLoc` | 1649-1653 | MeshTiles | 100% |

## detour/navmeshcreate.go

| function | lines | model | cited |
|---|---|---|---|
| `calcExtends` | 19-50 | BvTree | 100% |
| `longestAxis` | 52-63 | BvTree | 100% |
| `subdivide` | 65-248 | BvTree | 100% |
| `int32Clamp` | 250-258 | BvTree | 100% |
| `createBVTree` | 260-339 | BvTree | 100% |
| `classifyOffMeshPoint` | 341-385 | SegDist | 100% |
| `CreateNavMeshData` | 547-925 | Create | 100% |

## detour/node.go

| function | lines | model | cited |
|---|---|---|---|
| `hashRef` | 12-20 | Node | 100% |
| `newNode` | 60-64 | not modelled |  |
| `newNodePool` | 80-112 | Node | 100% |
| `NodePool.Clear` | 115-121 | Node | 100% |
| `NodePool.Node` | 127-160 | Node | 100% |
| `NodePool.FindNode` | 164-174 | Node | 100% |
| `NodePool.FindNodes` | 181-198 | Node | 100% |
| `NodePool.NodeIdx` | 201-208 | Node | 100% |
| `NodePool.NodeAtIdx` | 211-216 | Node | 100% |
| `NodePool.MemUsed` | 220-226 | not modelled |  |
| `NodePool.MaxNodes` | 230-232 | not modelled |  |
| `NodePool.HashSize` | 235-237 | not modelled |  |
| `NodePool.First` | 240-242 | not modelled |  |
| `NodePool.Next` | 245-247 | not modelled |  |
| `NodePool.NodeCount` | 250-252 | not modelled |  |

## detour/nodequeue.go

| function | lines | model | cited |
|---|---|---|---|
| `newnodeQueue` | 16-26 | NodeQueue | 100% |
| `nodeQueue.bubbleUp` | 28-37 | NodeQueue | 100% |
| `nodeQueue.trickleDown` | 39-51 | NodeQueue | 100% |
| `nodeQueue.clear` | 53-55 | NodeQueue | 100% |
| `nodeQueue.top` | 57-59 | not modelled |  |
| `nodeQueue.pop` | 61-66 | NodeQueue | 100% |
| `nodeQueue.push` | 68-71 | NodeQueue | 100% |
| `nodeQueue.modify` | 73-80 | NodeQueue | 100% |
| `nodeQueue.empty` | 82-84 | NodeQueue | 100% |
| `nodeQueue.memUsed` | 86-90 | not modelled |  |

## detour/poly.go

| function | lines | model | cited |
|---|---|---|---|
| `Poly.SetArea` | 34-36 | Poly | 100% |
| `Poly.SetType` | 39-41 | Poly | 100% |
| `Poly.Area` | 44-46 | Poly | 100% |
| `Poly.Type` | 49-51 | Poly | 100% |
| `CalcPolyCenter` | 58-69 | not modelled |  |

## detour/polyquery.go

| function | lines | model | cited |
|---|---|---|---|
| `newFindNearestPolyQuery` | 29-37 | TileQuery | 100% |
| `findNearestPolyQuery.process` | 39-72 | TileQuery | 94% |
| `newCollectPolysQuery` | 81-89 | TileQuery | 100% |
| `collectPolysQuery.process` | 91-103 | TileQuery | 100% |

## detour/query.go

| function | lines | model | cited |
|---|---|---|---|
| `newQueryData` | 92-97 | not modelled |  |
| `NewNavMeshQuery` | 111-153 | FindPath | 100% |
| `NavMeshQuery.FindPath` | 179-372 | FindPath | 100% |
| `NavMeshQuery.FindStraightPath` | 415-657 | StraightPath | 100% |
| `NavMeshQuery.appendPortals` | 660-721 | StraightPath | 100% |
| `NavMeshQuery.appendVertex` | 724-763 | StraightPath | 100% |
| `NavMeshQuery.edgeMidPoint` | 766-780 | FindPath | 100% |
| `NavMeshQuery.portalPoints6` | 783-806 | StraightPath | 100% |
| `NavMeshQuery.portalPoints8` | 809-880 | FindPath | 100% |
| `NavMeshQuery.pathToNode` | 883-932 | FindPath | 100% |
| `NavMeshQuery.ClosestPointOnPoly` | 941-1040 | TileQuery | 100% |
| `NavMeshQuery.ClosestPointOnPolyBoundary` | 1051-1093 | StraightPath | 100% |
| `NavMeshQuery.FindNearestPoly` | 1113-1131 | TileQuery | 100% |
| `NavMeshQuery.queryPolygons6` | 1152-1176 | not modelled |  |
| `NavMeshQuery.queryPolygons4` | 1193-1221 | TileQuery | 100% |
| `NavMeshQuery.queryPolygonsInTile` | 1224-1348 | TileQuery | 100% |
| `NavMeshQuery.NodePool` | 1351-1353 | not modelled |  |
| `NavMeshQuery.AttachedNavMesh` | 1356-1358 | not modelled |  |
| `NavMeshQuery.IsValidPolyRef` | 1368-1383 | Raycast | 100% |
| `NavMeshQuery.Raycast` | 1435-1666 | Raycast | 100% |
| `NavMeshQuery.Raycast2` | 1701-1711 | Raycast | 100% |
| `NavMeshQuery.InitSlicedFindPath` | 1737-1801 | Sliced | 100% |
| `NavMeshQuery.UpdateSlicedFindPath` | 1811-2031 | Sliced | 100% |
| `NavMeshQuery.FinalizeSlicedFindPath` | 2045-2127 | Sliced | 100% |
| `NavMeshQuery.FinalizeSlicedFindPathPartial` | 2144-2242 | Sliced | 100% |

## detour/queryfilter.go

| function | lines | model | cited |
|---|---|---|---|
| `NewStandardQueryFilter` | 75-84 | Poly | 100% |
| `StandardQueryFilter.AreaCost` | 87-87 | Poly | 100% |
| `StandardQueryFilter.SetAreaCost` | 90-90 | Poly | 100% |
| `StandardQueryFilter.IncludeFlags` | 96-96 | not modelled |  |
| `StandardQueryFilter.SetIncludeFlags` | 99-99 | Poly | 100% |
| `StandardQueryFilter.ExcludeFlags` | 105-105 | not modelled |  |
| `StandardQueryFilter.SetExcludeFlags` | 108-108 | Poly | 100% |
| `StandardQueryFilter.PassFilter` | 116-118 | FindPath, Poly | 100% |
| `StandardQueryFilter.Cost` | 135-141 | FindPath, Poly | 100% |

## detour/status.go

| function | lines | model | cited |
|---|---|---|---|
| `Status.Error` | 26-49 | Status | 100% |
| `StatusSucceed` | 52-54 | Status | 100% |
| `StatusFailed` | 57-59 | Status | 100% |
| `StatusInProgress` | 62-64 | Status | 100% |
| `StatusDetail` | 67-69 | Status | 100% |

## detour/structs.go

| function | lines | model | cited |
|---|---|---|---|
| `navMeshSetHeader.Size` | 16-18 | Serial | 100% |
| `navMeshSetHeader.serialize` | 20-34 | Serial | 100% |
| `navMeshSetHeader.WriteTo` | 36-42 | not modelled |  |
| `NavMeshParams.size` | 59-61 | Serial | 100% |
| `NavMeshParams.serialize` | 66-83 | Serial | 100% |
| `MeshHeader.size` | 110-112 | Serial | 100% |
| `MeshHeader.serialize` | 114-149 | Serial | 100% |
| `MeshHeader.unserialize` | 151-186 | Serial | 100% |

## detour/tile.go

| function | lines | model | cited |
|---|---|---|---|
| `navMeshTileHeader.Size` | 17-19 | not modelled |  |
| `navMeshTileHeader.WriteTo` | 21-27 | not modelled |  |
| `navMeshTileHeader.Serialize` | 29-41 | Serial | 92% |
| `MeshTile.serialize` | 101-103 | not modelled |  |
| `MeshTile.unserialize` | 105-199 | Serial | 100% |
| `serializeTileData` | 201-295 | Serial | 100% |

## recast/area.go

| function | lines | model | cited |
|---|---|---|---|
| `ErodeWalkableArea` | 24-195 | Erode | 100% |
| `MarkConvexPolyArea` | 215-289 | InputGeom | 100% |
| `pointInPoly` | 291-307 | InputGeom | 100% |

## recast/buildcontext.go

| function | lines | model | cited |
|---|---|---|---|
| `NewBuildContext` | 40-45 | BuildLog | 100% |
| `BuildContext.EnableLog` | 48-50 | BuildLog | 100% |
| `BuildContext.EnableTimer` | 53-55 | not modelled |  |
| `BuildContext.ResetLog` | 58-62 | BuildLog | 100% |
| `BuildContext.ResetTimers` | 65-71 | not modelled |  |
| `BuildContext.Progressf` | 77-79 | not modelled |  |
| `BuildContext.Warningf` | 85-87 | not modelled |  |
| `BuildContext.Errorf` | 93-95 | not modelled |  |
| `BuildContext.log` | 101-114 | BuildLog | 100% |
| `BuildContext.DumpLog` | 120-129 | BuildLog | 100% |
| `BuildContext.LogCount` | 132-134 | BuildLog | 100% |
| `BuildContext.LogText` | 137-139 | BuildLog | 100% |
| `BuildContext.StartTimer` | 142-146 | not modelled |  |
| `BuildContext.StopTimer` | 149-158 | not modelled |  |
| `BuildContext.AccumulatedTime` | 165-170 | not modelled |  |

## recast/chunkytrimesh.go

| function | lines | model | cited |
|---|---|---|---|
| `calcExtends` | 29-52 | ChunkyMesh | 100% |
| `longestAxis` | 54-59 | ChunkyMesh | 100% |
| `subdivide` | 61-118 | ChunkyMesh | 100% |
| `createChunkyTriMesh` | 122-191 | ChunkyMesh | 100% |
| `checkOverlapRect` | 193-202 | Bounds, ChunkyMesh | 100% |
| `ChunkyTriMesh.ChunksOverlappingRect` | 205-232 | ChunkyMesh | 96% |
| `checkOverlapSegment` | 234-269 | ChunkyMesh | 100% |
| `ChunkyTriMesh.chunksOverlappingSegment` | 272-296 | ChunkyMesh | 100% |

## recast/contour.go

| function | lines | model | cited |
|---|---|---|---|
| `cornerHeight` | 9-71 | Contour | 100% |
| `mergeRegionHoles` | 97-175 | Holes | 100% |
| `BuildContours` | 204-432 | Contour, NavData, SoloMesh | 100% |
| `walkContour2` | 434-513 | Contour | 100% |
| `distancePtSeg` | 515-535 | SegDist | 100% |
| `simplifyContour` | 537-758 | Contour | 100% |
| `calcAreaOfPolygon2D` | 760-769 | Contour | 100% |
| `prev` | 771-776 | ContourGeom | 100% |
| `next` | 778-783 | ContourGeom | 100% |
| `area2` | 785-787 | ContourGeom | 100% |
| `xorb` | 793-795 | ContourGeom | 100% |
| `left` | 799-801 | ContourGeom | 100% |
| `leftOn` | 803-805 | ContourGeom | 100% |
| `collinear` | 807-809 | ContourGeom | 100% |
| `intersectProp` | 814-822 | ContourGeom | 100% |
| `between` | 826-835 | ContourGeom | 100% |
| `intersect` | 838-845 | ContourGeom | 100% |
| `vequal` | 847-849 | ContourGeom | 100% |
| `removeDegenerateSegments` | 851-873 | Contour | 100% |
| `findLeftMostVertex` | 876-890 | Holes | 100% |
| `mergeContours` | 892-927 | Holes | 100% |
| `compareHoles.Len` | 943-945 | Holes | 100% |
| `compareHoles.Less` | 949-968 | Holes | 100% |
| `compareHoles.Swap` | 971-973 | Holes | 100% |
| `compareDiagDist.Len` | 982-984 | Holes | 100% |
| `compareDiagDist.Less` | 988-1000 | Holes | 100% |
| `compareDiagDist.Swap` | 1003-1005 | Holes | 100% |
| `intersectSegCountour` | 1007-1026 | Holes | 100% |
| `inCone4` | 1028-1040 | Holes | 100% |

## recast/dump.go

| function | lines | model | cited |
|---|---|---|---|
| `logLine` | 5-11 | not modelled |  |
| `LogBuildTimes` | 13-42 | not modelled |  |

## recast/filter.go

| function | lines | model | cited |
|---|---|---|---|
| `FilterLowHangingWalkableObstacles` | 24-54 | Filter | 100% |
| `FilterLedgeSpans` | 77-171 | Filter | 100% |
| `FilterWalkableLowHeightSpans` | 187-213 | Filter | 100% |

## recast/heightfield.go

| function | lines | model | cited |
|---|---|---|---|
| `NewHeightfield` | 47-58 | Heightfield | 100% |
| `Heightfield.Free` | 60-73 | not modelled |  |
| `Heightfield.allocSpan` | 75-107 | not modelled |  |
| `Heightfield.freeSpan` | 109-116 | not modelled |  |
| `Heightfield.addSpan` | 118-190 | Heightfield | 100% |
| `Heightfield.GetHeightFieldSpanCount` | 229-243 | Heightfield | 100% |
| `BuildCompactHeightfield` | 266-382 | Compact | 100% |

## recast/inputgeom.go

| function | lines | model | cited |
|---|---|---|---|
| `InputGeom.LoadOBJMesh` | 92-114 | not modelled |  |
| `InputGeom.Mesh` | 117-119 | not modelled |  |
| `InputGeom.MeshBoundsMin` | 122-124 | not modelled |  |
| `InputGeom.MeshBoundsMax` | 127-129 | not modelled |  |
| `InputGeom.NavMeshBoundsMin` | 135-137 | not modelled |  |
| `InputGeom.NavMeshBoundsMax` | 143-145 | not modelled |  |
| `InputGeom.ChunkyMesh` | 148-150 | not modelled |  |
| `InputGeom.ConvexVolumes` | 157-159 | not modelled |  |
| `InputGeom.ConvexVolumesCount` | 163-165 | not modelled |  |
| `InputGeom.OffMeshConnectionVerts` | 169-171 | not modelled |  |
| `InputGeom.OffMeshConnectionRads` | 175-177 | not modelled |  |
| `InputGeom.OffMeshConnectionAreas` | 181-183 | not modelled |  |
| `InputGeom.OffMeshConnectionFlags` | 187-189 | not modelled |  |
| `InputGeom.OffMeshConnectionId` | 193-195 | not modelled |  |
| `InputGeom.OffMeshConnectionDirs` | 199-201 | not modelled |  |
| `InputGeom.OffMeshConnectionCount` | 205-207 | not modelled |  |
| `InputGeom.AddConvexVolume` | 213-224 | InputGeom | 100% |
| `InputGeom.DeleteConvexVolume` | 227-231 | InputGeom | 100% |

## recast/mesh.go

| function | lines | model | cited |
|---|---|---|---|
| `buildMeshAdjacency` | 9-95 | PolyMeshOps | 100% |
| `computeVertexHash` | 99-107 | PolyMeshOps | 100% |
| `addVertex` | 109-132 | PolyMeshOps | 100% |
| `inCone5` | 136-149 | Triangulate | 100% |
| `diagonal` | 153-155 | Triangulate | 100% |
| `diagonalieLoose` | 157-179 | not modelled |  |
| `inConeLoose` | 181-194 | Triangulate | 100% |
| `diagonalLoose` | 196-198 | Triangulate | 66% |
| `triangulate` | 200-310 | Triangulate | 99% |
| `countPolyVerts` | 312-319 | PolyMeshOps | 100% |
| `uleft` | 321-324 | PolyMeshOps | 100% |
| `diagonalie` | 328-350 | Triangulate | 100% |
| `getPolyMergeValue` | 352-416 | PolyMeshOps | 100% |
| `mergePolyVerts` | 418-440 | PolyMeshOps | 100% |
| `pushFront` | 442-448 | BuildMesh | 100% |
| `pushBack` | 450-453 | BuildMesh | 100% |
| `canRemoveVertex` | 455-545 | BuildMesh | 100% |
| `removeVertex` | 547-817 | BuildMesh | 100% |

## recast/meshdetail.go

| function | lines | model | cited |
|---|---|---|---|
| `PolyMeshDetail.Free` | 23-31 | not modelled |  |
| `vdot2` | 42-44 | Delaunay | 100% |
| `vdistSq2` | 46-50 | Delaunay, Hull | 100% |
| `vdist2` | 52-54 | Delaunay, Hull | 100% |
| `vcross2` | 56-62 | Delaunay | 100% |
| `circumCircle` | 65-88 | Delaunay | 100% |
| `distPtTri` | 90-115 | Delaunay | 100% |
| `distancePtSeg3Pt` | 117-140 | SegDist | 100% |
| `distancePtSeg2d` | 142-162 | SegDist | 100% |
| `distToTriMesh` | 164-179 | PolyDetail | 100% |
| `push3` | 181-183 | not modelled |  |
| `getHeight` | 185-262 | HeightSearch | 100% |
| `findEdge` | 270-278 | Delaunay | 100% |
| `addEdge` | 280-299 | Delaunay | 100% |
| `getEdgeFlags` | 301-313 | Delaunay | 100% |
| `getTriFlags` | 315-321 | Delaunay | 100% |
| `BuildPolyMeshDetail` | 340-517 | MeshDetail | 100% |
| `updateLeftFace` | 519-525 | Delaunay | 100% |
| `overlapSegSeg2d` | 527-538 | Delaunay | 100% |
| `overlapEdges` | 540-553 | Delaunay | 100% |
| `completeFacet` | 555-638 | Delaunay | 100% |
| `delaunayHull` | 640-714 | Delaunay | 100% |
| `polyMinExtent` | 717-738 | PolyDetail | 100% |
| `triangulateHull` | 740-793 | Hull | 100% |
| `jitterX` | 795-797 | PolyDetail | 100% |
| `jitterY` | 799-801 | PolyDetail | 100% |
| `buildPolyDetail` | 803-1043 | PolyDetail | 100% |
| `init` | 1047-1051 | HeightData | 100% |
| `seedArrayWithPolyCenter` | 1053-1192 | HeightData | 100% |
| `distToPoly` | 1194-1219 | PolyDetail | 100% |
| `getHeightData` | 1221-1332 | HeightData | 100% |

## recast/meshloaderobj.go

| function | lines | model | cited |
|---|---|---|---|
| `NewMeshLoaderOBJ` | 17-24 | MeshLoader | 100% |
| `MeshLoaderOBJ.Load` | 26-87 | MeshLoader | 100% |
| `MeshLoaderOBJ.Scale` | 89-91 | MeshLoader | 33% |
| `MeshLoaderOBJ.Verts` | 93-95 | not modelled |  |
| `MeshLoaderOBJ.Tris` | 97-99 | not modelled |  |
| `MeshLoaderOBJ.Normals` | 101-103 | not modelled |  |
| `MeshLoaderOBJ.VertCount` | 105-107 | not modelled |  |
| `MeshLoaderOBJ.TriCount` | 109-111 | not modelled |  |

## recast/polymesh.go

| function | lines | model | cited |
|---|---|---|---|
| `PolyMesh.Free` | 27-37 | not modelled |  |
| `BuildPolyMesh` | 55-311 | BuildMesh, NavData, PolyMeshOps, SoloMesh | 100% |

## recast/rasterization.go

| function | lines | model | cited |
|---|---|---|---|
| `RasterizeTriangle` | 24-40 | Raster | 100% |
| `RasterizeTriangles` | 62-86 | Raster | 100% |
| `RasterizeTriangles2` | 105-128 | Raster | 100% |
| `rasterizeTri` | 130-246 | Raster | 100% |
| `overlapBounds` | 257-268 | Bounds, Raster | 100% |
| `int32Clamp` | 270-278 | Compact, HeightSearch | 100% |
| `dividePoly` | 281-332 | Raster | 100% |

## recast/recast.go

| function | lines | model | cited |
|---|---|---|---|
| `CalcBounds` | 19-30 | WalkableTris | 100% |
| `CalcGridSize` | 43-47 | WalkableTris | 100% |
| `calcTriNormal` | 49-52 | WalkableTris | 100% |
| `MarkWalkableTriangles` | 74-89 | WalkableTris | 100% |
| `ClearUnwalkableTriangles` | 111-127 | WalkableTris | 100% |
| `init` | 226-230 | Dirs | 100% |
| `SetCon` | 238-242 | Dirs | 100% |
| `GetCon` | 252-255 | Dirs | 100% |
| `GetDirOffsetX` | 265-267 | Dirs | 100% |
| `GetDirOffsetY` | 277-279 | Dirs | 100% |
| `GetDirForOffset` | 289-291 | Dirs | 100% |
| `iMin` | 293-298 | Heightfield | 100% |
| `iMax` | 300-305 | Heightfield | 100% |
| `iAbs` | 307-312 | Heightfield | 100% |

## recast/region.go

| function | lines | model | cited |
|---|---|---|---|
| `BuildRegionsMonotone` | 40-172 | Region, RegionMerge | 100% |
| `BuildRegions` | 211-366 | not modelled |  |
| `paintRectRegion` | 368-381 | Region | 100% |
| `floodRegion` | 383-486 | not modelled |  |
| `expandRegions` | 488-587 | not modelled |  |
| `sortCellsByLevel` | 589-628 | not modelled |  |
| `appendStacks` | 630-638 | not modelled |  |
| `newRegion` | 652-664 | RegionMerge | 100% |
| `Region.removeAdjacentNeighbours` | 666-681 | RegionMerge | 100% |
| `Region.replaceNeighbour` | 683-701 | RegionMerge | 100% |
| `Region.canMergeWithRegion` | 703-722 | RegionMerge | 100% |
| `Region.addUniqueFloorRegion` | 724-731 | RegionMerge | 100% |
| `mergeRegions` | 733-791 | RegionMerge | 100% |
| `Region.isConnectedToBorder` | 793-802 | RegionMerge | 100% |
| `isSolidEdge` | 804-818 | RegionMerge | 100% |
| `walkContour` | 820-891 | RegionMerge | 100% |
| `mergeAndFilterRegions` | 893-1151 | RegionMerge | 100% |

## recast/unsafe.go

| function | lines | model | cited |
|---|---|---|---|
| `compareSlicesInt32` | 5-10 | not modelled |  |
| `compareSlicesUInt16` | 12-17 | not modelled |  |
