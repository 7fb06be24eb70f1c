{"id": "C01", "title": "Status words answer exactly one of succeeded / failed / in progress", "statement": "For a status built from one of Success, Failure or InProgress and any combination of detail bits, StatusSucceed, StatusFailed and StatusInProgress are true for exactly the base it was built from, StatusDetail reports exactly the detail bits that were put in, and no detail bit ever changes the base.", "quantifier": "every base value, every subset of detail flags and every query, over the whole 32-bit status word", "why_tests_cant": "the word has 2^32 values and callers or-in details at dozens of places; tests see a handful of combinations", "anchors": ["detour/status.go:Status", "detour/status.go:StatusSucceed", "detour/status.go:StatusFailed", "detour/status.go:StatusInProgress", "detour/status.go:StatusDetail"]}
{"id": "C02", "title": "Area and type of a polygon are independent fields", "statement": "After SetArea(a), Area() is a (mod 64) and Type() is what it was; after SetType(t), Type() is t (mod 4) and Area() is what it was, whatever the polygon held before.", "quantifier": "every polygon, every area byte, every type byte, every sequence of setters", "why_tests_cant": "the packed byte has to be right for all 256 previous values times all 256 arguments and all histories", "anchors": ["detour/poly.go:Poly.SetArea", "detour/poly.go:Poly.SetType", "detour/poly.go:Poly.Area", "detour/poly.go:Poly.Type"]}
{"id": "C03", "title": "The standard filter passes exactly the polygons that have an included flag and no excluded flag", "statement": "PassFilter(ref, tile, poly) is true iff some bit is set both in the polygon flags and in the include mask and no bit is set both in the polygon flags and in the exclude mask; setters are read back unchanged; the area cost that is set for an area is the one used by Cost for polygons of that area and for no other area.", "quantifier": "every flag word, every pair of masks, every area id and cost table history", "why_tests_cant": "2^48 combinations of flags and masks", "anchors": ["detour/queryfilter.go:StandardQueryFilter.PassFilter", "detour/queryfilter.go:StandardQueryFilter.Cost", "detour/queryfilter.go:StandardQueryFilter.SetAreaCost"]}
{"id": "C04", "title": "Box overlap tests are exact", "statement": "OverlapQuantBounds and OverlapBounds (and the recast package's own box and rectangle tests) return true iff the two closed axis-aligned boxes have a common point.", "quantifier": "every pair of boxes with min <= max (any coordinates; floats must not be NaN)", "why_tests_cant": "a wrong comparison on one axis only shows on boxes that touch on that axis", "anchors": ["detour/common.go:OverlapQuantBounds", "detour/common.go:OverlapBounds", "recast/rasterization.go:overlapBounds", "recast/chunkytrimesh.go:checkOverlapRect"]}
{"id": "C05", "title": "Polygon references encode salt, tile and polygon without loss", "statement": "For a navmesh whose salt/tile/poly bit widths fit in 32 bits, decoding an encoded reference gives back salt, tile index and polygon index whenever each fits its width, so distinct triples get distinct references, and a reference with non-zero salt is never 0.", "quantifier": "every bit-width split accepted by Init and every in-range triple", "why_tests_cant": "the split depends on runtime parameters; 2^32 references times hundreds of splits", "anchors": ["detour/mesh.go:NavMesh.encodePolyID", "detour/mesh.go:NavMesh.DecodePolyID", "detour/mesh.go:NavMesh.Init"]}
{"id": "C06", "title": "Init accepts exactly the parameters that leave room for the salt", "statement": "For MaxTiles and MaxPolys up to 2^31 whose bit widths do not exceed 32 in total, Init succeeds iff the number of bits needed for tiles and polygons leaves at least 8 salt bits in the 32-bit reference, and then the widths are large enough for MaxTiles and MaxPolys and sum to at most 32. (Beyond 32 bits the width subtraction wraps around.)", "quantifier": "every MaxTiles / MaxPolys pair", "why_tests_cant": "the failing region is near the top of the 32-bit range, where the subtraction wraps around", "anchors": ["detour/mesh.go:NavMesh.Init"]}
{"id": "C07", "title": "The search node pool is a bounded map keyed by (polygon ref, state)", "statement": "For any history of Node / FindNode / FindNodes / Clear calls, Node(id,state) returns the same node for the same key until Clear, distinct keys get distinct nodes, a new key gets a fresh node with reset cost, total, parent and flags, nil is returned iff the key is new and MaxNodes nodes are in use, and FindNode/FindNodes return exactly the stored nodes.", "quantifier": "every call history, every hash size and every hash collision pattern", "why_tests_cant": "correctness under collisions and exhaustion depends on the whole history of insertions", "anchors": ["detour/node.go:NodePool.Node", "detour/node.go:NodePool.FindNode", "detour/node.go:NodePool.FindNodes", "detour/node.go:NodePool.Clear"]}
{"id": "C08", "title": "Node indices and node pointers are inverse", "statement": "NodeAtIdx(NodeIdx(n)) is n for every node of the pool, NodeIdx never returns 0 for a node of the pool, NodeAtIdx(0) is nil; parent indices always name a node of the pool.", "quantifier": "every pool and every node", "why_tests_cant": "index 0 is the null value, an off-by-one shows only on the first or last node", "anchors": ["detour/node.go:NodePool.NodeIdx", "detour/node.go:NodePool.NodeAtIdx"]}
{"id": "C09", "title": "The open list pops nodes in order of total cost and loses none", "statement": "For any sequence of push, pop and modify (after lowering or leaving the cost of a queued node), pop returns a node whose total is minimal among the queued ones, and the queue holds exactly the pushed minus the popped nodes.", "quantifier": "every sequence of operations, every cost assignment without NaN, every queue size up to the capacity", "why_tests_cant": "heap bugs need particular shapes of the tree; sequences are unbounded", "anchors": ["detour/nodequeue.go:nodeQueue.push", "detour/nodequeue.go:nodeQueue.pop", "detour/nodequeue.go:nodeQueue.modify", "detour/nodequeue.go:nodeQueue.bubbleUp", "detour/nodequeue.go:nodeQueue.trickleDown"]}
{"id": "C10", "title": "The tile table maps each grid location and layer to at most one live tile", "statement": "After any history of AddTile and RemoveTile, TileAt(x,y,layer) returns the tile that was added there and not removed since, or nil; no two live tiles share a location; TilesAt returns all live tiles of a column.", "quantifier": "every history of additions and removals, every hash collision pattern", "why_tests_cant": "needs long histories with collisions, slot reuse and failures in between", "anchors": ["detour/mesh.go:NavMesh.AddTile", "detour/mesh.go:NavMesh.RemoveTile", "detour/mesh.go:NavMesh.TileAt", "detour/mesh.go:NavMesh.TilesAt"]}
{"id": "C11", "title": "A tile reference is dead as soon as its tile is removed", "statement": "A tile or polygon reference obtained while a tile was loaded is accepted (TileByRef, IsValidPolyRef, TileAndPolyByRef, RemoveTile) while that tile stays loaded and is rejected after it was removed, whatever is loaded into the slot afterwards, until the slot's salt has gone through its whole cycle.", "quantifier": "every history with fewer than 2^saltBits-1 removals of the slot", "why_tests_cant": "stale references only collide after specific numbers of reuses", "anchors": ["detour/mesh.go:NavMesh.RemoveTile", "detour/mesh.go:NavMesh.TileByRef", "detour/mesh.go:NavMesh.IsValidPolyRef", "detour/mesh.go:NavMesh.TileAndPolyByRef"]}
{"id": "C12", "title": "Re-adding a tile with its last reference restores the reference", "statement": "If RemoveTile(ref) removed a tile and its slot is still free, AddTile(data, ref) of well-formed tile data without off-mesh connections for a free location succeeds and returns ref again, so saved references become valid again.", "quantifier": "every mesh state, every free slot", "why_tests_cant": "the slot has to be unlinked from the middle of the free list", "anchors": ["detour/mesh.go:NavMesh.AddTile", "detour/mesh.go:NavMesh.RemoveTile"]}
{"id": "C13", "title": "Tile slots are conserved", "statement": "In every reachable mesh state each tile slot is either live (reachable through exactly one hash bucket position) or on the free list exactly once; AddTile of well-formed tile data without off-mesh connections for a new location succeeds iff there is a free slot, and removing returns the slot.", "quantifier": "every history of AddTile / RemoveTile including rejected ones", "why_tests_cant": "leaks show up only after as many operations as there are slots", "anchors": ["detour/mesh.go:NavMesh.AddTile", "detour/mesh.go:NavMesh.RemoveTile", "detour/mesh.go:NavMesh.Init"]}
{"id": "C14", "title": "Tile links are never shared or leaked", "statement": "In every tile, each link slot is on the free list or in the link chain of exactly one polygon; allocating takes a free slot or reports that there is none, and freeing makes exactly that slot available again.", "quantifier": "every history of link creation and removal", "why_tests_cant": "corruption needs specific interleavings of neighbours being added and removed", "anchors": ["detour/mesh.go:allocLink", "detour/mesh.go:freeLink", "detour/mesh.go:NavMesh.unconnectLinks"]}
{"id": "C15", "title": "Internal links mirror the polygon adjacency of the tile data", "statement": "After a tile is added, the internal links of a polygon are exactly one link per edge whose neighbour field names a polygon of the same tile, pointing to that polygon and carrying that edge index, as long as the tile has enough link slots.", "quantifier": "every tile, every adjacency table, every number of links available", "why_tests_cant": "depends on every neighbour-field encoding", "anchors": ["detour/mesh.go:NavMesh.connectIntLinks"]}
{"id": "C16", "title": "Removing a tile removes exactly the links that point into it", "statement": "unconnecting a target removes from every polygon of the tile exactly the links whose reference belongs to the target tile, keeps all other links in order and returns the slots to the free list.", "quantifier": "every tile, every link chain, every target", "why_tests_cant": "chains with several links to remove in head, middle and tail position", "anchors": ["detour/mesh.go:NavMesh.unconnectLinks", "detour/mesh.go:NavMesh.RemoveTile"]}
{"id": "C17", "title": "Tile sides pair up", "statement": "oppositeTile is an involution without fixed points on the 8 sides, and the tile on side s of a location has that location on its side oppositeTile(s).", "quantifier": "all sides and all locations", "why_tests_cant": "a swapped side only shows on diagonal neighbours", "anchors": ["detour/common.go:oppositeTile", "detour/mesh.go:NavMesh.neighbourTilesAt"]}
{"id": "C18", "title": "Tile headers and mesh parameters survive a round trip through bytes", "statement": "Reading back a serialized MeshHeader, navmesh set header, mesh parameters or tile header yields the same values and consumes as many bytes as were written.", "quantifier": "every field value", "why_tests_cant": "2^800 headers", "anchors": ["detour/structs.go:MeshHeader.serialize", "detour/structs.go:MeshHeader.unserialize", "detour/structs.go:NavMeshParams.serialize", "detour/tile.go:navMeshTileHeader.serialize"]}
{"id": "C19", "title": "Tile data survives a round trip through bytes", "statement": "Unserializing what serializeTileData wrote for a header's counts gives back vertices, polygons, links, detail meshes, detail vertices, detail triangles, BV nodes and off-mesh connections unchanged.", "quantifier": "every tile content of every size", "why_tests_cant": "sections are placed by running offsets; an error shows only when particular sections are non-empty", "anchors": ["detour/tile.go:serializeTileData", "detour/tile.go:MeshTile.unserialize"]}
{"id": "C20", "title": "A navmesh survives saving and loading", "statement": "Decoding what ToWriter wrote yields a mesh with the same parameters and the same live tiles under the same references, and Size() equals the number of bytes written.", "quantifier": "every mesh state (any set of live tiles)", "why_tests_cant": "depends on the set and order of live tiles and on slot restoration", "anchors": ["detour/mesh.go:NavMesh.ToWriter", "detour/mesh.go:Decode", "detour/mesh.go:NavMesh.Size"]}
{"id": "C21", "title": "The BV tree built for a tile encloses and lists every item exactly once", "statement": "The tree built over n items has 2n-1 nodes, its leaves are a permutation of the items, each inner node's box contains the boxes of all items below it, and each escape index jumps exactly past the node's subtree.", "quantifier": "every n >= 1, every set of item boxes", "why_tests_cant": "recursive splitting with three sort orders; errors need specific shapes", "anchors": ["detour/navmeshcreate.go:subdivide", "detour/navmeshcreate.go:calcExtends", "detour/navmeshcreate.go:createBVTree"]}
{"id": "C22", "title": "A box query over the BV tree finds every overlapping polygon", "statement": "The query of query.go, run over a tile whose BV nodes are a tree as built by subdivide, reports every item whose box overlaps the quantized query box, no item whose box does not, and no item twice; a trailing zero node adds polygon 0 exactly when the query box touches the tile origin.", "quantifier": "every tree built from any items and every query box", "why_tests_cant": "pruning errors need a query that misses an inner node but hits a leaf", "anchors": ["detour/query.go:NavMeshQuery.queryPolygonsInTile", "detour/mesh.go:NavMesh.queryPolygonsInTile"]}
{"id": "C23", "title": "Batched polygon queries deliver each polygon once and in order", "statement": "The callback of queryPolygons receives, over all batches, exactly the filter-passing polygons found in the tile, once each, in batches of at most 32.", "quantifier": "every number of found polygons, every filter", "why_tests_cant": "boundaries at multiples of the batch size", "anchors": ["detour/query.go:NavMeshQuery.queryPolygonsInTile"]}
{"id": "C24", "title": "FindPath returns a connected, filter-respecting path from the start polygon", "statement": "When FindPath succeeds the returned polygons start with startRef, each next one is reached from the previous one by a link, every polygon after the first passes the filter, and the path ends at endRef or the result is flagged PartialResult; at most len(path) entries are written.", "quantifier": "every mesh graph, every filter, every cost function (even negative or NaN costs), every node-pool size, every buffer size", "why_tests_cant": "graphs, filters and pool sizes are unbounded; A* with re-opening and node exhaustion has many orders of events", "anchors": ["detour/query.go:NavMeshQuery.FindPath", "detour/query.go:NavMeshQuery.pathToNode"]}
{"id": "C25", "title": "FindPath reports what limited the result", "statement": "PartialResult is set iff the last polygon of the found path is not endRef; BufferTooSmall is set iff the path did not fit and then the prefix of the path that fits is returned; OutOfNodes is set only when the node pool is full and some polygon that can be reached through the filter has no node; a partial result without OutOfNodes means that no corridor of polygons passing the filter leads to endRef; invalid parameters are rejected without touching the buffers.", "quantifier": "every mesh graph, buffer length and pool size", "why_tests_cant": "combination of limits", "anchors": ["detour/query.go:NavMeshQuery.FindPath", "detour/query.go:NavMeshQuery.pathToNode"]}
{"id": "C26", "title": "FindPath terminates", "statement": "On every mesh made by AddTile and RemoveTile from sound tile data (coordinates up to 2^100), with finite positions and every filter whose costs are neither negative nor NaN, FindPath ends: the open list empties after finitely many rounds and the parents of the nodes form no cycle. With ordinary polygons and a filter that does not panic it returns a result. The standard filter with positive finite area costs is such a filter; with negative or NaN costs the search or the path reconstruction may run forever.", "quantifier": "every mesh history, every cost function, any query object", "why_tests_cant": "non-termination cannot be observed by a test", "anchors": ["detour/query.go:NavMeshQuery.FindPath"]}
{"id": "C27", "title": "A sliced path search does not depend on how it is sliced", "statement": "Splitting the iterations of UpdateSlicedFindPath over any number of calls gives the same search state and result as one call with the sum of the iterations.", "quantifier": "every mesh graph and every split of the iteration budget", "why_tests_cant": "all ways to split the budget", "anchors": ["detour/query.go:NavMeshQuery.UpdateSlicedFindPath"]}
{"id": "C28", "title": "A sliced path search returns the path FindPath would return", "statement": "On meshes made by AddTile and RemoveTile from sound tiles, whose links stay inside of tiles (or cross their sides 0 and 1) and where no three polygons are linked in a triangle: whenever FindPath succeeds, InitSlicedFindPath, updates with at least as many iterations in any split, and FinalizeSlicedFindPath (without any-angle option) write the same polygons in the same places and return the same count and flags, except that BufferTooSmall is set also when the path just fills the buffer. Invalid references give Failure without a write. (With a triangle, or with links over other sides and a full node pool, the paths can differ: refuted.)", "quantifier": "every such mesh, filter, buffer, pool size and split of the iterations", "why_tests_cant": "relational property over two implementations of the search", "anchors": ["detour/query.go:NavMeshQuery.InitSlicedFindPath", "detour/query.go:NavMeshQuery.UpdateSlicedFindPath", "detour/query.go:NavMeshQuery.FinalizeSlicedFindPath"]}
{"id": "C29", "title": "FindStraightPath stays within the caller's buffers", "statement": "Every call of FindStraightPath that returns leaves the lengths of the three buffers and everything behind the returned count unchanged; the count is at most the length of the buffer of points, flags and references accompany each point, invalid arguments are rejected without a write, and BufferTooSmall is reported exactly when the buffer is full. (That every call returns is false and refuted: it can panic.)", "quantifier": "every mesh, corridor, position (including NaN), buffer length and option, every approximate equality", "why_tests_cant": "append logic is called from several places with limits", "anchors": ["detour/query.go:NavMeshQuery.FindStraightPath", "detour/query.go:NavMeshQuery.appendVertex", "detour/query.go:NavMeshQuery.appendPortals"]}
{"id": "C30", "title": "Raycast reports the corridor the ray crosses", "statement": "The polygons reported by Raycast are those the ray crosses: they start at startRef, each is left by its first link on the exit edge that leads to an ordinary polygon passing the filter and covers the exit point, so that they form a corridor; exactly the first MaxPath of them are written, BufferTooSmall tells whether some are missing, and polygons, count, status, normal and edge do not depend on what an earlier call left in the hit structure.", "quantifier": "every mesh graph, ray, filter, option, buffer and previous content of the hit structure", "why_tests_cant": "depends on earlier calls and on every graph", "anchors": ["detour/query.go:NavMeshQuery.Raycast", "detour/query.go:NavMeshQuery.Raycast2"]}
{"id": "C31", "title": "Closest point on a segment", "statement": "distancePtSegSqr2D (and the recast variants) return the squared distance to the nearest point of the segment and the parameter of that point in [0,1].", "quantifier": "all points and segments (exact arithmetic)", "why_tests_cant": "a minimum over a continuum", "anchors": ["detour/common.go:distancePtSegSqr2D", "recast/meshdetail.go:distancePtSeg2d", "recast/contour.go:distancePtSeg"]}
{"id": "C32", "title": "FindNearestPoly returns a nearest polygon among those found", "statement": "The polygon returned by FindNearestPoly minimises the distance measure among all polygons overlapping the box that pass the filter; ref 0 is returned iff there is none.", "quantifier": "every mesh, filter and query box", "why_tests_cant": "a minimum over unbounded sets with ties and batches", "anchors": ["detour/query.go:NavMeshQuery.FindNearestPoly", "detour/polyquery.go:findNearestPolyQuery.process"]}
{"id": "C33", "title": "CreateNavMeshData produces a buffer whose size and content match its header", "statement": "For input with the documented array sizes, detail meshes and BuildBvTree set, the returned buffer has exactly the length implied by the counts in its header, the header reads back, every section lies inside the buffer and holds the vertices, polygons, neighbour codes, details, tree and connections of the input; an error is returned iff one of the argument checks fails; without the tree flag or without detail meshes the function does not return.", "quantifier": "all parameter sets with the documented array sizes, every sorting permutation", "why_tests_cant": "sizes are computed separately from the sections that are written", "anchors": ["detour/navmeshcreate.go:CreateNavMeshData", "detour/tile.go:serializeTileData"]}
{"id": "C34", "title": "Off-mesh connection end points are classified by the side of the tile they leave", "statement": "classifyOffMeshPoint returns 0xff iff the point is inside the tile bounds on the xz-plane (lower bound included, upper bound excluded) and otherwise the side of the neighbour tile in whose direction the point lies.", "quantifier": "every point and every pair of ordered bounds without NaN", "why_tests_cant": "8 outcomes times boundary equality on 4 lines", "anchors": ["detour/navmeshcreate.go:classifyOffMeshPoint"]}
{"id": "C35", "title": "Segment / polygon intersection", "statement": "IntersectSegmentPoly2D reports whether the segment meets the convex polygon, exactly the parameter interval in which it is on the inner side of all edges, and the edges at which it enters and leaves (exact arithmetic).", "quantifier": "every polygon and segment for which no edge is nearly but not exactly parallel to the segment (cross product below 1e-8)", "why_tests_cant": "continuum of positions", "anchors": ["detour/common.go:IntersectSegmentPoly2D"]}
{"id": "C36", "title": "Heightfield columns stay sorted and disjoint", "statement": "After any sequence of span insertions each column is strictly ordered with a gap between consecutive spans (no overlap, no touching), each span has smin < smax if all inserted ones have, and other columns are untouched.", "quantifier": "every sequence of insertions, every merge threshold", "why_tests_cant": "linked-list surgery with several merges in one call", "anchors": ["recast/heightfield.go:Heightfield.addSpan"]}
{"id": "C37", "title": "The solid volume of a column is the union of what was inserted, in any order", "statement": "The set of solid voxels of a column after any sequence of insertions is the union of the inserted intervals, hence the spans' extents do not depend on insertion order.", "quantifier": "every multiset of spans, every insertion order", "why_tests_cant": "factorially many orders", "anchors": ["recast/heightfield.go:Heightfield.addSpan"]}
{"id": "C38", "title": "Low hanging obstacle filter", "statement": "FilterLowHangingWalkableObstacles changes a span's area iff it was unwalkable, the span just below was walkable before the call, and their tops are within walkableClimb; it then takes the area of the span below, and extents never change.", "quantifier": "every heightfield and climb value", "why_tests_cant": "propagation past several spans depends on whole columns", "anchors": ["recast/filter.go:FilterLowHangingWalkableObstacles"]}
{"id": "C39", "title": "Ledge filter", "statement": "FilterLedgeSpans marks a walkable span unwalkable iff it is a ledge or on a steep slope with respect to the original heightfield's neighbour columns; it never makes a span walkable and never changes extents; the result does not depend on the visiting order.", "quantifier": "every heightfield and parameters", "why_tests_cant": "in-place modification while neighbours are read", "anchors": ["recast/filter.go:FilterLedgeSpans"]}
{"id": "C40", "title": "Low ceiling filter", "statement": "FilterWalkableLowHeightSpans leaves walkable exactly the walkable spans with more than walkableHeight clearance to the next span above (or to the top).", "quantifier": "every heightfield and height", "why_tests_cant": "boundary of the comparison on every column shape", "anchors": ["recast/filter.go:FilterWalkableLowHeightSpans"]}
{"id": "C41", "title": "The compact heightfield stores exactly the walkable spans", "statement": "BuildCompactHeightfield gives every column a contiguous index range, the ranges of different columns are disjoint and cover 0..SpanCount-1, and the compact spans of a column are its walkable spans bottom-up with floor smax and clearance clamped to 255.", "quantifier": "every heightfield with at most 255 walkable spans per column", "why_tests_cant": "all column shapes and all grid sizes", "anchors": ["recast/heightfield.go:BuildCompactHeightfield"]}
{"id": "C42", "title": "Compact span connections are sound, and symmetric for sane parameters", "statement": "A connection always leads to an existing span of the adjacent column with enough common clearance and a climbable step; if walkableClimb <= walkableHeight the connection is mutual.", "quantifier": "every heightfield, every parameters", "why_tests_cant": "symmetry is a relation over pairs of columns of any shape", "anchors": ["recast/heightfield.go:BuildCompactHeightfield", "recast/recast.go:SetCon", "recast/recast.go:GetCon"]}
{"id": "C43", "title": "Connection fields are independent and read back what was set", "statement": "GetCon(SetCon(s,dir,i),dir) is i and the other directions are unchanged.", "quantifier": "every span, direction and 6-bit value, every previous content", "why_tests_cant": "the previous content matters and tests start from fresh spans", "anchors": ["recast/recast.go:SetCon", "recast/recast.go:GetCon"]}
{"id": "C44", "title": "Direction tables are consistent", "statement": "GetDirForOffset(GetDirOffsetX(d),GetDirOffsetY(d)) is d for the 4 directions, and moving in direction d and then d+2 returns to the start.", "quantifier": "all directions", "why_tests_cant": "finite but never tested as a law", "anchors": ["recast/recast.go:GetDirOffsetX", "recast/recast.go:GetDirOffsetY", "recast/recast.go:GetDirForOffset"]}
{"id": "C45", "title": "ErodeWalkableArea removes a neighbourhood of the border only", "statement": "ErodeWalkableArea never makes a span walkable and changes no other data; for radius 1..127 it removes every border span; on fields of at most 127 cells in one direction it removes exactly the spans within the chamfer distance of its two passes and none that is farther from every border span than the radius.", "quantifier": "every compact heightfield and radius", "why_tests_cant": "8-bit distances overflow only on large open fields", "anchors": ["recast/area.go:ErodeWalkableArea"]}
{"id": "C46", "title": "Rasterized spans are inside the grid and non-empty", "statement": "Whenever RasterizeTriangle, RasterizeTriangles or RasterizeTriangles2 return, the heightfield has changed only by insertions of spans in cells of the grid, with the area and threshold of the call and 0 <= smin < smax <= 65535; the only exception is a span that starts at the topmost height 65535, which is empty.", "quantifier": "every triangle and heightfield", "why_tests_cant": "clamping at the top of the height range", "anchors": ["recast/rasterization.go:rasterizeTri", "recast/rasterization.go:int32Clamp"]}
{"id": "C47", "title": "dividePoly splits a polygon along a line", "statement": "The two outputs lie on their side of the dividing line, together have the area of the input, consist of the input's vertices on that side and points of its edges, and have at most as many vertices more than the input as there are edges that leave the lower side (one for a convex polygon) (exact arithmetic).", "quantifier": "every polygon and line", "why_tests_cant": "continuum of positions incl. vertices on the line", "anchors": ["recast/rasterization.go:dividePoly"]}
{"id": "C48", "title": "The monotone sweep makes connected regions of one area", "statement": "If no row has as many runs as the longer side of the grid and there are at most 32760 runs, the sweep of BuildRegionsMonotone returns. Unwalkable spans get region 0, walkable border spans the id of their side, all others an id in 1..id-1 for the reported id. Two spans of one inner region are joined by connections inside the region and one area. If connections along x are mutual, a region has at most one span per cell.", "quantifier": "every well-formed compact heightfield and border size", "why_tests_cant": "row-by-row union of ids depends on whole rows", "anchors": ["recast/region.go:BuildRegionsMonotone", "recast/region.go:paintRectRegion"]}
{"id": "C49", "title": "Merging of regions renames connected regions to connected regions", "statement": "If regions are numbered up to at most 32767 and each is connected and of one area, mergeAndFilterRegions ends without panicking and renames the regions: border regions stay, every other one becomes 0 or a number in 1..MaxRegions, and each of these numbers is the new number of some region of the table. The new regions are connected and of one area; if no region had two spans in one cell, none has afterwards. A region of at least minRegionArea spans does not disappear; a set of regions not connected to others or the border with fewer spans altogether disappears. BuildRegionsMonotone as a whole changes nothing but the regions of spans and has these properties.", "quantifier": "every well-formed compact heightfield of fewer than 2^31 spans, every assignment of regions, all area limits", "why_tests_cant": "depends on all floods, contour walks and merges; large tables", "anchors": ["recast/region.go:mergeAndFilterRegions", "recast/region.go:mergeRegions", "recast/region.go:walkContour", "recast/region.go:BuildRegionsMonotone"]}
{"id": "C50", "title": "Integer geometry predicates", "statement": "left, leftOn, collinear, between, intersectProp and intersect agree with the orientation and segment-intersection relations of the integer plane, and are invariant or anti-symmetric under exchanging points as they should be.", "quantifier": "all integer points with coordinates up to 16383, where nothing overflows", "why_tests_cant": "degenerate positions", "anchors": ["recast/contour.go:area2", "recast/contour.go:intersectProp", "recast/contour.go:between", "recast/contour.go:intersect"]}
{"id": "C51", "title": "Triangulation uses the contour's vertices and keeps its area", "statement": "For n >= 3 valid vertices triangulate never fails on an index. It outputs exactly n-2 triangles over the given vertices, obtained by cutting corners off the contour, whose signed areas add up to the contour's signed area; or it reports the number of triangles cut so far as a negative count.", "quantifier": "every contour, of any size, simple or not", "why_tests_cant": "ear clipping with a fallback, any n", "anchors": ["recast/mesh.go:triangulate"]}
{"id": "C52", "title": "Merging two polygons keeps area and vertices", "statement": "mergePolyVerts of two polygons along an edge they share in opposite directions yields a polygon with na+nb-2 vertices, the same vertex set and the sum of the signed areas; getPolyMergeValue (vertex numbers up to 21845) proposes a merge only if the result fits in nvp vertices, and then merging two convex polygons over an edge shared in opposite directions gives a convex polygon.", "quantifier": "every pair of polygons", "why_tests_cant": "rotation offsets of the shared edge", "anchors": ["recast/mesh.go:mergePolyVerts", "recast/mesh.go:getPolyMergeValue"]}
{"id": "C53", "title": "Mesh adjacency is symmetric", "statement": "After buildMeshAdjacency (at most 65535 edges) a polygon edge names a neighbour only if that polygon is another one and has the same edge in opposite direction, and the neighbour's edge names it back; an edge shared by exactly two polygons in opposite directions connects them (if no polygon has an edge in both directions).", "quantifier": "every polygon soup", "why_tests_cant": "edges shared by more than two polygons, both orientations", "anchors": ["recast/mesh.go:buildMeshAdjacency"]}
{"id": "C54", "title": "Mesh vertices are welded", "statement": "addVertex returns the index of a vertex with the same x,z and a height that is equal or 1 or 2 more (mod 2^16), adds a vertex only if there is none, and never moves existing vertices.", "quantifier": "every sequence of insertions", "why_tests_cant": "hash collisions and signed height differences", "anchors": ["recast/mesh.go:addVertex"]}
{"id": "C55", "title": "The chunky triangle mesh partitions the triangles", "statement": "createChunkyTriMesh puts every input triangle in exactly one leaf, leaves hold at most trisPerChunk triangles, node boxes contain their triangles, the node array is large enough, a rectangle query returns every leaf whose box overlaps, and in exact arithmetic a segment query returns every leaf whose box the segment meets.", "quantifier": "every triangle soup without NaN and every chunk size whose sizes fit into int32, every sort that rearranges", "why_tests_cant": "sizes not multiple of the chunk size, recursion shapes", "anchors": ["recast/chunkytrimesh.go:createChunkyTriMesh", "recast/chunkytrimesh.go:subdivide", "recast/chunkytrimesh.go:ChunkyTriMesh.ChunksOverlappingRect"]}
{"id": "C56", "title": "The height search spiral visits every cell of the square once", "statement": "getHeight's walk visits each cell of the (2r+1)x(2r+1) square except the centre exactly once, ring by ring. getHeight returns the height of the cell itself if set, otherwise the height closest to the wanted one in the first ring that has any (radius up to 23169).", "quantifier": "every radius", "why_tests_cant": "unbounded radius", "anchors": ["recast/meshdetail.go:getHeight"]}
{"id": "C57", "title": "Convex volumes list", "statement": "AddConvexVolume / DeleteConvexVolume keep exactly the first 256 added minus the deleted volumes, with the vertices, heights and area given.", "quantifier": "every history of volumes of at most 12 vertices and deletions of existing volumes", "why_tests_cant": "capacity and order of deletions", "anchors": ["recast/inputgeom.go:InputGeom.AddConvexVolume", "recast/inputgeom.go:InputGeom.DeleteConvexVolume"]}
{"id": "C58", "title": "Build log", "statement": "The build log keeps the first 1000 messages in order, LogCount never exceeds 1000, ResetLog empties it, and a disabled log stays as it was.", "quantifier": "every history of log calls", "why_tests_cant": "capacity boundary after any history", "anchors": ["recast/buildcontext.go:BuildContext.log", "recast/buildcontext.go:BuildContext.ResetLog"]}
{"id": "C59", "title": "OBJ polygons are fan-triangulated within bounds", "statement": "Loading a mesh into a new loader produces for each polygon with valid indices of k vertices its k-2 fan triangles in order, drops triangles with an out-of-range index, and every stored index is a valid vertex.", "quantifier": "every polygon list", "why_tests_cant": "any number of vertices and bad indices", "anchors": ["recast/meshloaderobj.go:MeshLoaderOBJ.Load"]}
{"id": "C60", "title": "Hull triangulation of a detail polygon", "statement": "triangulateHull of a hull of n >= 3 vertices, each naming a vertex, appends n-2 triangles over hull vertices that are a triangulation of the hull: corners cut off one after the other, so for every placement of the vertices the signed areas add up to the area of the hull. The first triangle is always the one at corner 0 (the search for the shortest ear never succeeds).", "quantifier": "every hull and every vertex position", "why_tests_cant": "data dependent left/right choices", "anchors": ["recast/meshdetail.go:triangulateHull", "recast/meshdetail.go:buildPolyDetail"]}
{"id": "C61", "title": "Status messages", "statement": "Error() of a failed status with a single detail names that detail, Error() of a status that is not failed is never a failure message, and Error() of a status in progress says so.", "quantifier": "every status word", "why_tests_cant": "2^32 words", "anchors": ["detour/status.go:Status.Error"]}
{"id": "C62", "title": "Polygon links never dangle", "statement": "In every reachable mesh state every link of every polygon of every loaded tile holds a reference accepted by IsValidPolyRef, to a polygon of a tile at the same or one of the eight surrounding locations.", "quantifier": "every history of AddTile and RemoveTile of tiles whose polygon numbers exist, with at most 32 layers per location", "why_tests_cant": "links are made and undone in pairs over histories; a missed one shows only when a path crosses it later", "anchors": ["detour/mesh.go:NavMesh.AddTile", "detour/mesh.go:NavMesh.RemoveTile", "detour/mesh.go:NavMesh.connectExtLinks", "detour/mesh.go:NavMesh.unconnectLinks"]}
{"id": "C63", "title": "Marking a polygon changes only walkable spans under it", "statement": "MarkConvexPolyArea changes area ids only, of walkable spans in columns of the grid whose centre passes the polygon test and whose floor is between the two heights, and only to the given id.", "quantifier": "every heightfield, vertex list, vertex count and area for which the call returns", "why_tests_cant": "float rounding of the column centre and of the box", "anchors": ["recast/area.go:MarkConvexPolyArea", "recast/area.go:pointInPoly"]}
{"id": "C64", "title": "Quantized boxes lose no polygon", "statement": "A polygon whose detail vertices are not separated from the query box along any axis is reported by a query of its tile, although tree and query box are rounded to integers, provided the tile is less than 65535 quantization steps wide, the polygon does not lie wholly above the tile and its vertices are less than 2^31 steps away. Both provisos are needed.", "quantifier": "every tile built by createBVTree with any sort, every query box of float32 numbers", "why_tests_cant": "float rounding of differences, products and conversions; the failing coordinates are rare", "anchors": ["detour/navmeshcreate.go:createBVTree", "detour/query.go:NavMeshQuery.queryPolygonsInTile"]}
{"id": "C65", "title": "A straight path follows the portals of its corridor", "statement": "FindStraightPath starts at the point of the first polygon nearest to the start position, continues with points that lie on the portals of the corridor, in the order of the corridor, and ends at the point of the last polygon nearest to the end position, or with a full buffer, or - where two neighbours of the corridor share no portal - at the nearest point of the polygon before the break with PartialResult; the funnel loop ends after at most (n+2)^2 iterations.", "quantifier": "every mesh and positions of magnitude at most 2^60, every corridor with valid ends, every buffer and option, every reflexive approximate equality", "why_tests_cant": "the funnel restarts at earlier portals, so that termination and order depend on float comparisons", "anchors": ["detour/query.go:NavMeshQuery.FindStraightPath", "detour/query.go:NavMeshQuery.portalPoints8", "detour/query.go:NavMeshQuery.appendPortals"]}
{"id": "C66", "title": "ClosestPointOnPolyBoundary returns a nearest point", "statement": "ClosestPointOnPolyBoundary returns the position itself if it is inside the polygon, otherwise the nearest point of an edge whose float32 distance is at most that of every other edge; an invalid reference is rejected and leaves the result unchanged.", "quantifier": "every mesh and position of magnitude at most 2^60, every reference", "why_tests_cant": "a minimum over edges with clamped parameters and divisions that can round", "anchors": ["detour/query.go:NavMeshQuery.ClosestPointOnPolyBoundary", "detour/common.go:distancePtPolyEdgesSqr", "detour/common.go:distancePtSegSqr2D"]}
{"id": "C67", "title": "A sliced path search delivers a corridor with exact flags and ends", "statement": "On every mesh made by AddTile and RemoveTile from sound tile data, for a filter with costs that are neither negative nor NaN and without the any-angle option: whatever the budgets of the updates, FinalizeSlicedFindPath fails without a write iff a reference is invalid, and otherwise writes a prefix of a corridor of linked polygons that pass the filter, sets PartialResult iff it does not end at endRef and BufferTooSmall iff it has at least maxPath polygons; after some number of iterations the search is not in progress any more, and then a partial result without OutOfNodes means that no corridor leads to endRef. With ordinary polygons and a filter that does not panic all calls return.", "quantifier": "every mesh history, filter, query object, buffer and list of budgets", "why_tests_cant": "interrupted searches have too many states", "anchors": ["detour/query.go:NavMeshQuery.InitSlicedFindPath", "detour/query.go:NavMeshQuery.UpdateSlicedFindPath", "detour/query.go:NavMeshQuery.FinalizeSlicedFindPath"]}
{"id": "C68", "title": "Simplifying a contour keeps every change and stays within the allowed error, equally from both sides", "statement": "simplifyContour ends for every raw contour with two different places, and its result consists of raw points in cyclic order, with the edge data of the edges that begin there. If the contour touches a region, every point after which region or area border changes is kept; other kept points lie on walls or edges between areas (or nothing changes at all). Before splitting, no raw point of such an edge has a float32 squared distance above maxError squared from its simplified edge; splitting only adds points, and leaves no edge of a chosen kind longer than maxEdgeLen (squares in int32) unless it is a raw edge. A border between regions of different areas gets the same vertices from both of its sides.", "quantifier": "every list of raw points, error, edge length and flags; every pair of contours with a common border", "why_tests_cant": "insertion changes the list being walked; cyclic indices in both directions; the agreement of both sides concerns pairs of runs", "anchors": ["recast/contour.go:simplifyContour", "recast/contour.go:distancePtSeg"]}
{"id": "C69", "title": "The raw contours match the outlines of the regions exactly", "statement": "BuildContours walks along closed lines of outline edges of one region each, from every edge to the next one around the corner, through 40000 steps at most without being cut off, and yields for every edge its end point with the largest height around it, the region across, and the flags for corners at the border and for area changes. No edge is passed in two walks or twice in one, and every outline edge of every region is in a walk, except those of single unconnected spans.", "quantifier": "every compact heightfield with mutual connections and one area per region (as after BuildRegionsMonotone), regions of any shape with outlines of at most 39996 steps", "why_tests_cant": "the walk is a permutation of edge states; missing, doubled or open outlines appear only for particular shapes such as holes, spirals and touching corners", "anchors": ["recast/contour.go:BuildContours", "recast/contour.go:walkContour2", "recast/contour.go:cornerHeight"]}
{"id": "C70", "title": "Every outline that keeps three points is stored once, with region, area and shifted points", "statement": "BuildContours does not fail before more than max(MaxRegions, 8) contours are stored; then it panics. It stores in order, for every walk, the simplified points without those at the place of the next one, if three are left, with region and area of its span, and with points and raw points relative to the border. Dropping keeps a point at every place and, unless three consecutive points coincide, leaves no two consecutive ones at one place.", "quantifier": "every compact heightfield as in C69, every border size, limit, error, edge length and flags", "why_tests_cant": "the count of contours depends on holes; coinciding points arise only for particular simplifications", "anchors": ["recast/contour.go:BuildContours", "recast/contour.go:removeDegenerateSegments"]}
{"id": "C71", "title": "The polygon mesh fills the contours and connects what they share", "statement": "Without vertices to remove, BuildPolyMesh returns false for 65534 vertices or more; otherwise, if all edges fit 16 bits, it returns a mesh whose vertices are the welded points of the contours of at least three vertices, and whose polygons come contour by contour, with its region and area, 3 to nvp vertices each, at most n-2 of them. They come from corners cut off the contour: if its vertex numbers are distinct no directed edge occurs twice, all cut vertices are kept, areas add up to the contour's (less a rest that could not be triangulated), and polygons turn left everywhere if all triangles do. No two polygons of a contour are left that have just one edge in common and could be merged. Every edge names the polygon across, mutually, or its side of the field if there is a border, or nothing.", "quantifier": "every list of contours (simple or not, overlapping or not) with total vertices times nvp at most 65535, every nvp >= 3, border and field size", "why_tests_cant": "merging depends on the whole list of polygons at every step; shapes for which the triangulation stops early are rare", "anchors": ["recast/polymesh.go:BuildPolyMesh", "recast/mesh.go:triangulate", "recast/mesh.go:buildMeshAdjacency", "recast/mesh.go:mergePolyVerts", "recast/mesh.go:addVertex"]}
{"id": "C72", "title": "Removing a vertex tears out its polygons and fills the hole", "statement": "canRemoveVertex never fails and says yes exactly when more than two edges of the polygons at the vertex remain and at most two vertices are joined to it by a single edge. removeVertex drops exactly the polygons at the vertex, keeps the others with higher vertices renumbered, and fills a longest walk along the remaining edges of the dropped ones with polygons of 3 to nvp vertices (as far as there is room), with an area of theirs, and a region other than 0 only if all their vertices belong to dropped polygons of it; it panics exactly if that walk has two vertices. If the edges form one chain of different vertices, the walk is that chain.", "quantifier": "every polygon mesh with at most 21845 vertices and polygons times nvp at most 65535, every vertex, every capacity", "why_tests_cant": "the walk depends on the order of polygons and edges; vertices are only removed where tile borders meet, and panics need overlapping polygons", "anchors": ["recast/mesh.go:canRemoveVertex", "recast/mesh.go:removeVertex", "recast/mesh.go:pushFront", "recast/mesh.go:pushBack"]}
{"id": "C73", "title": "The polygon mesh of contours with vertices marked for removal", "statement": "BuildPolyMesh on any contours first has polygons that fill them (C71), then removes, in order, every marked vertex that passes the test, and returns the mesh that remains with neighbours and portals; or it panics, exactly when a hole has two vertices. Vertices without a mark are all kept, in order, none is new; areas are those of contours, regions too or 0.", "quantifier": "every list of contours with total vertices times nvp at most 65535, regions of 16 and areas of 8 bits, any marks, every nvp >= 3, border and field size", "why_tests_cant": "the loop changes the list it runs over; which vertices pass depends on earlier removals", "anchors": ["recast/polymesh.go:BuildPolyMesh", "recast/mesh.go:canRemoveVertex", "recast/mesh.go:removeVertex"]}
{"id": "C74", "title": "The Delaunay loop ends with a consistent table of edges, and covers the hull if the table is complete", "statement": "delaunayHull always ends, with at most ten edges per point. In its table no side occurs twice and none is unset: each side has a face that has it, or is marked as outside because no point is on its left. Every face was put on a side with a third corner on the left of it that the circle test admits: later points are outside its circle (or close to it, behind an edge), and it came first or beat an earlier one. If every face is on two sides or more, the call returns one row per face, in the order of the hull; if some face is on one side only it panics, which convex hulls with points strictly inside can cause. If only hull sides are outside and every face is on three sides, signed areas of the triangles add up to that of the hull wherever the points are.", "quantifier": "all float32 points (NaN and infinities included), every number of points up to 20000000, every hull of three or more different points", "why_tests_cant": "each face depends on all edges before it and on tolerances; points near one circle or on one line decide, and the panic needs several of them", "anchors": ["recast/meshdetail.go:delaunayHull", "recast/meshdetail.go:completeFacet", "recast/meshdetail.go:addEdge", "recast/meshdetail.go:findEdge", "recast/meshdetail.go:updateLeftFace", "recast/meshdetail.go:overlapEdges", "recast/meshdetail.go:circumCircle"]}
{"id": "C75", "title": "The plane geometry of the detail mesh is exact, and flags mark sides along the polygon", "statement": "In exact arithmetic, circumCircle gives a point at the same distance from the three corners of a triangle with non-zero area; overlapSegSeg2d says yes exactly if the open segments are not parallel and have a common point; distPtTri gives the difference between the height of the point and of the plane of the triangle above or below it exactly if the point is over the triangle up to a ten-thousandth part of its sides. getTriFlags sets bits 0, 2, 4 exactly for the sides of which both ends are within 0.001 (in float32) of one side of the polygon.", "quantifier": "all rational points; all float32 triangles and polygons for the flags", "why_tests_cant": "tests sample points; the formulas divide by areas near zero", "anchors": ["recast/meshdetail.go:circumCircle", "recast/meshdetail.go:overlapSegSeg2d", "recast/meshdetail.go:distPtTri", "recast/meshdetail.go:getEdgeFlags", "recast/meshdetail.go:getTriFlags"]}
{"id": "C76", "title": "Heights around a polygon come from spans reached over connections, starting in its region or at its center", "statement": "If a span of the region of the polygon lies in the height patch, getHeightData ends and fills the patch: every cell with a span of the region gets the height of the lowest such span, every other cell the height of a span reached over connections from those, and a cell stays unset only if no connection leads to it from a cell that was filled. Otherwise the heights spread in the same way from one span: it was reached from the span closest in height to a vertex, and it is in the cell at the mean of the vertices unless the walk was exhausted without meeting that cell. If no span is near a vertex the call panics. Cells outside the patch are untouched.", "quantifier": "every well-formed compact heightfield, patch inside it, region and polygon of up to 32767 vertices with 16-bit coordinates and vertex numbers up to 21844; every size and every order of the flood", "why_tests_cant": "the flood drops 256 queue entries at a time, needs large patches and several layers to go wrong, and unset cells look like missing data", "anchors": ["recast/meshdetail.go:getHeightData", "recast/meshdetail.go:seedArrayWithPolyCenter", "recast/meshdetail.go:push3"]}
{"id": "C77", "title": "The detail mesh of a polygon: simplified height samples on its sides, the worst samples inside until the error is small", "statement": "For a positive sample distance, buildPolyDetail puts on each side of the polygon the samples that a recursive split at the furthest one keeps: every sample left out is within the error of the segment that replaces it. The hull has every vertex once, at most 126, and the polygon itself is unchanged. A side gets the same points in opposite order from the polygon across it. If the polygon is thinner than two sample distances the triangulation of the hull is the result. Otherwise grid samples inside are added, always one with the largest error, until there are 127 vertices or every sample over the mesh is within the error. The call panics exactly when delaunayHull does on the way or there are more than 255 triangles; a returned mesh has corners among its vertices. A sample distance that is not positive always panics.", "quantifier": "every polygon of 3 to 126 vertices with any float32 coordinates whose side lengths in sample distances fit in 31 bits, every height patch with data for all its cells, every positive sample distance, every error", "why_tests_cant": "which samples stay depends on all heights; limits of 31 per side and 126 in all only show with large polygons, and the panics need particular sets of points", "anchors": ["recast/meshdetail.go:buildPolyDetail", "recast/meshdetail.go:polyMinExtent", "recast/meshdetail.go:distToPoly", "recast/meshdetail.go:distToTriMesh", "recast/meshdetail.go:jitterX", "recast/meshdetail.go:jitterY"]}
{"id": "C78", "title": "The detail mesh of a polygon mesh: one sub-mesh per polygon, packed in order", "statement": "BuildPolyMeshDetail stores one sub-mesh per polygon, in order and without gaps, with its offsets and counts; the arrays of vertices and triangles grow when they have to and no store is out of range. Sub-mesh i is the detail mesh of polygon i over the heights found in the patch of its bounding box with one cell around, moved by the origin of the mesh (and one cell height up), with the flags of its triangle edges on the sides of the polygon. Its first vertices are those of the polygon, and its triangles use its own vertices, which fit in a byte. The call panics only for a polygon without heights (no span of its region in the patch and none near a vertex) or if buildPolyDetail panics. A mesh without vertices or polygons gives an empty detail mesh. Refuted beyond vertex 21845: the number is multiplied by 3 in 16 bits and another vertex is read.", "quantifier": "every mesh of any number of polygons of 3 to 126 vertices (numbers up to 21844) lying in a well formed compact heightfield, every border, every positive sample distance and every error", "why_tests_cant": "the capacities are exceeded only for particular totals, the patch depends on every vertex of the polygon, and the wrap needs a mesh of over 21845 vertices", "anchors": ["recast/meshdetail.go:BuildPolyMeshDetail"]}
{"id": "C79", "title": "Walkable triangles: exactly those facing up enough, from one side only; bounds and grid size", "statement": "MarkWalkableTriangles sets exactly the areas of the triangles whose unit normal has an upward component above the cosine of the slope, and ClearUnwalkableTriangles clears exactly those where it is not above. Called both, in either order, they settle the area of every triangle that has a normal. A triangle with two equal corners has a NaN normal and keeps its area, even a walkable one. A triangle is walkable from one side at most. CalcBounds encloses every vertex and each bound is attained. CalcGridSize is not negative for ordered bounds and a positive cell size unless the size overflows.", "quantifier": "all float32 vertices and triangles with indices in range, every angle, every cosine function", "why_tests_cant": "degenerate triangles give NaN, for which both comparisons are false; antisymmetry of the float32 normal holds for all inputs only by argument", "anchors": ["recast/recast.go:MarkWalkableTriangles", "recast/recast.go:ClearUnwalkableTriangles", "recast/recast.go:calcTriNormal", "recast/recast.go:CalcBounds", "recast/recast.go:CalcGridSize"]}
{"id": "C80", "title": "Pipeline: from the compact heightfield to both meshes, every step meets what the next one needs", "statement": "The compact heightfield of a well-formed heightfield has mutual links, heights and areas in range; erosion and marking keep that. Regions of such a field have 16-bit numbers, lie inside the border and have one area each. The contours of such regions pass through corners of the inner grid with heights of spans of their region. The mesh of such contours, with or without border, meets every precondition of the detail mesh, each polygon of a region covers a cell with a span of that region, so no height data is lost. Therefore the whole chain ends either with a proper mesh and its detail mesh, or with no mesh when there are too many contour vertices; the only panics are too many contours, too many detail vertices or triangles of one polygon and, only with a border, a removed vertex whose hole has two edges.", "quantifier": "all compact heightfields with these invariants, every border size, merge and simplification setting, contours of total size times vertices per polygon at most 65535", "why_tests_cant": "each function is tested with inputs that happen to work; that the guarantee of each step is enough for the next one is a statement about all of them", "anchors": ["sample/solomesh/builder.go:Build", "sample/tilemesh/builder.go:buildTileMesh", "recast/region.go:BuildRegionsMonotone", "recast/contour.go:BuildContours", "recast/polymesh.go:BuildPolyMesh", "recast/meshdetail.go:BuildPolyMeshDetail"]}
{"id": "C81", "title": "Tile: the bytes of the tile built from a field hold its polygons, details and corners", "statement": "From a compact heightfield with the invariants of C80, building a tile ends as the two meshes do: a panic, no tile when there are too many vertices, no polygons or more than six vertices per polygon, and otherwise bytes. Their header gives the place of the tile, the counts of polygons, vertices, detail vertices and triangles, the agent and the corners inside the border. Reading the bytes back gives a tile with each polygon with its vertices, its neighbours (portals for edges on the border), area and flags (walkable becomes ground; ground, road and grass walk, water swim, doors walk and door, others none), and the details of each polygon: the vertices of its sub-mesh that are not its own, and its triangles; after them the connections that start inside, each as a polygon of two vertices with its area and flags and an entry with its ends, radius and number. Without connections the tile has the vertices of the mesh in world units and nothing else, and AddTile accepts it into every mesh with a free slot and no tile at its place.", "quantifier": "all compact heightfields and settings of C80, all sort functions that permute, all connections in the range of their types that fit the tile, meshes whose extra detail vertices have at most 65535 coordinates", "why_tests_cant": "samples build a few files and compare the bytes with stored ones; which polygon, detail or flag of which mesh is where in the bytes is not looked at, and no other mesh is covered", "anchors": ["sample/solomesh/builder.go:Build", "sample/tilemesh/builder.go:buildTileMesh", "detour/navmeshcreate.go:CreateNavMeshData", "detour/mesh.go:NavMesh.AddTile", "recast/contour.go:BuildContours"]}
{"id": "C82", "title": "Holes are merged into the outline from left to right over segments clear of the holes, and the area is kept", "statement": "Taken by itself (BuildContours never reaches it), mergeRegionHoles with a slice that has only the holes of the region takes them by their leftmost vertex, then by z. Each hole is left alone, or joined: the outline so far from one vertex around to it, over to a vertex of the hole, around and back, over a segment that touches no side of this or a later hole except at its ends. The hole is then empty. The sum of the signed areas stays the same, and each joint adds two vertices. With entries behind the holes, as BuildContours would pass, a nil contour is read. A vertex passes the cone test exactly if the point lies inside the angle of its two sides. One hole whose leftmost vertex is seen from vertex 0 and lies in the cone of some vertex is joined to vertex 0. The segment need not be the shortest clear one: the whole slice of candidates is sorted, with its unused entries.", "quantifier": "every outline and every list of holes of any size, every sort function; segments clear in the exact sense for coordinates up to 16383", "why_tests_cant": "the code is behind a panic(\"UNTESTED\") and no test calls it", "anchors": ["recast/contour.go:mergeRegionHoles", "recast/contour.go:mergeContours", "recast/contour.go:findLeftMostVertex", "recast/contour.go:intersectSegCountour", "recast/contour.go:compareHoles.Less"]}
