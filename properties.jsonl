{"id": "C01", "title": "QuadTree range search is exact", "statement": "QuadTree(points, leaf_capacity).search_within(xmin, ymin, xmax, ymax) returns, each exactly once, the indices i of precisely those points with xmin < x_i < xmax and ymin < y_i < ymax, including every member of a group of coincident points.", "quantifier": "every finite list of points (coincident, collinear and clustered ones included), every leaf capacity >= 2, every query box", "why_tests_cant": "The tree shape depends on the whole insertion history; any finite set of point clouds exercises only finitely many split patterns, and a lost or doubled index shows up only for particular coincidences of points, midpoints and box edges.", "anchors": ["karta/vector/quadtree.h:qt_insert", "karta/vector/quadtree.h:qt_split", "karta/vector/quadtree.h:qt_search_within", "karta/vector/quadtree.pyx:QuadTree"]}
{"id": "C02", "title": "QuadTree construction terminates and counts every point", "statement": "Building a QuadTree with leaf capacity >= 2 terminates on every finite point list without NaN, len(tree) equals the number of points and tree.bbox equals the bbox of the points; with capacity < 2 a non-empty list never finishes.", "quantifier": "every finite list of points and every capacity", "why_tests_cant": "Termination of the recursive split is a statement about unboundedly deep recursion; a test can only observe that some runs end.", "anchors": ["karta/vector/quadtree.h:qt_split", "karta/vector/quadtree.pyx:QuadTree.__cinit__"]}
{"id": "C03", "title": "QuadTree search does not depend on capacity or insertion order", "statement": "Two QuadTrees built from the same points with any two capacities >= 2 return the same set of indices for every query; permuting the points permutes the returned indices accordingly.", "quantifier": "all pairs of capacities, all permutations, all point lists, all boxes", "why_tests_cant": "Relates pairs of executions over unboundedly many shapes.", "anchors": ["karta/vector/quadtree.pyx:QuadTree.search_within"]}
{"id": "C04", "title": "RTree search returns only geometries satisfying the predicate", "statement": "Every index returned by RTree(geoms, maxchildren).search_within(bbox) (search_overlapping(bbox)) refers to a geometry whose bounding box lies within (overlaps) the query bbox, and is a valid index into geoms.", "quantifier": "every list of geometries, every maxchildren, every query", "why_tests_cant": "Soundness has to survive every sequence of leaf and non-leaf splits.", "anchors": ["karta/vector/rtree.h:rt_search_within", "karta/vector/rtree.h:rt_search_overlapping", "karta/vector/rtree.pyx:RTree"]}
{"id": "C05", "title": "RTree search misses nothing", "statement": "search_overlapping / search_within return every geometry whose bounding box satisfies the predicate.", "quantifier": "every list of geometries, every maxchildren, every query", "why_tests_cant": "Losses happen only after particular split histories (coincident seeds, underfull dumps, stale parents), which small tests never produce.", "anchors": ["karta/vector/rtree.h:rt_insert", "karta/vector/rtree.h:rt_split_leaf", "karta/vector/rtree.h:rt_split_nonleaf", "karta/vector/rtree.h:linear_pick_seeds"]}
{"id": "C06", "title": "Table.setfield/getfield behave like a column store", "statement": "After t.setfield(f, v) with len(v) == len(t), t.getfield(f) == v, every other field's column is unchanged, the number of rows and the order of existing fields is unchanged, a new field is added last; with a wrong length ValueError is raised and t is unchanged.", "quantifier": "every non-empty table, field name and value list", "why_tests_cant": "Ranges over all tables, widths and histories of setfield calls.", "anchors": ["karta/vector/table.py:Table.setfield", "karta/vector/table.py:Table.getfield", "karta/vector/table.py:tuplemut", "karta/vector/table.py:tupleinsert"]}
{"id": "C07", "title": "Table.extend appends by field name", "statement": "t.extend(u) keeps every existing row and the fields of t, and appends len(u) rows; in each, a field of t that u also has holds u's value for that row and any other field holds None.", "quantifier": "every pair of tables, with any field orders, overlaps and lengths", "why_tests_cant": "Column order and overlap patterns are unbounded.", "anchors": ["karta/vector/table.py:Table.extend"]}
{"id": "C08", "title": "Table.updated overrides and preserves columns", "statement": "For a non-empty table t, t.updated(m) returns a new table with the same number of rows whose fields are the union of the fields; a field in m has m's column, any other has t's column; t itself is not changed, and an ill-sized column raises ValueError.", "quantifier": "every non-empty table, every mapping or table, and every iteration order of field sets", "why_tests_cant": "The result goes through Python set iteration order, which tests cannot enumerate.", "anchors": ["karta/vector/table.py:Table.updated"]}
{"id": "C09", "title": "Table merge is an inner join on fields", "statement": "merge(mappings) has as fields exactly the field names common to all mappings and as rows the rows of the mappings in order (a dict contributes one row), each value taken from the column of the same name.", "quantifier": "every non-empty list of tables and dicts, every iteration order of the intersection set", "why_tests_cant": "Ranges over unbounded lists and hash orders.", "anchors": ["karta/vector/table.py:merge"]}
{"id": "C10", "title": "CompressedBand is indistinguishable from a plain 2-D array", "statement": "For every history of in-bounds setblock calls on CompressedBand(size, dtype, chunksize, initval), getblock(y, x, ny, nx) for an in-bounds window returns at each cell the last value written there, or initval if none was.", "quantifier": "every size, every chunk size, every sequence of writes, every read window", "why_tests_cant": "The property quantifies over unbounded interleavings of overlapping block writes and chunk alignments.", "anchors": ["karta/raster/band.py:CompressedBand", "karta/raster/band.py:CompressedBand.setblock", "karta/raster/band.py:CompressedBand.getblock", "karta/raster/band.py:CompressedBand._getchunks"]}
{"id": "C11", "title": "Chunk size is unobservable", "statement": "Two CompressedBands of equal size and initval but different chunk sizes, and a SimpleBand filled with the initval, answer every getblock identically after the same in-bounds writes.", "quantifier": "every pair of chunk sizes and every history", "why_tests_cant": "A relational property over pairs of unbounded executions.", "anchors": ["karta/raster/band.py:SimpleBand", "karta/raster/band.py:CompressedBand"]}
{"id": "C12", "title": "Grid indexing agrees with array indexing", "statement": "grid.values / BandIndexer[i, j], [slice, slice], [slice, slice, band] returns exactly the elements numpy would return on the stacked (rows, columns, bands) array, for all start/stop/step including negative steps.", "quantifier": "every band content, every integer and slice key", "why_tests_cant": "Slices with arbitrary signs, steps and out-of-range ends are an infinite space with many boundary cases.", "anchors": ["karta/raster/band.py:BandIndexer.__getitem__"]}
{"id": "C13", "title": "Grid assignment writes exactly the selected cells", "statement": "After bands[key] = value with unit-step keys or a boolean mask, reading back gives the (broadcast) value on the selected cells of the selected bands and the old value everywhere else; stepped slices raise NotImplementedError and change nothing.", "quantifier": "every band stack, key, mask and value", "why_tests_cant": "Frame conditions over all cells and all keys.", "anchors": ["karta/raster/band.py:BandIndexer.__setitem__", "karta/raster/band.py:BandIndexer._set_from_array_mask"]}
{"id": "C14", "title": "Grid coordinates and positions are inverse", "statement": "For a grid with an invertible transform (dx*dy != sx*sy, dy != 0), get_positions applied to the coordinates of cell centre (i, j) gives (i, j) back, and the coordinate of the position of any (x, y) is (x, y).", "quantifier": "every invertible affine transform, skewed or not, and every real position", "why_tests_cant": "An algebraic identity over a continuum of transforms.", "anchors": ["karta/raster/crfuncs.pyx:get_positions_vec", "karta/raster/coordgen.py:CoordinateGenerator.__getitem__", "karta/raster/grid.py:RegularGrid"]}
{"id": "C15", "title": "aschunks tiles the grid", "statement": "grid.aschunks(size, overlap=(0,0)) yields grids which together cover every cell of the grid exactly once, each with the values and the georeference of the cells it came from; every cell is covered when 0 <= overlap < size.", "quantifier": "every grid size, chunk size and overlap", "why_tests_cant": "Boundary arithmetic over all size/chunk/overlap combinations, plus termination.", "anchors": ["karta/raster/grid.py:RegularGrid.aschunks"]}
{"id": "C16", "title": "clip keeps the georeference of the retained cells", "statement": "grid.clip(xmin, xmax, ymin, ymax) returns a grid in which every cell has the same centre coordinates and values as in the source and that covers the requested part of the source.", "quantifier": "every grid, every clip box", "why_tests_cant": "Ranges over a continuum of boxes and rounding positions, including boxes beyond the grid.", "anchors": ["karta/raster/grid.py:RegularGrid.clip"]}
{"id": "C17", "title": "resize preserves overlapping cells", "statement": "grid.resize(bboxnew) yields a grid whose cells that coincide with source cells carry the source values and whose other cells are nodata.", "quantifier": "every grid and target box aligned with the grid or not", "why_tests_cant": "Unbounded combinations of offsets.", "anchors": ["karta/raster/grid.py:RegularGrid.resize"]}
{"id": "C18", "title": "Grid extent bounds every cell", "statement": "grid.bbox() / grid.extent() equals the smallest axis-aligned box holding all cells / all cell centres.", "quantifier": "every size and every affine transform, of either sign of resolution and skew", "why_tests_cant": "Sign combinations of skew and resolution form a continuum; tightness quantifies over all boxes.", "anchors": ["karta/raster/grid.py:RegularGrid.bbox", "karta/raster/grid.py:RegularGrid.extent"]}
{"id": "C19", "title": "merge is a weighted mean of the overlapping valid cells", "statement": "merge(grids, weights) yields at each output cell the weight-averaged value of the valid source cells that lie there and nodata where there is none.", "quantifier": "every non-empty list of aligned grids, weights, offsets and nodata patterns", "why_tests_cant": "Sums over arbitrarily many grids and overlap patterns.", "anchors": ["karta/raster/grid.py:merge"]}
{"id": "C20", "title": "nodata handling is consistent", "statement": "data_mask is True exactly on cells that are data in every band; set_nodata_value replaces the marker on exactly the nodata cells and preserves data_mask; apply(func) changes only valid cells.", "quantifier": "every grid content and nodata value (NaN included)", "why_tests_cant": "Frame conditions over all cells and markers.", "anchors": ["karta/raster/grid.py:RegularGrid.data_mask", "karta/raster/grid.py:RegularGrid.set_nodata_value", "karta/raster/grid.py:RegularGrid"]}
{"id": "C21", "title": "sample_nearest returns the nearest cell's value", "statement": "grid.sample_nearest(x, y) returns the value of the cell containing (x, y), and nodata for points outside the grid, point by point and band by band.", "quantifier": "every grid, every vector of points", "why_tests_cant": "Continuum of positions, ties and mixtures of in- and out-of-range points.", "anchors": ["karta/raster/grid.py:RegularGrid.sample_nearest"]}
{"id": "C22", "title": "sample_bilinear interpolates", "statement": "Bilinear sampling reproduces every function of the form a + bx + cy + dxy exactly between the outermost cell centres, is bounded by the values of the four surrounding cells, agrees with the cell value at cell centres and returns nodata outside.", "quantifier": "every grid and every interior position", "why_tests_cant": "Continuum of positions; exactness and bounds are universally quantified.", "anchors": ["karta/raster/crfuncs.pyx:sample_bilinear_double", "karta/raster/crfuncs.pyx:sample_bilinear_int", "karta/raster/crfuncs.pyx:sample_bilinear_uint"]}
{"id": "C23", "title": "gridpoints averages the points of each cell", "statement": "gridpoints / fillarray yields in every cell the mean of the values of the points that fall in it and nodata in cells without points; the result does not depend on the order of the points.", "quantifier": "every finite list of points and values", "why_tests_cant": "All multisets and permutations.", "anchors": ["karta/raster/grid.py:gridpoints", "karta/raster/crfuncs.pyx:fillarray_double"]}
{"id": "C24", "title": "Terrain derivatives are exact on planes", "statement": "gradient (slope, divergence) of a grid sampled from a plane equals the plane's gradient (its norm, its divergence) at every interior cell, NaN (odd reflection for slope) on the border, and is translation invariant and linear.", "quantifier": "every plane, grid size and resolution", "why_tests_cant": "Holds for all sizes and coefficients or not at all.", "anchors": ["karta/raster/misc.py:_grad", "karta/raster/misc.py:_slope", "karta/raster/misc.py:_div"]}
{"id": "C25", "title": "bbox is the tight bounding box", "statement": "geometry.bbox() contains every vertex and each of its four sides is attained by a vertex.", "quantifier": "every non-empty vertex list", "why_tests_cant": "Universal over vertex lists.", "anchors": ["karta/vector/vectorgeo.pyx:bbox", "karta/vector/geometry.py:MultiVertexMixin.bbox"]}
{"id": "C26", "title": "Polygon area is well defined", "statement": "Polygon.area of a ring is non-negative, independent of the starting vertex, of orientation and of translation, scales with the square of a dilation, and is reduced by the areas of the sub-polygons.", "quantifier": "every ring of any length, every translation, rotation of the start and reversal", "why_tests_cant": "Group-invariance over unbounded rings.", "anchors": ["karta/vector/geometry.py:Polygon.area", "karta/vector/geometry.py:Polygon.isclockwise"]}
{"id": "C27", "title": "Affine transformations compose", "statement": "shift, rotate and apply_transform act vertex-wise as affine maps, keep vertex count, properties and crs, compose like the maps they denote, and shift(v) followed by shift(-v) is the identity.", "quantifier": "every geometry, matrix and shift", "why_tests_cant": "Algebraic laws over a continuum.", "anchors": ["karta/vector/geometry.py:MultiVertexMixin.shift", "karta/vector/geometry.py:MultiVertexMixin.apply_transform"]}
{"id": "C28", "title": "Segment intersection is sound and complete for proper crossings", "statement": "The point returned by intersection(...) lies on both segments; whenever the open segments properly cross a point is returned; parallel segments give NaN.", "quantifier": "every quadruple of points", "why_tests_cant": "Continuum of configurations with measure-zero special cases.", "anchors": ["karta/vector/intersection.pyx:intersection", "karta/vector/intersection.pyx:all_intersections"]}
{"id": "C29", "title": "Line intersection test agrees with the geometric definition", "statement": "a.intersects(b) is True exactly if some segment of a meets some segment of b, and intersections(b) lists exactly the crossing points.", "quantifier": "every pair of polylines or polygons", "why_tests_cant": "All segment configurations (vertical, collinear, touching) and all orders of sweep events.", "anchors": ["karta/vector/intersection.pyx:intersects", "karta/vector/intersection.pyx:iscollinear", "karta/vector/intersection.pyx:overlaps", "karta/vector/geometry.py:ConnectedMultiVertexMixin.intersects"]}
{"id": "C30", "title": "Point-in-polygon test", "statement": "Polygon.contains(pt) for a ring not through pt is non-zero winding: independent of the starting vertex, negated consistently by reversal, False outside the bounding box, True inside convex rings.", "quantifier": "every ring and every query point off the boundary", "why_tests_cant": "Unbounded vertex counts and degenerate vertex/ray coincidences.", "anchors": ["karta/vector/contains.pyx:contains", "karta/vector/geometry.py:Polygon.contains"]}
{"id": "C31", "title": "Nearest point on a segment", "statement": "The point returned by the planar nearest-point routine lies on the segment and no point of the segment is closer to the query; shortest_distance_to of a line is the minimum over its segments and zero-length segments are handled.", "quantifier": "every segment, query and polyline", "why_tests_cant": "Optimality is a universally quantified inequality.", "anchors": ["karta/vector/vectorgeo.pyx:pt_nearest_planar", "karta/vector/geometry.py:ConnectedMultiVertexMixin.shortest_distance_to"]}
{"id": "C32", "title": "Segments and length", "statement": "A line with n vertices has n-1 segments joining consecutive vertices and a polygon n segments including the closing one; length and perimeter are the sums of the segment lengths, additive under concatenation.", "quantifier": "every vertex list", "why_tests_cant": "Induction over vertex lists.", "anchors": ["karta/vector/geometry.py:ConnectedMultiVertexMixin.length", "karta/vector/geometry.py:Polygon.perimeter", "karta/vector/geometry.py:ConnectedMultiVertexMixin.segments"]}
{"id": "C33", "title": "Cached results are transparent", "statement": "A method memoised by the cache decorator returns on every call what the undecorated method would return, for any sequence of calls with any arguments on an object that is not modified in between, and also after vertices are modified.", "quantifier": "every history of calls and updates", "why_tests_cant": "Stale-cache errors need particular call/mutate/call histories.", "anchors": ["karta/vector/decorators.py:cache_decorator", "karta/vector/geometry.py:Multipoint.__setitem__"]}
{"id": "C34", "title": "Spatial selection equals brute force", "statement": "Multipoint.within_bbox / within_radius / within_polygon return exactly the member points satisfying the predicate, with the matching data rows, whether or not the spatial index is used.", "quantifier": "every multipoint with data, query and index state", "why_tests_cant": "Equivalence of two algorithms over all inputs.", "anchors": ["karta/vector/geometry.py:Multipoint.within_bbox", "karta/vector/geometry.py:Multipoint.within_radius"]}
{"id": "C35", "title": "Every member of a multipart keeps its own record", "statement": "len(multi.data) == len(multi), multi[i] carries geometry i together with data record i, subsetting and iteration preserve this pairing, and Multipoint of Points round-trips each point's coordinates and properties.", "quantifier": "every list of points with any property dictionaries", "why_tests_cant": "Depends on dict/set iteration orders and on empty-properties cases.", "anchors": ["karta/vector/geometry.py:Multipoint.__init__", "karta/vector/geometry.py:MultiVertexMultipartMixin", "karta/vector/table.py:Table.fields"]}
{"id": "C36", "title": "Convex hull encloses all vertices", "statement": "convex_hull() returns a ring whose vertices are vertices of the input, that is convex, and that contains every input vertex.", "quantifier": "every multipoint with at least three non-collinear vertices", "why_tests_cant": "All point sets including collinear and repeated points.", "anchors": ["karta/vector/convexhull.pyx:convexhull", "karta/vector/geometry.py:MultiVertexMixin.convex_hull"]}
{"id": "C37", "title": "Dateline handling", "statement": "The dateline-crossing test is antisymmetric under swapping end points and is non-zero exactly when the endpoints lie on different sides and more than 180 degrees apart; the dateline-aware bbox contains every vertex.", "quantifier": "every pair of longitudes and every vertex chain", "why_tests_cant": "Wrap-around histories of unbounded chains.", "anchors": ["karta/vector/dateline.pyx:crosses_dateline", "karta/vector/dateline.pyx:bbox"]}
{"id": "C38", "title": "Angle normalisation", "statement": "unroll_deg maps to [0,360), reduce_deg to [-180,180), both are congruent to the input modulo 360, idempotent and 360-periodic; isbetween_circular tests membership of the shorter arc and is symmetric in the end points.", "quantifier": "every real angle", "why_tests_cant": "Continuum with wrap-around boundaries.", "anchors": ["karta/geodesy.py:unroll_deg", "karta/geodesy.py:reduce_deg", "karta/geodesy.py:isbetween_circular"]}
{"id": "C39", "title": "Canonical geodesic configuration", "statement": "_canonical_configuration returns y1 <= 0, y1 <= y2 <= -y1, 0 <= x2-x1 <= 180 for every pair of points, preserving the absolute latitudes and the longitude separation, so that the recorded flips recover the original configuration.", "quantifier": "every pair of geographic coordinates", "why_tests_cant": "Continuum with sign and wrap boundaries.", "anchors": ["karta/geodesy.py:_canonical_configuration"]}
{"id": "C40", "title": "Root finder keeps its bracket", "statement": "fzero_brent(a, b, f, tol) raises ValueError when f(a), f(b) have the same sign, otherwise any value it returns is a root of f or within tol of a point where f has the opposite (or zero) sign, and it stays inside [a, b].", "quantifier": "every function, bracket and tolerance, every iteration count", "why_tests_cant": "Loop invariant over an arbitrary function.", "anchors": ["karta/geodesy.py:fzero_brent"]}
{"id": "C41", "title": "Tile lookup is inverse to tile bounds", "statement": "tile_from_point(p, z).bbox contains p for every p with |lat| below the mercator limit and lon in [-180, 180); distinct tiles at a zoom have disjoint interiors and every tile is split exactly into four children.", "quantifier": "every point, every zoom", "why_tests_cant": "Continuum of points and transcendental maps.", "anchors": ["karta/tile.py:tile_from_point", "karta/tile.py:Tile.bbox", "karta/tile.py:Tile.nw_corner"]}
{"id": "C42", "title": "ESRI ASCII round trip", "statement": "Writing a grid with to_aai and reading it with read_aai restores the values cell by cell in the same orientation, and the same lower-left corner and cell size.", "quantifier": "every unskewed square-cell grid", "why_tests_cant": "All sizes and contents.", "anchors": ["karta/raster/grid.py:RegularGrid.to_aai", "karta/raster/_aai.py:aairead", "karta/raster/_aai.py:check_header", "karta/raster/read.py:read_aai"]}
{"id": "C43", "title": "GeoTIFF georeference round trip", "statement": "Writing a grid with to_geotiff and reading it back gives the same transform and the same value at each cell, in memory or lazily; lazy block reads equal in-memory block reads.", "quantifier": "every transform (skewed included), size and window", "why_tests_cant": "Algebraic identity over all transforms and windows.", "anchors": ["karta/raster/_gdal.py:write", "karta/raster/_gdal.py:read", "karta/raster/_gdal.py:GdalFileBand.getblock", "karta/raster/read.py:read_geotiff"]}
{"id": "C44", "title": "Shapefile attribute names are unique and recoverable", "statement": "write_shapefile gives every exported attribute a field name of at most ten characters, all different, and stores under each the values of the attribute it was made from; the renaming loop terminates.", "quantifier": "every set of attribute names and every iteration order", "why_tests_cant": "Clash resolution over unbounded key sets.", "anchors": ["karta/vector/_shp.py:ogr_write", "karta/vector/_shp.py:ogr_write_feature", "karta/vector/_shp.py:infer_field_type"]}
{"id": "C45", "title": "GeoJSON features keep properties and per-vertex data apart", "statement": "Reading a feature assigns every property to exactly one of properties and data, to data exactly when its length equals the number of parts; serialising a geometry does not change it, and write-then-read restores geometry, properties and data.", "quantifier": "every geometry, property dictionary and history of as_geojson calls", "why_tests_cant": "All dictionaries and call histories.", "anchors": ["karta/vector/_geojson.py:GeoJSONOutMixin", "karta/vector/read.py:read_geojson"]}
{"id": "C46", "title": "GPX tracks survive a round trip", "statement": "A document built with add_track/add_waypoint, written by as_string and read by fromfile has the same tracks, segments and points in the same order with the same properties.", "quantifier": "every document", "why_tests_cant": "All nestings and property dictionaries.", "anchors": ["karta/vector/_gpx.py:GPX"]}
{"id": "C47", "title": "Ellipsoid parameters are consistent", "statement": "For every ellipsoid specification accepted, the semi-major axis, semi-minor axis and flattening satisfy b = a(1-f); every datum name known to the library resolves to an ellipsoid.", "quantifier": "every proj4 parameter combination", "why_tests_cant": "Ranges over all parameter values and table rows.", "anchors": ["karta/crs.py:Ellipsoid", "karta/crs.py:parse_ellipsoid", "karta/crs.py:DATUM_ELLIPSOIDS"]}
{"id": "C48", "title": "Planar geodetic forward and inverse problems agree", "statement": "On a Cartesian CRS, inverse(x, y, *forward(x, y, az, d)[:2]) returns distance |d| and an azimuth congruent to az (d > 0), and forward/inverse back azimuths point back to the start.", "quantifier": "every start point, azimuth and distance", "why_tests_cant": "Trigonometric identity over a continuum.", "anchors": ["karta/crs.py:CartesianCRS.forward", "karta/crs.py:CartesianCRS.inverse", "karta/geodesy.py:plane_distance", "karta/geodesy.py:plane_azimuth"]}
{"id": "C49", "title": "A Table built from columns returns those columns", "statement": "Table(dict) of equally long lists has the dict's keys as fields, one row per position and getfield(k) == dict[k] for each key.", "quantifier": "every dictionary of equally long columns", "why_tests_cant": "All shapes and key sets; the failure modes are ragged and scalar dictionaries.", "anchors": ["karta/vector/table.py:Table.__init__", "karta/vector/table.py:Table.getfield"]}
{"id": "C50", "title": "Row and column views of a Table agree", "statement": "t.get(i)[f] == t.getfield(f)[i] for each row i and field f of a table with distinct field names; get(i) succeeds exactly for 0 <= i < len(t).", "quantifier": "every table, row index and field", "why_tests_cant": "All tables; repeated field names break it.", "anchors": ["karta/vector/table.py:Table.get", "karta/vector/table.py:Table.getfield"]}
{"id": "C51", "title": "Table calls change only their receiver", "statement": "In any history of constructor, setfield, extend, item assignment, deletion and updated calls, a call changes the table it is made on as documented and leaves every other table object unchanged.", "quantifier": "every finite history of calls on any number of tables", "why_tests_cant": "Aliasing depends on the whole history.", "anchors": ["karta/vector/table.py:Table.__init__", "karta/vector/table.py:Table.extend", "karta/vector/table.py:Table.setfield", "karta/vector/table.py:Table.updated"]}
{"id": "C52", "title": "Grid sums are cellwise", "statement": "For grids of equal transform, shape and number of bands, (g + h).values() and (g - h).values() are the sums and differences of the cell values, on the same transform; with a different transform or shape both raise.", "quantifier": "every pair of grids", "why_tests_cant": "All sizes, transforms and contents.", "anchors": ["karta/raster/grid.py:RegularGrid.__add__", "karta/raster/grid.py:RegularGrid.__sub__"]}
{"id": "C53", "title": "vertex_coords gives the cell corners", "statement": "vertex_coords() of an ny x nx grid returns (ny+1) x (nx+1) coordinate arrays whose entry (i, j) is the corner shared by cells (i-1, j-1) and (i, j).", "quantifier": "every grid", "why_tests_cant": "All sizes and transforms; one row of the result is easily left out.", "anchors": ["karta/raster/grid.py:RegularGrid.vertex_coords"]}
{"id": "C54", "title": "data_extent is the box of the valid cells", "statement": "grid.data_extent(reference) is the smallest (xmin, xmax, ymin, ymax) box containing the centres ('center') or the areas ('edge') of all cells that are not nodata.", "quantifier": "every grid with some valid cell", "why_tests_cant": "All transforms and nodata patterns.", "anchors": ["karta/raster/grid.py:RegularGrid.data_extent"]}
{"id": "C55", "title": "resample(dx, dy) shows the source cell under each new cell centre", "statement": "grid.resample(dx, dy) has spacing dx, dy, the same first cell centre, as many rows and columns as fit between the first and last centres, and every cell holds the value of the source cell containing its centre; non-positive spacing raises.", "quantifier": "every grid and spacing", "why_tests_cant": "All sizes, spacings and numbers of bands.", "anchors": ["karta/raster/grid.py:RegularGrid.resample"]}
{"id": "C56", "title": "aspect points down the slope", "statement": "aspect(grid) gives, for every inner cell with data around it, the direction of steepest descent as an angle in (-pi, pi]; NaN on the border and beside nodata cells.", "quantifier": "every unskewed grid and band", "why_tests_cant": "All surfaces and resolutions; the sign conventions of both axes matter.", "anchors": ["karta/raster/misc.py:aspect", "karta/raster/misc.py:_aspect"]}
{"id": "C57", "title": "normed_potential_vectors is the gradient scaled to unit maximum", "statement": "normed_potential_vectors(grid) returns the two components of the gradient divided by one positive number, chosen so that no vector is longer than one and some vector has length one; it raises when no cell has a gradient.", "quantifier": "every unskewed grid with a non-zero gradient somewhere", "why_tests_cant": "All surfaces, sizes and nodata patterns.", "anchors": ["karta/raster/misc.py:normed_potential_vectors", "karta/raster/misc.py:_normed_potential_vectors"]}
{"id": "C58", "title": "hillshade shows the illumination of the surface", "statement": "hillshade(grid, azimuth, elevation) gives every inner cell the product of its unit surface normal with the light vector, limited to the 2nd and 98th percentile; in particular it depends on the surface and not on the cell size.", "quantifier": "every unskewed grid, azimuth and elevation", "why_tests_cant": "All surfaces and resolutions.", "anchors": ["karta/raster/misc.py:hillshade"]}
{"id": "C59", "title": "Building and querying an RTree always finishes safely", "statement": "RTree(geoms, maxchildren) and its searches finish for every list of geometries and every query, without memory errors and without ending the process.", "quantifier": "every list of geometries, every maxchildren, every query and max_results", "why_tests_cant": "Memory safety and termination depend on every history of node splits.", "anchors": ["karta/vector/rtree.h:rt_insert", "karta/vector/rtree.h:rt_adjust_tree", "karta/vector/rtree.h:rt_split_leaf", "karta/vector/pool.h:pool_pop"]}
{"id": "C60", "title": "max_results limits the answer of an RTree search", "statement": "search_within(bbox, max_results=n) and search_overlapping(bbox, max_results=n) return at most n indices for n >= 0.", "quantifier": "every index, query and limit", "why_tests_cant": "All distributions of matches over nodes.", "anchors": ["karta/vector/rtree.h:rt_search_within", "karta/vector/rtree.h:rt_search_overlapping"]}
{"id": "C61", "title": "Dropping an RTree frees every block once", "statement": "Deleting an RTree frees no memory block twice.", "quantifier": "every list of geometries and maxchildren", "why_tests_cant": "Depends on the aliasing left by every history of splits.", "anchors": ["karta/vector/rtree.h:rt_free", "karta/vector/rtree.pyx:RTree.__dealloc__"]}
{"id": "C62", "title": "RTree.bbox is the tight box of its contents", "statement": "rtree.bbox contains every inserted bounding box and each of its sides is touched by one.", "quantifier": "every non-empty list of geometries and maxchildren", "why_tests_cant": "The box is maintained incrementally through all splits.", "anchors": ["karta/vector/rtree.pyx:RTree.bbox", "karta/vector/rtree.h:rt_adjust_tree"]}
{"id": "C63", "title": "isclockwise and centroid agree with the signed area", "statement": "polygon.isclockwise() is True exactly if the signed area of the ring is negative; polygon.centroid is the point whose coordinates are the area-weighted mean of the centres of the signed triangles making up the ring.", "quantifier": "every polygon, convex or not, with any number of vertices (centroid: non-zero area)", "why_tests_cant": "All shapes and numbers of vertices.", "anchors": ["karta/vector/geometry.py:Polygon.isclockwise", "karta/vector/geometry.py:Polygon.centroid"]}
{"id": "C64", "title": "distance, azimuth and walk fit together", "statement": "In a projected system p.distance(q) is the Euclidean distance; p.azimuth(q) is the compass bearing in [-180, 180), nan only for equal points; p.walk(d, az) is at distance d in direction az, has azimuth az (mod 360) from p, and walking the distance along the azimuth from p to q arrives at q; opposite azimuths differ by 180. In geographical systems the azimuth of different points is the geodetic one.", "quantifier": "all points, distances and azimuths", "why_tests_cant": "All quadrants and angles.", "anchors": ["karta/vector/geometry.py:Point.azimuth", "karta/vector/geometry.py:Point.walk", "karta/vector/geometry.py:Point.distance"]}
{"id": "C65", "title": "to_npoints returns n equally spaced points", "statement": "line.to_npoints(n) returns exactly n points, the first and last being the ends of the line and the i-th at length i*L/(n-1) along it.", "quantifier": "all lines with any number of vertices, all n >= 1", "why_tests_cant": "All combinations of step and segment lengths; the loop state couples both.", "anchors": ["karta/vector/geometry.py:Line.to_npoints"]}
{"id": "C66", "title": "to_points returns points at the given spacing", "statement": "line.to_points(dx) finishes and returns points at lengths 0, dx, 2 dx, ... along the line, up to its end.", "quantifier": "all lines and spacings", "why_tests_cant": "All combinations of spacing and segment lengths.", "anchors": ["karta/vector/geometry.py:Line.to_points"]}
{"id": "C67", "title": "within_distance tells whether a point is near a geometry", "statement": "geom.within_distance(p, d) is True exactly if some point of the geometry's boundary is no further than d from p.", "quantifier": "all lines and polygons, points and distances", "why_tests_cant": "All shapes and numbers of segments.", "anchors": ["karta/vector/geometry.py:ConnectedMultiVertexMixin.within_distance"]}
{"id": "C68", "title": "nearest_vertex_to finds a nearest vertex", "statement": "geom.nearest_vertex_to(p) is the index of a vertex no further from p than any other, the first such.", "quantifier": "all non-empty geometries and points, rank 2 or 3", "why_tests_cant": "All numbers and orders of vertices.", "anchors": ["karta/vector/geometry.py:MultiVertexMixin.nearest_vertex_to"]}
{"id": "C69", "title": "ispolar tells whether a polygon goes round a pole", "statement": "polygon.ispolar() in geographical coordinates is True exactly if the ring passes the 180th meridian a different number of times eastwards than westwards, that is if it encloses a pole.", "quantifier": "all rings of vertices with any longitudes", "why_tests_cant": "All shapes; direction of passage couples edges.", "anchors": ["karta/vector/geometry.py:Polygon.ispolar"]}
{"id": "C70", "title": "contains works in geographical coordinates", "statement": "polygon.contains(point) in geographical coordinates is True exactly if the ring turns round the point, whatever the direction of the ring and the position of north.", "quantifier": "all rings and points, all azimuth functions", "why_tests_cant": "All shapes and orientations.", "anchors": ["karta/vector/contains.pyx:contains_proj"]}
{"id": "C71", "title": "Geodesics along the equator", "statement": "The inverse geodetic problem for two points on the equator gives azimuth 90 or -90 in the direction of the short way, and the distance the short way.", "quantifier": "all pairs of longitudes", "why_tests_cant": "All longitudes, also across the 180th meridian.", "anchors": ["karta/geodesy.py:_ellipsoidal_inverse_equatorial"]}
{"id": "C72", "title": "Polygon area on a sphere", "statement": "polygon.area in a spherical reference system is the area enclosed by the great circle edges: up to sign the sum over the edges of the area between edge and equator (the integral of the sine of the latitude over the longitude).", "quantifier": "all rings of vertices off the poles, not around a pole", "why_tests_cant": "An integral over every shape and position.", "anchors": ["karta/geodesy.py:spherical_area", "karta/vector/geometry.py:Polygon.area"]}
{"id": "C73", "title": "Bounding latitudes of a great circle segment", "statement": "The latitude bounds computed for a segment in geographical coordinates contain every point of the great circle arc between its ends, and are reached by points of the arc.", "quantifier": "all pairs of positions off the poles, every point of the arc", "why_tests_cant": "A continuum of points on every arc.", "anchors": ["karta/vector/vectorgeo.pyx:bndlat_sph"]}
{"id": "C74", "title": "Spherical and Cartesian coordinates convert back and forth", "statement": "cart2sph(*sph2cart(lon, lat)) returns (lon, lat), and cart2sph gives the direction of any non-zero vector.", "quantifier": "all longitudes and latitudes, all vectors", "why_tests_cant": "All directions; thresholds and branches of inverse functions.", "anchors": ["karta/geodesy.py:sph2cart", "karta/geodesy.py:cart2sph"]}
{"id": "C75", "title": "Distance and azimuth on the sphere", "statement": "The distance on the sphere is the central angle between the positions (symmetric, zero only for the same position, with the triangle inequality), and starting in the direction of the azimuth and travelling the distance along a great circle leads to the second position.", "quantifier": "all pairs (triples) of positions", "why_tests_cant": "Trigonometric identities over a continuum.", "anchors": ["karta/geodesy.py:sphere_distance", "karta/geodesy.py:sphere_azimuth", "karta/crs.py:SphericalEarth"]}
{"id": "C76", "title": "Intersection of great circle segments", "statement": "intersection_spherical returns a point on both great circle segments, and finds it whenever the segments cross; otherwise it raises NoIntersection.", "quantifier": "all pairs of segments", "why_tests_cant": "All positions and directions of the segments.", "anchors": ["karta/geodesy.py:intersection_spherical", "karta/geodesy.py:check_in_segment_range"]}
{"id": "C77", "title": "The proj.4 text of a geographical system describes its ellipsoid", "statement": "For crs = GeographicalCRS(spheroid, name, datum), parsing crs.ref_proj4 gives the same ellipsoid as crs.ellipsoid.", "quantifier": "every spheroid text and datum text", "why_tests_cant": "All texts.", "anchors": ["karta/crs.py:GeographicalCRS.__init__", "karta/crs.py:parse_ellipsoid"]}
{"id": "C78", "title": "Equality of projected systems is an equivalence", "statement": "== between ProjectedCRS instances holds exactly when projection text and ellipsoid text are the same; it is reflexive, symmetric and transitive.", "quantifier": "all instances", "why_tests_cant": "All pairs and triples of objects, also those lacking attributes.", "anchors": ["karta/crs.py:ProjectedCRS.__eq__"]}
{"id": "C79", "title": "from_geotiffs stacks the first bands of files that share one georeference", "statement": "from_geotiffs(f1, ..., fn) returns a grid whose k-th band reads as the first band of the k-th file and whose transform is that of the files; it raises for files whose sizes or transforms differ; in_memory chooses between memory and disk.", "quantifier": "every non-empty list of GeoTIFF files and every in_memory argument", "why_tests_cant": "Agreement over all lists of files.", "anchors": ["karta/raster/read.py:from_geotiffs", "karta/raster/_gdal.py:read"]}
{"id": "C80", "title": "mask_by_poly keeps exactly the cells inside the polygons", "statement": "grid.mask_by_poly(polys) returns a grid of the same size and georeference in which a cell whose centre is inside one of the polygons (in its outer ring and in none of its holes) keeps its values in every band, and every other cell has the nodata value in every band; inplace=True changes the grid itself to the same values.", "quantifier": "all grids, all polygons, multipolygons and nested lists of them", "why_tests_cant": "Every position of every edge relative to the cells, every direction of the rows, every number of vertices.", "anchors": ["karta/raster/grid.py:RegularGrid.mask_by_poly", "karta/raster/grid.py:mask_poly"]}
{"id": "C81", "title": "Containment changes only across the boundary of a polygon", "statement": "If two points are joined by a path that does not meet the outline of a polygon or of its holes, polygon.contains gives the same answer for both. If the straight segment between them crosses exactly one edge of an outline, once and at no vertex, the winding numbers of the outline round them differ by one.", "quantifier": "all polygons with any nesting of holes, all paths", "why_tests_cant": "All polygons and all paths in the plane.", "anchors": ["karta/vector/geometry.py:Polygon.contains", "karta/vector/contains.pyx:contains"]}
{"id": "C82", "title": "within and touching find exactly the members inside or touching", "statement": "multi.within(polygon) returns exactly the members of a Multiline or Multipolygon all of whose points are inside the polygon, with their data; multi.touching(geom) returns exactly the members that share a point with the line, or with the polygon or its inside.", "quantifier": "all multilines and multipolygons, all lines and polygons, polygons with holes", "why_tests_cant": "All numbers of members and all mutual positions.", "anchors": ["karta/vector/geometry.py:MultiVertexMultipartMixin.within", "karta/vector/geometry.py:MultiVertexMultipartMixin.touching"]}
{"id": "C83", "title": "The members of a multipolygon are the polygons it was made of", "statement": "Multipolygon(polygons)[i] is a polygon with the vertices, holes and common properties of polygons[i], and answers as it does: area, bounding box, centroid, orientation, perimeter segments, contains, intersects. Multipolygon(lists of rings)[i] has the first ring as its outline and the others as holes.", "quantifier": "all non-empty lists of polygons with holes, all lists of rings, all data", "why_tests_cant": "All polygons and all nestings of holes.", "anchors": ["karta/vector/geometry.py:Multipolygon.__init__", "karta/vector/geometry.py:Multipolygon.__getitem__"]}
{"id": "C84", "title": "Merging lines or polygons keeps every part and its values", "statement": "Multiline.merge and Multipolygon.merge return a multipart whose parts are those of the arguments in order, without the third coordinate where not all have one, each with its values of the fields and properties common to all arguments.", "quantifier": "all lists of lines and multilines, polygons and multipolygons", "why_tests_cant": "All lists, numbers of parts, ranks, data and properties.", "anchors": ["karta/vector/geometry.py:Multiline.merge", "karta/vector/geometry.py:Multipolygon.merge", "karta/vector/geometry.py:Multipolygon.vertices"]}
{"id": "C85", "title": "Affine transformation of multilines and multipolygons", "statement": "apply_transform(M) of a Multiline or Multipolygon moves every vertex of every part, holes included, by the matrix and leaves properties and data as they are.", "quantifier": "all multilines, multipolygons and 2x3 or 3x4 matrices", "why_tests_cant": "All parts, matrices, data and properties.", "anchors": ["karta/vector/geometry.py:MultiVertexMultipartMixin.apply_transform"]}
{"id": "C86", "title": "Equality of geometries", "statement": "Two geometries are equal exactly when they have the same type, equal vertices, holes, data and properties, and equal coordinate systems; == is reflexive, symmetric and transitive and never raises. `point in multipoint` says whether some member equals the point.", "quantifier": "all points, lines, polygons and multipoints over all floating point coordinates, dictionaries, tables and coordinate systems", "why_tests_cant": "All pairs and triples of geometries, including signed zeros, ranks and systems of different classes.", "anchors": ["karta/vector/geometry.py:Point.__eq__", "karta/vector/geometry.py:MultiVertexBase.__eq__", "karta/vector/geometry.py:Multipart.__eq__", "karta/vector/geometry.py:Multipart.__contains__", "karta/vector/table.py:Table.__eq__"]}
{"id": "C87", "title": "Equal geometries have equal hashes", "statement": "If a == b then hash(a) == hash(b), so that geometries can be kept in sets and dictionaries.", "quantifier": "all equal pairs of geometries, whatever the hash functions of strings, bytes and tuples", "why_tests_cant": "All pairs of equal geometries.", "anchors": ["karta/vector/geometry.py:Point.__hash__", "karta/vector/geometry.py:MultiVertexBase.__hash__", "karta/vector/geometry.py:Multipart.__hash__", "karta/crs.py:CRS.__str__"]}
{"id": "C88", "title": "Slices select vertices as Python slices do", "statement": "g[a:b:c] has the vertices at range(len(g))[a:b:c] in that order and the properties and system of g; a polygon stays one, with its holes, if all vertices are selected and becomes a line otherwise; the members of a sliced multipoint keep their records. g[i] and iteration give the vertices as points with the properties of g.", "quantifier": "all geometries and all slices, with missing, negative and out of range bounds and any step", "why_tests_cant": "All lengths, bounds and steps.", "anchors": ["karta/vector/geometry.py:MultiVertexBase.__getitem__", "karta/vector/geometry.py:Polygon.__getitem__", "karta/vector/geometry.py:Multipoint.__getitem__"]}
{"id": "C89", "title": "A geometry read from another one's __geo_interface__ is that geometry", "statement": "from_shape(g) has the kind, vertices, rings, holes, parts, data, properties and coordinate system of g; the properties given as an argument become its properties.", "quantifier": "all points, lines, polygons with holes, multipoints, multilines and multipolygons, of two or three dimensions, all properties and systems", "why_tests_cant": "All geometries and properties.", "anchors": ["karta/vector/read.py:from_shape", "karta/vector/read.py:_from_shape", "karta/vector/geometry.py:Polygon.geomdict", "karta/vector/geometry.py:Multipolygon.vertices_ring", "karta/vector/geometry.py:Multiline.__geo_interface__"]}
{"id": "C90", "title": "Shapefiles keep geometries", "statement": "read_shapefile of a file written by write_shapefile gives geometries of the same kind, in the same order, with the same vertices, rings, holes and parts and each in its own coordinate system.", "quantifier": "all non-empty lists of geometries of one kind", "why_tests_cant": "All lists of geometries, numbers of parts, rings and vertices, and systems.", "anchors": ["karta/vector/_shp.py:ogr_write", "karta/vector/_shp.py:ogr_asPolygon", "karta/vector/_shp.py:ogr_asMultiPolygon", "karta/vector/_shp.py:ogr_read_geometry", "karta/vector/_shp.py:ogr_get_polygon_points", "karta/vector/read.py:ogr_read_shapefile"]}
{"id": "C91", "title": "Coordinate systems are handed to OGR and taken from it unchanged", "statement": "The proj.4 text given to OGR (for a shapefile or for well-known text) is that of the geometry's system, with karta's names for longitude and latitude replaced by OGR's; the system made from a layer has the layer's ellipsoid, or the layer's proj.4 text and name if it is projected.", "quantifier": "all proj.4 texts, all layers", "why_tests_cant": "All texts, axes and flattenings.", "anchors": ["karta/vector/_shp.py:ogr_write", "karta/crs.py:CRS.get_wkt", "karta/vector/read.py:ogr_parse_srs"]}
{"id": "C92", "title": "Extreme values of a grid are those of its data", "statement": "min, max and minmax of a grid are the smallest and the greatest of its values that are not nodata (nor nan), and nan if there are none.", "quantifier": "all grids with any number of rows, columns and bands and any nodata value", "why_tests_cant": "All arrays of values and nodata markers.", "anchors": ["karta/raster/grid.py:Grid.max", "karta/raster/grid.py:Grid.min", "karta/raster/grid.py:Grid.minmax"]}
{"id": "C93", "title": "Samples at points, at arrays and along lines agree", "statement": "sample gives for each band the value at each position, whether the positions are a Point, a Multipoint or a pair of coordinates; profile gives the points along a line at the requested or default spacing with one field for every band that holds the samples there.", "quantifier": "all grids, positions and methods", "why_tests_cant": "All positions, transforms, numbers of bands and of points.", "anchors": ["karta/raster/grid.py:RegularGrid.sample", "karta/raster/grid.py:RegularGrid.profile", "karta/vector/geometry.py:Line.to_points"]}
{"id": "C94", "title": "Travelling along a geodesic of the ellipsoid ends where the geodesic does", "statement": "ellipsoidal_forward(a, b, x, y, azimuth, distance) ends on the geodesic of the ellipsoid that leaves the point in that direction, at that distance, with longitude in [-180, 180), and the returned back azimuth leads back to the start.", "quantifier": "all ellipsoids, oblate and prolate, starting points, directions and distances of either sign", "why_tests_cant": "All positions, directions, lengths and flattenings; tests compare a few published values.", "anchors": ["karta/geodesy.py:ellipsoidal_forward", "karta/geodesy.py:_solve_NEA", "karta/geodesy.py:_solve_NEB"]}
{"id": "C95", "title": "The distance on the ellipsoid is the length of the shortest geodesic", "statement": "The distance and azimuths that ellipsoidal_inverse(a, b, x1, y1, x2, y2) returns are the length and the directions at the ends of the shortest geodesic between them; they do not depend on which is first, and a result is returned for every pair of points.", "quantifier": "all ellipsoids and pairs of points, including equal, opposite, polar and equatorial ones", "why_tests_cant": "All pairs of points: the solution is found by iteration from an approximation, which tests can only sample.", "anchors": ["karta/geodesy.py:ellipsoidal_inverse", "karta/geodesy.py:_canonical_configuration", "karta/geodesy.py:solve_astroid"]}
{"id": "C96", "title": "Areas on ellipsoids belong to the ring, not to how it is given", "statement": "Polygon.area on an ellipsoid does not depend on the direction of the ring nor on the vertex with which it starts; the area under an edge (ellipsoidal_area) has the other sign if the edge is reversed and is zero along meridians and along the equator; every ring on every ellipsoid has an area, and a ring that encloses a region has a positive one.", "quantifier": "all ellipsoids and rings of any number of vertices", "why_tests_cant": "All rings, vertices and axes; tests compute a few quadrants and compare two orders of one ring.", "anchors": ["karta/geodesy.py:ellipsoidal_area", "karta/geodesy.py:_ellipsoidal_area", "karta/vector/geometry.py:Polygon.area"]}
{"id": "C97", "title": "Areas on ellipsoids are accurate", "statement": "ellipsoidal_area of an edge is, up to b^2 ep^6 (10/9009 + 512/3003 ep) (ep the second eccentricity squared; under a hundredth of a square metre on the Earth), the area between the equator and the geodesic between its ends; Polygon.area of a ring is the absolute sum of these areas up to that error per edge; the result depends only on the points, not on the range in which longitudes are written, and the series has the accuracy of the published one.", "quantifier": "all oblate ellipsoids with third flattening up to 1/10, edges and rings of any number of vertices for which the inverse problem is solved", "why_tests_cant": "An error bound over all geodesics and ellipsoids; tests compare a few polygons with numbers from another program to some digits.", "anchors": ["karta/geodesy.py:ellipsoidal_area", "karta/geodesy.py:_ellipsoidal_area", "karta/vector/geometry.py:Polygon.area"]}
{"id": "C98", "title": "Coordinates in another system are those of the same places", "statement": "vertex, coords and vertices with a crs argument give, for every vertex, part and ring in order, the coordinates in that system of the place where it is (and unchanged coordinates in the own system); constructing a Line, Polygon, Multipoint or Multiline from members in different systems, and adding geometries, keeps every member where it is, with all its coordinates and holes.", "quantifier": "all geometries with two or three coordinates, and all coordinate systems for which a transformation exists", "why_tests_cant": "All combinations of kinds, ranks, systems and numbers of vertices; tests transform a few points.", "anchors": ["karta/vector/geometry.py:Point.vertex", "karta/vector/geometry.py:MultiVertexMixin.coords", "karta/vector/geometry.py:MultiVertexMixin.vertices", "karta/vector/geometry.py:Multiline.vertices", "karta/vector/geometry.py:Multipolygon.vertices", "karta/vector/geometry.py:Multipoint", "karta/raster/coordgen.py:coordinate_transformer"]}
{"id": "C99", "title": "The fitted affine matrix is the best one", "statement": "affine_matrix(a, b) gives the 2x3 matrix of an affine map that takes the points of a to those of b (in the system of a) with the smallest possible sum of squared distances; it reproduces b whenever b is an affine image of a, and recovers the map if the points of a are not on one line; multipoints of different length raise GeometryError.", "quantifier": "all pairs of multipoints of any equal length and rank, in any two systems", "why_tests_cant": "A minimum over all affine maps for all sets of control points; tests check one example.", "anchors": ["karta/vector/geometry.py:affine_matrix"]}
{"id": "C100", "title": "The nearest position on geodesics is found to the stated tolerance", "statement": "In geographical systems shortest_distance_to and nearest_on_boundary give, for a line or polygon and a point, a position on one of its geodesic edges and its distance from the point, and no position of any edge is nearer by more than the tolerance of the search (a centimetre); the search always ends.", "quantifier": "all lines with any number of edges, all points, and all spheres and ellipsoids", "why_tests_cant": "A minimum over all positions of all edges found by bisection on a numerical derivative; tests compare a few points.", "anchors": ["karta/vector/vectorgeo.pyx:pt_nearest_proj", "karta/vector/geometry.py:MultiVertexMixin.shortest_distance_to", "karta/vector/geometry.py:MultiVertexMixin.nearest_on_boundary"]}
{"id": "C101", "title": "Intersections are found in geographical coordinates", "statement": "intersects of two lines or polygons in a geographical system is True exactly if an edge of one and an edge of the other (shorter great circle arcs between consecutive vertices, on polygons also from the last to the first) have a position in common; the call always returns.", "quantifier": "all pairs of lines and polygons with any number of vertices anywhere on the globe, whatever rounding does to the latitudes by which the sweep orders edges", "why_tests_cant": "All pairs of geometries: the sweep tests only neighbours in an order that depends on every other edge; tests check a few pairs of lines.", "anchors": ["karta/vector/intersection.pyx:intersects_sph", "karta/vector/intersection.pyx:_intersects_sph", "karta/vector/intersection.pyx:SweepLinePlaceholder", "karta/vector/dateline.pyx:bbox", "karta/vector/geometry.py:MultiVertexMixin.intersects"]}
{"id": "C102", "title": "Spatial index memory is safe and given back", "statement": "Constructing a QuadTree, searching it any number of times and dropping it never reads or writes freed, uninitialised or foreign memory and frees no block twice; the searches answer what the index contains; when the tree is gone, or its construction has raised, all memory it took is given back.", "quantifier": "all lists of points, capacities and query boxes, all numbers of searches, and every position of a NaN", "why_tests_cant": "Memory errors depend on the shape of the tree after every sequence of splits; tests see neither freed memory still readable nor blocks lost.", "anchors": ["karta/vector/quadtree.h:qt_split", "karta/vector/quadtree.h:qt_insert", "karta/vector/quadtree.h:qt_search_within", "karta/vector/quadtree.h:qt_free_node", "karta/vector/pool.h:pool_add", "karta/vector/quadtree.pyx:QuadTree"]}
{"id": "C103", "title": "Exports leave the files in order", "statement": "to_geojson, GPX.writefile, to_aai, to_shapefile/write_shapefile and to_geotiff touch no file but the one they are told to write; at every moment, and so at every crash, that file has its old contents or the beginning of the new ones; a call that returns has written all of them, one that raises leaves the old contents; every opened file is closed, an object given instead of a path stays open and receives the text after what it had.", "quantifier": "all exports and contents, all histories of exports, all failures of single operations (open, write, close, delete) and all points at which the machine may stop", "why_tests_cant": "Every position of a failure or crash in every history; tests write to a healthy disk and read the file back.", "anchors": ["karta/vector/_geojson.py:GeoJSONOutMixin.to_geojson", "karta/vector/_gpx.py:GPX.writefile", "karta/raster/grid.py:RegularGrid.to_aai", "karta/vector/_shp.py:ogr_write", "karta/vector/_shp.py:write_shapefile", "karta/raster/_gdal.py:write"]}
{"id": "C104", "title": "Resampling keeps the picture in place", "statement": "resample(dx, dy, method='linear') gives a grid with the asked for cells that starts at the same centre and holds, in every band, the bilinear interpolation of the source at each new centre; aligning a grid (_align_origin) moves its anchor to the nearest multiples of x and y, keeps cells and size, and every cell shows the source at its new centre, or nodata outside; a grid aligned already is unchanged.", "quantifier": "all grids of any size, bands and anchor, all resolutions and multiples, both methods", "why_tests_cant": "All sizes, ratios of resolutions and shifts, including the edges of the window that is read; tests compare three grids of a linear function.", "anchors": ["karta/raster/grid.py:RegularGrid.resample", "karta/raster/grid.py:RegularGrid._resample_transform", "karta/raster/grid.py:RegularGrid._align_origin"]}
{"id": "C105", "title": "R-tree memory is given back", "statement": "Making an RTree of a list of geometries, searching it any number of times and dropping it frees only blocks allocated for it, each at most once; when the index is gone, or its construction has raised, all memory it took is given back, and memory does not grow with the number of searches.", "quantifier": "all lists of geometries (with or without a bbox), every maxchildren from four on, all sequences of searches with any query boxes and limits", "why_tests_cant": "Which blocks are reached when the tree is dropped depends on its shape after every sequence of splits; tests do not see blocks lost, nor every double free.", "anchors": ["karta/vector/rtree.h:rt_free", "karta/vector/rtree.h:rt_new_node", "karta/vector/rtree.pyx:RTree"]}
{"id": "C106", "title": "Geometries do not change behind one's back", "statement": "A method that returns a geometry changes none that exists; an assignment to a geometry (properties, data, a vertex, extend) changes only that geometry, and where objects are in common by design (properties of the vertices of a line, of slices and of moved geometries, data of moved multipoints), exactly the geometries in common change, in the same way; members of multiparts, hulls, collections and merged geometries are copies.", "quantifier": "all histories of constructions, methods and assignments on any number of geometries of all classes", "why_tests_cant": "Sharing is a relation between objects built up by whole histories; tests look at the object just returned.", "anchors": ["karta/vector/geometry.py:Geometry", "karta/vector/geometry.py:MultiVertexMixin.apply_transform", "karta/vector/geometry.py:MultiVertexMixin._subset", "karta/vector/geometry.py:Multipart", "karta/vector/geometry.py:Multipoint.__setitem__", "karta/vector/geometry.py:Multipoint.merge", "karta/vector/table.py:Table"]}
{"id": "C107", "title": "Rounding does not change answers", "statement": "With the doubles that are really computed with, contains tells whether a ring winds round a point, positions and _indices put a point where it is in a grid (the centre of each cell in that cell, and points further along an axis never in an earlier cell), and area is the area of the ring, up to an error no larger than rounding explains; coordinates with few digits have no error.", "quantifier": "all points, rings of any number of vertices, unrotated grids and cells, with any finite double coordinates of reasonable magnitude", "why_tests_cant": "Rounding errors depend on every digit of every coordinate; tests compare a few round numbers to seven digits.", "anchors": ["karta/vector/contains.pyx:contains", "karta/vector/contains.pyx:isleft", "karta/raster/crfuncs.pyx:get_positions_vec", "karta/raster/grid.py:RegularGrid._indices", "karta/raster/grid.py:RegularGrid.center_coords", "karta/vector/geometry.py:Polygon.area"]}
{"id": "C108", "title": "Single precision in the R-tree does not change answers", "statement": "For geometries with any double coordinates, RTree.search_within returns exactly those whose boxes lie in the query, RTree.search_overlapping exactly those whose boxes overlap it, and RTree.bbox contains them all, although the boxes are kept and compared in single precision.", "quantifier": "all lists of boxes and query boxes of doubles, every maxchildren from four on, all limits", "why_tests_cant": "Whether rounding moves a side across another depends on every digit of every coordinate; tests use small whole numbers, for which nothing is rounded.", "anchors": ["karta/vector/rtree.pyx:RTree", "karta/vector/rtree.h:is_within", "karta/vector/rtree.h:is_overlapping", "karta/vector/rtree.h:bbox_intersection_area"]}
{"id": "C109", "title": "Grids do not change behind one's back", "statement": "A method that returns a grid or an array changes no grid that exists, and what it returns has memory of its own; an assignment, mask, applied function or new nodata value changes only the grid it is called on, and where bands are in common by design (bands=...), exactly the grids in common change, in the same way and with the same meaning.", "quantifier": "all histories of constructions, methods, assignments, reads and iterations on any number of grids, with simple and compressed bands", "why_tests_cant": "Sharing is a relation between objects built up by whole histories; tests look at the grid just returned.", "anchors": ["karta/raster/grid.py:RegularGrid", "karta/raster/grid.py:Grid.copy", "karta/raster/grid.py:Grid.apply", "karta/raster/grid.py:RegularGrid.set_nodata_value", "karta/raster/grid.py:RegularGrid.mask_by_poly", "karta/raster/grid.py:RegularGrid.resize", "karta/raster/band.py:BandIndexer", "karta/raster/band.py:SimpleBand.getblock"]}
{"id": "C110", "title": "Pieces of a grid are the right ones, and fit together again", "statement": "With the doubles that are really computed with: clip returns exactly the rows and columns whose centres are in the box, clipping a grid to its own extent of centres returns all of it, pieces from clip and aschunks begin where they should, and merge accepts the pieces of one grid and refuses grids that are not a whole number of cells apart.", "quantifier": "all unrotated grids, boxes, rows and columns with finite doubles", "why_tests_cant": "Whether a ratio is rounded to the wrong side of a whole number depends on every digit of the origin and of the cell size.", "anchors": ["karta/raster/grid.py:RegularGrid.clip", "karta/raster/grid.py:RegularGrid.aschunks", "karta/raster/grid.py:RegularGrid.extent", "karta/raster/grid.py:merge"]}
{"id": "C111", "title": "A call that raises has changed nothing", "statement": "If an assignment to a grid (by key or by mask), an applied function, a change to a table or to a vertex of a multipoint raises an exception, the object is as it was before the call; a program that catches the exception and goes on sees only the calls that succeeded.", "quantifier": "all grids with any number of bands, keys, masks and values; all tables and multipoints; all histories of calls some of which raise", "why_tests_cant": "The exception can come at any point of a loop over bands, chunks or rows; tests check that it is raised, not what is left behind.", "anchors": ["karta/raster/band.py:BandIndexer.__setitem__", "karta/raster/band.py:BandIndexer._set_from_array_mask", "karta/raster/grid.py:Grid.apply", "karta/vector/table.py:Table.setfield", "karta/vector/table.py:Table.extend", "karta/vector/geometry.py:Multipoint.__setitem__"]}
{"id": "C112", "title": "What tables say about their values", "statement": "Table(..., checktypes=True) accepts the tables whose columns have one type each and refuses the others; asjson is a JSON object that gives each column under its name, numbers of numpy as numbers; the indexer of the data of a geometry shows the same values by row and by column, also counted from the end; what iteration over a table gives is in the table.", "quantifier": "all tables of values of Python and numpy, nested to any depth, all keys and integers", "why_tests_cant": "Values come in many types that nest; tests look at tables of whole numbers, and only at the names in the JSON text.", "anchors": ["karta/vector/table.py:Table._validatetypes", "karta/vector/table.py:Table.asjson", "karta/vector/table.py:Table.get", "karta/vector/table.py:Table.__contains__", "karta/vector/table.py:Indexer", "karta/vector/table.py:NumpyAwareJSONEncoder"]}
{"id": "C113", "title": "indices finds the cell of a point, or says that there is none", "statement": "grid.indices(x, y) returns the row and column of a cell of the grid that contains the point, the same cell whose value sample_nearest returns, and raises IndexError exactly for points outside of the grid; for vectors it returns a pair of indices for every point in order, and raises if any of them is outside.", "quantifier": "all grids with any transform that can be inverted, also skewed ones, of any size; all points, also on the borders of cells; vectors of any length", "why_tests_cant": "Rounding goes to the even of two cells, so what happens on a border depends on the parity of its number; tests look at a few points of one grid.", "anchors": ["karta/raster/grid.py:RegularGrid.indices", "karta/raster/grid.py:RegularGrid._indices", "karta/raster/grid.py:RegularGrid.positions", "karta/raster/grid.py:RegularGrid.sample_nearest"]}
{"id": "C114", "title": "The options and names given to the writers reach the files", "statement": "grid.to_geotiff(fnm, compress, tiled, **options) asks GDAL for the compression, the tiling and every other option given, and for nothing else; read_shapefile(name) opens the file that was written under that name, with or without the ending .shp.", "quantifier": "all compressions, keyword arguments and their values; all names of files", "why_tests_cant": "The options do not change what is read back, so a lost one cannot be seen in a round trip; names are arbitrary strings.", "anchors": ["karta/raster/grid.py:RegularGrid.to_geotiff", "karta/raster/_gdal.py:write", "karta/vector/read.py:get_filenames", "karta/vector/_shp.py:ShapefileOutMixin.to_shapefile", "karta/vector/_shp.py:write_shapefile"]}
{"id": "C115", "title": "GeoJSON text is in the coordinate system it names", "statement": "The positions in the text that geom.as_geojson(urn=..., force_wgs84=...) returns are the vertices of the geometry in the coordinate system that the crs member of the text names; read_geojson returns geometries in the system that the text names, or in the one given.", "quantifier": "all geometries in all coordinate systems, all URNs, both values of force_wgs84, documents nested to any depth", "why_tests_cant": "Tests write and read geometries that are in WGS84 already, where a wrong label or a missing transformation makes no difference.", "anchors": ["karta/vector/_geojson.py:GeoJSONOutMixin.as_geojson", "karta/vector/_geojson.py:GeoJSONOutMixin._as_named_tuple", "karta/vector/_geojson.py:crs_from_urn", "karta/vector/read.py:read_geojson"]}
{"id": "C116", "title": "GPX documents give longitudes and latitudes", "statement": "The positions of waypoints, tracks and routes in a GPX document made of geometries are the longitudes and latitudes (WGS84) of their vertices, whatever coordinate system the geometries are in; a track that is written and read again is in the same place.", "quantifier": "all lists of geometries in all coordinate systems, with any vertices, properties and data", "why_tests_cant": "Tests use geometries in WGS84, for which no transformation is needed.", "anchors": ["karta/vector/_gpx.py:GPX.add_waypoint", "karta/vector/_gpx.py:GPX.add_track", "karta/vector/_gpx.py:GPX.add_route", "karta/vector/read.py:read_gpx_tracks"]}
{"id": "C117", "title": "Regions of grids in other coordinate systems", "statement": "grid.extent(crs=c) and bbox(crs=c) are the smallest box in the system c that contains all of the grid; grid.clip(xmin, xmax, ymin, ymax, crs=c) keeps exactly the cells whose centres are in that box of the system c; sums of grids require the same system.", "quantifier": "all grids, boxes, systems and transformations between them", "why_tests_cant": "Transformations bend the sides of a box in ways that depend on the place; tests look at the system of the grid itself.", "anchors": ["karta/raster/grid.py:RegularGrid.extent", "karta/raster/grid.py:RegularGrid.bbox", "karta/raster/grid.py:RegularGrid.clip", "karta/raster/grid.py:RegularGrid.__add__", "karta/raster/grid.py:RegularGrid._equivalent_structure"]}
{"id": "C118", "title": "Samples at positions in other coordinate systems", "statement": "grid.sample at a Point or Multipoint in any coordinate system, or at coordinates with crs=c, gives the values of the grid at the places of these positions; all ways to give the same positions give the same samples. profile gives the samples at the places of the points along the line, whatever keyword arguments it passes on.", "quantifier": "all grids, positions, lines, systems and transformations between them, both methods", "why_tests_cant": "Tests sample in the system of the grid, where a missing or repeated transformation makes no difference.", "anchors": ["karta/raster/grid.py:RegularGrid.sample", "karta/raster/grid.py:RegularGrid.profile", "karta/vector/geometry.py:Point.vertex", "karta/vector/geometry.py:Line.to_points"]}
{"id": "C119", "title": "Geometries in different coordinate systems together", "statement": "Lines and polygons in different coordinate systems intersect, for intersects and intersections, exactly where they do when both are in the same system, and a polygon contains a point of any system exactly if its place is in the polygon.", "quantifier": "all lines, polygons and points in all systems, and all transformations between them", "why_tests_cant": "Tests compare geometries of one system, where a missing transformation makes no difference.", "anchors": ["karta/vector/geometry.py:ConnectedMultiVertexMixin.intersects", "karta/vector/geometry.py:ConnectedMultiVertexMixin.intersections", "karta/vector/geometry.py:Polygon.contains", "karta/vector/geometry.py:Point.vertex"]}
{"id": "C120", "title": "Points selected by a point or polygon in another coordinate system", "statement": "multipoint.within_radius(point, radius) and within_polygon(polygon) return exactly the points whose places are closer to the point than the radius, or in the polygon, whatever coordinate systems the arguments are in; build_index=True changes nothing about the result.", "quantifier": "all multipoints, points, radii and polygons in all systems, all transformations between them, with and without an index", "why_tests_cant": "Tests select in one system; what an index loses depends on how the transformation moves and bends the search region.", "anchors": ["karta/vector/geometry.py:Multipoint.within_radius", "karta/vector/geometry.py:Multipoint.within_polygon", "karta/vector/geometry.py:Multipoint.__init__", "karta/vector/geometry.py:Point.distance"]}
