# Formal model of karta — design

The model is written in Rocq (Coq 8.16.1). The source is `/repo` (fortyninemaps/karta at the pinned commit), read as
text only. This file says, per property of `properties.jsonl`, what is modelled and how it is proved, lists what was
found to be false, and states the trusted base. Status per property is in `MANIFEST.json`.

## Layout

Each area `X` has these files in `rocq/theories`:

* `X_Model.v` — Gallina transcription of the code, function by function; each definition cites file and lines.
* `X_Spec.v` — the specification vocabulary, independent of the model's helpers.
* `X_Proofs.v` and others — lemmas.
* `X_Props.v` — only the property theorems (`exact lemma`), non-vacuity examples and `Print Assumptions`.

Exceptions are values (`Err e`), loops are structural recursion or fuel recursion whose out-of-fuel value is a separate
error, and theorems exclude it or prove it unreachable. A false property is proved false as `..._refuted` with a
concrete witness computed in the model. `seeded/LOG.jsonl` records the wrong programs the theorems were tested against.

## Arithmetic

The code computes in IEEE doubles (and C `float` in the R-tree and in `bboxes_overlap`). The models use

* an abstract totally ordered type where only comparisons matter (quadtree search), so that the result holds for
  doubles without NaN as well as for exact numbers;
* exact rationals `Q` where field operations matter, so that every model function is executable;
* reals `R` where square roots or transcendental functions occur (distances, tiles, geodesy, terrain, great circles);
* the standard library's `SpecFloat` for findings that are about rounding (`C01_doubles_refuted`,
  `C29_boxes_float_refuted`).
* Flocq's IEEE binary64 in `Dbl_*` (C107) and `Dcut_*` (C110), which bounds what rounding does to the planar `contains`, to grid positions, clipping and merging and
  to areas, and so tells how far the theorems about exact numbers carry over, and binary32 in `Ftree_*` (C108) for the
  whole R-tree.

Rounding error is therefore outside the model except where a theorem says otherwise.

## Plan per property

What is modelled and how it is proved. Status, theorem names and what is missing are in `MANIFEST.json`; areas `X` name the files `X_*.v`.

| id | property | area | modelled | proof | status |
|----|----------|------|----------|-------|--------|
| C01 | QuadTree range search is exact | QuadTree | quadtree insert, split (with the link to the grandparent through `get_quadrant`), duplicates dict, search | structural invariant by induction over insertions; the result is a permutation of the filtered index list | proved |
| C02 | QuadTree construction terminates and counts every point | QuadTree | the same with fuel for the recursive split | Archimedean argument for capacity >= 2; for capacity <= 1 no fuel suffices | proved |
| C03 | QuadTree search does not depend on capacity or insertion order | QuadTree | the same | corollary of C01 | proved |
| C04 | RTree search returns only geometries satisfying the predicate | RTree | R-tree as a node heap with parent pointers | invariant "leaf entry i holds box i" over all split histories | proved |
| C05 | RTree search misses nothing | RTree | the same | false after a split: witnesses; proved while no split has happened, and by an invariant of trees of two levels | partial |
| C06 | Table.setfield/getfield behave like a column store | Table | `Table` over an arbitrary value type, set order as an arbitrary permutation | list induction | proved |
| C07 | Table.extend appends by field name | Table | `Table` over an arbitrary value type, set order as an arbitrary permutation | list induction | proved |
| C08 | Table.updated overrides and preserves columns | Table | `Table` over an arbitrary value type, set order as an arbitrary permutation | list induction | proved |
| C09 | Table merge is an inner join on fields | Table | `Table` over an arbitrary value type, set order as an arbitrary permutation | list induction | proved |
| C10 | CompressedBand is indistinguishable from a plain 2-D array | Band | `CompressedBand`, `SimpleBand`, chunk store | refinement to a function cell -> value by induction over the write history | proved |
| C11 | Chunk size is unobservable | Band | `CompressedBand`, `SimpleBand`, chunk store | refinement to a function cell -> value by induction over the write history | proved |
| C12 | Grid indexing agrees with array indexing | Band | `BandIndexer` with Python slice semantics | slice arithmetic, refinement on C10 | partial |
| C13 | Grid assignment writes exactly the selected cells | Band | `BandIndexer` with Python slice semantics | slice arithmetic, refinement on C10 | proved |
| C14 | Grid coordinates and positions are inverse | Grid | `get_positions_vec`, `CoordinateGenerator`, `vertex_coords` | field identities | proved |
| C15 | aschunks tiles the grid | Grid | `aschunks` loops | partition by induction on the loop; no fuel suffices in the failing cases | proved |
| C16 | clip keeps the georeference of the retained cells | Grid | `clip`, `resize`, `extent`, `bbox` | integer arithmetic plus rounding lemmas; witnesses for the failing cases | partial |
| C17 | resize preserves overlapping cells | Grid | `clip`, `resize`, `extent`, `bbox` | integer arithmetic plus rounding lemmas; witnesses for the failing cases | partial |
| C18 | Grid extent bounds every cell | Grid | `clip`, `resize`, `extent`, `bbox` | integer arithmetic plus rounding lemmas; witnesses for the failing cases | partial |
| C19 | merge is a weighted mean of the overlapping valid cells | GridSample, GridInt | `merge`, `gridpoints`, `fillarray_double` | fold invariants | partial |
| C20 | nodata handling is consistent | Grid | masks, `set_nodata_value`, `apply`, sums | cell-wise | partial |
| C21 | sample_nearest returns the nearest cell's value | GridSample, GridInt | `sample_nearest`, `sample_bilinear`, scalar and vector paths | floor/round lemmas; bilinear identities | partial |
| C22 | sample_bilinear interpolates | GridSample, GridInt | `sample_nearest`, `sample_bilinear`, scalar and vector paths | floor/round lemmas; bilinear identities | partial |
| C23 | gridpoints averages the points of each cell | GridSample, GridInt | `merge`, `gridpoints`, `fillarray_double` | fold invariants | partial |
| C24 | Terrain derivatives are exact on planes | Terrain | finite difference stencils | ring identities for all sizes | partial |
| C25 | bbox is the tight bounding box | Geom | planar boxes, transformations, signed area, orientation, centroid over `Q` | induction over vertex lists, `ring`/`field` | proved |
| C26 | Polygon area is well defined | Geom | planar boxes, transformations, signed area, orientation, centroid over `Q` | induction over vertex lists, `ring`/`field` | partial |
| C27 | Affine transformations compose | Geom | planar boxes, transformations, signed area, orientation, centroid over `Q` | induction over vertex lists, `ring`/`field` | partial |
| C28 | Segment intersection is sound and complete for proper crossings | Inter | segment intersection, all pairs, Shamos-Hoey sweep with its event queue and active list | algebra over `Q`; invariants of the sweep, order of edges by induction | partial |
| C29 | Line intersection test agrees with the geometric definition | Inter | segment intersection, all pairs, Shamos-Hoey sweep with its event queue and active list | algebra over `Q`; invariants of the sweep, order of edges by induction | partial |
| C30 | Point-in-polygon test | Contains | crossing count over `Q` | equal to a winding number given as a sum of angles over `R` | partial |
| C31 | Nearest point on a segment | GeomR | distances, azimuth, walk, lengths, nearest points, points along a line over `R` | analysis of the loops; Euclidean geometry | partial |
| C32 | Segments and length | GeomR | distances, azimuth, walk, lengths, nearest points, points along a line over `R` | analysis of the loops; Euclidean geometry | partial |
| C33 | Cached results are transparent | Cache | memo decorator as a state machine, cached methods with nested calls | invariant over call histories; witnesses for mutation | partial |
| C34 | Spatial selection equals brute force | Multi | selections of multipoints with and without quadtree | reduction to C01 | partial |
| C35 | Every member of a multipart keeps its own record | Multi | multipart records | reduction to C06-C09 | partial |
| C36 | Convex hull encloses all vertices | Hull | Graham scan with its azimuth sort and distance cut, generic in the geometry; plane over `Q`, sphere over `R` | scan invariants from an abstract turn predicate; instance by determinants and by spherical triple products; witnesses | partial |
| C37 | Dateline handling | Lon | dateline boxes, `ispolar`, `contains_proj`, equatorial inverse | floor arithmetic, induction over rings, oracles for latitude bounds and azimuths | partial |
| C38 | Angle normalisation | Lon | angle normalisation, canonical configuration | floor arithmetic | partial |
| C39 | Canonical geodesic configuration | Lon | angle normalisation, canonical configuration | floor arithmetic | proved |
| C40 | Root finder keeps its bracket | Brent | `fzero_brent` over `R` | loop invariant (sign change in the bracket); termination for monotone functions | proved |
| C41 | Tile lookup is inverse to tile bounds | Tile | tiles over `R` | monotonicity of the Gudermannian | proved |
| C42 | ESRI ASCII round trip | Aai | ESRI ASCII grids as lines of words | round-trip lemmas, witnesses | partial |
| C43 | GeoTIFF georeference round trip | Tif | GeoTIFF reading and writing over a store | round-trip lemmas, witnesses | partial |
| C44 | Shapefile attribute names are unique and recoverable | Shp | attribute table of shapefiles, renaming loop | pigeonhole for the names; list induction | partial |
| C45 | GeoJSON features keep properties and per-vertex data apart | Gjs | GeoJSON as a tree, division of properties and data | round-trip lemmas, witnesses | partial |
| C46 | GPX tracks survive a round trip | Gpx | GPX as an XML tree | round-trip lemmas, witnesses | partial |
| C47 | Ellipsoid parameters are consistent | Crs | ellipsoid tables, proj.4 parsing, equality | table check, lemmas on words | partial |
| C48 | Planar geodetic forward and inverse problems agree | Sphere | planar forward/inverse over `R` | trigonometric identities | proved |
| C49 | A Table built from columns returns those columns | Table | `Table` over an arbitrary value type, set order as an arbitrary permutation | list induction | proved |
| C50 | Row and column views of a Table agree | Table | `Table` over an arbitrary value type, set order as an arbitrary permutation | list induction | proved |
| C51 | Table calls change only their receiver | Table | tables as heap objects sharing rows | induction over call histories | partial |
| C52 | Grid sums are cellwise | Grid | masks, `set_nodata_value`, `apply`, sums | cell-wise | proved |
| C53 | vertex_coords gives the cell corners | Grid | `get_positions_vec`, `CoordinateGenerator`, `vertex_coords` | field identities | partial |
| C54 | data_extent is the box of the valid cells | GridSample | `data_extent`, `resample` | search loops by induction; reduction to sampling | partial |
| C55 | resample(dx, dy) shows the source cell under each new cell centre | GridSample | `data_extent`, `resample` | search loops by induction; reduction to sampling | partial |
| C56 | aspect points down the slope | Terrain (TerrainR_Model) | `aspect`, `normed_potential_vectors`, `hillshade` over `R` | trigonometric identities; maxima by induction | partial |
| C57 | normed_potential_vectors is the gradient scaled to unit maximum | Terrain (TerrainR_Model) | `aspect`, `normed_potential_vectors`, `hillshade` over `R` | trigonometric identities; maxima by induction | proved |
| C58 | hillshade shows the illumination of the surface | Terrain (TerrainR_Model) | `aspect`, `normed_potential_vectors`, `hillshade` over `R` | trigonometric identities; maxima by induction | partial |
| C59 | Building and querying an RTree always finishes safely | RTree | the same with the pointer pools and freeing | heap well-formedness over all insertion histories | partial |
| C60 | max_results limits the answer of an RTree search | RTree | the same | false after a split: witnesses; proved while no split has happened, and by an invariant of trees of two levels | partial |
| C61 | Dropping an RTree frees every block once | RTree | the same with the pointer pools and freeing | heap well-formedness over all insertion histories | partial |
| C62 | RTree.bbox is the tight box of its contents | RTree | the same | false after a split: witnesses; proved while no split has happened, and by an invariant of trees of two levels | partial |
| C63 | isclockwise and centroid agree with the signed area | Geom | planar boxes, transformations, signed area, orientation, centroid over `Q` | induction over vertex lists, `ring`/`field` | proved |
| C64 | distance, azimuth and walk fit together | GeomR | distances, azimuth, walk, lengths, nearest points, points along a line over `R` | analysis of the loops; Euclidean geometry | partial |
| C65 | to_npoints returns n equally spaced points | GeomR | distances, azimuth, walk, lengths, nearest points, points along a line over `R` | analysis of the loops; Euclidean geometry | partial |
| C66 | to_points returns points at the given spacing | GeomR | distances, azimuth, walk, lengths, nearest points, points along a line over `R` | analysis of the loops; Euclidean geometry | partial |
| C67 | within_distance tells whether a point is near a geometry | GeomR | distances, azimuth, walk, lengths, nearest points, points along a line over `R` | analysis of the loops; Euclidean geometry | partial |
| C68 | nearest_vertex_to finds a nearest vertex | GeomR | distances, azimuth, walk, lengths, nearest points, points along a line over `R` | analysis of the loops; Euclidean geometry | proved |
| C69 | ispolar tells whether a polygon goes round a pole | Lon | dateline boxes, `ispolar`, `contains_proj`, equatorial inverse | floor arithmetic, induction over rings, oracles for latitude bounds and azimuths | partial |
| C70 | contains works in geographical coordinates | Lon | dateline boxes, `ispolar`, `contains_proj`, equatorial inverse | floor arithmetic, induction over rings, oracles for latitude bounds and azimuths | partial |
| C71 | Geodesics along the equator | Lon | dateline boxes, `ispolar`, `contains_proj`, equatorial inverse | floor arithmetic, induction over rings, oracles for latitude bounds and azimuths | partial |
| C72 | Polygon area on a sphere | Sphere | spherical polygon area | integrals (Coquelicot): derivative of the strip area along an edge | partial |
| C73 | Bounding latitudes of a great circle segment | Sphere | great circle kernels of vectorgeo.pyx and geodesy.py over `R` | vector algebra and trigonometric identities | partial |
| C74 | Spherical and Cartesian coordinates convert back and forth | Sphere | great circle kernels of vectorgeo.pyx and geodesy.py over `R` | vector algebra and trigonometric identities | partial |
| C75 | Distance and azimuth on the sphere | Sphere | great circle kernels of vectorgeo.pyx and geodesy.py over `R` | vector algebra and trigonometric identities | proved |
| C76 | Intersection of great circle segments | Sphere | great circle kernels of vectorgeo.pyx and geodesy.py over `R` | vector algebra and trigonometric identities | partial |
| C77 | The proj.4 text of a geographical system describes its ellipsoid | Crs | ellipsoid tables, proj.4 parsing, equality | table check, lemmas on words | partial |
| C78 | Equality of projected systems is an equivalence | Crs | ellipsoid tables, proj.4 parsing, equality | table check, lemmas on words | proved |
| C79 | from_geotiffs stacks the first bands of files that share one georeference | Tif | GeoTIFF reading and writing over a store | round-trip lemmas, witnesses | partial |
| C80 | mask_by_poly keeps exactly the cells inside the polygons | Mask | `mask_by_poly`, `mask_poly` over `Q`, on the grids of Grid and the polygons of Geom | per cell: the marks along a ring differ from the crossings of the ray by a telescoping sum; union and bands by induction | partial |
| C81 | Containment changes only across the boundary of a polygon | Within | `within`, `touching` over `Q`, composed of the models of the index, of `contains`, of `intersects` and of the records | the crossings of the ray change by a telescoping sum when the point moves along a segment; composition of C05, C29, C30, C35 | proved |
| C82 | within and touching find exactly the members inside or touching | Within | `within`, `touching` over `Q`, composed of the models of the index, of `contains`, of `intersects` and of the records | the crossings of the ray change by a telescoping sum when the point moves along a segment; composition of C05, C29, C30, C35 | partial |
| C83 | The members of a multipolygon are the polygons it was made of | Mpoly | constructors, members, `vertices`, `merge` and `apply_transform` of Multiline and Multipolygon, on the records of Multi and the polygons of Geom | list induction; records by reduction to C35 | partial |
| C84 | Merging lines or polygons keeps every part and its values | Mpoly | constructors, members, `vertices`, `merge` and `apply_transform` of Multiline and Multipolygon, on the records of Multi and the polygons of Geom | list induction; records by reduction to C35 | partial |
| C85 | Affine transformation of multilines and multipolygons | Mpoly | constructors, members, `vertices`, `merge` and `apply_transform` of Multiline and Multipolygon, on the records of Multi and the polygons of Geom | list induction; records by reduction to C35 | partial |
| C86 | Equality of geometries | Same | `__eq__`, `__hash__`, `__contains__`, `__getitem__`, `__iter__` of geometries; equality of tables and coordinate systems; coordinates are SpecFloat numbers, hash functions and value equality are parameters | list induction; case analysis of SFeqb; C12 (slices) and C35 (records) | partial |
| C87 | Equal geometries have equal hashes | Same | `__eq__`, `__hash__`, `__contains__`, `__getitem__`, `__iter__` of geometries; equality of tables and coordinate systems; coordinates are SpecFloat numbers, hash functions and value equality are parameters | list induction; case analysis of SFeqb; C12 (slices) and C35 (records) | partial |
| C88 | Slices select vertices as Python slices do | Same | `__eq__`, `__hash__`, `__contains__`, `__getitem__`, `__iter__` of geometries; equality of tables and coordinate systems; coordinates are SpecFloat numbers, hash functions and value equality are parameters | list induction; case analysis of SFeqb; C12 (slices) and C35 (records) | partial |
| C89 | A geometry read from another one's __geo_interface__ is that geometry | Ogr | `__geo_interface__` of the six kinds, `from_shape`, geometries written to and read from OGR, the texts of systems given to OGR and the systems made from layers; OGR itself is modelled by what the calls used do to coordinates (file header of `Ogr_Model`) | induction on parts and rings (a closed ring is left closed by OGR and opened on reading); closing a ring adds an edge of area zero; string replacement by recursion on the text | partial |
| C90 | Shapefiles keep geometries | Ogr | `__geo_interface__` of the six kinds, `from_shape`, geometries written to and read from OGR, the texts of systems given to OGR and the systems made from layers; OGR itself is modelled by what the calls used do to coordinates (file header of `Ogr_Model`) | induction on parts and rings (a closed ring is left closed by OGR and opened on reading); closing a ring adds an edge of area zero; string replacement by recursion on the text | partial |
| C91 | Coordinate systems are handed to OGR and taken from it unchanged | Ogr | `__geo_interface__` of the six kinds, `from_shape`, geometries written to and read from OGR, the texts of systems given to OGR and the systems made from layers; OGR itself is modelled by what the calls used do to coordinates (file header of `Ogr_Model`) | induction on parts and rings (a closed ring is left closed by OGR and opened on reading); closing a ring adds an edge of area zero; string replacement by recursion on the text | partial |
| C92 | Extreme values of a grid are those of its data | Stat | `min`, `max`, `minmax`, `data_bbox`, the forms of argument of `sample`, `profile` with its table and default spacing, on the grids of Grid and the samplers of GridSample | numpy reductions as folds that keep nan, by induction; composition with the theorems of C12, C20-C22 and of tables (C06); the walk along the line never reaches its end if the spacing is negative, by induction on the fuel | partial |
| C93 | Samples at points, at arrays and along lines agree | Stat | `min`, `max`, `minmax`, `data_bbox`, the forms of argument of `sample`, `profile` with its table and default spacing, on the grids of Grid and the samplers of GridSample | numpy reductions as folds that keep nan, by induction; composition with the theorems of C12, C20-C22 and of tables (C06); the walk along the line never reaches its end if the spacing is negative, by induction on the fuel | partial |
| C94 | Travelling along a geodesic of the ellipsoid ends where the geodesic does | Geod | `ellipsoidal_forward`, `ellipsoidal_inverse` and their helpers over `R`, with the series coefficients as written; geodesics are Bessel's equations on the auxiliary sphere | polynomial identities for the truncated series with explicit remainders, spherical trigonometry, invariants of the Newton iteration | partial |
| C95 | The distance on the ellipsoid is the length of the shortest geodesic | Geod | `ellipsoidal_forward`, `ellipsoidal_inverse` and their helpers over `R`, with the series coefficients as written; geodesics are Bessel's equations on the auxiliary sphere | polynomial identities for the truncated series with explicit remainders, spherical trigonometry, invariants of the Newton iteration | partial |
| C96 | Areas on ellipsoids belong to the ring, not to how it is given | Geod | `ellipsoidal_area` and `Polygon.area` of a ring on an ellipsoid (`Geod_Area.v`, `Geod_Near.v`, `Geod_AreaProps.v`) | the sum over the edges under reversal and rotation; cases with an answer from ellipsoids so flat that the first guess is good enough | partial |
| C97 | Areas on ellipsoids are accurate | Geod | accuracy of areas on ellipsoids: `Geod_AreaSpec.v` (areas between equator and geodesic as integrals), `Geod_AreaSeries.v`, `Geod_AreaTrue.v`, `Geod_AreaEdge.v`, `Geod_AreaPoly.v`, `Geod_AreaLow.v`, `Geod_AreaFind.v` | the area integral differentiated and compared with the derivative of the series (polynomial identity plus a Taylor bound), Bessel's excess formula, the polygon by induction over its edges; lower bounds of areas for the findings | partial |
| C98 | Coordinates in another system are those of the same places | Proj | `vertex`, `coords`, `vertices` with a system, constructors from members in several systems, sums, `coordinate_transformer`; systems, `is`, `==` and the transformations of pyproj are parameters | list induction; the specification is where coordinates are (`Proj_Spec.v`) | partial |
| C99 | The fitted affine matrix is the best one | Fit | `affine_matrix`; `numpy.linalg.lstsq` is a parameter of which each theorem assumes that it solves the system it is given | the rows of the matrix are the coordinates of the images (induction); orthogonal projection by induction on the basis for existence; parallelogram identity for uniqueness | partial |
| C100 | The nearest position on geodesics is found to the stated tolerance | Arc | `pt_nearest_proj` and `_nearest_to_point` for geographical systems over `R`; `crs.forward` and `crs.inverse` (pyproj) are parameters | invariant of the bisection (the bottom of the valley stays between the ends); on spheres the cosine of the distance is a multiple of a shifted cosine, so there is one valley and the distance is 1-Lipschitz; induction over the edges | partial |
| C101 | Intersections are found in geographical coordinates | Gsweep | `intersects_sph`, its sweep line, `_intersects_sph`, `intersection_meridian`, `dateline.bbox` and `bboxes_overlap` over `R`; the height by which open edges are ordered is a parameter (in exact arithmetic the code finds none, in doubles nearly the latitude) | invariant of the sweep: the open edges at a position, whatever their order; of two lines always eastward at most two edges are open, so that all pairs are tested; longitudes of crossings determine positions on edges other than meridians | partial |
| C102 | Spatial index memory is safe and given back | QMem | quadtree.h, pool.h and quadtree.pyx once more, over a memory of numbered blocks with every malloc, free, load and store; freed numbers are not used again, so that each use of freed or uninitialised memory ends in `Bad`; malloc never fails | refinement: the blocks of the tree are the functional tree of C01 in a footprint without repetitions, kept by splits, insertions and searches; freeing frees exactly the footprint | partial |
| C103 | Exports leave the files in order | File | `to_geojson`, `writefile`, `to_aai`, `write_shapefile`, `to_shapefile`, `ogr_write` and the writing of GeoTIFFs as programs over a disk, buffers and objects of the caller; every operation may fail and may bring any part of a buffer to the disk; what is written is taken from the models of the formats | invariant: the file and its buffer together are a beginning of the text; induction over the lines, features and bands written, and over histories | partial |
| C104 | Resampling keeps the picture in place | Resample | `_resample_transform`, `_align_origin` and `resample` with both methods, on the models of coordinates, sampling and grids | reduction to the theorems about sampling (C21, C22); rounding to the nearest multiple | partial |
| C105 | R-tree memory is given back | RMem | the blocks allocated and freed by `RTree.__init__`, the searches and `__dealloc__`, on the model of the tree | the invariant of C59, and counting of blocks | partial |
| C106 | Geometries do not change behind one's back | Share | the dictionaries, Tables, lists of rows and coordinate strings behind geometries, and what every constructor, method and assignment hands on, copies or changes | an invariant of histories: objects are equal exactly within families | partial |
| C107 | Rounding does not change answers | Dbl | point in polygon, grid positions, cell centres and ring areas with IEEE doubles (Flocq), operation by operation | error bounds of each operation, exact cases, monotonicity of rounding | partial |
| C108 | Single precision in the R-tree does not change answers | Ftree | the whole R-tree again, with boxes rounded to C floats and all comparisons, volumes and ratios in IEEE single precision (Flocq) | the invariant of C04 (no number plays a part in it); rounding is monotone, so strict inequalities of floats hold of the doubles; error bounds and exact cases for the others | partial |
| C109 | Grids do not change behind one's back | Gshare | grids, lists of bands, bands and arrays as objects with addresses; every constructor, method and assignment as a step of a history | invariants of histories: addresses are those of objects, new objects have new addresses, lists only grow; a loop over bands leaves the last value | partial |
| C110 | Pieces of a grid are the right ones, and fit together again | Dcut | `clip`, pieces of `clip` and `aschunks`, extents of centres and the offset test of `merge` with IEEE doubles | exactness of operations on multiples of a power of two; error bounds; monotone rounding before floor and ceil | partial |
| C111 | A call that raises has changed nothing | Atom | assignments, masks, `apply`, tables and vertices as calls with a state after the exception (models of Band, Grid, Table and Multi) | errors come before the first write; the bands of a grid have one size, so they fail together | partial |
| C112 | What tables say about their values | Tval | values of Python and numpy in tables, `_validatetypes`, `asjson` with its encoder, `Indexer`, `in` | induction over nested values; the encoder against an inductive relation; the row and column views of Table | partial |
| C113 | indices finds the cell of a point, or says that there is none | Idx | `RegularGrid.indices` for one point and for vectors | the cell of a point from the inverse of the transform; rounding to even on the borders | partial |
| C114 | The options and names given to the writers reach the files | Opt | creation options of `to_geotiff`, names of shapefiles (`get_filenames`, `to_shapefile`, `write_shapefile`) | suffixes of strings; membership in the list of options | partial |
| C115 | GeoJSON text is in the coordinate system it names | Gcrs | the crs member of GeoJSON text (`as_geojson`, `crs_from_urn`) and the system of what `read_geojson` returns, on the model of GeoJSON of C45; transformations and the meaning of URNs are parameters | positions of the text are vertices of the geometry, through closing of rings and nested parts; induction over nested results | partial |
| C116 | GPX documents give longitudes and latitudes | Gpsys | the systems of the geometries that `add_waypoint`, `add_track` and `add_route` take and `read_gpx_tracks` returns, on the model of GPX of C46; transformations are a parameter | the round trip of C46, and the distance between the numbers as they are and those in WGS84 | partial |
| C117 | Regions of grids in other coordinate systems | Gsys | `extent`, `bbox` and `clip` with `crs`, sums of grids in different systems, on the grids of C16 and C18; transformations are a parameter | an affine function on a rectangle is between its values at the corners; C16 and C18 for the box in the system of the grid | partial |
| C118 | Samples at positions in other coordinate systems | Ssys | `sample` and `profile` with positions in other coordinate systems, on C93; transformations are a parameter | `sample` at the transformed points (C93) | partial |
| C119 | Geometries in different coordinate systems together | Isys | `intersects`, `intersections` and `contains` for geometries in different systems, on C29 and C30; transformations are a parameter | C29 for the numbers of both, C30 for the transformed point; witnesses | partial |
| C120 | Points selected by a point or polygon in another coordinate system | Psys | `within_radius` and `within_polygon` of a Multipoint for arguments in other systems, with and without the index (its search as in C05); transformations are a parameter | characterisation of the tests and of the search box; C30 for the polygon; witnesses | partial |

## Partial properties: what is proved and what is missing

* **C05** RTree search misses nothing. Proved while there are no more boxes than maxchildren, and for up to 3 maxchildren - 2 boxes none of whose ranges is in that of another if the query meets all boxes (nothing is repeated whatever the query); otherwise false after splits, and for boxes without area or touching the lower edges of the query.
* **C12** Grid indexing agrees with array indexing. Proved for integers inside the axis and every slice that does not run against its step; outside that the full claim is false, as the two refuted theorems show.
* **C16** clip keeps the georeference of the retained cells. Proved for boxes that do not reach beyond the first row or column; the full claim is false beyond it.
* **C17** resize preserves overlapping cells. Proved for unskewed grids with positive resolution when the box meets the grid and its corner is within half a cell of a cell corner; false otherwise.
* **C18** Grid extent bounds every cell. Proved for skew of the sign of the resolution (or none); false for the opposite sign.
* **C19** merge is a weighted mean of the overlapping valid cells. Proved for any number of unskewed grids of positive resolution with common spacing, whole-cell offsets and weights with non-zero sum; a negative row spacing raises. Other resolutions, rotations, offsets and numbers of bands are refused; so is an offset that falls short of a whole number of cells by however little. The dtype conversions of numpy are not modelled.
* **C20** nodata handling is consistent. apply is proved for single-band grids; it raises for several bands.
* **C21** sample_nearest returns the nearest cell's value. Single points: proved in full (closed cells; unique away from borders). Vectors: one band or one point, with some point in the grid; otherwise false.
* **C22** sample_bilinear interpolates. Grids (floating point, unsigned, and signed integers for points between the centres) with at least two rows and columns whose cells near the point are numbers. The refuted theorems show what happens elsewhere.
* **C23** gridpoints averages the points of each cell. Unskewed transforms of positive resolution, points not below the origin (those raise).
* **C24** Terrain derivatives are exact on planes. Exact arithmetic: exact even on quadratic surfaces, for all sizes with two (slope: three) rows and columns. Divergence uses nodata values as numbers; a one-row grid has a two-row gradient. The float32 conversion is not modelled.
* **C26** Polygon area is well defined. Proved over exact rationals; invariance under moves holds without sub-polygons only, since apply_transform loses them.
* **C27** Affine transformations compose. Sub-polygons are lost by every transformation.
* **C28** Segment intersection is sound and complete for proper crossings. Exact arithmetic. Sound, unique, symmetric; complete except at the first end of each segment and on overlaps, where the code answers no point.
* **C29** Line intersection test agrees with the geometric definition. intersects (Shamos-Hoey sweep): sound and never raises for all inputs; ends when no edge is repeated; exact for simple paths in general position; complete for a vertical edge against an edge that goes on. False outside general position, and endless for a repeated edge. Planar coordinates only.
* **C30** Point-in-polygon test. Planar coordinates. Off the boundary the answer is that of the winding number (sum of angles over the reals). On the boundary the answer is half-open: some points are in, some out.
* **C31** Nearest point on a segment. Proved for lines in the plane whose segments have length and are not both horizontal and shorter than 1e-4. False for polygons: the closing edge is left out.
* **C32** Segments and length. Proved for planar vertices; with a third coordinate length is horizontal and cumulength is not.
* **C33** Cached results are transparent. Proved for every history of calls, arguments and Line.extend, with the nested calls of bbox and extent and the shared key. Refuted: replacing a vertex of a Multipoint leaves the cached box; after Line.extend the cached methods raise, because the vertices are then a plain array.
* **C34** Spatial selection equals brute force. Proved for every multipoint with one record per vertex, with and without the index, if the set of field names is iterated in the order of the fields. Refuted: another order of that set puts values under other names; after an assignment the index is stale; a radius across the date line misses points when the index is used; points on the left and bottom boundary of a polygon are treated unlike those on the right and top.
* **C35** Every member of a multipart keeps its own record. Members, slices and iteration are proved. Subsets, assignment of a point and merging are right if sets of names are iterated in the order of the fields. Refuted: points without a common property give unreadable members; properties not common to all are dropped; a Table of another length is accepted; a property of the multipart hides a field; assigning coordinates makes the member unreadable.
* **C36** Convex hull encloses all vertices. Plane: proved for every list of vertices not on one line, duplicates and collinear vertices included, except that vertices on the continuation of the first edge may be left out; in full if the first edge has no third vertex. Sphere: the same for different vertices between the poles within less than 180 degrees of longitude. Refuted: a grid of points given row by row loses a corner; vertices on one line raise IndexError in some orders; on the sphere a repeated vertex gives a ring that is not convex, and so does a region across the date line.
* **C37** Dateline handling. The crossing test is right for longitudes in [-180, 180). The box is right when no edge passes the 180th meridian and for single segments; otherwise vertices may be outside. Exact arithmetic, latitude bounds of segments as an oracle.
* **C38** Angle normalisation. Normalisation proved in full over exact numbers; isbetween_circular is right unless the end points are exactly opposite, when nothing is between.
* **C42** ESRI ASCII round trip. Refuted for every grid: self[:,:] has three dimensions, so to_aai writes each value in brackets and read_aai raises ValueError. The written file is described exactly. With the brackets deleted the georeference is restored for both reference kinds, and the values come back upside down because the rows are written from south to north; a skew in x is lost without error, and a value equal to nodata becomes nan. Reading files of the format is right. Text of numbers identified with the numbers.
* **C43** GeoTIFF georeference round trip. GDAL is modelled as a store. The file written is right for every transform; reading is right if and only if there is no skew. Values come back in memory (two rows and columns at least) and on disk; a file of one row or column cannot be read into memory. The inverse flattening of a geographical file is taken for the flattening.
* **C44** Shapefile attribute names are unique and recoverable. Proved for every set of attributes and every iteration order: the renaming loop ends; the names differ (also case-insensitively) and have at most ten characters for fewer than 8e8 attributes; fields and rows hold exactly the exported attributes and their values. Refuted: an attribute called id takes the name of the id field; an empty list as a value aborts the export; an attribute whose first storable value comes after the hundredth object is dropped; which attribute is renamed depends on the order of a set. Attribute names are ASCII; what OGR does with the fields is not modelled.
* **C45** GeoJSON features keep properties and per-vertex data apart. The division into properties and data, collections and the round trip of points, lines, multipoints and multilines are proved. Refuted: writing changes the properties of a multipart geometry; polygons gain a vertex per round trip; holes read from GeoJSON cannot be written, and are dropped on reprojection; properties as long as the geometry become data, strings among them ruin the table; properties named as fields are lost; force_wgs84=False without urn raises NameError. picogeojson and JSON text are trusted to return what was written, up to the direction of rings.
* **C46** GPX tracks survive a round trip. Documents without waypoints come back with the same tracks, segments, routes, points and extensions, positions to six decimals, properties with an additional "extensions". Refuted: documents with waypoints cannot be read; a second round trip loses the extensions of tracks and routes; None becomes a word; properties called like structural elements; lines as tracks, data in routes, unknown attributes, elevations without a known field. The XML text is trusted to return the elements written, but for empty texts.
* **C47** Ellipsoid parameters are consistent. The datum "carthage" refers to a missing ellipsoid; any parameter beginning with +a is taken for the semi-major axis; +rf and +f=0 raise.
* **C51** Table calls change only their receiver. Holds for histories without Table(t); false with it, as C51_copy_shares_rows_refuted shows.
* **C53** vertex_coords gives the cell corners. All rows but the last; the last is uninitialised.
* **C54** data_extent is the box of the valid cells. Unskewed grids of positive resolution whose data reach to the right of y0; false otherwise. Grids with several bands raise IndexError.
* **C55** resample(dx, dy) shows the source cell under each new cell centre. Method 'nearest', one band, unskewed, at least two rows and columns in the result.
* **C56** aspect points down the slope. The x component is right and the y component mirrored: the aspect of a slope rising north is north. Flat ground gets the aspect of a slope falling to the west.
* **C58** hillshade shows the illumination of the surface. Proved for quadratic surfaces in cells of size one; with other cell sizes the normal is wrong. Percentiles are an arbitrary function of the list of shades.
* **C59** Building and querying an RTree always finishes safely. Proved for maxchildren >= 4; a smaller value ends the process.
* **C60** max_results limits the answer of an RTree search. Only the limit 0 is kept.
* **C61** Dropping an RTree frees every block once. Proved while unsplit, and after splits for up to 3 maxchildren - 2 boxes none of whose ranges is in that of another; false after a split of equal boxes.
* **C62** RTree.bbox is the tight box of its contents. Proved while unsplit; false just after a root split.
* **C64** distance, azimuth and walk fit together. Proved in projected systems; the geographical azimuth is nan along meridians.
* **C65** to_npoints returns n equally spaced points. Proved for planar lines with steps of at least 1e-8; the last point may be up to 1e-8 short of the end.
* **C66** to_points returns points at the given spacing. Proved for single segments and for lines of any number of segments none of which is shorter than the spacing; false with shorter ones.
* **C67** within_distance tells whether a point is near a geometry. The code asks every segment to be near.
* **C69** ispolar tells whether a polygon goes round a pole. The code tells whether any edge passes the 180th meridian; right for rings that pass it in one direction only.
* **C70** contains works in geographical coordinates. The answer is characterised for every azimuth function and is not membership: it depends on the direction of the ring and on where north is.
* **C71** Geodesics along the equator. Azimuths are right; the distance is right only if the longitudes differ by less than 180 as given.
* **C72** Polygon area on a sphere. Right for rings on one side of the equator whose edges span less than 180 degrees of longitude as given; across the equator the two parts are subtracted, so a balanced rectangle has area 0. Over the reals; spherical systems only.
* **C73** Bounding latitudes of a great circle segment. Containment for segments in one hemisphere or on one meridian; bounds attained always; false across the equator.
* **C74** Spherical and Cartesian coordinates convert back and forth. cart2sph is wrong in the southern hemisphere (latitude + 180) and raises at the poles.
* **C76** Intersection of great circle segments. Sound and complete when the computed direction points north (or nearly level) and is not near the plane x = 0 on the far side, and neither segment runs along a meridian. Otherwise: latitudes beyond 90, southward meridian segments never meet anything, short segments beyond 90 degrees of longitude are missed.
* **C77** The proj.4 text of a geographical system describes its ellipsoid. Given by axes with the default datum, the text describes WGS84 instead.
* **C79** from_geotiffs stacks the first bands of files that share one georeference. Bands and sizes are right; transforms are never compared, and any in_memory argument raises TypeError.
* **C80** mask_by_poly keeps exactly the cells inside the polygons. Proved: every cell keeps its values or becomes nodata in all bands, the same in place and in a copy; with square north-up cells all cells further than one cell from the outlines are kept exactly if an outline winds round them; with outlines of horizontal and vertical edges all cells whose centre is on no outline, for any north-up cells; both for fewer than 256 vertices. Refuted: cells that are not square (the slope of edges is taken in map units), rows going south (the mask is upside down), holes (ignored), 256 turns (eight-bit overflow), skewed cells (ZeroDivisionError).
* **C82** within and touching find exactly the members inside or touching. Exact for up to 50 members that have width and height and are in general position to a line or to a polygon without holes, taking the members as open paths; for any number of members those returned are right. Refuted: straight level or vertical members are never found; holes are not considered; the last side of the members of a Multipolygon is left out; with 51 members one is missed (the tree of boxes loses it); without data the result cannot be read.
* **C83** The members of a multipolygon are the polygons it was made of. Vertices, holes, common properties, box, centroid, orientation and segments agree for every list of polygons, the area if the holes have no holes. Refuted: contains of any member raises TypeError (its coordinates are not marked as a ring); intersects leaves out the closing side; islands in holes are lost.
* **C84** Merging lines or polygons keeps every part and its values. Lines: in full. Polygons of one rank, multipolygons made of rings. Refuted: polygons of different ranks raise NameError; a multipolygon made of polygons with holes raises AttributeError, as does its vertices method.
* **C85** Affine transformation of multilines and multipolygons. Every vertex of lines and of the outlines of polygons is moved, members keep their values. Refuted: the holes are lost; properties of the multipart become fields of its data.
* **C86** Equality of geometries. Points in full; lines and polygons up to holes; multipoints of one rank. Refuted: holes are not compared; multipoints of different ranks raise ValueError; the same data in another order of fields are unequal; not transitive across geographical and projected systems.
* **C87** Equal geometries have equal hashes. Proved for systems of one name and coordinates without negative zeros. Refuted: 0.0 and -0.0; projected systems of different names are equal but hash differently; Multiline and Multipolygon have no hash.
* **C88** Slices select vertices as Python slices do. Vertices, records, properties and the type of the result for every slice. Refuted: poly[:] loses the holes.
* **C89** A geometry read from another one's __geo_interface__ is that geometry. Vertices of the kinds without rings, properties of all but multilines and multipolygons, areas of polygons. Refuted: rings gain a closing vertex; the system becomes Cartesian and data are lost; multilines and multipolygons lose their properties; the properties argument is ignored.
* **C90** Shapefiles keep geometries. Lines, polygons with holes, multipoints and multilines keep order, kind, rings, parts and horizontal coordinates. Refuted: third coordinates are lost; points gain a third coordinate; multipolygons are lost; all geometries get the system of the first.
* **C91** Coordinate systems are handed to OGR and taken from it unchanged. Texts without aliases and those of geographical systems; ellipsoids of layers that are not spheres. Refuted: latlong becomes latlongg; Cartesian geometries are written as longitudes and latitudes; a geographical layer on a sphere raises ZeroDivisionError.
* **C92** Extreme values of a grid are those of its data. Every grid: minmax is exact on the values that are data if none of them is nan (always so if nan is the nodata value); min and max are exact on the cells that are data in every band. Refuted: with a number for nodata a nan makes all of them nan; with several bands min and max leave out cells that are missing in another band.
* **C93** Samples at points, at arrays and along lines agree. As for C21 and C22 (one band or one point for nearest; some point beyond the first centres for bilinear). Refuted: two numbers raise TypeError; a Point outside gives a bare number and a Multipoint of it ValueError; if a resolution is negative the default spacing is, and the profile never ends.
* **C94** Travelling along a geodesic of the ellipsoid ends where the geodesic does. Exact on spheres and along equators; on ellipsoids with third flattening n up to 1/10 the end point is on the geodesic within 700 (b+|d|) |n|^7 in length and 40 |f| (1+|d|/b) |n|^6 in longitude (truncated series), for ways that do not end that close to a pole; Clairaut holds exactly on all ellipsoids. Missing: ends at the poles. Refuted: the azimuth documented in radians is taken in degrees.
* **C95** The distance on the ellipsoid is the length of the shortest geodesic. Every result returned without the warning is the length and the directions of a geodesic to within the stated tolerance, no longer than half a circumference; always returned along meridians, along equators and for most pairs on spheres, where it is the shortest; distances are symmetric. Missing: that the iteration converges on every ellipsoid, and that the geodesic is the shortest. Refuted: on spheres opposite latitudes raise ZeroDivisionError; on oblate ellipsoids nearly antipodal points raise ValueError; opposite points of the equator get the longer way.
* **C96** Areas on ellipsoids belong to the ring, not to how it is given. Direction, start, reversed edges, meridians and the equator: in full. Refuted: a rectangle symmetric about the equator has area zero; on prolate ellipsoids every polygon raises ValueError.
* **C97** Areas on ellipsoids are accurate. Edges in general position and polygons in one hemisphere: error bound in full. Refuted: polygons across the equator (halves cancel), polygons across the date line with longitudes between -180 and 180, and one coefficient (90/9009 for 80/9009), which costs one order of accuracy.
* **C98** Coordinates in another system are those of the same places. Horizontal places: in full for all methods and for two coordinates in constructors and sums. Refuted: third coordinates are lost (points, multilines) or raise AttributeError (lines, polygons, multipoints); Line and Polygon made of points in different systems mix raw coordinates; a sum of polygons loses the holes.
* **C99** The fitted affine matrix is the best one. Two coordinates: in full, given that numpy.linalg.lstsq answers the call with a least squares solution (one exists: C99_exists). Refuted: control points with a third coordinate raise ValueError or LinAlgError; points on a line give one of infinitely many matrices without warning.
* **C100** The nearest position on geodesics is found to the stated tolerance. On spheres for edges both ends of which are within a quarter of the circumference of the point; on ellipsoids given that the distance along the edge falls and then rises. The error also contains a ten-millionth of the edge (step of the numerical derivative). Refuted: when the distance first rises and then falls the wrong end is returned; without edges the distance is -1.
* **C101** Intersections are found in geographical coordinates. Returns whenever no edge is repeated; exact for two edges, and for lines always eastward or westward with the heights of exact arithmetic; meeting such lines, and edges on meridians, are found whatever the heights. Refuted: polygons and turning lines are reported with others they do not meet; end-to-end contact, overlaps along a circle, short edges beyond 90E or 90W, lines over or up to the date line and edges across the equator are missed; a repeated edge never returns.
* **C102** Spatial index memory is safe and given back. Memory is safe, answers are those of C01 and the tree itself is given back, also after a NaN, for coordinates with exact midpoints. Missing because false: every search loses two blocks (its pool of results is never destroyed), and with doubles close together a freed leaf is used.
* **C103** Exports leave the files in order. For all faults and crash points only the target changes, to a beginning of the new contents (shapefiles may be missing or have gaps); exports to text files that return are complete, all files are closed, and histories keep this. Refuted: an export that raises mostly has emptied or deleted the old file; shapefiles cut short are not reported; to_geojson hides why a file cannot be opened; to_aai closes the object it was given.
* **C104** Resampling keeps the picture in place. Grids (floating point, unsigned, and signed integers for points between the centres) with at least two rows and columns before and after; unskewed ones where the extent or the distance moved matters; one band with nearest (C55 refutes more). Refuted: multiples larger than the grid raise ValueError; integer grids aligned linearly mix in the opposite edge or raise IndexError; a nan spreads although nothing moves.
* **C105** R-tree memory is given back. Dropping frees only blocks of the index, and what stays allocated is described exactly for every index. Refuted: every dropped index leaves the array of children of each node, all of each inner node and one block for each search; a constructor that raises leaves everything; equal boxes are freed twice after a split.
* **C106** Geometries do not change behind one's back. Methods, coordinates, properties, and independence of unrelated geometries: in full, for all histories; data exactly for geometries that hold one Table. Missing: which changes of data are in common after Table(t). Refuted: assigning to a moved multipoint replaces data of the original; naming a vertex names its line; Table(t) has rows in common with t until a field is set; a failed m[k] = point has moved the vertex.
* **C107** Rounding does not change answers. Point in polygon exact for points clear of the edges and for coordinates of up to 25 bits; positions, cells, centres and their order in unrotated grids; areas exact for coordinates with few digits, with an error bound in general. Missing: rotated grids. Refuted: a point next to an edge of a triangle with coordinates below 16 is in both triangles that share the edge, or in neither; 2.2 is in the wrong cell of a grid of 0.2; centres 2^51 cells from the origin; areas 2^53 from the origin.
* **C108** Single precision in the R-tree does not change answers. The whole R-tree in floats. For every index: it answers for any doubles, what search_overlapping finds does overlap, what search_within finds sticks out by no more than the rounding. With no more boxes than maxchildren (C05 refutes more): everything inside or overlapping by more than the rounding is found, whole numbers up to 2^24 are treated exactly, the box is tight but for the rounding. Refuted: at a northing of 5000000, geometries 0.2 inside are missed and 0.2 outside are found, ones less than 0.5 high are never found by search_overlapping, the box of the index leaves out 0.2; areas below 2^-150 and NaN.
* **C109** Grids do not change behind one's back. For all histories: what is returned is new, what is assigned reaches exactly the grids with that band. Refuted: after set_nodata_value, cells without data are data in a grid with the same bands; rows of a grid with one simple band are windows into it, others are copies; g.bands = other changes nbands but not g[...]; a band appended to one grid is a band of the others with its list.
* **C110** Pieces of a grid are the right ones, and fit together again. Exact for grids and boxes in multiples of a power of two with up to 26 bits; margins of error for all other unrotated grids. Missing: rotated grids. Refuted: clipping a grid with cells of 0.1 to the extent of its centres leaves no column; merge refuses pieces of a grid with cells of 0.1, and accepts grids half a cell apart that are 2^53 cells apart.
* **C111** A call that raises has changed nothing. In full for assignments by key and for tables but extend; masks with one band, or that fit all bands or none; apply with one band; multipoints with a row for each vertex. Refuted: values with too few columns, masks with too few bands and apply on two bands leave the first band written; extend leaves the rows before an incomplete one; a vertex without a row of data is replaced.
* **C112** What tables say about their values. The indexer in full. asjson writes every column correctly but inside one more list. The check of types exchanges the arguments of isinstance: it refuses every table with an ordinary value and every empty one, and accepts mixed columns of classes. in looks at the names of fields only. JSON as a tree; dictionaries and nan as values are not modelled.
* **C113** indices finds the cell of a point, or says that there is none. In exact arithmetic, for transforms that can be inverted and have dy other than zero. Refuted at the outer border: with an even number of rows (columns) the points on the far border raise, with an odd number they do not.
* **C114** The options and names given to the writers reach the files. Compression, keywords and the names used by to_shapefile in full. Refuted: tiled is never passed on; unknown compressions are ignored without a word; a COMPRESS keyword comes after the default; write_shapefile does not add the ending that read_shapefile adds.
* **C115** GeoJSON text is in the coordinate system it names. In full for the default call and for urn with force_wgs84=False; every geometry read is in the system given to the reader. Refuted: as_geojson(urn=...) writes WGS84 positions under that URN; force_wgs84=False without a URN is a NameError; read_geojson does not look at the crs member.
* **C116** GPX documents give longitudes and latitudes. For geometries in WGS84, to six decimals. Refuted for all others: numbers are written as they are and read as longitudes and latitudes, so eastings of 500 km become longitudes.
* **C117** Regions of grids in other coordinate systems. For transformations that keep straight lines the extent holds all of the grid and clip keeps all cells in the box. Refuted: with transformations that bend lines parts of the grid are outside of its extent and clip loses cells inside the box; clip keeps cells outside of a turned box; grids in different systems are added without a word. data_extent with crs is not modelled.
* **C118** Samples at positions in other coordinate systems. Samples at points in other systems are those at the transformed points, however the positions are given (nearest: with one band or one point, as in C93). Refuted: profile with crs= transforms its points twice. A crs= beside a geometry has no effect (the theorems hold for every keyword kw). Transformations are a parameter that always succeeds.
* **C119** Geometries in different coordinate systems together. contains transforms the point and is right off the edges (C30). Refuted for intersects and intersections: only the boxes are compared in one system, the vertices of the second geometry are used untransformed, so crossings are missed, invented or put in the wrong place. In one system intersects is as in C29. Geographical systems are not included.
* **C120** Points selected by a point or polygon in another coordinate system. Without an index exact in all systems (polygons: without holes, off the edges, as in C30); in one system the index makes no difference to within_radius, nor to within_polygon for points off the edges; the latter also for transformations that keep straight lines. Refuted with an index: within_radius searches round the untransformed numbers of the point and loses points at the very centre; within_polygon searches the box of the transformed vertices and loses points if the transformation bends lines. Geographical systems are not included.

## Findings

Each line is a theorem proving that the faithful model does not meet the property, with a witness (or for all inputs where the theorem says so).

* `C01_doubles_refuted`: with IEEE doubles the midpoint of two adjacent numbers can equal the upper one, and inserting into an enclosing box then leaves a pointer to a freed leaf, whatever the recursion depth allowed.
* `C02_quadtree_low_capacity_refuted`: with a capacity of one or less and at least one point the construction never returns.
* `C05_staggered_root_refuted`: with two boxes more the root is split; four boxes are lost and the other eight are returned twice, because the new root gets one half of the old one as both of its children.
* `C05_moved_box_missed_refuted`: The full statement fails. Five boxes in a row: the query with the fourth box itself finds nothing, because a box moved to a node at the end of a split does not enlarge the box of that node.
* `C05_default_maxchildren_refuted`: It also happens with the default of 50 children.
* `C05_equal_boxes_refuted`: Five equal boxes: one is lost altogether and another is returned twice.
* `C05_root_split_refuted`: Sixteen scattered boxes: after the root is split, only six can be found.
* `C05_point_refuted`: A point has no area: it is never found by search_overlapping; a box is not within a query equal to it.
* `C05_own_box_refuted`: A box is not within a query equal to it.
* `C06_empty_table_refuted`: On a table without rows, setfield forgets the other fields.
* `C08_empty_table_refuted`: a table without rows loses columns in updated, or raises for a legal argument.
* `C10_out_of_bounds_read_refuted`: a window reaching over the right edge is not rejected; the cells outside come back as uninitialised memory.
* `C10_out_of_bounds_write_refuted`: and a write over the edge may stop half way: the columns inside are written, then ValueError is raised.
* `C12_out_of_range_integer_refuted`: integers outside the axis wrap around instead of raising IndexError.
* `C12_backward_slice_refuted`: a slice running against its step, empty in numpy, raises.
* `C13_column_assignment_refuted`: a 1-D array cannot be assigned to a column although numpy allows a[:, 1, 0] = v.
* `C13_mask3_read_back_refuted`: what a three-dimensional mask reads cannot be written back.
* `C14_rotated_refuted`: a grid rotated by ninety degrees (dy = 0) has an invertible transform, but no positions.
* `C14_negative_index_refuted`: negative indices of [coordinates()] are not counted from the end, and a slice selecting one row does not give a two-dimensional result.
* `C14_single_row_refuted`: A slice that selects one row of the coordinates drops that dimension.
* `C15_overlap_never_ends_refuted`: with an overlap equal to the size, or the default size on a grid of fewer than four columns, aschunks never ends.
* `C15_narrow_default_refuted`: With the default size any grid of fewer than four columns makes aschunks run forever.
* `C16_beyond_corner_refuted`: a box reaching beyond the first column is cut with a negative index, which counts from the last column: the cell shown at x = -1..0 holds the value of the last cell, and the requested cells are missing.
* `C17_half_cell_refuted`: moved by exactly half a cell, rounding is not consistent: the new grid has four columns, covers 3.5 of the four source columns, and its last column is nodata although it lies half in the source.
* `C17_disjoint_refuted`: a box that misses the grid raises instead of giving nodata.
* `C18_opposite_skew_refuted`: where skew and resolution have opposite signs, cells lie outside the box.
* `C19_negative_resolution_refuted`: with a negative row spacing (a grid whose first row is the northernmost) the mosaic cannot be formed.
* `C19_hardly_below_refuted`: a grid whose offset falls short of a whole number of cells is refused, however little it falls short; one that exceeds it as little is merged.
* `C20_apply_two_bands_refuted`: apply on a grid of two bands raises ValueError.
* `C21_two_bands_refuted`: with two bands and two points the values are interchanged: row k of the result should hold band k.
* `C21_all_outside_refuted`: a vector of points that all lie outside of the grid raises instead of giving nodata, although one such point gives nodata.
* `C21_edge_parity_refuted`: points on a cell border go to the cell with the even index, so that on two borders of the outer edge one is inside and one outside.
* `C22_nodata_blended_refuted`: the nodata value takes part in the interpolation like a number.
* `C22_nan_neighbour_refuted`: at the centre of a valid cell the result is nan when a neighbour with weight zero is nan.
* `C22_first_row_refuted`: several points on the first row of centres raise, one does not.
* `C22_integer_outside_refuted`: on signed integer grids a point outside of the centres is not nodata: the index -1 wraps around, and an index beyond the end raises.
* `C23_below_origin_refuted`: points below the origin raise IndexError.
* `C24_divergence_nodata_refuted`: The divergence takes nodata values for velocities.
* `C24_one_row_refuted`: A grid of one row has a gradient of two rows.
* `C26_moved_holes_refuted`: With sub-polygons the area changes when a polygon is moved: they are lost.
* `C27_subs_lost_refuted`: The full statement fails for polygons with sub-polygons.
* `C28_first_end_refuted`: A shared point that is the first end of a segment is not found.
* `C28_overlap_refuted`: Segments that overlap in more than a point give no intersection.
* `C29_intersections_first_vertex_refuted`: Lines that meet at the first end of an edge have no intersections.
* `C29_closing_edge_refuted`: Without the ring flag ([Line.to_polygon]) the closing edge is not looked at.
* `C29_boxes_float_refuted`: In C floats a box of side 2^-100 does not overlap itself.
* `C29_intersects_endless_refuted`: The sweep never ends on a line that goes back along an edge.
* `C29_end_on_vertical_refuted`: Outside general position meetings are missed: an edge that ends on a vertical edge,
* `C29_two_verticals_refuted`: two vertical edges that overlap,
* `C29_start_on_other_refuted`: a line that starts on the other,
* `C29_self_crossing_refuted`: and a crossing with a line that also crosses itself.
* `C30_boundary_refuted`: "True if inside or on the boundary": some boundary points are in, others are not.
* `C31_repeated_vertex_refuted`: A repeated vertex raises, whatever the point.
* `C31_short_horizontal_refuted`: A short horizontal segment: the answer is not on it.
* `C31_closing_edge_refuted`: A polygon: the closing edge is left out, though it is a segment of the ring.
* `C32_line_and_back_refuted`: A polygon made into a line and back is never the same: it has its first vertex twice.
* `C32_cumulength_3d_refuted`: With a third coordinate the last cumulative length is not the length.
* `C33_setitem_refuted`: the box of a multipoint is the same before and after a vertex is replaced, whatever the vertices.
* `C33_extend_refuted`: after [Line.extend] the box, the extent and the length raise.
* `C34_rows_refuted`: If the set of field names comes in another order, members get the values of other fields.
* `C34_stale_index_refuted`: Assigning to a member does not update the index.
* `C34_radius_geographic_refuted`: across the date line it is not: of two points 2.2 m apart, a search for 3 m around one finds the other without an index and does not with one.
* `C34_polygon_refuted`: with a vertex on the left side the answers differ.
* `C35_table_refuted`: a Table of another length is not: some members cannot be read and are left out of iteration.
* `C35_override_refuted`: A property of the multipart hides a data field of the same name.
* `C35_subset_refuted`: If the set of field names is iterated in another order, a subset gives the members values of other fields.
* `C35_points_lost_refuted`: A property that not all points have is dropped.
* `C35_no_common_refuted`: Without a common property no member can be read at all, and iteration gives nothing, although the multipart has its length.
* `C35_set_point_refuted`: in another order the values get to other fields;
* `C35_set_vertex_refuted`: and [m[i] = coordinates] makes a member of a multipart with fields unreadable,
* `C35_merge_refuted`: the properties of the multipoints are lost.
* `C35_select_refuted`: if there is none, no member of the selection can be read.
* `C36_refuted`: of the nine points of a square grid, given row by row from below, the hull does not enclose the corner (0, 0).
* `C36_collinear_refuted`: Vertices on one line: one place, and two places one of which comes three times, raise an error.
* `C36_repeated_refuted`: the hull is not convex.
* `C36_dateline_refuted`: four corners of a region 60 degrees wide; the hull turns right at one vertex and left at the next.
* `C37_bbox_refuted`: After passing the meridian further vertices can be lost.
* `C38_between_refuted`: With opposite ends no angle is between, the ends included.
* `C41_east_edge_refuted`: The meridian 180 itself is given a column that does not exist.
* `C42_round_trip_refuted`: The full property fails for every grid: the lines [to_aai] writes cannot be read, because [self[:,:]] has three dimensions and the brackets around each cell are written too.
* `C42_bands_refuted`: With any number of bands the file that is written cannot be read.
* `C42_orientation_refuted`: A grid written to an ASCII file whose brackets are deleted and read again is upside down.
* `C42_skew_refuted`: A grid skewed in x only is written without complaint, and its skew is lost.
* `C42_nodata_refuted`: A valid value equal to the nodata value is written and, without the brackets, read back as nan.
* `C43_skew_refuted`: The transform of a skewed grid does not come back.
* `C43_thin_refuted`: A file of one row or one column cannot be read into memory.
* `C43_no_nodata_refuted`: A file without a nodata value cannot be left on disk unless its type is unsigned.
* `C43_type_refuted`: A file whose type has no counterpart cannot be written or read.
* `C43_ellipsoid_refuted`: The ellipsoid of a geographical file: the inverse flattening rf is used as flattening, so the semi-minor axis of every file on an ellipsoid (rf > 1) is negative; on a sphere (rf = 0) reading fails.
* `C43_sphere_refuted`: A geographical file on a sphere cannot be read.
* `C44_written_refuted`: an empty list as value makes the export fail with an IndexError.
* `C44_id_refuted`: a field may have the name of the "id" field that the export adds, up to case, which is all dBase compares.
* `C44_late_refuted`: an attribute is dropped when only objects after the hundredth have a storable value of it.
* `C44_order_refuted`: the names do not depend on the attributes alone; of two attributes that clash either may keep the name.
* `C45_polygon_refuted`: a polygon written and read again has one vertex more, always.
* `C45_holes_refuted`: a polygon with a hole that was read from GeoJSON cannot be written.
* `C45_reprojected_refuted`: a polygon in another coordinate system is written without its holes.
* `C45_unchanged_refuted`: writing a multipart geometry adds its data to its properties.
* `C45_properties_refuted`: a property whose length is the number of points comes back as data.
* `C45_strings_refuted`: if it is a string, the data are unusable: the table has a row for each field instead of each point.
* `C45_names_refuted`: a property with the name of a field is lost.
* `C45_crs_refuted`: without forcing WGS84 and without a URN nothing can be written.
* `C45_list_refuted`: a bare geometry is not returned in a list.
* `C46_properties_refuted`: the properties of a track are not those that were written.
* `C46_extensions_refuted`: any document that is read, written and read again has lost all extensions of its tracks and routes.
* `C46_values_refuted`: None becomes a word, and a property called like an element of the structure makes a document that reads as another one.
* `C46_structure_refuted`: A property called "trkseg" reads back as a track segment.
* `C46_waypoints_refuted`: a document with a waypoint cannot be read, neither can its tracks.
* `C46_line_refuted`: lines cannot be added as tracks, although the documentation says so.
* `C46_route_refuted`: geometries with data cannot be added as routes.
* `C46_attributes_refuted`: an attribute of a track that GPX does not know is written as a property.
* `C46_elevation_refuted`: without a data field that GPX knows, the elevations are not written.
* `C47_datum_refuted`: The datum "carthage" of the table names an ellipsoid that is not in the other table: KeyError.
* `C47_alpha_refuted`: The azimuth of an oblique projection is taken for the semi-major axis.
* `C47_inverse_flattening_refuted`: An inverse flattening is not understood, and a flattening of zero (a sphere) divides by zero.
* `C47_sphere_refuted`: A flattening of zero raises ZeroDivisionError.
* `C49_ragged_and_scalar_refuted`: unequal columns are cut to the shortest without an error, and a dict of scalars gives one one-value row per field instead of one row.
* `C49_rows_refuted`: of the rows given only the first has its length checked. Reading the second column of a table with a shorter row then raises IndexError.
* `C50_repeated_field_refuted`: with a repeated field name the two views differ.
* `C51_copy_shares_rows_refuted`: Table(t) shares its rows with t, so extending one changes the other.
* `C52_nodata_added_refuted`: nodata cells take part in the sum and are data afterwards.
* `C53_last_row_refuted`: the last row is uninitialised memory.
* `C54_right_end_refuted`: the search for the right-hand end starts at a y coordinate, so a grid lying above the diagonal reports that instead.
* `C54_bands_refuted`: [data_extent] raises IndexError for every grid with several bands.
* `C55_one_column_refuted`: a grid of one column is laid out as one row.
* `C55_two_bands_refuted`: two bands are mixed up.
* `C56_points_uphill_refuted`: A slope rising to the north: its aspect points north, up the slope.
* `C56_flat_refuted`: flat ground has an aspect. If the eight cells around a cell have one height, and four times that height is a float32 number, the aspect is pi (west), or -pi if the row spacing is negative: the same as that of a slope falling to the west.
* `C58_cell_size_refuted`: The plane h = x, lit from the side, in cells of size 10: the shade is that of a plane ten times less steep.
* `C59_small_maxchildren_refuted`: With a smaller maxchildren the process is ended.
* `C60_limit_refuted`: max_results=1 gives four results in both searches.
* `C61_freed_twice_refuted`: Fifty-one equal boxes, and the box of index 0 is freed twice.
* `C62_bbox_refuted`: and covers nothing just after the root has been split.
* `C64_walk_3d_refuted`: Walking drops the third coordinate, even for a distance of zero.
* `C64_geographical_meridian_refuted`: In geographical systems, two different points of one meridian have no azimuth, and equal points have one: the test is the wrong way round.
* `C65_one_point_refuted`: n = 1 divides by zero, whatever the line.
* `C65_zero_length_refuted`: A line of length zero gives one point, not n.
* `C66_short_segments_refuted`: A line of any length made of segments shorter than dx yields its first vertex only.
* `C66_zero_spacing_refuted`: A spacing of zero never ends.
* `C67_within_distance_refuted`: A point near one segment of a line but not near all of them is not within the distance.
* `C69_small_polygon_refuted`: And wrong for a small polygon across it.
* `C70_outside_refuted`: A ring that spans less than 180 degrees of azimuth, so not round the point: contained.
* `C70_inside_refuted`: A ring once round the point: not contained, but contained when reversed.
* `C71_equator_refuted`: Across the 180th meridian the distance is the long way round.
* `C72_equator_refuted`: A polygon across the equator: the parts on the two sides are subtracted.
* `C73_across_refuted`: A segment across the equator leaves its latitude bounds.
* `C74_south_refuted`: A position at 45 degrees south comes back as latitude 135.
* `C74_pole_refuted`: The poles cannot be converted back (division by zero).
* `C76_south_refuted`: If the computed direction (not necessarily the crossing itself) points south, whatever is returned is not a latitude.
* `C76_south_example_refuted`: Two segments that cross in the southern hemisphere give such a latitude.
* `C76_southward_refuted`: A segment along a meridian towards the south meets nothing.
* `C76_short_refuted`: Short segments that cross beyond 90 degrees of longitude are missed.
* `C77_axes_refuted`: Given by axes with the default datum, the proj.4 text describes WGS84, whatever the axes.
* `C79_transforms_refuted`: Files with different transforms are stacked without complaint.
* `C79_keyword_refuted`: Any in_memory argument raises TypeError.
* `C80_oblong_refuted`: with cells 4 wide and 2 high, the cell in row 15 and column 12 is kept though it is clear of the triangle and outside.
* `C80_south_refuted`: the mask is upside down. The cell in row 4, 11.5 above the box, is kept, that in row 15 in the box is lost.
* `C80_holes_refuted`: cells in the hole are kept.
* `C80_turns_refuted`: the cells inside a box run round 256 times are lost, as the counts are kept in eight bits.
* `C80_skew_refuted`: a box is no mask but a ZeroDivisionError.
* `C82_straight_refuted`: A straight level line inside the polygon is not found.
* `C82_hole_within_refuted`: A line through a hole counts as within;
* `C82_hole_touching_refuted`: one that starts in a hole and ends in the polygon does not touch it.
* `C82_closing_within_refuted`: The last side of the members of a Multipolygon is not looked at.
* `C82_closing_touching_refuted`: A line that crosses only the last side of such a member does not touch it.
* `C82_many_refuted`: Of 51 lines the one within the polygon is missed; of the first 50 it is found.
* `C82_bare_refuted`: Without data and properties the members of the result cannot be read.
* `C83_contains_refuted`: No member can be asked whether it contains a point: TypeError.
* `C83_intersects_refuted`: A line that crosses a polygon on its closing side does not intersect the member.
* `C83_nested_refuted`: An island in a hole is lost, and with it its area.
* `C84_mixed_refuted`: Polygons of different ranks cannot be merged: NameError.
* `C84_holes_refuted`: A multipolygon made of polygons one of which has a hole has no vertices and cannot be merged: AttributeError.
* `C85_holes_refuted`: The holes are lost: the area grows although the transformation is a shift.
* `C85_data_refuted`: The properties of the multiline become fields of its data.
* `C86_holes_refuted`: Missing: polygons that differ in their holes only are equal.
* `C86_rank_refuted`: Missing: of different ranks, comparing as many points raises ValueError.
* `C86_fields_refuted`: Missing: with the same fields in another order the same data are not equal.
* `C86_systems_refuted`: Missing: two geographical systems are both equal to a projected one with their text, but not to each other.
* `C87_zero_refuted`: Missing: 0.0 and -0.0 are equal, but not their bytes.
* `C87_names_refuted`: Missing: projected systems are equal whatever their names, which go into the hash.
* `C87_multipart_refuted`: Missing: a Multiline or Multipolygon has no hash.
* `C88_holes_refuted`: Missing: the slice with all the vertices loses the holes.
* `C89_ring_refuted`: Every polygon gains a vertex.
* `C89_system_refuted`: The system becomes Cartesian, and the data are lost.
* `C89_multipart_refuted`: Multilines and multipolygons lose their properties.
* `C89_argument_refuted`: The properties given to [from_shape] are not used.
* `C90_elevation_refuted`: Third coordinates are lost.
* `C90_point_refuted`: A point comes back with a third coordinate, which is zero.
* `C90_multipolygon_refuted`: A multipolygon is written as a collection of lines, which takes no polygon.
* `C90_system_refuted`: All geometries of a file get the system of the first; none is transformed.
* `C91_latlong_refuted`: PROJ's own name latlong is spoiled.
* `C91_cartesian_refuted`: Cartesian coordinates are written as longitudes and latitudes.
* `C91_sphere_refuted`: A geographical layer on a sphere cannot be read.
* `C92_nan_refuted`: with a number for nodata a single nan makes the extremes nan, which are documented as those of the values that are not nan.
* `C92_bands_refuted`: with two bands [min] leaves out a value that is data when the other band has none in that cell, and [minmax] does not.
* `C93_numbers_refuted`: two numbers, which the description of the result provides for, raise TypeError.
* `C93_outside_refuted`: a Point and a Multipoint of it disagree outside of the grid.
* `C93_negative_resolution_refuted`: if one of them is negative, as for an image whose first row is the northernmost, the walk along the line for the default spacing never ends.
* `C94_radians_refuted`: the azimuth of [ellipsoidal_forward] is documented in radians and taken in degrees; PI / 2 on the unit sphere does not lead along the equator.
* `C95_sphere_refuted`: on a sphere, the distance between two points whose latitudes differ only in sign raises ZeroDivisionError, as it does between points of nearly opposite longitudes.
* `C95_opposite_refuted`: on an oblate ellipsoid the distance to a point of exactly the opposite latitude and nearly the opposite longitude raises ValueError (the square root of a negative number).
* `C95_shortest_refuted`: between opposite points of the equator of an oblate ellipsoid the length of the equator is returned, although the way over a pole is shorter.
* `C96_balanced_refuted`: [_canonical_configuration] turns both latitudes to the south and [ellipsoidal_area] forgets it, so that an edge in the south has the same area as its mirror image in the north and a rectangle about the equator has none.
* `C96_prolate_refuted`: on a prolate ellipsoid (b > a) the square root of the squared eccentricity raises ValueError, whatever the polygon.
* `C97_balanced_refuted`: the two halves of a rectangle about the equator cancel, although its area is not zero.
* `C97_dateline_refuted`: whether an edge runs east or west is decided by comparing the longitudes as they are given, so that the area of a polygon across the date line depends on whether longitudes go beyond 180 degrees; with the usual range the area of this one is zero.
* `C97_coefficient_refuted`: one coefficient of the series is 90/9009 instead of 80/9009, so that the error is of the sixth power of the eccentricity instead of the seventh: here it is more than ten times what the series of that order leaves (with 80/9009 the error is at most 128/3003 b^2 ep^7 per radian of the great circle).
* `C98_elevation_refuted`: a line, polygon or multipoint with third coordinates has no vertices in another system: the method raises AttributeError, whatever the transformation.
* `C98_height_refuted`: points and the parts of multilines silently lose their third coordinates instead.
* `C98_mixed_rank_refuted`: so a multipoint, or a sum, of two points with third coordinates in different systems mixes vertices of two ranks, which the vertex container refuses.
* `C98_line_of_points_refuted`: [Line] and [Polygon] made of points in different systems take the coordinates as they are and call all of them coordinates of one system (a multipoint does not), so the vertices are elsewhere; the same if another system is given.
* `C98_sum_holes_refuted`: the sum of two polygons has lost their holes.
* `C98_identity_refuted`: an equal system that is another object (two [ProjectedCRS] of one text) is not recognised by [vertices], which raises for third coordinates, unlike [Multiline.vertices].
* `C99_rank_refuted`: control points with a third coordinate are refused: ValueError if the first multipoint has it; if only the second has it, the solver is given a vector that does not match its matrix (or, in another system, C98: AttributeError).
* `C99_collinear_refuted`: with control points on a line the matrix is not determined, and is returned without warning although infinitely many maps fit as well: here two with different images.
* `C100_farther_refuted`: the distance along an arc may first rise and then fall. From 160 W the search on the equator from 0 to 90 E gives the first end, at 160 degrees, although the second end is at 110 degrees: over five thousand kilometres nearer on the Earth.
* `C100_short_refuted`: with fewer than two vertices the distance is -1.
* `C101_polygon_refuted`: a polygon or line is reported as intersecting others that it does not meet: the two edges at a vertex that is west of both their other ends are neighbours when they begin, and are tested against each other although they belong to the same geometry (the planar sweep compares colours, the spherical one does not). The triangle (0, 0), (90, 0), (45, 45) "intersects" a line wholly north of it, whatever the heights.
* `C101_turn_refuted`: the same happens at the vertices of lines always eastward, if heights are the latitudes of the edges (in doubles they nearly are between 90W and 90E): where an edge ends, its neighbours may be an edge of the other line and the next edge of its own.
* `C101_end_to_end_refuted`: lines that touch end to end do not "intersect": edges that end at a position are removed before those that begin there are tested.
* `C101_along_refuted`: lines that overlap along a great circle do not "intersect": the circles have no crossing, the longitude is NaN.
* `C101_short_refuted`: edges of some hundred metres that cross west of 90W or east of 90E do not "intersect": below a fixed length of the cross product the longitude is an arcsine, in the wrong half of the globe.
* `C101_date_line_refuted`: a line across the date line "intersects" nothing: its box has a western limit east of the eastern one, and boxes are compared as numbers.
* `C101_to_180_refuted`: neither does a line whose easternmost vertex is at longitude 180, which the box turns into -180.
* `C101_across_refuted`: an edge across the equator can leave its box (see C73), and what meets it outside is not found.
* `C101_twice_refuted`: the call does not return for a line that runs along the same edge twice in the same direction: the neighbour beyond the edges that end is looked up by value, and the edge's neighbour is the edge.
* `C102_search_memory_refuted`: the pool of results of a search is never destroyed (quadtree.pyx:119-131), so the memory lost grows without bound with the number of searches and dropping the tree does not give it back.
* `C102_doubles_refuted`: with IEEE doubles (the points of C01_doubles_refuted) the memory error is real: a freed leaf is used again, whatever the depth allowed.
* `C103_geojson_refuted`: [to_geojson(f, force_wgs84=False)] without urn raises NameError for every geometry, but only after the file has been opened: what was in it is lost.
* `C103_emptied_refuted`: [GPX.writefile] opens the file before it makes the text: if that raises (an unknown keyword is enough) the old contents are lost. So it is with [to_aai] and a value for nodata that the array cannot hold, and with [to_geotiff] and a system that gdal does not know.
* `C103_deleted_refuted`: [write_shapefile] deletes an existing file before it looks at what it is to write: without geometries, or with a system that cannot be understood, the file is gone.
* `C103_unnoticed_refuted`: a shapefile that cannot be written completely (a full disk, say) is not reported: the call returns.
* `C103_unbound_refuted`: if the file cannot be opened, [to_geojson] raises UnboundLocalError instead of the error of [open], whatever the text.
* `C103_object_closed_refuted`: [to_aai] closes the object it was given; the text written to a StringIO is gone with it, and nothing can be written after the grid.
* `C104_far_refuted`: aligned to multiples larger than the grid, the grid may be moved away from all its data, and ValueError is raised instead of a grid of nodata.
* `C104_integers_refuted`: aligning an integer grid linearly mixes values of the opposite edges into the first row and column, or raises IndexError if it is moved the other way.
* `C104_nan_refuted`: a single nan spreads to the cells around it even if no cell is moved: of nine cells with a nan in the middle none is left.
* `C105_leak_refuted`: no index ever gives back all its memory when it is dropped: the array of children of every node, the three other blocks of every inner node and the box of every query stay allocated, whatever the geometries.
* `C105_raised_refuted`: when the constructor raises AttributeError because a geometry has no bbox, nothing is given back: four blocks for each node made so far and one for each geometry before the offending one.
* `C105_twice_refuted`: dropping an index of 51 equal boxes frees a block twice, which ends the process.
* `C106_moved_refuted`: a moved multipoint is not a copy. After m2 = m.shift(v), the assignment m2[0] = point gives m2 the new vertex, and replaces the data of the first point of m, whose vertex stays.
* `C106_vertex_refuted`: naming one vertex of a line names the line and all its vertices (line[0].properties is line.properties), while the points of a multipoint have properties of their own.
* `C106_table_refuted`: Table(t) is not a copy of [t]. Deleting a row of it deletes the row of the other geometry, which then has a point more than it has rows, and raises when that point is asked for.
* `C106_table_parts_refuted`: and it does not stay the same table either. After a field is set, the two no longer have rows in common.
* `C106_half_refuted`: m[k] = point raises when the row is missing, and has moved the vertex then.
* `C107_contains_refuted`: with coordinates below 16 a point outside a triangle is said to be inside, so that it is in both of two triangles on either side of an edge.
* `C107_gap_refuted`: a point inside one of two triangles on either side of an edge is said to be in neither.
* `C107_cell_refuted`: in a grid of cells of 0.2 from 0 the point 2.2, which is in the cell 11, is found in the cell 10.
* `C107_centre_refuted`: in a grid little more than 2^51 cells from the origin of coordinates the centre of a cell is not found in its cell.
* `C107_area_refuted`: far from the origin two triangles of area 2 are given the areas 4 and 0.
* `C108_inside_missed_refuted`: a geometry that lies 0.2 inside the lower side of the query, at a northing of 5000000 (as in UTM), is not found by search_within: floats have a spacing of 0.5 there, both sides are rounded to the same number, and the comparison is strict.
* `C108_outside_found_refuted`: a geometry that reaches 0.2 beyond the upper side of the query, at a northing of 5000000, is reported by search_within.
* `C108_small_missed_refuted`: a building of 10 by 0.4 at a northing of 5000000 has no height once rounded, and search_overlapping does not find it, whatever the query; the same goes for anything smaller than the spacing of floats (1 beyond 8388608; in degrees, 0.000015 beyond longitude 128).
* `C108_underflow_refuted`: two boxes that overlap by a square of side 2^-76 are not seen to overlap, although both are exact in floats: the area underflows to 0.
* `C108_nan_refuted`: a box whose upper side is NaN is reported as overlapping, one whose lower side is NaN is not.
* `C108_bbox_refuted`: the box of an index does not contain the geometries in it: at a northing of 5000000 the upper side may lie 0.2 below that of the geometry.
* `C109_nodata_shared_refuted`: a grid made with bands=g.bands and the same nodata value does not hear of g.set_nodata_value(v): its cells without data have turned into data.
* `C109_rows_refuted`: the rows given by iterating over g.values are copies for compressed bands and for several bands, but windows into the grid for one simple band: the same loop leaves one grid as it was and changes the other.
* `C109_rebind_refuted`: after g.bands = other, g.nbands and g.size are those of the other list, while g[...] and everything computed from it still reads the first one; then set_nodata_value raises when the numbers of bands differ.
* `C109_append_refuted`: a band appended to the list of one grid is a new band of all grids made with bands=g.bands, and grids then see each other's changes although they were made from different arrays.
* `C110_own_extent_refuted`: clipping a grid to the extent of its own centres loses rows and columns. A grid of two rows and columns at (500000, 500000) with cells of 0.1 has no column left.
* `C110_pieces_refuted`: merging refuses the pieces of a grid: those that begin in columns 0 and 1 of a grid at 10 with cells of 0.1.
* `C110_half_cell_refuted`: merging accepts grids that are half a cell apart, if they are 2^53 cells apart.
* `C111_extend_refuted`: adding a table with an incomplete row raises after the rows before it have been added.
* `C111_columns_refuted`: values for the pixels of a grid of two bands that have one column raise IndexError, but the first band has been written.
* `C111_mask_bands_refuted`: a mask for one band, used on a grid of two bands, raises IndexError, but the first band has been written.
* `C111_apply_refuted`: apply in place on a grid of two bands, the second of them without data, raises ValueError after the function has been applied to the first.
* `C111_vertex_refuted`: in a multipoint made with a Table of fewer rows than there are vertices the vertex is replaced before IndexError is raised.
* `C112_asjson_refuted`: [asjson] gives no column under its name: there is always a list of one list.
* `C112_checktypes_refuted`: With checktypes=True every table that holds an ordinary value is a TypeError, however uniform it is: the arguments of isinstance are exchanged.
* `C112_checktypes_empty_refuted`: With checktypes=True a table without rows is an IndexError.
* `C112_checktypes_mixed_refuted`: The check accepts a column with a class and a tuple in it.
* `C112_contains_refuted`: A row of the table, as iteration gives it, is not in the table.
* `C113_edge_refuted`: C113, refuted: the points of the outer border belong to the grid, and those of its first row and column are accepted, but if the number of rows is even, those on the outer border of the last row are an IndexError.
* `C114_tiled_refuted`: C114, refuted for tiling: [to_geotiff(..., tiled=True)] asks GDAL for the same file as without it, although [_gdal.write] would pass the option on.
* `C114_unknown_refuted`: C114, refuted: a compression that is not one of the four, also one in small letters, is silently no compression.
* `C114_keyword_refuted`: C114, refuted: a COMPRESS keyword comes after the default, which GDAL takes.
* `C114_write_refuted`: C114, refuted for [write_shapefile(name, ...)]: it uses the name as it is, so that [read_shapefile(name)] opens the same file only if the name ends with .shp.
* `C115_urn_refuted`: with a URN alone, [as_geojson(urn=...)], the positions are transformed to WGS84 all the same, and labelled with the URN given.
* `C115_force_refuted`: without a URN, [as_geojson(force_wgs84=False)] is a NameError for every geometry.
* `C115_label_refuted`: the system that the text names plays no part: a line written in its own system, and labelled so, is read as one with the same numbers in WGS84.
* `C116_system_refuted`: so a geometry in another system is written, and read again, somewhere else, as soon as one of its vertices has other numbers in WGS84.
* `C117_bend_refuted`: only the corners are transformed, so with a transformation that bends lines, as map projections do, parts of the grid are outside of its extent.
* `C117_clip_more_refuted`: cells outside of the box are kept as well: here that of number 6, in the corner.
* `C117_clip_lost_refuted`: with a transformation that bends lines, cells inside the box are lost: the first row kept is the fifth, and the cell of row 0, column 1 is in the box.
* `C117_sum_refuted`: grids in different systems can be added if their transforms have the same numbers; the sum is in the system of the first.
* `C118_profile_refuted`: profile passes its keyword arguments on to sample. With crs, the coordinates, which are in the grid's system already, are transformed to it once more: naming the system of the line moves the samples.
* `C118_twice_refuted`: for all systems and lines, such a profile is that of the points transformed twice.
* `C119_missed_refuted`: lines in different systems that cross are said not to intersect, because the numbers of the second are not transformed,
* `C119_false_refuted`: and lines that do not meet are said to intersect.
* `C119_intersections_refuted`: the points of intersection of lines in different systems are those of their numbers: here a point that is not on the second line, for lines that do not meet, and none for lines that cross.
* `C120_radius_refuted`: with an index, within_radius with a centre in another system loses points, here one that is exactly at the centre.
* `C120_polygon_refuted`: with an index, within_polygon loses points of a polygon in another system if the transformation bends lines, here all of those near the middle of a square.

## What is modelled

| file | modelled | not modelled |
|------|----------|--------------|
| `crs.py` | ellipsoid tables, `ellipsoid_from_proj4`-style parsing, `GeographicalCRS` text, equality of `ProjectedCRS`, `CartesianCRS` forward and inverse, `SphericalEarth` area and distance | pyproj itself, WKT output, `project`/`transform` of projected systems |
| `geodesy.py` | angle functions, `isbetween_circular`, canonical configuration, planar and spherical functions, equatorial inverse, `spherical_area`, `fzero_brent`, `ellipsoidal_forward`, `ellipsoidal_inverse` and their helpers | rounding of the trigonometric functions |
| `tile.py` | all | Python 2 division |
| `raster/band.py` | all | blosc (taken as lossless), dtype conversion, integer overflow above 2^53 |
| `raster/grid.py` | transform, extents, positions, indexing, masks by value and by polygons, chunks, clip, resize, merge, resample, alignment, sampling, gridpoints, sums, `apply`, `min`/`max`/`minmax`, `sample`, `profile`, AAI output, which objects grids share | coordinate conversion of other systems |
| `raster/coordgen.py`, `raster/crfuncs.pyx` | all; `get_positions_vec` also in doubles | pyproj |
| `raster/misc.py` | all; `_aspect` also in float32 (flat ground) | float32 rounding elsewhere, infinities |
| `raster/_aai.py`, `raster/read.py`, `raster/_gdal.py` | reading and writing, what becomes of the file | GDAL (taken as a store), WKT |
| `vector/quadtree.h`, `quadtree.pyx` | all | allocation failure |
| `vector/rtree.h`, `rtree.pyx`, `pool.h` | all, in exact numbers and in `float` | fused or extended precision arithmetic of a C compiler |
| `vector/table.py` | constructor, columns, rows, updates, `extend`, selection, `asjson`, type validation, `Indexer` | printing |
| `vector/geometry.py` | planar measures and transformations, boxes, nearest points, containment, intersections, hulls, date line, poles, caching, records of multiparts, selections, members, merging and transformation of multilines and multipolygons, equality, hashes, slices, `__geo_interface__`, coordinates in other systems (up to pyproj), sharing of objects between geometries | printing |
| `vector/vectorgeo.pyx` | planar and spherical kernels, `pt_nearest_proj` | rounding of `tol` to float |
| `vector/intersection.pyx` | planar kernels and sweep, great circle kernels and sweep | conversion of boxes to C floats |
| `vector/contains.pyx`, `convexhull.pyx`, `dateline.pyx`, `decorators.py` | all; the planar `contains` also in doubles | fused or extended precision arithmetic of a C compiler |
| `vector/_shp.py` | attribute table, geometries, texts of systems, what becomes of the file | OGR (its calls are taken as stated in `Ogr_Model`) |
| `vector/_geojson.py`, `_gpx.py`, `read.py` | all but the text formats; what becomes of the file | JSON and XML text, picogeojson (trusted up to ring direction), ElementTree |


## Trusted base

* Coq's kernel (8.16.1), `vm_compute` included. No axiom, parameter, functor or module type is declared here, no kernel
  check is switched off and nothing is admitted.
* The axioms shown by `Print Assumptions` under each property theorem (listed below). They all belong to the standard
  library: the two axioms of the classical real numbers (`ClassicalDedekindReals.sig_forall_dec`,
  `ClassicalDedekindReals.sig_not_dec`), `FunctionalExtensionality.functional_extensionality_dep` and
  `Classical_Prop.classic`. They come in through `R` only: theorems about lists, integers and rationals need none.
* A checker that walks through all loaded libraries (`coqchk -o`) also reports the names
  `Coq.Reals.Rdefinitions.RbaseSymbolsImpl.*`, `Coq.Reals.Rdefinitions.RinvImpl.*` and `Coq.ssr.ssrunder.Under_rel.*`: these
  are opaque module fields inside the standard library and its ssreflect, not axioms of a theorem here.
* Coquelicot (a library without axioms of its own) is used in the files `Sphere_Area*`, `Sphere_Props` and `Geod_*` for
  integrals and derivatives, Flocq (likewise) in the files `Dbl_*`, `Dcut_*`, `Ftree_*` and `Flat_*` for the IEEE operations. No other library outside of the standard one is used.
* The reading of the code: the models are transcriptions by hand; nothing is extracted or run against the code.
* The external parts the models take as given, named in the table above.

Axioms by theorem, as `Print Assumptions` lists them:

* **Closed under the global context** (617 theorems): all theorems not listed below.
* `ClassicalDedekindReals.sig_forall_dec`, `FunctionalExtensionality.functional_extensionality_dep` (14 theorems): `C100_edge_partial`, `C100_ends`, `C100_methods`, `C100_short_refuted`, `C40_not_bracketed`, `C40_no_division`, `C40_sound`, `C40_returns`, `C40_exhausted`, `C97_earth`, `C64_geographical_partial`, `C64_geographical_meridian_refuted`, `C34_radius_any_partial`, `C38_between_real`.
* `ClassicalDedekindReals.sig_forall_dec`, `ClassicalDedekindReals.sig_not_dec`, `FunctionalExtensionality.functional_extensionality_dep` (37 theorems): `C40_continuous`, `C27_rotate`, `C27_rotate_isometry`, `C32_length`, `C32_perimeter`, `C32_length_additive`, `C32_length_reversed`, `C32_length_rotated`, `C32_cumulength`, `C32_displacement`, `C32_displacement_shortest`, `C32_cumulength_3d_refuted`, `C64_distance`, `C64_walk`, `C64_walk_3d_refuted`, `C31_segment_partial`, `C31_line_partial`, `C31_too_short`, `C31_repeated_vertex_refuted`, `C31_short_horizontal_refuted`, `C31_closing_edge_refuted`, `C67_within_distance_partial`, `C67_sound`, `C67_within_distance_refuted`, `C68_nearest_vertex`, `C34_radius_partial`, `C38_unroll_rad`, `C38_reduce_rad`, `C38_unroll_rad_normal`, `C38_reduce_rad_normal`, `C48_forward`, `C74_to_cartesian`, `C24_slope_exact`, `C24_slope_plane`, `C57_normed_vectors`, `C58_hillshade_partial`, `C58_cell_size_refuted`.
* `ClassicalDedekindReals.sig_forall_dec`, `ClassicalDedekindReals.sig_not_dec`, `Classical_Prop.classic`, `FunctionalExtensionality.functional_extensionality_dep` (165 theorems): `C100_sphere_partial`, `C100_farther_refuted`, `C30_contains_partial`, `C30_winding_number`, `C30_holes_partial`, `C30_convex`, `C107_contains`, `C107_contains_raster`, `C107_contains_refuted`, `C107_gap_refuted`, `C107_positions_partial`, `C107_indices_partial`, `C107_centres_partial`, `C107_columns`, `C107_rows`, `C107_cell_refuted`, `C107_centre_refuted`, `C107_area_raster`, `C107_area`, `C107_area_refuted`, `C110_clip`, `C110_piece`, `C110_fit`, `C110_own_extent`, `C110_clip_partial`, `C110_piece_partial`, `C110_accepted_partial`, `C110_own_extent_refuted`, `C110_pieces_refuted`, `C110_half_cell_refuted`, `C56_flat_refuted`, `C56_west_slope`, `C108_always_answers`, `C108_overlapping_sound`, `C108_within_sound`, `C108_within_found_partial`, `C108_overlapping_found_partial`, `C108_whole_sound`, `C108_whole_exact_partial`, `C108_bbox_partial`, `C108_inside_missed_refuted`, `C108_outside_found_refuted`, `C108_small_missed_refuted`, `C108_underflow_refuted`, `C108_nan_refuted`, `C108_bbox_refuted`, `C96_direction`, `C96_start`, `C96_back`, `C96_meridian`, `C96_equator`, `C96_balanced_refuted`, `C96_prolate_refuted`, `C97_edge`, `C97_polygon`, `C97_growth`, `C97_low`, `C97_balanced_refuted`, `C97_dateline_refuted`, `C97_coefficient_refuted`, `C94_sphere_partial`, `C94_ellipsoid_partial`, `C94_clairaut`, `C94_equator`, `C94_great_circles`, `C94_radians_refuted`, `C95_geodesic_partial`, `C95_meridian_partial`, `C95_sphere_partial`, `C95_equator_partial`, `C95_symmetric`, `C95_directions_partial`, `C95_sphere_refuted`, `C95_sphere_fails`, `C95_opposite_refuted`, `C95_shortest_refuted`, `C27_turned_determines`, `C27_rotate_compose`, `C27_rotate_full_turn`, `C64_azimuth`, `C64_azimuth_of_walk`, `C64_walk_there`, `C64_azimuth_back`, `C65_to_npoints_partial`, `C65_zero_length_refuted`, `C66_to_points_partial`, `C66_long_segments_partial`, `C66_short_segments_refuted`, `C66_zero_spacing_refuted`, `C101_answers`, `C101_single`, `C101_steady_found`, `C101_steady_partial`, `C101_meridian`, `C101_polygon_refuted`, `C101_turn_refuted`, `C101_end_to_end_refuted`, `C101_along_refuted`, `C101_short_refuted`, `C101_date_line_refuted`, `C101_to_180_refuted`, `C101_across_refuted`, `C101_twice_refuted`, `C36_vertices`, `C36_azimuth`, `C36_sphere_partial`, `C36_sphere_clear_partial`, `C36_repeated_refuted`, `C36_dateline_refuted`, `C119_contains_partial`, `C80_clear_partial`, `C80_rectilinear_partial`, `C80_oblong_refuted`, `C80_south_refuted`, `C80_holes_refuted`, `C80_turns_refuted`, `C34_radius_geographic_refuted`, `C34_polygon_region_partial`, `C120_polygon_partial`, `C120_polygon_refuted`, `C48_inverse`, `C48_round_trip`, `C48_distance`, `C72_area_partial`, `C72_area_exists`, `C72_edge_north`, `C72_edge_south`, `C72_equator_refuted`, `C73_bounds_partial`, `C73_attained`, `C73_answers`, `C73_across_refuted`, `C74_round_trip_partial`, `C74_direction_partial`, `C74_south_refuted`, `C74_pole_refuted`, `C75_distance`, `C75_segment_distance`, `C75_metric`, `C75_azimuth`, `C76_sound_partial`, `C76_complete_partial`, `C76_south_refuted`, `C76_south_example_refuted`, `C76_southward_refuted`, `C76_short_refuted`, `C93_negative_resolution_refuted`, `C56_aspect_partial`, `C56_points_uphill_refuted`, `C41_contains`, `C41_exists`, `C41_disjoint`, `C41_extent`, `C41_corner`, `C41_children`, `C41_east_edge_refuted`, `C81_across`, `C82_within_partial`, `C82_touching_partial`, `C82_sound_partial`, `C82_straight_refuted`, `C82_hole_within_refuted`, `C82_hole_touching_refuted`, `C82_closing_within_refuted`, `C82_many_refuted`.
