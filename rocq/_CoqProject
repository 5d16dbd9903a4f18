-Q theories Verif
theories/QuadTree_Model.v
theories/QuadTree_Spec.v
theories/QuadTree_Proofs.v
theories/QuadTree_Termination.v
theories/QuadTree_Order.v
theories/QuadTree_Props.v
theories/Table_Model.v
theories/Table_Spec.v
theories/Table_Proofs.v
theories/Table_HeapModel.v
theories/Table_HeapProofs.v
theories/Table_Items.v
theories/Table_Props.v
theories/Band_Model.v
theories/Band_Spec.v
theories/Band_Proofs.v
theories/Band_IndexModel.v
theories/Band_IndexSpec.v
theories/Band_IndexProofs.v
theories/Band_MaskProofs.v
theories/Band_Props.v
theories/Grid_Model.v
theories/Grid_Spec.v
theories/Grid_Proofs.v
theories/Grid_OpsProofs.v
theories/Grid_ResizeProofs.v
theories/Grid_MoreProofs.v
theories/Grid_Props.v
theories/GridSample_Model.v
theories/GridSample_Spec.v
theories/GridSample_Proofs.v
theories/GridBilinear_Proofs.v
theories/GridMerge_Proofs.v
theories/GridPoints_Proofs.v
theories/GridBilinear_More.v
theories/GridExtent_Proofs.v
theories/GridResample_Proofs.v
theories/GridSample_Props.v
theories/Terrain_Model.v
theories/Terrain_Spec.v
theories/Terrain_Proofs.v
theories/TerrainR_Model.v
theories/TerrainR_Spec.v
theories/TerrainR_Proofs.v
theories/Terrain_Props.v
theories/RTree_Model.v
theories/RTree_Spec.v
theories/RTree_Proofs.v
theories/RTree_Unsplit.v
theories/RTree_Covering.v
theories/RTree_Props.v
theories/Geom_Model.v
theories/Geom_Spec.v
theories/Geom_Proofs.v
theories/Geom_More.v
theories/Geom_Convert.v
theories/Geom_Props.v
theories/GeomR_Model.v
theories/GeomR_Spec.v
theories/GeomR_Proofs.v
theories/GeomR_More.v
theories/GeomR_Points.v
theories/GeomR_Examples.v
theories/GeomR_Stretch.v
theories/GeomR_Props.v
theories/Inter_Model.v
theories/Inter_Spec.v
theories/Inter_Proofs.v
theories/Inter_Sweep.v
theories/Inter_Sweep2.v
theories/Inter_Complete.v
theories/Inter_Complete2.v
theories/Inter_Examples.v
theories/Inter_Props.v
theories/Contains_Model.v
theories/Contains_Spec.v
theories/Contains_Proofs.v
theories/Contains_Winding.v
theories/Contains_Inside.v
theories/Contains_Props.v
theories/Lon_Model.v
theories/Lon_Spec.v
theories/Lon_Proofs.v
theories/Lon_Box.v
theories/Lon_Props.v
theories/Sphere_Model.v
theories/Sphere_Spec.v
theories/Sphere_AreaSpec.v
theories/Sphere_Proofs.v
theories/Sphere_Dist.v
theories/Sphere_Bnd.v
theories/Sphere_Area.v
theories/Sphere_Inter.v
theories/Sphere_Props.v
theories/Brent_Model.v
theories/Brent_Spec.v
theories/Brent_Proofs.v
theories/Brent_Term.v
theories/Brent_Props.v
theories/Tile_Model.v
theories/Tile_Spec.v
theories/Tile_Proofs.v
theories/Tile_Props.v
theories/Crs_Model.v
theories/Crs_Spec.v
theories/Crs_Proofs.v
theories/Crs_Props.v
theories/Aai_Model.v
theories/Aai_Spec.v
theories/Aai_Proofs.v
theories/Aai_Props.v
theories/Tif_Model.v
theories/Tif_Spec.v
theories/Tif_Proofs.v
theories/Tif_Props.v
theories/Shp_Model.v
theories/Shp_Spec.v
theories/Shp_Proofs.v
theories/Shp_Props.v
theories/Gjs_Model.v
theories/Gjs_Spec.v
theories/Gjs_Proofs.v
theories/Gjs_Props.v
theories/Gpx_Model.v
theories/Gpx_Spec.v
theories/Gpx_Proofs.v
theories/Gpx_Props.v
theories/Cache_Model.v
theories/Cache_Spec.v
theories/Cache_Proofs.v
theories/Cache_Props.v
theories/Multi_Model.v
theories/Multi_Spec.v
theories/Multi_Proofs.v
theories/Multi_MoreProofs.v
theories/Multi_SelModel.v
theories/Multi_SelSpec.v
theories/Multi_SelProofs.v
theories/Multi_Examples.v
theories/Multi_Props.v
theories/Multi_Inside.v
theories/Multi_SelProps.v
theories/Hull_Model.v
theories/Hull_Spec.v
theories/Hull_Scan.v
theories/Hull_Proofs.v
theories/Hull_Main.v
theories/Hull_Azimuth.v
theories/Hull_Props.v
theories/Hull_SphereSpec.v
theories/Hull_SphereScan.v
theories/Hull_Sphere.v
theories/Hull_SphereMain.v
theories/Hull_SphereRefute.v
theories/Hull_SphereProps.v
theories/Mask_Model.v
theories/Mask_Spec.v
theories/Mask_Proofs.v
theories/Mask_Main.v
theories/Mask_Props.v
theories/Within_Winding.v
theories/Within_Model.v
theories/Within_Spec.v
theories/Within_Proofs.v
theories/Within_Cross.v
theories/Within_Main.v
theories/Within_Examples.v
theories/Within_Props.v
theories/Mpoly_Model.v
theories/Mpoly_Spec.v
theories/Mpoly_Proofs.v
theories/Mpoly_More.v
theories/Mpoly_Props.v
theories/Same_Model.v
theories/Same_Spec.v
theories/Same_Proofs.v
theories/Same_Slices.v
theories/Same_Props.v
theories/Ogr_Model.v
theories/Ogr_Spec.v
theories/Ogr_Proofs.v
theories/Ogr_Text.v
theories/Ogr_Props.v
theories/Stat_Model.v
theories/Stat_Spec.v
theories/Stat_Proofs.v
theories/Stat_Walk.v
theories/Stat_Props.v
theories/Geod_Model.v
theories/Geod_Spec.v
theories/Geod_Forward.v
theories/Geod_Poly.v
theories/Geod_Series.v
theories/Geod_Bounds.v
theories/Geod_Revert.v
theories/Geod_Accurate.v
theories/Geod_Unwrap.v
theories/Geod_Symm.v
theories/Geod_Inverse.v
theories/Geod_Answer.v
theories/Geod_Round.v
theories/Geod_More.v
theories/Geod_Equator.v
theories/Geod_Area.v
theories/Geod_Cases.v
theories/Geod_Props.v
theories/Geod_Near.v
theories/Geod_AreaSpec.v
theories/Geod_AreaSeries.v
theories/Geod_AreaTrue.v
theories/Geod_AreaEdge.v
theories/Geod_AreaPoly.v
theories/Geod_AreaLow.v
theories/Geod_AreaFind.v
theories/Geod_AreaProps.v
theories/Proj_Model.v
theories/Proj_Spec.v
theories/Proj_Proofs.v
theories/Proj_Props.v
theories/Fit_Model.v
theories/Fit_Spec.v
theories/Fit_Proofs.v
theories/Fit_Exists.v
theories/Fit_Final.v
theories/Fit_Props.v
theories/Arc_Model.v
theories/Arc_Spec.v
theories/Arc_Proofs.v
theories/Arc_Sphere.v
theories/Arc_Line.v
theories/Arc_Props.v
theories/Gsweep_Spec.v
theories/Gsweep_Model.v
theories/Gsweep_Geom.v
theories/Gsweep_Merid.v
theories/Gsweep_Sweep.v
theories/Gsweep_Line.v
theories/Gsweep_Steady.v
theories/Gsweep_Examples.v
theories/Gsweep_Refute.v
theories/Gsweep_Refute2.v
theories/Gsweep_Refute3.v
theories/Gsweep_Props.v
theories/QMem_Model.v
theories/QMem_Spec.v
theories/QMem_Base.v
theories/QMem_Split.v
theories/QMem_Insert.v
theories/QMem_Search.v
theories/QMem_Build.v
theories/QMem_Props.v
theories/File_Model.v
theories/File_Spec.v
theories/File_Proofs.v
theories/File_History.v
theories/File_Props.v
theories/Resample_Model.v
theories/Resample_Spec.v
theories/Resample_Proofs.v
theories/Resample_Props.v
theories/RMem_Model.v
theories/RMem_Spec.v
theories/RMem_Proofs.v
theories/RMem_Props.v
theories/Share_Model.v
theories/Share_Spec.v
theories/Share_Proofs.v
theories/Share2_Proofs.v
theories/Share_Props.v
theories/Dbl_Model.v
theories/Dbl_Spec.v
theories/Dbl_Float.v
theories/Dbl_Contains.v
theories/Dbl_Grid.v
theories/Dbl_Area.v
theories/Dbl_Proofs.v
theories/Dbl_Props.v
theories/Ftree_Model.v
theories/Ftree_Spec.v
theories/Ftree_Shape.v
theories/Ftree_Unsplit.v
theories/Ftree_Round.v
theories/Ftree_Proofs.v
theories/Ftree_Props.v
theories/Gshare_Model.v
theories/Gshare_Spec.v
theories/Gshare_Proofs.v
theories/Gshare_Props.v
theories/GridInt_Spec.v
theories/GridInt_Proofs.v
theories/GridInt_Props.v
theories/Dcut_Model.v
theories/Dcut_Spec.v
theories/Dcut_Proofs.v
theories/Dcut_Clip.v
theories/Dcut_Fit.v
theories/Dcut_Own.v
theories/Dcut_Find.v
theories/Dcut_Props.v
theories/Atom_Spec.v
theories/Atom_Proofs.v
theories/Atom_Grid.v
theories/Atom_Props.v
theories/Flat_Model.v
theories/Flat_Proofs.v
theories/Flat_Sign.v
theories/Flat_Props.v
theories/Tval_Model.v
theories/Tval_Spec.v
theories/Tval_Proofs.v
theories/Tval_Slice.v
theories/Tval_Props.v
theories/Idx_Model.v
theories/Idx_Proofs.v
theories/Idx_Props.v
theories/Opt_Model.v
theories/Opt_Spec.v
theories/Opt_Proofs.v
theories/Opt_Props.v
theories/Gcrs_Model.v
theories/Gcrs_Spec.v
theories/Gcrs_Proofs.v
theories/Gcrs_Props.v
theories/Gpsys_Model.v
theories/Gpsys_Spec.v
theories/Gpsys_Proofs.v
theories/Gpsys_Props.v
theories/Gsys_Model.v
theories/Gsys_Spec.v
theories/Gsys_Proofs.v
theories/Gsys_Props.v
theories/Ssys_Model.v
theories/Ssys_Spec.v
theories/Ssys_Proofs.v
theories/Ssys_Props.v
theories/Isys_Model.v
theories/Isys_Proofs.v
theories/Isys_Props.v
theories/Psys_Model.v
theories/Psys_Spec.v
theories/Psys_Proofs.v
theories/Psys_Props.v
