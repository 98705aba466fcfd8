-Q theories Verif
theories/Model/Base.v
theories/Model/FloodFill.v
theories/Model/VoxelMatrix.v
theories/Model/VoxelDisplay.v
theories/Model/Mesh.v
theories/Model/Frame.v
theories/Model/Polygon.v
theories/Model/RBase.v
theories/Model/Vec.v
theories/Spec/GridSpec.v
theories/Spec/VoxelSpec.v
theories/Spec/MeshSpec.v
theories/Spec/VoxelDisplaySpec.v
theories/Spec/PolygonSpec.v
theories/Spec/VecSpec.v
theories/Proofs/FloodFillP.v
theories/Proofs/OuterP.v
theories/Proofs/VoxelP.v
theories/Proofs/PixelP.v
theories/Proofs/VoxelOpsP.v
theories/Proofs/VoxelDisplayP.v
theories/Proofs/TranslationP.v
theories/Proofs/VoxelRefP.v
theories/Proofs/MeshP.v
theories/Proofs/FrameP.v
theories/Proofs/LineP.v
theories/Proofs/PolyAreaP.v
theories/Proofs/PolygonP.v
theories/Proofs/VecP.v
theories/Props/P_Voxel.v
theories/Props/P_Mesh.v
theories/Props/P_Frame.v
theories/Props/P_Polygon.v
theories/Props/P_Vec.v
theories/Model/BBox.v
theories/Model/MeshGeom.v
theories/Spec/BBoxSpec.v
theories/Spec/MeshGeomSpec.v
theories/Proofs/BBox2P.v
theories/Proofs/BBoxP.v
theories/Proofs/MeshGeomP.v
theories/Props/P_BBox.v
theories/Props/P_MeshGeom.v
theories/Model/LinSolve.v
theories/Model/Nurbs.v
theories/Spec/CurveSpec.v
theories/Spec/LinSpec.v
theories/Spec/NurbsSpec.v
theories/Proofs/BoehmP.v
theories/Proofs/CurveExP.v
theories/Proofs/InsertCurveP.v
theories/Proofs/InsertP.v
theories/Proofs/KnotGenP.v
theories/Proofs/KnotsP.v
theories/Proofs/LinSolveP.v
theories/Proofs/NurbsP.v
theories/Proofs/NurbsP2.v
theories/Proofs/NurbsP3.v
theories/Proofs/ReverseP.v
theories/Proofs/SplitP.v
theories/Proofs/SplitP2.v
theories/Props/P_Nurbs.v
theories/Model/Geometry.v
theories/Spec/AngleSpec.v
theories/Proofs/GeometryP.v
theories/Props/P_Geometry.v
theories/Model/StepText.v
theories/Model/StepWrite.v
theories/Spec/StepFileSpec.v
theories/Spec/StepTextSpec.v
theories/Proofs/StepExP.v
theories/Proofs/StepModelP.v
theories/Proofs/StepModelP2.v
theories/Proofs/StepTextP.v
theories/Proofs/StepWriteP.v
theories/Props/P_Step.v
theories/Model/Octree.v
theories/Spec/OctreeSpec.v
theories/Proofs/OctreeExP.v
theories/Proofs/OctreeP.v
theories/Proofs/OctreeP2.v
theories/Proofs/OctreeP3.v
theories/Proofs/OctreeP4.v
theories/Proofs/OctreeP5.v
theories/Proofs/OctreeP6.v
theories/Props/P_Octree.v
theories/Model/Sat.v
theories/Model/Voxelize.v
theories/Spec/SatSpec.v
theories/Proofs/SatExP.v
theories/Proofs/SatP.v
theories/Proofs/SatP2.v
theories/Proofs/SatP3.v
theories/Proofs/SatP4.v
theories/Proofs/VoxelizeP.v
theories/Proofs/VoxelizeP2.v
theories/Proofs/VoxelizeP3.v
theories/Proofs/VoxelizeP4.v
theories/Proofs/VoxelizeP5.v
theories/Proofs/VoxelizeP6.v
theories/Props/P_Sat.v
theories/Model/NurbsSurf.v
theories/Spec/SurfSpec.v
theories/Proofs/SurfP.v
theories/Proofs/SurfP2.v
theories/Proofs/SurfP3.v
theories/Proofs/SurfP4.v
theories/Proofs/SurfP5.v
theories/Props/P_Surf.v
theories/Proofs/VecP2.v
theories/Spec/FrameSpec.v
theories/Proofs/FrameP2.v
theories/Spec/MomentSpec.v
theories/Proofs/BBox3P.v
theories/Proofs/PolygonP2.v
theories/Proofs/MeshP2.v
theories/Model/ParamSurf.v
theories/Spec/ParamSurfSpec.v
theories/Proofs/ParamSurfP.v
theories/Proofs/ParamSurfP2.v
theories/Proofs/ParamSurfP3.v
theories/Proofs/ParamSurfP4.v
theories/Proofs/ParamSurfP5.v
theories/Proofs/ParamSurfP6.v
theories/Props/P_ParamSurf.v
theories/Model/Plane.v
theories/Spec/PlaneSpec.v
theories/Proofs/PlaneP.v
theories/Proofs/PlaneP2.v
theories/Proofs/PlaneP3.v
theories/Proofs/PlaneP4.v
theories/Props/P_Plane.v
theories/Model/Curves.v
theories/Spec/CurvesSpec.v
theories/Proofs/CurvesP.v
theories/Proofs/CurvesP2.v
theories/Proofs/CurvesP3.v
theories/Proofs/CurvesP4.v
theories/Proofs/CurvesP5.v
theories/Proofs/CurvesP6.v
theories/Proofs/CurvesP7.v
theories/Proofs/CurvesP8.v
theories/Proofs/CurvesP9.v
theories/Props/P_Curves.v
theories/Model/Edges.v
theories/Spec/EdgesSpec.v
theories/Proofs/EdgesP.v
theories/Proofs/EdgesP10.v
theories/Proofs/EdgesP11.v
theories/Proofs/EdgesP12.v
theories/Proofs/EdgesP3.v
theories/Proofs/EdgesP4.v
theories/Proofs/EdgesP5.v
theories/Proofs/EdgesP6.v
theories/Proofs/EdgesP7.v
theories/Proofs/EdgesP8.v
theories/Proofs/EdgesP9.v
theories/Props/P_Edges.v
theories/Spec/SatSpec2.v
theories/Spec/StepLineSpec.v
theories/Proofs/OctreeP7.v
theories/Proofs/SatP5.v
theories/Proofs/SatP6.v
theories/Proofs/StepLineP.v
theories/Model/Arcs.v
theories/Spec/ArcAreaSpec.v
theories/Spec/ArcsSpec.v
theories/Proofs/ArcsP.v
theories/Proofs/ArcsP10.v
theories/Proofs/ArcsP11.v
theories/Proofs/ArcsP12.v
theories/Proofs/ArcsP2.v
theories/Proofs/ArcsP3.v
theories/Proofs/ArcsP4.v
theories/Proofs/ArcsP5.v
theories/Proofs/ArcsP6.v
theories/Proofs/ArcsP7.v
theories/Proofs/ArcsP8.v
theories/Proofs/ArcsP9.v
theories/Props/P_Arcs.v
theories/Model/Grid.v
theories/Model/Stl.v
theories/Spec/GridSpec2.v
theories/Spec/StlSpec.v
theories/Proofs/GridP2.v
theories/Proofs/StlP.v
theories/Proofs/StlP2.v
theories/Props/P_Grid.v
theories/Props/P_Stl.v
theories/Model/Rounded.v
theories/Spec/RoundedSpec.v
theories/Proofs/RoundedP.v
theories/Proofs/RoundedP10.v
theories/Proofs/RoundedP11.v
theories/Proofs/RoundedP12.v
theories/Proofs/RoundedP13.v
theories/Proofs/RoundedP14.v
theories/Proofs/RoundedP15.v
theories/Proofs/RoundedP2.v
theories/Proofs/RoundedP3.v
theories/Proofs/RoundedP4.v
theories/Proofs/RoundedP5.v
theories/Proofs/RoundedP6.v
theories/Proofs/RoundedP7.v
theories/Proofs/RoundedP8.v
theories/Proofs/RoundedP9.v
theories/Props/P_Rounded.v
theories/Model/Geometry3.v
theories/Proofs/GeometryP2.v
theories/Proofs/VecP3.v
theories/Proofs/ArcsP13.v
theories/Proofs/CurvesP10.v
theories/Proofs/EdgesP13.v
theories/Proofs/GridP3.v
theories/Model/Wires.v
theories/Spec/WiresSpec.v
theories/Proofs/WiresP.v
theories/Proofs/WiresP2.v
theories/Proofs/WiresP3.v
theories/Proofs/WiresP4.v
theories/Proofs/WiresP5.v
theories/Proofs/WiresP6.v
theories/Proofs/WiresP7.v
theories/Proofs/WiresP8.v
theories/Proofs/WiresP9.v
theories/Props/P_Wires.v
theories/Model/FeMesh.v
theories/Spec/FeMeshSpec.v
theories/Proofs/FeMeshP.v
theories/Proofs/FeMeshP2.v
theories/Proofs/FeMeshP3.v
theories/Proofs/FeMeshP4.v
theories/Props/P_FeMesh.v
theories/Proofs/StlP3.v
theories/Model/Triangle3.v
theories/Spec/TriangleSpec.v
theories/Proofs/TriangleP.v
theories/Proofs/TriangleP2.v
theories/Proofs/TriangleP3.v
theories/Proofs/TriangleP4.v
theories/Proofs/TriangleP5.v
theories/Props/P_Triangle.v
theories/Model/Shells.v
theories/Model/Solid.v
theories/Spec/ShellsSpec.v
theories/Spec/SolidSpec.v
theories/Proofs/ShellsP.v
theories/Proofs/ShellsP2.v
theories/Proofs/ShellsP3.v
theories/Proofs/ShellsP4.v
theories/Proofs/SolidP.v
theories/Props/P_Shells.v
theories/Model/StepLex.v
theories/Model/StepRead.v
theories/Spec/StepLexSpec.v
theories/Spec/StepReadSpec.v
theories/Proofs/StepLexP.v
theories/Proofs/StepLexP2.v
theories/Proofs/StepLexP3.v
theories/Proofs/StepLexP4.v
theories/Proofs/StepReadP.v
theories/Props/P_StepLex.v
theories/Props/P_StepRead.v
theories/Model/FaceGrid.v
theories/Spec/FaceGridSpec.v
theories/Proofs/FaceGridP.v
theories/Props/P_FaceGrid.v
theories/Model/PolyTurn.v
theories/Spec/PolyTurnSpec.v
theories/Proofs/PolyTurnP.v
theories/Proofs/PolyTurnP2.v
theories/Proofs/PolyTurnP3.v
theories/Proofs/PolyTurnP4.v
theories/Props/P_PolyTurn.v
theories/Model/Periodic.v
theories/Spec/PeriodicSpec.v
theories/Proofs/PeriodicP.v
theories/Proofs/PeriodicP2.v
theories/Proofs/PeriodicP3.v
theories/Props/P_Periodic.v
theories/Model/Hull.v
theories/Spec/HullSpec.v
theories/Proofs/HullP.v
theories/Proofs/HullP2.v
theories/Proofs/HullP3.v
theories/Props/P_Hull.v
theories/Model/Ellipse.v
theories/Spec/EllipseSpec.v
theories/Spec/EllipseSpec2.v
theories/Spec/FaceGridSpec2.v
theories/Proofs/EllipseP.v
theories/Proofs/EllipseP2.v
theories/Proofs/EllipseP3.v
theories/Proofs/EllipseP4.v
theories/Proofs/EllipseP5.v
theories/Proofs/EllipseP6.v
theories/Proofs/EllipseP7.v
theories/Proofs/FaceGridP2.v
theories/Proofs/PolyTurnP5.v
theories/Props/P_Ellipse.v
theories/Model/Conic3.v
theories/Spec/Conic3Spec.v
theories/Proofs/Conic3P.v
theories/Proofs/Conic3P10.v
theories/Proofs/Conic3P2.v
theories/Proofs/Conic3P3.v
theories/Proofs/Conic3P4.v
theories/Proofs/Conic3P5.v
theories/Proofs/Conic3P6.v
theories/Proofs/Conic3P7.v
theories/Proofs/Conic3P8.v
theories/Proofs/Conic3P9.v
theories/Props/P_Conic3.v
theories/Model/Prims.v
theories/Spec/PrimsSpec.v
theories/Proofs/PrimsP.v
theories/Proofs/PrimsP2.v
theories/Proofs/PrimsP3.v
theories/Proofs/PrimsP4.v
theories/Proofs/PrimsP5.v
theories/Proofs/PrimsP6.v
theories/Proofs/PrimsP7.v
theories/Proofs/PrimsP8.v
theories/Proofs/PrimsP9.v
theories/Props/P_Prims.v
theories/Model/HypPara.v
theories/Spec/HypParaSpec.v
theories/Proofs/HypParaP.v
theories/Proofs/HypParaP2.v
theories/Proofs/HypParaP3.v
theories/Props/P_HypPara.v
theories/Model/Profiles.v
theories/Spec/ProfilesSpec.v
theories/Proofs/ProfilesP.v
theories/Props/P_Profiles.v
theories/Model/Containers.v
theories/Spec/ContainersSpec.v
theories/Proofs/ContainersP.v
theories/Props/P_Containers.v
theories/Model/Periodic2.v
theories/Spec/PeriodicSpec2.v
theories/Props/P_Periodic2.v
theories/Proofs/PeriodicP4.v
