-Q theories Verif
theories/Num.v
theories/Py.v
theories/M_Vector.v
theories/M_Path.v
theories/M_Surface.v
theories/M_Geometry.v
theories/NumR.v
theories/SpecR3.v
theories/L_Vector.v
theories/P_Vector.v
theories/SpecPath.v
theories/SpecPoly.v
theories/L_Line.v
theories/L_Polyline.v
theories/L_Spline.v
theories/L_Arc.v
theories/L_ArcLength.v
theories/P_Line.v
theories/P_Polyline.v
theories/L_Smooth.v
theories/P_Spline.v
theories/P_Arc.v
theories/P_Length.v
theories/SpecSurf.v
theories/L_Roberts.v
theories/L_Curves.v
theories/L_Coons.v
theories/L_Rigid.v
theories/P_Roberts.v
theories/P_Curves.v
theories/P_Coons.v
theories/P_Rigid.v
theories/L_Perimeter.v
theories/L_Cube.v
theories/L_Swept.v
theories/P_Swept.v
theories/M_Mesh.v
theories/SpecMesh.v
theories/L_Edges.v
theories/L_Mesh.v
theories/L_Volume.v
theories/M_Component.v
theories/SpecComp.v
theories/L_Component.v
theories/L_SweptComp.v
theories/L_CubeMesh.v
theories/L_RevolvedComp.v
theories/L_Reflect.v
theories/M_Stl.v
theories/SpecStl.v
theories/L_Stl.v
theories/L_Repair.v
theories/L_DictRes.v
theories/P_Mesh.v
theories/P_Component.v
theories/M_Vehicle.v
theories/L_Strings.v
theories/L_Composite.v
theories/L_Heap.v
theories/SpecVehicle.v
theories/L_Pipeline.v
theories/L_Generate.v
theories/L_Twice.v
theories/SpecAdd.v
theories/SpecOptions.v
theories/SpecHistory.v
theories/SpecFiles.v
theories/L_Adds.v
theories/L_Options.v
theories/L_Cache.v
theories/L_VehOps.v
theories/L_Files.v
theories/L_Merge.v
theories/L_Children.v
theories/L_Copies.v
theories/P_Vehicle.v
theories/M_Inertia.v
theories/SpecInertia.v
theories/L_Inertia.v
theories/P_Inertia.v
theories/M_Common.v
theories/M_Wing.v
theories/M_Fin.v
theories/SpecWing.v
theories/L_Ellipse.v
theories/L_Wing.v
theories/L_WingOk.v
theories/P_Wing.v
theories/SpecFin.v
theories/L_Fin.v
theories/L_FinSeams.v
theories/P_Fin.v
theories/M_VecHeap.v
theories/SpecAlias.v
theories/L_VecHeap.v
theories/P_VecHeap.v
theories/M_Sens.v
theories/SpecSens.v
theories/L_Sens.v
theories/P_Sens.v
theories/L_Study.v
theories/P_Study.v
theories/SpecAppend.v
theories/L_Append.v
theories/P_Append.v
theories/M_Gen.v
theories/P_Gen.v
theories/P_Ogive.v
theories/M_Grid.v
theories/P_Grid.v
theories/NumF.v
theories/L_Float.v
theories/SpecFloats.v
theories/L_FloatMesh.v
theories/P_Float.v
theories/L_FloatErr.v
theories/L_FloatGeom.v
theories/L_FloatSwept.v
theories/L_FloatComp.v
theories/P_FloatMesh.v
theories/SpecPrism.v
theories/SpecHangar.v
theories/M_Hangar.v
theories/L_Prism.v
theories/L_Hangar.v
theories/L_Block.v
theories/L_Wedge.v
theories/L_StudyOk.v
theories/SpecLathe.v
theories/L_Lathe.v
theories/L_Finner.v
theories/L_Drift.v
theories/P_Hangar.v
theories/P_Lathe.v
theories/P_Finner.v
theories/M_Transform.v
theories/P_Cart3D.v
theories/SpecProfile.v
theories/L_Profile.v
theories/P_Profile.v
theories/P_Cylinder.v
theories/M_Falcon.v
theories/L_Falcon.v
theories/P_Falcon.v
theories/SpecPair.v
theories/L_Pair.v
theories/P_Pair.v
theories/M_Output.v
theories/SpecOutput.v
theories/L_Output.v
theories/P_Output.v
theories/SpecHalf.v
theories/L_Half.v
theories/P_Half.v
theories/M_SensOut.v
theories/SpecSensOut.v
theories/L_SensOut.v
theories/P_SensOut.v
theories/P_SensFiles.v
theories/SpecHtv.v
theories/L_WingTotal.v
theories/L_WingLocal.v
theories/P_Planform.v
theories/M_Htv.v
theories/L_Htv.v
theories/P_Htv.v
theories/SpecLedger.v
theories/L_Kit.v
theories/P_Ledger.v
theories/L_FinTotal.v
theories/M_X43.v
theories/SpecX43.v
theories/L_Parts.v
theories/L_X43.v
theories/P_X43.v
theories/M_D21.v
theories/SpecD21.v
theories/L_Quad.v
theories/L_Parts2.v
theories/L_D21.v
theories/P_D21.v
theories/SpecClosed.v
theories/L_Closed.v
theories/P_Closed.v
theories/SpecCluster.v
theories/L_Cluster.v
theories/P_Cluster.v
theories/M_Hifire4.v
theories/SpecHifire4.v
theories/L_Parts3.v
theories/L_Hifire4.v
theories/P_Hifire4.v
theories/M_Waverider.v
theories/SpecWaverider.v
theories/L_Parts4.v
theories/L_Waverider.v
theories/P_Waverider.v
theories/P_Circle.v
theories/M_Hifire8.v
theories/SpecHifire8.v
theories/L_Hifire8.v
theories/L_Hifire8b.v
theories/L_Hifire8c.v
theories/P_Hifire8.v
theories/M_Refex.v
theories/SpecRefex.v
theories/L_Refex.v
theories/L_Refex2.v
theories/L_Refex3.v
theories/P_Refex.v
theories/SpecRows.v
theories/L_Refex4.v
theories/P_Refex2.v
theories/M_Copies.v
theories/L_Copies2.v
theories/P_Copies.v
