-Q theories Verif
theories/Base.v
theories/Mesh.v
theories/Core.v
theories/Tools.v
theories/Float.v
theories/FloatLaws.v
theories/FloatOps.v
theories/MeshLemmas.v
theories/MeshSpec.v
theories/CheckProofs.v
theories/OpsProofs.v
theories/Samples.v
theories/P_Check.v
theories/P_Ops.v
theories/LimsProofs.v
theories/ElemProofs.v
theories/P_Elem.v
theories/GeoLaws.v
theories/BoxSpec.v
theories/BoxProofs.v
theories/Defaults.v
theories/P_Box.v
theories/ExtrudeSpec.v
theories/ExtrudeProofs.v
theories/ExtrudeReal.v
theories/P_Extrude.v
theories/P_ExtrudeReal.v
theories/KeepSpec.v
theories/KeepProofs.v
theories/P_Keep.v
theories/GibSpec.v
theories/GibProofs.v
theories/P_Gib.v
theories/Bytes.v
theories/BytesProofs.v
theories/Text.v
theories/TextProofs.v
theories/Decimal.v
theories/Field.v
theories/FieldSpec.v
theories/FieldProofs.v
theories/FieldSkipSpec.v
theories/FieldSkip.v
theories/P_Field.v
theories/Re2.v
theories/Re2Spec.v
theories/Re2Proofs.v
theories/P_Re2.v
theories/Rea.v
theories/ReaSpec.v
theories/ReaProofs.v
theories/P_Rea.v
theories/Map.v
theories/MapSpec.v
theories/MapProofs.v
theories/P_Map.v
theories/Simson.v
theories/SimsonSpec.v
theories/SimsonProofs.v
theories/P_Simson.v
theories/SimsonMore.v
theories/P_Dns.v
theories/Vtk.v
theories/VtkSpec.v
theories/VtkProofs.v
theories/P_Vtk.v
theories/Dataset.v
theories/DatasetSpec.v
theories/DatasetProofs.v
theories/P_Dataset.v
theories/MergeSpec.v
theories/MergeProofs.v
theories/MergeTotal.v
theories/MergeTypes.v
theories/P_Merge.v
theories/Curve.v
theories/CurveSpec.v
theories/CurveProofs.v
theories/P_Curve.v
theories/Refine.v
theories/RefineSpec.v
theories/P_Refine.v
theories/Disc.v
theories/DiscDefaults.v
theories/DiscSpec.v
theories/DiscProofs.v
theories/P_Disc.v
theories/Mid.v
theories/MidSpec.v
theories/MidProofs.v
theories/MidBlock.v
theories/MidMesh.v
theories/MidResult.v
theories/MidGeo.v
theories/MidFaces.v
theories/MidEntry.v
theories/MidConform.v
theories/MidFinal.v
theories/Split.v
theories/SplitSpec.v
theories/SplitProofs.v
theories/SplitFlat.v
theories/SplitResult.v
theories/SplitQuiet.v
theories/SplitFinal.v
theories/P_Split.v
theories/P_Quiet.v
theories/P_Mid.v
theories/Restore.v
theories/RestoreBox.v
theories/P_Restore.v
theories/DnsGrid.v
theories/P_DnsGrid.v
theories/Reload.v
theories/ReloadSample.v
theories/P_Reload.v
theories/DiscBlock.v
theories/DiscPlaces.v
theories/DiscJoin.v
theories/DiscParts.v
theories/DiscWhole.v
theories/P_DiscJoin.v
theories/P_Pipe.v
theories/Repr.v
theories/P_Repr.v
theories/Rigid.v
theories/P_Rigid.v
theories/MidEdgeSpec.v
theories/MidEdge.v
theories/MidEdgeMesh.v
theories/MidEdgeFit.v
theories/P_MidEdge.v
theories/DatasetFileSpec.v
theories/DatasetFile.v
theories/P_DatasetFile.v
theories/HistorySpec.v
theories/History.v
theories/P_History.v
theories/TwoBoxSpec.v
theories/TwoBox.v
theories/P_TwoBox.v
theories/OrderSpec.v
theories/MergeOrder.v
theories/P_MergeOrder.v
theories/KeepTwiceSpec.v
theories/KeepTwice.v
theories/P_KeepTwice.v
theories/BricksSpec.v
theories/Bricks.v
theories/P_Bricks.v
theories/ExtrudeSound.v
theories/RotateSound.v
theories/MadeSpec.v
theories/P_Made.v
theories/ThreeSpec.v
theories/ThreeMerge.v
theories/P_Three.v
theories/WarpSpec.v
theories/WarpJoin.v
theories/WarpBox.v
theories/P_Warp.v
theories/WarpTwice.v
theories/P_WarpTwice.v
theories/RotateTwice.v
theories/P_RotateTwice.v
theories/RigidExtrude.v
theories/P_RigidExtrude.v
