-Q theories Verif
theories/IdMapModel.v
theories/IdMapSpec.v
theories/IdMapProofs.v
theories/IdMapMore.v
theories/PropIdMap.v
theories/WalkerModel.v
theories/WalkerSpec.v
theories/WalkerProofs.v
theories/SortProofs.v
theories/MeshModel.v
theories/WalkerMore.v
theories/PropWalker.v
theories/MeshSpec.v
theories/MeshViews.v
theories/Surgery.v
theories/MeshLink.v
theories/MeshRun.v
theories/FlipBase.v
theories/FlipRun.v
theories/Flip14.v
theories/FlipSpec.v
theories/FlipCommon.v
theories/Flip14Ok.v
theories/Flip23.v
theories/Flip23Surg.v
theories/Flip23Ok.v
theories/Flip32.v
theories/Flip32Surg.v
theories/Flip32Ok.v
theories/MeshCheck.v
theories/Flip44Ok.v
theories/MeshOps.v
theories/MeshOpsOk.v
theories/Integrity.v
theories/GeoModel.v
theories/HistSpec.v
theories/History.v
theories/HistCheck.v
theories/FlipMore.v
theories/NewMesh.v
theories/Reach.v
theories/GeoSpec.v
theories/GeoProofs.v
theories/GeoMesh.v
theories/Volume.v
theories/PropMesh.v
theories/PropGeo.v
theories/UtilModel.v
theories/UtilSpec.v
theories/UtilProofs.v
theories/IterModel.v
theories/IterDfs.v
theories/IterProofs.v
theories/IterOpt.v
theories/IterLookup.v
theories/Marks.v
theories/PropIter.v
theories/QualModel.v
theories/QualSpec.v
theories/QualProofs.v
theories/QualTerm.v
theories/QualHull.v
theories/QualCheck.v
theories/PropQual.v
theories/PlcModel.v
theories/PlcSpec.v
theories/PlcList.v
theories/PlcNet.v
theories/PlcFace.v
theories/PlcAdd.v
theories/PlcIter.v
theories/PlcProofs.v
theories/PlcHist.v
theories/PropPlc.v
theories/PlcValModel.v
theories/PlcValSpec.v
theories/PlcVal.v
theories/PropPlcVal.v
theories/CavModel.v
theories/CavSpec.v
theories/CavPaint.v
theories/CavBase.v
theories/CavExpand.v
theories/CavLoop.v
theories/CavRetract.v
theories/CavOk.v
theories/CavClean.v
theories/PropCav.v
theories/InsModel.v
theories/InsTopo.v
theories/InsStep.v
theories/InsOwn.v
theories/InsCone.v
theories/InsSpokes.v
theories/InsCross.v
theories/InsRun.v
theories/InsSpec.v
theories/InsOk.v
theories/InsRest.v
theories/InsCheck.v
theories/PropIns.v
theories/ProgModel.v
theories/ProgSpec.v
theories/ProgBase.v
theories/ProgFlip.v
theories/ProgStep.v
theories/ProgRing.v
theories/ProgOk.v
theories/ProgEdge.v
theories/ProgHist.v
theories/PropProg.v
theories/RecModel.v
theories/RecSpec.v
theories/RecBase.v
theories/RecLoop.v
theories/RecOk.v
theories/PropRec.v
theories/DelModel.v
theories/DelSpec.v
theories/DelOk.v
theories/DelFind.v
theories/PropDel.v
theories/IntSpec.v
theories/IntOk.v
theories/PropInt.v
theories/FromModel.v
theories/FromSpec.v
theories/FromKept.v
theories/FromOk.v
theories/Rename.v
theories/FromReady.v
theories/PropFrom.v
theories/CrossModel.v
theories/CrossSpec.v
theories/CrossOk.v
theories/PropCross.v
theories/WayModel.v
theories/WaySpec.v
theories/WayOk.v
theories/WayGeo.v
theories/WayOrder.v
theories/PropWay.v
theories/MidModel.v
theories/MidSpec.v
theories/MidGeo.v
theories/PropMid.v
theories/PropTime.v
theories/SteinModel.v
theories/SteinStart.v
theories/SteinSpec.v
theories/SteinOk.v
theories/SteinStep.v
theories/PropStein.v
theories/TSteinModel.v
theories/TSteinSpec.v
theories/TSteinOk.v
theories/TSteinLoop.v
theories/PropTStein.v
theories/TolModel.v
theories/TolSpec.v
theories/TolOk.v
theories/PropTol.v
theories/ObjModel.v
theories/PropObj.v
theories/StartModel.v
theories/PropStart.v
theories/TransModel.v
theories/TransOk.v
theories/TransSpec.v
theories/TakeOk.v
theories/PutOk.v
theories/ReplOk.v
theories/ReplFin.v
theories/ReplRun.v
theories/TransCheck.v
theories/PropTrans.v
theories/MoveModel.v
theories/MoveOk.v
theories/PropMove.v
