-Q theories Verif
theories/Num.v
theories/NumP.v
theories/Py.v
theories/XLibm.v
theories/Validate.v
theories/SpecNum.v
theories/ValidateP.v
theories/PropsValidate.v
theories/Ring.v
theories/RingSystem.v
theories/SpecRing.v
theories/RingP.v
theories/RingSystemP.v
theories/RingOrderP.v
theories/RingMergeP.v
theories/RingSplitP.v
theories/RingPatchP.v
theories/RingShareP.v
theories/RingMoreP.v
theories/PropsRing.v
theories/PropsRingSystem.v
theories/FS.v
theories/GridParams.v
theories/GridDiag.v
theories/SpecGrid.v
theories/FSP.v
theories/GridParamsP.v
theories/GridParamsXP.v
theories/GridDiagP.v
theories/GridCrashP.v
theories/PropsGrid.v
theories/Names.v
theories/GridProp.v
theories/SpecProp.v
theories/GridPropP.v
theories/GridGradP.v
theories/GridPropFSP.v
theories/GridPropExP.v
theories/PropsGridProp.v
theories/Viewer.v
theories/SpecViewer.v
theories/ViewerP.v
theories/PropsViewer.v
theories/ViewerDraw.v
theories/ViewerDrawP.v
theories/PropsDraw.v
theories/TestsP.v
theories/Geometry.v
theories/SpecGeom.v
theories/GeomP.v
theories/GeomMoreP.v
theories/EdgeP.v
theories/PropsGeom.v
theories/Build.v
theories/Shallot.v
theories/SpecBuild.v
theories/BuildP.v
theories/BuildQP.v
theories/StretchP.v
theories/BuildXP.v
theories/InterpP.v
theories/BuildGP.v
theories/BuildGridP.v
theories/LookP.v
theories/BuildCP.v
theories/BuildDP.v
theories/BuildEP.v
theories/BuildFP.v
theories/ColumnP.v
theories/SampleP.v
theories/OriginP.v
theories/SpecError.v
theories/LipP.v
theories/FamilyP.v
theories/ErrorP.v
theories/BuildExP.v
theories/BuildHP.v
theories/WholeP.v
theories/WholeOP.v
theories/WholeEP.v
theories/PropsWhole.v
theories/PropsBuild.v
theories/AddLaws.v
theories/ShallotOps.v
theories/SpecOps.v
theories/OpsP.v
theories/OpsReadP.v
theories/OpsEditP.v
theories/OpsGradP.v
theories/OpsFitP.v
theories/OpsPointP.v
theories/OpsExtractP.v
theories/OpsWrapP.v
theories/OpsListP.v
theories/OpsExP.v
theories/PropsOps.v
theories/SpecSave.v
theories/SaveFsP.v
theories/SaveP.v
theories/SaveLoadP.v
theories/SpecResume.v
theories/ResumeP.v
theories/ResumeCP.v
theories/SaveExP.v
theories/WholeExP.v
theories/ResumeExP.v
theories/SpecSearch.v
theories/TangentP.v
theories/SearchP.v
theories/SearchGP.v
theories/PropsSearch.v
theories/DiagBuildP.v
theories/DiagSameP.v
theories/DiagExP.v
theories/PropsDiag.v
theories/PropsSave.v
theories/PropsResume.v
theories/Fmt.v
theories/SpecFmt.v
theories/FmtP.v
theories/Text.v
theories/SpecText.v
theories/TextP.v
theories/TextGridP.v
theories/TextRingP.v
theories/GradDirP.v
theories/TextExP.v
theories/PropsText.v
theories/Message.v
theories/MessageP.v
theories/SpecMsg.v
theories/MessageSpecP.v
theories/MessageRingP.v
theories/SpecMsgGrid.v
theories/MessageGridP.v
theories/MessageExP.v
theories/MessageRefP.v
theories/MessageOps.v
theories/SpecMsgOps.v
theories/MessageOpsP.v
theories/MessageTellP.v
theories/MessageTell2P.v
theories/MessageBuildP.v
theories/MessageOpsExP.v
theories/PropsMsgOps.v
theories/MessageMergeP.v
theories/PropsMsg.v
theories/TestsMsgP.v
theories/Round64P.v
theories/SpecF64.v
theories/GeomF64P.v
theories/GeomF64MoreP.v
theories/DiskErrP.v
theories/DiskF64P.v
theories/LibmF64P.v
theories/DiskF64ExP.v
theories/PropsF64.v
theories/SpecShow.v
theories/TextShowP.v
theories/TextShowMoreP.v
theories/TextShowExP.v
theories/PropsShow.v
theories/LinspaceF64P.v
theories/SpecAxis.v
theories/AxisF64P.v
theories/PropsAxis.v
theories/SpecGrad.v
theories/GradF64P.v
theories/GradF64ExP.v
theories/PropsGrad.v
theories/SpecEdge.v
theories/EdgeErrP.v
theories/SpecTilt.v
theories/EdgeF64P.v
theories/TiltF64P.v
theories/EdgeContactP.v
theories/EdgeGridP.v
theories/EdgeThinP.v
theories/EdgeExP.v
theories/PropsEdge.v
theories/InclF64P.v
theories/InclExP.v
theories/InclGridP.v
theories/InclGridExP.v
theories/PropsIncl.v
theories/HillF64P.v
theories/TiltGridP.v
theories/HillExP.v
theories/PropsHill.v
theories/TiltExP.v
theories/PropsTilt.v
theories/SpecFit.v
theories/FitF64P.v
theories/FitGridP.v
theories/FitExP.v
theories/PropsFit.v
theories/SpecClosest.v
theories/ClosestF64P.v
theories/ClosestExP.v
theories/PropsClosest.v
theories/SpecAssign.v
theories/AssignP.v
theories/PropsAssign.v
theories/RingDraw.v
theories/SpecDraw.v
theories/RingDrawP.v
theories/PropsRingDraw.v
theories/Log.v
theories/SpecLog.v
theories/LogP.v
theories/LogExP.v
theories/PropsLog.v
theories/LogOps.v
theories/SpecLogOps.v
theories/LogOpsP.v
theories/LogOpsSP.v
theories/LogOpsExP.v
theories/PropsLogOps.v
theories/SpecPatch.v
theories/PatchF64P.v
theories/PatchExP.v
theories/PropsPatch.v
theories/SpecSplit.v
theories/SplitF64P.v
theories/SplitSysP.v
theories/SplitGapP.v
theories/SplitExP.v
theories/PropsSplit.v
theories/MergeStepP.v
theories/MergeStepExP.v
theories/SpecMerge.v
theories/MergeGapP.v
theories/PropsMerge.v
theories/SplitStepP.v
theories/PropsSplitStep.v
