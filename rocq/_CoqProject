-Q theories Verif
theories/Base.v
theories/TimeModel.v
theories/TimeRModel.v
theories/TimeSpec.v
theories/TimeProofs.v
theories/TimeQProofs.v
theories/TimeScaleProofs.v
theories/TimeLinkProofs.v
theories/TimeRProofs.v
theories/TimeMoreProofs.v
theories/TimeProps.v
theories/MpcModel.v
theories/MpcSpec.v
theories/MpcProofs.v
theories/MpcProps.v
theories/ListLemmas.v
theories/CacheModel.v
theories/CacheSpec.v
theories/CacheProofs.v
theories/CacheProps.v
theories/StrOrder.v
theories/SchedModel.v
theories/SchedSpec.v
theories/SchedProofs.v
theories/SchedProps.v
theories/PropModel.v
theories/PropSpec.v
theories/PropProofs.v
theories/PropProps.v
theories/TableModel.v
theories/TableSpec.v
theories/TableProofs.v
theories/TableProps.v
theories/TrajModel.v
theories/TrajSpec.v
theories/TrajProofs.v
theories/TrajProps.v
theories/FitModel.v
theories/FitRModel.v
theories/FitSpec.v
theories/FitProofs.v
theories/FitRProofs.v
theories/FitProps.v
theories/OdModel.v
theories/OdSpec.v
theories/OdProofs.v
theories/IodProofs.v
theories/SelProofs.v
theories/OdProps.v
theories/ResModel.v
theories/ResRModel.v
theories/ResSpec.v
theories/ResRSpec.v
theories/ResProofs.v
theories/ResRProofs.v
theories/ResProps.v
theories/CovModel.v
theories/SigmaModel.v
theories/CovSpec.v
theories/CovProofs.v
theories/CovProps.v
theories/ImpModel.v
theories/ImpSpec.v
theories/ImpProofs.v
theories/ImpProps.v
theories/OemModel.v
theories/OemSpec.v
theories/OemProofs.v
theories/SpkProofs.v
theories/OemProps.v
theories/ObsModel.v
theories/ObsSpec.v
theories/ObsProofs.v
theories/ObsProps.v
theories/AdesModel.v
theories/AdesSpec.v
theories/AdesProofs.v
theories/AdesRows.v
theories/AdesFile.v
theories/AdesCtx.v
theories/AdesProps.v
theories/SphModel.v
theories/SphSpec.v
theories/SphProofs.v
theories/SphRModel.v
theories/SphRProofs.v
theories/SphProps.v
theories/KepModel.v
theories/KepSpec.v
theories/KepProofs.v
theories/KepNewton.v
theories/KepHyp.v
theories/KepElem.v
theories/KepBack.v
theories/KepTrip.v
theories/KepProps.v
theories/UnivModel.v
theories/UnivSpec.v
theories/UnivFun.v
theories/UnivOrbit.v
theories/UnivTime.v
theories/UnivUnique.v
theories/UnivNewton.v
theories/UnivProofs.v
theories/UnivProps.v
theories/LightModel.v
theories/LightProofs.v
theories/LightProps.v
theories/FrameModel.v
theories/FrameSpec.v
theories/FrameProofs.v
theories/FrameProps.v
theories/BandModel.v
theories/BandSpec.v
theories/BandProofs.v
theories/BandProps.v
theories/PhotModel.v
theories/PhotSpec.v
theories/PhotState.v
theories/PhotGrey.v
theories/PhotPhase.v
theories/PhotH.v
theories/PhotToy.v
theories/PhotProps.v
theories/GaussModel.v
theories/GaussSpec.v
theories/GaussProofs.v
theories/GaussVel.v
theories/GaussToy.v
theories/GaussRun.v
theories/GaussProps.v
theories/LambertModel.v
theories/LambertPlane.v
theories/LambertGeom.v
theories/LambertOrbit.v
theories/LambertTime.v
theories/LambertSeries.v
theories/LambertDeriv.v
theories/LambertRun.v
theories/LambertEnd.v
theories/LambertProps.v
theories/MoidModel.v
theories/MoidSpec.v
theories/MoidProofs.v
theories/MoidProps.v
theories/RotModel.v
theories/RotScore.v
theories/RotFit.v
theories/RotClus.v
theories/RotDerive.v
theories/RotEst.v
theories/RotMain.v
theories/RotMore.v
theories/RotWrap.v
theories/RotToy.v
theories/RotSingle.v
theories/RotClip.v
theories/RotProps.v
theories/RotStage.v
theories/RotProps2.v
theories/PorkModel.v
theories/PorkSpec.v
theories/PorkProofs.v
theories/PorkMore.v
theories/PorkPlot.v
theories/PorkEnd.v
theories/PorkProps.v
theories/EphModel.v
theories/EphSpec.v
theories/EphProofs.v
theories/EphCov.v
theories/EphPhot.v
theories/EphProps.v
theories/EphProps2.v
theories/EphProps3.v
theories/DcModel.v
theories/DcSpec.v
theories/DcProofs.v
theories/DcProps.v
theories/NightModel.v
theories/NightProps.v
theories/TissModel.v
theories/TissProps.v
theories/CollModel.v
theories/CollSpec.v
theories/CollProofs.v
theories/CollStat.v
theories/CollBase.v
theories/CollProps.v
theories/CollProps2.v
theories/CollProps3.v
theories/CollProps4.v
theories/SbdbModel.v
theories/SbdbSpec.v
theories/SbdbProofs.v
theories/SbdbProps.v
theories/SbdbProps2.v
theories/ScoutModel.v
theories/ScoutSpec.v
theories/ScoutProofs.v
theories/ScoutProps.v
theories/HorModel.v
theories/HorSpec.v
theories/HorProofs.v
theories/HorProofs2.v
theories/HorProps.v
theories/CatModel.v
theories/CatSpec.v
theories/CatProofs.v
theories/CatProps.v
theories/NeoModel.v
theories/NeoSpec.v
theories/NeoProofs.v
theories/NeoProofs2.v
theories/NeoProps.v
theories/LuaModel.v
theories/LuaSpec.v
theories/LuaProofs.v
theories/LuaProofs2.v
theories/LuaProps.v
theories/JaxModel.v
theories/JaxSpec.v
theories/JaxLinear.v
theories/JaxLoop.v
theories/JaxBatch.v
theories/JaxRidge.v
theories/JaxCase.v
theories/JaxProps.v
theories/RotAuto.v
theories/RotAutoCase.v
theories/RotProps3.v
theories/ElemModel.v
theories/ElemSpec.v
theories/ElemProofs.v
theories/ElemProps.v
theories/VizModel.v
theories/VizSpec.v
theories/VizProofs.v
theories/VizProps.v
theories/VendModel.v
theories/VendSpec.v
theories/VendProofs.v
theories/VendProps.v
theories/LateModel.v
theories/LateSpec.v
theories/LateProps.v
theories/AttModel.v
theories/AttSpec.v
theories/AttProofs.v
theories/AttProps.v
theories/SpiModel.v
theories/SpiSpec.v
theories/SpiProofs.v
theories/SpiProps.v
theories/LsqModel.v
theories/LsqSpec.v
theories/LsqProofs.v
theories/LsqProps.v
theories/PsdModel.v
theories/PsdSpec.v
theories/PsdProofs.v
theories/PsdProps.v
theories/SrtModel.v
theories/SrtSpec.v
theories/SrtProofs.v
theories/SrtProps.v
theories/DcProps2.v
theories/LuaProps2.v
