-Q theories Verif
theories/Num.v
theories/Mat.v
theories/Utils.v
theories/SymmOp.v
theories/DataCore.v
theories/DataPG.v
theories/DataSG.v
theories/PointGroup.v
theories/SpaceGroup.v
theories/Structure.v
theories/Reduce.v
theories/Analyzer.v
theories/Lib.v
theories/RInst.v
theories/FInst.v
theories/Spec.v
theories/Spec2.v
theories/RFacts.v
theories/PUtils.v
theories/PFloat.v
theories/Prop1.v
theories/PSymmOp.v
theories/Prop2.v
theories/PPointGroup.v
theories/PPointGroup2.v
theories/Prop3.v
theories/PSpaceGroup.v
theories/PSpaceGroup2.v
theories/Prop4.v
theories/PCoset.v
theories/PSort.v
theories/PStructure.v
theories/PStructure2.v
theories/PStructure3.v
theories/PStructure4.v
theories/PFormula.v
theories/Prop5.v
theories/QInst.v
theories/PNiggli.v
theories/PNiggliQ.v
theories/PNiggliF.v
theories/Prop6.v
theories/PDelaunay.v
theories/PDelaunayQ.v
theories/PDelaunayF.v
theories/Prop7.v
theories/PPrim.v
theories/PLattice.v
theories/PPrim2.v
theories/PPrimF.v
theories/Prop8.v
theories/PAnalyzer.v
theories/PAnalyzer2.v
theories/PCode.v
theories/Prop9.v
theories/PTables.v
theories/PIdentify.v
theories/Prop10.v
theories/Spec3.v
theories/Spec4.v
theories/PSearch.v
theories/PSearch2.v
theories/PSearch3.v
theories/PSearch4.v
theories/Prop11.v
theories/PSearch5.v
theories/PSearch6.v
theories/PSearch7.v
theories/PEnd.v
theories/PEnd2.v
theories/PEnd3.v
theories/PEnd4.v
theories/Prop12.v
theories/PEnd5.v
theories/PEnd6.v
theories/Prop13.v
theories/PNiggli2.v
theories/PNiggli3.v
theories/Prop14.v
theories/PPrim3.v
theories/PPrim4.v
theories/Prop15.v
theories/PFrame.v
theories/Prop16.v
theories/PSGTrans.v
theories/Prop17.v
theories/PPrim5.v
theories/PNiggli4.v
theories/PEnd7.v
theories/PEnd8.v
theories/PEnd9.v
theories/Spec5.v
theories/PEnd10.v
theories/Prop18.v
theories/Spec6.v
theories/PEnd11.v
theories/PEnd12.v
theories/PEnd13.v
theories/PEnd14.v
theories/PEnd15.v
theories/PEnd16.v
theories/PEnd17.v
theories/PEnd18.v
theories/Prop19.v
theories/Prop20.v
theories/PEnd19.v
theories/PEnd20.v
theories/PEnd21.v
theories/Prop21.v
theories/Spec7.v
theories/PF64.v
theories/PF64b.v
theories/PF64c.v
theories/Prop22.v
theories/PRun.v
theories/PRun2.v
theories/PHex.v
theories/PHex2.v
theories/PHex3.v
theories/PHex4.v
theories/PHex5.v
theories/Spec8.v
theories/PHex6.v
theories/Prop23.v
theories/Spec9.v
theories/PChar.v
theories/PChar2.v
theories/Prop24.v
theories/PHex7.v
theories/Prop25.v
theories/Spec10.v
theories/PRed.v
theories/PRed2.v
theories/PRed3.v
theories/PRed4.v
theories/PRed5.v
theories/PRed6.v
theories/PRed7.v
theories/Prop26.v
theories/Spec11.v
theories/PAxes.v
theories/PCen.v
theories/PCen2.v
theories/PCen3.v
theories/PCen4.v
theories/Prop27.v
theories/PCen5.v
theories/Prop28.v
theories/Spec12.v
theories/PConv.v
theories/PConv2.v
theories/PConv3.v
theories/Prop29.v
theories/Validation.v
