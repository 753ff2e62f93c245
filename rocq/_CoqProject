-Q theories Verif
theories/Num.v
theories/Util.v
theories/SlipGeom.v
theories/Eos.v
theories/Hard.v
theories/KinVoce.v
theories/KinKMBalD.v
theories/Elast.v
theories/Evptn.v
theories/MatModel.v
theories/Cases.v
theories/Arr.v
theories/NumR.v
theories/SpecTensor.v
theories/P_Tensor.v
theories/Prop_Tensor.v
theories/P_Eos.v
theories/P_Sngl.v
theories/P_Sngl2.v
theories/P_Batch.v
theories/P_Batch2.v
theories/P_Batch3.v
theories/P_Api.v
theories/P_Builtin.v
theories/P_Sngl3.v
theories/SpecApi.v
theories/P_Hist.v
theories/SpecSlip.v
theories/P_Slip.v
theories/P_SlipH.v
theories/Prop_Slip.v
theories/P_Demo.v
theories/SpecBatch.v
theories/P_Batch4.v
theories/SpecElast.v
theories/P_Elast.v
theories/SpecStress.v
theories/P_Stress.v
theories/SpecObj.v
theories/P_Api2.v
theories/Prop_Hist.v
theories/Prop_Elast.v
theories/P_Batch5.v
theories/Prop_Batch.v
theories/Prop_Eos.v
theories/Prop_Api.v
theories/SpecKin.v
theories/P_KinV.v
theories/P_Hard.v
theories/P_KinKM.v
theories/P_Kin2.v
theories/P_Call.v
theories/SpecKinApi.v
theories/P_Kin3.v
theories/P_Demo2.v
theories/P_Demo3.v
theories/P_Kin4.v
theories/Prop_Kin.v
theories/SpecStep.v
theories/P_Step.v
theories/P_Step2.v
theories/P_Step3.v
theories/SpecEnergy.v
theories/P_Energy.v
theories/P_Rest.v
theories/P_Rigid.v
theories/P_Rigid2.v
theories/P_Rigid3.v
theories/P_Rigid4.v
theories/P_Demo4.v
theories/Prop_Step.v
theories/Const.v
theories/SpecConst.v
theories/P_Const.v
theories/Prop_Const.v
theories/P_Deriv.v
theories/P_Jac.v
theories/P_Latop.v
theories/P_Jac2.v
theories/SpecJac.v
theories/P_Jac3.v
theories/P_Demo5.v
theories/Prop_Jac.v
theories/SpecTan.v
theories/P_Tan.v
theories/P_Tan2.v
theories/P_Tan3.v
theories/P_Lu.v
theories/P_Demo6.v
theories/Prop_Tan.v
theories/SpecFrame.v
theories/P_Frame.v
theories/P_Frame2.v
theories/P_Frame3.v
theories/P_Frame4.v
theories/P_Frame5.v
theories/P_Demo22.v
theories/P_Demo7.v
theories/Prop_Frame.v
theories/Miniapp.v
theories/SpecMini.v
theories/P_Mini.v
theories/P_Mini2.v
theories/P_Mini3.v
theories/P_Demo8.v
theories/Prop_Mini.v
theories/Py.v
theories/SpecPy.v
theories/P_Py.v
theories/P_Py2.v
theories/P_Py3.v
theories/P_Py4.v
theories/P_Demo9.v
theories/Prop_Py.v
theories/PyBind.v
theories/P_PyBind.v
theories/Prop_Py2.v
theories/SpecSlow.v
theories/P_Slow.v
theories/P_Demo10.v
theories/Prop_Slow.v
theories/NumO.v
theories/SpecDef.v
theories/P_Def.v
theories/P_Def2.v
theories/P_Def3.v
theories/P_Def4.v
theories/SpecDefApi.v
theories/P_Def5.v
theories/P_Def6.v
theories/Prop_Def.v
theories/SpecSym.v
theories/P_Sym.v
theories/P_Sym1.v
theories/P_Sym2.v
theories/P_Sym3.v
theories/P_Sym4.v
theories/P_SymH.v
theories/P_Sym5.v
theories/P_Sym6.v
theories/P_Sym7.v
theories/P_Sym8.v
theories/P_Sym9.v
theories/P_Sym10.v
theories/P_Sym11.v
theories/P_Sym12.v
theories/SpecSym2.v
theories/P_Sym13.v
theories/P_Demo23.v
theories/P_Demo11.v
theories/P_Demo16.v
theories/SpecTrust.v
theories/P_Trust.v
theories/P_Trust2.v
theories/P_Tiny.v
theories/Prop_Sym.v
theories/SpecAniso.v
theories/KinAniso.v
theories/P_Aniso.v
theories/P_Demo17.v
theories/Prop_Aniso.v
theories/NumF.v
theories/Validate.v
theories/Validate2.v
theories/Validate3.v
theories/NumD.v
theories/P_Gen.v
theories/P_Dbl.v
theories/P_Dbl2.v
theories/SpecDbl.v
theories/P_Dbl3.v
theories/P_Dbl4.v
theories/P_Dbl5.v
theories/P_Dbl6.v
theories/P_Dbl7.v
theories/P_Dbl8.v
theories/SpecDblGeom.v
theories/P_Dbl9.v
theories/P_Dbl10.v
theories/P_Dbl11.v
theories/P_Dbl12.v
theories/P_Demo12.v
theories/Prop_Dbl.v
theories/SpecDblFin.v
theories/P_Dbl13.v
theories/P_Dbl14.v
theories/P_Dbl15.v
theories/P_Dbl16.v
theories/P_Dbl17.v
theories/P_Dbl18.v
theories/P_Demo14.v
theories/P_Demo15.v
theories/Prop_Dbl2.v
theories/SpecDblAcc.v
theories/P_Dbl19.v
theories/P_Dbl20.v
theories/P_Dbl21.v
theories/P_Demo18.v
theories/Prop_Dbl3.v
theories/MiniFiles.v
theories/SpecFiles.v
theories/P_Files.v
theories/P_Files2.v
theories/P_Demo13.v
theories/Prop_Files.v
theories/EvptnDp.v
theories/P_Dp.v
theories/P_Dp2.v
theories/P_Dp3.v
theories/P_Dp4.v
theories/SpecDp.v
theories/P_Dp5.v
theories/P_Demo19.v
theories/Prop_Dp.v
theories/SpecQuiet.v
theories/P_Quiet.v
theories/Prop_Quiet.v
theories/SpecDblStress.v
theories/P_Dbl22.v
theories/P_Dbl23.v
theories/P_Demo20.v
theories/Prop_Dbl4.v
theories/SpecUnits.v
theories/P_Units.v
theories/P_Units2.v
theories/P_Units3.v
theories/P_Units4.v
theories/P_Units6.v
theories/P_Units5.v
theories/P_Units7.v
theories/P_Demo21.v
theories/Prop_Units.v
theories/P_State.v
theories/SpecState.v
theories/P_State2.v
theories/P_State3.v
theories/P_Demo24.v
theories/P_Demo27.v
theories/Prop_State.v
theories/P_Fail.v
theories/P_Demo25.v
theories/P_Demo26.v
theories/Prop_Fail.v
theories/SpecRed.v
theories/P_Red.v
theories/P_Demo28.v
theories/Prop_Red.v
theories/SpecMini2.v
theories/P_Mini4.v
theories/P_Mini5.v
theories/P_Demo29.v
theories/Prop_Mini2.v
theories/MiniPrint.v
theories/SpecPrint.v
theories/P_Print.v
theories/P_Print2.v
theories/P_Demo30.v
theories/P_Demo31.v
theories/Prop_Print.v
theories/P_Mini6.v
theories/P_Demo32.v
theories/Prop_Mini3.v
theories/PyExample.v
theories/SpecPyEx.v
theories/P_PyEx.v
theories/P_Demo33.v
theories/Prop_PyEx.v
theories/SpecElastic.v
theories/P_Elastic.v
theories/P_Load.v
theories/P_Demo34.v
theories/Prop_Elastic.v
theories/SpecReach.v
theories/P_Reach.v
theories/P_Reach2.v
theories/P_Demo35.v
theories/Prop_Reach.v
theories/PyExampleDev.v
theories/SpecDevEx.v
theories/P_DevEx.v
theories/P_DevEx2.v
theories/Prop_DevEx.v
theories/SpecThermo.v
theories/P_Thermo.v
theories/P_Thermo2.v
theories/P_Demo37.v
theories/Prop_Thermo.v
theories/SpecTemp.v
theories/P_Temp.v
theories/P_Demo38.v
theories/P_Demo39.v
theories/Prop_Temp.v
theories/SpecPress.v
theories/P_Press.v
theories/P_Demo40.v
theories/Prop_Press.v
theories/SpecDevIn.v
theories/SpecDevE.v
theories/P_DevIn.v
theories/P_DevE.v
theories/P_Demo41.v
theories/Prop_DevIn.v
theories/SpecRead.v
theories/P_Read.v
theories/P_Demo42.v
theories/Prop_Read.v
