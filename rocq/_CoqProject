-Q theories Verif

theories/Scalar.v
theories/Tables.v
theories/Api.v
theories/SpecApi.v
theories/ApiProofs.v
theories/ApiProofs2.v
theories/QInst.v
theories/Props_Api.v
theories/RInst.v
theories/CTaylor.v
theories/CtMem.v
theories/CtAlg.v
theories/CtConv.v
theories/CtMemR.v
theories/TMath.v
theories/Fps.v
theories/Props_Ct.v
theories/TFam.v
theories/TExp.v
theories/Props_TMath.v
theories/Ad.v
theories/Br.v
theories/Expr.v
theories/Functionals.v
theories/Densvars.v
theories/Eval.v
theories/Sem.v
theories/AdEval.v
theories/SpecEval.v
theories/Layout.v
theories/EvalSem.v
theories/EvalR.v
theories/EvalProps.v
theories/Taint.v
theories/EvalExt.v
theories/Props_Eval.v
theories/EvalReal.v
theories/EvalApi.v
theories/Props_Deriv.v
theories/RSem.v
theories/Itv.v
theories/Dom.v
theories/Phys.v
theories/EnergyR.v
theories/Safe.v
theories/Pw92.v
theories/Mk.v
theories/Value.v
theories/BrReal.v
theories/BrInv.v
theories/Published.v
theories/PubTac.v
theories/PubX.v
theories/PubC.v
theories/Oblig.v
theories/Safe2.v
theories/Vwn.v
theories/Safe3.v
theories/Scan2.v
theories/Safe4.v
theories/Jt.v
theories/Props_Dens.v
theories/Props_Dens2.v
theories/EvalRel.v
theories/VarsRel.v
theories/Props_Vars.v
theories/Props_Reg.v
theories/Props_Rot.v
theories/PotSlots.v
theories/EnergyLin.v
theories/Props_Lin.v
theories/Props_Perm.v
theories/Props_Vec.v
theories/Conc.v
theories/Props_Conc.v
theories/Dead.v
theories/Props_Pot.v
theories/Smooth.v
theories/Props_Smooth.v
theories/Sym.v
theories/Props_Spin.v
theories/Homog.v
theories/Sep.v
theories/Limit.v
theories/Props_Scale.v
theories/Props_Limit.v
theories/Props_Scale2.v
theories/PubM.v
theories/PubS.v
theories/PubS2.v
theories/PubL.v
theories/PolyB.v
theories/PubZ.v
theories/Props_Published.v
theories/Props_Published2.v
theories/Composition.v
theories/Props_Alias.v
theories/Props_Alias2.v
theories/Pade.v
theories/PubNear.v
theories/LrPart.v
theories/PubErf.v
theories/Props_Published3.v
theories/Bounds.v
theories/Props_Bounds.v
theories/PubR.v
theories/Props_Published4.v
theories/Props_Published5.v
theories/Props_Range.v
theories/Props_Bounds2.v
theories/PubBr.v
theories/Props_Br.v
theories/Props_Br2.v
theories/Py.v
theories/Props_Py.v
theories/F90.v
theories/Props_F90.v
theories/Selftest.v
theories/Props_Selftest.v
theories/Cont.v
theories/Props_Cont.v
theories/ContS.v
theories/Cont2.v
theories/Props_Cont2.v
theories/SmoothAway.v
theories/ContR.v
theories/ContR2.v
theories/Props_Smooth2.v
theories/Props_Smooth3.v
theories/Props_Smooth4.v
theories/Props_Cont3.v
theories/Props_Cont4.v
theories/Props_Cont5.v
theories/Props_Cont6.v
