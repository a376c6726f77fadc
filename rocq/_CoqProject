-Q theories Verif
theories/Num.v
theories/CField.v
theories/MCommon.v
theories/MConsts.v
theories/MUtils.v
theories/MVacuum.v
theories/MThermal.v
theories/MThermalZM.v
theories/MThermalZP.v
theories/MPolar.v
theories/MDress.v
theories/MConc.v
theories/MQuark.v
theories/MTc.v
theories/MPhase.v
theories/MHtl.v
theories/MAsym.v
theories/MPoles.v
theories/MFloat.v
theories/MGrid.v
theories/MProg.v
theories/MFit.v
theories/MFermi.v
theories/MDistr64.v
theories/MTc64.v
theories/MFit64.v
theories/MRes64.v
theories/MSpectral64.v
theories/PAsym.v
theories/PBasel.v
theories/PBound.v
theories/PCfg.v
theories/PChem.v
theories/PChem2.v
theories/PChem3.v
theories/PCoh.v
theories/PCoh2.v
theories/PCold.v
theories/PCold2.v
theories/PColdDr.v
theories/PColdFin.v
theories/PColdG.v
theories/PColdI.v
theories/PColdLim.v
theories/PColdQ.v
theories/PCombo.v
theories/PComboR.v
theories/PCompact.v
theories/PConc.v
theories/PConsts.v
theories/PCplx.v
theories/PCrit64.v
theories/PDensity.v
theories/PDeriv.v
theories/PDeriv2.v
theories/PDeriv3.v
theories/PDistr.v
theories/PDistr2.v
theories/PDistr64.v
theories/PDistr64b.v
theories/PDistr64c.v
theories/PDress.v
theories/PDress2.v
theories/PErr.v
theories/PErr2.v
theories/PErr3.v
theories/PErr4.v
theories/PExChem.v
theories/PExCold.v
theories/PExConsts.v
theories/PExDistr64.v
theories/PExErr.v
theories/PExFermi.v
theories/PExFit.v
theories/PExHot.v
theories/PExInteg.v
theories/PExInteg2.v
theories/PExInteg3.v
theories/PExPhase.v
theories/PExPoles.v
theories/PExProg.v
theories/PExRes64.v
theories/PExRun.v
theories/PExTc.v
theories/PExTc64.v
theories/PExTherm.v
theories/PExVac.v
theories/PFerm64.v
theories/PFerm64b.v
theories/PFerm64c.v
theories/PFerm64d.v
theories/PFermi.v
theories/PFit.v
theories/PFit2.v
theories/PFit64.v
theories/PFit64b.v
theories/PForms.v
theories/PForms2.v
theories/PGrid.v
theories/PGrid2.v
theories/PGrid3.v
theories/PGrid4.v
theories/PHom.v
theories/PHom2.v
theories/PHot.v
theories/PHot2.v
theories/PHot3.v
theories/PHotB.v
theories/PHotB2.v
theories/PHotB3.v
theories/PHotB4.v
theories/PHotB5.v
theories/PHotB6.v
theories/PHotB7.v
theories/PHotB8.v
theories/PHtl.v
theories/PHtl2.v
theories/PHtl3.v
theories/PHtl4.v
theories/PInt.v
theories/PJoint.v
theories/PJoint2.v
theories/PLim.v
theories/PLimC.v
theories/PLogs.v
theories/PMass.v
theories/PMass2.v
theories/PMassZ.v
theories/PNoInt.v
theories/PNumProps.v
theories/PNumVac.v
theories/PNumerics.v
theories/PPhase.v
theories/PPhase2.v
theories/PPhase3.v
theories/PPhase4.v
theories/PPoles.v
theories/PPoles2.v
theories/PProg.v
theories/PProg2.v
theories/PProg3.v
theories/PQuark.v
theories/PReal.v
theories/PReg.v
theories/PRegulator.v
theories/PRes64.v
theories/PRes64b.v
theories/PRes64c.v
theories/PRoot64.v
theories/PRun.v
theories/PRun2.v
theories/PRun3.v
theories/PScale.v
theories/PScale2.v
theories/PScale3.v
theories/PScale4.v
theories/PSmear.v
theories/PSmear2.v
theories/PSmear3.v
theories/PSmear4.v
theories/PSmear5.v
theories/PSpectral64.v
theories/PSpectral64b.v
theories/PSym.v
theories/PSymC.v
theories/PSymD.v
theories/PSymE.v
theories/PTc.v
theories/PTc2.v
theories/PTc64.v
theories/PTc64b.v
theories/PTc64c.v
theories/PTherm.v
theories/PUtils.v
theories/PVac.v
theories/PVac2.v
theories/PVac3.v
theories/PVac4.v
theories/PVacLim.v
theories/PWeights.v
theories/PWeights2.v
theories/PWrappers.v
theories/PZMom.v
theories/PZMom2.v
theories/PZMom3.v
theories/PZMom4.v
theories/PZero.v
theories/PZero2.v
theories/PZpForm.v
theories/PropertiesChem.v
theories/PropertiesCold.v
theories/PropertiesConsts.v
theories/PropertiesCrit64.v
theories/PropertiesDistr.v
theories/PropertiesDistr64.v
theories/PropertiesErr.v
theories/PropertiesFermi.v
theories/PropertiesFit.v
theories/PropertiesFit64.v
theories/PropertiesGrid.v
theories/PropertiesHot.v
theories/PropertiesHtl.v
theories/PropertiesInteg.v
theories/PropertiesInteg2.v
theories/PropertiesInteg3.v
theories/PropertiesInteg4.v
theories/PropertiesNumerics.v
theories/PropertiesPhase.v
theories/PropertiesPoles.v
theories/PropertiesProg.v
theories/PropertiesRes64.v
theories/PropertiesRoot64.v
theories/PropertiesRun.v
theories/PropertiesScale.v
theories/PropertiesSmear.v
theories/PropertiesSpectral64.v
theories/PropertiesTc.v
theories/PropertiesTc64.v
theories/PropertiesTherm.v
theories/PropertiesVac.v
theories/SpecCold.v
theories/SpecConc.v
theories/SpecConsts.v
theories/SpecCrit64.v
theories/SpecDeriv.v
theories/SpecDistr.v
theories/SpecDistr64.v
theories/SpecDress.v
theories/SpecErr.v
theories/SpecFermi.v
theories/SpecFit.v
theories/SpecFit64.v
theories/SpecGrid.v
theories/SpecHom.v
theories/SpecHot.v
theories/SpecHtl.v
theories/SpecInt.v
theories/SpecInteg.v
theories/SpecLim.v
theories/SpecNumerics.v
theories/SpecPhase.v
theories/SpecPoles.v
theories/SpecProg.v
theories/SpecReg.v
theories/SpecRes64.v
theories/SpecRoot64.v
theories/SpecRun.v
theories/SpecScale.v
theories/SpecSmear.v
theories/SpecSpectral64.v
theories/SpecTc.v
theories/SpecTc64.v
theories/SpecVac.v
theories/SpecWrappers.v
theories/SpecZMom.v
