-Q theories Verif
theories/BetterSpec.v
theories/CalculatorSpec.v
theories/ConicalSpec.v
theories/CycleSpec.v
theories/DiagramSpec.v
theories/DicoVarSpec.v
theories/DocSpec.v
theories/DuctSpec.v
theories/EigenSpec.v
theories/EngineSpec.v
theories/EulerSpec.v
theories/FanSpec.v
theories/FloatSpec.v
theories/IdealSpec.v
theories/InflowNBSpec.v
theories/L_Article.v
theories/L_Better.v
theories/L_Coflow.v
theories/L_Conical.v
theories/L_ConicalEx.v
theories/L_Cycle.v
theories/L_Cycle2.v
theories/L_Cycle3.v
theories/L_Cycle4.v
theories/L_Cycle5.v
theories/L_Cycle6.v
theories/L_CycleNB.v
theories/L_DefaultGas.v
theories/L_Degree.v
theories/L_DevMax.v
theories/L_Diagrams.v
theories/L_Diagrams2.v
theories/L_DicoVar.v
theories/L_DocExamples.v
theories/L_DocShock.v
theories/L_Eigen.v
theories/L_Eigen2.v
theories/L_Engine.v
theories/L_Engine2.v
theories/L_Euler1.v
theories/L_Euler2.v
theories/L_Euler3.v
theories/L_Euler4.v
theories/L_Euler5.v
theories/L_ExtendVar.v
theories/L_Fan.v
theories/L_Fan2.v
theories/L_Fan3.v
theories/L_Fan4.v
theories/L_Fan5.v
theories/L_Fanno.v
theories/L_Float.v
theories/L_Float10.v
theories/L_Float11.v
theories/L_Float12.v
theories/L_Float2.v
theories/L_Float3.v
theories/L_Float4.v
theories/L_Float5.v
theories/L_Float6.v
theories/L_Float7.v
theories/L_Float8.v
theories/L_Float9.v
theories/L_Florian.v
theories/L_GuideVane.v
theories/L_Ideal.v
theories/L_Import.v
theories/L_Inflow.v
theories/L_InflowNB.v
theories/L_Isentropic.v
theories/L_Isentropic2.v
theories/L_Lazy.v
theories/L_Legacy.v
theories/L_Lines.v
theories/L_MassFlow.v
theories/L_MinNozzle.v
theories/L_MinNozzle2.v
theories/L_MinNozzle3.v
theories/L_Model1D.v
theories/L_Nozzle1.v
theories/L_Nozzle2.v
theories/L_NozzleNB.v
theories/L_Num.v
theories/L_Obj.v
theories/L_Oblique.v
theories/L_Oblique2.v
theories/L_Ode.v
theories/L_Ode2.v
theories/L_OrrSommerfeld.v
theories/L_Polar.v
theories/L_PolarNB.v
theories/L_Poly.v
theories/L_Propulsion.v
theories/L_Propulsion2.v
theories/L_Ramjet.v
theories/L_Rayleigh.v
theories/L_Riemann1.v
theories/L_Riemann2.v
theories/L_Riemann3.v
theories/L_Scale.v
theories/L_Scripts.v
theories/L_Secant.v
theories/L_Secant2.v
theories/L_Secant3.v
theories/L_SecondLaw.v
theories/L_Shock.v
theories/L_ShockExp.v
theories/L_ShockModel.v
theories/L_ShockModel2.v
theories/L_ShockPt.v
theories/L_ShockTube.v
theories/L_Sigma.v
theories/L_Sigma2.v
theories/L_Sigma3.v
theories/L_Sigma4.v
theories/L_SigmaApprox.v
theories/L_SmoothWall.v
theories/L_SmoothWall2.v
theories/L_SmoothWall3.v
theories/L_SmoothWall4.v
theories/L_SmoothWall5.v
theories/L_Sonic.v
theories/L_Spectral.v
theories/L_Spectral2.v
theories/L_Spectral3.v
theories/L_Spectral4.v
theories/L_SpectralErr.v
theories/L_SpectralGauss.v
theories/L_StateUnits.v
theories/L_Supersonic.v
theories/L_Supersonic2.v
theories/L_Thermo.v
theories/L_Tube.v
theories/L_TurbofanScript.v
theories/L_Units.v
theories/L_Unsteady.v
theories/L_WeakStrong.v
theories/L_Wedge.v
theories/L_Wedge2.v
theories/L_Wedge3.v
theories/LinalgSpec.v
theories/M_Article.v
theories/M_Coflow.v
theories/M_Conical.v
theories/M_Cycle.v
theories/M_CycleNB.v
theories/M_DefaultGas.v
theories/M_Degree.v
theories/M_Diagrams.v
theories/M_DicoVar.v
theories/M_DocExamples.v
theories/M_DocShock.v
theories/M_Eigen.v
theories/M_Engine.v
theories/M_Euler.v
theories/M_ExtendVar.v
theories/M_Fan.v
theories/M_Fanno.v
theories/M_Float.v
theories/M_FloatPow.v
theories/M_Florian.v
theories/M_GuideVane.v
theories/M_Import.v
theories/M_Inflow.v
theories/M_InflowNB.v
theories/M_Isentropic.v
theories/M_IterSolve.v
theories/M_Lazy.v
theories/M_Legacy.v
theories/M_MassFlow.v
theories/M_MinNozzle.v
theories/M_Model1D.v
theories/M_Nozzle.v
theories/M_NozzleNB.v
theories/M_Obj.v
theories/M_Ode.v
theories/M_OrrSommerfeld.v
theories/M_Polar.v
theories/M_PolarNB.v
theories/M_Propulsion.v
theories/M_Ramjet.v
theories/M_Rayleigh.v
theories/M_Riemann.v
theories/M_Scripts.v
theories/M_ShockModel.v
theories/M_ShockTube.v
theories/M_ShockWave.v
theories/M_SigmaApprox.v
theories/M_SmoothWall.v
theories/M_Spectral.v
theories/M_SpectralNB.v
theories/M_Supersonic.v
theories/M_Thermo.v
theories/M_Tube.v
theories/M_TurbofanScript.v
theories/M_Unsteady1D.v
theories/M_Wedge.v
theories/MocSpec.v
theories/NozzleNBSpec.v
theories/NozzleSpec.v
theories/Num.v
theories/NumSpec.v
theories/OdeSpec.v
theories/OrrSommerfeldSpec.v
theories/P_Article.v
theories/P_Better.v
theories/P_Coflow.v
theories/P_Conical.v
theories/P_ConicalEx.v
theories/P_Cycle.v
theories/P_Cycle2.v
theories/P_Cycle3.v
theories/P_Cycle4.v
theories/P_Cycle5.v
theories/P_Cycle6.v
theories/P_CycleNB.v
theories/P_DefaultGas.v
theories/P_Degree.v
theories/P_DevMax.v
theories/P_Diagrams.v
theories/P_Diagrams2.v
theories/P_DicoVar.v
theories/P_DocExamples.v
theories/P_DocShock.v
theories/P_Eigen.v
theories/P_Eigen2.v
theories/P_Engine.v
theories/P_Engine2.v
theories/P_Euler1.v
theories/P_Euler2.v
theories/P_Euler3.v
theories/P_Euler4.v
theories/P_Euler5.v
theories/P_ExtendVar.v
theories/P_Fan.v
theories/P_Fan2.v
theories/P_Fan3.v
theories/P_Fan4.v
theories/P_Fan5.v
theories/P_Fanno.v
theories/P_Float.v
theories/P_Float10.v
theories/P_Float11.v
theories/P_Float12.v
theories/P_Float2.v
theories/P_Float3.v
theories/P_Float4.v
theories/P_Float5.v
theories/P_Float7.v
theories/P_Float8.v
theories/P_Florian.v
theories/P_GuideVane.v
theories/P_Ideal.v
theories/P_Import.v
theories/P_Inflow.v
theories/P_InflowNB.v
theories/P_Isentropic2.v
theories/P_Lazy.v
theories/P_Legacy.v
theories/P_Lines.v
theories/P_MassFlow.v
theories/P_MinNozzle.v
theories/P_MinNozzle2.v
theories/P_MinNozzle3.v
theories/P_Model1D.v
theories/P_Nozzle1.v
theories/P_Nozzle2.v
theories/P_NozzleNB.v
theories/P_Oblique.v
theories/P_Oblique2.v
theories/P_Ode.v
theories/P_Ode2.v
theories/P_OrrSommerfeld.v
theories/P_Polar.v
theories/P_PolarNB.v
theories/P_Propulsion.v
theories/P_Propulsion2.v
theories/P_Ramjet.v
theories/P_Rayleigh.v
theories/P_Riemann1.v
theories/P_Riemann2.v
theories/P_Riemann3.v
theories/P_Scale.v
theories/P_Scripts.v
theories/P_Secant.v
theories/P_Secant2.v
theories/P_Secant3.v
theories/P_SecondLaw.v
theories/P_Shock.v
theories/P_ShockExp.v
theories/P_ShockModel.v
theories/P_ShockModel2.v
theories/P_ShockPt.v
theories/P_ShockTube.v
theories/P_Sigma.v
theories/P_Sigma2.v
theories/P_Sigma3.v
theories/P_Sigma4.v
theories/P_SigmaApprox.v
theories/P_SmoothWall.v
theories/P_SmoothWall2.v
theories/P_SmoothWall3.v
theories/P_SmoothWall4.v
theories/P_SmoothWall5.v
theories/P_Sonic.v
theories/P_Spectral.v
theories/P_Spectral3.v
theories/P_Spectral4.v
theories/P_SpectralErr.v
theories/P_SpectralGauss.v
theories/P_StateUnits.v
theories/P_Supersonic.v
theories/P_Supersonic2.v
theories/P_Thermo.v
theories/P_Tube.v
theories/P_TurbofanScript.v
theories/P_Units.v
theories/P_Unsteady.v
theories/P_WeakStrong.v
theories/P_Wedge.v
theories/P_Wedge2.v
theories/P_Wedge3.v
theories/PolarSpec.v
theories/PolySpec.v
theories/RamjetSpec.v
theories/ScaleSpec.v
theories/ShockDynSpec.v
theories/ShockTubeSpec.v
theories/SmoothSpec.v
theories/Spec.v
theories/StateUnitsSpec.v
theories/TubeSpec.v
theories/UnitsSpec.v
theories/WedgeSpec.v
