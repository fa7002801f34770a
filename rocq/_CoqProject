-Q theories Verif
theories/Num.v
theories/LinAlg.v
theories/GaussTab.v
theories/Gauss.v
theories/Fem.v
theories/Uel.v
theories/Assem.v
theories/Post.v
theories/Pre.v
theories/Bloch.v
theories/TextIO.v
theories/Main.v
theories/Tests.v
theories/Spec.v
theories/LinR.v
theories/Base.v
theories/SpecAssem.v
theories/AssemProofs.v
theories/AssemProofs2.v
theories/AssemProofs3.v
theories/ElemShape.v
theories/SpecModel.v
theories/ModelProofs.v
theories/ModelProofs2.v
theories/AssemProofs4.v
theories/SpecElem.v
theories/BarProofs.v
theories/ExModel.v
theories/PropAssem.v
theories/PropModel.v
theories/SpecShape.v
theories/ShapeProofs.v
theories/ElemCore.v
theories/Sampled.v
theories/Elem2.v
theories/MatProofs.v
theories/Elem2Props.v
theories/Elem2Mass.v
theories/Elem2Modes.v
theories/PropShape.v
theories/Elem3.v
theories/Elem3Props.v
theories/Areas.v
theories/Volumes.v
theories/ElemAxi.v
theories/BeamProofs.v
theories/ElemFinal.v
theories/ElemFinal2.v
theories/ElemFinal3.v
theories/PropJacCases.v
theories/PropJac.v
theories/MeshProofs.v
theories/ExModel2.v
theories/PropElem.v
theories/SpringRows.v
theories/PropBar.v
theories/SpecQuad.v
theories/QuadProofs.v
theories/QuadTables.v
theories/QuadSimplex.v
theories/QuadFinal.v
theories/PropQuad.v
theories/SpecPost.v
theories/PostProofs.v
theories/PostFinal.v
theories/PostTotal.v
theories/PostPos.v
theories/PostMore.v
theories/PropPost.v
theories/SpecPre.v
theories/GridProofs.v
theories/ImportProofs.v
theories/SpecText.v
theories/TextProofs.v
theories/TextGrammar.v
theories/TextWritten.v
theories/ExText.v
theories/PropPre.v
theories/PropText.v
theories/SpecBloch.v
theories/BlochProofs.v
theories/PropBloch.v
theories/SpecModes.v
theories/Rigid2D.v
theories/Elem2Modes2.v
theories/Elem3Modes.v
theories/Hex8Modes.v
theories/AxiModes.v
theories/SpecStatic.v
theories/StaticProofs.v
theories/StaticProofs2.v
theories/StaticProofs3.v
theories/ExSolver.v
theories/ExStatic.v
theories/PropStatic.v
theories/PlotTruss.v
theories/SpecPlot.v
theories/PlotProofs.v
theories/ExPlot.v
theories/PropPlot.v
theories/SpecPatch.v
theories/PatchProofs.v
theories/SpecDriver.v
theories/DriverProofs.v
theories/ConvexProofs.v
theories/PatchProofs2.v
theories/ExPatch.v
theories/ExModes.v
theories/PropModes.v
theories/PropPatch.v
theories/SpecGrid.v
theories/GridModel.v
theories/GridLoads.v
theories/ExGrid.v
theories/PropGrid.v
theories/SpecTruss.v
theories/TrussProofs.v
theories/TrussCount.v
theories/ExTruss.v
theories/PropTruss.v
theories/SpecFrame.v
theories/FrameProofs.v
theories/FrameProofs2.v
theories/StrainFrame.v
theories/ExFrame.v
theories/PropFrame.v
theories/SpecReport.v
theories/PlotFields.v
theories/Draw.v
theories/SpecDraw.v
theories/DrawProofs.v
theories/ExDraw.v
theories/PropDraw.v
theories/PropReport.v
theories/Script.v
theories/SpecScript.v
theories/ScriptProofs.v
theories/ScriptProofs2.v
theories/BeamFrame.v
theories/SpecVib.v
theories/BarModes.v
theories/BarBounds.v
theories/Cantilever.v
theories/ScriptFinal.v
theories/ExScript.v
theories/PropScript.v
theories/SpecSolid.v
theories/SolidProofs.v
theories/TetPatch.v
theories/ExSolid.v
theories/PropSolid.v
theories/SpecRun.v
theories/RunProofs.v
theories/PropRun.v
theories/DrawTruss.v
theories/DrawTrussProofs.v
theories/PropTrussDraw.v
theories/SpecMass.v
theories/MassPos.v
theories/MassPos2.v
theories/Spectral.v
theories/SpectralMesh.v
theories/ExMass.v
theories/PropMass.v
theories/SpecOrder.v
theories/OrderProofs.v
theories/OrderProofs2.v
theories/OrderProofs3.v
theories/OrderProofs4.v
theories/ExOrder.v
theories/PropOrder.v
theories/SpecStiff.v
theories/StiffProofs.v
theories/StiffProofs2.v
theories/StiffProofs3.v
theories/ExStiff.v
theories/PropStiff.v
theories/SpecWave.v
theories/WaveProofs.v
theories/PropWave.v
theories/SpecAny.v
theories/AnyProofs.v
theories/RoundProofs.v
theories/RoundProofs2.v
theories/ExAny.v
theories/PropAny.v
theories/Template.v
theories/SpecTemplate.v
theories/TemplateProofs.v
theories/TemplateProofs2.v
theories/SpecBrazil.v
theories/TriModel.v
theories/TemplateProofs3.v
theories/ExTemplate.v
theories/PropTemplate.v
theories/SpecRefine.v
theories/RefineProofs.v
theories/RefineProofs2.v
theories/ExRefine.v
theories/PropRefine.v
theories/SpecTied.v
theories/TiedProofs.v
theories/TiedProofs2.v
theories/TiedProofs3.v
theories/TiedProofs4.v
theories/ExTied.v
theories/PropTied.v
theories/Example.v
theories/SpecExample.v
theories/ExampleProofs.v
theories/ExampleProofs2.v
theories/ExampleProofs3.v
theories/PropExample.v
theories/Brazil.v
theories/BrazilProofs.v
theories/BrazilProofs2.v
theories/PropBrazil.v
theories/Square.v
theories/SpecSquare.v
theories/SquareProofs.v
theories/PropSquare.v
theories/AssemOne.v
theories/DocTruss.v
theories/SpecDocTruss.v
theories/DocTrussProofs.v
theories/DocTrussCases.v
theories/ExDocTruss.v
theories/PropDocTruss.v
theories/SpecEnergy.v
theories/EnergyProofs.v
theories/EnergyElem.v
theories/EnergyFinal.v
theories/EnergyPull.v
theories/PropEnergy.v
theories/SpecEnergy3.v
theories/Energy3Proofs.v
theories/Energy3Final.v
theories/PropEnergy3.v
theories/SpecEnergy1.v
theories/Energy1Proofs.v
theories/PropEnergy1.v
theories/EigAny.v
theories/PropEig.v
theories/SpecSymm.v
theories/SymmProofs.v
theories/SymmFinal.v
theories/SymmCase.v
theories/PropSymm.v
theories/SymmPost.v
theories/SymmRef.v
theories/PropSymmPost.v
theories/CastProofs.v
theories/PropCast.v
theories/SpecCast.v
theories/CastScript.v
theories/PropCast2.v
theories/PrincipleProofs.v
theories/PropPrinciples.v
