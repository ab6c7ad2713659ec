-Q theories Verif
theories/Base.v
theories/MeshModel.v
theories/MeshSpec.v
theories/MeshProofs.v
theories/MeshProofs2.v
theories/MeshProofs3.v
theories/MeshProofs4.v
theories/MeshProofs5.v
theories/PropMesh.v
theories/MeshView.v
theories/MeshViewProofs.v
theories/PropMeshView.v
theories/DofModel.v
theories/DofSpec.v
theories/DofProofs.v
theories/DofProofs2.v
theories/DofProofs3.v
theories/DofProofs4.v
theories/PropDof.v
theories/Scalars.v
theories/AssembleModel.v
theories/AssembleSpec.v
theories/AssembleProofs.v
theories/AssembleProofs2.v
theories/PropAssemble.v
theories/RefPatModel.v
theories/RefPatSpec.v
theories/RefPatProofs.v
theories/RefPatProofs2.v
theories/PropRefPat.v
theories/RefineModel.v
theories/RefineSpec.v
theories/RefineProofs.v
theories/RefineProofs2.v
theories/PropRefine.v
theories/RefineProofs3.v
theories/RefineProofs4.v
theories/RefineProofs5.v
theories/PropRefine2.v
theories/BuilderModel.v
theories/BuilderSpec.v
theories/BuilderProofs.v
theories/BuilderProofs2.v
theories/BuilderProofs3.v
theories/BuilderProofs4.v
theories/BuilderProofs5.v
theories/PropBuilder.v
theories/FlagModel.v
theories/FlagSpec.v
theories/FlagProofs.v
theories/FlagProofs2.v
theories/PropFlag.v
theories/GeoModel.v
theories/GeoSpec.v
theories/GeoProofs.v
theories/GeoProofs2.v
theories/GeoProofs3.v
theories/GeoProofs4.v
theories/GeoProofs5.v
theories/GeoProofs6.v
theories/GeoProofs7.v
theories/PropGeo.v
theories/Calc.v
theories/FeModel.v
theories/LagrModel.v
theories/FeSpec.v
theories/LagrProofs.v
theories/LagrProofs2.v
theories/FeProofs.v
theories/LagrProofs3.v
theories/PropLagr.v
theories/QuadModel.v
theories/HierModel.v
theories/LegendreProofs.v
theories/JacobiProofs.v
theories/OrthoProofs.v
theories/HierProofs.v
theories/HierProofs2.v
theories/QuadSpec.v
theories/PolyProofs.v
theories/HierProofs3.v
theories/HierProofs4.v
theories/HierProofs5.v
theories/HierProofs6.v
theories/HierProofs7.v
theories/QuadRuleModel.v
theories/QuadProofs.v
theories/QuadProofs2.v
theories/GaussProofs.v
theories/GaussProofs2.v
theories/GaussProofs3.v
theories/GaussProofs4.v
theories/GaussSpec.v
theories/GaussProofs5.v
theories/CacheSpec.v
theories/CacheProofs.v
theories/TriaDec.v
theories/TriaTab1.v
theories/TriaTab2.v
theories/TriaTab3.v
theories/TriaTab4.v
theories/TriaTab5.v
theories/TriaTab6.v
theories/TriaTab7.v
theories/TriaTab8.v
theories/TriaTab.v
theories/TriaSpec.v
theories/TriaCheck.v
theories/TriaChk.v
theories/TriaProofs.v
theories/TriaProofs2.v
theories/CacheProofs2.v
theories/PropQuad.v
theories/HierSpec.v
theories/HierProofs8.v
theories/PropHier.v
theories/ElemModel.v
theories/ElemSpec.v
theories/ElemProofs.v
theories/ElemProofs2.v
theories/ElemProofs3.v
theories/ElemProofs4.v
theories/ElemProofs5.v
theories/ElemProofs6.v
theories/ElemProofs7.v
theories/ElemProofs8.v
theories/ElemProofs9.v
theories/PropElem.v
theories/FeToolsModel.v
theories/FeToolsSpec.v
theories/FeToolsProofs.v
theories/FeToolsProofs2.v
theories/FeToolsProofs3.v
theories/FeToolsProofs4.v
theories/FeToolsProofs5.v
theories/PropFeTools.v
theories/NarrowModel.v
theories/NarrowSpec.v
theories/NarrowProofs.v
theories/PropNarrow.v
theories/TransferModel.v
theories/TransferSpec.v
theories/TransferProofs.v
theories/TransferProofs2.v
theories/TransferProofs3.v
theories/TransferProofs4.v
theories/TransferProofs5.v
theories/TransferProofs6.v
theories/GeoProofs8.v
theories/PropGeo2.v
theories/TransferProofs7.v
theories/PropTransfer.v
theories/ProlongSpec.v
theories/ProlongProofs.v
theories/ProlongProofs2.v
theories/ProlongProofs3.v
theories/ProlongProofs4.v
theories/PropProlong.v
theories/GmshModel.v
theories/GmshSpec.v
theories/GmshProofs.v
theories/GmshProofs2.v
theories/GmshProofs3.v
theories/GmshProofs4.v
theories/GmshProofs5.v
theories/GmshProofs6.v
theories/GmshProofs7.v
theories/GmshProofs8.v
theories/GmshProofs9.v
theories/GmshProofs10.v
theories/GmshProofs11.v
theories/PropGmsh.v
theories/ConformSpec.v
theories/ConformProofs.v
theories/ConformProofs2.v
theories/ConformProofs3.v
theories/ConformProofs4.v
theories/PropConform.v
theories/VtkModel.v
theories/VtkSpec.v
theories/VtkProofs.v
theories/VtkProofs2.v
theories/VtkProofs3.v
theories/VtkProofs4.v
theories/VtkProofs5.v
theories/VtkProofs6.v
theories/VtkProofs7.v
theories/VtkProofs8.v
theories/VtkProofs9.v
theories/PropVtk.v
theories/GalerkinModel.v
theories/GalerkinSpec.v
theories/GalerkinProofs.v
theories/GalerkinProofs2.v
theories/GalerkinProofs3.v
theories/GalerkinProofs4.v
theories/GalerkinProofs5.v
theories/GalerkinProofs6.v
theories/GalerkinProofs7.v
theories/GalerkinProofs8.v
theories/GalerkinProofs9.v
theories/GalerkinProofs10.v
theories/GalerkinProofs11.v
theories/GalerkinProofs12.v
theories/PropGalerkin.v
theories/MfModel.v
theories/MfSpec.v
theories/MfProofs.v
theories/MfProofs2.v
theories/MfProofs3.v
theories/PropMf.v
theories/DataModel.v
theories/DataSpec.v
theories/DataProofs.v
theories/PropData.v
theories/MshModel.v
theories/MshSpec.v
theories/MshProofs.v
theories/MshProofs2.v
theories/MshProofs3.v
theories/MshProofs4.v
theories/MshProofs5.v
theories/MshProofs6.v
theories/MshProofs7.v
theories/MshProofs8.v
theories/MshProofs9.v
theories/MshReadModel.v
theories/MshReadSpec.v
theories/MshProofs12.v
theories/MshProofs10.v
theories/MshProofs11.v
theories/PropMsh.v
theories/DpgModel.v
theories/DpgSpec.v
theories/DpgProofs.v
theories/DpgProofs2.v
theories/DpgProofs3.v
theories/DpgProofs4.v
theories/DpgProofs5.v
theories/DpgProofs6.v
theories/DpgProofs7.v
theories/PropDpg.v
theories/WriteModel.v
theories/WriteSpec.v
theories/WriteProofs.v
theories/WriteProofs2.v
theories/WriteProofs3.v
theories/WriteProofs4.v
theories/WriteProofs5.v
theories/WriteProofs6.v
theories/WriteProofs7.v
theories/PropWrite.v
theories/NormalModel.v
theories/NormalSpec.v
theories/NormalProofs.v
theories/NormalProofs2.v
theories/NormalProofs3.v
theories/NormalProofs4.v
theories/NormalProofs5.v
theories/NormalProofs6.v
theories/NormalProofs7.v
theories/NormalProofs8.v
theories/NormalProofs9.v
theories/PropNormal.v
theories/ProdModel.v
theories/ProdSpec.v
theories/ProdProofs.v
theories/ProdProofs2.v
theories/ProdProofs3.v
theories/ProdProofs4.v
theories/ProdProofs5.v
theories/ProdProofs6.v
theories/ProdProofs7.v
theories/ProdProofs8.v
theories/PropProd.v
theories/VtkFileModel.v
theories/VtkFileSpec.v
theories/VtkFileProofs.v
theories/VtkFileProofs2.v
theories/VtkFileProofs3.v
theories/VtkFileProofs4.v
theories/VtkFileProofs5.v
theories/PropVtkFile.v
theories/StokesModel.v
theories/StokesSpec.v
theories/LinAlg.v
theories/StokesProofs.v
theories/StokesProofs2.v
theories/StokesProofs3.v
theories/StokesProofs4.v
theories/StokesProofs5.v
theories/StokesProofs6.v
theories/StokesProofs7.v
theories/StokesProofs8.v
theories/StokesProofs9.v
theories/StokesProofs10.v
theories/StokesProofs11.v
theories/PropStokes.v
theories/AnnulusModel.v
theories/AnnulusSpec.v
theories/AnnulusProofs.v
theories/AnnulusProofs2.v
theories/AnnulusProofs3.v
theories/PropAnnulus.v
theories/FlowSpec.v
theories/StokesProofs12.v
theories/StokesProofs13.v
theories/StokesProofs14.v
theories/StokesProofs15.v
theories/StokesProofs16.v
theories/StokesProofs17.v
theories/PropFlow.v
theories/NormsModel.v
theories/NormsSpec.v
theories/NormsProofs.v
theories/NormsProofs2.v
theories/NormsProofs3.v
theories/NormsProofs4.v
theories/PropNorms.v
theories/FisherModel.v
theories/FisherSpec.v
theories/FisherProofs.v
theories/FisherProofs2.v
theories/FisherProofs3.v
theories/FisherProofs4.v
theories/PropFisher.v
theories/FisherModel2.v
theories/FisherSpec2.v
theories/FisherProofs5.v
theories/FisherProofs6.v
theories/FisherProofs7.v
theories/FisherProofs8.v
theories/FisherProofs9.v
theories/PropFisher2.v
theories/TikzModel.v
theories/TikzSpec.v
theories/TikzProofs.v
theories/TikzProofs2.v
theories/PropTikz.v
theories/LocModel.v
theories/LocSpec.v
theories/LocProofs.v
theories/LocProofs2.v
theories/LocProofs3.v
theories/LocProofs4.v
theories/LocProofs5.v
theories/LocProofs6.v
theories/LocProofs7.v
theories/PropLoc.v
theories/RectSpec.v
theories/RectProofs.v
theories/RectProofs2.v
theories/RectProofs3.v
theories/RectProofs4.v
theories/RectProofs5.v
theories/RectProofs6.v
theories/RectProofs7.v
theories/RectProofs8.v
theories/RectProofs9.v
theories/PropRect.v
theories/DirichletSpec.v
theories/GalerkinProofs13.v
theories/GalerkinProofs14.v
theories/GalerkinProofs15.v
theories/GalerkinProofs17.v
theories/GalerkinProofs16.v
theories/GalerkinProofs18.v
theories/GalerkinProofs19.v
theories/GalerkinProofs20.v
theories/GalerkinProofs21.v
theories/GalerkinProofs22.v
theories/GalerkinProofs24.v
theories/GalerkinProofs25.v
theories/GalerkinProofs26.v
theories/PropDirichlet.v
