-Q theories Verif
theories/Util.v
theories/Dict.v
theories/Rat.v
theories/Val.v
theories/Arr.v
theories/GridModel.v
theories/GridSpec.v
theories/GridAxis.v
theories/GridNew.v
theories/GridAdd.v
theories/GridCat.v
theories/GridSpectra.v
theories/GridSpecFunc.v
theories/GridEx.v
theories/GridProps.v
theories/GridPad.v
theories/GridCrop.v
theories/GridProps2.v
theories/GridModel2.v
theories/GridOps.v
theories/GridFiles.v
theories/GridProps3.v
theories/GridFourier.v
theories/GridFT.v
theories/GridFT2.v
theories/Complex.v
theories/GridFT3.v
theories/GridProps4.v
theories/GridSpec2.v
theories/GridPower.v
theories/GridProps5.v
theories/GridCollapse.v
theories/GridProps6.v
theories/GridMore.v
theories/GridSphere.v
theories/GridProps7.v
theories/GridHistory.v
theories/GridProps8.v
theories/PsfModel.v
theories/Psf.v
theories/GridProps9.v
theories/ConvSpec.v
theories/Conv.v
theories/GridProps10.v
theories/HandlerModel.v
theories/HandlerSpec.v
theories/Handler.v
theories/Handler2.v
theories/Handler3.v
theories/Handler4.v
theories/HandlerProps.v
theories/PathsModel.v
theories/PathsSpec.v
theories/Paths.v
theories/PathsProps.v
theories/RealUtil.v
theories/SnapModel.v
theories/SnapSpec.v
theories/Snap.v
theories/SnapProps.v
theories/FormatModel.v
theories/FormatSpec.v
theories/Format.v
theories/FormatProps.v
theories/LcModel.v
theories/LcSpec.v
theories/Lc.v
theories/Lc2.v
theories/Lc3.v
theories/Lc4.v
theories/Lc5.v
theories/Lc6.v
theories/Lc7.v
theories/Lc8.v
theories/Lc9.v
theories/Lc10.v
theories/Lc11.v
theories/Lc12.v
theories/Lc13.v
theories/LcProps.v
theories/InstModel.v
theories/InstSpec.v
theories/Inst.v
theories/Inst2.v
theories/Inst3.v
theories/Inst4.v
theories/Inst5.v
theories/Inst6.v
theories/Inst7.v
theories/Inst8.v
theories/Inst9.v
theories/InstEx.v
theories/InstProps.v
theories/AmModel.v
theories/AmSpec.v
theories/Am.v
theories/Am2.v
theories/AmProps.v
theories/SimModel.v
theories/SimSpec.v
theories/Sim.v
theories/Sim2.v
theories/Sim3.v
theories/Sim4.v
theories/SimProps.v
theories/HGridModel.v
theories/HGridSpec.v
theories/HGrid.v
theories/HGrid2.v
theories/HGrid3.v
theories/HGrid4.v
theories/HGridProps.v
theories/LchModel.v
theories/LchSpec.v
theories/Lch.v
theories/Lch2.v
theories/LchProps.v
theories/EvoModel.v
theories/EvoSpec.v
theories/Evo.v
theories/EvoProps.v
theories/RelModel.v
theories/RelSpec.v
theories/RelGauss.v
theories/Rel.v
theories/Rel2.v
theories/RelProps.v
theories/YangModel.v
theories/YangSpec.v
theories/Yang.v
theories/Yang2.v
theories/YangProps.v
theories/SfrModel.v
theories/SfrSpec.v
theories/Sfr.v
theories/Sfr2.v
theories/Sfr3.v
theories/SfrProps.v
theories/DistModel.v
theories/DistSpec.v
theories/Dist.v
theories/Dist2.v
theories/Dist3.v
theories/Dist4.v
theories/DistProps.v
theories/RawModel.v
theories/RawSpec.v
theories/Raw.v
theories/Raw2.v
theories/Raw3.v
theories/Raw4.v
theories/Raw5.v
theories/Raw6.v
theories/RawProps.v
theories/RawFileProps.v
theories/IllModel.v
theories/IllSpec.v
theories/Ill.v
theories/Ill2.v
theories/Ill3.v
theories/IllProps.v
theories/RespModel.v
theories/RespSpec.v
theories/Resp.v
theories/Resp2.v
theories/Resp3.v
theories/Resp4.v
theories/RespProps.v
theories/FigModel.v
theories/FigSpec.v
theories/Fig.v
theories/Fig2.v
theories/Fig3.v
theories/Fig4.v
theories/FigProps.v
theories/PlotModel.v
theories/PlotSpec.v
theories/Plot.v
theories/Plot2.v
theories/PlotProps.v
theories/PlotDetProps.v
theories/DetModel.v
theories/Det.v
theories/DetProps.v
theories/HPlotModel.v
theories/HPlotProps.v
theories/BuiltinModel.v
theories/Builtin.v
theories/BuiltinProps.v
theories/UnitModel.v
theories/Unit.v
theories/UnitProps.v
theories/KeysModel.v
theories/KeysSpec.v
theories/Keys.v
theories/KeysProps.v
theories/MassCutModel.v
theories/MassCutSpec.v
theories/MassCut.v
theories/MassCutProps.v
theories/LinkModel.v
theories/LinkSpec.v
theories/Link.v
theories/LinkProps.v
theories/LosModel.v
theories/LosSpec.v
theories/Los.v
theories/LosProps.v
theories/GfModel.v
theories/GfSpec.v
theories/Gf.v
theories/GfProps.v
theories/RefModel.v
theories/Ref.v
theories/RefProps.v
theories/PsfSpec.v
theories/Psf2.v
theories/PsfProps.v
theories/MakeModel.v
theories/Make.v
theories/MakeProps.v
theories/RespProps2.v
theories/AskModel.v
theories/Ask.v
theories/AskProps.v
theories/DistProps2.v
theories/RelProps2.v
theories/YangProps2.v
theories/PathsProps2.v
theories/PathsProps3.v
theories/GridFuncProps.v
theories/IllSnapProps.v
