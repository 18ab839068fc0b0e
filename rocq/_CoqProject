-Q theories Verif

theories/Lib.v
theories/LoaderModel.v
theories/LoaderSpec.v
theories/LoaderProofs.v
theories/LoaderProofs2.v
theories/TextModel.v
theories/TextProofs.v
theories/LoaderProps.v
theories/TextProps.v
theories/NestedModel.v
theories/NestedSpec.v
theories/NestedProofs.v
theories/NestedProofs2.v
theories/NestedHeapModel.v
theories/NestedHeapProofs.v
theories/NestedProps.v
theories/RepoModel.v
theories/RepoSpec.v
theories/RepoProofs.v
theories/RepoProofs2.v
theories/RepoProps.v
theories/QuantModel.v
theories/QuantSpec.v
theories/QuantProofs.v
theories/ConfRegModel.v
theories/ConfRegSpec.v
theories/ConfRegProofs.v
theories/ConfRegProofs2.v
theories/ConfRegProofs3.v
theories/ConfRegProofs4.v
theories/ConfRegProofs5.v
theories/ConfRegProps.v
theories/EnbSpec.v
theories/EnbProofs.v
theories/EnbProps.v
theories/TrainModel.v
theories/TrainSpec.v
theories/TrainProofs.v
theories/TrainProofs2.v
theories/TrainProofs3.v
theories/TrainProofs4.v
theories/TrainProps.v
theories/FreezeModel.v
theories/FreezeSpec.v
theories/FreezeProofs.v
theories/FreezeProps.v
theories/SchedModel.v
theories/SchedSpec.v
theories/SchedProofs.v
theories/SchedProofs2.v
theories/SchedProps.v
theories/ConfClassModel.v
theories/ConfClassSpec.v
theories/ConfClassProofs.v
theories/ConfClassProofs2.v
theories/ConfClassProofs3.v
theories/ConfClassProps.v
theories/MultiModel.v
theories/MultiSpec.v
theories/MultiProofs.v
theories/MultiProofs2.v
theories/MultiProofs3.v
theories/MultiProofs4.v
theories/MultiProofs5.v
theories/MultiProofs6.v
theories/MultiSpec2.v
theories/MultiProofs7.v
theories/MultiSpec3.v
theories/MultiProofs8.v
theories/MultiProps.v
theories/MetricModel.v
theories/MetricSpec.v
theories/MetricProofs.v
theories/MetricProofs2.v
theories/MetricProofs3.v
theories/MetricProps.v
theories/TempModel.v
theories/TempSpec.v
theories/TempProofs.v
theories/TempProofs2.v
theories/TempProofs3.v
theories/TempProps.v
theories/PredModel.v
theories/PredSpec.v
theories/PredProofs.v
theories/PredProofs2.v
theories/PredProofs3.v
theories/PredProofs4.v
theories/PredProofs5.v
theories/PredProps.v
theories/McmcModel.v
theories/McmcSpec.v
theories/McmcProofs.v
theories/McmcProofs2.v
theories/McmcProofs3.v
theories/McmcProofs4.v
theories/McmcProofs5.v
theories/McmcProps.v
theories/LikModel.v
theories/LikSpec.v
theories/LikProofs.v
theories/LikProofs2.v
theories/LikProps.v
theories/LapModel.v
theories/LapSpec.v
theories/LapProofs.v
theories/LapProofs2.v
theories/LapProofs3.v
theories/LapProps.v
theories/SngpModel.v
theories/SngpSpec.v
theories/SngpProofs.v
theories/SngpProofs2.v
theories/SngpProofs3.v
theories/SngpProofs4.v
theories/SngpCases.v
theories/SngpProps.v
theories/OodModel.v
theories/OodSpec.v
theories/OodProofs.v
theories/OodCases.v
theories/OodProps.v
theories/ProbitModel.v
theories/ProbitSpec.v
theories/ProbitProofs.v
theories/ProbitProofs2.v
theories/ProbitProofs3.v
theories/ProbitProofs4.v
theories/ProbitCases.v
theories/ProbitProps.v
theories/LossModel.v
theories/LossSpec.v
theories/LossProofs.v
theories/LossProofs2.v
theories/LossProps.v
theories/CalibModel.v
theories/CalibSpec.v
theories/CalibProofs.v
theories/CalibProofs2.v
theories/CalibProofs3.v
theories/CalibCases.v
theories/CalibProps.v
theories/HallModel.v
theories/HallSpec.v
theories/HallProofs.v
theories/HallProofs2.v
theories/HallProofs3.v
theories/HallProofs4.v
theories/HallCases.v
theories/HallProps.v
theories/NetModel.v
theories/NetSpec.v
theories/NetProofs.v
theories/NetProofs2.v
theories/NetProofs3.v
theories/NetCases.v
theories/NetProps.v
theories/ExtraProofs.v
theories/ApiModel.v
theories/ApiSpec.v
theories/ApiProofs.v
theories/ApiProps.v
theories/DevModel.v
theories/DevSpec.v
theories/DevProofs.v
theories/DevProofs2.v
theories/DevProofs3.v
theories/DevProofs4.v
theories/DevCases.v
theories/DevProps.v
theories/FitModel.v
theories/FitSpec.v
theories/FitProofs.v
theories/FitProofs2.v
theories/FitProofs3.v
theories/FitProofs4.v
theories/FitProofs5.v
theories/FitCases.v
theories/FitProps.v
theories/FlatModel.v
theories/FlatSpec.v
theories/FlatProofs.v
theories/FlatProofs2.v
theories/FlatProofs3.v
theories/FlatProofs4.v
theories/FlatProofs5.v
theories/FlatCases.v
theories/FlatProps.v
theories/StatModel.v
theories/StatSpec.v
theories/StatProofs.v
theories/StatProofs2.v
theories/StatProofs3.v
theories/StatProofs4.v
theories/StatProps.v
theories/HfModel.v
theories/HfSpec.v
theories/HfProofs.v
theories/HfProofs2.v
theories/HfProofs3.v
theories/HfCases.v
theories/HfProps.v
theories/TfmModel.v
theories/TfmSpec.v
theories/TfmProofs.v
theories/TfmProofs2.v
theories/TfmCases.v
theories/TfmProps.v
theories/BuildModel.v
theories/BuildSpec.v
theories/BuildProofs.v
theories/BuildProofs2.v
theories/BuildProofs3.v
theories/BuildCases.v
theories/BuildProps.v
theories/MonModel.v
theories/MonSpec.v
theories/MonProofs.v
theories/MonProofs2.v
theories/MonCases.v
theories/MonProps.v
theories/SrcModel.v
theories/SrcSpec.v
theories/SrcProofs.v
theories/SrcProofs2.v
theories/SrcCases.v
theories/SrcProps.v
theories/SerModel.v
theories/SerSpec.v
theories/SerProofs.v
theories/SerProofs2.v
theories/SerProofs3.v
theories/SerCases.v
theories/SerProps.v
theories/DrawModel.v
theories/DrawSpec.v
theories/DrawProofs.v
theories/DrawProofs2.v
theories/DrawProofs3.v
theories/DrawCases.v
theories/DrawProps.v
theories/NoiseModel.v
theories/NoiseSpec.v
theories/NoiseProofs.v
theories/NoiseProofs2.v
theories/NoiseProofs3.v
theories/NoiseCases.v
theories/NoiseProps.v
theories/LhpModel.v
theories/LhpSpec.v
theories/LhpProofs.v
theories/LhpProofs2.v
theories/LhpProofs3.v
theories/LhpProofs4.v
theories/LhpCases.v
theories/LhpProps.v
theories/TuneModel.v
theories/TuneSpec.v
theories/TuneProofs.v
theories/TuneProofs2.v
theories/TuneCases.v
theories/TuneProps.v
theories/SampModel.v
theories/SampSpec.v
theories/SampProofs.v
theories/SampProps.v
theories/FrzModel.v
theories/FrzSpec.v
theories/FrzProofs.v
theories/FrzCases.v
theories/FrzProps.v
theories/PlotModel.v
theories/PlotSpec.v
theories/PlotProofs.v
theories/PlotCases.v
theories/PlotProofs2.v
theories/PlotProps.v
theories/CvSpec.v
theories/CvProofs.v
theories/CvProps.v
theories/KsdSpec.v
theories/KsdProofs.v
theories/KsdProofs2.v
theories/KsdProofs3.v
theories/KsdProps.v
theories/BinPlotModel.v
theories/BinPlotSpec.v
theories/BinPlotProofs.v
theories/BinPlotProps.v
theories/DescModel.v
theories/DescSpec.v
theories/DescProofs.v
theories/DescProofs2.v
theories/DescProofs3.v
theories/DescProofs4.v
theories/DescCases.v
theories/DescProps.v
theories/CalRunModel.v
theories/CalRunProofs.v
theories/CalRunProofs2.v
theories/CalRunCases.v
theories/CalRunProps.v
theories/MvpSpec.v
theories/MvpProofs.v
theories/MvpProofs2.v
theories/MvpProofs3.v
theories/MvpCases.v
theories/MvpProps.v
theories/SwagModel.v
theories/SwagSpec.v
theories/SwagProofs.v
theories/SwagProofs2.v
theories/SwagProofs3.v
theories/SwagProofs4.v
theories/SwagProofs5.v
theories/SwagProofs6.v
theories/SwagCases.v
theories/SwagProps.v
theories/ChainModel.v
theories/ChainSpec.v
theories/ChainProofs.v
theories/ChainProofs2.v
theories/ChainProofs3.v
theories/ChainProofs4.v
theories/ChainCases.v
theories/ChainProofs5.v
theories/ChainProps.v
theories/FlowModel.v
theories/FlowSpec.v
theories/FlowProofs.v
theories/FlowProofs2.v
theories/FlowProofs3.v
theories/FlowCases.v
theories/FlowProps.v
theories/WholeModel.v
theories/WholeProofs.v
theories/WholeProofs2.v
theories/WholeCases.v
theories/WholeProps.v
theories/GpFitModel.v
theories/GpFitSpec.v
theories/GpFitProofs.v
theories/GpFitProofs2.v
theories/GpFitProofs3.v
theories/GpFitProofs4.v
theories/GpFitCases.v
theories/GpFitProps.v
theories/LapFitModel.v
theories/LapFitSpec.v
theories/LapFitProofs.v
theories/LapFitProofs2.v
theories/LapFitProofs3.v
theories/LapFitProofs4.v
theories/LapFitCases.v
theories/LapFitProps.v
theories/OneShotModel.v
theories/OneShotSpec.v
theories/OneShotProofs.v
theories/OneShotProofs2.v
theories/OneShotProofs3.v
theories/OneShotProofs4.v
theories/OneShotProofs5.v
theories/OneShotProofs6.v
theories/OneShotCases.v
theories/OneShotProps.v
theories/OodProofs2.v
theories/ProbitProofs5.v
theories/SngpProofs5.v
theories/IterModel.v
theories/IterSpec.v
theories/IterProofs.v
theories/IterProofs2.v
theories/IterProofs3.v
theories/IterProofs4.v
theories/IterProofs5.v
theories/IterProofs6.v
theories/IterProofs7.v
theories/IterProofs8.v
theories/IterProofs9.v
theories/IterCases.v
theories/IterProps.v
theories/MvpSetModel.v
theories/MvpSetSpec.v
theories/MvpSetProofs.v
theories/MvpSetProofs2.v
theories/MvpSetProofs3.v
theories/MvpSetCases.v
theories/MvpSetProps.v
theories/TScaleModel.v
theories/TScaleSpec.v
theories/TScaleProofs.v
theories/TScaleProofs2.v
theories/TScaleCases.v
theories/TScaleProps.v
theories/EnsModel.v
theories/EnsSpec.v
theories/EnsProofs.v
theories/EnsCases.v
theories/EnsProps.v
theories/ResumeModel.v
theories/ResumeSpec.v
theories/ResumeProofs.v
theories/ResumeProofs2.v
theories/ResumeProofs3.v
theories/ResumeCases.v
theories/ResumeProps.v
theories/ContModel.v
theories/ContSpec.v
theories/ContProofs.v
theories/ContCases.v
theories/ContProps.v
theories/Lit.v
theories/TreeCases.v
theories/SwagContModel.v
theories/SwagContProofs.v
theories/SwagContProofs2.v
theories/SwagContCases.v
theories/SwagContProps.v
theories/ChainContModel.v
theories/ChainContSpec.v
theories/ChainContProofs.v
theories/ChainContProofs2.v
theories/ChainContCases.v
theories/ChainContProps.v
theories/TfmHeadModel.v
theories/TfmHeadSpec.v
theories/TfmHeadProofs.v
theories/TfmHeadCases.v
theories/TfmHeadProofs2.v
theories/TfmHeadProps.v
theories/LoaderProofs3.v
theories/HallProofs5.v
theories/LapProofs4.v
theories/NetProofs4.v
theories/DevProofs5.v
theories/CallModel.v
theories/CallSpec.v
theories/CallProofs.v
theories/CallCases.v
theories/CallProps.v
theories/EnsContModel.v
theories/EnsContSpec.v
theories/EnsContProofs.v
theories/EnsContCases.v
theories/EnsContProps.v
theories/MemCallModel.v
theories/MemCallProofs.v
theories/MemCallCases.v
theories/MemCallProps.v
theories/RecalModel.v
theories/RecalSpec.v
theories/RecalProofs.v
theories/RecalCases.v
theories/RecalProps.v
theories/AvailSpec.v
theories/AvailProofs.v
theories/AvailProps.v
theories/CmRunModel.v
theories/CmRunSpec.v
theories/CmRunProofs.v
theories/CmRunCases.v
theories/CmRunProps.v
