-Q theories Verif
theories/Base.v
theories/Table.v
theories/ChunkModel.v
theories/ChunkSpec.v
theories/ChunkProofs.v
theories/ChunkProps.v
theories/GridModel.v
theories/GridSpec.v
theories/FrameSpec.v
theories/GridProofs.v
theories/GridProofs2.v
theories/GridProofs3.v
theories/GridProofs4.v
theories/GridProofs5.v
theories/GridProps.v
theories/SelSpec.v
theories/SelModel.v
theories/SelProofs.v
theories/SelProofs2.v
theories/SelProofs3.v
theories/SelProofs4.v
theories/SelProofs5.v
theories/SelProofs6.v
theories/SelProofs7.v
theories/SelProps.v
theories/CfgSpec.v
theories/CfgModel.v
theories/CfgProofs.v
theories/ExecModel.v
theories/ExecProofs.v
theories/TextModel.v
theories/CfgProps.v
theories/ReadSpec.v
theories/ReadModel.v
theories/ReadProofs.v
theories/ReadProofs2.v
theories/ReadProofs3.v
theories/ReadProofs4.v
theories/ReadProps.v
theories/CastSpec.v
theories/CastModel.v
theories/CastProofs.v
theories/CastProofs2.v
theories/CastProofs3.v
theories/CastProps.v
theories/JoinSpec.v
theories/JoinModel.v
theories/JoinProofs.v
theories/JoinProofs2.v
theories/JoinProofs3.v
theories/JoinProofs4.v
theories/JoinProofs5.v
theories/JoinProofs6.v
theories/JoinProps.v
theories/IndexModel.v
theories/IndexSpec.v
theories/IndexProofs.v
theories/IndexProofs2.v
theories/IndexProps.v
theories/XchgSpec.v
theories/XchgModel.v
theories/XchgProofs.v
theories/XchgProofs2.v
theories/XchgProofs3.v
theories/XchgProps.v
theories/QueueSpec.v
theories/QueueModel.v
theories/QueueProofs.v
theories/QueueProofs2.v
theories/QueueProps.v
theories/CsvSpec.v
theories/CsvModel.v
theories/CsvProofs.v
theories/CsvProofs2.v
theories/CsvProofs3.v
theories/NewlineModel.v
theories/NewlineProofs.v
theories/GlobModel.v
theories/GlobProofs.v
theories/CsvProps.v
theories/ShufSpec.v
theories/ShufModel.v
theories/ShufProofs.v
theories/ShufProofs2.v
theories/ShufProofs3.v
theories/ShufProofs4.v
theories/ShufProofs5.v
theories/ShufProofs6.v
theories/ShufProofs7.v
theories/ShufProps.v
theories/GroupSpec.v
theories/GroupModel.v
theories/GroupProofs.v
theories/GroupProofs2.v
theories/GroupProofs3.v
theories/GroupProofs4.v
theories/GroupProofs5.v
theories/GroupProofs6.v
theories/GroupProofs7.v
theories/GroupProps.v
theories/MergeSpec.v
theories/MergeModel.v
theories/MergeProofs.v
theories/MergeProofs2.v
theories/MergeProofs3.v
theories/MergeProofs4.v
theories/MergeProps.v
theories/DtypeSpec.v
theories/DtypeModel.v
theories/DtypeFrames.v
theories/DtypeHist.v
theories/DtypeProofs.v
theories/DtypeProofs2.v
theories/DtypeProofs3.v
theories/DtypeProofs4.v
theories/DtypeProofs5.v
theories/DtypeProofs6.v
theories/DtypeProofs7.v
theories/DtypeProofs8.v
theories/DtypeProps.v
theories/CatSpec.v
theories/CatModel.v
theories/CatProofs.v
theories/CatProofs2.v
theories/CatProps.v
theories/PipeSpec.v
theories/PipeModel.v
theories/PipeProofs.v
theories/PipeProps.v
theories/DefSpec.v
theories/DefModel.v
theories/DefProofs.v
theories/DefProofs2.v
theories/DefProofs3.v
theories/DefProofs4.v
theories/DefProofs5.v
theories/DefProps.v
theories/SetSpec.v
theories/SetModel.v
theories/SetProofs.v
theories/SetProofs2.v
theories/SetProofs3.v
theories/SetProofs4.v
theories/SetProofs5.v
theories/SetProofs6.v
theories/SetProofs7.v
theories/SetProofs8.v
theories/SetProps.v
theories/WriteSpec.v
theories/WriteModel.v
theories/WriteProofs.v
theories/WriteProofs2.v
theories/WriteProps.v
theories/SaveSpec.v
theories/SaveModel.v
theories/SaveProofs.v
theories/SaveProofs2.v
theories/SaveProofs3.v
theories/SaveProofs4.v
theories/SaveProps.v
theories/LabSpec.v
theories/LabModel.v
theories/LabProofs.v
theories/LabProps.v
theories/XgbSpec.v
theories/XgbModel.v
theories/XgbProofs.v
theories/XgbProps.v
theories/PartSpec.v
theories/PartModel.v
theories/PartProofs.v
theories/PartProps.v
theories/CorrSpec.v
theories/CorrModel.v
theories/CorrProofs.v
theories/CorrProofs2.v
theories/CorrProofs3.v
theories/CorrProofs4.v
theories/CorrProofs5.v
theories/CorrProofs6.v
theories/CorrProps.v
theories/LocSpec.v
theories/LocModel.v
theories/LocProofs.v
theories/LocProofs2.v
theories/LocProps.v
theories/EnlSpec.v
theories/EnlModel.v
theories/EnlProofs.v
theories/EnlProofs2.v
theories/EnlProps.v
theories/RemSpec.v
theories/RemModel.v
theories/RemProofs.v
theories/RemProofs2.v
theories/RemProofs3.v
theories/RemProps.v
theories/MaskSpec.v
theories/MaskModel.v
theories/MaskProofs.v
theories/MaskProofs2.v
theories/MaskProps.v
theories/ResetSpec.v
theories/ResetModel.v
theories/ResetProofs.v
theories/ResetProps.v
theories/DupSpec.v
theories/DupModel.v
theories/DupProofs.v
theories/DupProps.v
theories/InsSpec.v
theories/InsModel.v
theories/InsProofs.v
theories/InsProofs2.v
theories/InsProps.v
theories/OrdSpec.v
theories/OrdModel.v
theories/OrdProps.v
theories/KeySpec.v
theories/KeyModel.v
theories/KeyProofs.v
theories/KeyProps.v
theories/RngModel.v
theories/RngProofs.v
theories/RngProofs2.v
theories/RngProofs3.v
theories/RngProps.v
theories/ItmSpec.v
theories/ItmModel.v
theories/ItmProofs.v
theories/ItmProps.v
theories/MelSpec.v
theories/MelModel.v
theories/MelProofs.v
theories/MelProofs2.v
theories/MelProofs3.v
theories/MelProps.v
theories/ArrSpec.v
theories/ArrModel.v
theories/ArrProofs.v
theories/ArrProofs2.v
theories/ArrProps.v
theories/NbinSpec.v
theories/NbinModel.v
theories/NbinProofs.v
theories/NbinProofs2.v
theories/NbinProofs3.v
theories/NbinProps.v
theories/NredSpec.v
theories/NredModel.v
theories/NredProofs.v
theories/NredProofs2.v
theories/NredProofs3.v
theories/NredProofs4.v
theories/NredProps.v
theories/AliSpec.v
theories/AliModel.v
theories/AliProofs.v
theories/AliProofs2.v
theories/AliProofs3.v
theories/AliProofs4.v
theories/AliProofs5.v
theories/AliProps.v
theories/ExtSpec.v
theories/ExtModel.v
theories/ExtProofs.v
theories/ExtProofs2.v
theories/ExtProps.v
theories/FilSpec.v
theories/FilModel.v
theories/FilProofs.v
theories/FilProofs2.v
theories/FilProofs3.v
theories/FilProps.v
theories/DotSpec.v
theories/DotModel.v
theories/DotProofs.v
theories/DotProofs2.v
theories/DotProofs3.v
theories/DotProps.v
theories/ExplSpec.v
theories/ExplModel.v
theories/ExplProofs.v
theories/ExplProofs2.v
theories/ExplProps.v
theories/DumSpec.v
theories/DumModel.v
theories/DumProofs.v
theories/DumProofs2.v
theories/DumProps.v
theories/QrySpec.v
theories/QryModel.v
theories/QryProofs.v
theories/QryProps.v
theories/HntSpec.v
theories/HntModel.v
theories/HntProofs.v
theories/HntProofs2.v
theories/HntProps.v
theories/QntSpec.v
theories/QntModel.v
theories/QntProofs.v
theories/QntProps.v
theories/CaseSpec.v
theories/CaseModel.v
theories/CaseProofs.v
theories/CaseProofs2.v
theories/CaseProps.v
theories/JonSpec.v
theories/JonModel.v
theories/JonProofs.v
theories/JonProps.v
theories/LixSpec.v
theories/LixModel.v
theories/LixProofs.v
theories/LixProps.v
theories/IterSpec.v
theories/IterModel.v
theories/IterProofs.v
theories/IterProps.v
theories/EquSpec.v
theories/EquModel.v
theories/EquProofs.v
theories/EquProps.v
theories/SeqSpec.v
theories/SeqModel.v
theories/SeqProofs.v
theories/SeqProps.v
theories/FltSpec.v
theories/FltModel.v
theories/FltProofs.v
theories/FltProps.v
theories/TruSpec.v
theories/TruModel.v
theories/TruProofs.v
theories/TruProps.v
theories/HeaSpec.v
theories/HeaModel.v
theories/HeaProps.v
theories/TakSpec.v
theories/TakModel.v
theories/TakProps.v
theories/AsgSpec.v
theories/AsgModel.v
theories/AsgProps.v
