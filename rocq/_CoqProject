-Q theories Verif
theories/AngleError.v
theories/AngleModel.v
theories/AngleProofs.v
theories/AngleProperties.v
theories/AppModel.v
theories/AppProperties.v
theories/ArrayModel.v
theories/ArrayProofs.v
theories/ArrayProperties.v
theories/Base.v
theories/CBufModel.v
theories/CBufProofs.v
theories/CBufProperties.v
theories/CFmtModel.v
theories/CFmtProofs.v
theories/CFmtProperties.v
theories/CmdModel.v
theories/CmdMore.v
theories/CmdPos.v
theories/CmdProofs.v
theories/CmdProperties.v
theories/CmdWrap.v
theories/CmdXor.v
theories/ConstModel.v
theories/ConstProofs.v
theories/ConstProperties.v
theories/ConvModel.v
theories/ConvProofs.v
theories/ConvProperties.v
theories/CubicProofs.v
theories/DevModel.v
theories/DevProofs.v
theories/DevProperties.v
theories/DiagModel.v
theories/DiagProperties.v
theories/DocModel.v
theories/DocProperties.v
theories/EllModel.v
theories/EllProperties.v
theories/ErrnoModel.v
theories/ErrnoProperties.v
theories/ExcModel.v
theories/ExcProofs.v
theories/ExcProperties.v
theories/FCopyModel.v
theories/FCopyProofs.v
theories/FCopyProperties.v
theories/FObjModel.v
theories/FObjProperties.v
theories/FStrModel.v
theories/FStrProperties.v
theories/FmtModel.v
theories/FmtProofs.v
theories/FmtProperties.v
theories/IpcModel.v
theories/IpcProofs.v
theories/IpcProperties.v
theories/LinearProofs.v
theories/LogModel.v
theories/LogProofs.v
theories/LogProperties.v
theories/MsgModel.v
theories/MsgProofs.v
theories/MsgProperties.v
theories/Numerals.v
theories/OErrModel.v
theories/OErrProperties.v
theories/OdomModel.v
theories/OdomProperties.v
theories/PErrModel.v
theories/PErrProperties.v
theories/PStenModel.v
theories/PStenProofs.v
theories/PStenProperties.v
theories/PapModel.v
theories/PapProperties.v
theories/PascalProofs.v
theories/PolyModel.v
theories/PolyProofs.v
theories/PolyProperties.v
theories/Pose3Model.v
theories/Pose3Proofs.v
theories/Pose3Properties.v
theories/PoseModel.v
theories/PoseProofs.v
theories/PoseProperties.v
theories/RBase.v
theories/RPathModel.v
theories/RPathProperties.v
theories/RandModel.v
theories/RandProofs.v
theories/RandProperties.v
theories/RingModel.v
theories/RingProofs.v
theories/RingProperties.v
theories/RootsProofs.v
theories/SCfgModel.v
theories/SCfgProperties.v
theories/SegModel.v
theories/ShowModel.v
theories/ShowProperties.v
theories/SigEmit.v
theories/SigModel.v
theories/SigProofs.v
theories/SigProperties.v
theories/SmoothProofs.v
theories/SnzProperties.v
theories/SockModel.v
theories/SockProofs.v
theories/SockProperties.v
theories/SophModel.v
theories/SophProofs.v
theories/SophProperties.v
theories/SplineModel.v
theories/SplineProofs.v
theories/SplineProperties.v
theories/StatModel.v
theories/StatProofs.v
theories/StatProperties.v
theories/StreamModel.v
theories/StreamProofs.v
theories/StreamProperties.v
theories/TDataModel.v
theories/TDataProofs.v
theories/TDataProperties.v
theories/TensCurve.v
theories/TensTraj1.v
theories/TensTraj2.v
theories/TensTraj3.v
theories/TensTraj4.v
theories/TensTrajProperties.v
theories/TensionProofs.v
theories/ThreadModel.v
theories/ThreadProofs.v
theories/ThreadProperties.v
theories/TimeModel.v
theories/TimeProofs.v
theories/TimeProperties.v
theories/TrajModel.v
theories/TrajProofs.v
theories/TrajProperties.v
theories/UsageModel.v
theories/UsageProperties.v
theories/UtilModel.v
theories/UtilProofs.v
theories/UtilProperties.v
theories/WMutModel.v
theories/WMutProperties.v
theories/WSerModel.v
theories/WSerProperties.v
theories/WSioModel.v
theories/WSioProperties.v
theories/WThrModel.v
theories/WThrProperties.v
theories/WTimModel.v
theories/WTimProperties.v
