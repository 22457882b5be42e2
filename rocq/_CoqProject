-Q theories Verif
theories/ActiveModel.v
theories/ActiveProofs.v
theories/ActiveProps.v
theories/ActiveSpec.v
theories/AltModel.v
theories/AltProofs.v
theories/AltProps.v
theories/AltSpec.v
theories/AnswerProofs.v
theories/AnswerProps.v
theories/AnswerSpec.v
theories/ArcModel.v
theories/ArcProofs.v
theories/ArcProps.v
theories/ArcSpec.v
theories/AskProofs.v
theories/AskProps.v
theories/AskSpec.v
theories/ClkModel.v
theories/ClkProofs.v
theories/ClkProps.v
theories/ClkSpec.v
theories/CloneModel.v
theories/CloneProofs.v
theories/CloneProps.v
theories/CloneSpec.v
theories/Common.v
theories/CommsModel.v
theories/CommsProofs.v
theories/CommsProps.v
theories/CommsSpec.v
theories/ContainerModel.v
theories/ContainerProofs.v
theories/ContainerProps.v
theories/ContainerSpec.v
theories/ContinuousModel.v
theories/ContinuousObs.v
theories/ContinuousProofs.v
theories/ContinuousProps.v
theories/ContinuousSpec.v
theories/CrossModel.v
theories/CrossProofs.v
theories/CrossProps.v
theories/CrossSpec.v
theories/CtxModel.v
theories/CtxProofs.v
theories/CtxProps.v
theories/CtxSpec.v
theories/EarthProofs.v
theories/EarthProps.v
theories/EvModel.v
theories/EvProofs.v
theories/EvProps.v
theories/EvSpec.v
theories/FailModel.v
theories/FailProofs.v
theories/FailProps.v
theories/FailSpec.v
theories/FateProofs.v
theories/FateProps.v
theories/FateSpec.v
theories/GeoModel.v
theories/GeoProofs.v
theories/GeoProps.v
theories/GeoSpec.v
theories/HoldModel.v
theories/HoldProofs.v
theories/HoldProps.v
theories/HoldSpec.v
theories/HopModel.v
theories/HopProofs.v
theories/HopProps.v
theories/HopSpec.v
theories/KevModel.v
theories/KevProofs.v
theories/KevProps.v
theories/KevSpec.v
theories/KnowledgeModel.v
theories/KnowledgeProofs.v
theories/KnowledgeProps.v
theories/KnowledgeSpec.v
theories/LinModel.v
theories/LinProofs.v
theories/LinProps.v
theories/LinSpec.v
theories/LocModel.v
theories/LocProofs.v
theories/LocProps.v
theories/LocSpec.v
theories/LogModel.v
theories/LogProofs.v
theories/LogProps.v
theories/LogSpec.v
theories/LoopModel.v
theories/LoopProofs.v
theories/LoopProps.v
theories/LoopSpec.v
theories/MailModel.v
theories/MailProofs.v
theories/MailProps.v
theories/MailSpec.v
theories/MakeModel.v
theories/MakeProofs.v
theories/MakeProps.v
theories/MakeSpec.v
theories/MimicModel.v
theories/MimicProofs.v
theories/MimicProps.v
theories/MimicSpec.v
theories/MockModel.v
theories/MockProofs.v
theories/MockProps.v
theories/MockSpec.v
theories/MotModel.v
theories/MotProofs.v
theories/MotProps.v
theories/MotSpec.v
theories/NetModel.v
theories/NetProofs.v
theories/NetProps.v
theories/NetSpec.v
theories/NucModel.v
theories/NucProofs.v
theories/NucProps.v
theories/NucSpec.v
theories/OrderProofs.v
theories/OrderProps.v
theories/OrderSpec.v
theories/PairModel.v
theories/PathModel.v
theories/PathProofs.v
theories/PathProps.v
theories/PathSpec.v
theories/PlanProofs.v
theories/PlanProps.v
theories/PlanSpec.v
theories/PredModel.v
theories/PredProofs.v
theories/PredProps.v
theories/PredSpec.v
theories/ProxyModel.v
theories/ProxyProofs.v
theories/ProxyProps.v
theories/ProxySpec.v
theories/RadModel.v
theories/RadProofs.v
theories/RadProps.v
theories/RadSpec.v
theories/RehModel.v
theories/RehProofs.v
theories/RehProps.v
theories/RehSpec.v
theories/RepModel.v
theories/RepProofs.v
theories/RepProps.v
theories/RepSpec.v
theories/ReserveModel.v
theories/ReserveProofs.v
theories/ReserveProps.v
theories/ReserveSpec.v
theories/RndModel.v
theories/RndProofs.v
theories/RndProps.v
theories/RndSpec.v
theories/RouteModel.v
theories/RouteProofs.v
theories/RouteProps.v
theories/RouteSpec.v
theories/RpdModel.v
theories/RpdProofs.v
theories/RpdProps.v
theories/RpdSpec.v
theories/RsvModel.v
theories/RsvProofs.v
theories/RsvProps.v
theories/RsvSpec.v
theories/RwyProofs.v
theories/RwyProps.v
theories/RwySpec.v
theories/StateModel.v
theories/StateProofs.v
theories/StateProps.v
theories/StateSpec.v
theories/StepModel.v
theories/StepProofs.v
theories/StepProps.v
theories/StepSpec.v
theories/StoreModel.v
theories/StoreProofs.v
theories/StoreProps.v
theories/StoreSpec.v
theories/SubModel.v
theories/SubProofs.v
theories/SubProps.v
theories/SubSpec.v
theories/TabModel.v
theories/TabProofs.v
theories/TabProps.v
theories/TabSpec.v
theories/TaskModel.v
theories/TaskProofs.v
theories/TaskProps.v
theories/TaskSpec.v
theories/TripProofs.v
theories/TripProps.v
theories/TripSpec.v
theories/UEventModel.v
theories/UEventProofs.v
theories/UEventProps.v
theories/UEventSpec.v
theories/UnitsModel.v
theories/UnitsProofs.v
theories/UnitsProps.v
theories/UnitsSpec.v
theories/VinProofs.v
theories/VinProps.v
theories/WatchModel.v
theories/WatchProofs.v
theories/WatchProps.v
theories/WatchSpec.v
theories/WgsModel.v
theories/WgsProofs.v
theories/WgsProps.v
theories/WgsSpec.v
theories/WinModel.v
theories/WinProofs.v
theories/WinProps.v
theories/WinSpec.v
