-Q theories Verif
theories/Base.v
theories/CuListModel.v
theories/CuListSpec.v
theories/CuListProofs.v
theories/CuListProofs2.v
theories/CuListProps.v
theories/BincodeModel.v
theories/BincodeSpec.v
theories/BincodeProofs.v
theories/ULogModel.v
theories/ULogSpec.v
theories/ULogProofs1.v
theories/ULogProofs2.v
theories/ULogProofs3.v
theories/ULogProofs4.v
theories/ULogProofs5.v
theories/ULogProofs6.v
theories/ULogProofs7.v
theories/ULogProofs8.v
theories/ULogProps.v
theories/CodecModel.v
theories/ValueModel.v
theories/CodecSpec.v
theories/CodecProofs.v
theories/ValueProofs.v
theories/ValueProofs2.v
theories/ExportSpec.v
theories/ExportProofs.v
theories/CodecProps.v
theories/PlanModel.v
theories/PlanSpec.v
theories/PlanProofs.v
theories/PlanProofs2.v
theories/PlanProofs3.v
theories/PlanProps.v
theories/RuntimeModel.v
theories/RuntimeSpec.v
theories/RuntimeProofs.v
theories/RuntimeProofs2.v
theories/RuntimeProofs3.v
theories/RuntimeProofs4.v
theories/RuntimeProofs5.v
theories/RuntimeProofs6.v
theories/RuntimeProps.v
theories/ConfigModel.v
theories/ConfigSpec.v
theories/ConfigProofs.v
theories/ConfigProps.v
theories/LogModel.v
theories/LogSpec.v
theories/LogProofs.v
theories/LogProofs2.v
theories/LogProps.v
theories/PoolModel.v
theories/PoolSpec.v
theories/PoolProofs.v
theories/PoolProps.v
theories/StatsModel.v
theories/StatsSpec.v
theories/StatsProofs.v
theories/StatsProps.v
theories/SoaModel.v
theories/SoaSpec.v
theories/SoaProofs.v
theories/SoaProps.v
theories/TsModel.v
theories/TsProps.v
theories/MspModel.v
theories/MspSpec.v
theories/MspProofs.v
theories/MspProps.v
theories/MspMsgModel.v
theories/MspMsgSpec.v
theories/MspMsgProofs.v
theories/MspMsgProps.v
theories/ServoModel.v
theories/ServoProps.v
theories/AdcModel.v
theories/AdcProps.v
theories/AlignerModel.v
theories/AlignerProps.v
theories/ThreshModel.v
theories/ThreshSpec.v
theories/ThreshProofs.v
theories/ThreshProps.v
theories/FloatModel.v
theories/FloatFacts.v
theories/CloudModel.v
theories/CloudProofs.v
theories/CloudProps.v
theories/PidModel.v
theories/PidSpec.v
theories/PidProofs.v
theories/PidProps.v
theories/MotorModel.v
theories/MotorProps.v
theories/ConsoleModel.v
theories/ConsoleProps.v
theories/SourcesModel.v
theories/SourcesProps.v
theories/LidarModel.v
theories/LidarSpec.v
theories/LidarProofs.v
theories/LidarProps.v
theories/SerdeModel.v
theories/SerdeSpec.v
theories/SerdeProofs.v
theories/SerdeProps.v
theories/ClockModel.v
theories/ClockSpec.v
theories/ClockFloat.v
theories/ClockProofs.v
theories/ClockProps.v
theories/ReplayModel.v
theories/ReplaySpec.v
theories/ReplayProofs.v
theories/ReplayProps.v
theories/LoggerModel.v
theories/LoggerSpec.v
theories/LoggerProofs.v
theories/LoggerProps.v
theories/CameraModel.v
theories/CameraSpec.v
theories/CameraProofs.v
theories/CameraProps.v
theories/PayloadModel.v
theories/PayloadSpec.v
theories/PayloadProofs.v
theories/PayloadFloat.v
theories/PayloadProps.v
theories/AppModel.v
theories/AppSpec.v
theories/AppProofs.v
theories/AppProps.v
theories/AllocModel.v
theories/AllocSpec.v
theories/AllocProofs.v
theories/AllocProps.v
theories/PyModel.v
theories/PySpec.v
theories/PyProofs.v
theories/PyProps.v
theories/TagModel.v
theories/TagSpec.v
theories/TagProofs.v
theories/TagProps.v
theories/SetupModel.v
theories/SetupSpec.v
theories/SetupProofs.v
theories/SetupProps.v
theories/BotModel.v
theories/BotSpec.v
theories/BotProofs.v
theories/BotProps.v
theories/StaleModel.v
theories/StaleProps.v
theories/PaneModel.v
theories/PaneProps.v
theories/CatModel.v
theories/CatProps.v
theories/RegModel.v
theories/RegSpec.v
theories/RegProofs.v
theories/RegRate.v
theories/RegProps.v
theories/ScreenModel.v
theories/ScreenProps.v
theories/RenderModel.v
theories/RenderSpec.v
theories/RenderProps.v
theories/VeloModel.v
theories/VeloProps.v
theories/BridgeModel.v
theories/BridgeProps.v
theories/CrateModel.v
theories/CrateProps.v
theories/MakeModel.v
theories/MakeProps.v
theories/TermModel.v
theories/TermProps.v
theories/SimModel.v
theories/SimProofs.v
theories/SimFloat.v
theories/SimProps.v
theories/TextProps.v
theories/ServoReadModel.v
theories/ServoReadProps.v
theories/MultiModel.v
theories/MultiProps.v
theories/OrderProps.v
theories/RecordModel.v
theories/RecordProps.v
theories/RerunModel.v
theories/RerunProps.v
theories/DiedProps.v
theories/TimesProps.v
theories/LinesProps.v
theories/AloneProps.v
theories/DeviceModel.v
theories/DeviceProps.v
theories/KeepProps.v
theories/SlotsProps.v
theories/WatchProps.v
theories/RivalProps.v
theories/ForgiveProps.v
theories/TimelessProps.v
theories/InfluenceProps.v
theories/PictureModel.v
theories/PictureProps.v
theories/CliModel.v
theories/CliProps.v
