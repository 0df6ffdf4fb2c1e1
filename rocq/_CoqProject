-Q theories Verif
theories/Prelude.v
theories/RSum.v
theories/TypesModel.v
theories/GridModel.v
theories/GridSpec.v
theories/GridProof.v
theories/MeshProof.v
theories/GridProps.v
theories/ZSum.v
theories/IndexModel.v
theories/IndexSpec.v
theories/IndexProof.v
theories/LoopModel.v
theories/LoopProof.v
theories/IndexProps.v
theories/BoundaryModel.v
theories/BoundarySpec.v
theories/BoundaryProof.v
theories/ExampleSetup.v
theories/BoundaryProps.v
theories/OperatorModel.v
theories/OperatorSpec.v
theories/OperatorProof.v
theories/BStateProof.v
theories/LapProof.v
theories/DivProof.v
theories/GradProof.v
theories/AdjProof.v
theories/SymProof.v
theories/OperatorProps.v
theories/SolutionModel.v
theories/AlgebraProps.v
theories/MatModel.v
theories/BnModel.v
theories/BnSpec.v
theories/BnProof.v
theories/BnProps.v
theories/NSModel.v
theories/NSSpec.v
theories/NSProof.v
theories/NSPin.v
theories/NSTotal.v
theories/NSProps.v
theories/NameModel.v
theories/NameSpec.v
theories/NameProof.v
theories/DriverModel.v
theories/DriverSpec.v
theories/DriverProof.v
theories/DriveProof.v
theories/RestartProof.v
theories/RunProof.v
theories/NameProps.v
theories/DriverProps.v
theories/ConvModel.v
theories/ConvSpec.v
theories/ConvProof.v
theories/ConvValue.v
theories/ConvTotal.v
theories/ConvProps.v
theories/BodyModel.v
theories/BodySpec.v
theories/BodyProof.v
theories/BodyUse.v
theories/BodyText.v
theories/BodyProps.v
theories/DeltaModel.v
theories/DeltaSpec.v
theories/DeltaKernel.v
theories/DeltaProof.v
theories/DeltaOp.v
theories/DeltaSum.v
theories/DeltaDef.v
theories/DeltaProps.v
theories/ProbeModel.v
theories/ProbeSpec.v
theories/ProbeProof.v
theories/ProbeInterp.v
theories/ProbeRun.v
theories/ProbeUse.v
theories/ProbeProps.v
theories/ConfigModel.v
theories/ConfigSpec.v
theories/ConfigProof.v
theories/ConfigSetup.v
theories/ConfigInit.v
theories/ConfigUse.v
theories/ConfigProps.v
theories/ExampleSetup3.v
theories/VortModel.v
theories/VortSpec.v
theories/VortProof.v
theories/GridFile.v
theories/VortFile.v
theories/VortValue.v
theories/VortCurl.v
theories/VortProps.v
theories/VortExamples.v
theories/IbpmModel.v
theories/IbpmSpec.v
theories/IbpmProof.v
theories/IbpmStep.v
theories/IbpmDec.v
theories/IbpmProps.v
theories/IbpmMove.v
theories/IbpmFiles.v
theories/IbpmOsc.v
theories/MoveProps.v
theories/IbOutModel.v
theories/IbOutSpec.v
theories/IbOutDrive.v
theories/IbOutSim.v
theories/IbOutLines.v
theories/IbOutProof.v
theories/IbOutDec.v
theories/IbOutTotal.v
theories/IbOutBalance.v
theories/IbOutProps.v
theories/SmallProps.v
theories/LinAlg.v
theories/UniqueProof.v
theories/UniqueProps.v
theories/DecSpec.v
theories/DecProof.v
theories/DecConv.v
theories/DecProps.v
theories/ConvRespect.v
theories/SimProps.v
theories/ResidualSpec.v
theories/ResidualProof.v
theories/ResidualIb.v
theories/ResidualProps.v
theories/LinModel.v
theories/LinSpec.v
theories/LinProof.v
theories/LinProps.v
theories/ProgModel.v
theories/XdmfModel.v
theories/XdmfSpec.v
theories/XdmfProof.v
theories/XdmfProps.v
theories/ProgSpec.v
theories/ProgProof.v
theories/ProgRun.v
theories/ProgProps.v
theories/IbProgModel.v
theories/IbProgSpec.v
theories/IbProgProof.v
theories/IbProgProps.v
theories/ResumeSpec.v
theories/ResumeProof.v
theories/ResumeProps.v
theories/PfileModel.v
theories/PfileSpec.v
theories/PfileProof.v
theories/PfileProps.v
theories/EnergySpec.v
theories/EnergyProof.v
theories/EnergyRun.v
theories/EnergyProps.v
theories/LifeModel.v
theories/LifeSpec.v
theories/LifeHeap.v
theories/LifeProof.v
theories/LifeNs.v
theories/LifeNs2.v
theories/LifeIb.v
theories/LifeRun.v
theories/LifeEnd.v
theories/LifeProps.v
theories/WorkProof.v
theories/WorkRun.v
theories/WorkProps.v
theories/MomProof.v
theories/MomRun.v
theories/MomMain.v
theories/MomProps.v
theories/SteadySpec.v
theories/SteadyProof.v
theories/SteadyFlows.v
theories/SteadyProps.v
theories/ApiModel.v
theories/ApiSpec.v
theories/ApiProof.v
theories/ApiProps.v
theories/WidthProof.v
theories/SimSpec.v
theories/SimOne.v
theories/SimProof.v
theories/SimPlane.v
theories/SimFrame.v
theories/FrameProps.v
theories/IndepSpec.v
theories/IndepProof.v
theories/IndepRun.v
theories/IndepCase.v
theories/IndepProps.v
theories/IbGridSpec.v
theories/IbGridProof.v
theories/IbGridRun.v
theories/IbGridProps.v
theories/StretchSpec.v
theories/StretchProof.v
theories/StretchProps.v
theories/IbResumeSpec.v
theories/IbResumeDrive.v
theories/IbResumeProof.v
theories/IbResumeMain.v
theories/IbResumeTotal.v
theories/IbResumeCase.v
theories/IbResumeProps.v
theories/IbResumeExamples.v
theories/Taylor.v
theories/AccuracySpec.v
theories/AccuracyMesh.v
theories/AccuracyProof.v
theories/AccuracyProps.v
theories/IbCrashModel.v
theories/IbCrashProof.v
theories/IbCrashProps.v
theories/OptModel.v
theories/OptSpec.v
theories/OptProof.v
theories/OptProps.v
theories/FloatModel.v
theories/FloatSpec.v
theories/FloatProof.v
theories/FloatProps.v
theories/IterModel.v
theories/IterSpec.v
theories/IterProof.v
theories/IterProps.v
theories/NumSpec.v
theories/NumProof.v
theories/NumProps.v
theories/IbVisSpec.v
theories/IbVisProof.v
theories/IbVisProps.v
theories/FmtModel.v
theories/FmtSpec.v
theories/FmtProof.v
theories/FmtProps.v
theories/CountProps.v
theories/GpuModel.v
theories/GpuSpec.v
theories/GpuProof.v
theories/GpuProps.v
theories/WordProps.v
theories/DirModel.v
theories/DirProof.v
theories/DirProps.v
theories/ShareModel.v
theories/ShareSpec.v
theories/ShareProof.v
theories/ShareProps.v
theories/KernelModel.v
theories/KernelSpec.v
theories/KernelProof.v
theories/KernelProps.v
theories/AvgModel.v
theories/AvgSpec.v
theories/AvgProof.v
theories/AvgProps.v
