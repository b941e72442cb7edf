-Q theories Verif
theories/Model/Base.v
theories/Model/Scheduler.v
theories/Spec/SchedulerSpec.v
theories/Proofs/SchedulerProofs.v
theories/Proofs/Rounding.v
theories/Proofs/FloatTransmission.v
theories/Proofs/Topo.v
theories/Props/SchedulerProps.v
theories/Model/Controller.v
theories/Spec/ControllerSpec.v
theories/Props/ControllerProps.v
theories/Model/Manager.v
theories/Spec/ManagerSpec.v
theories/Proofs/ManagerProofs.v
theories/Proofs/ManagerInv.v
theories/Proofs/ManagerOps.v
theories/Props/ManagerProps.v
theories/Model/ManagerConc.v
theories/Model/TimeStats.v
theories/Proofs/ConcBase.v
theories/Spec/ConcSpec.v
theories/Proofs/ConcInv.v
theories/Proofs/ConcTrace.v
theories/Proofs/ConcHist.v
theories/Proofs/ConcCycle.v
theories/Proofs/ConcProgress.v
theories/Spec/FloatSpec.v
theories/Spec/LivenessSpec.v
theories/Proofs/Liveness.v
theories/Spec/LinSpec.v
theories/Spec/ServiceSpec.v
theories/Proofs/ConcLin.v
theories/Proofs/ServiceProofs.v
theories/Props/ConcProps.v
theories/Props/FloatProps.v
theories/Spec/LookupSpec.v
theories/Spec/TimeSpec.v
theories/Props/LookupProps.v
theories/Props/LivenessProps.v
theories/Spec/RaceSpec.v
theories/Proofs/Race.v
theories/Props/RaceProps.v
theories/Props/ServiceProps.v
theories/Model/Num.v
theories/Model/Joint.v
theories/Proofs/NumFacts.v
theories/Spec/JointSpec.v
theories/Proofs/JointProofs.v
theories/Props/JointProps.v
theories/Props/JointStatsProps.v
theories/Model/Hardware.v
theories/Model/Xml.v
theories/Model/Transmission.v
theories/Model/Simple.v
theories/Model/Wrist.v
theories/Spec/HardwareSpec.v
theories/Props/HardwareProps.v
theories/Spec/TransmissionSpec.v
theories/Spec/LocalSpec.v
theories/Proofs/Locality.v
theories/Proofs/OverLocal.v
theories/Spec/RoundTripSpec.v
theories/Props/IndependenceProps.v
theories/Spec/PowerSpec.v
theories/Props/RoundTripProps.v
theories/Props/PowerProps.v
theories/Props/MotorProps.v
theories/Props/HaltProps.v
theories/Props/StartupProps.v
theories/Proofs/TransmissionProofs.v
theories/Props/SimpleProps.v
theories/Props/WristProps.v
theories/Model/Belt.v
theories/Model/Gripper.v
theories/Spec/GripperSpec.v
theories/Proofs/GripperLoad.v
theories/Props/GripperProps.v
theories/Props/GripperDomainProps.v
theories/Model/Robot.v
theories/Model/Builtin.v
theories/Model/System.v
theories/Spec/CalibrationSpec.v
theories/Props/CalibrationProps.v
theories/Spec/BeltSpec.v
theories/Spec/BeltSimSpec.v
theories/Proofs/Geo.v
theories/Props/BeltProps.v
theories/Props/BeltSimProps.v
theories/Spec/RobotSpec.v
theories/Spec/SystemSpec.v
theories/Spec/HaltSpec.v
theories/Spec/StatsSpec.v
theories/Proofs/RobotProofs.v
theories/Proofs/LoadProofs.v
theories/Proofs/CycleTotal.v
theories/Proofs/WorldSteps.v
theories/Proofs/HaltProofs.v
theories/Proofs/SystemProofs.v
theories/Proofs/ConcWorld.v
theories/Spec/ConcSystemSpec.v
theories/Proofs/ConcSystem.v
theories/Proofs/StatsProofs.v
theories/Props/RobotProps.v
theories/Props/SystemProps.v
theories/Props/ConcSystemProps.v
theories/Props/ConcMotorProps.v
theories/Props/ConcStatProps.v
theories/Spec/ConcHaltSpec.v
theories/Spec/LifeSpec.v
theories/Props/ConcHaltProps.v
theories/Props/StatsProps.v
theories/Model/Kinematics.v
theories/Spec/KinematicsSpec.v
theories/Props/KinematicsProps.v
theories/Model/Diagnostics.v
theories/Spec/DescriptionSpec.v
theories/Spec/DiagnosticsSpec.v
theories/Proofs/DiagnosticsProofs.v
theories/Props/DescriptionProps.v
theories/Spec/SimulationSpec.v
theories/Props/SimulationProps.v
theories/Props/DiagnosticsProps.v
theories/Model/Scripts.v
theories/Spec/ScriptsSpec.v
theories/Proofs/ScriptsProofs.v
theories/Props/ScriptsProps.v
theories/Spec/SequentialSpec.v
theories/Proofs/Sequential.v
theories/Props/SequentialProps.v
theories/Spec/StatSystemSpec.v
theories/Props/StatSystemProps.v
theories/Proofs/TimeProofs.v
theories/Proofs/TimeConc.v
theories/Proofs/OverrunConc.v
theories/Proofs/LifeConc.v
theories/Props/TimeProps.v
theories/Props/OverrunProps.v
theories/Props/LifeProps.v
theories/Upstream/TestBase.v
theories/Upstream/WristTests.v
theories/Upstream/CalibrationTests.v
theories/Upstream/ManagerTests.v
theories/Upstream/DiagnosticsTests.v
theories/Upstream/Pr2Urdf.v
theories/Upstream/Pr2Tests.v
theories/Props/IdleProps.v
theories/Props/ConcIdleProps.v
theories/Props/SizeProps.v
theories/Props/AssertProps.v
