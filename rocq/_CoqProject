-Q theories Verif
theories/Num.v
theories/Vec.v
theories/Res.v
theories/Arena.v
theories/RangeM.v
theories/Orient.v
theories/Colliders.v
theories/Collide.v
theories/EntityM.v
theories/SystemM.v
theories/OrderP.v
theories/Spec.v
theories/PanicSpec.v
theories/EntitySpec.v
theories/PathSpec.v
theories/ContactSpec.v
theories/Examples.v
theories/ResP.v
theories/ArenaP.v
theories/FrameP.v
theories/StoreP.v
theories/Store2P.v
theories/MeshP.v
theories/ArithP.v
theories/ExecP.v
theories/ValidP.v
theories/WakeP.v
theories/StepP.v
theories/Step2P.v
theories/ContactP.v
theories/Step3P.v
theories/NoPanicP.v
theories/RangeP.v
theories/CollideP.v
theories/RealSpec.v
theories/RealV.v
theories/TimeP.v
theories/PathP.v
theories/OrientP.v
theories/Orient2P.v
theories/GeomP.v
theories/ShapeP.v
theories/Geom2P.v
theories/Geom3P.v
theories/Geom4P.v
theories/Geom5P.v
theories/Geom6P.v
theories/Geom7P.v
theories/PhysSpec.v
theories/TraceSpec.v
theories/FloorSpec.v
theories/PhysP.v
theories/Phys2P.v
theories/Phys3P.v
theories/Phys4P.v
theories/MassP.v
theories/Mass2P.v
theories/InfMassP.v
theories/Mass3P.v
theories/Mass4P.v
theories/PassP.v
theories/TraceP.v
theories/EnergyP.v
theories/MomentumP.v
theories/CleanP.v
theories/FloorP.v
theories/Mass5P.v
theories/PartSpec.v
theories/PartP.v
theories/WriteBackP.v
theories/RealEx.v
theories/TwoEx.v
theories/FloorEx.v
theories/MassEx.v
theories/ContactEx.v
theories/FrictionEx.v
theories/EntityEx.v
theories/Prop_Store.v
theories/Prop_Step.v
theories/Prop_Panic.v
theories/Prop_Range.v
theories/Prop_Collide.v
theories/Prop_Orient.v
theories/Prop_Physics.v
theories/Prop_Mass.v
theories/WriteBack2P.v
theories/WriteBackEx.v
theories/Prop_Entity.v
theories/Prop_Time.v
theories/Prop_Trace.v
theories/Prop_Contact.v
theories/Prop_Floor.v
theories/LogSpec.v
theories/LogP.v
theories/ForceSpec.v
theories/ForceP.v
theories/ApiSpec.v
theories/ApiP.v
theories/PlaceP.v
theories/PlaceEx.v
theories/BalanceP.v
theories/BalanceEx.v
theories/Prop_Api.v
theories/BoxSpec.v
theories/FiniteSpec.v
theories/Geom8P.v
theories/Geom9P.v
theories/FiniteP.v
theories/ShapeEx.v
theories/Prop_Shape.v
theories/FlightSpec.v
theories/FlightP.v
theories/FlightEx.v
theories/PhysEx.v
theories/CaseEx.v
theories/Prop_Flight.v
theories/RejectP.v
theories/ReplaySpec.v
theories/ReplayP.v
theories/Replay2P.v
theories/ReplayEx.v
theories/Prop_Replay.v
theories/SpinSpec.v
theories/SpinP.v
theories/SpinEx.v
theories/Prop_Spin.v
theories/AlgebraSpec.v
theories/AlgebraP.v
theories/Prop_Algebra.v
theories/RoundSpec.v
theories/RoundP.v
theories/RoundEx.v
theories/Prop_Round.v
theories/TumbleSpec.v
theories/TumbleP.v
theories/Prop_Tumble.v
theories/TurnSpec.v
theories/QuatRoundP.v
theories/TurnP.v
theories/TurnRoundP.v
theories/TurnEx.v
theories/Prop_Turn.v
theories/MoveSpec.v
theories/MoveP.v
theories/Move2P.v
theories/Move3P.v
theories/Move4P.v
theories/MoveEx.v
theories/Prop_Move.v
theories/BoostSpec.v
theories/BoostP.v
theories/BoostEx.v
theories/Prop_Boost.v
theories/MirrorSpec.v
theories/MirrorP.v
theories/Mirror2P.v
theories/Mirror3P.v
theories/MirrorEx.v
theories/Prop_Mirror.v
theories/CycleSpec.v
theories/CycleP.v
theories/Cycle2P.v
theories/Cycle3P.v
theories/CycleEx.v
theories/Prop_Cycle.v
theories/QuarterSpec.v
theories/QuarterP.v
theories/Quarter2P.v
theories/Quarter3P.v
theories/CubeSpec.v
theories/CubeP.v
theories/CubeEx.v
theories/Prop_Cube.v
theories/FirstP.v
theories/First2P.v
theories/Prop_First.v
theories/TieSpec.v
theories/TieP.v
theories/Prop_Tie.v
