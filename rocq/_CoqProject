-Q theories Verif
theories/Num.v
theories/Constants.v
theories/State.v
theories/Tables.v
theories/Config.v
theories/Json.v
theories/Planet.v
theories/Atmosphere.v
theories/Transformations.v
theories/Steering.v
theories/Vehicle.v
theories/RungeKutta.v
theories/Phase.v
theories/Simulation.v
theories/XR.v
theories/B64.v
theories/TablesFacts.v
theories/SpecReal.v
theories/XRFacts.v
theories/Prop_Tables.v
theories/Prop_Interp.v
theories/SystemFacts.v
theories/Prop_Frames.v
theories/Prop_Gravity.v
theories/RunFacts.v
theories/PhaseNew.v
theories/Prop_Run.v
theories/Prop_Throttle.v
theories/B64Facts.v
theories/RKFacts.v
theories/Prop_IEEE.v
theories/Demo.v
theories/SystemTotal.v
theories/Prop_Panics.v
theories/Prop_Limit.v
theories/Prop_Planet.v
theories/Prop_Atmosphere.v
theories/Prop_AtmosphereGaps.v
theories/Prop_Time.v
theories/Prop_Aero.v
theories/Refute.v
theories/Prop_Steering.v
theories/RefuteSteering.v
theories/Prop_Json.v
theories/OrderFour.v
theories/Prop_RK4.v
theories/Prop_Mass.v
theories/Prop_Depletion.v
theories/Prop_InterpJoint.v
theories/SmoothFacts.v
theories/Prop_VacuumOrder.v
theories/Prop_TimeIEEE.v
theories/Prop_InterpIEEE.v
theories/Prop_AeroReported.v
theories/Prop_Real.v
theories/Prop_RealIEEE.v
theories/Prop_RealSim.v
theories/Prop_Longitude.v
theories/Prop_LongitudeDemo.v
theories/DemoExact.v
theories/Prop_MassLimited.v
theories/Prop_TimeForward.v
theories/Prop_Coast.v
theories/Text.v
theories/Plot.v
theories/Prop_Text.v
theories/Prop_Output.v
theories/Prop_Plot.v
theories/Prop_Records.v
theories/Prop_Launch.v
theories/Prop_Burnout.v
theories/Prop_Labels.v
theories/Prop_Simulation.v
theories/Prop_Split.v
theories/Prop_Event.v
theories/Prop_EventIEEE.v
theories/Prop_EventDemo.v
theories/Prop_Mission.v
theories/Prop_Engines.v
theories/Prop_Plane.v
theories/Prop_PlaneDemo.v
theories/Prop_Similar.v
theories/Prop_Settings.v
theories/Rounding.v
theories/Prop_GravityIEEE.v
theories/Prop_AltitudeIEEE.v
theories/FieldBounds.v
theories/RK4Error.v
theories/Prop_CoastExact.v
theories/StepIEEE.v
theories/CoastStep.v
theories/Prop_CoastIEEE.v
theories/Prop_CoastDemo.v
theories/Prop_CoastExactDemo.v
theories/Prop_Mirror.v
theories/Prop_MirrorDemo.v
theories/Motion.v
theories/Prop_Motion.v
theories/Prop_MotionDemo.v
theories/Prop_MotionNewton.v
theories/Prop_MotionNewtonDemo.v
theories/Prop_EastWest.v
theories/Prop_EastWestDemo.v
theories/Kepler.v
theories/Prop_Kepler.v
theories/Prop_KeplerDemo.v
theories/Prop_Seconds.v
theories/Prop_Timed.v
theories/Prop_SecondsIEEE.v
theories/Prop_MissionClock.v
theories/Prop_MissionClockDemo.v
