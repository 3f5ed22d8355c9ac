-Q theories Verif
theories/Model/Num.v
theories/Model/Constants.v
theories/Model/Linalg.v
theories/Model/Functions.v
theories/Model/Time.v
theories/Model/Celestial.v
theories/Model/Positions.v
theories/Model/States.v
theories/Model/Elements.v
theories/Model/Maneuvers.v
theories/Model/Inertial.v
theories/Model/Relative.v
theories/Model/Obs.v
theories/Model/Filtering.v
theories/Model/Iod.v
theories/Model/Constraints.v
theories/Model/Payloads.v
theories/Model/Artificial.v
theories/Model/Terrestrial.v
theories/Spec/Geometry.v
theories/Proofs/NumLemmas.v
theories/Proofs/LinalgProofs.v
theories/Proofs/MatrixProofs.v
theories/Properties/LinalgProps.v
theories/Proofs/Analysis.v
theories/Proofs/FunctionsProofs.v
theories/Proofs/KeplerProofs.v
theories/Spec/Legendre.v
theories/Proofs/LegendreProofs.v
theories/Properties/FunctionsProps.v
theories/Spec/Calendar.v
theories/Model/TimeFloat.v
theories/Proofs/TimeProofs.v
theories/Proofs/TimeFloatProofs.v
theories/Properties/TimeProps.v
theories/Spec/Earth.v
theories/Proofs/CelestialProofs.v
theories/Properties/CelestialProps.v
theories/Proofs/GeodeticProofs.v
theories/Spec/Axes.v
theories/Proofs/PositionsProofs.v
theories/Properties/PositionsProps.v
theories/Spec/Gravity.v
theories/Proofs/GravityProofs.v
theories/Spec/Forces.v
theories/Proofs/StatesProofs.v
theories/Properties/StatesProps.v
theories/Spec/Orbit.v
theories/Proofs/ElementsProofs.v
theories/Proofs/ManeuversProofs.v
theories/Properties/ElementsProps.v
theories/Spec/RungeKutta.v
theories/Spec/Propagation.v
theories/Proofs/InertialProofs.v
theories/Proofs/AccelerationProofs.v
theories/Proofs/SafeStep.v
theories/Proofs/BurnProofs.v
theories/Properties/InertialProps.v
theories/Spec/Hill.v
theories/Proofs/RelativeProofs.v
theories/Properties/RelativeProps.v
theories/Spec/Covariance.v
theories/Proofs/FilteringProofs.v
theories/Properties/FilteringProps.v
theories/Proofs/ObsProofs.v
theories/Properties/ObsProps.v
theories/Spec/Gauss.v
theories/Proofs/IodProofs.v
theories/Properties/IodProps.v
theories/Proofs/PayloadsProofs.v
theories/Properties/PayloadsProps.v
theories/Spec/Operations.v
theories/Proofs/ArtificialProofs.v
theories/Spec/Sensing.v
theories/Proofs/SensorProofs.v
theories/Proofs/TrackingProofs.v
theories/Properties/ArtificialProps.v
theories/Spec/TwoBody.v
theories/Proofs/TwoBodyProofs.v
theories/Properties/TwoBodyProps.v
theories/Model/ClockFloat.v
theories/Proofs/ClockProofs.v
theories/Model/AngleFloat.v
theories/Proofs/AngleFloatProofs.v
theories/Properties/FloatProps.v
theories/Spec/Tracking.v
theories/Proofs/ConsistencyProofs.v
theories/Properties/TrackingProps.v
theories/Spec/Acquisition.v
theories/Proofs/EstimationProofs.v
theories/Properties/EstimationProps.v
theories/Proofs/GaussProofs.v
theories/Properties/GaussProps.v
theories/Model/ElementsFloat.v
theories/Model/PositionsFloat.v
theories/Proofs/FloatEval.v
theories/Proofs/ElementsFloatProofs.v
theories/Proofs/FloatFailures.v
theories/Proofs/GeodeticFloatProofs.v
theories/Properties/RoundingProps.v
theories/Spec/Sightings.v
theories/Proofs/SightingProofs.v
theories/Properties/SightingProps.v
theories/Model/KeplerFloat.v
theories/Spec/LibmAccuracy.v
theories/Proofs/PiDigits.v
theories/Proofs/KeplerFloatProofs.v
theories/Properties/KeplerFloatProps.v
theories/Proofs/StateFloatProofs.v
theories/Proofs/RoundTripProofs.v
theories/Properties/StateFloatProps.v
theories/Spec/Motion.v
theories/Proofs/SmoothForces.v
theories/Proofs/ConvergenceProofs.v
theories/Proofs/MotionExists.v
theories/Properties/ConvergenceProps.v
theories/Spec/Rendezvous.v
theories/Proofs/HillTwoBodyProofs.v
theories/Properties/RendezvousProps.v
theories/Proofs/Calm.v
theories/Proofs/Paths.v
theories/Proofs/LocalError.v
theories/Proofs/OrderProofs.v
theories/Properties/OrderProps.v
theories/Model/RelativeFloat.v
theories/Spec/HillFloat.v
theories/Proofs/HillFloatProofs.v
theories/Properties/HillFloatProps.v
theories/Spec/Route.v
theories/Proofs/RouteProofs.v
theories/Properties/RouteProps.v
theories/Model/VectorFloat.v
theories/Spec/VectorFloat.v
theories/Proofs/VectorFloatProofs.v
theories/Properties/VectorFloatProps.v
theories/Proofs/DaysProofs.v
theories/Properties/DaysProps.v
theories/Model/SiderealFloat.v
theories/Spec/SiderealFloat.v
theories/Proofs/SiderealFloatProofs.v
theories/Properties/SiderealFloatProps.v
theories/Model/FrameFloat.v
theories/Spec/FrameFloat.v
theories/Proofs/FrameFloatBasics.v
theories/Proofs/FrameFloatProofs.v
theories/Proofs/FrameFloatBack.v
theories/Proofs/FrameFloatTrip.v
theories/Proofs/FrameFloatFailure.v
theories/Properties/FrameFloatProps.v
theories/Spec/Ecliptic.v
theories/Proofs/EclipticProofs.v
theories/Proofs/EclipticMotion.v
theories/Properties/EclipticProps.v
theories/Model/Heap.v
theories/Spec/Heap.v
theories/Proofs/HeapProofs.v
theories/Proofs/HeapSteps.v
theories/Proofs/HeapCalls.v
theories/Properties/HeapProps.v
theories/Spec/Sharing.v
theories/Proofs/SharingProofs.v
theories/Properties/SharingProps.v
theories/Model/GroundFloat.v
theories/Spec/GroundFloat.v
theories/Proofs/GroundFloatProofs.v
theories/Proofs/GroundSiteProofs.v
theories/Properties/GroundFloatProps.v
theories/Model/EarthFloat.v
theories/Spec/EarthFloat.v
theories/Proofs/EarthFloatProofs.v
theories/Proofs/EarthFloatChain.v
theories/Properties/EarthFloatProps.v
theories/Proofs/OrbitFloatAngles.v
theories/Proofs/OrbitFloatProofs.v
theories/Properties/OrbitFloatProps.v
theories/Model/BodyFloat.v
theories/Spec/BodyFloat.v
theories/Proofs/BodyFloatProofs.v
theories/Properties/BodyFloatProps.v
theories/Model/ForceFloat.v
theories/Proofs/ForceFloatProofs.v
theories/Properties/ForceFloatProps.v
theories/Model/GravityFloat.v
theories/Spec/GravityFloat.v
theories/Proofs/GravityFloatBasics.v
theories/Proofs/GravityFloatAngles.v
theories/Proofs/GravityFloatSums.v
theories/Proofs/GravityFloatEcef.v
theories/Proofs/GravityFloatBack.v
theories/Proofs/GravityFloatDerivative.v
theories/Properties/GravityFloatProps.v
theories/Model/StepFloat.v
theories/Spec/StepFloat.v
theories/Proofs/StepFloatProofs.v
theories/Proofs/StepFloatError.v
theories/Proofs/StepFloatMany.v
theories/Proofs/StepFloatMotion.v
theories/Properties/StepFloatProps.v
theories/Proofs/StepFloatParts.v
theories/Proofs/StepFloatTo.v
theories/Properties/StepFloatToProps.v
theories/Model/BurnFloat.v
theories/Spec/BurnFloat.v
theories/Proofs/BurnFloatProofs.v
theories/Properties/BurnFloatProps.v
theories/Model/ThrustFloat.v
theories/Spec/ThrustFloat.v
theories/Proofs/ThrustFloatProofs.v
theories/Properties/ThrustFloatProps.v
