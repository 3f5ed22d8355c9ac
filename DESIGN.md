# A Rocq model of brandon-sexton/openspace

## 1. What is modelled, and how

The library is numerical Python: vectors, orbital formulas, frame conversions,
two propagators, a relative Kalman filter, Gauss's orbit determination and a
spacecraft object with a small attitude/tracking state machine.

* **Shallow embedding.** Every Python function becomes one Gallina function of
  the same name (`theories/Model/*.v`), branch by branch and in the order of the
  Python statements. Every definition carries the file and lines it models.
* **Numbers.** Python floats are modelled by Coq's real numbers `R`, i.e. the
  model is the program run in exact arithmetic. Rounding, overflow, NaN,
  infinities and signed zeros are *not* modelled, except in the files named
  `*Float.v`, where IEEE-754 binary64 operations (Flocq's `round` to nearest
  even with 53-bit precision) are used explicitly.
* **Exceptions are values.** `res A := Ok a | Err e`. Division, square root,
  `asin`, `acos`, `log`, `log10`, `**` are partial (`pdiv`, `psqrt`, `pasin`,
  `pacos`, `plog`, `plog10`, `ppow`) and raise what CPython raises
  (`ZeroDivisionError`, `ValueError`); a negative base with a fractional
  exponent gives `ComplexResult`.
  Stateful methods return the new object *together with* the outcome, so the
  state left behind by an exception is visible.
* **Loops** are fuel-indexed; running out of fuel is the separate outcome
  `OutOfFuel`, and theorems quantify over all fuels. Termination is stated as
  "some fuel returns, and every larger fuel returns the same".
* **Randomness.** Each `random.gauss`/`random.uniform` call is an explicit
  argument; theorems quantify over it.
* **Objects.** Python attributes become record fields; mutable spacecraft that
  reference each other live in a store indexed by identifiers. `Heap.v` models
  object identity and attribute assignment for states, vectors and RK4
  propagators, and C111 proves that the record model agrees with it.

### Python module to model file

| Python (`src/openspace/`) | Model |
|---|---|
| `math/constants.py` | `Constants.v` |
| `math/linalg.py` | `Linalg.v`, `VectorFloat.v` (binary64 vectors) |
| `math/functions.py` | `Functions.v`, `KeplerFloat.v` (binary64 Kepler iteration) |
| `time.py` | `Time.v` (exact), `TimeFloat.v` (binary64), `AngleFloat.v` (binary64 angle reduction), `SiderealFloat.v` (binary64 sidereal time) |
| `bodies/celestial.py` | `Celestial.v`, `EarthFloat.v` (binary64 Earth orientation), `BodyFloat.v` (binary64 Sun and Moon) |
| `coordinates/positions.py` | `Positions.v`, `PositionsFloat.v` (binary64 `to_lla`), `GroundFloat.v` (binary64 spherical coordinates, sites and observations), `EarthFloat.v` (binary64 Earth orientation) |
| `coordinates/states.py` | `States.v`, `FrameFloat.v` (binary64 Hill frame conversions), `ForceFloat.v` and `GravityFloat.v` (binary64 accelerations) |
| `coordinates/elements.py` | `Elements.v`, `ElementsFloat.v` (binary64 `from_ijk`) |
| `estimation/*.py` | `Obs.v`, `Filtering.v`, `Iod.v` |
| `propagators/inertial.py`, `propagators/relative.py` | `Inertial.v`, `Relative.v`, `ClockFloat.v` (binary64 epochs), `RelativeFloat.v` (binary64 Hill propagation), `StepFloat.v` (binary64 steps and whole propagations), `BurnFloat.v` (binary64 burn durations), `ThrustFloat.v` (binary64 thrust acceleration), `Heap.v` (object identity of RK4 and its states) |
| `hardware/*.py` | `Constraints.v`, `Payloads.v` |
| `bodies/artificial.py`, `bodies/terrestrial.py` | `Artificial.v`, `Terrestrial.v` |
| `planning/maneuvers.py` | `Maneuvers.v` |

`Num.v` holds the exception monad and the partial numeric primitives.

**Not modelled:** the `__str__` methods of the vector classes, the abstract
`Observation` base class (methods that only `pass`/raise), module imports and
`__init__.py` files, rounding outside the `*Float.v` files, Python recursion
limits and memory.

## 2. Layout

    theories/Model/       the model (see the table above)
    theories/Spec/        small independent specifications (textbook notions)
    theories/Proofs/      lemmas
    theories/Properties/  one file per group: property theorems only,
                          each with an Example meeting its hypotheses and
                          a Print Assumptions
    ../seeded/LOG.jsonl   wrong programs tried against the theorems

Theorem names start with the property id (`C36_from_ijk` belongs to C36). A
name ending in `_refuted` exhibits a reachable case in which the behaviour a
user would expect fails.

## 3. Trusted base

* Coq 8.16.1's kernel.
* The axioms of the Coq standard library that `Print Assumptions` lists, see
  section 5 for each theorem:
  `ClassicalDedekindReals.sig_forall_dec`, `ClassicalDedekindReals.sig_not_dec`,
  `FunctionalExtensionality.functional_extensionality_dep` (the real numbers)
  and, where Coquelicot, Flocq or `Ranalysis` lemmas use it,
  `Classical_Prop.classic`.
* No axiom is added, no kernel check is disabled. Coquelicot and Flocq are used
  as libraries of checked proofs and add no axiom beyond those above.
* Reading: that the Gallina text says what the Python text says (the cited
  lines are meant to be compared side by side), and that the properties'
  English text and the specification files in `theories/Spec` are what a user
  means.

## 4. Properties: what is modelled and how each is proved

Properties marked "(defect)" describe what the code does for all inputs where
that differs from what its documentation or a user expects; each comes with the
universal characterisation and, where a universally quantified expectation is
false, a concrete witness (`…_refuted`).

| Property | Model | Specification | Proof |
|---|---|---|---|
| C01 Rotation about an axis is a rigid right-handed rotation | `Linalg.v` | `Geometry.v` | vector and matrix algebra (ring, field, nra), trigonometric identities |
| C02 Angle between vectors is the geometric angle | `Linalg.v` | `Geometry.v` | vector and matrix algebra (ring, field, nra), trigonometric identities |
| C03 Normalising yields the unit vector or raises | `Linalg.v` | `Geometry.v` | vector and matrix algebra (ring, field, nra), trigonometric identities |
| C04 Matrix inverse is a two-sided inverse or raises | `Linalg.v` | `Geometry.v` | vector and matrix algebra (ring, field, nra), trigonometric identities |
| C05 Every matrix product and transpose is the textbook one | `Linalg.v` | `Geometry.v` | vector and matrix algebra (ring, field, nra), trigonometric identities |
| C06 Angular noise keeps length and tilts by exactly the drawn angle | `Linalg.v`, draws as arguments | `Geometry.v` | Rodrigues rotation and angle lemmas |
| C07 Cross product is the right-handed orthogonal product | `Linalg.v` | `Geometry.v` | vector and matrix algebra (ring, field, nra), trigonometric identities |
| C08 Semi-major axis, mean motion and period are mutually inverse | `Functions.v` | `Geometry.v` | field, square-root and power lemmas |
| C09 Ellipse shape conversions agree with each other | `Functions.v` | `Geometry.v` | field, square-root and power lemmas |
| C10 Vis-viva speeds and energies agree | `Functions.v` | `Geometry.v` | field, square-root and power lemmas |
| C11 A value returned by the Kepler solver satisfies Kepler's equation | `Functions.v`, fuelled Newton loop | `Geometry.v` | Taylor bound at loop exit; convexity and contraction for termination; strict monotonicity for uniqueness |
| C12 The Kepler solver terminates | `Functions.v`, fuelled Newton loop | `Geometry.v` | Taylor bound at loop exit; convexity and contraction for termination; strict monotonicity for uniqueness |
| C13 Mean and eccentric anomaly conversions are inverse | `Functions.v`, fuelled Newton loop | `Geometry.v` | Taylor bound at loop exit; convexity and contraction for termination; strict monotonicity for uniqueness |
| C14 True anomaly matches the eccentric anomaly | `Functions.v` | `Geometry.v` | atan2 lemmas |
| C15 Angle-valued element functions stay in their documented range | `Functions.v` | `Geometry.v` | atan2 lemmas |
| C16 The stored Legendre table is the associated Legendre table | `Functions.v` | `Legendre.v` | Rodrigues formula on polynomials over R, derivatives |
| C17 Calendar dates map to the right day number | `Time.v` | `Calendar.v` | integer arithmetic, induction on "next day" |
| C18 Epochs are ordered like calendar times | `Time.v` | `Calendar.v` | integer arithmetic, induction on "next day" |
| C19 Calendar arithmetic is exact in binary64 | `TimeFloat.v` (binary64) | `Calendar.v` | rounding error bound against distance to integers |
| C20 Greenwich hour angle is a bounded angle with the sidereal rate | `Time.v` | `Calendar.v` | modular arithmetic, real bounds |
| C21 Precession and Earth rotation matrices are proper rotations; the nutation matrix is not | `Celestial.v` | `Earth.v` | orthogonality algebra, interval-style bounds on trigonometric polynomials |
| C22 GCRF/ITRF position round trip error is bounded | `Celestial.v` | `Earth.v` | orthogonality algebra, interval-style bounds on trigonometric polynomials |
| C23 Sun and Moon distances stay physical | `Celestial.v` | `Earth.v` | orthogonality algebra, interval-style bounds on trigonometric polynomials |
| C24 Point-mass accelerations obey Newton's law and are defined inside the lunar distance | `States.v`, `Celestial.v` | `Forces.v` | vector algebra, Moon and Sun distance bounds, domain lemmas |
| C25 Spherical and Cartesian positions are inverse | `Positions.v` | `Axes.v`, `Geometry.v` | atan2/asin lemmas; quartic identity for the closed-form geodetic latitude |
| C26 Geodetic to ITRF and back is the identity | `Positions.v` | `Axes.v`, `Geometry.v` | atan2/asin lemmas; quartic identity for the closed-form geodetic latitude |
| C27 ITRF to geodetic and back is the identity | `Positions.v` | `Axes.v`, `Geometry.v` | atan2/asin lemmas; quartic identity for the closed-form geodetic latitude |
| C28 ENZ axes are the local east, north and ellipsoid-normal directions | `Positions.v` | `Axes.v`, `Geometry.v` | atan2/asin lemmas; quartic identity for the closed-form geodetic latitude |
| C29 Hill frame axes are orthonormal and follow the orbit | `States.v` | `Geometry.v` | orthonormal frame algebra, polar coordinates |
| C30 HCW to GCRF and back is the identity | `States.v` | `Geometry.v` | orthonormal frame algebra, polar coordinates |
| C31 GCRF to HCW and back is the identity | `States.v` | `Geometry.v` | orthonormal frame algebra, polar coordinates |
| C32 Copying a GCRF state drops force-model settings (defect) | `States.v` | `Geometry.v` | computation |
| C33 Non-spherical gravity is the gradient of the geopotential | `States.v`, `Celestial.v` | `Gravity.v` | term-by-term derivative of the spherical-harmonic potential |
| C34 State derivative is velocity plus the sum of the modelled forces | `States.v`, `Celestial.v` | `Forces.v` | vector algebra, Moon and Sun distance bounds, domain lemmas |
| C35 Solar radiation pressure is never applied to a spacecraft (defect) | `Artificial.v` | `Operations.v` | invariant over histories of calls |
| C36 Classical elements reproduce energy, momentum and orientation of the state | `Elements.v` | `Orbit.v` | vector algebra, Kepler tolerance bound |
| C37 Elements to state conversion has exactly the orbit's energy and momentum | `Elements.v` | `Orbit.v` | vector algebra, Kepler tolerance bound |
| C38 State to elements to state is the identity up to solver tolerance | `Elements.v` | `Orbit.v` | vector algebra, Kepler tolerance bound |
| C39 Equatorial orbits lose their orientation in classical elements (defect) | `Elements.v` | `Orbit.v` | vector algebra, Kepler tolerance bound |
| C40 Hohmann transfer is dynamically consistent | `Maneuvers.v` | `Orbit.v` | monotonicity of vis-viva speeds |
| C41 Stepping to an epoch lands exactly on it | `Inertial.v` | `Propagation.v` | loop invariant over sub-steps, logarithm lemmas |
| C42 Stepping to an epoch respects the maximum step and restores the step size | `Inertial.v` | `Propagation.v` | loop invariant over sub-steps, logarithm lemmas |
| C43 An exception during propagation leaves modified settings behind (defect) | `Inertial.v` | `Propagation.v` | loop invariant over sub-steps, logarithm lemmas |
| C44 Thrust acceleration follows the rocket law | `Inertial.v` | `Propagation.v` | case analysis, field |
| C45 Burn duration satisfies the rocket equation | `Inertial.v` | `Propagation.v` | loop invariant over sub-steps, logarithm lemmas |
| C46 RK4 step is the classical fourth-order Runge-Kutta step | `Inertial.v` | `RungeKutta.v` | unfolding against the textbook scheme, invariant over steps |
| C47 Disabling perturbations does not survive propagation (defect) | `Inertial.v` | `RungeKutta.v` | unfolding against the textbook scheme, invariant over steps |
| C48 Hill propagation solves the Clohessy-Wiltshire equations | `Relative.v` | `Hill.v` | derivatives, energy-type uniqueness argument, induction on step lists |
| C49 Hill steps compose | `Relative.v` | `Hill.v` | derivatives, energy-type uniqueness argument, induction on step lists |
| C50 Hill propagation forgets the epoch (defect) | `Relative.v` | `Hill.v` | derivatives, energy-type uniqueness argument, induction on step lists |
| C51 Filter covariance stays symmetric positive semi-definite | `Filtering.v` | `Covariance.v`, `Hill.v` | quadratic forms, invariant over histories of observations |
| C52 The innovation covariance is always invertible | `Filtering.v` | `Covariance.v`, `Hill.v` | quadratic forms, invariant over histories of observations |
| C53 The gain is the optimal Kalman gain | `Filtering.v` | `Covariance.v`, `Hill.v` | quadratic forms, invariant over histories of observations |
| C54 Filter estimate and its propagator stay in step | `Filtering.v` | `Covariance.v`, `Hill.v` | quadratic forms, invariant over histories of observations |
| C55 A rejected observation advances the filter clock (defect) | `Filtering.v` | `Covariance.v`, `Hill.v` | quadratic forms, invariant over histories of observations |
| C56 Ground observation angles round-trip | `Obs.v`, `Terrestrial.v` | `Axes.v`, `Earth.v` | composition of conversions |
| C57 A ground site's observation points back at the target | `Obs.v`, `Terrestrial.v` | `Axes.v`, `Earth.v` | composition of conversions |
| C58 The secant iteration of Gauss's method only stops at a small correction | `Iod.v` | `Gauss.v` | loop exit analysis |
| C59 Resolution, characterization range and tracking minimum are consistent | `Payloads.v`, `Constraints.v` | `Geometry.v` | trigonometric monotonicity |
| C60 Detection is the conjunction of the sensor constraints and never raises | `Artificial.v` | `Operations.v`, `Sensing.v` | state machine invariants over histories of calls, measure on the tracking graph |
| C61 Visual magnitude is defined off the sun line, fades with distance, and ignores the target's size (defect) | `Artificial.v` | `Operations.v`, `Sensing.v` | state machine invariants over histories of calls, measure on the tracking graph |
| C62 Attitude axes are orthogonal, right-handed and point where the steering mode says | `Artificial.v` | `Operations.v`, `Sensing.v` | state machine invariants over histories of calls, measure on the tracking graph |
| C63 Slew flag follows the slew clock | `Artificial.v` | `Operations.v`, `Sensing.v` | state machine invariants over histories of calls, measure on the tracking graph |
| C64 Re-targeting while tracking is ignored (defect) | `Artificial.v` | `Operations.v`, `Sensing.v` | state machine invariants over histories of calls, measure on the tracking graph |
| C65 Tracking keeps targets synchronised and terminates | `Artificial.v` | `Operations.v`, `Sensing.v` | state machine invariants over histories of calls, measure on the tracking graph |
| C66 A failed mode change leaves the spacecraft unusable (defect) | `Artificial.v` | `Operations.v`, `Sensing.v` | state machine invariants over histories of calls, measure on the tracking graph |
| C67 An impulsive maneuver changes velocity only | `Artificial.v` | `Operations.v`, `Sensing.v` | state machine invariants over histories of calls, measure on the tracking graph |
| C68 A finite maneuver thrusts in the wrong direction (defect) | `Artificial.v` | `Operations.v`, `Sensing.v` | state machine invariants over histories of calls, measure on the tracking graph |
| C69 A finite maneuver increases the propellant mass (defect) | `Artificial.v` | `Operations.v`, `Sensing.v` | state machine invariants over histories of calls, measure on the tracking graph |
| C70 Greenwich hour angle is continuous across UTC midnight to a microdegree | `Time.v` | `Calendar.v` | modular arithmetic, real bounds |
| C71 Adding days to an epoch is an exact group action | `Time.v` | `Calendar.v` | modular arithmetic, real bounds |
| C72 Solar pressure pushes straight away from the Sun with a distance-independent magnitude | `States.v`, `Celestial.v` | `Gravity.v` | term-by-term derivative of the spherical-harmonic potential |
| C73 A finite burn never delivers the commanded velocity change (defect) | `Inertial.v` | `Propagation.v` | Simpson error sign by the fourth derivative of 1/(m - x) |
| C74 Propagation cannot fail where the forces are defined | `Inertial.v`, `States.v` | `Propagation.v` | acceleration bounds on the flyable region, induction on sub-steps |
| C75 Gauss's two-position orbit passes through both observed positions | `Iod.v` | `Gauss.v`, `Orbit.v` | plane geometry of the ellipse through two points; Kepler equation |
| C76 Gauss's method loses the longitude of equatorial observations (defect) | `Iod.v` | `Gauss.v`, `Orbit.v` | plane geometry of the ellipse through two points; Kepler equation |
| C77 Orientation angles describe the plane and the position in it | `Functions.v`, `States.v`, `Elements.v` | `TwoBody.v`, `Orbit.v` | derivatives of the conserved quantities vanish; uniform growth of Kepler's equation; inverse function for existence |
| C78 Unperturbed motion conserves energy, angular momentum and the apse line | `Functions.v`, `States.v`, `Elements.v` | `TwoBody.v`, `Orbit.v` | derivatives of the conserved quantities vanish; uniform growth of Kepler's equation; inverse function for existence |
| C79 Elements along unperturbed motion: five constant, mean anomaly uniform | `Functions.v`, `States.v`, `Elements.v` | `TwoBody.v`, `Orbit.v` | derivatives of the conserved quantities vanish; uniform growth of Kepler's equation; inverse function for existence |
| C80 Advancing the mean anomaly predicts the motion | `Functions.v`, `States.v`, `Elements.v` | `TwoBody.v`, `Orbit.v` | derivatives of the conserved quantities vanish; uniform growth of Kepler's equation; inverse function for existence |
| C81 Elements to state to elements is the identity up to solver tolerance | `Functions.v`, `States.v`, `Elements.v` | `TwoBody.v`, `Orbit.v` | derivatives of the conserved quantities vanish; uniform growth of Kepler's equation; inverse function for existence |
| C82 Landing error of step_to_epoch in double precision | `ClockFloat.v`, rounding as a parameter | binary64 of Flocq | epochs as integers in ticks of 2^-37 day; round-half-even parity argument; measure on the tracking graph |
| C83 Tracking spacecraft with rounded clocks | `ClockFloat.v`, rounding as a parameter | binary64 of Flocq | epochs as integers in ticks of 2^-37 day; round-half-even parity argument; measure on the tracking graph |
| C84 Angle reduction in double precision | `AngleFloat.v` (binary64) | binary64 of Flocq | rounding to nearest even at the top of a binade |
| C85 Filter error stays within the reported uncertainty | `Filtering.v`, `Relative.v` | `Tracking.v`, `Covariance.v`, `Hill.v` | quadratic-form invariant over observation histories; simulation relation between histories with and without look-ahead; closed-form motion |
| C86 Looking ahead does not disturb the filter | `Filtering.v`, `Relative.v` | `Tracking.v`, `Covariance.v`, `Hill.v` | quadratic-form invariant over observation histories; simulation relation between histories with and without look-ahead; closed-form motion |
| C87 Shape of propagated relative motion | `Filtering.v`, `Relative.v` | `Tracking.v`, `Covariance.v`, `Hill.v` | quadratic-form invariant over observation histories; simulation relation between histories with and without look-ahead; closed-form motion |
| C88 What a simulated observation contains | `Artificial.v`, `Filtering.v`, `Obs.v` | `Acquisition.v`, `Operations.v` | composition with C04, C31 and C52; invariant of all filters over histories |
| C89 Acquisition and the life of a filter | `Artificial.v`, `Filtering.v`, `Obs.v` | `Acquisition.v`, `Operations.v` | composition with C04, C31 and C52; invariant of all filters over histories |
| C90 Gauss's method succeeds on slow enough observations | `Iod.v` | `Gauss.v` | the sector equation is strictly falling and convex: monotone secant iteration; comparison of orbits with nearby sector ratios; series bounds for the rejected arcs |
| C91 Gauss's method refuses fast observations (defect) | `Iod.v` | `Gauss.v` | the sector equation is strictly falling and convex: monotone secant iteration; comparison of orbits with nearby sector ratios; series bounds for the rejected arcs |
| C92 Rounding of the classical elements (defect on circular orbits) | `ElementsFloat.v`, `PositionsFloat.v` (binary64; the C library's functions are a parameter) | `Orbit.v`, `Geometry.v`, binary64 of Flocq | relative error bounds through each operation; failing inputs evaluated with Flocq's executable binary64 operations, related to rounding by a reflective evaluator |
| C93 Rounding of geodetic coordinates (defect at the poles) | `ElementsFloat.v`, `PositionsFloat.v` (binary64; the C library's functions are a parameter) | `Orbit.v`, `Geometry.v`, binary64 of Flocq | relative error bounds through each operation; failing inputs evaluated with Flocq's executable binary64 operations, related to rounding by a reflective evaluator |
| C94 Orbit determination does not depend on who observes | `Obs.v`, `Iod.v`, `Terrestrial.v`, `Artificial.v`, `Positions.v` | `Sightings.v`, `Earth.v`, `Acquisition.v` | closed form of the frame conversion; composition with C57, C88 and C90 |
| C95 Kepler's equation in floating point | `KeplerFloat.v` (binary64; the C library's functions are a parameter) | `LibmAccuracy.v` | a rounded step follows Newton's step up to a small error; such an iteration falls until it is near the root (convex part) or contracts (middle part), so it settles; reflections for the other half turns; quadratic error at the last step |
| C96 States from elements in floating point | `KeplerFloat.v`, `ElementsFloat.v` (binary64) | `LibmAccuracy.v`, `Orbit.v`, `Geometry.v` | absolute and relative error bounds through each operation, from C95 for the anomaly; sensitivity of energy and momentum to the state; composition with C36, C37 and C92 |
| C97 Smaller steps approach the true motion | `Inertial.v`, `States.v`, `Celestial.v` | `Motion.v`, `Propagation.v` | the force is bounded and Lipschitz in time, place and day number on the flyable region (a small calculus of such functions); one-step error against integrals; jumps at midnights telescope; discrete Gronwall bound by induction on the steps |
| C98 The force model determines the motion | `States.v`, `Celestial.v` | `Motion.v`, `Propagation.v` | Picard iteration in an exponentially weighted norm; functions with one jump a day are integrable; uniqueness and stability by comparing both motions with the same propagation |
| C99 Hill propagation follows two-body motion to second order | `Relative.v`, `States.v` | `Rendezvous.v`, `TwoBody.v`, `Motion.v` | spherical coordinates of the second body in the rotating frame; exact equations of motion; the residual against the linear equations is of second order; mean value theorem along the transition matrix |
| C100 Relative velocity is the change of relative position about circular orbits only | `States.v` | `TwoBody.v`, `Motion.v` | the frame turns at rate h/R^2 about a fixed normal; derivative of the polar angle off the negative axis |
| C101 Propagation is fourth-order accurate between UTC midnights | `Inertial.v`, `States.v`, `Celestial.v` | `Motion.v`, `Propagation.v` | the forces are compositions of operations that preserve a class of functions with Lipschitz derivatives of every order; motions are smooth by bootstrapping; Taylor formula by subdivision; the stage errors cancel to fourth order; stability of the step; discrete Gronwall bound |
| C102 Hill propagation in floating point | `RelativeFloat.v` | `HillFloat.v`, `Hill.v`, `LibmAccuracy.v` | forward error bounds for each matrix entry and each sum of products; bound on the spread of the exact motion; induction over all prefixes of the list of steps |
| C103 Propagation does not depend on the route through time | `Inertial.v`, `States.v` | `Route.v`, `Motion.v`, `Propagation.v` | one-step error and stability bounds of C101 applied to each leg; induction over the route with an exponential bound in the distance travelled; the return trip and two routes follow |
| C104 Angles between vectors in floating point | `VectorFloat.v`, `ElementsFloat.v` | `VectorFloat.v`, `Geometry.v` | forward error bound of the rounded cosine; close cosines have close angles, quadratically at the ends; normalisation error; concrete failures evaluated in binary64 |
| C105 Propagation over several days | `Inertial.v`, `States.v`, `Time.v` | `Route.v`, `Motion.v`, `Propagation.v` | local error from the true state: fifth order on a leg within a UTC day (C101 on the shifted motion), first order otherwise (C97); stability of the step; induction over the route |
| C106 Sidereal time in floating point | `SiderealFloat.v`, `Time.v` | `SiderealFloat.v` | forward error bound of each rounded operation; exactness of the rounded day split; comparison with the exact angle at the rounded date through the daily rate (C20) and the bound on the jump at midnight (C70) |
| C107 Conversion to the Hill frame in floating point | `FrameFloat.v`, `States.v` | `FrameFloat.v`, `LibmAccuracy.v`, `Geometry.v` | forward error bounds of unit vectors, cross and dot products; Lipschitz bounds of arcsine, arctangent and the rotation; a failing state evaluated in binary64 |
| C108 Conversion from the Hill frame in floating point | `FrameFloat.v`, `States.v` | `FrameFloat.v`, `LibmAccuracy.v`, `Geometry.v` | forward error bounds of the two transposed rotations; Lipschitz bound of the exact inverse conversion composed with C107 and the exact round trip |
| C109 The Sun and the Moon move steadily eastwards along the ecliptic | `Celestial.v` | `Ecliptic.v`, `Geometry.v` | series rewritten as ecliptic coordinates; each term changes by at most amplitude times the change of its angle, so the linear term dominates; intermediate value theorem for the phases |
| C110 Precession and obliquity follow the standard angles | `Celestial.v`, `Time.v` | `Ecliptic.v`, `Geometry.v` | matrix identity with the three turns; polynomial comparison |
| C111 Propagators share no objects with their callers | `Heap.v`, `Inertial.v` | `Heap.v` | heap of objects with attribute assignment; separation invariant (what each propagator reaches is disjoint from the caller and from the others) preserved by every statement; refinement to the value model by induction on the program |
| C112 Filters sharing one Hill propagator do not disturb each other | `Filtering.v`, `Relative.v` | `Sharing.v` | simulation: a filter sets the propagator from its own estimate before every use, so the shared state is dead; induction on the schedule |
| C113 Spherical coordinates and sight lines in floating point | `GroundFloat.v`, `Positions.v` | `GroundFloat.v`, `LibmAccuracy.v` | forward error analysis; the right ascension error is weighted by the cosine of the declination, so the direction is bounded also at the poles; the wrap adds a whole turn up to rounding |
| C114 Ground sites and their observations in floating point | `GroundFloat.v`, `Terrestrial.v`, `Obs.v` | `GroundFloat.v`, `LibmAccuracy.v`, `Geometry.v` | forward error analysis of the ellipsoid formula, of the rows of the site frame and of the dot products |
| C115 Earth orientation in floating point | `EarthFloat.v`, `SiderealFloat.v`, `Celestial.v` | `EarthFloat.v`, `Geometry.v` | interval-style error propagation through the polynomials and series (magnitude and error bound carried together); rows of rounded matrices; a rotation about the pole moves a point by at most the angle times its distance |
| C116 Site observations of a spacecraft in floating point | `EarthFloat.v`, `GroundFloat.v`, `Terrestrial.v` | `EarthFloat.v`, `GroundFloat.v` | composition of C114 and C115 |
| C117 All six elements of a state in floating point | `ElementsFloat.v`, `AngleFloat.v` | `Orbit.v`, `SiderealFloat.v`, `GroundFloat.v` | a perturbed two-argument arctangent moves by at most 1.44 times the relative perturbation of its arguments (up to whole turns); error bounds of the arguments of each angle, with the polar radius of each (sin i, e, 1 - e cos E) as denominator |
| C118 Positions of the Sun and the Moon in floating point | `BodyFloat.v`, `EarthFloat.v`, `Celestial.v` | `BodyFloat.v`, `Ecliptic.v` | size-and-error intervals carried through every term of the two series; composition with C109 |
| C119 Accelerations in floating point | `ForceFloat.v`, `BodyFloat.v`, `States.v` | `Forces.v`, `BodyFloat.v` | vector rounding lemma; Lipschitz bound of x/|x|^3; C118 for the bodies; the tidal difference is bounded term by term, so no cancellation is hidden |
| C120 Non-spherical gravity and the equations of motion in floating point | `GravityFloat.v`, `ForceFloat.v`, `EarthFloat.v`, `States.v` | `GravityFloat.v`, `Forces.v`, `EarthFloat.v` | stepwise interval bounds through the angles, Legendre values and coefficient sums; C115 for both frame changes; five rounded additions over C119; latitudes beyond 84.2 degrees are left out (tan has no bound there) |
| C121 One coasting step in floating point | `StepFloat.v`, `GravityFloat.v`, `Inertial.v` | `StepFloat.v` | C120 at each of the four stages, whose points stay within 1 km of the exact reach; rounded sums; Lipschitz forces (C97) turn stage errors into state errors |
| C122 Whole propagations in floating point | `StepFloat.v`, `Inertial.v` | `StepFloat.v`, `Motion.v` | induction over the steps: discrete Gronwall bound of the exact step plus the error of C121; C101 at every intermediate epoch keeps the run inside the margin; the constant is existential, so the condition that the bound is below 1 is shown satisfiable for every constant; runs across a UTC midnight are left out (the forces jump there) |
| C123 Propagation to an epoch in floating point | `StepFloat.v`, `Inertial.v` | `StepFloat.v`, `Motion.v` | the successor of 300k divided by 300 lies beyond the midpoint above k, so a rounded quotient cannot hide an excess; epochs lie on a grid of 2^-39 days; C121 and C122; the constant of C123_motion is existential and its smallness conditions are shown satisfiable for constants up to 1e5 |
| C124 Burn duration in floating point | `BurnFloat.v`, `Inertial.v` | `BurnFloat.v`, `Geometry.v` | relative error calculus through the exponent; the rounded base e shifts the exponent by 1.2e-16; x exp(-x) <= 1 bounds the amplification; logarithm of a ratio near 1 for the delivered speed |
| C125 Thrust acceleration in floating point | `ThrustFloat.v`, `Inertial.v` | `ThrustFloat.v`, `Propagation.v` | relative error calculus; the inaccurate logarithm appears in both factors and cancels; neighbours of 1 in binary64 decide whether the logarithm is zero |

Every property can be expressed in the model; none is marked not applicable.

## 5. What `Print Assumptions` lists for each theorem

D = `ClassicalDedekindReals.sig_forall_dec`, N = `ClassicalDedekindReals.sig_not_dec`,
F = `FunctionalExtensionality.functional_extensionality_dep`, C = `Classical_Prop.classic`,
"closed" = no axiom.

| Theorem | Axioms |
|---|---|
| `C01_rotation_composes` | D N F |
| `C01_rotation_fixes_axis` | D N F |
| `C01_rotation_is_rodrigues` | D N F |
| `C01_rotation_raises` | D N F |
| `C01_rotation_rigid` | D N F |
| `C01_rotation_undone` | D N F |
| `C02_angle_is_geometric` | D N F C |
| `C02_angle_raises` | D N F C |
| `C02_angle_scale_free` | D N F C |
| `C02_angle_symmetric` | D N F C |
| `C03_normalized_raises` | D N F |
| `C03_normalized_unit` | D N F |
| `C04_determinant_is_volume` | D F |
| `C04_inverse_raises` | D F |
| `C04_inverse_two_sided` | D F |
| `C05_identity_left` | D F |
| `C05_identity_right` | D F |
| `C05_mat36_columns` | D |
| `C05_mat36_times_mat63` | D F |
| `C05_mat36_times_vector` | D F |
| `C05_mat36_transpose` | D F |
| `C05_mat3_columns` | D |
| `C05_mat3_diagonal` | D F |
| `C05_mat3_plus` | D F |
| `C05_mat3_scaled` | D F |
| `C05_mat3_times_mat36` | D F |
| `C05_mat3_times_vector` | D F |
| `C05_mat3_transpose` | D F |
| `C05_mat63_columns` | D |
| `C05_mat63_times_mat3` | D F |
| `C05_mat63_times_mat36` | D F |
| `C05_mat63_times_vector` | D F |
| `C05_mat63_transpose` | D F |
| `C05_mat66_columns` | D |
| `C05_mat66_diagonal` | D F |
| `C05_mat66_identity` | D F |
| `C05_mat66_minus` | D F |
| `C05_mat66_plus` | D F |
| `C05_mat66_times_mat63` | D F |
| `C05_mat66_times_mat66` | D F |
| `C05_mat66_times_vector` | D F |
| `C05_mat66_transpose` | D F |
| `C05_product_acts` | D F |
| `C05_product_associative` | D F |
| `C05_transpose_of_product` | D F |
| `C05_vec6_dot` | D F |
| `C05_vec6_minus` | D F |
| `C05_vec6_plus` | D F |
| `C06_angular_noise` | D N F C |
| `C06_angular_noise_raises` | D N F |
| `C06_magnitude_noise` | D N F |
| `C06_with_noise` | D N F |
| `C07_cross_product` | D N F |
| `C08_mean_motion` | D N F C |
| `C08_period` | D N F C |
| `C08_vis_viva` | D N F |
| `C09_B_raises` | D N F |
| `C09_E_from_a_b_raises` | D N F |
| `C09_E_from_a_p_raises` | D N F |
| `C09_H_raises` | D N F |
| `C09_ellipse` | D N F |
| `C09_momentum_of_parameter` | D N F |
| `C09_parameter_of_momentum` | D N F |
| `C100_any_orbit` | D N F C |
| `C100_circular` | D N F C |
| `C100_eccentric_refuted` | D N F C |
| `C100_rates` | D N F C |
| `C101_fourth_order` | D N F C |
| `C101_way_points` | D N F C |
| `C102_one_step` | D N F C |
| `C102_steps` | D N F C |
| `C103_route` | D N F C |
| `C103_there_and_back` | D N F C |
| `C103_two_routes` | D N F C |
| `C104_accuracy` | D N F C |
| `C104_apart_refuted` | D N F C |
| `C104_pointed` | D N F C |
| `C104_self_refuted` | D N F C |
| `C105_days` | D N F C |
| `C105_short_crossings` | D N F C |
| `C106_accuracy` | D N F C |
| `C106_range` | D N F C |
| `C106_within_day` | D N F C |
| `C107_everywhere_refuted` | D N F C |
| `C107_to_hill` | D N F C |
| `C108_round_trip` | D N F C |
| `C108_to_inertial` | D N F C |
| `C109_moon` | D N F C |
| `C109_moon_eastward` | D N F C |
| `C109_phases` | D N F C |
| `C109_sun` | D N F C |
| `C109_sun_eastward` | D N F C |
| `C109_year` | D N F |
| `C10_conic_speed` | D N F |
| `C10_energy_axis` | D N F |
| `C10_energy_speed` | D N F |
| `C110_obliquity` | D N F C |
| `C110_precession` | D N F C |
| `C111_copy` | D |
| `C111_frame` | D N F C |
| `C111_isolated` | D N F C |
| `C111_new` | D |
| `C111_vector_list_refuted` | D F |
| `C112_estimates` | D N F C |
| `C112_propagator_refuted` | D N F |
| `C113_angles` | D N F C |
| `C113_from_cartesian` | D N F C |
| `C113_round_trip` | D N F C |
| `C113_to_cartesian` | D N F C |
| `C114_back` | D N F C |
| `C114_observation` | D N F C |
| `C114_site` | D N F C |
| `C115_round_trip` | D N F C |
| `C115_to_gcrf` | D N F C |
| `C115_to_itrf` | D N F C |
| `C116_angles_and_range` | D N F C |
| `C117_elements` | D N F C |
| `C117_plane` | D N F C |
| `C118_moon` | D N F C |
| `C118_sun` | D N F C |
| `C118_track` | D N F C |
| `C119_earth` | D N F C |
| `C119_moon` | D N F C |
| `C119_srp` | D N F C |
| `C119_sun` | D N F C |
| `C11_kepler_error` | D N F C |
| `C11_kepler_nonnegative` | D N F C |
| `C11_kepler_residual` | D N F C |
| `C120_derivative` | D N F C |
| `C120_gravity` | D N F C |
| `C120_two_body` | D N F C |
| `C121_error` | D N F C |
| `C121_step` | D N F C |
| `C122_motion` | D N F C |
| `C122_steps` | D N F C |
| `C123_motion` | D N F C |
| `C123_parts` | D N F C |
| `C123_short` | D N F C |
| `C124_delivered` | D N F C |
| `C124_duration` | D N F C |
| `C125_accurate` | D N F C |
| `C125_ignition` | D N F C |
| `C125_off` | D N F C |
| `C12_kepler_terminates` | D N F C |
| `C13_EA_of_MA` | D N F C |
| `C13_MA_of_EA` | D N F C |
| `C13_kepler_unique` | D N F C |
| `C14_true_anomaly` | D N F C |
| `C14_true_anomaly_raises` | D N F C |
| `C15_EA_range` | D N F C |
| `C15_I_range` | D N F C |
| `C15_I_reaches_pi` | D N F C |
| `C15_MA_range` | D N F C |
| `C15_NU_range` | D N F C |
| `C15_RAAN_range` | D N F C |
| `C15_U_range` | D N F C |
| `C15_W_range` | D N F |
| `C16_derivative` | D N F C |
| `C16_legendre_table` | D N F |
| `C16_sentinel` | D N F |
| `C16_spec_derivative` | D N F |
| `C16_spec_power` | D F |
| `C17_consecutive` | D F |
| `C17_day_number` | D F |
| `C17_origin` | D F |
| `C18_elapsed` | D F |
| `C18_increasing` | D F |
| `C18_injective` | D F |
| `C19_epoch_error` | D N F C |
| `C19_floors_exact` | D N F C |
| `C20_polynomial` | D N F |
| `C20_range` | D N F |
| `C20_rate` | D N F |
| `C21_nutation_isometry_iff` | D N F |
| `C21_nutation_rotation_refuted` | D N F C |
| `C21_nutation_stretch` | D N F C |
| `C21_precession` | D N F |
| `C21_rotation` | D N F |
| `C21_rotation_angle` | D N F |
| `C22_exact_round_trip_refuted` | D N F C |
| `C22_gcrf_itrf_gcrf` | D N F C |
| `C22_itrf_gcrf_itrf` | D N F C |
| `C23_moon_distance` | D N F |
| `C23_sun_distance` | D N F |
| `C23_sun_in_ecliptic` | D N F |
| `C24_attraction_magnitude` | D N F |
| `C24_earth` | D N F |
| `C24_earth_centre` | D N F |
| `C24_moon` | D N F |
| `C24_sun` | D N F |
| `C24_vanishes_at_centre` | D N F |
| `C25_cartesian_spherical_cartesian` | D N F C |
| `C25_ranges` | D N F C |
| `C25_spherical_cartesian_spherical` | D N F C |
| `C26_lla_itrf_lla` | D N F C |
| `C27_itrf_lla_itrf` | D N F C |
| `C28_axes` | D N F C |
| `C28_to_itrf` | D N F |
| `C29_raises` | D N F |
| `C29_rotation` | D N F |
| `C30_hcw_gcrf_hcw` | D N F C |
| `C31_gcrf_hcw_gcrf` | D N F C |
| `C31_origin_is_zero` | D N F C |
| `C32_copy` | D |
| `C32_copy_is_duplicate_refuted` | D F |
| `C33_acceleration` | D N F C |
| `C33_coefficients` | D N F |
| `C33_gradient` | D N F C |
| `C34_axis_raises` | D N F C |
| `C34_centre_raises` | D N F C |
| `C34_perturbed` | D N F C |
| `C34_two_body` | D N F C |
| `C35_scalar` | D N F |
| `C35_scalar_computed` | D N F |
| `C35_size_ignored` | D N F C |
| `C35_srp_never_applied` | D N F C |
| `C36_from_ijk` | D N F C |
| `C36_rectilinear` | D N F C |
| `C36_unbound` | D N F C |
| `C37_terminates` | D N F C |
| `C37_to_ijk` | D N F |
| `C38_round_trip` | D N F C |
| `C39_orientation_lost` | D N F C |
| `C39_position_lost` | D N F C |
| `C39_round_trip_refuted` | D N F C |
| `C40_bad_radius` | D N F |
| `C40_consistent` | D N F |
| `C40_reverse` | D N F |
| `C40_signs` | D N F |
| `C41_step_advances` | D N F C |
| `C41_step_to_epoch_lands` | D N F C |
| `C41_steps_advance` | D N F C |
| `C42_already_there` | D N F C |
| `C42_fewest_substeps` | D N F C |
| `C42_settings_restored` | D N F C |
| `C42_substep_bound` | D F |
| `C43_failed_step` | D N F C |
| `C43_step_size_left` | D N F C |
| `C43_thruster_left_on` | D N F C |
| `C44_exhausted` | D N F C |
| `C44_magnitude` | D N F |
| `C44_no_direction` | D N F C |
| `C44_off` | D N F C |
| `C44_off_after_maneuver` | D N F C |
| `C44_rocket_law` | D N F C |
| `C45_increasing` | D N F C |
| `C45_maneuver_duration` | D N F C |
| `C45_rocket_equation` | D N F C |
| `C45_zero_parameter` | D N F |
| `C46_classical_step` | D N F C |
| `C46_defined` | D N F C |
| `C46_scheme_exact` | D F |
| `C46_scheme_linear` | D F |
| `C47_any_history_resets` | D N F C |
| `C47_constructor_resets` | D |
| `C47_later_stages_perturbed` | D N F C |
| `C47_step_resets` | D N F C |
| `C48_bad_axis` | D N F |
| `C48_only_solution` | D N F C |
| `C48_rate` | D N F |
| `C48_solves` | D N F C |
| `C48_uniqueness` | D N F |
| `C49_backwards` | D N F |
| `C49_default_steps` | D N F |
| `C49_total_time` | D N F |
| `C49_two_steps` | D N F |
| `C49_zero_step` | D N F |
| `C50_epoch_lost` | D N F |
| `C50_wrong_unless` | D N F |
| `C51_semidefinite` | D N F C |
| `C51_symmetric` | D N F C |
| `C51_variances` | D N F C |
| `C52_near_target` | D N F C |
| `C52_positive_definite` | D N F C |
| `C52_process_outcome` | D N F C |
| `C53_below_measurement` | D N F C |
| `C53_gain` | D N F C |
| `C53_measurement_helps` | D N F C |
| `C53_optimal` | D N F C |
| `C54_clock` | D N F C |
| `C54_estimate_is_propagated_state` | D N F C |
| `C54_interval` | D N F C |
| `C54_measurement` | D N F C |
| `C54_predicted_covariance` | D N F C |
| `C54_prediction` | D N F C |
| `C55_rejected` | D N F C |
| `C55_short_prediction` | D N F C |
| `C56_angles` | D N F C |
| `C56_space_angles` | D N F C |
| `C57_angles_and_range` | D N F C |
| `C57_points_back` | D N F C |
| `C57_site_from_position` | D N F C |
| `C58_f` | D N F C |
| `C58_loop` | D N F C |
| `C58_residual` | D N F C |
| `C58_w` | D N F C |
| `C59_camera` | D N F |
| `C59_characterization` | D N F |
| `C59_raises` | D N F |
| `C59_scaling` | D N F |
| `C59_tracking_minimum` | D N F C |
| `C60_detection` | D N F C |
| `C60_never_raises` | D N F C |
| `C61_defined` | D N F C |
| `C61_fades` | D N F C |
| `C61_observer_radius` | D N F C |
| `C61_target_ignored` | D N F C |
| `C62_axes` | D N F C |
| `C62_points` | D N F C |
| `C63_cleared` | D N F C |
| `C63_invariant` | D N F C |
| `C63_no_restart` | D N F C |
| `C63_rate` | D N F |
| `C63_start_lvlh` | D N F C |
| `C63_start_sun` | D N F C |
| `C63_start_target` | D N F C |
| `C64_history` | D N F C |
| `C64_retarget_ignored` | D N F C |
| `C65_in_sync_link_stops` | D N F C |
| `C65_synchronised` | D N F C |
| `C65_synchronised_step` | D N F C |
| `C66_failed_track` | D N F C |
| `C66_stuck` | D N F C |
| `C67_impulsive` | D N F |
| `C67_radial` | D N F |
| `C68_backwards_refuted` | D N F C |
| `C68_direction` | D N F C |
| `C68_equatorial` | D N F C |
| `C69_propellant_grows` | D N F C |
| `C70_midnight` | D N F |
| `C71_plus_days` | D F |
| `C72_srp` | D N F |
| `C73_delivered_fraction` | D N F C |
| `C73_mass_restarts` | D N F C |
| `C74_clear_region` | D N F |
| `C74_derivative_defined` | D N F C |
| `C74_maneuver_succeeds` | D N F C |
| `C74_step_to_epoch_succeeds` | D N F C |
| `C75_distinct` | D N F C |
| `C75_flight` | D N F C |
| `C75_through` | D N F C |
| `C76_equatorial` | D N F C |
| `C76_refuted` | D N F C |
| `C77_latitude` | D N F C |
| `C77_normal` | D N F C |
| `C77_perigee` | D N F |
| `C77_state_on_orbit` | D N F C |
| `C78_apse_line` | D N F C |
| `C78_energy` | D N F C |
| `C78_momentum` | D N F C |
| `C78_motion_exists` | D N F C |
| `C79_circular` | D N F C |
| `C79_elements` | D N F C |
| `C80_predict` | D N F C |
| `C81_elements_round_trip` | D N F C |
| `C82_exact_landing_refuted` | D N F C |
| `C82_landing` | D N F C |
| `C82_same_clock` | D N F C |
| `C82_single_step` | D N F C |
| `C83_never_level` | D N F C |
| `C83_tracking_ends` | D N F C |
| `C84_full_turn` | D N F C |
| `C84_perigee_refuted` | D N F C |
| `C84_remainder_exact` | D N F C |
| `C84_remainder_range` | D N F C |
| `C84_remainder_top` | D N F C |
| `C84_wrap` | D N F C |
| `C85_consistent` | D N F C |
| `C85_exact` | D N F C |
| `C85_from_here` | D N F C |
| `C86_look_ahead` | D N F C |
| `C86_restored` | D N F C |
| `C87_bounded` | D N F |
| `C87_conserved` | D N F |
| `C87_ellipse` | D N F |
| `C87_revolutions` | D N F |
| `C88_accepted` | D N F C |
| `C88_feeds_truth` | D N F C |
| `C88_noise_free` | D N F C |
| `C88_observation` | D N F C |
| `C88_raises` | D N F C |
| `C89_acquired` | D N F C |
| `C89_history` | D N F C |
| `C89_process` | D N F C |
| `C89_process_first` | D N F C |
| `C89_refused` | D N F C |
| `C89_untouched` | D N F C |
| `C89_wrong_target` | D N F C |
| `C90_one_root` | D N F C |
| `C90_recovers` | D N F C |
| `C90_solver` | D N F C |
| `C90_success` | D N F C |
| `C91_fast` | D N F C |
| `C91_perigee_refuted` | D N F C |
| `C92_accuracy` | D N F C |
| `C92_circular_refuted` | D N F C |
| `C92_geostationary_refuted` | D N F C |
| `C93_equator` | D N F C |
| `C93_pole_refuted` | D N F C |
| `C94_distances` | D N F C |
| `C94_frame` | D N F |
| `C94_ground` | D N F C |
| `C94_noise` | D N F C |
| `C94_recovers` | D N F C |
| `C94_same_orbit` | D N F C |
| `C94_space` | D N F C |
| `C95_accuracy` | D N F C |
| `C95_terminates` | D N F C |
| `C96_roundtrip` | D N F C |
| `C96_state` | D N F C |
| `C97_clear_region` | D N F C |
| `C97_error_bound` | D N F C |
| `C97_steps_converge` | D N F C |
| `C97_way_points_converge` | D N F C |
| `C98_exists` | D N F C |
| `C98_stable` | D N F C |
| `C98_unique` | D N F C |
| `C99_second_order` | D N F C |
