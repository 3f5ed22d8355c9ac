{"id": "C01", "title": "Rotation about an axis is a rigid right-handed rotation", "statement": "Vector3D.rotation_about_axis(axis, theta) with a nonzero axis returns the vector given by Rodrigues' formula: lengths, dot products and cross products of any two rotated vectors are those of the originals, the axis is fixed, and two rotations about one axis compose to the rotation by the summed angle (so theta and -theta undo each other). With a zero axis it raises ZeroDivisionError and nothing else.", "quantifier": "all vectors, all axes, all angles", "why_tests_cant": "a test fixes one axis and angle; a sign error in one of nine entries can cancel on special axes", "anchors": ["src/openspace/math/linalg.py: Vector3D.rotation_matrix, Vector3D.rotation_about_axis, Matrix3D.multiply_vector"]}
{"id": "C02", "title": "Angle between vectors is the geometric angle", "statement": "Vector3D.angle(a, b) of two nonzero vectors returns the unique value in [0, pi] whose cosine times |a||b| is a.b; it is symmetric and unchanged by positive scaling; the clamping branches never change the exact result. It raises ZeroDivisionError exactly when one vector is zero.", "quantifier": "all pairs of vectors and all positive scales", "why_tests_cant": "ranges over a continuum including parallel and anti-parallel edge cases", "anchors": ["src/openspace/math/linalg.py: Vector3D.angle, Vector3D.dot, Vector3D.magnitude"]}
{"id": "C03", "title": "Normalising yields the unit vector or raises", "statement": "Vector3D.normalized() returns a vector of length exactly 1 that is a positive multiple of the original, and raises ZeroDivisionError exactly for the zero vector.", "quantifier": "all vectors", "why_tests_cant": "infinite domain with a singular point", "anchors": ["src/openspace/math/linalg.py: Vector3D.normalized, Vector3D.scaled, Vector3D.magnitude"]}
{"id": "C04", "title": "Matrix inverse is a two-sided inverse or raises", "statement": "Matrix3D.inverse() returns a matrix whose products with the original on both sides are the identity whenever determinant() is nonzero, and raises ZeroDivisionError exactly when determinant() is zero; determinant() is the signed volume of the rows.", "quantifier": "all 3x3 matrices", "why_tests_cant": "one wrong cofactor sign is invisible on symmetric or diagonal test matrices", "anchors": ["src/openspace/math/linalg.py: Matrix3D.inverse, Matrix3D.determinant, Matrix3D.cofactor, Matrix3D.adjugate"]}
{"id": "C05", "title": "Every matrix product and transpose is the textbook one", "statement": "Each multiply/transpose/plus/minus/column/diagonal/identity method of Matrix3D, Matrix3by6, Matrix6by3 and Matrix6D returns, entry by entry, the textbook matrix sum, product or transpose; hence products are associative, (AB)^T = B^T A^T and the identity is neutral.", "quantifier": "all matrices of every supported shape and all entries", "why_tests_cant": "36 hand-expanded entries per product; a copy/paste slip in one entry needs a dedicated input", "anchors": ["src/openspace/math/linalg.py: Matrix3D, Matrix3by6, Matrix6by3, Matrix6D"]}
{"id": "C06", "title": "Angular noise keeps length and tilts by exactly the drawn angle", "statement": "For every pair of random draws, Vector3D.with_angular_noise returns a vector of the same length whose angle from the original is the absolute value of the gaussian draw (up to pi), and with_magnitude_noise returns a vector collinear with the original whose signed length is the gaussian draw; with_noise composes the two. with_angular_noise raises ZeroDivisionError exactly for vectors on the z axis.", "quantifier": "all vectors, all error magnitudes and all outcomes of the random draws", "why_tests_cant": "the method is random; no finite set of seeds covers all draws", "anchors": ["src/openspace/math/linalg.py: Vector3D.with_noise, Vector3D.with_magnitude_noise, Vector3D.with_angular_noise"]}
{"id": "C07", "title": "Cross product is the right-handed orthogonal product", "statement": "a.cross(b) is orthogonal to a and b, anti-symmetric, satisfies |a x b|^2 + (a.b)^2 = |a|^2 |b|^2, and (a, b, a x b) is right-handed.", "quantifier": "all pairs of vectors", "why_tests_cant": "algebraic identity over a continuum", "anchors": ["src/openspace/math/linalg.py: Vector3D.cross"]}
{"id": "C08", "title": "Semi-major axis, mean motion and period are mutually inverse", "statement": "For positive a and mu: A.from_mu_n(mu, N.from_a_mu(a, mu)) = a, A.from_mu_tau(mu, TAU.from_a_mu(a, mu)) = a, N.from_tau(TAU.from_a_mu(a, mu)) = N.from_a_mu(a, mu), and A.from_mu_r_v(mu, r, V.from_a_mu_r(a, mu, r)) = a for 0 < r < 2a.", "quantifier": "all positive a, mu and all admissible r", "why_tests_cant": "round trips over a continuum; tests only use GEO values", "anchors": ["src/openspace/math/functions.py: SemiMajorAxis, MeanMotion, Period, VisVivaVelocity.from_a_mu_r"]}
{"id": "C09", "title": "Ellipse shape conversions agree with each other", "statement": "For a > 0 and 0 <= e < 1 the functions B.from_a_e, P.from_a_e, P.from_a_b, E.from_a_b, E.from_a_c, E.from_a_p, F.from_a_b, H.from_mu_p and P.from_mu_h describe one and the same ellipse (each composition recovers e, p or h), and the square-root based ones raise ValueError exactly outside the ellipse domain.", "quantifier": "all ellipses", "why_tests_cant": "round trips over a continuum", "anchors": ["src/openspace/math/functions.py: Eccentricity, SemiMinorAxis, SemiParameter, Flattening, ArealVelocity"]}
{"id": "C10", "title": "Vis-viva speeds and energies agree", "statement": "For every conic point the three velocity formulas agree with each other and with both energy formulas: V.from_mu_r_xi(mu, r, XI.from_mu_r_v(mu, r, v)) = v, XI.from_mu_r_v(mu, r, V.from_a_mu_r(a, mu, r)) = XI.from_mu_a(mu, a), and V.from_mu_r_e_nu at r = Radius.from_p_e_nu(a(1-e^2), e, nu) equals V.from_a_mu_r(a, mu, r).", "quantifier": "all a, mu > 0, 0 <= e < 1 and all true anomalies", "why_tests_cant": "continuum of orbits and anomalies", "anchors": ["src/openspace/math/functions.py: VisVivaVelocity, SpecificMechanicalEnergy, Radius"]}
{"id": "C11", "title": "A value returned by the Kepler solver satisfies Kepler's equation", "statement": "Whenever EA.from_ma_e(ma, e) returns E (any ma, 0 <= e <= 1), E - e sin E equals ma up to a multiple of 2 pi with an error below 5e-25 (in exact arithmetic), and for e < 1 E is within 5e-25/(1-e) of the exact eccentric anomaly; the returned value is never negative for ma > -pi.", "quantifier": "all mean anomalies, all eccentricities in [0,1), every number of Newton iterations", "why_tests_cant": "loop with data-dependent iteration count; the residual bound must hold on every exit", "anchors": ["src/openspace/math/functions.py: EccentricAnomaly.from_ma_e"]}
{"id": "C12", "title": "The Kepler solver terminates", "statement": "EA.from_ma_e(ma, e) terminates without raising for every 0 <= e < 1 and every -pi < ma <= 2 pi (exact arithmetic).", "quantifier": "all eccentricities below 1 and all mean anomalies in (-pi, 2 pi]", "why_tests_cant": "Newton's iteration can cycle for near-parabolic orbits; no finite sample rules that out", "anchors": ["src/openspace/math/functions.py: EccentricAnomaly.from_ma_e"]}
{"id": "C13", "title": "Mean and eccentric anomaly conversions are inverse", "statement": "MA.from_ea_e(EA.from_ma_e(ma, e), e) recovers ma within 5e-25 for 0 <= ma < 2 pi away from the wrap, and Kepler's equation has exactly one solution, so the returned anomaly is the one of the orbit.", "quantifier": "all 0 <= e < 1, all ma in [0, 2 pi)", "why_tests_cant": "round trip through an iterative solver over a continuum", "anchors": ["src/openspace/math/functions.py: MeanAnomaly.from_ea_e, EccentricAnomaly.from_ma_e"]}
{"id": "C14", "title": "True anomaly matches the eccentric anomaly", "statement": "NU.from_e_ea(e, E) returns the nu in [0, 2 pi) with (1-e^2) cos-sin relation r cos nu = a(cos E - e), r sin nu = a sqrt(1-e^2) sin E, where r = a(1 - e cos E) = P/(1 + e cos nu); it raises ValueError exactly for |e| > 1.", "quantifier": "all 0 <= e < 1 and all E", "why_tests_cant": "quadrant handling over a continuum", "anchors": ["src/openspace/math/functions.py: TrueAnomaly.from_e_ea, Radius.from_p_e_nu"]}
{"id": "C15", "title": "Angle-valued element functions stay in their documented range", "statement": "RAAN.from_w, U.from_r_w, NU.from_e_ea, EA.from_rdv_r_a_n lie in [0, 2 pi); W.from_u_nu lies in [0, 2 pi) when both inputs do; MA.from_ea_e lies in [0, 2 pi) for E in [0, 2 pi) and 0 <= e < 1; I.from_w lies in [0, pi], and reaches pi (contrary to the documented strict bound) exactly for retrograde equatorial orbits.", "quantifier": "all input vectors and angles", "why_tests_cant": "range claim over a continuum with branch cuts", "anchors": ["src/openspace/math/functions.py: RightAscensionNode, Inclination, ArgumentOfLatitude, ArgumentOfPerigee, EccentricAnomaly.from_rdv_r_a_n, MeanAnomaly"]}
{"id": "C16", "title": "The stored Legendre table is the associated Legendre table", "statement": "For every latitude phi, LegendrePolynomial(phi).p[n][m] (n <= 4, m <= n) equals the associated Legendre function P_nm(sin phi) defined by Rodrigues' formula (without Condon-Shortley phase), every row ends in a zero sentinel, and d/dphi p[n][m] = p[n][m+1] - m tan(phi) p[n][m].", "quantifier": "all latitudes, all degrees and orders in the table", "why_tests_cant": "identity of functions over a continuum", "anchors": ["src/openspace/math/functions.py: LegendrePolynomial"]}
{"id": "C17", "title": "Calendar dates map to the right day number", "statement": "Epoch.from_gregorian(y, m, d, 0, 0, 0) is the number of days from 1858-11-17 to the proleptic Gregorian date y-m-d, for every valid date of every (also negative) year: consecutive calendar days differ by exactly one.", "quantifier": "all integer years, all valid months and days", "why_tests_cant": "leap-year and month-length rules over infinitely many years", "anchors": ["src/openspace/time.py: Epoch.from_gregorian"]}
{"id": "C18", "title": "Epochs are ordered like calendar times", "statement": "For valid civil date-times, Epoch.from_gregorian is strictly increasing in the lexicographic order of (year, month, day, hour, minute, second); hence injective.", "quantifier": "all pairs of valid civil date-times", "why_tests_cant": "pairs over an infinite domain", "anchors": ["src/openspace/time.py: Epoch.from_gregorian", "src/openspace/math/functions.py: Conversions.hms_to_decimal_day"]}
{"id": "C19", "title": "Calendar arithmetic is exact in binary64", "statement": "With IEEE-754 binary64 rounding of the divisions y/400, y/100, y/4 and of the product 30.6001*(m+1), the floors taken by from_gregorian are the exact ones, for every |year| <= 2^40 and month 1..12.", "quantifier": "all integer years up to 2^40 in magnitude", "why_tests_cant": "a rounding-error claim over 2^41 years", "anchors": ["src/openspace/time.py: Epoch.from_gregorian"]}
{"id": "C20", "title": "Greenwich hour angle is a bounded angle with the sidereal rate", "statement": "greenwich_hour_angle() lies in [0, 2 pi) at every epoch, equals the documented polynomial plus rotation modulo 2 pi, and advances within one UTC day at exactly 360.98564724 degrees per day (modulo 360).", "quantifier": "all epochs", "why_tests_cant": "modular arithmetic over a continuum", "anchors": ["src/openspace/time.py: Epoch.greenwich_hour_angle"]}
{"id": "C21", "title": "Precession and Earth rotation matrices are proper rotations; the nutation matrix is not", "statement": "At every epoch Earth.precession and Earth.rotation are orthogonal with determinant 1. Earth.nutation is orthogonal only when both nutation angles vanish; it stretches lengths by a factor between 1 and 1 + 5.5e-9.", "quantifier": "all epochs and all vectors", "why_tests_cant": "trigonometric matrices over a continuum of epochs", "anchors": ["src/openspace/bodies/celestial.py: Earth.precession, Earth.nutation, Earth.rotation"]}
{"id": "C22", "title": "GCRF/ITRF position round trip error is bounded", "statement": "itrf.to_gcrf(gcrf.to_itrf(p, t), t) differs from p by at most 1.1e-8 |p| at every epoch (both orders), and is not exactly p in general because the nutation matrix is inverted by transposition.", "quantifier": "all positions and epochs", "why_tests_cant": "worst-case bound over a continuum", "anchors": ["src/openspace/coordinates/positions.py: _PositionConvertGCRF, _PositionConvertITRF"]}
{"id": "C23", "title": "Sun and Moon distances stay physical", "statement": "At every epoch |Sun.get_position| is between 1.470e8 and 1.522e8 km and |Moon.get_position| is between 356096 and 413904 km; neither raises.", "quantifier": "all epochs", "why_tests_cant": "bound over all time", "anchors": ["src/openspace/bodies/celestial.py: Sun.get_position, Moon.get_position"]}
{"id": "C24", "title": "Point-mass accelerations obey Newton's law and are defined inside the lunar distance", "statement": "acceleration_from_earth points to the Earth's centre with magnitude MU/r^2 and raises ZeroDivisionError only at the centre; acceleration_from_moon and acceleration_from_sun equal the tidal third-body formula, vanish at the Earth's centre, and are defined for every position closer than 356096 km.", "quantifier": "all states within 356096 km of the Earth and all epochs", "why_tests_cant": "continuum of positions and epochs", "anchors": ["src/openspace/coordinates/states.py: GCRF.acceleration_from_earth, acceleration_from_moon, acceleration_from_sun"]}
{"id": "C25", "title": "Spherical and Cartesian positions are inverse", "statement": "SphericalPosition.from_cartesian(p).to_cartesian() = p for every p, with radius |p|, right ascension in [0, 2 pi) and declination in [-pi/2, pi/2]; and from_cartesian(to_cartesian(r, ra, dec)) recovers (r, ra, dec) for r > 0, ra in [0, 2 pi), |dec| < pi/2.", "quantifier": "all positions and all spherical triples", "why_tests_cant": "branch cuts over a continuum", "anchors": ["src/openspace/coordinates/positions.py: SphericalPosition"]}
{"id": "C26", "title": "Geodetic to ITRF and back is the identity", "statement": "itrf.to_lla(lla.to_itrf(lat, lon, h)) = (lat, lon, h) exactly (exact arithmetic) for |lat| < pi/2, lon in [0, 2 pi) and h >= -6000 km; no exception is raised.", "quantifier": "all geodetic positions from 6000 km depth upward", "why_tests_cant": "closed-form quartic solution; correctness is an algebraic identity over a continuum", "anchors": ["src/openspace/coordinates/positions.py: _PositionConvertLLA.to_itrf, _PositionConvertITRF.to_lla"]}
{"id": "C27", "title": "ITRF to geodetic and back is the identity", "statement": "lla.to_itrf(itrf.to_lla(p)) = p for every ITRF position more than 43 km from the Earth's centre; to_lla never raises there.", "quantifier": "all positions farther than 43 km from the centre, poles and equator included", "why_tests_cant": "closed-form quartic solution over a continuum", "anchors": ["src/openspace/coordinates/positions.py: _PositionConvertITRF.to_lla, _PositionConvertLLA.to_itrf"]}
{"id": "C28", "title": "ENZ axes are the local east, north and ellipsoid-normal directions", "statement": "ENZ.matrix(lon, lat) is a rotation whose rows are the unit vectors along increasing longitude, increasing latitude and increasing altitude of lla.to_itrf at that site.", "quantifier": "all longitudes, latitudes and altitudes where the site is off the polar axis", "why_tests_cant": "directional derivatives over a continuum", "anchors": ["src/openspace/coordinates/positions.py: ENZ.matrix, _PositionConvertENZ.to_itrf"]}
{"id": "C29", "title": "Hill frame axes are orthonormal and follow the orbit", "statement": "HCW.frame_matrix(origin) for a non-radial orbit is a rotation with rows radial, in-track, cross-track: it maps the origin's position to (|r|, 0, 0) and velocity to (r.v/|r|, |r x v|/|r|, 0). It raises ZeroDivisionError exactly when position x velocity is zero.", "quantifier": "all origin states", "why_tests_cant": "continuum of states with singular set", "anchors": ["src/openspace/coordinates/states.py: HCW.frame_matrix"]}
{"id": "C30", "title": "HCW to GCRF and back is the identity", "statement": "StateConvert.gcrf.to_hcw(origin, StateConvert.hcw.to_gcrf(h, origin)) returns h's position and velocity for every non-radial origin and every h with |r|+x > 0, |y/r| < pi, |z/r| < pi/2.", "quantifier": "all origins and relative states in the domain", "why_tests_cant": "nonlinear curvilinear transformation over 12 dimensions", "anchors": ["src/openspace/coordinates/states.py: _StateConvertHCW.to_gcrf, _StateConvertGCRF.to_hcw"]}
{"id": "C31", "title": "GCRF to HCW and back is the identity", "statement": "StateConvert.hcw.to_gcrf(StateConvert.gcrf.to_hcw(origin, s), origin) returns s's position and velocity for every non-radial origin and every s not on the origin's cross-track axis, stamped with the origin's epoch; converting the origin itself gives the zero relative state.", "quantifier": "all pairs of inertial states in the domain", "why_tests_cant": "nonlinear transformation over 12 dimensions", "anchors": ["src/openspace/coordinates/states.py: _StateConvertGCRF.to_hcw, _StateConvertHCW.to_gcrf"]}
{"id": "C32", "title": "Copying a GCRF state drops force-model settings (defect)", "statement": "State.copy() is documented to duplicate the state. For every GCRF state the copy has the same epoch, position and velocity, but thrust is zero, srp_scalar is 0 and use_perturbations is True; hence a copy equals its original only if those attributes still have their defaults.", "quantifier": "all GCRF states", "why_tests_cant": "must hold for every attribute combination", "anchors": ["src/openspace/coordinates/states.py: State.copy, GCRF.__init__"]}
{"id": "C33", "title": "Non-spherical gravity is the gradient of the geopotential", "statement": "In the Earth-fixed frame the acceleration computed by acceleration_from_gravity is, at every point off the polar axis, the gradient of the degree 2..4 spherical-harmonic geopotential with the stored coefficients, where the stored coefficients are the normalised ones times the standard normalisation factor; on the axis it raises ZeroDivisionError.", "quantifier": "all Earth-fixed positions off the polar axis", "why_tests_cant": "gradient identity over a continuum; a wrong index or sign shifts the force slightly", "anchors": ["src/openspace/coordinates/states.py: GCRF.acceleration_from_gravity", "src/openspace/bodies/celestial.py: Earth.C, Earth.S", "src/openspace/math/functions.py: LegendrePolynomial"]}
{"id": "C34", "title": "State derivative is velocity plus the sum of the modelled forces", "statement": "derivative() returns the velocity and the sum of thrust and Earth attraction, plus Moon, Sun, solar-pressure and non-spherical terms exactly when use_perturbations is set; it is defined for every position off the Earth's axis and inside the lunar distance.", "quantifier": "all states, epochs and force-model settings", "why_tests_cant": "sum over all combinations of settings", "anchors": ["src/openspace/coordinates/states.py: GCRF.derivative"]}
{"id": "C35", "title": "Solar radiation pressure is never applied to a spacecraft (defect)", "statement": "A Spacecraft computes its SRP scalar as (1 + albedo) times its cross-section in square metres over its mass in kilograms, but in every reachable state of every history of operations (completed or raised) the propagated state's srp_scalar is 0, so acceleration_from_srp is the zero vector; no scalar attribute (albedo, radius, masses) has any influence on how any number of spacecraft move.", "quantifier": "all histories of spacecraft operations", "why_tests_cant": "statement about every reachable state", "anchors": ["src/openspace/bodies/artificial.py: Spacecraft.__init__", "src/openspace/propagators/inertial.py: RK4.__init__, RK4.step", "src/openspace/coordinates/states.py: State.copy"]}
{"id": "C36", "title": "Classical elements reproduce energy, momentum and orientation of the state", "statement": "ClassicalElements.from_ijk of a bound, non-rectilinear state yields a > 0 and 0 <= e < 1 with -mu/2a the orbital energy, a(1-e^2) = h^2/mu, cos i and (for inclined orbits) raan the direction of the momentum vector; it raises nothing.", "quantifier": "all bound non-rectilinear states", "why_tests_cant": "continuum of orbits including circular and inclined edge cases", "anchors": ["src/openspace/coordinates/elements.py: ClassicalElements.from_ijk"]}
{"id": "C37", "title": "Elements to state conversion has exactly the orbit's energy and momentum", "statement": "For a > 0, 0 <= e < 1 and any angles, whatever value the Kepler solver returns, to_ijk yields a state with energy -mu/2a, momentum vector sqrt(mu a (1-e^2)) (sin raan sin i, -cos raan sin i, cos i), radius between a(1-e) and a(1+e).", "quantifier": "all element sets", "why_tests_cant": "must hold for every solver exit", "anchors": ["src/openspace/coordinates/elements.py: ClassicalElements.to_ijk, perigee_vector, semilatus_rectum_vector"]}
{"id": "C38", "title": "State to elements to state is the identity up to solver tolerance", "statement": "For every bound, non-rectilinear, non-equatorial, non-circular state, to_ijk(from_ijk(s)) terminates and returns a position within 1e-24 a/(1-e) of the original (and a proportionally small velocity error), with the same epoch.", "quantifier": "all such states", "why_tests_cant": "composition of ten functions with branch cuts over six dimensions", "anchors": ["src/openspace/coordinates/elements.py: ClassicalElements.from_ijk, ClassicalElements.to_ijk"]}
{"id": "C39", "title": "Equatorial orbits lose their orientation in classical elements (defect)", "statement": "For every state whose momentum is along the z axis from_ijk returns an argument of latitude of zero, so distinct equatorial states have the same elements and to_ijk does not return the original.", "quantifier": "all equatorial states", "why_tests_cant": "holds on a whole lower-dimensional family missed by generic tests", "anchors": ["src/openspace/coordinates/elements.py: ClassicalElements.from_ijk", "src/openspace/math/functions.py: ArgumentOfLatitude.from_r_w"]}
{"id": "C40", "title": "Hohmann transfer is dynamically consistent", "statement": "For all positive radii the two transfer velocities share one energy and one angular momentum, delta_v_1 and delta_v_2 are positive for r1 < r2, zero for r1 = r2 and negative for r1 > r2 (so they are signed, not the documented magnitudes), and the reverse transfer has the negated burns in reverse order.", "quantifier": "all pairs of positive radii", "why_tests_cant": "sign and symmetry claims over a continuum", "anchors": ["src/openspace/planning/maneuvers.py: Hohmann, VisViva"]}
{"id": "C41", "title": "Stepping to an epoch lands exactly on it", "statement": "RK4.step_to_epoch(t), when it raises nothing, leaves the state's epoch equal to t (exact arithmetic) for every earlier, equal or later t, and RK4.step advances the epoch by step_size seconds.", "quantifier": "all propagators, all target epochs before and after", "why_tests_cant": "data-dependent loop count", "anchors": ["src/openspace/propagators/inertial.py: RK4.step_to_epoch, RK4.step"]}
{"id": "C42", "title": "Stepping to an epoch respects the maximum step and restores the step size", "statement": "step_to_epoch takes the fewest equal sub-steps not exceeding MAX_STEP seconds in magnitude, performs none when already there, and leaves step_size and the thrust settings as they were.", "quantifier": "all propagators and target epochs", "why_tests_cant": "data-dependent loop count", "anchors": ["src/openspace/propagators/inertial.py: RK4.step_to_epoch"]}
{"id": "C43", "title": "An exception during propagation leaves modified settings behind (defect)", "statement": "If a sub-step raises inside step_to_epoch the step_size stays at the sub-step value, and if it raises inside maneuver the thruster stays on (m_dot non-zero), so later calls to step propagate with them.", "quantifier": "all crash points of all propagations", "why_tests_cant": "statement about every crash point", "anchors": ["src/openspace/propagators/inertial.py: RK4.step_to_epoch, RK4.maneuver"]}
{"id": "C44", "title": "Thrust acceleration follows the rocket law", "statement": "While a maneuver is active thrust_vector(dt) points along the commanded direction with magnitude m_dot*isp*g0/(m0 - m_dot*dt) for every 0 <= m_dot*dt < m0, and is zero when no maneuver is active; after a completed maneuver no thrust remains.", "quantifier": "all thrust settings and times", "why_tests_cant": "removable singularity at dt = 0 handled by a separate branch", "anchors": ["src/openspace/propagators/inertial.py: RK4.thrust_vector, RK4.maneuver"]}
{"id": "C45", "title": "Burn duration satisfies the rocket equation", "statement": "RK4.maneuver propagates for the duration T with isp*g0*ln(m0/(m0 - m_dot*T)) = |dv|, which is positive, below m0/m_dot, and increasing in |dv|.", "quantifier": "all positive masses, flow rates, specific impulses and dv", "why_tests_cant": "transcendental identity over a continuum", "anchors": ["src/openspace/propagators/inertial.py: RK4.maneuver"]}
{"id": "C46", "title": "RK4 step is the classical fourth-order Runge-Kutta step", "statement": "RK4.step computes y + h/6 (k1 + 2 k2 + 2 k3 + k4) for the six-dimensional system defined by derivative(), with stage times t, t+h/2, t+h/2, t+h; in particular it is exact for motion whose acceleration is constant.", "quantifier": "all states and step sizes", "why_tests_cant": "a wrong weight or stage time changes results only at high order", "anchors": ["src/openspace/propagators/inertial.py: RK4.step"]}
{"id": "C47", "title": "Disabling perturbations does not survive propagation (defect)", "statement": "use_perturbations = False on the state given to RK4 or Spacecraft is lost by the constructor, and when set on the propagator's own state it affects only the first stage of the next step: after any step the state's use_perturbations is True again and the three later stages always use the full force model.", "quantifier": "all states and histories", "why_tests_cant": "statement about every history", "anchors": ["src/openspace/propagators/inertial.py: RK4.__init__, RK4.step", "src/openspace/coordinates/states.py: GCRF.__init__"]}
{"id": "C48", "title": "Hill propagation solves the Clohessy-Wiltshire equations", "statement": "The trajectory t -> system_matrix(t) x0 satisfies x'' = 3 n^2 x + 2 n y', y'' = -2 n x', z'' = -n^2 z with the initial state at t = 0, and the matrix's velocity rows are the time derivatives of its position rows; it is the only solution.", "quantifier": "all semi-major axes, initial states and times", "why_tests_cant": "differential equation over a continuum", "anchors": ["src/openspace/propagators/relative.py: Hill.system_matrix"]}
{"id": "C49", "title": "Hill steps compose", "statement": "step_by_seconds(a) followed by step_by_seconds(b) equals step_by_seconds(a+b), step_by_seconds(0) changes nothing, and stepping by -t undoes stepping by t; any sequence of steps depends only on the total time.", "quantifier": "all sequences of step durations", "why_tests_cant": "sequences of unbounded length", "anchors": ["src/openspace/propagators/relative.py: Hill.step_by_seconds, Hill.system_matrix"]}
{"id": "C50", "title": "Hill propagation forgets the epoch (defect)", "statement": "After any positive number of Hill steps the state's epoch is Epoch(0), whatever the epoch of the initial state and the elapsed time.", "quantifier": "all initial states and step sequences", "why_tests_cant": "statement about every history", "anchors": ["src/openspace/propagators/relative.py: Hill.step_by_seconds", "src/openspace/coordinates/states.py: HCW.from_state_vector"]}
{"id": "C51", "title": "Filter covariance stays symmetric positive semi-definite", "statement": "After any sequence of process() calls, with any observations and any interleaving of failures, the filter's covariance is symmetric and positive semi-definite.", "quantifier": "all histories of observations", "why_tests_cant": "unbounded histories, all real measurement values", "anchors": ["src/openspace/estimation/filtering.py: RelativeKalman.process, predict_covariance, update_covariance"]}
{"id": "C52", "title": "The innovation covariance is always invertible", "statement": "In every reachable filter state gain() never divides by zero: H P H^T + R is positive definite for any measurement noise, including zero noise.", "quantifier": "all histories of observations", "why_tests_cant": "singularity over unbounded histories", "anchors": ["src/openspace/estimation/filtering.py: RelativeKalman.gain", "src/openspace/math/linalg.py: Matrix3D.inverse"]}
{"id": "C53", "title": "The gain is the optimal Kalman gain", "statement": "The computed gain K satisfies K (H P H^T + R) = P H^T, the Joseph-form update equals (I - K H) P, and no other gain gives a smaller covariance in the positive semi-definite order. After an accepted observation the reported position variance along any direction is at most that of the observation.", "quantifier": "all reachable filter states and all competing gains", "why_tests_cant": "optimality quantifies over all gains", "anchors": ["src/openspace/estimation/filtering.py: RelativeKalman.gain, update_covariance"]}
{"id": "C54", "title": "Filter estimate and its propagator stay in step", "statement": "After any successful process() the filter's epoch is the observation's epoch, the stored estimate equals the state vector of its propagator, and the predicted part used the exact time since the previous observation.", "quantifier": "all histories of observations", "why_tests_cant": "unbounded histories", "anchors": ["src/openspace/estimation/filtering.py: RelativeKalman.process, update_state, predict_state"]}
{"id": "C55", "title": "A rejected observation advances the filter clock (defect)", "statement": "If process() raises (for example the observed point lies on the cross-track axis through the Earth's centre), the estimate and covariance are unchanged but the filter's epoch has already moved to the observation's epoch, so the next observation is predicted over too short an interval.", "quantifier": "all histories with a failing observation", "why_tests_cant": "statement about every crash point", "anchors": ["src/openspace/estimation/filtering.py: RelativeKalman.process"]}
{"id": "C56", "title": "Ground observation angles round-trip", "statement": "GroundObservation.from_angles_and_range(site, az, el, r) stores exactly azimuth az, elevation el and range r for az in [0, 2 pi), |el| < pi/2, r > 0.", "quantifier": "all angles and ranges", "why_tests_cant": "branch cuts over a continuum", "anchors": ["src/openspace/estimation/obs.py: GroundObservation.from_angles_and_range, GroundObservation.__init__"]}
{"id": "C57", "title": "A ground site's observation points back at the target", "statement": "For every site and target, GroundSite.angles_and_range(target).ijk_position() equals gcrf.to_ijk of the target's position at the target's epoch, gcrf_position() is within 1.1e-8 relative of the target's GCRF position, and the observed range is the distance from site to target in the Earth-fixed frame.", "quantifier": "all sites with altitude >= -6000 km off the poles, all targets and epochs", "why_tests_cant": "composition of geodetic, topocentric and rotation transforms over a continuum", "anchors": ["src/openspace/bodies/terrestrial.py: GroundSite", "src/openspace/estimation/obs.py: GroundObservation.ijk_position, gcrf_position"]}
{"id": "C58", "title": "The secant iteration of Gauss's method only stops at a small correction", "statement": "If Gauss.solve_nu returns nu then the last secant correction was below 1e-12 and |f| at the previous iterate is below 1e-12 times the last secant slope; f_of_nu and w_of_omega raise exactly outside 0 < m/nu^2 - l < 1 (ValueError) or on its boundary values where a division is singular.", "quantifier": "all inputs and all iteration counts", "why_tests_cant": "data-dependent loop", "anchors": ["src/openspace/estimation/iod.py: Gauss.solve_nu, Gauss.f_of_nu, Gauss.w_of_omega"]}
{"id": "C59", "title": "Resolution, characterization range and tracking minimum are consistent", "statement": "For pixels > 0 and 0 < fov < pi/2, resolution(r) is at most the resolution limit 1e-5 km exactly when r <= limits.characterization, range_error grows with the square of the range, and an object of radius R fills the field of view exactly at tracking_minimum(R).", "quantifier": "all cameras and ranges", "why_tests_cant": "equivalence over a continuum", "anchors": ["src/openspace/hardware/payloads.py: Camera", "src/openspace/hardware/constraints.py: OpticalConstraints"]}
{"id": "C60", "title": "Detection is the conjunction of the sensor constraints and never raises", "statement": "For every pair of spacecraft at distinct non-degenerate positions detect() returns True exactly when sun, earth and moon angles are at least their limits, the visual magnitude is at most the limit and the boresight angle is at most the field of view; it raises nothing as long as the positions are distinct and inside the lunar distance.", "quantifier": "all pairs of spacecraft states and epochs", "why_tests_cant": "five-way decision with a partial function (log10) guarded by an earlier branch", "anchors": ["src/openspace/bodies/artificial.py: Spacecraft.detect, visual_magnitude"]}
{"id": "C61", "title": "Visual magnitude is defined off the sun line, fades with distance, and ignores the target's size (defect)", "statement": "visual_magnitude is defined exactly when the target is not exactly towards the sun, increases by 5 log10 k when the range grows by a factor k at fixed direction, and does not depend on any attribute of the target but its position, although it is documented to use the target's radius; the observer's own radius is used instead, so a larger observer sees every target brighter.", "quantifier": "all pairs of spacecraft", "why_tests_cant": "continuum; independence quantifies over all target attributes", "anchors": ["src/openspace/bodies/artificial.py: Spacecraft.visual_magnitude"]}
{"id": "C62", "title": "Attitude axes are orthogonal, right-handed and point where the steering mode says", "statement": "In every reachable state (after completed and raised operations alike) the stored body axes of every spacecraft are mutually orthogonal with body_x x body_y along +body_z; after every completed step, step_to_epoch, update_attitude, track_* or acquire, body_z is the vector to the Earth's centre, away from the Sun, or to the tracked target according to the steering mode at the current epoch.", "quantifier": "all histories of operations on any number of spacecraft", "why_tests_cant": "statement about every reachable state", "anchors": ["src/openspace/bodies/artificial.py: Spacecraft.update_attitude, track_lvlh, track_sun, track_state, step, step_to_epoch"]}
{"id": "C63", "title": "Slew flag follows the slew clock", "statement": "A mode change starts a slew from the current epoch lasting the angle between the old boresight and the new direction divided by 0.5 deg/s (for a constructed spacecraft); slewing stays set until the first update strictly after slew_stop and is then cleared; re-commanding the current mode never restarts the slew; in every history of completed operations without finite burns a slewing spacecraft has a slew end that is not past.", "quantifier": "all histories of operations", "why_tests_cant": "temporal property of all schedules", "anchors": ["src/openspace/bodies/artificial.py: Spacecraft.track_lvlh, track_sun, track_state, update_attitude"]}
{"id": "C64", "title": "Re-targeting while tracking is ignored (defect)", "statement": "track_state(b) on a spacecraft already in target mode leaves tracked_target unchanged, so after track_state(a); track_state(b) the payload still points at a.", "quantifier": "all spacecraft already tracking", "why_tests_cant": "history-dependent behaviour", "anchors": ["src/openspace/bodies/artificial.py: Spacecraft.track_state"]}
{"id": "C65", "title": "Tracking keeps targets synchronised and terminates", "statement": "When a spacecraft in target mode is stepped, every spacecraft on the chain of tracked_target links followed as long as they are out of sync ends at the same epoch and points as its mode says; the recursion terminates even for cyclic tracking (exact arithmetic), spacecraft outside that chain are untouched, and a link that is already in sync ends the chain, so spacecraft beyond it stay behind.", "quantifier": "all tracking graphs and epochs", "why_tests_cant": "mutual recursion over arbitrary graphs", "anchors": ["src/openspace/bodies/artificial.py: Spacecraft.update_attitude, step_to_epoch"]}
{"id": "C66", "title": "A failed mode change leaves the spacecraft unusable (defect)", "statement": "If track_state raises while computing the slew angle (target at the same position), the first time slewing is started, the spacecraft is left slewing with no slew_stop, and until another steering mode is commanded no later step, update, re-track or acquisition of it completes, whatever is done to it or to other spacecraft in between.", "quantifier": "all spacecraft and targets at coincident positions", "why_tests_cant": "statement about crash points", "anchors": ["src/openspace/bodies/artificial.py: Spacecraft.track_state, update_attitude"]}
{"id": "C67", "title": "An impulsive maneuver changes velocity only", "statement": "impulsive_maneuver(burn) on a non-radial orbit keeps epoch, position, attitude and all attributes, and adds to the velocity the one vector whose radial, in-track and cross-track components are those of the burn; on a radial orbit it raises and changes nothing.", "quantifier": "all states and burns", "why_tests_cant": "nonlinear frame conversion over a continuum", "anchors": ["src/openspace/bodies/artificial.py: Spacecraft.impulsive_maneuver"]}
{"id": "C68", "title": "A finite maneuver thrusts in the wrong direction (defect)", "statement": "finite_maneuver multiplies the RIC burn by the inertial-to-RIC matrix instead of its transpose: the commanded direction has the right magnitude for every state, but is the vector of the RIC components of the burn read as an inertial vector. In the equatorial plane, an in-plane burn is thrust twice the right ascension off the right direction, so it is right only on the x axis, and a quarter orbit later an in-track burn thrusts exactly backwards.", "quantifier": "all states and burns", "why_tests_cant": "magnitude-only tests pass; direction is wrong on almost all states", "anchors": ["src/openspace/bodies/artificial.py: Spacecraft.finite_maneuver", "src/openspace/coordinates/states.py: HCW.frame_matrix"]}
{"id": "C69", "title": "A finite maneuver increases the propellant mass (defect)", "statement": "For every burn that completes, with positive mass, flow rate and specific impulse, finite_maneuver increases propellant_mass by exactly the mass it should have consumed (m_dot times the burn duration).", "quantifier": "all spacecraft and burns", "why_tests_cant": "sign error in a duration that tests of the trajectory do not see", "anchors": ["src/openspace/bodies/artificial.py: Spacecraft.finite_maneuver"]}
{"id": "C70", "title": "Greenwich hour angle is continuous across UTC midnight to a microdegree", "statement": "When the UTC day rolls over, greenwich_hour_angle() continues the previous day's linear advance with a fixed jump of at most 1.5e-6 degrees (modulo 2 pi), for every day within four centuries of J2000.", "quantifier": "all UTC days within 146100 days of J2000 and all epochs in the preceding day", "why_tests_cant": "a discontinuity bound over every midnight", "anchors": ["src/openspace/time.py: Epoch.greenwich_hour_angle"]}
{"id": "C71", "title": "Adding days to an epoch is an exact group action", "statement": "plus_days(s) then plus_days(t) is plus_days(s+t), plus_days(0) is the identity, and the Julian century count advances by exactly t/36525, in real arithmetic.", "quantifier": "all epochs and all real day counts", "why_tests_cant": "algebraic law over all reals", "anchors": ["src/openspace/time.py: Epoch.plus_days, Epoch.julian_centuries_past_j2000"]}
{"id": "C72", "title": "Solar pressure pushes straight away from the Sun with a distance-independent magnitude", "statement": "acceleration_from_srp is anti-parallel to the direction to the Sun, is linear in srp_scalar and has magnitude P * srp_scalar / 1000 whatever the distance to the Sun (the direction is normalised before its length is squared, so no 1/d^2 factor is applied).", "quantifier": "all states closer than 147.099e6 km and all epochs", "why_tests_cant": "continuum of positions and epochs", "anchors": ["src/openspace/coordinates/states.py: GCRF.acceleration_from_srp"]}
{"id": "C73", "title": "A finite burn never delivers the commanded velocity change (defect)", "statement": "RK4.maneuver(dv, ...) changes the velocity by the effect of the natural forces plus c*dv, where c < 1 whenever the burn lasts longer than MAX_STEP (every sub-step restarts the thrust law from the initial mass) and c > 1 whenever it fits in one step (Simpson's rule overestimates the thrust integral).", "quantifier": "all states, positive masses, flow rates, specific impulses and non-zero dv for which the maneuver completes", "why_tests_cant": "a test fixes one burn; the sign of the error for all burn lengths and mass ratios needs the convexity of the thrust law", "anchors": ["src/openspace/propagators/inertial.py:RK4.maneuver", "src/openspace/propagators/inertial.py:RK4.thrust_vector", "src/openspace/propagators/inertial.py:RK4.step_to_epoch"]}
{"id": "C74", "title": "Propagation cannot fail where the forces are defined", "statement": "If every place the spacecraft could reach during the propagation is between 6500 km and 300000 km from the centre of the Earth, within a century of J2000 and not near the polar axis, then derivative, step_to_epoch and maneuver raise nothing, accelerations stay below 0.05 km/s^2 plus thrust, and the displacement stays within the reach assumed.", "quantifier": "all states in the region, all target epochs, all thrust settings with bounded thrust", "why_tests_cant": "no exception for every reachable stage of every propagation needs bounds on all force models, not samples", "anchors": ["src/openspace/propagators/inertial.py:RK4.step", "src/openspace/propagators/inertial.py:RK4.step_to_epoch", "src/openspace/coordinates/states.py:GCRF.derivative"]}
{"id": "C75", "title": "Gauss's two-position orbit passes through both observed positions", "statement": "If Gauss.coes_from_positions returns elements for two positions whose plane is not the equator, then the returned orbit is an ellipse (0 < a, 0 <= e < 1) with inclination in [0, pi] and RAAN in [0, 2 pi), its epoch is that of the first observation, at the eccentric anomaly its mean anomaly belongs to it is exactly at the first position, and it passes exactly through the second position. The Kepler flight time between them along the short arc equals the time between the observations times (n + F(n))/|n|, where F is Gauss's equation and n is the ratio the secant loop returned from Hansen's guess. Collinear positions or simultaneous observations always raise.", "quantifier": "all pairs of positions, all epochs, all iteration counts", "why_tests_cant": "real-valued geometry with a data-dependent loop; tests see a few observation pairs", "anchors": ["src/openspace/estimation/iod.py: Gauss.coes_from_positions"]}
{"id": "C76", "title": "Gauss's method loses the longitude of equatorial observations (defect)", "statement": "For any two positions in the equatorial plane for which Gauss.coes_from_positions returns elements, the returned orbit is on the +x axis at the first epoch, whatever the first observed position was; there are observations for which the orbit therefore misses the first position.", "quantifier": "all pairs of equatorial positions", "why_tests_cant": "tests use inclined orbits; the claim is about a whole plane of inputs", "anchors": ["src/openspace/estimation/iod.py: Gauss.coes_from_positions"]}
{"id": "C77", "title": "Orientation angles describe the plane and the position in it", "statement": "For every vector w, the node from RightAscensionNode.from_w and the inclination from Inclination.from_w give back the direction of w; for every unit w not along the pole and every position r perpendicular to it, ArgumentOfLatitude.from_r_w is the angle of r from the ascending node; ArgumentOfPerigee.from_u_nu plus the true anomaly is the argument of latitude up to whole turns; and the elements from_ijk returns for a bound non-equatorial state name exactly its position and velocity.", "quantifier": "all vectors, all unit normals and in-plane positions, all bound non-equatorial states", "why_tests_cant": "quadrants and branch cuts of three inverse tangents over a continuum of planes", "anchors": ["src/openspace/math/functions.py: RightAscensionNode, Inclination, ArgumentOfLatitude, ArgumentOfPerigee", "src/openspace/coordinates/elements.py: ClassicalElements.from_ijk"]}
{"id": "C78", "title": "Unperturbed motion conserves energy, angular momentum and the apse line", "statement": "Along every motion whose position and velocity change at the rate GCRF.derivative returns with perturbations off and no thrust, the orbital energy, the angular momentum vector and the eccentricity vector are constant for all time; such a motion starts from every bound non-equatorial state.", "quantifier": "all motions and all times", "why_tests_cant": "infinite-time statement about solutions of the equations of motion", "anchors": ["src/openspace/coordinates/states.py: GCRF.derivative, GCRF.acceleration_from_earth"]}
{"id": "C79", "title": "Elements along unperturbed motion: five constant, mean anomaly uniform", "statement": "Along every bound non-equatorial unperturbed motion with non-zero eccentricity, from_ijk returns the same semimajor axis, eccentricity, inclination, node and perigee at all times, and a mean anomaly that grows by sqrt(mu/a^3) times the elapsed seconds modulo a turn; on a circular orbit the sum of perigee and mean anomaly does.", "quantifier": "all motions and all times", "why_tests_cant": "links a numerical conversion with the flow of a differential equation for all time", "anchors": ["src/openspace/coordinates/elements.py: ClassicalElements.from_ijk", "src/openspace/coordinates/states.py: GCRF.derivative"]}
{"id": "C80", "title": "Advancing the mean anomaly predicts the motion", "statement": "Taking the elements of a bound eccentric non-equatorial state, adding mean motion times elapsed time to the mean anomaly (modulo a turn) and calling to_ijk terminates and returns the position of the unperturbed motion at that time within 1e-24 a/(1-e), and its velocity within the proportional tolerance.", "quantifier": "all motions, times and epochs", "why_tests_cant": "analytic propagation against a differential equation for all time", "anchors": ["src/openspace/coordinates/elements.py: ClassicalElements.to_ijk, ClassicalElements.from_ijk"]}
{"id": "C81", "title": "Elements to state to elements is the identity up to solver tolerance", "statement": "For all elements with a > 0, 0 < e < 1, 0 < i < pi and node and perigee in [0, 2 pi), from_ijk(to_ijk(el)) returns exactly the same semimajor axis, eccentricity, inclination, node, perigee and epoch, and the mean anomaly within 5e-25 modulo a turn.", "quantifier": "all such elements", "why_tests_cant": "composition of ten functions with branch cuts over six dimensions", "anchors": ["src/openspace/coordinates/elements.py: ClassicalElements.from_ijk, ClassicalElements.to_ijk"]}
{"id": "C82", "title": "Landing error of step_to_epoch in double precision", "statement": "With every operation rounded to binary64, step_to_epoch leaves the state's epoch within one tick (7.3e-12 day, 0.63 microseconds) per 300-second step of the requested epoch, for epochs between MJD 33000 and 65000. A request at most 300 seconds away is met exactly unless the clock stands on an even multiple of 2^-37 day and the request on an odd one, when it is missed by exactly one tick; so exact arrival, which holds in exact arithmetic, is false in general.", "quantifier": "all pairs of binary64 epochs in the range, any number of sub-steps", "why_tests_cant": "the parity that decides exactness is invisible to tests with round epochs, and the bound must hold for every pair of doubles", "anchors": ["src/openspace/propagators/inertial.py: RK4.step, RK4.step_to_epoch", "src/openspace/time.py: Epoch.plus_days"]}
{"id": "C83", "title": "Tracking spacecraft with rounded clocks", "statement": "With binary64 epochs, the mutually recursive updates between step_to_epoch and update_attitude end for every tracking graph (including cycles) of spacecraft whose epochs are within a day of each other, although the epochs may never become equal: a target on an even tick is never brought to the epoch of a tracker on an odd tick, however often the attitude is updated.", "quantifier": "all tracking graphs and all binary64 epochs in the range", "why_tests_cant": "termination of unbounded recursion guarded by a floating-point equality", "anchors": ["src/openspace/bodies/artificial.py: Spacecraft.update_attitude, Spacecraft.step_to_epoch", "src/openspace/propagators/inertial.py: RK4.step_to_epoch"]}
{"id": "C84", "title": "Angle reduction in double precision", "statement": "In binary64 the idiom 'if x < 0: x += 2*pi' returns a value in the closed interval [0, 2*math.pi], within 4.5e-16 of the exact sum; it returns 2*math.pi itself exactly for -2^-51 <= x < 0, so reduced angles such as the argument of perigee are not always below a full turn. The remainder operator is exact for non-negative arguments, stays in [0, modulus] for others, and x % 360 is 360 for -2^-45 <= x < 0.", "quantifier": "all reals (hence all doubles) in the stated ranges", "why_tests_cant": "the failing inputs form an interval of width 4e-16", "anchors": ["src/openspace/math/functions.py: ArgumentOfPerigee.from_u_nu, RightAscensionNode, TrueAnomaly", "src/openspace/coordinates/positions.py: SphericalPosition, LLA", "src/openspace/time.py: Epoch.greenwich_hour_angle"]}
{"id": "C85", "title": "Filter error stays within the reported uncertainty", "statement": "If the target follows the Clohessy-Wiltshire equations, the estimate starts within m standard deviations of the default covariance in every coordinate and every observation is off by at most s times the error the filter assumes for it, then after processing any sequence of N observations the estimate differs from the truth along every direction by at most sqrt(6 m^2 + 3 s^2 N) times the standard deviation reported by the filter's covariance. The same holds from any later point of a history. With an exact seed and exact observations the estimate stays exact.", "quantifier": "all seeds, all observation histories of any length and timing, all target trajectories that satisfy the equations", "why_tests_cant": "ranges over infinitely many histories and trajectories; the bound must be preserved through every predict/update step", "anchors": ["src/openspace/estimation/filtering.py: RelativeKalman.process, predict_covariance, update_covariance, gain", "src/openspace/propagators/relative.py: Hill"]}
{"id": "C86", "title": "Looking ahead does not disturb the filter", "statement": "Stepping a relative filter's propagator between observations, any number of times and by any durations (also backwards), changes no later estimate, covariance, gain or clock of the filter; the next successfully processed observation puts the propagator back on the estimate.", "quantifier": "all interleavings of observations and propagator steps", "why_tests_cant": "ranges over all interleavings of two kinds of calls on shared mutable state", "anchors": ["src/openspace/estimation/filtering.py: RelativeKalman.process", "src/openspace/propagators/relative.py: Hill.step_by_seconds"]}
{"id": "C87", "title": "Shape of propagated relative motion", "statement": "After N revolutions of the chief the propagated relative state is unchanged except for an along-track shift of -6 pi N (2 x + vy / n). The distance stays bounded over all durations exactly when vy = -2 n x, and the in-plane motion then is a 2:1 ellipse about (0, y - 2 vx / n). No step changes the mean height 2 x + vy / n, the in-plane amplitude or the cross-track amplitude, and the centre of the ellipse drifts uniformly.", "quantifier": "all relative states, all non-zero mean motions, all durations", "why_tests_cant": "boundedness is a statement about all times; invariants over all steps", "anchors": ["src/openspace/propagators/relative.py: Hill.step_by_seconds, Hill.get_system_matrix"]}
{"id": "C88", "title": "What a simulated observation contains", "statement": "observe_wfov/observe_nfov return the observer's epoch, position and velocity, a direction of length |range + z1 * range_error| tilted from the true direction by z2 * pointing_accuracy (z1, z2 standard normal draws), and report range_error = tan(fov) range^2 / (4 pixels radius) and the pointing accuracy. Without noise the observation is the true vector and the filter receives exactly hill_position. It raises ZeroDivisionError exactly when the target has zero radius, stands exactly above or below the observer along the Earth's axis, or the noisy range is zero. Processing succeeds for every target much nearer than the Earth's centre, after any history.", "quantifier": "all observers, targets, cameras, random draws and histories", "why_tests_cant": "random draws and geometry are continuous; failures form measure-zero sets", "anchors": ["src/openspace/bodies/artificial.py: Spacecraft.observe_wfov, observe_nfov, process_wfov, process_nfov, hill_position", "src/openspace/math/linalg.py: Vector3D.with_noise", "src/openspace/hardware/payloads.py: Camera.range_error"]}
{"id": "C89", "title": "Acquisition and the life of a filter", "statement": "acquire installs a filter whose clock is the tracker's, whose estimate converts back to the seed's position and velocity as they were before synchronisation, with the mean motion of the tracker's orbit, even when the tracking part of the call raises. It raises ZeroDivisionError (radial tracker orbit, seed on the orbit normal, parabolic orbit) or ValueError (unbound orbit) and then changes nothing. Acquiring b while tracking a leaves the payload on a. Only acquire and process_* of a spacecraft change its filter; process_* changes nothing else and raises without a filter. In every history each filter is one started properly and fed a list of observations, so its covariance is symmetric positive semi-definite.", "quantifier": "all histories of operations on any number of spacecraft, including ones in which calls raised", "why_tests_cant": "invariant over unbounded histories of calls on shared mutable objects", "anchors": ["src/openspace/bodies/artificial.py: Spacecraft.acquire, process_wfov, process_nfov, track_state, sma", "src/openspace/estimation/filtering.py: RelativeKalman"]}
{"id": "C90", "title": "Gauss's method succeeds on slow enough observations", "statement": "For two positions not on one line through the Earth's centre, at different times, whose arc is slow (Hansen's guess plus 0.1 lies inside the domain of the sector-to-triangle equation), the iteration of Gauss.solve_nu ends after finitely many steps next to the only root of the equation, and Gauss.coes_from_positions returns an orbit through both positions whose flight time between them is right to 1 part in 10^10 (or raises ZeroDivisionError when the first position is exactly a quarter turn from perigee). Every orbit of eccentricity at most 0.1 seen twice within one radian of eccentric anomaly is slow enough, and its semi-major axis and parameter come back to 1 part in 10^9.", "quantifier": "all pairs of positions and epochs satisfying the slowness condition; all orbits with e <= 0.1 and arcs up to one radian", "why_tests_cant": "termination of an unbounded while loop for a continuum of inputs", "anchors": ["src/openspace/estimation/iod.py: Gauss.coes_from_positions, Gauss.solve_nu"]}
{"id": "C91", "title": "Gauss's method refuses fast observations (defect)", "statement": "The fixed offset 0.1 of the second starting point of Gauss.solve_nu can leave the domain of the equation although a solution exists: Gauss.coes_from_positions then raises ValueError or ZeroDivisionError. In particular every orbit of eccentricity between 0.8 and 1 is refused when it is seen exactly, evenly before and after perigee, less than half a turn apart.", "quantifier": "all pairs of positions and epochs violating the slowness condition; all orbits of eccentricity in [0.8, 1) and all symmetric perigee arcs shorter than half a turn", "why_tests_cant": "the refused inputs form an open region of a continuum", "anchors": ["src/openspace/estimation/iod.py: Gauss.coes_from_positions, Gauss.solve_nu"]}
{"id": "C92", "title": "Rounding of the classical elements (defect on circular orbits)", "statement": "With every floating-point operation rounded, ClassicalElements.from_ijk on a bound, not nearly rectilinear state returns the exact semi-major axis to 1e-14 a^2/|r| and the exact squared eccentricity to 1e-14, or raises ValueError; it raises only when the exact squared eccentricity is below 1e-14. It does raise on circular orbits: at 7000 km and at 42164 km the speed sqrt(MU/r), the library's own circular velocity, makes 1 - p/a round below zero.", "quantifier": "all states with |r| >= 1000 km, |v| >= 1 m/s, semi-major axis at most 1e7 km and flight direction at least 1e-9 rad from the radius; all accuracies of the C library's sin, cos and atan2", "why_tests_cant": "rounding errors over a continuum of states; a failing state is not told from its neighbours by tests", "anchors": ["src/openspace/coordinates/elements.py: ClassicalElements.from_ijk", "src/openspace/math/functions.py: Eccentricity.from_a_p, SemiMajorAxis.from_mu_r_v"]}
{"id": "C93", "title": "Rounding of geodetic coordinates (defect at the poles)", "statement": "With every floating-point operation rounded, converting an ITRF point on the equator to latitude, longitude and altitude always succeeds, with latitude zero and the altitude right to 1e-15 of the distances involved. Above the pole the conversion can raise ValueError although exact arithmetic gives a value, because the argument of asin rounds above one; it does at 7000 km and 42000 km.", "quantifier": "all points of the equatorial plane at least 1000 km from the centre; all C libraries with pow(1,y) = 1, asin(0) = 0, cos(0) = 1, sin(0) = 0", "why_tests_cant": "rounding errors over a continuum of positions", "anchors": ["src/openspace/coordinates/positions.py: _PositionConvertITRF.to_lla"]}
{"id": "C94", "title": "Orbit determination does not depend on who observes", "statement": "A ground site's observation of a target, and a spacecraft's noise-free observation of it at the same epoch, report the same inertial position: the target's true one, in a frame obtained from GCRF by precession, nutation and a turn by the equation of the equinoxes, which keeps distances to 5.5e-9. So Gauss.coes_from_positions gives the same orbit for every choice of observers, and for the orbits of C90 it gives back the target's semi-major axis and parameter to 1e-9. A noisy space observation hands over a position that is off by exactly the range error and tilt of its draws, up to 5.5e-9.", "quantifier": "all sites off the poles, all observers and targets, all epochs, all noise draws", "why_tests_cant": "independence of the observer is a statement about all pairs of observers and all targets", "anchors": ["src/openspace/estimation/obs.py: SpaceObservation.ijk_position, GroundObservation.ijk_position", "src/openspace/estimation/iod.py: Gauss.coes_from_positions", "src/openspace/bodies/terrestrial.py: GroundSite.angles_and_range", "src/openspace/bodies/artificial.py: Spacecraft.observe_wfov"]}
{"id": "C95", "title": "Kepler's equation in floating point", "statement": "With every operation rounded to binary64 and a C library whose sine and cosine are within two units in the last place, EA.from_ma_e always finishes, never divides by zero, and returns a non-negative angle within 6e-15 / (1 - e) rad of the true solution of Kepler's equation, up to a whole turn. So the 1e-12 tolerance on the step can always be met in spite of rounding.", "quantifier": "all eccentricities from 0 to 0.99, all mean anomalies from -3.14 to 2 math.pi, all C libraries with that accuracy", "why_tests_cant": "an iteration that waits for a tolerance can cycle for ever on rounding noise for isolated inputs", "anchors": ["src/openspace/math/functions.py: EccentricAnomaly.from_ma_e", "src/openspace/coordinates/elements.py: ClassicalElements.eccentric_anomaly"]}
{"id": "C96", "title": "States from elements in floating point", "statement": "With every operation rounded to binary64 and a C library whose sine and cosine are within two units in the last place, ClassicalElements.to_ijk never raises and never hangs, and its position and velocity differ from the exact ones by at most 6e-14 a/(1-e) and 1e-13 sqrt(mu/a)/(1-e)^3. Converting that state back with from_ijk, also rounded, gives back the semi-major axis to 5e-13/(1-e)^4 of itself and the squared eccentricity to 1.2e-12/(1-e)^4, or raises ValueError, which it can do only if the orbit is circular to that accuracy.", "quantifier": "all element sets with e up to 0.99 (0.9 for the round trip), angles up to 8 rad, semi-major axes from 1 to 1e9 km (perigee above 1010 km and a up to 9e6 km for the round trip), all C libraries with that accuracy", "why_tests_cant": "rounding errors over a continuum of orbits and an unspecified C library", "anchors": ["src/openspace/coordinates/elements.py: ClassicalElements.to_ijk, from_ijk, perigee_vector, semilatus_rectum_vector", "src/openspace/math/functions.py: EccentricAnomaly.from_ma_e", "src/openspace/math/linalg.py: Vector3D"]}
{"id": "C97", "title": "Smaller steps approach the true motion", "statement": "Call a motion natural if its position and velocity accumulate, at every time, exactly the rates that derivative() returns there (Earth, geopotential, Sun and Moon, across UTC midnights where the modelled forces jump). Propagating from its start with n equal steps, or with step_to_epoch through n equally spaced epochs, never raises for large n, lands on the right epoch, and ends as near to the motion's end as desired, forwards and backwards in time. One constant K bounds the error for every state, duration and n by K (1+|v|+|T|)^2 exp(K|T|) |T|/n, as long as that is less than the room around the motion.", "quantifier": "all states, durations of either sign, accuracies and step counts, for motions inside the flyable region (1900-2100, 6500 to 300000 km, off the poles)", "why_tests_cant": "convergence is a limit over all step sizes, and the true motion has no closed form to compare with", "anchors": ["src/openspace/propagators/inertial.py: RK4.step, step_to_epoch", "src/openspace/coordinates/states.py: GCRF.derivative, acceleration_from_gravity, acceleration_from_moon, acceleration_from_sun", "src/openspace/bodies/celestial.py: Earth, Sun, Moon"]}
{"id": "C98", "title": "The force model determines the motion", "statement": "From every state with room around it there is a natural motion under the forces that derivative() models, for as long as a body accelerating by at most 0.05 km/s^2 cannot leave the flyable region. It is the only one from that state, and motions from nearby states separate by at most a factor exp(K|t|) with one constant K for all states.", "quantifier": "all states, durations of either sign and pairs of motions in the flyable region", "why_tests_cant": "existence and uniqueness of solutions of a differential equation cannot be sampled", "anchors": ["src/openspace/coordinates/states.py: GCRF.derivative, acceleration_from_earth, acceleration_from_gravity, acceleration_from_moon, acceleration_from_sun", "src/openspace/coordinates/positions.py: GCRF/ITRF conversion", "src/openspace/bodies/celestial.py: Earth rotation, precession, nutation"]}
{"id": "C99", "title": "Hill propagation follows two-body motion to second order", "statement": "Let one body be on a circular two-body orbit of radius a and let a second body in two-body motion stay within rho <= a/10 of that orbit radially and out of plane, with relative velocity at most n rho and less than 3a along the track. A Hill propagator started from the relative state that the conversion to HCW returns, stepped once by T seconds (either sign, any length), differs from the relative state that the conversion returns at T by at most 38 u d radially, (68+21u) u d along track and 5 u d cross track, with u = n|T| and d = rho^2/a, and by 24, 69 and 5 times u n d in velocity.", "quantifier": "all pairs of two-body motions of which one is circular, all separations up to a tenth of the radius, durations of either sign", "why_tests_cant": "an error bound for a linearisation must hold along every relative trajectory and for every duration", "anchors": ["src/openspace/propagators/relative.py: Hill.__init__, system_matrix, step_by_seconds", "src/openspace/coordinates/states.py: StateConvert.gcrf.to_hcw, GCRF.derivative"]}
{"id": "C100", "title": "Relative velocity is the change of relative position about circular orbits only", "statement": "For an origin in two-body motion and any path of the other body, the radial velocity of the HCW state is the rate of its radial position and the along-track and cross-track velocities are the rates of the corresponding angles times the orbit radius. So about a circular orbit the velocity is the derivative of the position; about any other orbit the along-track velocity is not, wherever the origin is rising or falling and the other body is ahead or behind.", "quantifier": "all two-body origin motions off the radial line, all differentiable paths of the second body, all times off the antipode", "why_tests_cant": "a derivative is a limit, and it must agree along every path", "anchors": ["src/openspace/coordinates/states.py: StateConvert.gcrf.to_hcw, HCW"]}
{"id": "C101", "title": "Propagation is fourth-order accurate between UTC midnights", "statement": "For all initial speeds and durations up to any given bounds there is one constant C such that, for an unpowered spacecraft whose motion under the modelled forces keeps room of D kilometres around it and passes no UTC midnight, n equal steps of length h = |T|/n with C h <= D end within C h^4 of the motion in position plus velocity, and at the epoch T later. step_to_epoch() through n equally spaced epochs at most 300 s apart does the same.", "quantifier": "all states up to a speed, all durations of either sign up to a length, all step counts, all motions", "why_tests_cant": "an order of accuracy is a statement about all step lengths at once, with one constant for all trajectories", "anchors": ["src/openspace/propagators/inertial.py: RK4.step, RK4.step_to_epoch", "src/openspace/coordinates/states.py: GCRF.derivative"]}
{"id": "C102", "title": "Hill propagation in floating point", "statement": "With every operation rounded to binary64 and a sine and cosine good to 2.3e-16, constructing a Hill propagator and stepping it never raises; its rate is right to 4e-16; one step t ends within 6.5e-14 (1 + n|t|) of the exact Clohessy-Wiltshire motion relative to the size of the state (positions plus velocities over n); and after k steps of any lengths and signs covering q = n*sum|t_i| radians the error is at most 1.1e-10 (1+q)^2 (k+q) times that size, so rounding errors never make the motion run away.", "quantifier": "all initial states, semi-major axes from 1 to 1e9 km, all lists of step lengths up to 7.9 radians each, all libraries with that sine and cosine", "why_tests_cant": "a rounding bound must hold for every state, axis and history of steps; tests compare a few with a tolerance", "anchors": ["src/openspace/propagators/relative.py: Hill.__init__, Hill.system_matrix, Hill.step_by_seconds", "src/openspace/math/linalg.py: Matrix6D.multiply_vector, Vector6D.dot"]}
{"id": "C103", "title": "Propagation does not depend on the route through time", "statement": "For all initial speeds and total travel times up to given bounds there is a constant C such that step_to_epoch() through any list of epochs, in any order, forwards and backwards, with legs of at most h <= 300 s (C h being less than the room around the motion, and no UTC midnight in the range), never raises, ends at the last epoch and within C h^4 of the true motion there. So a route that comes back to the starting epoch returns to the starting state, and two routes to one epoch end in the same state, to C h^4.", "quantifier": "all states up to a speed, all motions, all finite lists of epochs in the range, of any order and direction", "why_tests_cant": "there are infinitely many routes and step patterns; a test tries a few and cannot give one constant for all of them", "anchors": ["src/openspace/propagators/inertial.py: RK4.step_to_epoch, RK4.step"]}
{"id": "C104", "title": "Angles between vectors in floating point", "statement": "In double precision, with an acos accurate to 4.5e-16, angle() of two vectors with lengths between 1e-15 and 1e30 never raises, is within 6e-8 rad of the geometric angle t, and within 2e-15/sin t of it when sin t >= 1e-6. An axis set to the normalised direction of a target is found within 1e-7 rad of that direction. The 6e-8 cannot be made a float-precision bound: angle() of (1,2,0) with itself is over 2e-8 rad, and two directions 9e-10 rad apart are found equal.", "quantifier": "all pairs of vectors with lengths in the range, all accurate arccosines", "why_tests_cant": "a bound for every pair of vectors needs an error analysis near parallel and opposed directions, where a test would have to hit the worst rounding", "anchors": ["src/openspace/math/linalg.py: Vector3D.angle, Vector3D.normalized, Vector3D.magnitude, Vector3D.dot", "src/openspace/bodies/artificial.py: uses of angle()"]}
{"id": "C105", "title": "Propagation over several days", "statement": "For all initial speeds and total travel times up to given bounds there is a constant C such that step_to_epoch() through any list of epochs over any number of days, with legs of at most h <= 300 s, of which those with a UTC midnight in them are c seconds long in all (C (h + c) being less than the room around the motion), never raises, ends at the last epoch and within C (h^4 + c) of the true motion there. So short steps over midnight keep the fourth-order accuracy over many days, although the modelled force jumps at midnight.", "quantifier": "all states up to a speed, all motions of any number of days up to a duration, all finite lists of epochs in the range", "why_tests_cant": "the constant must serve all motions and routes; near midnight the loss of accuracy depends on where steps fall", "anchors": ["src/openspace/propagators/inertial.py: RK4.step_to_epoch, RK4.step", "src/openspace/time.py: Epoch.greenwich_hour_angle", "src/openspace/coordinates/states.py: GCRF.derivative"]}
{"id": "C106", "title": "Sidereal time in floating point", "statement": "In double precision, for every epoch within a century of J2000, greenwich_hour_angle() is between 0 and one turn, within 2.7e-8 rad of the angle defined by the exact formula (up to whole turns), and within 8e-11 rad of it (about half a millimetre on the Earth's surface) when the epoch is at least a microsecond away from UTC midnight.", "quantifier": "all epochs within 36525 days of J2000", "why_tests_cant": "the computation cancels hundreds of turns and splits a day number by two rounded operations; only an error analysis covers every date and the neighbourhood of every midnight", "anchors": ["src/openspace/time.py: Epoch.greenwich_hour_angle, UTC_TDT_OFFSET"]}
{"id": "C107", "title": "Conversion to the Hill frame in floating point", "statement": "In double precision, StateConvert.gcrf.to_hcw(origin, state) succeeds for every origin state that is not near-radial and every state seen from the Earth's centre within sixty degrees of it, and each component is within 3e-14 of the orbit's radius (position) and 4e-13 of the speeds (velocity) of the value of exact arithmetic. The restriction is needed: there are states near the orbit normal, where the relative state is defined, for which the code raises ValueError because a rounded sine exceeds one.", "quantifier": "all pairs of states with radii 1 to 1e9 km and speeds 1e-6 to 1e6 km/s within sixty degrees, and all C libraries accurate to one unit in the last place", "why_tests_cant": "two rounded rotations, an arcsine and an arctangent feed each other; only an error analysis covers all geometries, and failures near the normal occur for isolated states only", "anchors": ["src/openspace/coordinates/states.py: _StateConvertGCRF.to_hcw, HCW.frame_matrix"]}
{"id": "C108", "title": "Conversion from the Hill frame in floating point", "statement": "In double precision, converting a relative state back to the inertial frame never raises for ordinary origins and is within 7e-14 of the orbit's radius and 2e-13 of the speeds of the exact value; converting to the Hill frame and back returns the original state to 3e-13 of the radius and 1.1e-11 of the speeds, with the origin's epoch.", "quantifier": "all ordinary origins and relative states with radial offset up to the radius and angles up to two radians; for the round trip all states within sixty degrees and between half and 1.9 times the radius", "why_tests_cant": "the round-off of the chart and of its inverse add up differently for every geometry; a test samples a few", "anchors": ["src/openspace/coordinates/states.py: _StateConvertHCW.to_gcrf, _StateConvertGCRF.to_hcw, HCW.frame_matrix"]}
{"id": "C109", "title": "The Sun and the Moon move steadily eastwards along the ecliptic", "statement": "At every epoch Sun.get_position lies on the ecliptic (tilted 23.43929111 degrees about the equinox axis) and its longitude grows by 0.951 to 1.02 degrees a day over every interval, and the position repeats exactly after every whole number of years of 365.2596 days; Moon.get_position stays within 5.34 degrees of the ecliptic and its longitude grows by 10.9 to 15.4 degrees a day. So either body seen up to 176 (Sun) or 11.6 days (Moon) later has always moved in the prograde sense, and every phase of the Moon (new, full, ...) occurs within 37 days of every date.", "quantifier": "all epochs and intervals; all phases", "why_tests_cant": "a statement about motion over all time; sampled dates cannot exclude a backward motion or a wrong frequency in between", "anchors": ["src/openspace/bodies/celestial.py: Sun.get_position, Moon.get_position"]}
{"id": "C110", "title": "Precession and obliquity follow the standard angles", "statement": "At every epoch Earth.precession is the product of the three classical turns (about z, y, z) whose angles follow the IAU 1976 rates to third order in centuries from J2000, and obliquity_of_ecliptic_at_epoch is 23.43929111 degrees at J2000 and falls by 46.815 arc seconds per century to third order.", "quantifier": "all epochs and all vectors", "why_tests_cant": "orthogonality of the matrix says nothing about its angles; agreement is needed at every epoch", "anchors": ["src/openspace/bodies/celestial.py: Earth.precession, Earth.obliquity_of_ecliptic_at_epoch"]}
{"id": "C111", "title": "Propagators share no objects with their callers", "statement": "Creating an RK4 propagator copies the state it is given and maneuver copies the thrust it is given, so whatever the caller later assigns to their own vectors and states, and whatever other propagators do, step, step_to_epoch and maneuver act exactly as if states and vectors were plain values; no call changes an object outside the propagator; the copy returned by current_state shares nothing with it. vector_list is the exception: it hands out the state's own vectors, and an assignment to one changes the propagator.", "quantifier": "all programs that interleave creation of vectors and states, attribute assignments, new propagators, steps, steps to an epoch, maneuvers and reads of the state, from every heap", "why_tests_cant": "aliasing shows only in particular orders of assignments and calls, and the orders are unbounded", "anchors": ["src/openspace/propagators/inertial.py: RK4", "src/openspace/coordinates/states.py: State, GCRF, State.vector_list", "src/openspace/bodies/artificial.py: Spacecraft.current_state"]}
{"id": "C112", "title": "Filters sharing one Hill propagator do not disturb each other", "statement": "Several RelativeKalman filters may be built on one Hill propagator: for every interleaving of observations given to any of them, and of moves of the propagator itself, each filter's estimates, covariances and outcomes are those it would have with a propagator of its own. The propagator a filter holds, however, need not hold that filter's estimate.", "quantifier": "all families of filters, all shared propagators and all interleavings of observations and moves", "why_tests_cant": "the number of interleavings is unbounded", "anchors": ["src/openspace/estimation/filtering.py: RelativeKalman", "src/openspace/propagators/relative.py: Hill"]}
{"id": "C113", "title": "Spherical coordinates and sight lines in floating point", "statement": "In double precision, converting any vector to range, right ascension and declination gives a range within 3e-16 and angles whose direction is within 2.6e-15 of the vector's, including at the poles and where the right ascension starts over; converting any such triple back is within 7.1e-16 of the range, and there and back returns the vector to 4e-15 of its length. An observation built from azimuth, elevation and range reports the same direction to 5.2e-15 and the same range to 1.6e-15.", "quantifier": "all vectors from a millimetre to 1e30 km, all angles up to 8 radians, every C library whose sin, cos and atan2 are accurate to about one unit in the last place", "why_tests_cant": "the angles are ill-conditioned near the poles and jump at the branch cut, so sampled directions do not bound the error", "anchors": ["src/openspace/coordinates/positions.py: SphericalPosition.from_cartesian, SphericalPosition.to_cartesian", "src/openspace/estimation/obs.py: GroundObservation"]}
{"id": "C114", "title": "Ground sites and their observations in floating point", "statement": "In double precision a ground site's Earth-fixed position is within 1.3e-15 of its distance S from the centre; the east, north, zenith coordinates of any object are within 2.3e-15 S + 1.7e-15 D of the exact ones (D the range), and the observation made from them has a range within 4e-15 S + 3.3e-15 D and describes by its range, azimuth and elevation a point within 2.4e-15 S + 4.7e-15 D of the object. Turning an east, north, zenith vector back to Earth-fixed axes errs by at most 1.4e-15 of its length. None of these operations raises.", "quantifier": "all sites with angles up to 8 radians and altitudes up to 1e9 km, all objects, every accurate C library", "why_tests_cant": "the cancellation between site and object depends on the geometry; a bound needs all of them", "anchors": ["src/openspace/bodies/terrestrial.py: GroundSite", "src/openspace/coordinates/positions.py: LLA, ENZ, PositionConvert.lla, PositionConvert.enz", "src/openspace/estimation/obs.py: GroundObservation"]}
{"id": "C115", "title": "Earth orientation in floating point", "statement": "In double precision, converting a position between the inertial and the Earth-fixed frame never raises and is within 2.71e-8 of its distance from the centre of the exact value at every epoch within a century of J2000, and within 8.1e-11 more than a microsecond away from UTC midnight (where the sidereal time's day count may round to the wrong day). There and back at one epoch the rotation errors cancel: the result is within 2.4e-14 of the distance of what exact arithmetic returns, hence within 1.11e-8 of the original.", "quantifier": "all epochs within a century of J2000, all positions, every C library with accurate sin and cos", "why_tests_cant": "the error depends on date, direction and time of day; near midnight it jumps", "anchors": ["src/openspace/coordinates/positions.py: PositionConvert.gcrf.to_itrf, PositionConvert.itrf.to_gcrf", "src/openspace/bodies/celestial.py: Earth.rotation, Earth.precession, Earth.nutation, Earth.obliquity_of_ecliptic_at_epoch", "src/openspace/math/linalg.py: Vector3D.rotation_matrix"]}
{"id": "C116", "title": "Site observations of a spacecraft in floating point", "statement": "In double precision, GroundSite.angles_and_range of a spacecraft never raises and has the spacecraft's epoch; its range, and the point its range, azimuth and elevation describe, agree with the exact observation up to 4e-15 of the site's distance, 4.7e-15 of the range and 8.1e-11 of the spacecraft's distance from the centre (2.71e-8 within a microsecond of UTC midnight): less than 4 mm for geostationary satellites.", "quantifier": "all sites, all spacecraft at a range of at least a kilometre and a distance up to ten million, all epochs within a century of J2000, every accurate C library", "why_tests_cant": "the errors of site, orientation and angles combine differently for every geometry and date", "anchors": ["src/openspace/bodies/terrestrial.py: GroundSite.angles_and_range, GroundSite.enz_position", "src/openspace/estimation/obs.py: GroundObservation"]}
{"id": "C117", "title": "All six elements of a state in floating point", "statement": "In double precision the classical elements of a bound, eccentric (1e-5 to 0.9), inclined orbit never raise: the inclination is within 5e-15 rad of the exact one, the node within 6e-15 / sin i, the eccentricity within 1e-14 / e, the mean anomaly within 2.5e-13 / e and the argument of perigee within 1.4e-14 / sin i + 2.3e-12 / e, angles up to whole turns. The plane described by node and inclination is within 1.1e-14 of the plane of the state, however small the inclination.", "quantifier": "all states on bound orbits at least 1000 km from the centre with semimajor axis up to ten million km, eccentricity 1e-5 to 0.9 and inclination not within 1e-6 rad of equatorial, every accurate C library", "why_tests_cant": "the error grows without bound toward circular and equatorial orbits and depends on the quadrant of every angle; a sample of states does not give a bound", "anchors": ["src/openspace/coordinates/elements.py: ClassicalElements.from_ijk", "src/openspace/math/functions.py: Inclination, RightAscensionNode, ArgumentOfLatitude, ArgumentOfPerigee, TrueAnomaly, EccentricAnomaly, MeanAnomaly"]}
{"id": "C118", "title": "Positions of the Sun and the Moon in floating point", "statement": "In double precision the position of the Sun is within 1.82 m and that of the Moon within 20 cm of the value of the exact series at every epoch within a century of J2000, and the lunar computation never raises; so the computed bodies stay within these errors of an orbit in (Sun) or within 5.34 degrees of (Moon) the ecliptic at a physical distance.", "quantifier": "all epochs within a century of J2000, every C library whose sin and cos are accurate up to fifty thousand radians", "why_tests_cant": "the rounding error of a date and of angles of thousands of turns differs at every instant", "anchors": ["src/openspace/bodies/celestial.py: Sun.get_position, Moon.get_position", "src/openspace/math/linalg.py: Vector3D.rotation_about_axis"]}
{"id": "C119", "title": "Accelerations in floating point", "statement": "In double precision the attraction of the Earth's point mass is within 1.5e-15 of itself of Newton's law, the tidal acceleration of the Moon within 3.9 (1/d^3 + 1/m^3) km/s^2 (d and m the distances of the Moon from the spacecraft and from the Earth), that of the Sun within 8e-16 km/s^2, and solar radiation pressure within 2.8e-11 of itself; none of these calls raises at such positions.", "quantifier": "all positions from one km to 1e12 km (Earth), all positions outside the Moon up to 1e9 km from it (Moon) and all positions within 1e7 km (Sun and pressure), all epochs within a century of J2000, all pressure coefficients, every C library whose sin and cos are accurate up to fifty thousand radians", "why_tests_cant": "rounding differs at every position and instant, and the difference of two nearly equal attractions could lose every digit at some of them", "anchors": ["src/openspace/coordinates/states.py: GCRF.acceleration_from_earth, GCRF.acceleration_from_moon, GCRF.acceleration_from_sun, GCRF.acceleration_from_srp"]}
{"id": "C120", "title": "Non-spherical gravity and the equations of motion in floating point", "statement": "In double precision the acceleration from the Earth's gravity field of degree and order four agrees with its value in exact arithmetic to 8.5e-8 of (Re/r)^2 mu/r^2 at any epoch within a century of J2000, and to 2.6e-10 of it unless UTC is within a microsecond of midnight; the right-hand side of the equations of motion with every force switched on returns the velocity unchanged and a net acceleration in error by that plus 2.2e-15 of central attraction and thrust, 1.3e-15 km/s^2 for Sun and Moon and 3e-11 of solar pressure; with perturbations off the error is below 1.62e-15 of the attraction and 1.13e-16 of the thrust; no such call raises.", "quantifier": "all positions outside the Earth's equatorial radius within 84.2 degrees of the equator up to 1e6 km (gravity) or 1e5 km (all forces), or from one km to 1e12 km (perturbations off), all velocities, thrusts and pressure coefficients, all epochs within a century of J2000, every C library of ordinary accuracy", "why_tests_cant": "the series multiplies a dozen rounded trigonometric values and powers whose errors differ at every position and instant; a test compares a few of them to a tolerance", "anchors": ["src/openspace/coordinates/states.py: GCRF.acceleration_from_gravity, GCRF.derivative", "src/openspace/bodies/celestial.py: Earth", "src/openspace/math/functions.py: LegendrePolynomial"]}
{"id": "C121", "title": "One coasting step in floating point", "statement": "With the thruster shut, a step of the inertial propagator in double precision never raises and carries out the classical Runge-Kutta formulas up to 1.8 microseconds in the epoch, 30 nanometres in position, 3e-14 km/s in velocity and 8e-10 km/s^2 in each stage acceleration (2.3e-12 unless one of the stage epochs is within 9 microseconds of a UTC midnight); so away from midnight the new state agrees with that of a step in exact arithmetic to bounds with one constant for all states, step lengths and C libraries.", "quantifier": "all states up to 20 km/s within a century of J2000 with room to fly up to 1e5 km, all steps forwards or backwards up to 300 s, every C library of the stated accuracy", "why_tests_cant": "the four stages round differently at every state, and one rounded stage changes the point at which the next is evaluated", "anchors": ["src/openspace/propagators/inertial.py: RK4.step", "src/openspace/coordinates/states.py: GCRF.derivative"]}
{"id": "C122", "title": "Whole propagations in floating point", "statement": "A run of any number of coasting steps in double precision succeeds wherever the exact run keeps a margin, ends at the exact epoch to 2e-11 days per step, and ends next to the exact run; measured against the motion caused by the modelled forces its error is at most C h^4 for the step length h plus a rounding term exp(C T) (3.1e-11 n + C T (2.2e-7 + 2e-11 n)) for n steps over T seconds, with one constant C for all flights of bounded length.", "quantifier": "all natural motions up to 18 km/s with a margin along the way, all durations up to a given length forwards or backwards within one UTC day, all numbers of steps, every C library of the stated accuracy", "why_tests_cant": "rounding errors of earlier steps are carried and amplified by later ones, for every number of steps and every start", "anchors": ["src/openspace/propagators/inertial.py: RK4.step, step_to_epoch", "src/openspace/coordinates/states.py: GCRF.derivative"]}
{"id": "C123", "title": "Propagation to an epoch in floating point", "statement": "step_to_epoch() of a coasting spacecraft in double precision is a run of equal steps none of which exceeds the maximum step, although quotient, count and step size come from rounded operations; the steps make up the requested span to 4e-16 of itself and are at most 1.5 more than a 300th of it; spans below 300 s are one Runge-Kutta step with the errors of C121 that ends within two microseconds of the requested epoch; within a UTC day the final state follows the motion caused by the modelled forces with the error of C122.", "quantifier": "all representable start and target epochs within a century of J2000, forwards and backwards, all states with room to fly, every C library of the stated accuracy", "why_tests_cant": "whether ceil() of a rounded quotient still covers the span depends on the last bit of both epochs", "anchors": ["src/openspace/propagators/inertial.py: RK4.step_to_epoch, RK4.step"]}
{"id": "C124", "title": "Burn duration in floating point", "statement": "The duration of a maneuver computed in double precision differs from the one the rocket equation gives by at most 3.2e-15 of the time in which all the mass would be used up; such a burn leaves some mass and delivers the requested change of speed to within 3.3e-15 of the exhaust speed times the ratio of the masses before and after.", "quantifier": "all thrust vectors from a micrometre per second to ten times the exhaust speed, flow rates from 1e-6 to 1e6 kg/s, masses from a gram to a million tonnes, specific impulses from 1 to 1e6 s, every C library whose powers are accurate", "why_tests_cant": "1 minus an exponential cancels for small burns, and the rounding of the exponent is amplified by large ones", "anchors": ["src/openspace/propagators/inertial.py: RK4.maneuver"]}
{"id": "C125", "title": "Thrust acceleration in floating point", "statement": "The acceleration of the thruster computed in double precision is the one of a rocket with a relative error of at most 3.5e-15, at ignition and from the moment when 5.6e-17 of the mass is used up until nine tenths of it are; with the thruster off it is zero. Between ignition and the moment when 5.5e-17 of the mass is used up the call divides by zero, although exact arithmetic gives the acceleration of a rocket.", "quantifier": "all thrust directions, flow rates from 1e-6 to 1e6 kg/s, masses from a gram to a million tonnes, specific impulses from 1 to 1e6 s, all times, every C library whose logarithms below one are within a tenth of their value", "why_tests_cant": "the logarithm of a ratio close to one loses all its digits, and only because the same logarithm is divided out again does the result stay accurate; the failing times are too short for tests to hit", "anchors": ["src/openspace/propagators/inertial.py: RK4.thrust_vector"]}
