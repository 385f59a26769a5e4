{"id": "C01", "title": "Tracked momentum and stored relativistic factor always agree", "statement": "After tracking set-up and after every further tracking step, the relativistic factor carried by a particle between steps satisfies gamma^2 = 1 + |p|^2 for the momentum carried with it; gamma >= 1, no square root of a negative number and no division by zero is evaluated, and the particle speed stays strictly below c.", "quantifier": "every field (any function of time and position), every charge/mass ratio, every time step (also negative or zero), every start momentum, every number of steps", "why_tests_cant": "tests follow a handful of particles through a handful of fields; the identity depends on the solution of a quartic for arbitrary E, B and momentum", "anchors": ["src/particle.cpp: ChargedParticle::InitVay, ChargedParticle::StepVay"]}
{"id": "C02", "title": "Tracking solves the leap-frog equation of motion it documents", "statement": "The momentum change of one tracking step equals (q/m) dt times the Lorentz force evaluated with the fields at the stored mid-step position and with the average of the velocities at both ends of the step: p(i+1)-p(i) = (q/m) dt [ E/c + (beta(i)+beta(i+1))/2 x B ], and the stored mid-step momentum is the one reached after the first half of it; the solution of this implicit equation is unique.", "quantifier": "every field, particle, time step, and step number", "why_tests_cant": "the code evaluates a closed-form solution; a test can only compare selected trajectories with tolerances", "anchors": ["src/particle.cpp: ChargedParticle::InitVay, ChargedParticle::StepVay"]}
{"id": "C03", "title": "A magnetic field does no work", "statement": "In a field without electric component (arbitrarily inhomogeneous and time dependent) the magnitude of the momentum carried between steps, and hence the particle energy, is exactly the same after any number of tracking steps.", "quantifier": "every magnetic field function, every particle, every number of steps", "why_tests_cant": "energy conservation over unbounded numbers of steps and arbitrary fields cannot be sampled", "anchors": ["src/particle.cpp: ChargedParticle::StepVay"]}
{"id": "C04", "title": "Field-free motion is uniform and straight", "statement": "In zero field the n-th stored point after set-up is at time t0+n*dt, position x0 + n*dt*c*p0/sqrt(1+|p0|^2), momentum p0, acceleration 0.", "quantifier": "every start point, momentum, time step and number of steps", "why_tests_cant": "unbounded number of steps and all start conditions", "anchors": ["src/particle.cpp: ChargedParticle::InitVay, ChargedParticle::StepVay"]}
{"id": "C05", "title": "Trajectory is append-only with equidistant time stamps", "statement": "Every tracking step appends exactly one point to the stored trajectory and leaves all earlier points untouched; the time stamp of the n-th appended point is start time + n*dt; the four stored sequences always have the reported number of points; the queried 'current' values are those of the last stored point.", "quantifier": "every field, particle, history of set-up/tracking operations", "why_tests_cant": "property of every reachable state after any number of operations", "anchors": ["src/particle.cpp: ChargedParticle::InitVay, StepVay, storeTrajectoryPoint, initTrajectory, clearTrajectory, TrajTime, getNP"]}
{"id": "C06", "title": "Tracking is time-reversible", "statement": "Setting up tracking with the negative time step from the last stored point and doing n steps retraces the last n+1 stored points exactly in reverse order (time, position and momentum).", "quantifier": "every field function of (t,x), every particle, time step and number n of steps", "why_tests_cant": "exact reversibility for arbitrary fields; a test would see one trajectory with rounding noise", "anchors": ["src/particle.cpp: ChargedParticle::InitVay, ChargedParticle::StepVay"]}
{"id": "C07", "title": "Set-up and access fail cleanly on particles without trajectory", "statement": "Tracking set-up and retarded-field computation on a particle without trajectory raise the range exception; access to trajectory points outside 0..NP-1 raises an exception; inside they return the stored data. None of them reads outside the stored data.", "quantifier": "every particle state and every (also negative) index", "why_tests_cant": "all indices and all states", "anchors": ["src/particle.cpp: InitVay, RetardedField, TrajTime, TrajPoint, TrajMomentum, TrajAccel"]}
{"id": "C08", "title": "Shifting or mirroring a particle moves its whole trajectory", "statement": "Shift(delta,f) translates every stored trajectory point by delta; Mirror(origin,normal,f) reflects every stored position, momentum and acceleration at the given plane; both scale the charge by f.", "quantifier": "every particle (any number of stored points), every displacement/plane", "why_tests_cant": "must hold for every point of trajectories of any length, in particular the last one", "anchors": ["src/particle.cpp: ChargedParticle::Shift, ChargedParticle::Mirror"]}
{"id": "C09", "title": "Interpolated coordinates at a given time", "statement": "For a trajectory with increasing time stamps CoordinatesAtTime returns at a stored time exactly the stored point, between two neighbouring stored times the linear interpolation of exactly these two points, and zero outside the covered time range; the search always terminates and never reads outside the stored data.", "quantifier": "every trajectory with strictly increasing time stamps, every query time", "why_tests_cant": "bisection boundaries: all lengths and all query positions", "anchors": ["src/particle.cpp: ChargedParticle::CoordinatesAtTime"]}
{"id": "C10", "title": "Fields of a stored point have radiation geometry", "statement": "The field observed from one stored trajectory point fulfils B = n x E / c with n the unit vector from source to observer, hence B is perpendicular to E and to n and |B| <= |E|/c; for a charge at rest it is the Coulomb field with B=0.", "quantifier": "every trajectory point, every observation point different from it", "why_tests_cant": "holds for all positions, momenta and accelerations", "anchors": ["src/particle.cpp: ChargedParticle::RetardedField(int,Vector)"]}
{"id": "C11", "title": "Field of a uniformly moving charge is that of its present position", "statement": "Before the first stored trajectory point can be seen, the observed field is that of a charge which has always been moving uniformly: the emission point used lies on the backward light cone of the observer and the electric field points along the line from the present (extrapolated) position of the charge.", "quantifier": "every start time, start point, subluminal momentum and every observer/time before the light of the first point arrives", "why_tests_cant": "light-cone condition must hold for every start time, not only for particles starting at t=0", "anchors": ["src/particle.cpp: ChargedParticle::RetardedField(double,Vector)"]}
{"id": "C12", "title": "Retarded interval search brackets the light cone", "statement": "For an observation inside the time range seen from the trajectory the interval search terminates with two neighbouring points, of which the first is seen before and the second not before the observation time, without leaving the stored data; if the whole trajectory was seen earlier the field is exactly zero.", "quantifier": "every trajectory, observer position and observation time", "why_tests_cant": "bisection over all lengths and positions", "anchors": ["src/particle.cpp: ChargedParticle::RetardedField(double,Vector)"]}
{"id": "C13", "title": "Arrival order of signals follows emission order", "statement": "For trajectories whose points are separated by less than light travel, the observation times of successive trajectory points strictly increase for every observer; trajectories produced by tracking with positive time step have this property.", "quantifier": "every tracked trajectory, every observer position", "why_tests_cant": "triangle inequality over all geometries, all fields, all steps", "anchors": ["src/particle.cpp: ChargedParticle::RetardedTime, StepVay"]}
{"id": "C14", "title": "Field traces record the exact bucket averages of the linearly interpolated signal", "statement": "Integrating a trajectory into a time trace adds to every bucket exactly 1/dt times the time integral, over the part of the bucket which is covered by the observed trajectory, of the signal interpolated linearly between the observed trajectory points. Nothing is lost or counted twice at bucket or step boundaries.", "quantifier": "every trajectory with increasing arrival times, every trace definition (t0, dt>0, N>=2), every bucket", "why_tests_cant": "many boundary cases (steps entering, leaving, spanning the trace, several buckets per step and several steps per bucket)", "anchors": ["src/particle.cpp: ChargedParticle::integrateFieldTrace"]}
{"id": "C15", "title": "Trace integration never addresses a bucket outside the trace", "statement": "Integration of a trajectory into a trace completes without a range exception, whatever the relative position of signal and trace.", "quantifier": "every trajectory, observer and trace", "why_tests_cant": "index computations by rounding at the window edges; failure needs particular bit patterns", "anchors": ["src/particle.cpp: ChargedParticle::integrateFieldTrace", "src/fieldtrace.cpp: FieldTrace::add"]}
{"id": "C16", "title": "Trace interpolation", "statement": "get_field(time) returns the sample at a sample time and the linear interpolation between the two neighbouring samples in between; outside the covered trace length it is zero.", "quantifier": "every trace and every time", "why_tests_cant": "all times including one sample before the first and after the last", "anchors": ["src/fieldtrace.cpp: FieldTrace::get_field(double)", "src/fieldtrace.h:131-135"]}
{"id": "C17", "title": "Trace arithmetic", "statement": "Sum and difference of traces are refused unless start time, step and length agree; otherwise they act sample by sample, (a+b)-b = a, sums commute and associate, scaling distributes; operands are not modified.", "quantifier": "all traces", "why_tests_cant": "algebraic laws over all lengths", "anchors": ["src/fieldtrace.cpp: operator+, operator+=, operator-, operator*, operator/, operator="]}
{"id": "C18", "title": "Trace export and import are inverse", "statement": "Exporting a trace into a buffer of matching size and importing it again restores all samples; any size mismatch is refused with an exception and changes nothing; index accesses outside 0..N-1 raise exceptions.", "quantifier": "all traces, buffer sizes and indices", "why_tests_cant": "all sizes", "anchors": ["src/fieldtrace.cpp: get_buffer, set_buffer, get_field(size_t), set_field, add, get_time"]}
{"id": "C19", "title": "Trace derivative", "statement": "The derivative of a trace has the same timing, is exact at every sample (including both ends) for signals linear in time, exact at inner samples for quadratic signals, and is defined for every trace length.", "quantifier": "every trace length and every linear/quadratic signal", "why_tests_cant": "all lengths including 0 and 1", "anchors": ["src/fieldtrace.cpp: FieldTrace::derivative"]}
{"id": "C20", "title": "Retarding a trace", "statement": "retard(delta,target) stores in every sample of the target the source signal delta earlier; retarding by zero onto the same timing is the identity and retarding by a whole number of samples shifts the samples; energy-free results are refused.", "quantifier": "every trace pair, every delay", "why_tests_cant": "all timings and delays", "anchors": ["src/fieldtrace.cpp: FieldTrace::retard"]}
{"id": "C21", "title": "Coordinate transformation and cancellation of longitudinal fields", "statement": "Transforming into an orthonormal right-handed frame preserves |E|, |B|, E.B and |S| of every sample; cancelling longitudinal fields leaves no component along the given direction, does not alter transverse components and is idempotent.", "quantifier": "every trace, every orthonormal frame, every nonzero direction", "why_tests_cant": "all frames and fields", "anchors": ["src/fieldtrace.cpp: FieldTrace::transform, cancel_long_fields", "src/vector.cpp: Vector::transform, normalize"]}
{"id": "C22", "title": "Particle snapshot serialization", "statement": "A particle rebuilt from its serialized snapshot has the same charge, mass and the last trajectory point of the original; exactly the advertised 12 numbers are written.", "quantifier": "every particle state", "why_tests_cant": "all states including particles without trajectory", "anchors": ["src/particle.cpp: serialize, ChargedParticle(double*)"]}
{"id": "C23", "title": "Trajectory serialization allows transparent restart", "statement": "A particle rebuilt from its serialized trajectory has the same trajectory and tracking state; tracking it further gives point by point the same results as tracking the original further; exactly the advertised number of values is written and read.", "quantifier": "every particle reachable by set-up and tracking, every field, every number of further steps", "why_tests_cant": "checkpoint/restart at any point of any history", "anchors": ["src/particle.cpp: serializeTraj, TrajBufSize, ChargedParticle(double*,int,int)"]}
{"id": "C24", "title": "Copies of particles and bunches are independent and equivalent", "statement": "A copied particle (bunch) answers every query about trajectory, charge and subsequent tracking exactly as the original would.", "quantifier": "every particle state and every subsequent sequence of tracking operations", "why_tests_cant": "all histories", "anchors": ["src/particle.cpp: ChargedParticle(const ChargedParticle*)", "src/bunch.cpp: Bunch(Bunch*)"]}
{"id": "C25", "title": "Particle distributions: coordinate operations touch only what they name", "statement": "scale / addCorrelation / setCoordinate change only the named coordinate of the (named) particles, by exactly the documented amount, and are no-ops for indices out of range; addCorrelation with the negative factor undoes it; export/import is a round trip and refuses wrong sizes; sub-distributions contain the requested particles.", "quantifier": "every distribution (dimension, number of particles), every index", "why_tests_cant": "flat-array index arithmetic for all dimensions and sizes", "anchors": ["src/bunch.cpp: Distribution::*"]}
{"id": "C26", "title": "Bunch correlation keeps the mean", "statement": "Bunch::addCorrelation(i,d,f) adds f*(x_i-<x_i>) to coordinate d of every particle: the mean of every coordinate is unchanged, all other coordinates, the charges and start times are unchanged.", "quantifier": "every bunch, every coordinate pair and factor", "why_tests_cant": "all bunch sizes", "anchors": ["src/bunch.cpp: Bunch::addCorrelation"]}
{"id": "C27", "title": "Bunch statistics are well defined", "statement": "Averages lie between minimum and maximum, rms values are nonnegative and zero only for identical values, average gamma >= 1, |bunching factor| <= 1 with equality for coinciding positions - for every bunch for which they are requested.", "quantifier": "every bunch including the empty one", "why_tests_cant": "all sizes and coordinates", "anchors": ["src/bunch.cpp: avgTime, avgPosition, rmsPosition, avgMomentum, avgGamma, delta, BunchingFactor"]}
{"id": "C28", "title": "Step exchange buffer round trip", "statement": "Writing the current coordinates of a beam into the step buffer and reading them into another beam of the same structure reproduces them for every particle, appends them to the trajectories, uses exactly 10 values per particle, counts one step, and nothing else is changed.", "quantifier": "every beam (any number of bunches and particles, also empty bunches)", "why_tests_cant": "all structures", "anchors": ["src/bunch.cpp: bufferStep, setStepFromBuffer", "src/beam.cpp: bufferStep, setStepFromBuffer, getStepBufferSize"]}
{"id": "C29", "title": "Beam stepping state machine", "statement": "Tracking is only possible with an implemented method: otherwise set-up and stepping raise exceptions and leave the beam unchanged; with the Vay method the step counter equals the number of steps done since set-up.", "quantifier": "every sequence of beam operations", "why_tests_cant": "all histories", "anchors": ["src/beam.cpp: setupTracking, doStep, InitVay, StepVay"]}
{"id": "C30", "title": "Totals are additive", "statement": "Number of particles and total charge of a beam are the sums over bunches and particles and do not change by tracking, exchange or copying; out-of-range bunch/particle requests return a null pointer.", "quantifier": "every beam and every operation sequence", "why_tests_cant": "all structures and histories", "anchors": ["src/beam.cpp: getNOP, getTotalCharge, getBunch", "src/bunch.cpp: getTotalCharge, getParticle"]}
{"id": "C31", "title": "Probe selection", "statement": "A probe request for n particles delivers n different particles, in the order first particle of every bunch, second particle of every bunch, ...; it terminates for every n.", "quantifier": "every beam structure and every n", "why_tests_cant": "termination for all n", "anchors": ["src/beam.cpp: Beam::bufferProbe"]}
{"id": "C32", "title": "Every particle is tracked by exactly one node", "statement": "The distribution of particles to P nodes assigns every particle of the beam to exactly one node, in order, at most ceil(N/P) per node, and no particle to a non-existing node.", "quantifier": "every number of particles and nodes, every bunch structure", "why_tests_cant": "all N and P", "anchors": ["src/teufel_hybrid.cpp:304-409"]}
{"id": "C33", "title": "Tracking results do not depend on the number of nodes", "statement": "After every step the beam gathered on every node is identical, particle by particle and bit by bit, to the beam tracked by a single process; only initialised buffer elements are used.", "quantifier": "every N, P, field, particle set and number of steps", "why_tests_cant": "all decompositions and all histories", "anchors": ["src/teufel_hybrid.cpp:304-540"]}
{"id": "C34", "title": "Observed beam fields do not depend on the number of nodes", "statement": "The sum over nodes of the fields observed from the particles of each node equals the field observed from the whole beam.", "quantifier": "every N, P, observer and trajectory set (over real arithmetic)", "why_tests_cant": "all decompositions", "anchors": ["src/teufel_hybrid.cpp:692-765", "src/beam.cpp: integrateFieldTrace, RetardedField"]}
{"id": "C35", "title": "Observed lattice fields do not depend on the number of nodes", "statement": "A lattice observation reports the lattice field, independent of the number of nodes used for the computation.", "quantifier": "every lattice, observer and number of nodes P>=1", "why_tests_cant": "tests run with one configuration", "anchors": ["src/teufel_hybrid.cpp:705-763", "src/screen.cpp: ScreenObserver<Lattice>::integrate"]}
{"id": "C36", "title": "Observation buffers are large enough", "statement": "The buffer an observer allocates for exporting its fields has room for all values written to it, and import accepts exactly the exported size.", "quantifier": "every observer size that can be requested in an input file", "why_tests_cant": "failures only for very large screens", "anchors": ["src/screen.h:153", "src/snapshot.h:134", "src/screen.cpp: getBuffer, fromBuffer", "src/teufel_hybrid.cpp:726-754"]}
{"id": "C37", "title": "Observer export/import round trip", "statement": "For screen, point, snapshot and mesh observers: importing an exported buffer restores every field value of every cell and time; values of different cells are never mixed; importing the elementwise sum of buffers gives the elementwise sum of fields; a wrong size is refused.", "quantifier": "every observer size and content", "why_tests_cant": "index arithmetic for all sizes", "anchors": ["src/screen.cpp: getBuffer, fromBuffer", "src/snapshot.cpp", "src/point_observer.cpp", "src/mesh.cpp: getBuffer, fromBuffer"]}
{"id": "C38", "title": "Parallel field integration is deterministic", "statement": "The observed fields after a multi-threaded integration are the same for every assignment of cells to threads and every interleaving of the threads.", "quantifier": "all schedules", "why_tests_cant": "schedules cannot be enumerated by tests", "anchors": ["src/screen.cpp: integrate", "src/snapshot.cpp: integrate", "src/mesh.cpp: integrate"]}
{"id": "C39", "title": "Interaction fields are removed before lattice observation", "statement": "Before observations are computed exactly the interaction fields are removed from the lattice, all external elements stay in their order, and the removal loop terminates.", "quantifier": "every lattice content", "why_tests_cant": "all orders, in particular neighbouring interaction elements", "anchors": ["src/teufel_hybrid.cpp:675-689", "src/fields.cpp: Lattice::remove, at, count"]}
{"id": "C40", "title": "Loggers and watch points fire at the requested steps", "statement": "A logger with step width s records the initial state and every s-th step: after n steps it holds 1+floor(n/s) records with all data columns of equal length; watch points are written exactly at the requested steps.", "quantifier": "every step width accepted by the parser and every number of steps", "why_tests_cant": "all widths including zero and negative input", "anchors": ["src/logger.h: log_requested", "src/logger.cpp: update", "src/teufel_hybrid.cpp:463-577"]}
{"id": "C41", "title": "Screen and snapshot cell geometry", "statement": "Screen cell (Nx/2,Ny/2) lies at the given position and has the given start time, neighbouring cells are displaced by dX (dY) and delayed by dtx (dty); snapshot cells are centred about the given position; out-of-range requests raise exceptions.", "quantifier": "every size and cell index representable in the input", "why_tests_cant": "all sizes, unsigned/signed index arithmetic", "anchors": ["src/screen.cpp: CellPosition, CellTimeZero", "src/snapshot.cpp: CellPosition"]}
{"id": "C42", "title": "Source screen frame is orthonormal", "statement": "A screen used as a field source builds an orthonormal local frame from the stored normal and cell vectors.", "quantifier": "every stored screen with linearly independent vectors", "why_tests_cant": "depends on vector lengths; tests use special screens", "anchors": ["src/source_screen.cpp:112-125"]}
{"id": "C43", "title": "Mesh cell geometry and energy", "statement": "For a non-degenerate triangle the cell normal is a unit vector perpendicular to all edges, the area is that of the triangle, the local frame is orthonormal; mesh energy is additive over cells.", "quantifier": "every non-degenerate triangle", "why_tests_cant": "all geometries", "anchors": ["src/mesh.cpp: init, totalEnergy"]}
{"id": "C44", "title": "Mesh neighbourhood", "statement": "The neighbourhood of a mesh cell contains exactly the other cells sharing a corner with it, each once, and fits the caller's buffer.", "quantifier": "every mesh", "why_tests_cant": "meshes with vertices of high valence", "anchors": ["src/mesh.cpp: get_Neighbourhood", "src/propagate.cpp", "src/reflection.cpp"]}
{"id": "C45", "title": "Reflection at a metal surface", "statement": "Reflecting a field at a surface with given normal yields a field such that incident plus reflected tangential E and normal B vanish; the operation preserves |E|, |B|, reverses the normal energy flow and is an involution.", "quantifier": "every field and every unit normal", "why_tests_cant": "all geometries", "anchors": ["src/reflection.cpp:149-169"]}
{"id": "C46", "title": "Normal derivatives used in propagation follow from Maxwell's equations", "statement": "The normal derivatives of the transverse fields computed from transverse and time derivatives are those required by Faraday's and Ampere's law in vacuum.", "quantifier": "all fields (derivative values) ", "why_tests_cant": "sign conventions for all combinations", "anchors": ["src/propagate.cpp:254-259"]}
{"id": "C47", "title": "Lattice superposition", "statement": "The field of a lattice is the sum of the fields of its elements, independent of their order; adding and removing elements changes it by that element's field; invalid indices are refused.", "quantifier": "every list of elements, every point", "why_tests_cant": "all orders and contents", "anchors": ["src/fields.cpp: Lattice::*"]}
{"id": "C48", "title": "Localized elements are translation covariant", "statement": "Displacing an element in space and time displaces its field by the same amount.", "quantifier": "every element field, displacement and point", "why_tests_cant": "all displacements", "anchors": ["src/fields.cpp: LocalizedField::Field"]}
{"id": "C49", "title": "Undulator field", "statement": "The undulator field vanishes outside its length, is continuous along z (no field jumps at the ends), bounded by the nominal amplitude times cosh(k y), and in the full-strength part satisfies Maxwell's equations div B = 0 and curl B = 0.", "quantifier": "every undulator and every point", "why_tests_cant": "all points and parameters", "anchors": ["src/undulator.cpp: PlanarUndulator::LocalField, TransverseGradientUndulator::LocalField"]}
{"id": "C50", "title": "Dipole field", "statement": "The hard-edge dipole field is the nominal field inside both pole planes and zero outside; the soft-edge field has half strength at a plane (when the other is far), falls from 75% to 25% over the transition length, never exceeds the nominal strength.", "quantifier": "every dipole and every point", "why_tests_cant": "all points", "anchors": ["src/dipole.cpp: HardEdgeDipole::LocalField, SoftEdgeDipole::LocalField"]}
{"id": "C51", "title": "Laser wave field", "statement": "For Gaussian waves and wave packets E and B are perpendicular with |B| = |E|/c everywhere, transverse to the propagation direction, and |E| never exceeds the nominal amplitude.", "quantifier": "every wave and every point and time", "why_tests_cant": "all points", "anchors": ["src/wave.cpp: GaussianWave::LocalField, GaussianWavePacket::LocalField"]}
{"id": "C52", "title": "FEL grid accesses stay inside the grid", "statement": "Every particle accepted by the FEL interaction deposits only into existing grid cells, every accepted field query reads an existing cell, everything else is refused with an exception.", "quantifier": "every particle position, grid size and step", "why_tests_cant": "rounding at both grid ends, all grid sizes", "anchors": ["src/fel1d.cpp: step, Field, init"]}
{"id": "C53", "title": "Undriven FEL field propagates unchanged", "statement": "Without current a seed field moves with the grid at the speed of light without changing shape, for any number of steps.", "quantifier": "every seed field and number of steps", "why_tests_cant": "all fields and unbounded number of steps", "anchors": ["src/fel1d.cpp: init, step, seed"]}
{"id": "C54", "title": "FEL field and beam stay synchronised", "statement": "In a run of the main tracking loop with particles starting at time zero, no time-mismatch exception is ever raised: field and beam times agree at every query, after any number of steps.", "quantifier": "every number of steps, every beam starting at t=0", "why_tests_cant": "all steps", "anchors": ["src/fel1d.cpp: init, step, Field", "src/teufel_hybrid.cpp:498-581"]}
{"id": "C55", "title": "FEL field history recording", "statement": "The recorded field history contains the initial field and every step_Output-th field, whatever the input file specifies.", "quantifier": "every input and number of steps", "why_tests_cant": "missing optional input elements", "anchors": ["src/fel1d.cpp: step, constructor", "src/fel1d.cpp:322"]}
{"id": "C56", "title": "Calculator definitions are evaluated once, in order", "statement": "Every calc definition of an input file is evaluated exactly once, in document order, each seeing the values defined before.", "quantifier": "every input document", "why_tests_cant": "depends on element kinds and expression structure", "anchors": ["src/parser.cpp: parseCalcChildren, parseLattice", "src/undulator.cpp:42,142", "src/dipole.cpp:50,150"]}
{"id": "C57", "title": "Macro-particle charge bookkeeping", "statement": "A bunch defined with a total charge and n macro-particles contains n particles whose charges and masses add up to the given totals.", "quantifier": "every charge and every n", "why_tests_cant": "all n including 0", "anchors": ["src/parser.cpp: parseBeam"]}
{"id": "C58", "title": "Watch files can be read back", "statement": "A beam written to a watch file carries the total charge in Coulomb and the number of particles under the names the reader of the same program expects, so the particles can be re-imported.", "quantifier": "every beam", "why_tests_cant": "round trip through file schema for all beams", "anchors": ["src/bunch.cpp: Bunch(const char*,Vector), WriteWatchPointSDDS", "src/beam.cpp: WriteWatchPointSDDS"]}
{"id": "C59", "title": "Acceleration field uses the derivative of the velocity", "statement": "The field observed from a stored trajectory point is the field of Lienard and Wiechert for the position, velocity and the time derivative of the velocity which belong to the stored momentum and force.", "quantifier": "every stored trajectory point (any momentum, any force direction), every observer", "why_tests_cant": "tests compare radiation of undulators, where the force is perpendicular to the motion; the longitudinal part never shows up there", "anchors": ["src/particle.cpp: ChargedParticle::RetardedField", "src/particle.cpp: ChargedParticle::StepVay (A_current)"]}
{"id": "C60", "title": "Unit of the total charge", "statement": "The total charge reported for a bunch or beam is the sum of the particle charges in the documented unit (units of the elementary charge, i.e. number of simulated electrons).", "quantifier": "every beam", "why_tests_cant": "tests never compare the reported value with the documented unit; the factor is the same for all beams", "anchors": ["src/beam.h: Beam::getTotalCharge", "src/bunch.h: Bunch::getTotalCharge", "src/particle.h: getCharge"]}
{"id": "C61", "title": "HDF5 watch files hold every particle", "statement": "The data set of an HDF5 watch file has one row of six numbers (position and momentum) for each particle of the beam, in the order of the bunches; the buffer is neither overrun nor left partly unwritten, and the number of particles is returned.", "quantifier": "every beam", "why_tests_cant": "buffer capacity and pointer arithmetic for all beams", "anchors": ["src/beam.cpp: WriteWatchPointHDF5", "src/bunch.cpp: bufferCoordinates"]}
{"id": "C62", "title": "Superposition", "statement": "The field of a beam is the sum of the fields of all its particles; a field trace of a beam accumulates the contribution of every particle exactly once.", "quantifier": "every beam, observer and time", "why_tests_cant": "sums over arbitrarily many bunches and particles", "anchors": ["src/bunch.cpp: Bunch::RetardedField, integrateFieldTrace", "src/beam.cpp: Beam::RetardedField, integrateFieldTrace"]}
{"id": "C63", "title": "Bunch from distribution", "statement": "Particle i of a bunch created from a distribution starts with the reference position, momentum and time plus its coordinates in the distribution, at zero acceleration, with the given charge and mass; the bunch has as many particles as the distribution.", "quantifier": "every distribution of dimension 7, every reference", "why_tests_cant": "index mapping for all sizes", "anchors": ["src/bunch.cpp: Bunch(Distribution*,...)"]}
{"id": "C64", "title": "Propagated field is the Kirchhoff sum", "statement": "Every sample of the propagated trace of a target cell is the sum over all source cells of the three retarded Kirchhoff terms (field, time derivative and normal derivative).", "quantifier": "every list of source cells, every target position and sampling", "why_tests_cant": "the number of cells, the sampling and the retardation are arbitrary; exceptions drop terms silently", "anchors": ["src/propagate.cpp:369-421", "src/reflection.cpp:482-539"]}
{"id": "C65", "title": "Weights of the Kirchhoff terms", "statement": "The weights of the field and of its time derivative are those of minus the derivative of the retarded spherical wave along the source normal; reversing the normal reverses the field.", "quantifier": "every signal, every source and target position, every normal", "why_tests_cant": "signs of the terms are marked as doubtful in the code; only particular geometries can be tested", "anchors": ["src/propagate.cpp:385-412"]}
{"id": "C66", "title": "Field of a recorded screen", "statement": "The field of a source screen is the Kirchhoff sum over the cells whose retarded time lies within the recorded time, and zero if there is none.", "quantifier": "every screen, time and position", "why_tests_cant": "continuous range of positions and times, arbitrary orientation of the screen", "anchors": ["src/source_screen.cpp:252-276", "src/source_screen.cpp:107-212"]}
{"id": "C67", "title": "Transverse derivatives of the fields on a surface", "statement": "The quadratic least-squares fit over the neighbours is exact for fields which are quadratic on the surface, so the normal derivative is the one of the field.", "quantifier": "every mesh, every quadratic field satisfying Maxwell's equations", "why_tests_cant": "arbitrary arrangement of the neighbouring cells", "anchors": ["src/propagate.cpp:159-268"]}
{"id": "C68", "title": "Particle log files hold all recorded values", "statement": "The file written by a trajectory or probe logger has the dimensions records x particles x values and contains exactly the values recorded at the requested steps, in order.", "quantifier": "every number of records, particles and values per particle", "why_tests_cant": "the buffer size is computed in 32-bit unsigned arithmetic; products beyond 2^32 need gigabytes of data to reach", "anchors": ["src/logger.cpp:237-326", "src/logger.cpp:357-455"]}
{"id": "C69", "title": "FEL field is a plane wave", "statement": "The field returned by the FEL interaction is transverse to the unit propagation direction with B = n x E / c, and the directions never change.", "quantifier": "every direction, polarization and position", "why_tests_cant": "rounding-free identity over all directions", "anchors": ["src/fel1d.cpp: constructors, Field"]}
{"id": "C70", "title": "FEL field responds linearly and causally to the current", "statement": "For any sequence of currents the field on the grid is the undriven field plus a fixed linear superposition of the currents, and the field of a cell depends only on currents closer to the head.", "quantifier": "every sequence of currents, every grid size and number of steps", "why_tests_cant": "all current sequences, unbounded number of steps", "anchors": ["src/fel1d.cpp: step"]}
{"id": "C71", "title": "Screen files contain the recorded fields and can be used as a source", "statement": "The HDF5 file of a screen holds the position of every cell, the geometry and every field sample at its indices; read by the SourceScreen class, placed at the origin and start time of the screen, every cell is found at its position with its start time and the tangential components of its samples.", "quantifier": "every screen size, geometry and field content", "why_tests_cant": "all sizes up to the 32-bit limits and beyond; the buffer sizes wrap only for gigabyte-sized screens", "anchors": ["src/screen.cpp:297-558", "src/source_screen.cpp:32-236"]}
{"id": "C72", "title": "Mesh files can be written and read without loss", "statement": "Reading the file written for a meshed screen returns the same corner points, triangles, positions, start times, time step and all field samples; every mesh read from a file is consistent.", "quantifier": "every mesh and field content", "why_tests_cant": "exact round trip for all sizes", "anchors": ["src/mesh.cpp:30-218", "src/mesh.cpp:427-742"]}
{"id": "C73", "title": "Snapshot files contain the fields and the particles", "statement": "The file of a snapshot holds the positions of the grid points, the field of every point at its indices and, for every particle of the beam in order, position and momentum at the time of the observation.", "quantifier": "every grid, beam and time", "why_tests_cant": "all sizes", "anchors": ["src/snapshot.cpp:104-149", "src/snapshot.cpp:225-394"]}
{"id": "C74", "title": "Tables of point observers and parameter loggers are complete", "statement": "The table of a point observer has one row per sample with its time and the six field components under their names; the table of a parameter logger has one row per recorded state with the statistics of the bunch under their names.", "quantifier": "every number of samples and records", "why_tests_cant": "all lengths; a permuted column keeps every type and size", "anchors": ["src/point_observer.cpp:119-186", "src/logger.cpp:79-210"]}
{"id": "C75", "title": "FEL files describe the interaction", "statement": "The file of the FEL interaction holds all recorded fields and current densities and, as attributes, the sizes, the time step, the mode and the origin and the direction of propagation.", "quantifier": "every direction, grid and number of records", "why_tests_cant": "all sizes and directions", "anchors": ["src/fel1d.cpp:359-498"]}
{"id": "C76", "title": "The parsed input is what the document describes", "statement": "An input document is accepted if and only if it describes a simulation, and then the lattice elements, bunches, particles, loggers, probe, watch points, interactions and observers are exactly those described, in document order and with the values of their attributes; two processes which draw different random numbers get inputs which differ in the coordinates of the particles only.", "quantifier": "every document, calculator, set of files and random numbers", "why_tests_cant": "any combination, number and order of elements, attributes and definitions", "anchors": ["src/parser.cpp:149-968", "src/undulator.cpp:39-64", "src/undulator.cpp:140-169", "src/dipole.cpp:47-105", "src/dipole.cpp:147-214", "src/wave.cpp:39-65", "src/wave.cpp:118-147", "src/fel1d.cpp:50-136", "src/teufel_hybrid.cpp:188-262"]}
{"id": "C77", "title": "The program writes the files the input describes", "statement": "For every input document the program, run by any number of processes, either fails or writes exactly the files described: the watch files and loggers with the states of the tracking of all particles at the requested steps, the FEL histories, and the fields of the observers; the files do not depend on the number of processes nor on the random numbers drawn by the processes other than the first.", "quantifier": "every document, number of processes, number of particles and steps, random numbers", "why_tests_cant": "all documents, numbers of processes and steps", "anchors": ["src/teufel_hybrid.cpp:60-829"]}
{"id": "C78", "title": "Energy of a recorded screen", "statement": "The total energy reported for a source screen is the sum over its cells of the time-integrated Poynting flux of the recorded fields against the normal times the cell area.", "quantifier": "every screen with orthogonal cell vectors, any orientation and any recorded fields", "why_tests_cant": "arbitrary orientations and recorded fields; tests use screens facing along z", "anchors": ["src/source_screen.cpp:214-217", "src/source_screen.cpp:278-288"]}
{"id": "C79", "title": "Out-of-step use of the FEL field is refused", "statement": "A field query, a beam or a particle whose time differs from the time of the FEL field by more than a quarter of the time step, a particle outside the grid and a beam with another time step are refused with an exception; within a quarter step the time of a query has no influence.", "quantifier": "every field state, time, position, beam and time step", "why_tests_cant": "all times around the limit, all positions", "anchors": ["src/fel1d.cpp:196-200", "src/fel1d.cpp:223-269", "src/fel1d.cpp:329-339"]}
{"id": "C80", "title": "Source of the FEL field is the current of the particles", "statement": "In every step the FEL field receives from every particle a Gaussian pulse with a width of two cells, cut after ten cells, with the amplitude mu0 c^2 q beta' / (mode area dt), added up over all particles of all bunches in any order, and the recorded current is this sum.", "quantifier": "every beam, grid and step", "why_tests_cant": "all beams and positions in the grid", "anchors": ["src/fel1d.cpp:238-326"]}
{"id": "C81", "title": "Program propagate writes the Kirchhoff sum of the source file", "statement": "When the program propagate ends normally, the source and target files were read, the only file changed is the output file, and it describes the mesh of the target file with, in every cell, the Kirchhoff sum over all cells of the source with their areas, unit normals, time derivatives and normal derivatives. If every source cell carries the whole target traces the program ends normally.", "quantifier": "every content of the files, every order of work of the threads", "why_tests_cant": "all meshes, all schedules", "anchors": ["src/propagate.cpp:54-468", "src/mesh.cpp:428-741"]}
{"id": "C82", "title": "Programs propagate and reflection refuse bad command lines and files", "statement": "Too few arguments give a usage message, exit code 1 and no change of any file; further arguments are ignored; a missing file raises an exception before anything is written; nothing else is undefined.", "quantifier": "every command line and every set of files", "why_tests_cant": "all files", "anchors": ["src/propagate.cpp:64-72", "src/reflection.cpp:65-73", "src/propagate.cpp:145-300"]}
{"id": "C83", "title": "Results of propagate and reflection do not depend on the schedule", "statement": "The files written and values printed by the programs propagate and reflection are the same for every order in which the threads work on the cells.", "quantifier": "every order of the cells in every parallel loop", "why_tests_cant": "exponentially many schedules", "anchors": ["src/propagate.cpp:145-300", "src/propagate.cpp:355-440", "src/reflection.cpp:227-380", "src/reflection.cpp:466-560"]}
{"id": "C84", "title": "Program reflection propagates the mirrored source", "statement": "The program reflection writes the file the program propagate writes for the source with the reflected fields, and the energy flowing through the reflected source is the opposite of that of the source.", "quantifier": "every content of the files, every order of work of the threads", "why_tests_cant": "all meshes and fields", "anchors": ["src/reflection.cpp:55-587"]}
{"id": "C85", "title": "Reports of the programs propagate and reflection", "statement": "The peak energy density reported is the largest one and its cell the first one with it; the area and energy reported last belong to the mesh written; the box reported is the smallest one with all positions and all sample times.", "quantifier": "every mesh and trace", "why_tests_cant": "all meshes", "anchors": ["src/propagate.cpp:76-142", "src/reflection.cpp:76-147", "src/reflection.cpp:390-430", "src/mesh.h:127"]}
{"id": "C86", "title": "Recorded radiation can be used as a source", "statement": "The file of a screen, read as a source and placed at the origin and start time of the screen, gives at every time and place off the screen the Kirchhoff integral over its cells at the positions and times they were recorded, with their tangential fields; before the first light and after the last light there is no field.", "quantifier": "every screen with perpendicular cell vectors, every recorded field, every time and place", "why_tests_cant": "all screens, times and places; a run has one geometry", "anchors": ["src/source_screen.cpp:32-276", "src/screen.cpp:297-558", "src/fields.cpp:165-188"]}
{"id": "C87", "title": "Every heap object is released exactly once", "statement": "A run of teufel_hybrid, propagate or reflection releases every object it made exactly once, with the form of delete which belongs to the form of new, never uses an object after its release, and leaves nothing allocated when it ends.", "quantifier": "every input: any lattice, beam, loggers, probe, watch points, interactions, observers, number of steps and of nodes, on every node", "why_tests_cant": "all shapes of input and all ranks; tests do not see leaks, wrong forms of delete or accesses to released memory", "anchors": ["src/teufel_hybrid.cpp:193-820", "src/parser.cpp:39-59", "src/parser.cpp:166-298", "src/parser.cpp:345-596", "src/fields.cpp:198-227", "src/bunch.cpp:34-51", "src/bunch.cpp:351-355", "src/beam.cpp:39-43", "src/logger.cpp:229-246", "src/source_screen.cpp:99-237", "src/screen.cpp:78-96", "src/screen.cpp:318-551", "src/snapshot.cpp:36-149", "src/mesh.cpp:50-224", "src/mesh.cpp:451-727", "src/point_observer.cpp:43-60", "src/propagate.cpp:79-465", "src/reflection.cpp:80-584"]}
{"id": "C88", "title": "Every interleaving of the MPI processes gives the same files", "statement": "The processes of teufel_hybrid agree about every collective operation (kind and number of values), never block each other while none has failed, read all input before the first file is written, and if they end they have written exactly the files the program writes with all processes in step, whatever the order in which they proceed; every process which ends calls MPI_Finalize.", "quantifier": "every input, command line, number of processes, random numbers, and every interleaving of the steps of the processes including those in which the root runs ahead of a broadcast or the others ahead of a reduction", "why_tests_cant": "interleavings are chosen by the operating system and the MPI library; a test sees one of them", "anchors": ["src/teufel_hybrid.cpp:74-829"]}
{"id": "C89", "title": "The memory report shows the numbers of the kernel", "statement": "At the start teufel_hybrid reports the total memory of the node (MemTotal of /proc/meminfo) and the memory used by the process (VmSize of /proc/PID/status) for any values, an unknown value if a file or an entry is missing, and the report never ends the program.", "quantifier": "every text of the two files", "why_tests_cant": "needs machines with more than 2 TiB of memory or address space", "anchors": ["src/teufel_hybrid.cpp:103-151"]}
{"id": "C90", "title": "Homogeneous fields are tracked like the exact solutions", "statement": "In a homogeneous field without force on the particle (no field, or a velocity selector) every recorded point is that of the uniform motion; in a homogeneous electric field every recorded momentum is the exact one; in a homogeneous magnetic field all recorded points lie on the cylinder of the exact orbit (exact axis and gyro radius), the momentum turns about the field by 2 atan(q dt B/(2 m g)) in every step with its length and its part along the field unchanged, and angle and advance of a step differ from the exact ones by terms of third order in the time step, so that every recorded point is within a constant times t dt^2 of the exact orbit.", "quantifier": "every start point, momentum, charge, mass, field vector, time step of either sign and number of steps (real numbers)", "why_tests_cant": "an identity for all steps; tests compare single trajectories with tolerances", "anchors": ["src/particle.cpp:407-512"]}
{"id": "C91", "title": "Tracking converges with second order to the solution of the equation of motion", "statement": "For any fields and any solution X(t), P(t) of the relativistic equation of motion starting from the last point of the trajectory, such that velocity and force along the solution have Lipschitz-continuous derivatives and the fields around the solution exist, are bounded and are Lipschitz-continuous, there are C and delta > 0 such that for all time steps dt < delta and all numbers of steps within the time interval InitVay followed by StepVay succeeds, one point per step is recorded at the times t0 + k dt, and all recorded positions, momenta and derivatives of the momentum differ from those of the solution by at most C dt^2.", "quantifier": "for all fields, solutions, particles with a well-formed trajectory, time steps below delta and numbers of steps (real arithmetic)", "why_tests_cant": "A test compares runs with a few time steps in one field; that the start of the leap-frog scheme, the positions at full steps and the recorded momenta are all of second order for every smooth field, with one constant for all steps, is a statement about a limit.", "anchors": ["src/particle.cpp:407-512"]}
{"id": "C92", "title": "The test programs accept the code", "statement": "The test programs magnet, EcrossB, electrostatic, loop, integrate_field, undulator and RadPush return 0 in IEEE double precision. In exact arithmetic EcrossB returns 0 for all fields, directions, energies, times and numbers of steps, magnet for all fields and energies whose gyro radius is small enough for the number of steps, and the tracking of DiffractionScreen for all charges, energies and time steps of at most 1 us. A check returns 0 only if the result compared is within its tolerance.", "quantifier": "for all library functions (programs without undulators and waves); for all fields, directions, energies, times and numbers of steps (real arithmetic, EcrossB and magnet); for all results compared", "why_tests_cant": "A test program says nothing about itself: whether its checks could fail at all, and whether it passes only by the luck of its parameters, is not visible from its success.", "anchors": ["tests/teufel.magnet.cpp:64-171", "tests/teufel.EcrossB.cpp:60-160", "tests/teufel.electrostatic.cpp:60-237", "tests/teufel.loop.cpp:76-195", "tests/teufel.integrate_field.cpp:51-199", "tests/teufel.undulator.cpp:79-201", "tests/teufel.RadPush.cpp:60-160", "tests/teufel.DiffractionScreen.cpp:67-123"]}
{"id": "C93", "title": "The shipped input files are accepted", "statement": "Every input file which is part of the repository (examples and tests) is accepted when the files it names can be read. Its definitions get the values they have in document order, every number it needs has a value, everything it requests is made, and its watch points lie within the tracking. In general a document is accepted if every section, child and attribute needed is there and the integers are in range; if all of its texts have a value, the result does not depend on what is put in place of texts without one.", "quantifier": "for all contents of the files read and all random numbers; the first and last parts for all documents, arithmetics and calculators", "why_tests_cant": "The examples need hours of computing time, and most of them a cluster; an expression without a value is only reported on the terminal and replaced by zero, so that a run with a misspelt name succeeds.", "anchors": ["src/parser.cpp:41-972", "examples/elbe-u300.xml", "examples/create_source.xml", "examples/prepare_WG_input.xml", "tests/create_source.xml", "tests/fel1d_modulation.xml"]}
{"id": "C94", "title": "The emission point lies on the light cone", "statement": "For an observation inside the time range seen from the trajectory exactly one point of the interpolated trajectory in the interval found is seen at the observation time, and the field returned is that of a point which differs from it by a small part of the interval (at most 2*10^-5 of it, less for distant observers).", "quantifier": "every trajectory slower than light, every observer position and observation time", "why_tests_cant": "The search is an iteration which gives up after ten rounds or at a tolerance relative to its own slope; whether it has found the point is not visible in the field returned.", "anchors": ["src/particle.cpp:612-769"]}
{"id": "C95", "title": "Times of a trace", "statement": "The time of sample i of a trace is t0 + i dt, the last time is that of the last sample, and the center time is in the middle between the first and the last sample.", "quantifier": "every trace", "why_tests_cant": "The center time is not used by any program or test.", "anchors": ["src/fieldtrace.cpp:140-157"]}
{"id": "C96", "title": "What an observer records of a beam", "statement": "After the integration of a beam by a new screen, point observer or mesh, each sample of each cell is the average, over the time step around the time of the sample, of the field of all particles of the beam arriving at the position of the cell; each cell of a snapshot holds the sum of the retarded fields of all particles at its position and time.", "quantifier": "every beam of particles slower than light, every screen, point observer, mesh and snapshot", "why_tests_cant": "The positions and times of the cells, the sum over particles and bunches and the averaging are in different files; a test has a field to compare with only for single particles in simple motion.", "anchors": ["src/screen.cpp:113-181", "src/point_observer.cpp:63-80", "src/mesh.cpp:289-345", "src/snapshot.cpp", "src/beam.cpp:430-450", "src/bunch.cpp:725-746", "src/particle.cpp:771-860"]}
{"id": "C97", "title": "From the input file to the values in the files of the observers", "statement": "After a run of the program the file of every observer of the beam holds what it is made for: the values of a screen, point observer or mesh are the averages, over the time step around each sample, of the field arriving at the position of the cell from all particles of the input, tracked as many steps as it asks for; the values of a snapshot are those of the sum of their retarded fields.", "quantifier": "every document, number of processes, beam and observer", "why_tests_cant": "Parser, tracking, communication, observers and writers all contribute to a value in a file; a test compares single files of single runs.", "anchors": ["src/teufel_hybrid.cpp", "src/parser.cpp", "src/beam.cpp", "src/screen.cpp", "src/point_observer.cpp", "src/mesh.cpp", "src/snapshot.cpp"]}
{"id": "C98", "title": "From the input file to the values in the files written during the tracking", "statement": "After a run of the program the table of every parameter logger has a row for each step which is due, with the averages and r.m.s. values over the points of that step of the trajectories of the particles of its bunch and the modulus of their bunching factor; every trajectory file holds positions and momenta of the recorded particles at these steps, and every watch file those of all particles at its step. The trajectories are those which the observers see.", "quantifier": "every document, number of processes, logger and watch point", "why_tests_cant": "Parser, tracking, communication, loggers and writers all contribute to a value in a file; a test compares single files of single runs.", "anchors": ["src/teufel_hybrid.cpp", "src/parser.cpp", "src/beam.cpp", "src/bunch.cpp", "src/logger.cpp"]}
