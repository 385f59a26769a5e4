# DESIGN

Formal model of TEUFEL (particle tracking and radiation observation) in Rocq/Coq 8.16.1.
Properties are listed in `properties.jsonl`; the status of each is in `MANIFEST.json`; the
tests of the theorems against wrong programs are in `seeded/LOG.jsonl`.

Contents: approach, trusted base, what is modelled, what is not modelled, findings (where the
code does not do what the property says), assumptions of every theorem, plan per property.

## Approach

* Every numeric function of the code is modelled once, over an abstract number interface
  (`Num` in `theories/Num.v`: + - * / sqrt, comparisons, conversions, constants; `Trans` in
  `ElementModel.v`: sin, cos, sinh, cosh, atan, exp).
  The interface is instantiated with
  * the real numbers `R` (`NumR`) for the physics theorems,
  * the real numbers with a separate value for invalid operations (`NumChk`, type `option R`):
    a division by zero or a root of a negative number has no value, so a theorem about this
    instance also says that no invalid operation takes place,
  * the IEEE-754 binary64 primitive floats of Coq (`NumF`) for witnesses of rounding-related
    defects and, through the bridge `FloatFacts.v` to Flocq's theory of rounding, for theorems about
    the rounded computation itself (`PropFloat*.v`).

  Theorems about data movement are proved for *every* instance (`forall (T : Type) (NT : Num T)`),
  i.e. they hold bit by bit for the doubles of the code.
* The outcome of a function is `Ok value`, `Throw exception`, `UB` (undefined behaviour: access
  outside an array, signed overflow, division of integers by zero, use of an indeterminate value,
  null pointer) or `Loop` (does not end). No theorem treats `UB` as a value.
* `int` is modelled by `Z` with explicit range checks (overflow is `UB`), `unsigned int` and
  `size_t` by `Z` with explicit wrapping (`u32`, `u64`).
* Loops are structural recursion over lists or counters; loops which may not end have the
  outcome `Loop` when their fuel, chosen large enough, is used up.
* Models (`*Model.v`), specifications (`*Spec.v`), proofs (`*Proofs*.v`) and the property theorems
  (`Prop*.v`, with `Print Assumptions` and a concrete example meeting the hypotheses) are kept apart.
  Small specifications used by one property only stand in the `Prop` file.
* If the code violates a property, the violated statement is refuted by a theorem named `*_refuted`
  with a concrete witness, and the part that does hold is proved (`*_partial` if the full
  statement is not reached; what is missing is said in the comment and in `MANIFEST.json`).

## Trusted base

* The kernel of Coq 8.16.1 (checked again with `coqchk`).
* The axioms listed by `Print Assumptions`, all of them from Coq's standard library:
  * `ClassicalDedekindReals.sig_forall_dec`, `ClassicalDedekindReals.sig_not_dec`,
    `FunctionalExtensionality.functional_extensionality_dep`: the real numbers,
  * `Classical_Prop.classic`: used by the standard library (and by Coquelicot and Flocq lemmas) for
    analysis: `sin`, `exp`, `atan`, integrals,
  * `PrimFloat.*` and `PrimInt63.*`: the primitive floating-point numbers and machine integers of
    the kernel (types and operations),
  * `FloatAxioms.*` of the standard library (`add_spec`, `mul_spec`, ..., `Prim2SF_valid`,
    `SF2Prim_Prim2SF`, `Prim2SF_SF2Prim`): the primitive operations are those of IEEE 754; used by the
    theorems of `PropFloat*.v` only, all other witnesses with floats are computed.

  No other library adds an axiom; Coquelicot (analysis) and Flocq (rounding of reals to integers,
  `Znearest`, and its definitions for `NumF`) are used as lemma libraries. The exact list for each theorem is in
  the section "Assumptions of every theorem".
* That the model says what the C++ code does. Every definition cites the file and the lines it
  models; deviations are named in the comments and below.
* That `R` (or `option R`) is an acceptable stand-in for `double` in the theorems stated over it.
  Rounding is *not* covered by those theorems. Where rounding breaks the claim a theorem over
  `NumF` shows it (C01, C15, C27, C53, C54, C57).

## What is modelled

| code | model |
|---|---|
| vector.cpp, vector.h, class ElMagField in fields.cpp | VecModel.v |
| particle.cpp: tracking, trajectory, serialization, interpolation | ParticleModel.v |
| particle.cpp: retarded times and fields, integration of traces | RetardModel.v |
| fieldtrace.cpp | TraceModel.v |
| bunch.cpp, beam.cpp: distributions, bunches, beams, statistics | BunchModel.v |
| bunch.cpp, beam.cpp: watch files and the reader of SDDS files | SddsModel.v |
| fields.cpp (lattice), undulator.cpp, dipole.cpp, wave.cpp, pec_plate.cpp | ElementModel.v |
| fel1d.cpp | FelModel.v |
| logger.cpp, logger.h, and their calls | LoggerModel.v |
| screen.cpp, snapshot.cpp, point_observer.cpp, mesh.cpp: geometry, integration, buffers | ObserverModel.v |
| the same files: output files; source_screen.cpp, mesh.cpp: readers of the files | OutputModel.v |
| reflection.cpp, propagate.cpp (parts), source_screen.cpp (field and energy) | PropagateModel.v |
| life of the heap objects of all three programs (new, delete, use) | MemModel.v, MemModel2.v |
| reflection.cpp, propagate.cpp: whole programs, from the command line to the file written | ToolsModel.v |
| parser.cpp and the constructors which read XML nodes | ParserModel.v |
| teufel_hybrid.cpp: distribution to nodes, tracking loop | DriverModel.v, LoggerModel.v |
| teufel_hybrid.cpp: observation | ObserverModel.v |
| teufel_hybrid.cpp: whole program, from the XML tree to the files, all processes in step | ProgramModel.v |
| teufel_hybrid.cpp: every process on its own, from the command line to the end of main() | HybridModel.v |
| teufel_hybrid.cpp: memory report | ReportModel.v |
| tests/teufel.{magnet,EcrossB,electrostatic,loop,integrate_field,undulator,RadPush,DiffractionScreen,bunch}.cpp | TestModel.v, TestModel2.v, TestModel3.v |
| the part of muParser's language used by the shipped input files; its constants in parser.cpp | CalcModel.v |
| the input files in examples/ and tests/ (their trees) | ShippedModel.v |
| MPI: asynchronous processes which enter and leave collective operations | CommModel.v |

## What is not modelled

* Printing on the console, timing, progress display. The memory report is modelled apart from the program (ReportModel.v).
* The text format of XML: the model starts from the tree pugixml delivers. The conversion of
  attribute texts to numbers by pugixml is a parameter.
* The calculator muParser: a parameter (class `Calc`: value of an expression for given constants,
  accepted names, conversion to int). It may refuse any expression. Only for the shipped input files (C93) it is replaced by
  the calculator of CalcModel.v, which rounds decimal numbers as a quotient of two numbers (`_h` is one unit in the last place off).
* Contents of the files read by constructors and the random numbers: parameters (class `World`).
* The SDDS and HDF5 libraries: represented by the values handed over. Writing always succeeds.
  Symbols, units, descriptions, several pages and HDF5's conversions of doubles to integers are not modelled.
* MPI: the collective operations exchange the data as the standard says. In the models up to
  ProgramModel.v the nodes are run section by section between the collective operations; CommModel.v and
  HybridModel.v have processes which proceed in any order, and C88 shows that it makes no difference.
  `MPI_Reduce` adds in the order of the ranks (over `R` the order is irrelevant). What the MPI
  library does after a process has failed (usually it ends all of them) is not modelled.
* OpenMP: threads interleave in any order at the granularity of accesses to cells (C38). The
  unsynchronised read of the progress counter (used for printing only) is not part of the model,
  nor are exceptions which leave a parallel region.
* Allocation failure other than for impossible sizes. The life of heap objects is modelled apart
  from their content (MemModel.v, MemModel2.v); the other models ignore it, in particular they do
  not count `delete` for an array as undefined. The memory inside library containers is left out.
* Sharing of one object between two containers (containers own their elements).
* The singular value decomposition of the Eigen library: a parameter of the model, assumed in
  C67 to minimise the residual.
* `sin`, `cos`, `sinh`, `cosh`, `atan`, `exp` are the mathematical functions in theorems over `R`
  and arbitrary functions in theorems over any number type. `pow(x,2)` is `x*x`.
* The absolute value of the bunching factor in the parameter tables (C74) is a parameter.
* The order of initialisation calls of loggers and interactions within one step is kept where it
  has an effect; watch files are made from the stored beams after the loop (ProgramModel.v).
* The content of `tests/DiffractionScreen.h5`, the scripts in
  `scripts/`, and what the examples compute (C93 is about reading them).  The test programs are modelled (C92); printing and the log files they write are left out.
* The functions sin, cos, exp, sinh, cosh and atan of the C library in double precision. Where they matter for a
  statement about doubles (C92_double_partial) they are replaced by the approximations of `TransFloat.v`.

## Findings

Where the code does not do what the property (or its documentation) says. The theorem with the
witness is given in brackets.

* **C08** `Translate`/`Mirror` of a particle leave the last stored trajectory point unmoved, loop bound NP-1 [C08_shift_refuted, C08_mirror_refuted]. `Mirror` leaves the velocity kept for the next tracking step as it was, so that a particle mirrored while it is tracked goes on in the old direction [C08_mirror_step_refuted].
* **C11** For times before the first trajectory point the straight extrapolation assumes that the trajectory starts at t=0 [C11_start_time_refuted].
* **C14** Traces with more than 2^31 samples are silently ignored [C14_long_trace_refuted].
* **C96** Observers with one sample record nothing of a beam (particle.cpp:784 asks for two samples), the program writes a table of zeros [C96_one_sample_refuted, C96_unrecorded, C97_one_sample_refuted, C97_one_sample_average].
* **C01** In double precision gamma^2 = 1+|p|^2 holds up to 2^-45 as long as the rotation in the magnetic field during half a step is at most 1/4 (q B dt / 2 m in every component). For very large rotations sigma cancels: an electron at rest in 1 T with a time step of 1/128 s gets gamma = 0 and an undefined momentum [C01_double_refuted]. At gamma = 2^30 the speed is exactly c [C01_double_speed_refuted].
* **C15** In double precision a signal within one unit in the last place of the trace edge raises a range exception [C15_lower_edge_refuted, C15_upper_edge_refuted]; a signal further away than 2^31 steps leaves the range of int, undefined [C15_far_signal_refuted; exactly which ones: C15_defined for one particle, C96_defined_iff and C96_undefined_iff for a beam and an observer]. A negative time step of an observer is not refused; a trajectory seen from before the trace until after it then raises the range exception, all others leave no record [C15_negative_step_refuted, C15_negative_step, C96_negative_step_refuted]; with the time step zero the integration is undefined [C15_zero_step_refuted].
* **C16** Interpolation ramps to zero within one step outside the trace instead of being zero [C16_zero_outside_refuted]; times more than 2^31 steps away are undefined [C16_far_time_refuted].
* **C19** The derivative of a trace with fewer than two samples is undefined [C19_short_trace_refuted].
* **C22** A particle without trajectory comes back from the snapshot buffer with an invented point [C22_empty_snapshot_refuted].
* **C24** The local field reported to probes is not copied with a particle [C24_probe_of_copy_refuted]; copying a particle restored from a buffer uses an indeterminate size [C24_copy_of_restored_undefined].
* **C25** Particles of a sub-distribution behind the end of the distribution are zero, documented as random.
* **C27** The statistics of an empty bunch, and the relative spread of a bunch at rest, divide by zero [C27_empty_bunch_refuted, C27_spread_at_rest_refuted]. In double precision an average may leave the range of the values by rounding errors (five particles at z = 0.3), the standard deviation of equal values need not be zero and that of different values may be zero [C27_double_refuted].
* **C29** A refused beam step is counted as a step nevertheless [C29_step_unchanged_refuted].
* **C31** Requesting more probe particles than there are does not end [C31_too_many_refuted]; no bunch at all is undefined [C31_no_bunch_refuted].
* **C32, C33** The int sizes of the exchange buffers overflow if and only if `N + P` or `10 P ceil(N/P)` is not an int [C32_overflow_iff_refuted]; for the same beam this depends on the number of nodes [C33_number_of_nodes_refuted].
* **C35** Every node computes the whole lattice field and the root node adds them up: P nodes report P times the field [C35_depends_on_nodes_refuted].
* **C36** Buffer sizes wrap at 2^32 values (screen, snapshot) or overflow at 2^31 (mesh); the export then writes behind the buffer [C36_overflow_refuted]; sizes above 2^31 are passed to MPI as negative counts [C36_reduction_refuted].
* **C40** Logger step 0 divides by zero, negative steps log the initial state only [C40_zero_refuted, C40_negative_refuted]; the particles in the probe file depend on the number of nodes [C40_probe_depends_on_nodes_refuted].
* **C42** The second direction of a source screen is orthogonalised against the scaled first one [C42_not_orthogonal_refuted].
* **C43** The frame of a mesh cell is degenerate for a normal along -y [C43_frame_refuted].
* **C44** The neighbour list of a cell contains the cell itself, and can exceed the 24 entries its callers provide [C44_itself_refuted, C44_buffer_refuted]; a fan of 25 triangles around one point does so [C44_fan_refuted].
* **C49** The transverse-gradient undulator violates Maxwell's equations if the modulation is not zero and exceeds the nominal amplitude; very many periods overflow int [C49_modulation_refuted, C49_tgu_amplitude_refuted, C49_overflow_refuted].
* **C50** A soft-edge dipole with zero transition length divides by zero; outside both planes the field is reversed instead of zero [C50_zero_transition_refuted, C50_reversed_outside].
* **C52** FEL: queries of NaN or of far positions are undefined instead of refused; fewer than two or more than 2^31-12 cells access outside the grid or overflow [C52_nan_refuted, C52_field_far_refuted, C52_small_grid_refuted, C52_large_grid_refuted]. `Field` accepts positions up to half a cell in front of the grid which `step` refuses, and `step` accepts positions in the last half cell which `Field` refuses.
* **C53** FEL: the shape of the field is kept only if the first two cells are empty; a seed always fills the first cell [C53_seed_refuted]; rounding changes the field of empty steps [C53_rounding_refuted].
* **C79** In grids of 2^31-12 or more cells a particle in the last 11 cells overflows the int index before a later particle outside of the grid is refused.
* **C54** FEL: the step counter times dt is compared with the sum of the time steps with a tolerance of dt/4. In double precision the two agree for 2^25 steps; later they can drift apart: with dt = 1+2^-27 (times any power of two) every run is refused with a time mismatch at step 100663304 at the latest [C54_double_refuted]. The text of the refusal asks bunch 0 for its average time, undefined for a beam without bunches (text not modelled).
* **C55** FEL history: with step width 1 the first step is missing; without `<log>` the width is indeterminate; the buffer size overflows [C55_every_step_refuted, C55_no_log_refuted, C55_file_overflow_refuted].
* **C56** Definitions inside undulators and dipoles are evaluated twice; root definitions are evaluated before the sections, and sections in a fixed order; definitions at other places are ignored [C56_undulator_refuted, C56_root_refuted, C56_sections_refuted, C56_ignored_refuted].
* **C57** A beam of zero macro-particles loses its charge; more than 357913941 overflow; rounding changes the total [C57_empty_refuted, C57_overflow_refuted, C57_rounding_refuted].
* **C58** The parameter `Particles` the reader asks for is never written, so that every watch file is read as an empty bunch; the charge is multiplied by the elementary charge; the coordinates are mirrored and z is lost; sub-sampled files are written out of bounds; file names of 99 characters and more are undefined [C58_names_refuted, C58_charge_refuted, C58_position_refuted, C58_sampled_undefined, C58_long_name_undefined].
* **C59** `A/gamma` is used in place of the derivative of beta, wrong whenever the force has a longitudinal component [C59_lienard_wiechert_refuted].
* **C60** The total charge is in Coulomb, documented in units of the elementary charge [C60_documented_unit_refuted].
* **C61, C68, C71, C72, C73** Sizes of output buffers overflow or wrap [C61_overflow_refuted, C68_overflow_refuted, C71_positions_overflow_refuted, C72_overflow_refuted, C73_overflow_refuted]. A screen file with a single time step is undefined when read as a source [C71_short_refuted]. A mesh file without positions is accepted with a negative number of steps.
* **C64** The propagation leaves out terms whose retarded samples carry no energy flow, even if their field is not zero [C64_without_energy_refuted].
* **C66** The field of a recorded screen is returned in the frame of the screen and not transformed back [C66_direction_refuted].
* **C69** The default constructor of the FEL field leaves the second transverse direction zero [C69_default_refuted].
* **C75** The attribute `prop` of the FEL file holds the (backward) vector between cells [C75_direction_refuted].
* **C77** With a probe or an observer of the lattice the written files depend on the number of processes [C77_processes_refuted].
* **C82** `propagate` accepts two file names although it uses three: a null pointer is made a string [C82_two_files_refuted]. Source meshes with fewer than two samples, and mesh files without time data, are undefined in both programs [C82_short_source_refuted].
* **C87** Arrays made with `new[]` are released with `delete`: mesh.cpp 64, 90, 116, 176, 209, 497, 555, 613, 672, 727; screen.cpp 486, 551; snapshot.cpp 68; source_screen.cpp 195, 413, 476 [C87_forms_refuted, C87_propagate_forms_refuted]. The FEL interactions are taken off the lattice and never released [C87_leak_refuted]; nor is the particle buffer of a snapshot if the beam is empty.
* **C88** Called without an input file, or with one which cannot be read, every process leaves by `exit(1)` after `MPI_Init` without calling `MPI_Finalize` [C88_exit_refuted].
* **C89** The memory report converts kilobytes with `std::stoi`: on a machine with 2 TiB of memory or more, or in a process with 2 TiB of address space, the program ends with `std::out_of_range` before it reads its input [C89_2TiB_refuted]. Without an entry `VmSize` the total memory is reported as used [C89_missing].
* **C85** `MeshedScreen::get_dt` returns the time step as an int, 0 for any realistic step: the time interval printed by `reflection` ends with the latest start time [C85_box_time_refuted].
* **C78** The energy printed for a source screen is the true one times the z component of the normal [C78_side_refuted].
* **C92** Test programs with checks that cannot fail as intended: EcrossB compares the final position with `&&`
  instead of `||` and the momentum without `fabs`; electrostatic compares two lists of fields without `fabs`;
  DiffractionScreen compares times with a tolerance of 1 us, much longer than the run of 67 ns
  [C92_position_refuted, C92_momentum_refuted, C92_fields_refuted, C92_times_refuted].
* **C93** `examples/create_source.xml`, `examples/prepare_WG_input.xml` and `tests/create_source.xml` use a time step `dt`
  which they do not define; the error is printed and the time step is 0 (there are no particles in these files) [C93_time_step_refuted].
* **C94** The search for the emission point stops when its correction, computed with the mean slope of the whole interval, is
  below 10^-5 of the interval. A particle with 1-beta <= 4*10^-5 which passes the observer within one interval is taken at the
  beginning of the interval although a point a quarter of it later is seen; the field is less than a third of the right one [C94_close_refuted].
* **C95** `FieldTrace::get_center_time` (not used) is half a step late [C95_center_refuted].

Notes on behaviour that is proved as it is: attributes of a section are evaluated before the
definitions within the section (C76); `delta_t` is evaluated again for every interaction (C76);
definitions within correlations are refused (C76); the start acceleration of the recorded beam
differs from the tracked one until the first step (C33); the clock `n*dt` of the FEL interaction and the
accumulated clock of the particles agree over `R`; by rounding they drift apart by no more than
n^2 2^-53 dt (C54_drift).

## Tests of the theorems

The models were edited in a scratch copy the way a bug would change the program, and everything
was rebuilt; each attempt is one line of `seeded/LOG.jsonl`. Theorems added or tightened because
an edit was not noticed: C51_profile and C51_envelope (direction of the envelope of a wave packet),
C35_samples (times at which a screen samples the lattice field), C78 (cell area in the energy of a
source screen), C75_file (direction vector of the FEL grid), C76_described (normalisation of the
direction of a particle, number of tracking steps, order of interactions), C79 (tolerance of the
FEL time check), C43_cells (orientation of the cells of a mesh), C71_placed (position given to a
recorded screen), C77_files and C77_tracking_files (failing observers, particles in snapshots, names
of the FEL files), C58_missing (missing file), C28_order (order of added particles), C88_finalize.

A second series changes one token of a definition (an operator, a constant, a projection, an outcome)
chosen by a script; the log gives the lemma at which the build stopped and the theorems which rest on it.
Theorems added because such an edit was not noticed: C27_bunching_value, C30_build, C39_index,
C69_default, C87_heap, C87_copies, C88_found, C22_length, C23_length, C07_step_without_setup,
C31_record, C08_shift_step, C44_overrun, C94, C95, C58_bunch, C18_short_buffer. The edits which are still not noticed change cases that are not reached or values
that do not matter; the log says why.

## Assumptions of every theorem

As printed by `Print Assumptions`, grouped. "primitive floats and integers" are the types and
operations `PrimFloat.*` and `PrimInt63.*` of the kernel.

* **none (closed under the global context)** (208 theorems): C05_current_is_last, C05_sequences_consistent, C05_setup_keeps_points, C05_step_appends, C07_access_inside, C07_access_outside, C07_field_with_trajectory, C07_field_without_trajectory_throws, C07_retarded_inside, C07_retarded_outside, C07_setup_with_trajectory, C07_setup_without_trajectory_throws, C14_long_trace_refuted, C17_assignment, C18_export, C18_export_import, C18_index_inside, C18_index_outside, C18_short_buffer, C18_size_mismatch, C19_defined_partial, C19_short_trace_refuted, C22_empty_snapshot_refuted, C22_length, C22_snapshot_round_trip_partial, C23_empty_trajectory_undefined, C23_length, C23_transparent_restart, C24_bunch_copy_equivalent, C24_copy_equivalent, C24_copy_of_restored_undefined, C25_buffer_round_trip, C25_buffer_size_refused, C25_correlation, C25_gaussian, C25_out_of_range, C25_scale, C25_set_and_get, C25_sub_distribution, C26_no_trajectory, C26_out_of_range, C28_buffer_size, C28_order, C28_round_trip, C29_counter, C29_setup_refused, C29_step_refused_partial, C29_steps_after_setup, C30_build, C30_copy_keeps_totals, C30_number_of_particles, C30_operations_keep_totals, C30_replace, C30_requests, C31_no_bunch_refuted, C31_order, C31_probe_partial, C31_record, C31_too_many_refuted, C32_distribution_partial, C32_overflow_iff_refuted, C32_overflow_refuted, C32_share, C32_sizes, C33_number_of_nodes_partial, C33_overflow_refuted, C33_recorded_trajectories, C33_same_as_one_process_partial, C34_new_observers, C36_buffer_size_partial, C36_overflow_refuted, C36_reduction_refuted, C37_export, C37_import, C37_not_mixed, C37_places, C37_round_trip, C37_sums, C37_wrong_size, C38_every_schedule, C38_same_result, C39_exactly, C39_index, C39_removal, C40_due, C40_harmless, C40_negative_refuted, C40_parameter_log_partial, C40_probe_log_partial, C40_trajectory_log_partial, C40_watch, C40_zero_refuted, C41_out_of_range, C43_defined, C44_itself_refuted, C44_neighbours_partial, C44_overrun, C47_count, C47_refused, C49_overflow_refuted, C52_deposit_any, C52_field_partial, C52_grid_size, C52_small_grid_refuted, C54_identical_clocks, C55_every_step_refuted, C55_file, C55_file_overflow_refuted, C55_multiples_partial, C55_no_log_refuted, C55_record, C56_document_order_partial, C56_printed, C56_twice, C56_visited, C57_accepted, C57_negative, C57_overflow_refuted, C57_particles, C58_bunch, C58_long_name_undefined, C58_missing, C58_names_refuted, C58_sampled_undefined, C58_written_partial, C61_hdf5_partial, C61_overflow_refuted, C62_field_trace, C63_bunch_from_distribution, C63_dimension, C63_equal_particles, C68_file_partial, C68_overflow_refuted, C68_trajectory_file_partial, C69_default, C71_accepted, C71_file, C71_mismatch, C71_placed, C71_positions_overflow_refuted, C72_file, C72_overflow_refuted, C72_round_trip, C72_shaped, C73_file, C73_overflow_refuted, C74_columns, C74_parameters, C74_point, C74_watch_columns, C75_file, C75_no_file, C76_bunches, C76_described, C76_random_numbers, C76_refused, C76_refused_only, C76_time_step, C76_unique, C77_output_outcomes, C77_refused, C77_tracking_files, C81_output, C82_arguments, C82_missing_file, C82_short_source_refuted, C82_two_files_refuted, C82_usage, C83_order, C84_reflection, C85_energy, C87_cell_forms, C87_copies, C87_forms_partial, C87_forms_refuted, C87_forms_refuted_iff, C87_heap, C87_leak_refuted, C87_nothing_left, C87_partial, C87_propagate_always_refuted, C87_propagate_forms_refuted, C87_propagate_partial, C88_agree, C88_alive, C88_ends, C88_exit, C88_exit_refuted, C88_finalize, C88_found, C88_found_kinds, C88_input_first, C88_only, C88_runs, C89_2TiB_refuted, C89_large, C89_large_address_space, C89_missing, C89_report_partial, C89_unknown, C92_bunch, C93_accepted, C93_counts, C93_grammar, C93_integers, C93_no_default, C93_one_reading, C95_empty.

* **primitive floats and integers** (19 theorems): C15_lower_edge_refuted, C15_upper_edge_refuted, C15_zero_step_refuted, C52_nan_refuted, C53_rounding_refuted, C56_ignored_refuted, C56_root_refuted, C56_sections_refuted, C56_undulator_refuted, C57_rounding_refuted, C77_processes_refuted, C92_double, C92_double_partial, C93_defined, C93_shipped, C93_steps, C93_time_step_refuted, C93_values, C93_watches.

* **sig_forall_dec** (1 theorems): C70_causal.

* **functional_extensionality_dep, sig_forall_dec** (4 theorems): C35_sampled_once, C49_taper, C67_fit, C70_superposition.

* **functional_extensionality_dep, sig_forall_dec, sig_not_dec** (195 theorems): C01_gamma_and_momentum_agree, C01_no_invalid_operation, C02_setup_solves_half_step, C02_step_solves_equation_of_motion, C03_magnetic_field_does_no_work, C03_work_energy_balance, C04_field_free_motion, C04_start_point, C05_time_stamps, C06_time_reversal, C07_step_without_setup, C08_mirror_partial, C08_mirror_refuted, C08_mirror_step_refuted, C08_shift_partial, C08_shift_refuted, C08_shift_step, C09_coordinates_at_time, C10_coulomb_field_at_rest, C10_direction_is_unit, C10_radiation_geometry, C11_field_of_start_at_zero, C11_start_time_refuted, C11_uniform_motion_partial, C12_no_field_after_end, C12_search_brackets_light_cone, C13_arrival_order, C13_retarded_time, C13_single_point_start, C13_tracking_is_subluminal, C15_defined, C15_far_signal_refuted, C15_negative_step, C15_negative_step_refuted, C16_at_sample, C16_between_samples, C16_far_time_refuted, C16_zero_outside_partial, C16_zero_outside_refuted, C17_associative, C17_commutative, C17_difference, C17_scaling, C17_sum, C17_sum_then_difference, C19_linear_signal, C19_quadratic_signal, C20_identity, C20_refused_without_energy, C20_samples, C20_shift, C21_cancel, C21_transform_components, C21_transform_invariants, C24_probe_of_copy_refuted, C25_correlation_undone, C26_correlation, C27_average_gamma, C27_average_momentum, C27_average_position, C27_average_time, C27_bunching_factor, C27_bunching_value, C27_momentum_spread_partial, C27_rms_is_standard_deviation, C27_rms_position, C27_spread_at_rest_refuted, C27_values, C29_step_unchanged_refuted, C30_total_charge, C33_number_of_nodes_refuted, C34_run_and_observe, C34_sum_over_nodes, C35_depends_on_nodes_refuted, C35_lattice_times_nodes, C35_one_node_partial, C35_samples, C40_probe_depends_on_nodes_refuted, C41_screen_cells, C41_snapshot_cells, C42_frame_partial, C42_not_orthogonal_refuted, C43_cells, C43_energy, C43_energy_additive, C43_frame_partial, C43_frame_refuted, C43_single_cell_partial, C43_triangle, C44_buffer_refuted, C44_fan_refuted, C45_amplitude, C45_boundary, C45_energy_flow, C45_involution, C45_mesh_energy, C45_orientation, C45_trace, C46_frames, C46_normal_derivative, C50_hard, C51_travels, C52_deposit_partial, C52_field_far_refuted, C52_large_grid_refuted, C52_step_partial, C53_moves_partial, C53_shape_partial, C53_speed, C53_undriven, C54_never_off, C54_parallel, C57_empty_refuted, C57_totals_partial, C58_charge_refuted, C58_converted, C58_mirrored, C58_position_refuted, C58_reader, C59_beta_dot_is_derivative, C59_lienard_wiechert_partial, C59_lienard_wiechert_refuted, C60_documented_unit_refuted, C62_retarded_field, C64_kirchhoff_partial, C64_term_dropped, C64_without_energy_refuted, C65_orientation, C66_dark, C66_direction_refuted, C66_field_partial, C67_normal_derivative, C69_default_refuted, C69_directions, C69_plane_wave, C70_driven, C71_read_back, C71_short_refuted, C75_direction_refuted, C76_particle, C77_files, C77_independent, C78_energy_partial, C78_forward, C78_side_refuted, C79_field, C79_init, C81_kirchhoff, C81_runs, C81_source, C84_energy, C85_box, C85_box_time_refuted, C85_peak, C86_dark, C86_field, C90_cylinder, C90_drift, C90_electric, C90_exact, C92_EcrossB_checks, C92_RadPush_checks, C92_electrostatic_checks, C92_fields_refuted, C92_integrate_field, C92_loop_checks, C92_magnet_checks, C92_momentum_refuted, C92_position_refuted, C92_times_refuted, C92_trace_checks, C92_undulator_checks, C92_values, C93_calculated, C94_at_rest, C94_close_refuted, C94_light_cone, C94_slopes, C94_slow, C94_uniform_motion, C95_center_refuted, C95_times, C96_negative_step_refuted, C96_new_screen, C96_one_sample_refuted, C96_snapshot, C96_unrecorded, C97_one_sample_average, C97_one_sample_refuted, C97_snapshot_partial, C98_log_partial, C98_probe_partial, C98_trajectories_partial, C98_watch_partial, C98_watch_sdds_partial.

* **classic, functional_extensionality_dep, sig_forall_dec, sig_not_dec** (62 theorems): C14_bucket_average_partial, C14_bucket_average_subluminal_partial, C14_completed_partial, C14_sampling_partial, C14_total_partial, C15_no_range_exception_partial, C47_add, C47_only_sum, C47_order, C47_remove, C47_sum, C48_displaced, C48_displaced_lattice, C49_modulation_refuted, C49_planar, C49_planar_value, C49_tgu_amplitude_refuted, C49_tgu_partial, C49_tgu_value, C50_reversed_outside, C50_soft, C50_soft_value, C50_zero_transition_refuted, C51_amplitude_reached, C51_envelope, C51_packet, C51_profile, C51_wave, C52_deposit, C52_step_iff, C53_seed_refuted, C65_weights, C79_large_grid_refuted, C79_step, C79_step_partial, C80_order, C80_step, C90_error, C90_helix, C90_third_order, C91_second_order, C92_EcrossB, C92_electrostatic_fields_partial, C92_electrostatic_partial, C92_exact, C92_magnet, C92_screen, C92_screen_particle, C92_screen_program, C92_screen_unread, C92_trace_samples, C96_average_partial, C96_completed_partial, C96_defined_iff, C96_defined_partial, C96_undefined_iff, C97_mesh_partial, C97_mesh_sampled_partial, C97_point_partial, C97_point_sampled_partial, C97_screen_partial, C97_screen_sampled_partial.

* **functional_extensionality_dep, sig_forall_dec, sig_not_dec, primitive floats and integers** (1 theorems): C27_empty_bunch_refuted.

* **classic, functional_extensionality_dep, sig_forall_dec, sig_not_dec, primitive floats and integers, specification of the primitives (Prim2SF_SF2Prim, Prim2SF_valid, SF2Prim_Prim2SF, add_spec)** (3 theorems): C05_double, C05_double_order, C54_drift.

* **classic, functional_extensionality_dep, sig_forall_dec, sig_not_dec, primitive floats and integers, specification of the primitives (Prim2SF_SF2Prim, Prim2SF_valid, SF2Prim_Prim2SF, add_spec, div_spec, mul_spec, opp_spec, sqrt_spec, sub_spec)** (3 theorems): C01_double_partial, C03_double, C27_double_rms.

* **classic, functional_extensionality_dep, sig_forall_dec, sig_not_dec, primitive floats and integers, specification of the primitives (Prim2SF_SF2Prim, Prim2SF_valid, SF2Prim_Prim2SF, abs_spec, add_spec, div_spec, ltb_spec, mul_spec, sub_spec)** (2 theorems): C54_double_partial, C54_double_refuted.

* **classic, functional_extensionality_dep, sig_forall_dec, sig_not_dec, primitive floats and integers, specification of the primitives (Prim2SF_SF2Prim, Prim2SF_valid, SF2Prim_Prim2SF, add_spec, div_spec, mul_spec)** (2 theorems): C27_double_average, C57_double.

* **classic, functional_extensionality_dep, sig_forall_dec, sig_not_dec, primitive floats and integers, specification of the primitives (Prim2SF_SF2Prim, Prim2SF_valid, SF2Prim_Prim2SF)** (2 theorems): C01_double_refuted, C01_double_speed_refuted.

* **classic, functional_extensionality_dep, sig_forall_dec, sig_not_dec, primitive floats and integers, specification of the primitives (Prim2SF_SF2Prim, Prim2SF_valid, SF2Prim_Prim2SF, add_spec, div_spec, mul_spec, sqrt_spec, sub_spec)** (1 theorems): C04_double.

* **classic, functional_extensionality_dep, sig_forall_dec, sig_not_dec, primitive floats and integers, specification of the primitives (Prim2SF_SF2Prim, Prim2SF_valid, SF2Prim_Prim2SF, add_spec, div_spec, mul_spec, sqrt_spec)** (1 theorems): C27_double_gamma.

* **classic, functional_extensionality_dep, sig_forall_dec, sig_not_dec, primitive floats and integers, specification of the primitives (Prim2SF_SF2Prim, Prim2SF_valid, SF2Prim_Prim2SF, ltb_spec)** (1 theorems): C27_double_refuted.

## Plan per property

* **C01** Tracked momentum and stored relativistic factor always agree — Vay model over R; invariant gamma^2=1+|p|^2 by induction over steps (algebra of the quartic root).
* **C02** Tracking solves the leap-frog equation of motion it documents — Vay model over R; show the closed form solves the implicit equation and that the solution is unique.
* **C03** A magnetic field does no work — Corollary of the implicit equation with E=0, induction over steps.
* **C04** Field-free motion is uniform and straight — Induction over steps with the zero field.
* **C05** Trajectory is append-only with equidistant time stamps — Invariant over arbitrary operation sequences, for every number type (bitwise); time stamps over R.
* **C06** Tracking is time-reversible — Uniqueness of the implicit equation gives retracing; induction over n.
* **C07** Set-up and access fail cleanly on particles without trajectory — Outcome-valued model (Ok/Throw/UB), case analysis.
* **C08** Shifting or mirroring a particle moves its whole trajectory — Expected refuted (loop bound NP-1 omits the last point); prove what does hold and the witness.
* **C09** Interpolated coordinates at a given time — Fuel-free structural bisection model over R, invariant proof.
* **C10** Fields of a stored point have radiation geometry — Vector algebra over R.
* **C11** Field of a uniformly moving charge is that of its present position — Light-cone quadratic over R; holds for start time 0, expected refuted for start time <> 0.
* **C12** Retarded interval search brackets the light cone — Bisection invariant over R.
* **C13** Arrival order of signals follows emission order — Triangle inequality over R plus |beta|<1 from C01.
* **C14** Field traces record the exact bucket averages of the linearly interpolated signal — Model of the loop over R; specification by interval-overlap integrals of an affine signal; induction over segments.
* **C15** Trace integration never addresses a bucket outside the trace — Over R: proved (round half away). Over IEEE binary64 (PrimFloat instance of the same model): search a witness.
* **C16** Trace interpolation — Model over R with floor; sample/inner points proved; 'zero outside' expected refuted within one dt.
* **C17** Trace arithmetic — List model, any number type for refusals, R for laws.
* **C18** Trace export and import are inverse — List model with size checks, any number type.
* **C19** Trace derivative — R model; lengths 0 and 1 are UB (expected refuted).
* **C20** Retarding a trace — R model.
* **C21** Coordinate transformation and cancellation of longitudinal fields — Vector algebra over R.
* **C22** Particle snapshot serialization — Any number type; empty trajectory expected refuted.
* **C23** Trajectory serialization allows transparent restart — Any number type; induction over further steps; NP=0 is UB.
* **C24** Copies of particles and bunches are independent and equivalent — Any number type; simulation relation for copies.
* **C25** Particle distributions: coordinate operations touch only what they name — Flat list model with index arithmetic; R for the inverse law.
* **C26** Bunch correlation keeps the mean — R model, sums over lists.
* **C27** Bunch statistics are well defined — R model; NOP=0 divides by zero (expected refuted for the empty bunch).
* **C28** Step exchange buffer round trip — Any number type; parser/printer style round trip over nested lists.
* **C29** Beam stepping state machine — State machine with exceptions; step counter incremented before throw (expected refuted part).
* **C30** Totals are additive — List sums over R, invariance under operations.
* **C31** Probe selection — Fuelled loop model; termination iff n<=NOP, divergence otherwise (expected refuted part).
* **C32** Every particle is tracked by exactly one node — Model of the distribution loop; list chunk specification.
* **C33** Tracking results do not depend on the number of nodes — Any number type: simulation between P-node state and 1-node state, including uninitialised padding as distinct value.
* **C34** Observed beam fields do not depend on the number of nodes — R: permutation/partition of sums, uses C32.
* **C35** Observed lattice fields do not depend on the number of nodes — Expected refuted: sum over nodes multiplies the lattice field by P.
* **C36** Observation buffers are large enough — 32-bit unsigned wrap model; expected refuted for large screens; proved below 2^32.
* **C37** Observer export/import round trip — Any number type; nested-loop layout round trip.
* **C38** Parallel field integration is deterministic — Interleaving model of per-cell accumulations: any schedule gives the sequential result.
* **C39** Interaction fields are removed before lattice observation — Loop model; equals filter.
* **C40** Loggers and watch points fire at the requested steps — Counting theorem; step width 0 is division by zero UB (expected refuted part).
* **C41** Screen and snapshot cell geometry — Z-index model with 32-bit conversions, positions over R.
* **C42** Source screen frame is orthonormal — Expected refuted (second Gram-Schmidt step uses the scaled vector); proved for orthogonal or unit dX.
* **C43** Mesh cell geometry and energy — Vector algebra over R.
* **C44** Mesh neighbourhood — List model; overflow of the 24 entry buffer as UB (expected refuted part).
* **C45** Reflection at a metal surface — Vector algebra over R.
* **C46** Normal derivatives used in propagation follow from Maxwell's equations — Linear algebra of derivative values over R, stated with curl.
* **C47** Lattice superposition — R sums over permutations; list model of element access.
* **C48** Localized elements are translation covariant — R, higher-order function model.
* **C49** Undulator field — R analysis: stdlib derivatives, bounds, continuity at the ends.
* **C50** Dipole field — R analysis with atan bounds.
* **C51** Laser wave field — R algebra.
* **C52** FEL grid accesses stay inside the grid — Outcome-valued model over R with rint; grid sizes <2 are UB.
* **C53** Undriven FEL field propagates unchanged — R list model; shape preservation needs zero head samples, otherwise expected refuted.
* **C54** FEL field and beam stay synchronised — R model of the main loop's time bookkeeping.
* **C55** FEL field history recording — Counting; missing <log> leaves step width uninitialised (expected refuted part).
* **C56** Calculator definitions are evaluated once, in order — Evaluation-trace model of the parser; double evaluation for undulator/dipole (expected refuted part).
* **C57** Macro-particle charge bookkeeping — R; n=0 division by zero.
* **C58** Watch files can be read back — Schema model; names differ (expected refuted), charge scaled twice in the beam variant.
* **C59** Acceleration field uses the derivative of the velocity — derivative of beta along a solution of the equation of motion over R, compared with the code's expression; refuted for longitudinal forces.
* **C60** Unit of the total charge — sum over R; the documented unit is refuted.
* **C61** HDF5 watch files hold every particle — buffer model with int sizes, any number type.
* **C62** Superposition — sums over R; any number type for the traces.
* **C63** Bunch from distribution — any number type, list model.
* **C64** Propagated field is the Kirchhoff sum — fold over source cells, R.
* **C65** Weights of the Kirchhoff terms — derivative of the retarded spherical wave (Coquelicot), R.
* **C66** Field of a recorded screen — fold over cells, R; tilted screens refuted.
* **C67** Transverse derivatives of the fields on a surface — exactness of a least-squares fit, the solver being any function minimising the residual.
* **C68** Particle log files hold all recorded values — buffer model with unsigned wrap.
* **C69** FEL field is a plane wave — invariant over all operations, R.
* **C70** FEL field responds linearly and causally — closed form of the recurrence, R.
* **C71–C75** Output files — contents as named data sets; round trips through the two readers.
* **C76** The parsed input is what the document describes — relational description of documents (`ParserSpec2.v`), equivalence with the parser; the outcomes of documents which are not accepted (`ParserSpec3.v`).
* **C77** The program writes the files the input describes — composition of the models of parser, driver, loggers, observers and writers; relational specification in `ProgramSpec.v`.
* **C78** Energy of a recorded screen — vector algebra over R; the exact factor by which the value is wrong is proved.
* **C79** Out-of-step use of the FEL field is refused — exact description of the outcome for queries, steps and initialisation at a wrong time, R.
* **C80** Source of the FEL field is the current of the particles — the deposit of every particle is a Gaussian with a width of two cells, cut after ten cells; the order of deposition is irrelevant, R.
* **C81** Program propagate — inversion of the whole program; equivalence of the cells with a relational description (`ToolsSpec.v`), C64 for the sum.
* **C82** Bad command lines and files — evaluation of the program, any arithmetic.
* **C83** Schedules — a parallel loop over distinct cells gives the same result for all permutations of the cells.
* **C84** Program reflection — equality with the run of propagate on the mirrored source, any arithmetic.
* **C85** Reports — invariants of the running maximum and of the box, R.
* **C86** Recorded radiation as a source — translation of traces and cells in time and space; C66 for the sum, C71 for the file, R.
* **C87** Life of heap objects — every function as a sequence of new, delete and uses of addresses over all shapes of input; separation-style triples with permutations of the live cells.
* **C88** Interleavings — processes as trees of collective operations, file accesses and ends; an invariant relates any state of any run to the run in step (`CommProofs*.v`), the program in step is that of C77 (`HybridProofs*.v`).
* **C89** Memory report — strings character by character.
* **C90** Orbits in homogeneous fields — uniqueness of the step equation (C02) for the drift; Cayley form of the magnetic step and its identification with a rotation; guiding centre as invariant; exact helix by derivatives.
* **C91** Convergence — mean value inequality for vector functions, midpoint rule for positions and momenta, the error recursion with an exponential bound (`ConvergeProofs*.v`), the tube kept as part of the induction.
* **C92** Test programs — evaluation in the kernel (`vm_compute`) for doubles; for exact arithmetic the drift and the helix of C90 with bounds on the angle of a turn (`TestProofs.v`).
* **C93** Shipped input files — a check of the structure which implies acceptance (`ShippedProofs.v`), evaluated in the kernel for the 25 trees; two calculators which agree on texts with a value give the same input (`ShippedProofs2.v`); the calculator is equivalent to a grammar with precedences and a relation for the values (`CalcSpec.v`).
* **C94** Light cone — the slopes of the arrival time vary little along the interval (`LightConeProofs.v`), so that every secant step reduces the error by a factor q; existence of the point by the intermediate value theorem.
* **C95** Times of a trace — unfolding.
* **C96** Records of a beam — C14 for every particle, C62 for the sum, C34 for the cells; integrals of Coquelicot, R.
* **C97** From document to file — C77 for the files, C13 for the tracked particles (`ResultProofs.v`), C96 for the samples, C71 to C74 for their places in the files, R.
* **C98** From document to log files — C77 for the files, the particles of the recorded beam have the coordinates of the points of the tracked particles (`ResultProofs2.v`), C27 for the averages, C74 for the columns, R.
