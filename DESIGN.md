# Design of the formal model of poly-mpm

## 1. What is modelled

The model is a shallow, function-by-function transcription in Gallina of
`/repo`: the solver core `grid.py`, `particle.py`, `mplist.py`, `constit.py`,
`integrators.py`, the time loop of `MPM.py`, the parameter defaults and the
dynamic time step of `initialise.py`, the output numbering of `plotting.py`
and the stand-alone solver of `new_integrator.py`.

| file in `rocq/theories` | code |
|---|---|
| `State.v` | the attributes of `Params`, `Grid`, `Particle`, `MatPointList`, phases |
| `PyBase.v` | exceptions as values, Python indexing and slices, loops, numpy helpers |
| `Tensor.v` | vectors and 3x3 tensors, the operations the code uses on them |
| `ModelGrid.v` | `grid.py` (masks, volumes, shape functions, momentum update, friction, cyclic, conveyor, gradient) |
| `ModelConstit.v` | `constit.py`, every law, initial states included |
| `ModelParticle.v` | `particle.py`: construction, mapping in both directions, strain, stress, forces, energy |
| `ModelMPList.v` | `mplist.py`: loops over particles, inlets, outlets, cyclic wrap, checks, yield flag |
| `ModelIntegr.v` | `integrators.py`: limiters, KT, diffusion, `increment_grainsize`, `update_pk` of `grid.py` |
| `ModelNT.v` | the rest of `integrators.py` (`NT`, `flux`, `normalise_phi_increment`), the grain size maps and `add_to_boundary` of `particle.py`/`mplist.py`, which the time loop does not call |
| `ModelMain.v` | `MPM.py` `time_march` and `main`, `update_timestep` |
| `ModelInit.v` | `initialise.py` defaults over attribute environments |
| `ModelInputs.v` | `inputs/*.py`: points and areas of filled cells, `update_forces` |
| `ModelPlot.v` | the save counters and file names of `plotting.py` |
| `ModelRecord.v` | the energy table of `initialise.py`, a hook that fills it, `draw_energy` |
| `ModelNewInt.v` | `new_integrator.py` |

Every definition carries a comment citing file and lines, and says where it
simplifies.  Python exceptions are values (`res A := Ok a | Err exn`), indexing
follows Python (negative indices wrap, out of range raises `IndexError`), slices
follow Python slice rules, the array of initial velocities that the particles of
a phase share by reference is shared in the model as well (`vref`).

The specification vocabulary (tent functions, node coordinates, plain sums over
nodes and particles, masks by row and column, Hooke's law, ...) is in `Spec.v`,
`SpecStep.v`, `SpecLaws.v`, `SpecOrder.v`, `SpecScheme.v`, `SpecView.v`, `SpecFlow.v`, `SpecRing.v`, `SpecLocal.v`, `SpecHoop.v`, `SpecPace.v`, `SpecRound.v` and does not use the model's helper
functions.  `Lib*.v` and `Proofs*.v` hold lemmas, `Thm*.v` the proofs of the
theorems and of their instances, `Props*.v` only restates them (`exact`) and
prints their assumptions.  `Concrete.v` is the simulation used in instances.
Instances that need states built elsewhere are in `ThmCases*.v`.
`tools/genprops.py` writes `Props*.v` from `Thm*.v`, `tools/manifest.py` writes
`MANIFEST.json`, `tools/axioms.py` the list at the end of section 2; none of them is
part of the build.

### Number systems

The model is written once, over a class `Num T` of arithmetic operations
(`Num.v`), and used at these instances:

| instance | use |
|---|---|
| `R` | exact arithmetic; most universally quantified theorems.  `x/0` is `0` here, so every theorem at this instance has hypotheses that exclude division by zero, or concerns code where the quotient is discarded |
| `X R` | reals extended with `+inf`, `-inf`, `NaN` following IEEE rules (no signed zero, no rounding, no overflow): theorems on non-finite values |
| `Q` | executable exact arithmetic: witnesses of `_refuted` theorems and tests by `vm_compute` |
| binary64 (`NumF.v`, and `NumF0.v` which adds the sine and cosine of zero; on `SpecFloat` of the standard library) | statements on rounding, by computation; no primitive floats, so no axioms |
| real numbers rounded after every operation (`NumRd.v`, for any rounding function with a bounded relative error) | bounds on what rounding does (C114); no overflow, underflow or special values |

### Not modelled

* numpy/astropy/matplotlib internals.  `interpolate_replace_nans` (astropy) is
  a function argument `fill` of the model (an oracle), of which theorems assume
  only what they state.  Smoothing convolutions (`smooth=True`) are not
  reachable from the time loop and are left out.
* The user-supplied `Params.update_forces` is a function argument that maps
  time and current loads to new loads (gravity, angle, `q_v`, `q_h`).  Output hooks are
  modelled as events of the main loop.
* Printing and figures.  File names, counters, the tables of the data files and the
  arrays of some figures are modelled.
* Rounding, except in the binary64 statements and in C114 and C126.
* The other `draw_*` of `plotting.py` (material points, voronoi),
  colours, limits and labels of all figures, and the plotting in
  `new_integrator.main`.
* The scripts in `inputs/`, except where they place their points, the area per
  point and the loads of `update_forces` (`ModelInputs.v` names the lines).

## 2. Trusted base

* Coq 8.16.1 kernel (and `vm_compute`).
* Axioms of the standard library's real numbers, as `Print Assumptions` prints
  them below each theorem in `Props*.v`; the list per theorem is below.
* No axiom is added by this development, no other library's axiom is used, no
  kernel check is switched off.
* The transcription from Python to Gallina, checked by reading only: the code
  was not run.

<!-- axioms -->
* no axioms (closed under the global context):
  C09_columns_equal, C09_make_cyclic, C109_crossing_refuted, C109_light_refuted, C10_nodes, C10_wall_masks, C111_mass_refuted, C112_ends_refuted, C112_seam_refuted, C114_negative, C115_rows, C116_blank_refuted, C116_seam_refuted, C117_ends_refuted, C119_blank, C119_gradient_refuted, C119_rate_refuted, C11_box_refuted, C11_box_square_partial, C11_silo_bottom_exact_partial, C11_silo_bottom_refuted, C11_silo_left_column, C11_silo_left_opening, C11_silo_left_refuted, C11_two_walls, C11_wall, C122_shares_refuted, C123_empty_refuted, C123_rows_refuted, C13_tension_refuted, C24_scalar_aborts, C26_law_refuted, C26_new_particle_refuted, C26_step_refuted, C33_count, C33_initial, C34_mass_and_volume, C39_sum_refuted, C40_conservation_refuted, C42_deterministic, C44_drift_refuted, C46_distinct, C46_exact, C46_name_refuted, C46_save_u_refuted, C52_old_grid_irrelevant, C55_edge_refuted, C57_diffusion_refuted, C57_varying_refuted, C65_open_refuted, C66_three_sizes_refuted, C72_range_refuted, C74_main_refuted, C74_range_refuted, C75_range_refuted, C79_history, C79_initial, C79_rate_blind, C80_empty_refuted, C82_masks_refuted, C82_mesh, C83_exact, C83_oblong_refuted, C83_square, C85_number_refuted, C87_on_lines_refuted.
* `ClassicalDedekindReals.sig_forall_dec`, `FunctionalExtensionality.functional_extensionality_dep`:
  C136_row, C31_inlet_top_middle_refuted, C97_path, C97_rate, C97_tension.
* `ClassicalDedekindReals.sig_forall_dec`, `ClassicalDedekindReals.sig_not_dec`, `FunctionalExtensionality.functional_extensionality_dep`:
  C98_full.
* `ClassicalDedekindReals.sig_forall_dec`, `ClassicalDedekindReals.sig_not_dec`, `Classical_Prop.classic`, `FunctionalExtensionality.functional_extensionality_dep`:
  C01_bounds, C01_corners, C01_gradients, C01_shape_functions, C01_tents, C02_grid_constructed, C02_reference_node, C03_check_never_fires, C03_recover_position, C04_mapping_total, C04_nodal_mass, C05_mass_conserved, C05_momentum_conserved, C05_momentum_with_walls, C06_resultants, C07_no_torque, C07_torque_exact, C08_exact, C08_momentum_balance, C100_parts, C101_patch, C101_step, C102_run, C102_step, C102_total, C103_alone, C104_parts, C105_path, C106_reach, C107_ends, C107_run, C107_step, C107_total, C108_loose, C108_loose_refuted, C108_rate, C108_rate_refuted, C108_stress, C108_viscosity, C109_pass, C109_run, C109_total, C110_run, C110_same, C110_step, C110_total, C111_balance, C111_even, C112_fields, C113_law, C113_total, C114_floor, C114_mass, C114_momentum, C114_node, C114_runs, C117_bounded, C118_cells, C118_overlay, C118_overlay_refuted, C119_draws, C119_draws_refuted, C119_gradient, C119_mean, C119_motion, C119_profile, C119_rate, C119_stress, C120_wedges, C121_places, C121_rate, C121_rate_refuted, C122_draws, C122_shares, C122_shown, C123_drawn, C123_rows, C124_exact, C124_invariant, C124_order, C124_speed, C125_responds_refuted, C125_stress_free_refuted, C126_back, C126_runs, C127_consistent_refuted, C127_rate, C128_elastic, C128_rest, C128_timestep_refuted, C129_bulk_refuted, C129_grains, C129_third, C12_wall_momentum, C12_wall_momentum_friction, C12_wall_rate, C130_compressed_refuted, C130_dissipates_refuted, C130_work, C131_loss, C131_timestep_refuted, C132_across, C132_straight, C132_surface_refuted, C132_tangent, C132_unbounded_refuted, C133_back, C133_elastic_refuted, C134_hooke_refuted, C134_limit, C134_ratchet, C135_exact, C135_kept_refuted, C135_no_force, C136_moves_refuted, C136_silent, C137_apart_refuted, C137_exact, C137_loose, C138_creep, C138_rest_refuted, C139_order_refuted, C139_regroup, C13_friction_exact, C13_friction_opposes_partial, C13_undeclared_walls_refuted, C140_exact, C140_small_steps_refuted, C141_apart_refuted, C142_depth, C142_surface_refuted, C143_light_refuted, C143_run, C143_step, C144_between_refuted, C144_cells, C145_apart, C145_meet_refuted, C146_back_refuted, C146_never, C147_jump_refuted, C147_mass, C148_free, C148_self_refuted, C149_damped_refuted, C149_falls, C150_part_refuted, C150_stuck, C151_kept_refuted, C151_loss, C152_place_refuted, C152_steps, C153_glides, C154_any, C155_floor, C155_lands_refuted, C156_walls, C14_confined, C14_never_aborts, C14_step, C15_nodal_volume, C15_volumes_cyclic, C15_volumes_positive, C15_volumes_tile, C16_affine_strain, C16_rigid_motion, C17_history, C17_run, C17_strain_symmetric, C17_stress_symmetric, C18_correction_exact_partial, C18_spin_refuted, C19_hooke, C19_isotropic, C19_linear, C20_compression, C20_initial_state, C20_lithostatic, C21_viscous, C22_above_yield, C22_below_and_continuous, C23_deviator_trace_free, C23_saturation, C24_safe, C25_exact, C25_finite_refuted, C27_exact, C27_finite_refuted, C28_mass, C28_mass_floor, C29_first_phase, C29_initial, C29_later_phases_refuted, C30_outlet_bottom, C30_outlet_left_partial, C30_outlet_left_refuted, C31_inlet_right, C31_inlet_right_none, C31_inlet_top, C31_schedule, C32_cyclic_lr, C32_wrap, C34_total_mass, C35_independent, C35_shared_refuted, C36_massless, C36_nodal_fractions, C37_minmod, C37_superbee, C38_columns, C38_line, C38_rows, C39_uniform, C40_exact, C40_uniform, C41_none_refuted, C41_normalised, C41_plain, C41_valid, C42_completes, C42_fuel_suffices, C42_main_loop, C42_no_progress, C42_terminates, C43_equal_refuted, C43_first_step_refuted, C43_once, C45_at_rest_refuted, C45_dynamic, C45_needs_dx, C45_tight, C47_defaults, C47_kept, C47_nothing_else, C47_nt, C47_save_dir, C47_sizes, C48_gammadot, C48_gradient, C49_load_resultant, C49_surface_loads, C50_conveyor, C51_elastic, C51_gravitational, C51_kinetic, C51_totals, C53_energy, C53_run, C53_step, C54_kinetic_energy, C54_velocity_between, C55_uniform_motion, C56_first_yield, C56_needs_q, C56_once_refuted, C57_defect, C57_diffusion, C57_divisors, C57_euler, C57_main, C57_pure, C57_rk3, C57_rk4, C58_pass_sift, C58_pass_total, C58_step_sift, C58_step_total, C59_history, C59_step, C60_angular_momentum, C60_centre_of_mass, C61_energy_balance, C61_internal_work, C62_free_fall, C63_damping_refuted, C64_between, C64_density, C65_columns, C65_line, C65_rows, C66_two_sizes, C67_kt, C67_nt_refuted, C68_line, C68_nonneg, C69_linear_profile, C69_uniform_mixture, C70_back, C70_between, C70_mean, C70_size_refuted, C71_mask, C72_total, C73_even, C73_minmod2, C73_ratio, C73_slope_refuted, C73_third_refuted, C73_vanAlbada, C73_vanLeer, C74_nonneg, C76_between, C76_law, C76_pressure, C76_sign_refuted, C76_step, C76_values, C77_friction, C77_mu, C77_new_pressure_refuted, C78_compressed, C78_dissipates_refuted, C78_friction, C78_gravity, C79_friction_refuted, C79_saturated, C80_columns, C80_rows, C81_grid, C81_inlet_refuted, C81_points, C81_run, C81_step, C84_run, C84_step, C85_gradient, C85_inertial, C86_units, C86_view, C87_mirror, C88_flip, C89_downhill_refuted, C89_floor_refuted, C89_forward, C89_granular, C89_viscous, C90_channel, C90_floor_refuted, C90_yield_refuted, C91_ends, C91_run, C91_step, C92_momentum, C92_spin, C93_turn, C94_layer, C94_points, C94_uniform, C95_chuteflow, C95_incline, C95_refuted, C96_box, C96_loads, C96_ring, C96_thrown, C97_ramp, C97_run, C97_tension_refuted, C98_refuted, C99_alone.
* `ClassicalDedekindReals.sig_forall_dec`, `ClassicalDedekindReals.sig_not_dec`, `Classical_Prop.classic`, `functional_extensionality_dep`:
  C115_density, C115_mass, C115_sizes, C115_velocity, C116_sizes_refuted.
<!-- end axioms -->

## 3. Plan per property

| id | model | proof |
|---|---|---|
| C01 | `Grid.N` | field arithmetic over `R` |
| C02 | `get_reference_node`, `nearby_nodes`, linspace/tile/repeat | truncation = floor for non-negative, index arithmetic |
| C03 | `recover_position` | C01 + C02 |
| C04, C05 | `get_nodal_mass_momentum` | scatter lemma by induction over particles; tent functions |
| C06, C07 | `get_nodal_forces` | sums over scatter; gradient identities |
| C08 | whole step | composition of C05, C06 and gather lemma |
| C09 | `make_cyclic` | index arithmetic on slices |
| C10, C11 | `boundary` | slices; refutation witnesses by computation |
| C12, C13 | `update_momentum` | pointwise |
| C14 | run of `time_march` | invariant by induction over steps; convexity of weights |
| C15 | `volume` | double sum by induction |
| C16, C18 | `update_strain`, `update_stress` | C01 identities; C18 refuted by witness |
| C17 | all laws + step | invariant |
| C19–C28 | `constit.py` law by law, over `R` and `X R` | algebra, case analysis on non-finite values |
| C29 | `increment_gravity` | trigonometric identity; refuted for phase >= 1 |
| C30–C33 | `mplist.py` inlets, outlets, cyclic | list induction |
| C34 | all laws + step | invariant |
| C35 | shared velocity | refuted by witness, exact behaviour proved |
| C36 | grid fractions | weighted averages |
| C37–C41 | `integrators.py` | case analysis; telescoping sums |
| C42–C45 | `main`, `update_timestep` | induction on fuel; floor arithmetic; binary64 by `vm_compute` |
| C46 | counters | induction over call sequence; refuted for `save_u` |
| C47 | attribute environments | finite map reasoning |
| C48–C50 | gradient, surface loads, conveyor of `grid.py` | pointwise |
| C51 | `Particle.energy`, `measure_energy` | sums of squares |
| C52 | `time_march` from two grids | the grid is wiped before use |
| C53 | `time_march` with permuted particles | permutation induction, commuting scatter steps |
| C54 | mapping | convexity, Cauchy-Schwarz per node |
| C55, C59, C62 | `time_march` | exact solutions, induction over steps |
| C56 | yield flag of `mplist.py` | case analysis; refuted by witness |
| C57 | `new_integrator.KT`, RK3, RK4, Euler, diffusion | telescoping sums |
| C58 | `time_march`, `main` | totality lemmas composed stage by stage |
| C60, C61 | mapping, `time_march` | moments of tent functions; summation by parts over particles and nodes |
| C63 | damping | refuted by witness |
| C64 | `move_material_points` | gather lemma |
| C65–C67 | `NT` | telescoping sums, limiter symmetry; witnesses over `Q` |
| C68, C69 | `KT` | limiter bounds under a Courant condition; exactness on linear profiles |
| C70, C71 | grain size maps, `add_to_boundary` | scatter and gather lemmas |
| C72 | `normalise_phi_increment` | sums; witness over `Q` |
| C73–C75 | limiters and range of `new_integrator.py`, range of `KT` | case analysis; witnesses over `Q` |
| C76 | the fields that the laws add to the grid, over a step | accumulation lemma per law, sums over old and new points |
| C77–C78 | friction in `pouliquen`, `linear_mu`, `ken_kamrin` | algebra on the reals; concrete run for the refutations |
| C79 | `ken_simple` | invariant over histories; viscosity over reals with infinities |
| C80 | `KT` at closed nodes | telescoping sum over a stretch of a line; witness over `Q` |
| C81 | `time_march`, `main_loop`, `grid_init`, `mplist_init` and everything below | commutation of every step with the shift, equality of results including exceptions; witness for the inlet |
| C82 | `time_march` on the mesh fields | invariant of every loop, induction on `reach`; witness over `Q` for the masks |
| C83 | `boundary_h`, `boundary_v` with `box` | slices as row and column ranges on square grids; witness over `Q` for oblong grids |
| C84 | the whole pass of the main loop (`time_march`, `pass`) | refinement: `SpecScheme.v` states the scheme with tent functions and sums over all points and nodes; one step of the model equals one step of the scheme (`march_stages`, corner sums as sums over nodes), then induction over passes |
| C85 | `update_pk`, `calculate_gradient`, `segregate` | per node: `pk` in closed form against the inertial number; slope by C48; NaN at empty nodes by evaluation over `X Q` (refutation) |
| C86 | the whole pass, through C84 | equivariance of the textbook scheme (`SpecScheme.v`) under a change of view (`SpecView.v`), then refinement (C84) on both sides; the change of units is one such view |
| C87 | as C86 | the reflection is a view; tent gradients agree off the node lines; on the lines refuted by evaluation over `X Q` |
| C88 | as C86 | the exchange of axes is a view that also renumbers the nodes |
| C89 | `init_flow` (steady), `particle_init` | closed forms, derivatives with `derivable_pt_lim`, balance against `SpecFlow.v`; counterexamples over R |
| C90 | `init_flow` (steady_poiseulle), `particle_init` | as C89: profile as a function of the distance to the wall, its derivative against mu(I) |
| C91 | `pass` with `cyc_mq`, `cyc_forces`, `wrap` | refinement to `SpecRing.v` (scheme with one column fewer): sums over the grid tied at its ends are sums over the ring (`ProofsRing.v`), then induction on the passes |
| C92 | as C91 | sums of the scheme of `SpecRing.v`: tents and their slopes add up to 1 and 0 around the cylinder |
| C93 | as C91 | the scheme of `SpecRing.v` commutes with carrying points by whole cells (renumbering of columns), induction on the passes |
| C94 | `ModelInputs.v` (`layer`, `share`, `cell_share`), `mplist_init`, `time_march` | sums of tents over evenly spread points (`ProofsFill.v`), nodal mass of a step with open and joined ends, nodal volume (C15) |
| C95 | as C94 | the same sums; refuted for incline.py and chuteflow.py with the exact factor |
| C96 | as C94, `init_state` | the schemes of C84 and C91 on the layer: sums of slopes times depth cancel the weight at every node that is not a wall; induction on the passes |
| C97 | `ModelInputs.v` (`ramp`, `dp_forces`, `pouliquen_forces`) | calculus; induction on the passes for the time; dp_unit_test refuted |
| C98 | `ModelInputs.v` (`ramp_forces`, `ramp_q`, `first_loads`) | refuted; induction on the passes |
| C99 | as C84 | the scheme of `SpecScheme.v`: a node sees at most one of two points that are two cells apart; induction on the passes |
| C100 | as C84 | all sums of the scheme are linear in mass and volume; induction on the passes |
| C101 | as C84, C94 | moments of tents and slopes over evenly spread points (`ProofsAffine.v`), affine functions are reproduced by the weights of a point |
| C102 | the whole loop with eight laws of `ModelConstit.v` | refinement to `SpecLocal.v` (materials as constructors with their memory): every law is a function of strain and memory (`ProofsLocal.v`), sums over phases are sums over the cloud of points; induction on the passes |
| C103 | as C102 | as C99, on the scheme of `SpecLocal.v` |
| C104 | as C102 | as C100, on the scheme of `SpecLocal.v` |
| C105 | as C102 | induction on the passes of the scheme |
| C106 | as C102 | nodes see points less than a cell away, so a step of a point depends on the points less than four cells away; with less than a cell of motion per pass, induction on the passes with the radius shrinking by five |
| C107 | the cyclic branches of every stage, as C91, with the materials, loads, belts and intruders of C102 | SpecHoop.v writes the scheme on a cylinder; folding the sums over the nodes (C91) with the stress, load and belt stages of C102; the grid builder gives equal ends |
| C108 | the attributes each law stores and the list it visualises (constit.py) | each law is unfolded once; the deviator of the stress it asks for is compared with the matrix whose norm it shows; counterexamples over the reals |
| C109 | the main loop with `update_timestep` (initialise.py:106-116) and the materials, loads, belts and intruders of C102 | the momenta the pass leaves on the grid are sums over the points (as C102); the two maxima agree; induction on the passes with the chosen time steps; counterexamples executed over the rationals |
| C110 | `segregate` (MPM.py:34-38), `map_phi_to_mp` and `normalise` with the whole step | the step decomposed with segregation on; the nodal mass, momentum and rate and all fields of the points but the fractions and pk unchanged by segregation; simulation of the scheme of C102; induction on the passes |
| C111 | `segregate` with `map_phi_to_mp` inside the step | the points get the increments of the nodes with the weights that also build the nodal masses, so the sums over points turn into sums over nodes; C38 for even masses; counterexample executed over the rationals |
| C112 | `cyc_fields [Feta]` in `segregate`, `cyc_mq` without the fractions | C76 again for a step that segregates, then `cyc` read off at both ends; counterexamples executed over the rationals |
| C113 | `pouliquen`, `linear_mu`, `ken_simple` with their reads of lists (`weighted`, `mean_size`), `time_march`, `pass` | each loop over classes succeeds exactly if all its reads do, by induction on the classes; the lengths are kept by every stage, so the passes follow by induction on their number |
| C114 | `linspace`, `grid_init`, `wipe`, `get_reference_node`, `get_basis_functions`, `shape`, `p2g_all` at `Num_rd rd`, real numbers rounded after every operation; `SpecRound.v` | relative errors are composed operation by operation; the coordinates of nodes, the cell size and the cell of a point are bounded on a line; the loops are shown to be left-to-right rounded sums of what each point gives, by induction over phases and points; a tent function is continuous, so a wrong cell costs no more than the distance to the right one |
| C115 | `reshape`, `save_s_bar`, `save_density`, `save_u`, `save_phi_MP` (`ModelSave.v`) on the state after `time_march` | the stages of a step with any options are opened (`march_any`): the tables of the grid after the step are traced back to the sums over the points before it, and the move of the points to the tables; the total is the sum of the tent weights; the rows by induction over the phases |
| C116 | the same, at `Q` and `X Q` | refuted: two points on a cylinder; one point in a larger grid; every run without segregation |
| C117 | `dynamic_dt`, `pass`, `march`, `main_loop`, at `R` and at binary64 (`Num_F` with the sine and cosine of zero) | refuted: the state after two passes is a fixed point of a pass but for the step counter, so by induction the loop never ends; with bounded nodal speeds the step is bounded below (`C45_tight`), so the clock passes the final time |
| C118 | `edges`, `x_plot`, `y_plot`, `marks`, `draw_grid` | node lines are equidistant (`grid_init_ok`), so edges are half way between them; the marks by cases on the masks; refuted for the overlay by a concrete box |
| C119 | `draw_continuum`, `panel`, `visible`, `calculate_grad_gammadot` | the list of panels by cases on the law, each divided by the nodal mass, reshaped (`reshape_spec`); refutations by computation of runs at `Q` |
| C120 | `wedge`, `wedges`, `draw_gsd_mp` | induction on the list of shares, with the angle so far as invariant |
| C121 | `drawn_rate`, `draw_gamma_dot` | by cases on the law what a step leaves in `gammadot` (`C76_values`); refuted for viscous |
| C122 | `masked`, `draw_gsd_grid` after `time_march` | layout as in C115; the fields of the grains are not changed after `p2g_all` (`seg_kept`), where C36 bounds them; refuted on a cylinder by a run over `X Q` |
| C123 | `nt`, `energy_table`, `record`, `draw_energy`, `main_loop` | the events of a run (`C42_main_loop`) number the steps from zero to floor(t_f/dt), induction over the rows; refuted by two runs in binary64 |
| C124 | `RK4`, `dp_guts` | Taylor's formula with Lagrange's remainder (one mean value theorem) for every entry of a solution; the four stages are expanded for a linear law |
| C125 | `dp`, `update_stress` at `X R` | the quotient of the shear stress by its norm is NaN, NaN absorbs, `nan0` gives zero; refuted |
| C126 | `move_material_point` at `Num_rd` | the four rounded updates are a rounded sum (`acc_from`); corner weights against tents summed over the whole grid (`weights_diff`) also when rounding picks the neighbouring cell |
| C127 | `dp_guts` | derivative of q - mu p along a path of stresses (chain rule through the square root), with the closed form of `dp_guts` on the surface; refuted for K <> 1 |
| C128 | `dp_rate_guts`, `dp_rate` | closed form of the increment with and without overstress; two runs of the same point with different steps; refuted |
| C129 | `elastic`, `viscous`, `bingham`, `ken_kamrin` | closed form of the mean stress after each law, compared between laws; refuted |
| C130 | the same | work of the viscous part of the stress on the strain increment, split into shear and volume; refuted |
| C131 | `elastic_time` | induction over the calls of the law on one point; powers of 0.95 for two step sizes; refuted |
| C132 | `von_mises` | closed form of the deviator after the law; Pythagoras for a step on the surface; induction over steps for straight paths (Bernoulli's inequality for real exponents) and for paths across the deviator; refuted |
| C133 | `von_mises` | the same closed form along one direction; refuted |
| C134 | `update_strain`, `update_stress`, `elastic` | closed form of one step on diagonal stresses, induction over the cycles, limit of a geometric sequence; refuted |
| C135 | one step of the scheme of C84 | sums over points and nodes swapped; exact change of the angular momentum; a pair of points at rest that starts to spin; refuted |
| C136 | runs of the scheme of C84 | a step without nodal momentum and stress changes nothing, induction over the steps; hat functions are straight in a cell; refuted |
| C137 | `pouliquen`, `linear_mu`, `ken_simple` | pressure of one law as a minimum, induction over the history (reflection at zero); refuted |
| C138 | `update_stress` with the six laws of fluids and grains | the stress after each law is a pressure and a multiple of the shear of the step; refuted |
| C139 | the passes of `time_march` on the plain scheme | all the sums of a step are over the points: permutations of the points go through the step and through runs; refuted for the first material |
| C140 | the passes of `time_march` on the plain scheme, two points in one cell | the step of the pair is computed in closed form for all moduli, time steps and velocities; refuted |
| C141 | the passes of `time_march` on the plain scheme, two materials of one point in one cell | the step is computed in closed form for all moduli; refuted |
| C142 | `move_material_points` after the first step of a layer, `pouliquen` | the nodal masses of C94 and the sums of tents give the density at each depth; refuted |
| C143 | a pass of `time_march` on the plain scheme | the added velocity goes through nodal velocities, strains, forces and moves, by the sums of the tents and of their slopes; refuted for light nodes |
| C144 | runs of `time_march` on the plain scheme | nodes are paired by the shift; a sum over all nodes is a sum over the corners of a cell, and corners go to corners; induction on the steps; refuted in between |
| C145 | runs of `time_march` on the plain scheme | tents are Lipschitz, and at most eight nodes tell two places apart, so that small nodal moves give an injective map of the plane; induction on the steps; refuted for fast points |
| C146 | runs of `time_march` on the plain scheme | a step maps the pair to a pair with half distance `r - 4 dt v r^2`; induction on the steps forward, and backward against the forward run |
| C147 | mapping to the grid; a pass of `time_march` on the plain scheme | tents are Lipschitz; refuted at a column of nodes, where the slopes of the tents jump and light nodes are left out |
| C148 | runs of `time_march` on the plain scheme | sums over points and nodes are exchanged, the slopes of the tents add up to zero; induction on the steps; refuted for a lone point |
| C149 | runs of `time_march` on the plain scheme | as C148, with the weight of the points of the first material; induction on the steps; refuted with damping |
| C150 | runs of `time_march` on the plain scheme | the move of a point depends on its place only; induction on the steps |
| C151 | runs of `time_march` on the plain scheme, constant gravity | algebra on the momentum and the centre of mass of C149 |
| C152 | runs of `time_march` on the plain scheme, constant gravity | two runs of C149 compared |
| C153 | runs of `time_march` on the plain scheme with walls | balance of momentum along the axis that no wall holds; induction on the steps |
| C154 | runs of `time_march` on the scheme for eight materials of C102 | balance of momentum for any stress; induction on the steps |
| C155 | runs of `time_march` on the scheme for eight materials of C102, with a floor | the points touch held nodes only; induction on the steps |
| C156 | runs of `time_march` on the scheme for eight materials of C102, with walls, loads and belts | balance of momentum with held nodes; induction on the steps |

Properties that the code violates are proved as `…_refuted` theorems with a
witness, next to a theorem stating what does hold.  `MANIFEST.json` lists them as
`partial`, with a note.

## 4. Wrong programs

`seeded/LOG.jsonl` lists edits of model definitions, made in a copy of the
development, with the theorems that no longer hold and those tightened in response.
