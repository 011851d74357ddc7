{
 "claims": [
  {
   "property": "C01",
   "status": "proved",
   "theorems": [
    "C01_shape_functions",
    "C01_corners",
    "C01_bounds",
    "C01_tents",
    "C01_gradients"
   ],
   "note": ""
  },
  {
   "property": "C02",
   "status": "proved",
   "theorems": [
    "C02_reference_node",
    "C02_grid_constructed"
   ],
   "note": ""
  },
  {
   "property": "C03",
   "status": "proved",
   "theorems": [
    "C03_recover_position",
    "C03_check_never_fires"
   ],
   "note": ""
  },
  {
   "property": "C04",
   "status": "proved",
   "theorems": [
    "C04_nodal_mass",
    "C04_mapping_total"
   ],
   "note": ""
  },
  {
   "property": "C05",
   "status": "proved",
   "theorems": [
    "C05_mass_conserved",
    "C05_momentum_conserved",
    "C05_momentum_with_walls"
   ],
   "note": ""
  },
  {
   "property": "C06",
   "status": "proved",
   "theorems": [
    "C06_resultants"
   ],
   "note": ""
  },
  {
   "property": "C07",
   "status": "proved",
   "theorems": [
    "C07_no_torque",
    "C07_torque_exact"
   ],
   "note": ""
  },
  {
   "property": "C08",
   "status": "proved",
   "theorems": [
    "C08_exact",
    "C08_momentum_balance"
   ],
   "note": ""
  },
  {
   "property": "C09",
   "status": "proved",
   "theorems": [
    "C09_make_cyclic",
    "C09_columns_equal"
   ],
   "note": ""
  },
  {
   "property": "C10",
   "status": "proved",
   "theorems": [
    "C10_wall_masks",
    "C10_nodes"
   ],
   "note": ""
  },
  {
   "property": "C11",
   "status": "partial",
   "theorems": [
    "C11_wall",
    "C11_two_walls",
    "C11_silo_left_column",
    "C11_silo_left_opening",
    "C11_silo_bottom_exact_partial",
    "C11_silo_bottom_refuted",
    "C11_box_square_partial",
    "C11_box_refuted",
    "C11_silo_left_refuted"
   ],
   "note": "wall, two_walls and silo_left mark only the intended nodes (proved exactly). REFUTED for silo_bottom (marks every row above the floor), for box on non-square grids, and for the silo_left opening when there are few rows; the exact behaviour is proved instead."
  },
  {
   "property": "C12",
   "status": "proved",
   "theorems": [
    "C12_wall_rate",
    "C12_wall_momentum",
    "C12_wall_momentum_friction"
   ],
   "note": ""
  },
  {
   "property": "C13",
   "status": "partial",
   "theorems": [
    "C13_friction_opposes_partial",
    "C13_friction_exact",
    "C13_undeclared_walls_refuted",
    "C13_tension_refuted"
   ],
   "note": "The bound and the sign are proved away from node 1. REFUTED: friction also acts on undeclared walls (all four edges become walls) and where the force pulls away from the wall."
  },
  {
   "property": "C14",
   "status": "proved",
   "theorems": [
    "C14_step",
    "C14_confined",
    "C14_never_aborts"
   ],
   "note": ""
  },
  {
   "property": "C15",
   "status": "proved",
   "theorems": [
    "C15_nodal_volume",
    "C15_volumes_tile",
    "C15_volumes_cyclic",
    "C15_volumes_positive"
   ],
   "note": ""
  },
  {
   "property": "C16",
   "status": "proved",
   "theorems": [
    "C16_affine_strain",
    "C16_rigid_motion"
   ],
   "note": ""
  },
  {
   "property": "C17",
   "status": "proved",
   "theorems": [
    "C17_history",
    "C17_run",
    "C17_strain_symmetric",
    "C17_stress_symmetric"
   ],
   "note": ""
  },
  {
   "property": "C18",
   "status": "partial",
   "theorems": [
    "C18_correction_exact_partial",
    "C18_spin_refuted"
   ],
   "note": "REFUTED: L and L_T are one array, so the spin is lost. A rigid spin leaves the stress unchanged instead of turning it, and a straining motion gets a spurious correction -2 dt (D s + s D), which is proved exactly."
  },
  {
   "property": "C19",
   "status": "proved",
   "theorems": [
    "C19_hooke",
    "C19_linear",
    "C19_isotropic"
   ],
   "note": ""
  },
  {
   "property": "C20",
   "status": "proved",
   "theorems": [
    "C20_initial_state",
    "C20_lithostatic",
    "C20_compression"
   ],
   "note": ""
  },
  {
   "property": "C21",
   "status": "proved",
   "theorems": [
    "C21_viscous"
   ],
   "note": ""
  },
  {
   "property": "C22",
   "status": "proved",
   "theorems": [
    "C22_above_yield",
    "C22_below_and_continuous"
   ],
   "note": ""
  },
  {
   "property": "C23",
   "status": "proved",
   "theorems": [
    "C23_deviator_trace_free",
    "C23_saturation"
   ],
   "note": ""
  },
  {
   "property": "C24",
   "status": "proved",
   "theorems": [
    "C24_safe",
    "C24_scalar_aborts"
   ],
   "note": ""
  },
  {
   "property": "C25",
   "status": "partial",
   "theorems": [
    "C25_exact",
    "C25_finite_refuted"
   ],
   "note": "REFUTED: at zero pressure every entry of the stress increment is NaN (C25_finite_refuted); C25_exact gives exactly the finite states."
  },
  {
   "property": "C26",
   "status": "partial",
   "theorems": [
    "C26_law_refuted",
    "C26_new_particle_refuted",
    "C26_step_refuted"
   ],
   "note": "REFUTED: MP.mu never exists, so the law, and every time step with a new particle of such a phase, fails (C26_law_refuted, C26_new_particle_refuted, C26_step_refuted)."
  },
  {
   "property": "C27",
   "status": "partial",
   "theorems": [
    "C27_exact",
    "C27_finite_refuted"
   ],
   "note": "REFUTED: every in-plane stress increment is NaN for isotropic compressive stress (C27_finite_refuted); C27_exact: finite for every other compressive stress and elastic below yield."
  },
  {
   "property": "C28",
   "status": "proved",
   "theorems": [
    "C28_mass",
    "C28_mass_floor"
   ],
   "note": ""
  },
  {
   "property": "C29",
   "status": "partial",
   "theorems": [
    "C29_first_phase",
    "C29_later_phases_refuted",
    "C29_initial"
   ],
   "note": "Proved for the first phase. REFUTED for later phases: increment_gravity only acts on phase 0, the others keep the body force they were created with."
  },
  {
   "property": "C30",
   "status": "partial",
   "theorems": [
    "C30_outlet_bottom",
    "C30_outlet_left_partial",
    "C30_outlet_left_refuted"
   ],
   "note": "outlet_bottom is proved exactly. REFUTED for outlet_left: it removes everything left of x_m + dx, including particles inside the domain; the exact behaviour is proved."
  },
  {
   "property": "C31",
   "status": "partial",
   "theorems": [
    "C31_inlet_right",
    "C31_inlet_right_none",
    "C31_inlet_top",
    "C31_inlet_top_middle_refuted",
    "C31_schedule"
   ],
   "note": "Placement of inlet_right, the schedule and the counters are proved. REFUTED for inlet_top when x_m is not 0: the point is (x_M-x_m)/2, not the middle."
  },
  {
   "property": "C32",
   "status": "proved",
   "theorems": [
    "C32_wrap",
    "C32_cyclic_lr"
   ],
   "note": ""
  },
  {
   "property": "C33",
   "status": "proved",
   "theorems": [
    "C33_count",
    "C33_initial"
   ],
   "note": ""
  },
  {
   "property": "C34",
   "status": "proved",
   "theorems": [
    "C34_mass_and_volume",
    "C34_total_mass"
   ],
   "note": ""
  },
  {
   "property": "C35",
   "status": "partial",
   "theorems": [
    "C35_independent",
    "C35_shared_refuted"
   ],
   "note": "Proved for phases without initial_v. REFUTED with initial_v: one array is shared and every particle gets the velocity changes of all particles (proved)."
  },
  {
   "property": "C36",
   "status": "proved",
   "theorems": [
    "C36_nodal_fractions",
    "C36_massless"
   ],
   "note": ""
  },
  {
   "property": "C37",
   "status": "proved",
   "theorems": [
    "C37_minmod",
    "C37_superbee"
   ],
   "note": ""
  },
  {
   "property": "C38",
   "status": "proved",
   "theorems": [
    "C38_line",
    "C38_rows",
    "C38_columns"
   ],
   "note": ""
  },
  {
   "property": "C39",
   "status": "partial",
   "theorems": [
    "C39_uniform",
    "C39_sum_refuted"
   ],
   "note": "REFUTED as stated (C39_sum_refuted: fractions summing to one get increments that do not sum to zero over the classes). C39_uniform proves the claim for lines of uniform composition."
  },
  {
   "property": "C40",
   "status": "partial",
   "theorems": [
    "C40_exact",
    "C40_uniform",
    "C40_conservation_refuted"
   ],
   "note": "Conservation REFUTED (C40_conservation_refuted, walls on all sides). C40_exact gives the exact change of the total in terms of the fluxes next to the walls; C40_uniform proves the second half for all fields."
  },
  {
   "property": "C41",
   "status": "proved",
   "theorems": [
    "C41_valid",
    "C41_normalised",
    "C41_plain",
    "C41_none_refuted"
   ],
   "note": "A particle with some positive fraction after the increments gets valid fractions (C41_normalised); valid ones are kept (C41_valid). C41_none_refuted: without a positive fraction the result is NaN, outside the property's hypothesis."
  },
  {
   "property": "C42",
   "status": "proved",
   "theorems": [
    "C42_main_loop",
    "C42_terminates",
    "C42_fuel_suffices",
    "C42_deterministic",
    "C42_no_progress",
    "C42_completes"
   ],
   "note": ""
  },
  {
   "property": "C43",
   "status": "partial",
   "theorems": [
    "C43_once",
    "C43_first_step_refuted",
    "C43_equal_refuted"
   ],
   "note": "Once per interval is proved for dt < savetime. REFUTED: the first step also saves although no interval has passed, and dt = savetime breaks the schedule."
  },
  {
   "property": "C44",
   "status": "partial",
   "theorems": [
    "C44_drift_refuted"
   ],
   "note": "REFUTED in binary64: with dt = 0.1 and savetime = 0.5 the steps 5 and 6 both save, because t is accumulated in floating point. The exact-arithmetic schedule is C43."
  },
  {
   "property": "C45",
   "status": "partial",
   "theorems": [
    "C45_dynamic",
    "C45_needs_dx",
    "C45_at_rest_refuted",
    "C45_tight"
   ],
   "note": "Positive and bounded when something moves and P.G.dx is given. REFUTED at rest: the new time step is infinite."
  },
  {
   "property": "C46",
   "status": "partial",
   "theorems": [
    "C46_exact",
    "C46_distinct",
    "C46_save_u_refuted",
    "C46_name_refuted"
   ],
   "note": "REFUTED for save_u (C46_save_u_refuted: it numbers its files with grid_save, which only draw_continuum advances) and for user-chosen names (C46_name_refuted). C46_distinct proves the claim for all other calls; C46_exact gives the exact condition for sequences with save_u and draw_gsd_grid."
  },
  {
   "property": "C47",
   "status": "proved",
   "theorems": [
    "C47_kept",
    "C47_defaults",
    "C47_sizes",
    "C47_nothing_else",
    "C47_nt",
    "C47_save_dir"
   ],
   "note": "Kept: C47_kept; defaults: C47_defaults, C47_nt; nothing else is added: C47_nothing_else. The derived attributes mode, phases, save_dir (and O.energy) are always recomputed, so a save_dir set by the input file is ignored (C47_save_dir); that is the only exception."
  },
  {
   "property": "C48",
   "status": "proved",
   "theorems": [
    "C48_gradient",
    "C48_gammadot"
   ],
   "note": ""
  },
  {
   "property": "C49",
   "status": "proved",
   "theorems": [
    "C49_surface_loads",
    "C49_load_resultant"
   ],
   "note": ""
  },
  {
   "property": "C50",
   "status": "proved",
   "theorems": [
    "C50_conveyor"
   ],
   "note": ""
  },
  {
   "property": "C51",
   "status": "proved",
   "theorems": [
    "C51_kinetic",
    "C51_gravitational",
    "C51_elastic",
    "C51_totals"
   ],
   "note": ""
  },
  {
   "property": "C52",
   "status": "proved",
   "theorems": [
    "C52_old_grid_irrelevant"
   ],
   "note": ""
  },
  {
   "property": "C53",
   "status": "proved",
   "theorems": [
    "C53_step",
    "C53_run",
    "C53_energy"
   ],
   "note": ""
  },
  {
   "property": "C54",
   "status": "proved",
   "theorems": [
    "C54_velocity_between",
    "C54_kinetic_energy"
   ],
   "note": ""
  },
  {
   "property": "C55",
   "status": "partial",
   "theorems": [
    "C55_uniform_motion",
    "C55_edge_refuted"
   ],
   "note": "REFUTED in general (C55_edge_refuted: a particle on a cell edge is strained by massless nodes); proved for every state whose particles have all four corner nodes above the mass cut-off (C55_uniform_motion)."
  },
  {
   "property": "C56",
   "status": "partial",
   "theorems": [
    "C56_once_refuted",
    "C56_first_yield",
    "C56_needs_q"
   ],
   "note": "The first yield divides dt and savetime by 20 exactly once per call. REFUTED as a one-time change: every later call divides them by 20 again. Without P.G.q the update fails."
  },
  {
   "property": "C57",
   "status": "proved",
   "theorems": [
    "C57_main",
    "C57_euler",
    "C57_rk4",
    "C57_rk3",
    "C57_divisors",
    "C57_pure",
    "C57_defect",
    "C57_diffusion",
    "C57_varying_refuted",
    "C57_diffusion_refuted"
   ],
   "note": "Proved for Euler, RK4 and RK3 over the reals; C57_varying_refuted and C57_diffusion_refuted show what lies outside the statement (varying velocity, the diffusion step)."
  },
  {
   "property": "C58",
   "status": "proved",
   "theorems": [
    "C58_step_sift",
    "C58_pass_sift",
    "C58_step_total",
    "C58_pass_total"
   ],
   "note": ""
  },
  {
   "property": "C59",
   "status": "proved",
   "theorems": [
    "C59_step",
    "C59_history"
   ],
   "note": ""
  },
  {
   "property": "C60",
   "status": "proved",
   "theorems": [
    "C60_centre_of_mass",
    "C60_angular_momentum"
   ],
   "note": "Wall nodes lose momentum components (C05_momentum_with_walls), so the angular momentum statement is for grids without wall nodes."
  },
  {
   "property": "C61",
   "status": "proved",
   "theorems": [
    "C61_internal_work",
    "C61_energy_balance"
   ],
   "note": ""
  },
  {
   "property": "C62",
   "status": "proved",
   "theorems": [
    "C62_free_fall"
   ],
   "note": ""
  },
  {
   "property": "C63",
   "status": "partial",
   "theorems": [
    "C63_damping_refuted"
   ],
   "note": "REFUTED: P.damping multiplies the net nodal force by 0.7 and does not act on the velocity, so a body in uniform motion keeps its speed for every velocity (C63_damping_refuted). C61_energy_balance gives the exact effect: it scales the work done and adds no dissipation."
  },
  {
   "property": "C64",
   "status": "proved",
   "theorems": [
    "C64_density",
    "C64_between"
   ],
   "note": ""
  },
  {
   "property": "C65",
   "status": "proved",
   "theorems": [
    "C65_line",
    "C65_rows",
    "C65_columns",
    "C65_open_refuted"
   ],
   "note": "Proved for lines whose two end nodes are walls or empty, as in a filled box. At open ends the mirrored padding lets material in or out (C65_open_refuted)."
  },
  {
   "property": "C66",
   "status": "partial",
   "theorems": [
    "C66_two_sizes",
    "C66_three_sizes_refuted"
   ],
   "note": "REFUTED for three or more sizes (C66_three_sizes_refuted): the limiter acts on each class separately. C66_two_sizes proves it for two sizes under a bound on the step."
  },
  {
   "property": "C67",
   "status": "partial",
   "theorems": [
    "C67_kt",
    "C67_nt_refuted"
   ],
   "note": "REFUTED for NT, whose averaging smooths the fractions even with zero gradient and zero dt (C67_nt_refuted). C67_kt proves it for KT, the scheme the code uses."
  },
  {
   "property": "C68",
   "status": "proved",
   "theorems": [
    "C68_line",
    "C68_nonneg"
   ],
   "note": ""
  },
  {
   "property": "C69",
   "status": "proved",
   "theorems": [
    "C69_uniform_mixture",
    "C69_linear_profile"
   ],
   "note": ""
  },
  {
   "property": "C70",
   "status": "partial",
   "theorems": [
    "C70_mean",
    "C70_between",
    "C70_size_refuted",
    "C70_back"
   ],
   "note": "No class of the code defines the attribute size, so get_nodal_gsd raises as soon as a point is next to a heavy node (C70_size_refuted). The other theorems hold when the user adds the attribute."
  },
  {
   "property": "C71",
   "status": "proved",
   "theorems": [
    "C71_mask"
   ],
   "note": ""
  },
  {
   "property": "C72",
   "status": "partial",
   "theorems": [
    "C72_total",
    "C72_range_refuted"
   ],
   "note": "Totals are kept (C72_total); the rescaling after clipping can lift fractions above one again (C72_range_refuted)."
  },
  {
   "property": "C73",
   "status": "partial",
   "theorems": [
    "C73_ratio",
    "C73_vanLeer",
    "C73_even",
    "C73_vanAlbada",
    "C73_slope_refuted",
    "C73_minmod2",
    "C73_third_refuted"
   ],
   "note": "REFUTED: vanLeer and vanAlbada1 return the limiter function of the slope ratio, not a slope (C73_slope_refuted, exact range in C73_vanLeer); minmod2 ignores the size of its third argument, which numpy takes as output array (C73_third_refuted)."
  },
  {
   "property": "C74",
   "status": "partial",
   "theorems": [
    "C74_nonneg",
    "C74_range_refuted",
    "C74_main_refuted"
   ],
   "note": "The lower bound is proved (C74_nonneg). The upper bound is REFUTED for one explicit step and for the program (C74_range_refuted, C74_main_refuted)."
  },
  {
   "property": "C75",
   "status": "partial",
   "theorems": [
    "C75_range_refuted"
   ],
   "note": "REFUTED with two sizes and valid fractions (C75_range_refuted); the lower bound is C68."
  },
  {
   "property": "C76",
   "status": "partial",
   "theorems": [
    "C76_step",
    "C76_law",
    "C76_between",
    "C76_values",
    "C76_sign_refuted",
    "C76_pressure"
   ],
   "note": "The sums, the bounds and the values are proved (C76_step, C76_law, C76_between, C76_values, C76_pressure). One sign convention for the pressure field is REFUTED (C76_sign_refuted)."
  },
  {
   "property": "C77",
   "status": "partial",
   "theorems": [
    "C77_friction",
    "C77_mu",
    "C77_new_pressure_refuted"
   ],
   "note": "The size of the shear stress is proved relative to the pressure from before the increment (C77_friction, C77_mu). Relative to the pressure after it, it is REFUTED (C77_new_pressure_refuted)."
  },
  {
   "property": "C78",
   "status": "partial",
   "theorems": [
    "C78_friction",
    "C78_compressed",
    "C78_gravity",
    "C78_dissipates_refuted"
   ],
   "note": "Direction and size are proved (C78_friction). REFUTED otherwise: no resistance in compression (C78_compressed), and with the negative P.max_g of the shipped inputs the viscosity is negative (C78_gravity, C78_dissipates_refuted)."
  },
  {
   "property": "C79",
   "status": "partial",
   "theorems": [
    "C79_rate_blind",
    "C79_history",
    "C79_initial",
    "C79_saturated",
    "C79_friction_refuted"
   ],
   "note": "REFUTED (C79_friction_refuted): the shear rate is never set (C79_rate_blind, C79_history, C79_initial), so the viscosity is eta_max or zero (C79_saturated)."
  },
  {
   "property": "C80",
   "status": "partial",
   "theorems": [
    "C80_rows",
    "C80_columns",
    "C80_empty_refuted"
   ],
   "note": "Proved where the gap is at least two nodes wide (C80_rows, C80_columns). For one empty node it is REFUTED (C80_empty_refuted)."
  },
  {
   "property": "C81",
   "status": "partial",
   "theorems": [
    "C81_step",
    "C81_run",
    "C81_grid",
    "C81_points",
    "C81_inlet_refuted"
   ],
   "note": "REFUTED for inlets: C81_inlet_refuted (inlet_top places points at (x_M-x_m)/2). Proved for everything else: C81_step, C81_run (all numbers of passes, exceptions and hook times included), C81_grid, C81_points. Over the real numbers; inlet_right and a prescribed initial flow allow horizontal shifts only."
  },
  {
   "property": "C82",
   "status": "partial",
   "theorems": [
    "C82_mesh",
    "C82_masks_refuted"
   ],
   "note": "REFUTED for the masks with rough walls and a friction coefficient (C82_masks_refuted). C82_mesh: the mesh never changes in any reachable state, and the masks do not either without wall friction."
  },
  {
   "property": "C83",
   "status": "partial",
   "theorems": [
    "C83_exact",
    "C83_square",
    "C83_oblong_refuted"
   ],
   "note": "REFUTED for grids with different numbers of rows and columns: the offsets use ny as the length of a row (15 x 10 nodes: the corner is free, nodes on both edges are blocked). Proved for all square grids of at least nine by nine nodes and all other options, in every number system."
  },
  {
   "property": "C84",
   "status": "proved",
   "theorems": [
    "C84_step",
    "C84_run"
   ],
   "note": ""
  },
  {
   "property": "C85",
   "status": "partial",
   "theorems": [
    "C85_inertial",
    "C85_gradient",
    "C85_number_refuted"
   ],
   "note": "REFUTED for empty nodes: after a segregating step the nodes without mass hold NaN in pk (C85_number_refuted). Everything else is proved: at nodes with mass pk is pressure times inertial number (C85_inertial); grad_pk is exact for linear pk when no node is empty (C85_gradient)."
  },
  {
   "property": "C86",
   "status": "proved",
   "theorems": [
    "C86_view",
    "C86_units"
   ],
   "note": "C86_view is the general form (any change of units and axes under which the tent functions correspond); C86_units is the change of units. Points must stay in the domain in the first run."
  },
  {
   "property": "C87",
   "status": "partial",
   "theorems": [
    "C87_mirror",
    "C87_on_lines_refuted"
   ],
   "note": "REFUTED for points exactly on a vertical line of nodes: a point at rest under a stress there is pushed towards positive x, and so is its mirror image (C87_on_lines_refuted). Proved for all runs whose points stay in the domain and off those lines (C87_mirror)."
  },
  {
   "property": "C88",
   "status": "proved",
   "theorems": [
    "C88_flip"
   ],
   "note": "C88_flip: for all runs whose points stay in the domain; nothing about node lines is needed since both axes break the tie in the same way."
  },
  {
   "property": "C89",
   "status": "partial",
   "theorems": [
    "C89_viscous",
    "C89_granular",
    "C89_forward",
    "C89_floor_refuted",
    "C89_downhill_refuted"
   ],
   "note": "REFUTED in two points: the velocity vanishes at height zero, not at y_m (C89_floor_refuted), and the mu(I) profile always points towards positive x, uphill if g sin(theta) is negative (C89_downhill_refuted, C89_forward). The balance of stress and weight at all heights is proved for both materials (C89_viscous, C89_granular)."
  },
  {
   "property": "C90",
   "status": "partial",
   "theorems": [
    "C90_channel",
    "C90_yield_refuted",
    "C90_floor_refuted"
   ],
   "note": "REFUTED in two points: below the friction at rest the code still prescribes a velocity (C90_yield_refuted), and heights are measured from zero, not from y_m (C90_floor_refuted). For a channel that starts at height zero and is driven above the friction at rest the profile is proved right (C90_channel)."
  },
  {
   "property": "C91",
   "status": "proved",
   "theorems": [
    "C91_step",
    "C91_ends",
    "C91_run"
   ],
   "note": "Materials of C84 (elastic, viscous laws); the points are in the domain at the start of every pass (C91_run: those of the scheme itself), no surface forces, no wall friction."
  },
  {
   "property": "C92",
   "status": "proved",
   "theorems": [
    "C92_momentum",
    "C92_spin"
   ],
   "note": "As C91; the uniform motion needs Mtol below the mass of the nodes reached."
  },
  {
   "property": "C93",
   "status": "proved",
   "theorems": [
    "C93_turn"
   ],
   "note": "Points inside the domain at the start of every pass (a point exactly on x_M is not wrapped by the code)."
  },
  {
   "property": "C94",
   "status": "proved",
   "theorems": [
    "C94_uniform",
    "C94_layer",
    "C94_points"
   ],
   "note": "uniform: full domains, both ways to compute the area, open or joined ends; layer: with empty rows above; points: density of the points, open ends, no node below the mass tolerance. One solid phase, p_seg off (time_march with segregation needs other arrays)."
  },
  {
   "property": "C95",
   "status": "partial",
   "theorems": [
    "C95_incline",
    "C95_chuteflow",
    "C95_refuted"
   ],
   "note": "REFUTED: incline.py fills ny-2 rows but divides the whole area, so it starts denser than declared by (ny-1)/(ny-2) (C95_incline, exact); chuteflow.py divides half the area by a full domain's points, so it starts at half the density (C95_chuteflow, exact)."
  },
  {
   "property": "C96",
   "status": "proved",
   "theorems": [
    "C96_box",
    "C96_ring",
    "C96_loads",
    "C96_thrown"
   ],
   "note": "box, ring: no motion at all over any number of passes; loads: the scripts with full gravity and those that leave it alone meet the hypothesis; thrown: what happens with other loads, as in dam_break.py, whose ramp starts from zero on a settled layer (its law, dp_rate, is not covered). Elastic, or viscous on level ground, one phase."
  },
  {
   "property": "C97",
   "status": "partial",
   "theorems": [
    "C97_ramp",
    "C97_run",
    "C97_path",
    "C97_rate",
    "C97_tension_refuted",
    "C97_tension"
   ],
   "note": "REFUTED for dp_unit_test.py, whose vertical load changes sign at a fifth of the run and ends at -8 max_q (C97_tension, exact); ramp, run, path, rate hold."
  },
  {
   "property": "C98",
   "status": "partial",
   "theorems": [
    "C98_full",
    "C98_refuted"
   ],
   "note": "REFUTED: nothing reads P.q; q_v and q_h stay max_q from the first step (C98_full, every pass) while P.q says 0."
  },
  {
   "property": "C99",
   "status": "proved",
   "theorems": [
    "C99_alone"
   ],
   "note": "Open ends, elastic and viscous phases, fixed time step (through C84). The loads and the time step are common to both runs."
  },
  {
   "property": "C100",
   "status": "proved",
   "theorems": [
    "C100_parts"
   ],
   "note": "As C99."
  },
  {
   "property": "C101",
   "status": "proved",
   "theorems": [
    "C101_step",
    "C101_patch"
   ],
   "note": "step: strain, stress, velocity and position; patch: uniform stress. One step, open ends, elastic or viscous, plain walls."
  },
  {
   "property": "C102",
   "status": "proved",
   "theorems": [
    "C102_step",
    "C102_run",
    "C102_total"
   ],
   "note": "step: one pass; run: any number of passes that succeed; total: the passes never fail (all materials but Pouliquen's, whose law reads lists). Open ends, closed inlets and outlets, no wall friction, no segregation, fixed time step. The Drucker-Prager laws, linear_mu and ken_simple are left out: they divide by zero in reachable states, where the real numbers of the model would not be faithful."
  },
  {
   "property": "C103",
   "status": "proved",
   "theorems": [
    "C103_alone"
   ],
   "note": "Through C102, with its restrictions; both runs use the same density for the surface loads, that of their first phase."
  },
  {
   "property": "C104",
   "status": "proved",
   "theorems": [
    "C104_parts"
   ],
   "note": "Through C102, with its restrictions; shares are positive."
  },
  {
   "property": "C105",
   "status": "proved",
   "theorems": [
    "C105_path"
   ],
   "note": "Through C102, with its restrictions."
  },
  {
   "property": "C106",
   "status": "proved",
   "theorems": [
    "C106_reach"
   ],
   "note": "Through C102, with its restrictions; both runs use the same density for the surface loads."
  },
  {
   "property": "C107",
   "status": "proved",
   "theorems": [
    "C107_step",
    "C107_ends",
    "C107_run",
    "C107_total"
   ],
   "note": "C107_run for runs that do not fail; C107_total proves that they do not fail (all but the grains, whose law reads lists). Sideways loads and wall friction are outside."
  },
  {
   "property": "C108",
   "status": "partial",
   "theorems": [
    "C108_stress",
    "C108_rate",
    "C108_rate_refuted",
    "C108_loose",
    "C108_loose_refuted",
    "C108_viscosity"
   ],
   "note": "C108_stress: pressure and deviator are those of the stress for Von Mises, viscous, Bingham, Ken-Kamrin, Pouliquen, linear mu and dense ken_simple points (the viscous laws leave the bulk viscosity out of the pressure). C108_rate: the rate of the elastic laws. REFUTED: ken_kamrin divides its shear rate by the time step twice (C108_rate_refuted); ken_simple shows a stress for loose points that have none (C108_loose_refuted, exact in C108_loose); pouliquen shows the viscosity before it is cut off (C108_viscosity gives both)."
  },
  {
   "property": "C109",
   "status": "partial",
   "theorems": [
    "C109_pass",
    "C109_run",
    "C109_total",
    "C109_crossing_refuted",
    "C109_light_refuted"
   ],
   "note": "C109_pass, C109_run, C109_total: clock and points of every run with dynamic time steps are those of the specification in SpecPace.v, as long as its points stay in the domain and something moves. REFUTED: nodes lighter than M_tol, whose velocity is used nowhere, also limit the step (C109_light_refuted), and the step after a slow one can take a point across a hundred cells (C109_crossing_refuted), because the condition only looks at the speed before the step."
  },
  {
   "property": "C110",
   "status": "proved",
   "theorems": [
    "C110_step",
    "C110_run",
    "C110_same",
    "C110_total"
   ],
   "note": "C110_step: a step with or without segregation is a step of the scheme up to the mixture of the grains; C110_run, C110_same, C110_total: runs of the seven materials that do not read the fractions give exactly the points of the scheme, whether or not P.segregate_grid is set; C58_step_sift and C58_pass_sift: passes with segregation do not fail."
  },
  {
   "property": "C111",
   "status": "partial",
   "theorems": [
    "C111_balance",
    "C111_even",
    "C111_mass_refuted"
   ],
   "note": "REFUTED (C111_mass_refuted): six points in the middles of six cells, without diffusion; the increments sum to zero along lines but nodes weigh differently. C111_balance: exactly what a step adds, the sum over the nodes that points read of nodal mass times increment; C111_even: the claim holds if the nodes all weigh the same and nothing diffuses."
  },
  {
   "property": "C112",
   "status": "partial",
   "theorems": [
    "C112_fields",
    "C112_seam_refuted",
    "C112_ends_refuted"
   ],
   "note": "REFUTED twice. C112_ends_refuted: without cyclic_lr the right end shows the viscosity of grains three cells away; C112_fields: exactly what the fields of a segregating step are, with the viscosity at both ends the sum over both. C112_seam_refuted: on a cylinder two runs that differ by a turn move alike (as C93 says) but their mixtures differ."
  },
  {
   "property": "C113",
   "status": "proved",
   "theorems": [
    "C113_total",
    "C113_law"
   ],
   "note": "C113_law is exact (if and only if); C113_total extends C102_total to grains; C58_step_sift (a segregating step does not fail) now covers the grain laws too. Over the reals, so the exits on non-finite stresses cannot occur; the properties at X treat special values."
  },
  {
   "property": "C114",
   "status": "proved",
   "theorems": [
    "C114_node",
    "C114_mass",
    "C114_floor",
    "C114_momentum",
    "C114_runs",
    "C114_negative"
   ],
   "note": "For the standard model of rounding (Num_rd): no overflow and no underflow. binary64 to nearest without these is an instance (near64, via Flocq's FLX format). C114_negative is a binary64 witness (NumF) that a nodal mass can be negative. numpy sets the last node of a row to the end exactly; the theorems use no last node."
  },
  {
   "property": "C115",
   "status": "proved",
   "theorems": [
    "C115_density",
    "C115_mass",
    "C115_velocity",
    "C115_sizes",
    "C115_rows"
   ],
   "note": "The arrays given to numpy.save after a step; numpy.save itself is not modelled, and the names of the files are in C46. C115_velocity needs a grid without joined ends, inlets and outlets and no rigid phase."
  },
  {
   "property": "C116",
   "status": "partial",
   "theorems": [
    "C116_sizes_refuted",
    "C116_seam_refuted",
    "C116_blank_refuted"
   ],
   "note": "REFUTED. C116_seam_refuted: the call that would join s_bar is commented out (MPM.py:35), so the ends of a row of s_bar differ while those of the density agree. C116_blank_refuted: 0/0 at a node without mass is NaN in the velocity files. C116_sizes_refuted: without segregation the table of sizes is zero everywhere, for every run. What does hold is C115."
  },
  {
   "property": "C117",
   "status": "partial",
   "theorems": [
    "C117_bounded",
    "C117_ends_refuted"
   ],
   "note": "REFUTED. C117_ends_refuted: a binary64 run (SpecFloat) of one elastic point that slides on the floor; after two passes the state repeats for ever, so the loop does not end for any number of passes. C117_bounded is the restricted theorem over the reals, with an intruder that travels across the domain as its instance."
  },
  {
   "property": "C118",
   "status": "partial",
   "theorems": [
    "C118_cells",
    "C118_overlay",
    "C118_overlay_refuted"
   ],
   "note": "REFUTED as to the overlay. C118_cells holds as stated; C118_overlay says exactly which nodes get which mark; C118_overlay_refuted shows a grid without walls whose picture has a red cross."
  },
  {
   "property": "C119",
   "status": "partial",
   "theorems": [
    "C119_motion",
    "C119_rate",
    "C119_stress",
    "C119_gradient",
    "C119_blank",
    "C119_rate_refuted",
    "C119_gradient_refuted",
    "C119_draws",
    "C119_draws_refuted",
    "C119_mean",
    "C119_profile"
   ],
   "note": "REFUTED: C119_rate_refuted, C119_gradient_refuted, C119_draws_refuted. C119_motion, C119_rate, C119_stress, C119_gradient say exactly what each panel shows for each law, C119_blank that massless nodes stay blank, C119_mean that the drawn pressure lies between those of the points, C119_draws for which laws a run can be drawn."
  },
  {
   "property": "C120",
   "status": "proved",
   "theorems": [
    "C120_wedges"
   ],
   "note": ""
  },
  {
   "property": "C121",
   "status": "partial",
   "theorems": [
    "C121_rate",
    "C121_rate_refuted",
    "C121_places"
   ],
   "note": "REFUTED for the viscous law: C121_rate_refuted. C121_rate says for each law what is drawn; it is the shear rate for the three elastic laws."
  },
  {
   "property": "C122",
   "status": "partial",
   "theorems": [
    "C122_shares_refuted",
    "C122_shown",
    "C122_shares",
    "C122_draws"
   ],
   "note": "REFUTED for joined ends: C122_shares_refuted. C122_shown says exactly what is drawn, C122_shares is the property without joined ends, C122_draws that the pictures can be drawn after every such step."
  },
  {
   "property": "C123",
   "status": "partial",
   "theorems": [
    "C123_rows",
    "C123_drawn",
    "C123_rows_refuted",
    "C123_empty_refuted"
   ],
   "note": "REFUTED with rounding: C123_rows_refuted (too few rows) and C123_empty_refuted (a row too many), by computing runs in binary64. C123_rows is the property in exact arithmetic, C123_drawn what draw_energy makes of the rows."
  },
  {
   "property": "C124",
   "status": "proved",
   "theorems": [
    "C124_order",
    "C124_exact",
    "C124_invariant",
    "C124_speed"
   ],
   "note": "C124_order: the error in every entry is the fourth power of the linear map applied to the rate at some time in (0,1), over 120. C124_exact, C124_invariant and C124_speed hold without linearity."
  },
  {
   "property": "C125",
   "status": "partial",
   "theorems": [
    "C125_responds_refuted",
    "C125_stress_free_refuted"
   ],
   "note": "REFUTED: C125_responds_refuted (no increment from an isotropic stress) and C125_stress_free_refuted (a stress-free point stays stress free), on the reals with infinities and NaN."
  },
  {
   "property": "C126",
   "status": "proved",
   "theorems": [
    "C126_back",
    "C126_runs"
   ],
   "note": "C126_back for the error, C126_runs that moving such a point never fails. Overflow and underflow are not modelled (as in C114)."
  },
  {
   "property": "C127",
   "status": "partial",
   "theorems": [
    "C127_rate",
    "C127_consistent_refuted"
   ],
   "note": "REFUTED by C127_consistent_refuted; C127_rate gives the exact rate, unloading included (the multiplier is an absolute value). The statement is about the law as a rate, which RK4 integrates (C124)."
  },
  {
   "property": "C128",
   "status": "partial",
   "theorems": [
    "C128_elastic",
    "C128_rest",
    "C128_timestep_refuted"
   ],
   "note": "C128_elastic holds. The rest is REFUTED by C128_timestep_refuted; C128_rest gives the exact loss of shear stress and gain of pressure in a step at rest."
  },
  {
   "property": "C129",
   "status": "partial",
   "theorems": [
    "C129_third",
    "C129_bulk_refuted",
    "C129_grains"
   ],
   "note": "REFUTED by C129_bulk_refuted; C129_third gives the exact answer of the three fluids, C129_grains that of the granular laws under pressure."
  },
  {
   "property": "C130",
   "status": "partial",
   "theorems": [
    "C130_work",
    "C130_dissipates_refuted",
    "C130_compressed_refuted"
   ],
   "note": "REFUTED by C130_dissipates_refuted and C130_compressed_refuted; C130_work gives the exact work of the viscous part for any strain: shear loses energy, change of volume gains it."
  },
  {
   "property": "C131",
   "status": "partial",
   "theorems": [
    "C131_loss",
    "C131_timestep_refuted"
   ],
   "note": "REFUTED by C131_timestep_refuted; C131_loss gives the exact mass after any number of steps."
  },
  {
   "property": "C132",
   "status": "partial",
   "theorems": [
    "C132_tangent",
    "C132_surface_refuted",
    "C132_across",
    "C132_unbounded_refuted",
    "C132_straight"
   ],
   "note": "REFUTED by C132_surface_refuted and C132_unbounded_refuted. C132_straight proves the restricted claim for straight paths of any length; C132_tangent and C132_across give the exact growth. Real arithmetic."
  },
  {
   "property": "C133",
   "status": "partial",
   "theorems": [
    "C133_back",
    "C133_elastic_refuted"
   ],
   "note": "REFUTED by C133_elastic_refuted; C133_back gives the exact stiffness."
  },
  {
   "property": "C134",
   "status": "partial",
   "theorems": [
    "C134_ratchet",
    "C134_hooke_refuted",
    "C134_limit"
   ],
   "note": "REFUTED by C134_hooke_refuted; C134_ratchet gives the exact stress after any number of cycles, C134_limit its limit. The single increment obeys Hooke's law (C19)."
  },
  {
   "property": "C135",
   "status": "partial",
   "theorems": [
    "C135_exact",
    "C135_no_force",
    "C135_kept_refuted"
   ],
   "note": "REFUTED by C135_kept_refuted; C135_exact gives the exact change in a step away from walls, C135_no_force the case in which it vanishes. Linear momentum changes by the applied impulse (C08); the mapping to the grid keeps the angular momentum (C60)."
  },
  {
   "property": "C136",
   "status": "partial",
   "theorems": [
    "C136_silent",
    "C136_row",
    "C136_moves_refuted"
   ],
   "note": "REFUTED by C136_moves_refuted; C136_silent describes all sets of points of which no node gets to know, C136_row gives many of them. Points of uniform and affine motions do move with their velocities (C55, C101)."
  },
  {
   "property": "C137",
   "status": "partial",
   "theorems": [
    "C137_exact",
    "C137_apart_refuted",
    "C137_loose"
   ],
   "note": "REFUTED by C137_apart_refuted; C137_exact gives the pressure after every history, C137_loose the case without pressure."
  },
  {
   "property": "C138",
   "status": "partial",
   "theorems": [
    "C138_rest_refuted",
    "C138_creep"
   ],
   "note": "REFUTED by C138_rest_refuted, for every state of stress; C138_creep gives the rate at which grains have to creep."
  },
  {
   "property": "C139",
   "status": "partial",
   "theorems": [
    "C139_regroup",
    "C139_order_refuted"
   ],
   "note": "REFUTED by C139_order_refuted (the total momentum after one step depends on which material comes first); C139_regroup proves it for all orders and groupings that keep the first material first, for runs of any length."
  },
  {
   "property": "C140",
   "status": "partial",
   "theorems": [
    "C140_exact",
    "C140_small_steps_refuted"
   ],
   "note": "REFUTED by C140_small_steps_refuted; C140_exact gives the exact factor of the pair and shows that the velocity does not grow exactly if dt^2 (K + 4/3 G) <= 4."
  },
  {
   "property": "C141",
   "status": "partial",
   "theorems": [
    "C141_apart_refuted"
   ],
   "note": "REFUTED by C141_apart_refuted, for all moduli, speeds and stable time steps, with the exact factor. Bodies that share no node do not feel each other: C99, C103."
  },
  {
   "property": "C142",
   "status": "partial",
   "theorems": [
    "C142_depth",
    "C142_surface_refuted"
   ],
   "note": "REFUTED by C142_surface_refuted, for every evenly packed layer; C142_depth gives the density of every point of the layer as a function of its depth."
  },
  {
   "property": "C143",
   "status": "partial",
   "theorems": [
    "C143_run",
    "C143_step",
    "C143_light_refuted"
   ],
   "note": "REFUTED by C143_light_refuted, for every velocity; C143_step proves it, for any number of points and materials, when all nodes that the points touch are heavier than M_tol. C143_run proves it for any number of steps, when the added velocity makes a whole number of cells per step; otherwise the points lie elsewhere between the nodes, so that the two runs need not agree (C144)."
  },
  {
   "property": "C144",
   "status": "partial",
   "theorems": [
    "C144_cells",
    "C144_between_refuted"
   ],
   "note": "REFUTED by C144_between_refuted, for every part of a cell below a quarter and every speed, with the exact factor; C144_cells proves it for shifts by whole cells, for any bodies, loads and numbers of steps."
  },
  {
   "property": "C145",
   "status": "partial",
   "theorems": [
    "C145_apart",
    "C145_meet_refuted"
   ],
   "note": "REFUTED by C145_meet_refuted, for every time step; C145_apart proves it, for any walls, bodies, loads and numbers of steps, while no node goes a sixteenth of a cell in a step. The sixteenth is not the best bound."
  },
  {
   "property": "C146",
   "status": "partial",
   "theorems": [
    "C146_never",
    "C146_back_refuted"
   ],
   "note": "REFUTED by C146_back_refuted, for every number of steps; C146_never describes the run of the two points for ever. Bodies whose points have one velocity do come back, since uniform motion is an exact solution (C55)."
  },
  {
   "property": "C147",
   "status": "partial",
   "theorems": [
    "C147_mass",
    "C147_jump_refuted"
   ],
   "note": "REFUTED for the motion by C147_jump_refuted, for every stress and every shift below a thousandth of a cell; C147_mass proves it for the nodal masses, with an explicit constant."
  },
  {
   "property": "C148",
   "status": "partial",
   "theorems": [
    "C148_free",
    "C148_self_refuted"
   ],
   "note": "REFUTED by C148_self_refuted, for every stress; C148_free proves it, for any bodies and numbers of steps, while all nodes that the points touch are heavier than M_tol. C08 is the balance of one step with walls and loads."
  },
  {
   "property": "C149",
   "status": "partial",
   "theorems": [
    "C149_falls",
    "C149_damped_refuted"
   ],
   "note": "REFUTED by C149_damped_refuted, for every gravity; C149_falls gives the exact momentum and centre of mass after any number of steps, with the factor of damping and the mass of the first material. C139 is about the other materials."
  },
  {
   "property": "C150",
   "status": "partial",
   "theorems": [
    "C150_stuck",
    "C150_part_refuted"
   ],
   "note": "REFUTED by C150_part_refuted, for any two velocities; C150_stuck proves the opposite for all bodies, walls, loads and numbers of steps, and that points in one state stay in one state. C145 is about points at different places."
  },
  {
   "property": "C151",
   "status": "partial",
   "theorems": [
    "C151_loss",
    "C151_kept_refuted"
   ],
   "note": "REFUTED by C151_kept_refuted for every gravity that is not zero; C151_loss proves the exact loss for all bodies of which all points touch heavy nodes only, without walls and damping. Energy of the motion about the centre of mass is not part of it (see C130 and the balances of energy)."
  },
  {
   "property": "C152",
   "status": "partial",
   "theorems": [
    "C152_steps",
    "C152_place_refuted"
   ],
   "note": "C152_steps proves the part about the momentum and the exact difference of the centres of mass, for all bodies of which all points touch heavy nodes only. The part about the centre of mass is REFUTED by C152_place_refuted."
  },
  {
   "property": "C153",
   "status": "proved",
   "theorems": [
    "C153_glides"
   ],
   "note": "For all bodies of which all points touch heavy nodes only; with damping 0.7 of the weight counts, as in C149. C149 is the case without walls, for all axes at once."
  },
  {
   "property": "C154",
   "status": "proved",
   "theorems": [
    "C154_any"
   ],
   "note": "For bodies of which all points touch heavy nodes only, without belts and without load along the axis; intruders (which keep their course, C105) and points of elastic_time (which lose mass, C131) are left out. With damping 0.7 of the weight counts. It is about the runs that do not fail; C102 and C113 tell which do not."
  },
  {
   "property": "C155",
   "status": "partial",
   "theorems": [
    "C155_floor",
    "C155_lands_refuted"
   ],
   "note": "REFUTED by C155_lands_refuted for every vertical velocity; C155_floor proves the opposite for all bodies that lie on the floor, for any number of steps."
  },
  {
   "property": "C156",
   "status": "proved",
   "theorems": [
    "C156_walls"
   ],
   "note": "For bodies of which all points touch heavy nodes only; intruders and points of elastic_time are left out. Along each axis. The positions of points on a belt follow the belt, their momenta do not."
  }
 ]
}