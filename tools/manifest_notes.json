{
 "C11": [
  "partial",
  "wall, two_walls and silo_left mark only the intended nodes (proved exactly). REFUTED for silo_bottom (marks every row above the floor), for box on non-square grids, and for the silo_left opening when there are few rows; the exact behaviour is proved instead."
 ],
 "C13": [
  "partial",
  "The bound and the sign are proved away from node 1. REFUTED: friction also acts on undeclared walls (all four edges become walls) and where the force pulls away from the wall."
 ],
 "C18": [
  "partial",
  "REFUTED: L and L_T are one array, so the spin is lost. A rigid spin leaves the stress unchanged instead of turning it, and a straining motion gets a spurious correction -2 dt (D s + s D), which is proved exactly."
 ],
 "C29": [
  "partial",
  "Proved for the first phase. REFUTED for later phases: increment_gravity only acts on phase 0, the others keep the body force they were created with."
 ],
 "C30": [
  "partial",
  "outlet_bottom is proved exactly. REFUTED for outlet_left: it removes everything left of x_m + dx, including particles inside the domain; the exact behaviour is proved."
 ],
 "C31": [
  "partial",
  "Placement of inlet_right, the schedule and the counters are proved. REFUTED for inlet_top when x_m is not 0: the point is (x_M-x_m)/2, not the middle."
 ],
 "C35": [
  "partial",
  "Proved for phases without initial_v. REFUTED with initial_v: one array is shared and every particle gets the velocity changes of all particles (proved)."
 ],
 "C43": [
  "partial",
  "Once per interval is proved for dt < savetime. REFUTED: the first step also saves although no interval has passed, and dt = savetime breaks the schedule."
 ],
 "C44": [
  "partial",
  "REFUTED in binary64: with dt = 0.1 and savetime = 0.5 the steps 5 and 6 both save, because t is accumulated in floating point. The exact-arithmetic schedule is C43."
 ],
 "C45": [
  "partial",
  "Positive and bounded when something moves and P.G.dx is given. REFUTED at rest: the new time step is infinite."
 ],
 "C56": [
  "partial",
  "The first yield divides dt and savetime by 20 exactly once per call. REFUTED as a one-time change: every later call divides them by 20 again. Without P.G.q the update fails."
 ],
 "C55": [
  "partial",
  "REFUTED in general (C55_edge_refuted: a particle on a cell edge is strained by massless nodes); proved for every state whose particles have all four corner nodes above the mass cut-off (C55_uniform_motion)."
 ],
 "C25": [
  "partial",
  "REFUTED: at zero pressure every entry of the stress increment is NaN (C25_finite_refuted); C25_exact gives exactly the finite states."
 ],
 "C26": [
  "partial",
  "REFUTED: MP.mu never exists, so the law, and every time step with a new particle of such a phase, fails (C26_law_refuted, C26_new_particle_refuted, C26_step_refuted)."
 ],
 "C27": [
  "partial",
  "REFUTED: every in-plane stress increment is NaN for isotropic compressive stress (C27_finite_refuted); C27_exact: finite for every other compressive stress and elastic below yield."
 ],
 "C39": [
  "partial",
  "REFUTED as stated (C39_sum_refuted: fractions summing to one get increments that do not sum to zero over the classes). C39_uniform proves the claim for lines of uniform composition."
 ],
 "C40": [
  "partial",
  "Conservation REFUTED (C40_conservation_refuted, walls on all sides). C40_exact gives the exact change of the total in terms of the fluxes next to the walls; C40_uniform proves the second half for all fields."
 ],
 "C41": [
  "proved",
  "A particle with some positive fraction after the increments gets valid fractions (C41_normalised); valid ones are kept (C41_valid). C41_none_refuted: without a positive fraction the result is NaN, outside the property's hypothesis."
 ],
 "C46": [
  "partial",
  "REFUTED for save_u (C46_save_u_refuted: it numbers its files with grid_save, which only draw_continuum advances) and for user-chosen names (C46_name_refuted). C46_distinct proves the claim for all other calls; C46_exact gives the exact condition for sequences with save_u and draw_gsd_grid."
 ],
 "C47": [
  "proved",
  "Kept: C47_kept; defaults: C47_defaults, C47_nt; nothing else is added: C47_nothing_else. The derived attributes mode, phases, save_dir (and O.energy) are always recomputed, so a save_dir set by the input file is ignored (C47_save_dir); that is the only exception."
 ],
 "C57": [
  "proved",
  "Proved for Euler, RK4 and RK3 over the reals; C57_varying_refuted and C57_diffusion_refuted show what lies outside the statement (varying velocity, the diffusion step)."
 ],
 "C63": [
  "partial",
  "REFUTED: P.damping multiplies the net nodal force by 0.7 and does not act on the velocity, so a body in uniform motion keeps its speed for every velocity (C63_damping_refuted). C61_energy_balance gives the exact effect: it scales the work done and adds no dissipation."
 ],
 "C60": [
  "proved",
  "Wall nodes lose momentum components (C05_momentum_with_walls), so the angular momentum statement is for grids without wall nodes."
 ],
 "C65": [
  "proved",
  "Proved for lines whose two end nodes are walls or empty, as in a filled box. At open ends the mirrored padding lets material in or out (C65_open_refuted)."
 ],
 "C66": [
  "partial",
  "REFUTED for three or more sizes (C66_three_sizes_refuted): the limiter acts on each class separately. C66_two_sizes proves it for two sizes under a bound on the step."
 ],
 "C67": [
  "partial",
  "REFUTED for NT, whose averaging smooths the fractions even with zero gradient and zero dt (C67_nt_refuted). C67_kt proves it for KT, the scheme the code uses."
 ],
 "C70": [
  "partial",
  "No class of the code defines the attribute size, so get_nodal_gsd raises as soon as a point is next to a heavy node (C70_size_refuted). The other theorems hold when the user adds the attribute."
 ],
 "C72": [
  "partial",
  "Totals are kept (C72_total); the rescaling after clipping can lift fractions above one again (C72_range_refuted)."
 ],
 "C73": [
  "partial",
  "REFUTED: vanLeer and vanAlbada1 return the limiter function of the slope ratio, not a slope (C73_slope_refuted, exact range in C73_vanLeer); minmod2 ignores the size of its third argument, which numpy takes as output array (C73_third_refuted)."
 ],
 "C74": [
  "partial",
  "The lower bound is proved (C74_nonneg). The upper bound is REFUTED for one explicit step and for the program (C74_range_refuted, C74_main_refuted)."
 ],
 "C75": [
  "partial",
  "REFUTED with two sizes and valid fractions (C75_range_refuted); the lower bound is C68."
 ],
 "C76": [
  "partial",
  "The sums, the bounds and the values are proved (C76_step, C76_law, C76_between, C76_values, C76_pressure). One sign convention for the pressure field is REFUTED (C76_sign_refuted)."
 ],
 "C77": [
  "partial",
  "The size of the shear stress is proved relative to the pressure from before the increment (C77_friction, C77_mu). Relative to the pressure after it, it is REFUTED (C77_new_pressure_refuted)."
 ],
 "C78": [
  "partial",
  "Direction and size are proved (C78_friction). REFUTED otherwise: no resistance in compression (C78_compressed), and with the negative P.max_g of the shipped inputs the viscosity is negative (C78_gravity, C78_dissipates_refuted)."
 ],
 "C79": [
  "partial",
  "REFUTED (C79_friction_refuted): the shear rate is never set (C79_rate_blind, C79_history, C79_initial), so the viscosity is eta_max or zero (C79_saturated)."
 ],
 "C80": [
  "partial",
  "Proved where the gap is at least two nodes wide (C80_rows, C80_columns). For one empty node it is REFUTED (C80_empty_refuted)."
 ],
 "C81": [
  "partial",
  "REFUTED for inlets: C81_inlet_refuted (inlet_top places points at (x_M-x_m)/2). Proved for everything else: C81_step, C81_run (all numbers of passes, exceptions and hook times included), C81_grid, C81_points. Over the real numbers; inlet_right and a prescribed initial flow allow horizontal shifts only."
 ],
 "C82": [
  "partial",
  "REFUTED for the masks with rough walls and a friction coefficient (C82_masks_refuted). C82_mesh: the mesh never changes in any reachable state, and the masks do not either without wall friction."
 ],
 "C83": [
  "partial",
  "REFUTED for grids with different numbers of rows and columns: the offsets use ny as the length of a row (15 x 10 nodes: the corner is free, nodes on both edges are blocked). Proved for all square grids of at least nine by nine nodes and all other options, in every number system."
 ],
 "C85": [
  "partial",
  "REFUTED for empty nodes: after a segregating step the nodes without mass hold NaN in pk (C85_number_refuted). Everything else is proved: at nodes with mass pk is pressure times inertial number (C85_inertial); grad_pk is exact for linear pk when no node is empty (C85_gradient)."
 ],
 "C86": [
  "proved",
  "C86_view is the general form (any change of units and axes under which the tent functions correspond); C86_units is the change of units. Points must stay in the domain in the first run."
 ],
 "C87": [
  "partial",
  "REFUTED for points exactly on a vertical line of nodes: a point at rest under a stress there is pushed towards positive x, and so is its mirror image (C87_on_lines_refuted). Proved for all runs whose points stay in the domain and off those lines (C87_mirror)."
 ],
 "C88": [
  "proved",
  "C88_flip: for all runs whose points stay in the domain; nothing about node lines is needed since both axes break the tie in the same way."
 ],
 "C89": [
  "partial",
  "REFUTED in two points: the velocity vanishes at height zero, not at y_m (C89_floor_refuted), and the mu(I) profile always points towards positive x, uphill if g sin(theta) is negative (C89_downhill_refuted, C89_forward). The balance of stress and weight at all heights is proved for both materials (C89_viscous, C89_granular)."
 ],
 "C90": [
  "partial",
  "REFUTED in two points: below the friction at rest the code still prescribes a velocity (C90_yield_refuted), and heights are measured from zero, not from y_m (C90_floor_refuted). For a channel that starts at height zero and is driven above the friction at rest the profile is proved right (C90_channel)."
 ],
 "C91": [
  "proved",
  "Materials of C84 (elastic, viscous laws); the points are in the domain at the start of every pass (C91_run: those of the scheme itself), no surface forces, no wall friction."
 ],
 "C92": [
  "proved",
  "As C91; the uniform motion needs Mtol below the mass of the nodes reached."
 ],
 "C93": [
  "proved",
  "Points inside the domain at the start of every pass (a point exactly on x_M is not wrapped by the code)."
 ],
 "C94": [
  "proved",
  "uniform: full domains, both ways to compute the area, open or joined ends; layer: with empty rows above; points: density of the points, open ends, no node below the mass tolerance. One solid phase, p_seg off (time_march with segregation needs other arrays)."
 ],
 "C95": [
  "partial",
  "REFUTED: incline.py fills ny-2 rows but divides the whole area, so it starts denser than declared by (ny-1)/(ny-2) (C95_incline, exact); chuteflow.py divides half the area by a full domain's points, so it starts at half the density (C95_chuteflow, exact)."
 ],
 "C96": [
  "proved",
  "box, ring: no motion at all over any number of passes; loads: the scripts with full gravity and those that leave it alone meet the hypothesis; thrown: what happens with other loads, as in dam_break.py, whose ramp starts from zero on a settled layer (its law, dp_rate, is not covered). Elastic, or viscous on level ground, one phase."
 ],
 "C97": [
  "partial",
  "REFUTED for dp_unit_test.py, whose vertical load changes sign at a fifth of the run and ends at -8 max_q (C97_tension, exact); ramp, run, path, rate hold."
 ],
 "C98": [
  "partial",
  "REFUTED: nothing reads P.q; q_v and q_h stay max_q from the first step (C98_full, every pass) while P.q says 0."
 ],
 "C99": [
  "proved",
  "Open ends, elastic and viscous phases, fixed time step (through C84). The loads and the time step are common to both runs."
 ],
 "C100": [
  "proved",
  "As C99."
 ],
 "C101": [
  "proved",
  "step: strain, stress, velocity and position; patch: uniform stress. One step, open ends, elastic or viscous, plain walls."
 ],
 "C102": [
  "proved",
  "step: one pass; run: any number of passes that succeed; total: the passes never fail (all materials but Pouliquen's, whose law reads lists). Open ends, closed inlets and outlets, no wall friction, no segregation, fixed time step. The Drucker-Prager laws, linear_mu and ken_simple are left out: they divide by zero in reachable states, where the real numbers of the model would not be faithful."
 ],
 "C103": [
  "proved",
  "Through C102, with its restrictions; both runs use the same density for the surface loads, that of their first phase."
 ],
 "C104": [
  "proved",
  "Through C102, with its restrictions; shares are positive."
 ],
 "C105": [
  "proved",
  "Through C102, with its restrictions."
 ],
 "C106": [
  "proved",
  "Through C102, with its restrictions; both runs use the same density for the surface loads."
 ],
 "C107": [
  "proved",
  "C107_run for runs that do not fail; C107_total proves that they do not fail (all but the grains, whose law reads lists). Sideways loads and wall friction are outside."
 ],
 "C108": [
  "partial",
  "C108_stress: pressure and deviator are those of the stress for Von Mises, viscous, Bingham, Ken-Kamrin, Pouliquen, linear mu and dense ken_simple points (the viscous laws leave the bulk viscosity out of the pressure). C108_rate: the rate of the elastic laws. REFUTED: ken_kamrin divides its shear rate by the time step twice (C108_rate_refuted); ken_simple shows a stress for loose points that have none (C108_loose_refuted, exact in C108_loose); pouliquen shows the viscosity before it is cut off (C108_viscosity gives both)."
 ],
 "C109": [
  "partial",
  "C109_pass, C109_run, C109_total: clock and points of every run with dynamic time steps are those of the specification in SpecPace.v, as long as its points stay in the domain and something moves. REFUTED: nodes lighter than M_tol, whose velocity is used nowhere, also limit the step (C109_light_refuted), and the step after a slow one can take a point across a hundred cells (C109_crossing_refuted), because the condition only looks at the speed before the step."
 ],
 "C110": [
  "proved",
  "C110_step: a step with or without segregation is a step of the scheme up to the mixture of the grains; C110_run, C110_same, C110_total: runs of the seven materials that do not read the fractions give exactly the points of the scheme, whether or not P.segregate_grid is set; C58_step_sift and C58_pass_sift: passes with segregation do not fail."
 ],
 "C111": [
  "partial",
  "REFUTED (C111_mass_refuted): six points in the middles of six cells, without diffusion; the increments sum to zero along lines but nodes weigh differently. C111_balance: exactly what a step adds, the sum over the nodes that points read of nodal mass times increment; C111_even: the claim holds if the nodes all weigh the same and nothing diffuses."
 ],
 "C112": [
  "partial",
  "REFUTED twice. C112_ends_refuted: without cyclic_lr the right end shows the viscosity of grains three cells away; C112_fields: exactly what the fields of a segregating step are, with the viscosity at both ends the sum over both. C112_seam_refuted: on a cylinder two runs that differ by a turn move alike (as C93 says) but their mixtures differ."
 ],
 "C113": [
  "proved",
  "C113_law is exact (if and only if); C113_total extends C102_total to grains; C58_step_sift (a segregating step does not fail) now covers the grain laws too. Over the reals, so the exits on non-finite stresses cannot occur; the properties at X treat special values."
 ],
 "C114": [
  "proved",
  "For the standard model of rounding (Num_rd): no overflow and no underflow. binary64 to nearest without these is an instance (near64, via Flocq's FLX format). C114_negative is a binary64 witness (NumF) that a nodal mass can be negative. numpy sets the last node of a row to the end exactly; the theorems use no last node."
 ],
 "C115": [
  "proved",
  "The arrays given to numpy.save after a step; numpy.save itself is not modelled, and the names of the files are in C46. C115_velocity needs a grid without joined ends, inlets and outlets and no rigid phase."
 ],
 "C116": [
  "partial",
  "REFUTED. C116_seam_refuted: the call that would join s_bar is commented out (MPM.py:35), so the ends of a row of s_bar differ while those of the density agree. C116_blank_refuted: 0/0 at a node without mass is NaN in the velocity files. C116_sizes_refuted: without segregation the table of sizes is zero everywhere, for every run. What does hold is C115."
 ],
 "C117": [
  "partial",
  "REFUTED. C117_ends_refuted: a binary64 run (SpecFloat) of one elastic point that slides on the floor; after two passes the state repeats for ever, so the loop does not end for any number of passes. C117_bounded is the restricted theorem over the reals, with an intruder that travels across the domain as its instance."
 ],
 "C118": [
  "partial",
  "REFUTED as to the overlay. C118_cells holds as stated; C118_overlay says exactly which nodes get which mark; C118_overlay_refuted shows a grid without walls whose picture has a red cross."
 ],
 "C119": [
  "partial",
  "REFUTED: C119_rate_refuted, C119_gradient_refuted, C119_draws_refuted. C119_motion, C119_rate, C119_stress, C119_gradient say exactly what each panel shows for each law, C119_blank that massless nodes stay blank, C119_mean that the drawn pressure lies between those of the points, C119_draws for which laws a run can be drawn."
 ],
 "C121": [
  "partial",
  "REFUTED for the viscous law: C121_rate_refuted. C121_rate says for each law what is drawn; it is the shear rate for the three elastic laws."
 ],
 "C122": [
  "partial",
  "REFUTED for joined ends: C122_shares_refuted. C122_shown says exactly what is drawn, C122_shares is the property without joined ends, C122_draws that the pictures can be drawn after every such step."
 ],
 "C123": [
  "partial",
  "REFUTED with rounding: C123_rows_refuted (too few rows) and C123_empty_refuted (a row too many), by computing runs in binary64. C123_rows is the property in exact arithmetic, C123_drawn what draw_energy makes of the rows."
 ],
 "C124": [
  "proved",
  "C124_order: the error in every entry is the fourth power of the linear map applied to the rate at some time in (0,1), over 120. C124_exact, C124_invariant and C124_speed hold without linearity."
 ],
 "C125": [
  "partial",
  "REFUTED: C125_responds_refuted (no increment from an isotropic stress) and C125_stress_free_refuted (a stress-free point stays stress free), on the reals with infinities and NaN."
 ],
 "C126": [
  "proved",
  "C126_back for the error, C126_runs that moving such a point never fails. Overflow and underflow are not modelled (as in C114)."
 ],
 "C127": [
  "partial",
  "REFUTED by C127_consistent_refuted; C127_rate gives the exact rate, unloading included (the multiplier is an absolute value). The statement is about the law as a rate, which RK4 integrates (C124)."
 ],
 "C128": [
  "partial",
  "C128_elastic holds. The rest is REFUTED by C128_timestep_refuted; C128_rest gives the exact loss of shear stress and gain of pressure in a step at rest."
 ],
 "C129": [
  "partial",
  "REFUTED by C129_bulk_refuted; C129_third gives the exact answer of the three fluids, C129_grains that of the granular laws under pressure."
 ],
 "C130": [
  "partial",
  "REFUTED by C130_dissipates_refuted and C130_compressed_refuted; C130_work gives the exact work of the viscous part for any strain: shear loses energy, change of volume gains it."
 ],
 "C131": [
  "partial",
  "REFUTED by C131_timestep_refuted; C131_loss gives the exact mass after any number of steps."
 ],
 "C132": [
  "partial",
  "REFUTED by C132_surface_refuted and C132_unbounded_refuted. C132_straight proves the restricted claim for straight paths of any length; C132_tangent and C132_across give the exact growth. Real arithmetic."
 ],
 "C133": [
  "partial",
  "REFUTED by C133_elastic_refuted; C133_back gives the exact stiffness."
 ],
 "C134": [
  "partial",
  "REFUTED by C134_hooke_refuted; C134_ratchet gives the exact stress after any number of cycles, C134_limit its limit. The single increment obeys Hooke's law (C19)."
 ],
 "C135": [
  "partial",
  "REFUTED by C135_kept_refuted; C135_exact gives the exact change in a step away from walls, C135_no_force the case in which it vanishes. Linear momentum changes by the applied impulse (C08); the mapping to the grid keeps the angular momentum (C60)."
 ],
 "C136": [
  "partial",
  "REFUTED by C136_moves_refuted; C136_silent describes all sets of points of which no node gets to know, C136_row gives many of them. Points of uniform and affine motions do move with their velocities (C55, C101)."
 ],
 "C137": [
  "partial",
  "REFUTED by C137_apart_refuted; C137_exact gives the pressure after every history, C137_loose the case without pressure."
 ],
 "C138": [
  "partial",
  "REFUTED by C138_rest_refuted, for every state of stress; C138_creep gives the rate at which grains have to creep."
 ],
 "C139": [
  "partial",
  "REFUTED by C139_order_refuted (the total momentum after one step depends on which material comes first); C139_regroup proves it for all orders and groupings that keep the first material first, for runs of any length."
 ],
 "C140": [
  "partial",
  "REFUTED by C140_small_steps_refuted; C140_exact gives the exact factor of the pair and shows that the velocity does not grow exactly if dt^2 (K + 4/3 G) <= 4."
 ],
 "C141": [
  "partial",
  "REFUTED by C141_apart_refuted, for all moduli, speeds and stable time steps, with the exact factor. Bodies that share no node do not feel each other: C99, C103."
 ],
 "C142": [
  "partial",
  "REFUTED by C142_surface_refuted, for every evenly packed layer; C142_depth gives the density of every point of the layer as a function of its depth."
 ],
 "C143": [
  "partial",
  "REFUTED by C143_light_refuted, for every velocity; C143_step proves it, for any number of points and materials, when all nodes that the points touch are heavier than M_tol. C143_run proves it for any number of steps, when the added velocity makes a whole number of cells per step; otherwise the points lie elsewhere between the nodes, so that the two runs need not agree (C144)."
 ],
 "C144": [
  "partial",
  "REFUTED by C144_between_refuted, for every part of a cell below a quarter and every speed, with the exact factor; C144_cells proves it for shifts by whole cells, for any bodies, loads and numbers of steps."
 ],
 "C145": [
  "partial",
  "REFUTED by C145_meet_refuted, for every time step; C145_apart proves it, for any walls, bodies, loads and numbers of steps, while no node goes a sixteenth of a cell in a step. The sixteenth is not the best bound."
 ],
 "C146": [
  "partial",
  "REFUTED by C146_back_refuted, for every number of steps; C146_never describes the run of the two points for ever. Bodies whose points have one velocity do come back, since uniform motion is an exact solution (C55)."
 ],
 "C147": [
  "partial",
  "REFUTED for the motion by C147_jump_refuted, for every stress and every shift below a thousandth of a cell; C147_mass proves it for the nodal masses, with an explicit constant."
 ],
 "C148": [
  "partial",
  "REFUTED by C148_self_refuted, for every stress; C148_free proves it, for any bodies and numbers of steps, while all nodes that the points touch are heavier than M_tol. C08 is the balance of one step with walls and loads."
 ],
 "C149": [
  "partial",
  "REFUTED by C149_damped_refuted, for every gravity; C149_falls gives the exact momentum and centre of mass after any number of steps, with the factor of damping and the mass of the first material. C139 is about the other materials."
 ],
 "C150": [
  "partial",
  "REFUTED by C150_part_refuted, for any two velocities; C150_stuck proves the opposite for all bodies, walls, loads and numbers of steps, and that points in one state stay in one state. C145 is about points at different places."
 ],
 "C151": [
  "partial",
  "REFUTED by C151_kept_refuted for every gravity that is not zero; C151_loss proves the exact loss for all bodies of which all points touch heavy nodes only, without walls and damping. Energy of the motion about the centre of mass is not part of it (see C130 and the balances of energy)."
 ],
 "C152": [
  "partial",
  "C152_steps proves the part about the momentum and the exact difference of the centres of mass, for all bodies of which all points touch heavy nodes only. The part about the centre of mass is REFUTED by C152_place_refuted."
 ],
 "C153": [
  "proved",
  "For all bodies of which all points touch heavy nodes only; with damping 0.7 of the weight counts, as in C149. C149 is the case without walls, for all axes at once."
 ],
 "C154": [
  "proved",
  "For bodies of which all points touch heavy nodes only, without belts and without load along the axis; intruders (which keep their course, C105) and points of elastic_time (which lose mass, C131) are left out. With damping 0.7 of the weight counts. It is about the runs that do not fail; C102 and C113 tell which do not."
 ],
 "C155": [
  "partial",
  "REFUTED by C155_lands_refuted for every vertical velocity; C155_floor proves the opposite for all bodies that lie on the floor, for any number of steps."
 ],
 "C156": [
  "proved",
  "For bodies of which all points touch heavy nodes only; intruders and points of elastic_time are left out. Along each axis. The positions of points on a belt follow the belt, their momenta do not."
 ]
}