{"id": "C01", "title": "Shape functions form a partition of unity and reproduce position", "statement": "For any point of a cell (indeed any local coordinate), the four weights returned by Grid.N sum to 1, the four weight gradients sum to zero, the weights reproduce the local coordinate of the point and the gradients reproduce the identity; at a cell corner exactly one weight is 1 and the other three are 0; inside the cell all weights lie in [0,1].", "quantifier": "every cell size dx,dy != 0 and every local coordinate", "why_tests_cant": "ranges over a continuum of coordinates and cell sizes", "anchors": ["grid.py:Grid.N"]}
{"id": "C02", "title": "A particle inside the domain is assigned the cell that contains it", "statement": "For a particle with x_m <= x < x_M and y_m <= y < y_M, get_reference_node selects the lower-left node of the grid cell containing the particle, and the four neighbour indices used by every mapping are in range (no IndexError), pairwise distinct, and are the four corners of that cell.", "quantifier": "every grid extent and resolution (nx,ny >= 2), every particle position in the half-open domain", "why_tests_cant": "continuum of positions; off-by-one and row-wrap errors only show for particular positions", "anchors": ["particle.py:Particle.get_reference_node", "grid.py:Grid.nearby_nodes", "grid.py:Grid.__init__"]}
{"id": "C03", "title": "Position recovery check never reports a particle inside the domain as lost", "statement": "For every particle in the domain, recover_position returns exactly the particle position (in exact arithmetic), so the check_positions diagnostic never fires.", "quantifier": "every grid, every particle position in the half-open domain", "why_tests_cant": "continuum of positions", "anchors": ["particle.py:Particle.recover_position", "mplist.py:MatPointList.recover_position"]}
{"id": "C04", "title": "Nodal mass is the tent-function weighted sum of particle masses", "statement": "After get_nodal_mass_momentum on a wiped grid, the mass at every node equals the sum over all particles of (particle mass) x tent((x-X_n)/dx) x tent((y-Y_n)/dy), where tent(t)=max(0,1-|t|).", "quantifier": "every grid, every number of phases and particles, every in-domain positions and masses", "why_tests_cant": "unbounded number of particles and positions", "anchors": ["particle.py:Particle.get_nodal_mass_momentum", "mplist.py:MatPointList.get_nodal_mass_momentum"]}
{"id": "C05", "title": "Mapping to the grid conserves total mass and momentum", "statement": "Whenever mapping to the grid succeeds, total nodal mass equals total particle mass and total nodal momentum (before wall conditions) equals total particle momentum, componentwise.", "quantifier": "every particle list (any phases, any positions for which no IndexError is raised)", "why_tests_cant": "universally quantified over particle sets", "anchors": ["particle.py:Particle.get_nodal_mass_momentum"]}
{"id": "C06", "title": "Internal forces have zero resultant", "statement": "The nodal internal forces assembled by get_nodal_forces sum to zero whatever the stresses, and the external forces sum to the total particle weight sum(m*b).", "quantifier": "every particle list, every stress state", "why_tests_cant": "universally quantified over stress states and particle sets", "anchors": ["particle.py:Particle.get_nodal_forces", "mplist.py:MatPointList.get_nodal_forces"]}
{"id": "C07", "title": "Internal forces exert no torque when stresses are symmetric", "statement": "If every particle stress is symmetric and every particle lies in the domain, the total moment about the origin of the nodal internal forces (about the z axis) is zero.", "quantifier": "every particle list in the domain with symmetric stresses", "why_tests_cant": "universally quantified over states", "anchors": ["particle.py:Particle.get_nodal_forces"]}
{"id": "C08", "title": "One time step changes total particle momentum by exactly the applied impulse", "statement": "With no walls, no cyclic boundary, no damping and every touched node heavier than M_tol, one time step changes the total particle momentum by dt times the sum of particle body forces plus surface loads; with damping the change is scaled by 0.7.", "quantifier": "every particle state, every time step size", "why_tests_cant": "universally quantified; interplay of five loops", "anchors": ["particle.py:Particle.move_material_points", "grid.py:Grid.update_momentum", "MPM.py:time_march"]}
{"id": "C09", "title": "Cyclic boundaries make the left and right columns identical", "statement": "After make_cyclic on a field, each left-column node and the right-column node of the same row hold the sum of their two previous values and every other node is unchanged.", "quantifier": "every grid with nx >= 2 and every field", "why_tests_cant": "all grid sizes and contents", "anchors": ["grid.py:Grid.make_cyclic"]}
{"id": "C10", "title": "Wall masks mark exactly the requested walls", "statement": "With has_bottom/has_top/has_left/has_right/no_slip_bottom (and no other geometry option), a node is marked as restraining vertical flow exactly if it is in the bottom row with has_bottom or in the top row with has_top; and as restraining horizontal flow exactly if it is in the left column with has_left, the right column with has_right, or the bottom row with no_slip_bottom. boundary_tot is their union.", "quantifier": "every grid size and every combination of flags", "why_tests_cant": "all grid sizes", "anchors": ["grid.py:Grid.boundary"]}
{"id": "C11", "title": "Special wall geometries mark only the intended nodes", "statement": "wall marks a vertical wall in the middle column from the floor to mid-height; box marks the outline of a rectangle of nodes; silo_bottom marks only floor nodes, leaving an opening; silo_left marks only the column next to the left edge.", "quantifier": "every grid size", "why_tests_cant": "depends on nx,ny arithmetic; only some sizes expose it", "anchors": ["grid.py:Grid.boundary"]}
{"id": "C12", "title": "No flow through walls", "statement": "After update_momentum the momentum component normal to a wall is zero at every wall node, and with roughness (no wall_mu) the tangential component is zero as well.", "quantifier": "every particle state, every mask, every force", "why_tests_cant": "all states", "anchors": ["grid.py:Grid.update_momentum", "mplist.py:MatPointList.get_nodal_mass_momentum"]}
{"id": "C13", "title": "Wall friction opposes and never reverses tangential force, and acts only on walls that are pressed", "statement": "With roughness and wall_mu, the tangential force rate at a wall node is reduced in magnitude by at most mu times the normal one and never changes sign; it is applied only at nodes of declared walls where the normal force points into the wall.", "quantifier": "every force state and friction coefficient >= 0", "why_tests_cant": "all states", "anchors": ["grid.py:Grid.update_momentum"]}
{"id": "C14", "title": "Particles never leave a closed box under the CFL condition", "statement": "With walls on all four sides and no inlets/outlets, if each step moves material by less than one cell (dt*|u| < dx and dt*|v| < dy at every node heavier than M_tol), then a run of any length keeps every particle strictly inside the domain; hence no step raises IndexError.", "quantifier": "every history of steps, every law, every particle state strictly inside", "why_tests_cant": "unbounded histories", "anchors": ["MPM.py:time_march", "particle.py:Particle.move_material_points", "grid.py:Grid.update_momentum"]}
{"id": "C15", "title": "Nodal volumes tile the domain", "statement": "The nodal volumes sum to (x_M-x_m)*(y_M-y_m)*thickness when not cyclic; with cyclic_lr the coincident left/right columns both carry full weight.", "quantifier": "every grid extent and size, thickness", "why_tests_cant": "all grid sizes", "anchors": ["grid.py:Grid.volume"]}
{"id": "C16", "title": "Strain increment is exact for affine velocity fields and zero for rigid motion", "statement": "If the nodal velocities around a particle are an affine function of node position, v = v0 + A x, then update_strain yields dstrain = dt*(A+A^T)/2 in the plane; in particular uniform translation and rigid rotation give zero strain.", "quantifier": "every affine field, every in-domain particle, nodes heavier than M_tol", "why_tests_cant": "continuum of fields", "anchors": ["particle.py:Particle.update_strain"]}
{"id": "C17", "title": "Stress tensors stay symmetric for ever", "statement": "If every particle stress is symmetric initially, then after any number of time steps with any shipped law that completes, every particle stress is symmetric; strain increments are always symmetric.", "quantifier": "every history, every law", "why_tests_cant": "unbounded histories", "anchors": ["particle.py:Particle.update_stress", "constit.py"]}
{"id": "C18", "title": "Stress update is objective under rigid rotation", "statement": "The Lie-rate correction in update_stress rotates the stress with the material: for a pure spin velocity gradient W the stress increment is -(W s + s W^T) dt up to sign convention.", "quantifier": "every spin and stress", "why_tests_cant": "continuum", "anchors": ["particle.py:Particle.update_strain", "particle.py:Particle.update_stress"]}
{"id": "C19", "title": "Linear elasticity is Hooke's law", "statement": "The elastic law returns dstress with trace 3K tr(dstrain) and deviator 2G dev(dstrain); it is linear in dstrain and isotropic: rotating the strain increment rotates the stress increment.", "quantifier": "every strain increment, K and G, every orthogonal matrix", "why_tests_cant": "continuum", "anchors": ["constit.py:elastic"]}
{"id": "C20", "title": "Initial stress and strain are elastically consistent", "statement": "For pressure modes lithostatic and compression (and non-zero/temperature) the initial strain of a particle maps to its initial stress under the elastic relation K tr(e) I + 2G dev(e); the recorded pressure is tr(stress)/3 and dev_stress is trace free.", "quantifier": "every material, position and gravity", "why_tests_cant": "continuum of inputs", "anchors": ["particle.py:Particle.__init__"]}
{"id": "C21", "title": "Viscous law is Newtonian with elastic compressibility", "statement": "After update with law viscous, before convective correction the total stress equals pressure*I + 2 mu_s de/dt - mu_v (tr/3) I/dt, the pressure increment is K tr(dstrain)/3 and the deviator is trace-free.", "quantifier": "every strain increment and history of pressure", "why_tests_cant": "continuum", "anchors": ["constit.py:viscous"]}
{"id": "C22", "title": "Bingham law: continuous at the yield shear rate and never below the yield stress above it", "statement": "Above gamma_c the deviatoric stress norm is 2(mu_s*gammadot + tau_0); when gamma_c = tau_0/(mu_0-mu_s) the two branches agree at gamma_c.", "quantifier": "every strain increment and parameters", "why_tests_cant": "continuum, branch point", "anchors": ["constit.py:bingham"]}
{"id": "C23", "title": "Von Mises law saturates on the yield surface", "statement": "Deviatoric stress stays trace free; when the deviator lies on the yield surface (|s| = sqrt(2) k) and straining is proportional to it (loading), the deviatoric stress increment vanishes; total stress returned is deviator plus sigma_kk/3 I.", "quantifier": "every state on the yield surface, every exponent", "why_tests_cant": "continuum", "anchors": ["constit.py:von_mises"]}
{"id": "C24", "title": "Pouliquen mu(I) law is safe and non-cohesive", "statement": "For any finite particle state and dt>0 with array-valued mu_0, delta_mu, I_0 >= 0: the law never aborts with a non-finite stress; pressure afterwards is never tensile; limited viscosity is between 0 and eta_max; friction mu lies between mu_0 and mu_0+delta_mu whenever it is a number.", "quantifier": "every finite state including zero pressure and zero shear rate", "why_tests_cant": "singular cases 0/0, x/0 and all combinations", "anchors": ["constit.py:pouliquen"]}
{"id": "C25", "title": "linear_mu law keeps stresses finite", "statement": "For any finite state the linear_mu law returns a finite stress increment.", "quantifier": "every finite state", "why_tests_cant": "singular cases", "anchors": ["constit.py:linear_mu"]}
{"id": "C26", "title": "Drucker-Prager (dp) law can be run", "statement": "Selecting law dp lets a particle's stress be updated.", "quantifier": "every fresh particle", "why_tests_cant": "must hold for every input", "anchors": ["constit.py:dp", "particle.py:Particle.__init__"]}
{"id": "C27", "title": "Rate dependent Drucker-Prager law is finite for isotropic stress", "statement": "dp_rate returns a finite stress increment for an isotropic compressive stress (the state lithostatic start produces).", "quantifier": "every isotropic compressive stress", "why_tests_cant": "continuum", "anchors": ["constit.py:dp_rate"]}
{"id": "C28", "title": "elastic_time mass floor", "statement": "Under law elastic_time, a particle's mass is non-increasing in time, changes only for phase 0 after t_0, never falls below 0.95*rho_f*V once above rho_f*V, and stops changing once at or below rho_f*V.", "quantifier": "every history of steps", "why_tests_cant": "unbounded histories", "anchors": ["constit.py:elastic_time"]}
{"id": "C29", "title": "Gravity acts on every particle with magnitude |g| along the tilted vertical", "statement": "After update_forces every particle of every phase has body force (g sin theta, g cos theta, 0), of magnitude |g|, for the current g and theta.", "quantifier": "every phase, time and ramp function", "why_tests_cant": "all histories of time dependent gravity", "anchors": ["particle.py:Particle.increment_gravity", "mplist.py:MatPointList.update_forces"]}
{"id": "C30", "title": "Outlets remove exactly the particles that left the domain", "statement": "outlet_bottom removes exactly the particles with y < y_m, outlet_left exactly those with x < x_m; all others are kept unchanged and in order.", "quantifier": "every particle list", "why_tests_cant": "all lists; deletion while iterating", "anchors": ["mplist.py:MatPointList.outlet_left", "mplist.py:MatPointList.outlet_bottom"]}
{"id": "C31", "title": "Inlets add particles on schedule and at the documented place", "statement": "inlet_right appends one particle per row position at x_M - gap, inlet_top appends one particle in the middle of the domain; in a run with constant dt <= inlet_rate this happens exactly once per inlet_rate interval and never at t=0.", "quantifier": "every schedule", "why_tests_cant": "all times", "anchors": ["mplist.py:MatPointList.inlet_right", "mplist.py:MatPointList.inlet_top"]}
{"id": "C32", "title": "Cyclic wrapping returns particles to the domain and changes nothing else", "statement": "cyclic_lr maps every particle within one domain width of the domain to a position in [x_m,x_M] congruent modulo the width, leaves particles inside the domain untouched, and is idempotent on the result.", "quantifier": "every position within one width", "why_tests_cant": "continuum", "anchors": ["mplist.py:MatPointList.cyclic_lr"]}
{"id": "C33", "title": "Particle count bookkeeping", "statement": "At all times, P.S[p].n equals the number of particles stored for phase p, after any sequence of steps, inlets and outlets.", "quantifier": "every history", "why_tests_cant": "unbounded histories", "anchors": ["mplist.py", "MPM.py:time_march"]}
{"id": "C34", "title": "Particle mass and volume are constants of motion", "statement": "Except under elastic_time, no step changes the mass of any surviving particle, and no step ever changes a particle's volume; system mass changes only through inlets and outlets.", "quantifier": "every history, every law", "why_tests_cant": "unbounded histories", "anchors": ["MPM.py:time_march", "particle.py", "constit.py"]}
{"id": "C35", "title": "Particles have independent velocities", "statement": "Moving one particle changes only its own velocity, also when the phase declares an initial velocity.", "quantifier": "every phase with or without initial_v", "why_tests_cant": "aliasing of mutable arrays, depends on all particles", "anchors": ["particle.py:Particle.__init__", "particle.py:Particle.move_material_points"]}
{"id": "C36", "title": "Nodal grain size fractions are averages", "statement": "If every particle's fractions are non-negative and sum to 1, then at every node with mass the nodal fractions are non-negative, at most 1 and sum to 1, the mean size lies between the smallest and largest size, and at nodes without mass fractions are 0.", "quantifier": "every particle list in the domain", "why_tests_cant": "all lists", "anchors": ["mplist.py:MatPointList.get_nodal_mass_momentum"]}
{"id": "C37", "title": "Flux limiters are TVD limiters", "statement": "minmod and superbee return 0 when the slopes have opposite signs or either is 0; otherwise they have the common sign, |minmod| = min(|a|,|b|), min(|a|,|b|) <= |superbee| <= min(2 min(|a|,|b|), max(|a|,|b|)); both are symmetric and homogeneous.", "quantifier": "all slopes", "why_tests_cant": "continuum", "anchors": ["integrators.py:minmod", "integrators.py:maxmod", "integrators.py:superbee"]}
{"id": "C38", "title": "Segregation advection conserves each size class along each grid line", "statement": "For each size class, the Kurganov-Tadmor increments of integrators.KT sum to zero along every grid line: there is no flux through the ends.", "quantifier": "every field, velocity, dt, dx and line length", "why_tests_cant": "all fields and sizes", "anchors": ["integrators.py:KT", "integrators.py:BC", "integrators.py:pad_KT"]}
{"id": "C39", "title": "Segregation keeps the size fractions summing to one", "statement": "If fractions sum to 1 at each node then the increments computed by integrators.KT sum to zero over the classes at each node.", "quantifier": "every field", "why_tests_cant": "nonlinear limiter", "anchors": ["integrators.py:KT", "mplist.py:MatPointList.move_grainsize_on_grid"]}
{"id": "C40", "title": "Segregation diffusion conserves each size class", "statement": "The increments computed by integrators.Diffusion sum to zero over the grid for each class when all four walls are present; a uniform D*phi field gives no increment.", "quantifier": "every field", "why_tests_cant": "all fields", "anchors": ["integrators.py:Diffusion"]}
{"id": "C41", "title": "normalise_phi yields valid fractions", "statement": "After move_grainsize_on_grid with normalise_phi, every particle that had some positive fraction has fractions in [0,1] summing to 1.", "quantifier": "every increment field and particle", "why_tests_cant": "continuum", "anchors": ["mplist.py:MatPointList.move_grainsize_on_grid"]}
{"id": "C42", "title": "The main loop runs the right number of steps and calls hooks in order", "statement": "With static stepping dt>0 the loop of main executes exactly floor((t_f-t)/dt)+1 iterations for t<=t_f (0 otherwise), iteration k runs at time t0+k*dt, each iteration calls time_march, before_every_timestep, possibly after_every_nth_timestep, after_every_timestep in this order, and final_graphs is called exactly once at the end.", "quantifier": "every dt, t_f and hook behaviour", "why_tests_cant": "unbounded iteration counts", "anchors": ["MPM.py:main"]}
{"id": "C43", "title": "Output is saved exactly once per save interval, except at the first step", "statement": "With static dt <= savetime and exact arithmetic, after_every_nth_timestep is called exactly once in every save interval [k*savetime,(k+1)*savetime) that the run passes through; it is not called on the first time step.", "quantifier": "every dt and savetime", "why_tests_cant": "all step counts", "anchors": ["MPM.py:main"]}
{"id": "C44", "title": "Save schedule is immune to floating point accumulation", "statement": "The same holds when t is accumulated in binary64.", "quantifier": "every dt and savetime", "why_tests_cant": "rounding drift over thousands of steps", "anchors": ["MPM.py:main", "inputs/ball.py"]}
{"id": "C45", "title": "Dynamic time step respects the cell crossing condition", "statement": "After update_timestep, dt times the speed at any node is at most CFL*0.1*min(dx,dy), and dt is at most CFL times every phase's critical time; dt is positive and finite.", "quantifier": "every grid velocity field", "why_tests_cant": "all fields, zero velocity", "anchors": ["initialise.py:update_timestep"]}
{"id": "C46", "title": "Saved files are never overwritten within a run", "statement": "Successive calls of save_s_bar, save_density, save_u, save_phi_MP, draw_continuum and draw_material_points in any interleaving write to pairwise distinct file names.", "quantifier": "every sequence of output calls", "why_tests_cant": "unbounded histories", "anchors": ["plotting.py:Plotting"]}
{"id": "C47", "title": "Defaults never override user parameters and are complete", "statement": "get_parameters sets every optional parameter that the input file leaves out to its documented default, and leaves every parameter that the input file sets unchanged, apart from mode, phases, save_dir and O.energy, which are always computed.", "quantifier": "every input file (any set of attributes)", "why_tests_cant": "all attribute combinations", "anchors": ["initialise.py:get_parameters"]}
{"id": "C48", "title": "Grid gradient is exact for affine fields", "statement": "On a grid with no empty nodes calculate_gradient returns the exact gradient of any affine field at every node, and gammadot is exact for affine velocity fields.", "quantifier": "every affine field and grid size", "why_tests_cant": "continuum", "anchors": ["grid.py:Grid.calculate_gradient", "grid.py:Grid.calculate_gammadot"]}
{"id": "C49", "title": "Surface loads are equal and opposite", "statement": "vertical_force and horizontal_force add forces only on the bottom/top rows and left/right columns, proportional to nodal mass, pushing inwards on opposite sides with resultant 2q/(rho dy)*(M_bottom - M_top).", "quantifier": "every mass distribution", "why_tests_cant": "all states", "anchors": ["grid.py:Grid.BCs"]}
{"id": "C50", "title": "The conveyor belt moves at the belt speed", "statement": "After update_momentum with conveyor, nodes 2..nx-3 of the bottom row have x momentum exactly v_0 times their mass and the conveyor changes no other momentum.", "quantifier": "every state", "why_tests_cant": "all states", "anchors": ["grid.py:Grid.update_momentum"]}
{"id": "C51", "title": "Energies reported are physical", "statement": "Kinetic energy is non-negative and zero only at rest; for linear elastic consistent stress/strain the stored elastic energy is non-negative for K,G>=0; gravitational potential equals -m g |y| for level gravity.", "quantifier": "every particle state", "why_tests_cant": "continuum", "anchors": ["particle.py:Particle.energy"]}
{"id": "C52", "title": "A step does not depend on the previous grid", "statement": "The result of a time step depends only on the parameters, the particles and the wall masks: two grids with equal geometry and masks give equal results whatever their other contents.", "quantifier": "every pair of grids", "why_tests_cant": "relational property over all states", "anchors": ["grid.py:Grid.wipe", "MPM.py:time_march"]}
{"id": "C53", "title": "Particle order is irrelevant", "statement": "Permuting the particles of a phase permutes the results of a step and leaves the grid fields unchanged (exact arithmetic).", "quantifier": "every permutation", "why_tests_cant": "factorially many orders", "anchors": ["mplist.py", "particle.py"]}
{"id": "C54", "title": "Nodal velocities are averages of particle velocities; mapping dissipates kinetic energy", "statement": "At every node with mass the velocity before wall conditions lies between the smallest and largest velocity component of the particles, and the grid kinetic energy sum q^2/2m does not exceed the particle kinetic energy.", "quantifier": "every particle list in the domain", "why_tests_cant": "all lists", "anchors": ["particle.py:Particle.get_nodal_mass_momentum"]}
{"id": "C55", "title": "Uniform motion is an exact solution", "statement": "If all particles move with one common velocity, have zero stress, no gravity and no walls, one step translates every particle by dt*v and leaves velocities and stresses unchanged (for the elastic law).", "quantifier": "every particle list, velocity and dt", "why_tests_cant": "all lists", "anchors": ["MPM.py:time_march"]}
{"id": "C56", "title": "Yield triggered time step reduction happens once", "statement": "update_timestep of the particle list reduces dt and savetime by a factor 20 when a particle first yields.", "quantifier": "every history", "why_tests_cant": "histories", "anchors": ["mplist.py:MatPointList.update_timestep"]}
{"id": "C57", "title": "Stand-alone segregation solver conserves mass for uniform velocity", "statement": "new_integrator.KT with uniform segregation velocity inside the domain and zero padding gives increments summing to zero over the domain.", "quantifier": "every concentration profile and size", "why_tests_cant": "all profiles", "anchors": ["new_integrator.py:KT", "new_integrator.py:pad"]}
{"id": "C58", "title": "A step never aborts on well-formed states", "statement": "If the grid is proper, every particle is in the half-open domain, every phase's law finds the attributes it reads, and no segregation or inlets are active, then time_march (and one pass of the main loop) completes without raising an exception.", "quantifier": "every state, every load schedule, every fill-in for missing nodes", "why_tests_cant": "an exception may hide in any combination of positions, laws and boundary flags", "anchors": ["MPM.py:time_march", "MPM.py:main"]}
{"id": "C59", "title": "A body at rest without loads stays at rest", "statement": "If all particles have zero velocity and zero stress, gravity and surface loads are zero, then any number of steps leaves every position, velocity and stress unchanged (elastic law), whatever the walls.", "quantifier": "every particle list, every history", "why_tests_cant": "unbounded histories, all particle arrangements", "anchors": ["MPM.py:time_march", "constit.py:elastic", "grid.py:Grid.update_momentum"]}
{"id": "C60", "title": "Mapping to the grid conserves the centre of mass and the angular momentum", "statement": "After the nodal masses and momenta are assembled, sum x_k m_k and sum y_k m_k over the nodes equal the first moments of the particles, and with no wall nodes sum x_k q_yk - y_k q_xk equals the angular momentum of the particles.", "quantifier": "every list of particles in the domain, every grid size and spacing", "why_tests_cant": "unbounded lists, real-valued positions", "anchors": ["particle.py:Particle.get_nodal_mass_momentum", "mplist.py:MatPointList.get_nodal_mass_momentum"]}
{"id": "C61", "title": "Energy balance of a step", "statement": "In one step the internal nodal forces do exactly the work of the updated stresses on the strain increments; the kinetic energy of the nodes changes by dt times the work of the external forces minus the stress work, both scaled by the damping factor, plus dt^2 sum |qdot|^2/2m, walls included (no wall friction).", "quantifier": "every state with particles in the domain, every law with symmetric stress, every load schedule", "why_tests_cant": "an identity over all states; nodes below the mass threshold and wall nodes must drop out consistently", "anchors": ["MPM.py:time_march", "particle.py:Particle.update_strain", "particle.py:Particle.get_nodal_forces", "grid.py:Grid.update_momentum"]}
{"id": "C62", "title": "Free fall is an exact solution", "statement": "A stress-free elastic body moving with one velocity and no walls nearby gains exactly dt*g per step and moves by dt times the new velocity; no stress develops. With P.damping it gains 0.7 dt g.", "quantifier": "every particle list, velocity, tilt, g and dt", "why_tests_cant": "all lists", "anchors": ["MPM.py:time_march", "particle.py:Particle.increment_gravity", "grid.py:Grid.update_momentum"]}
{"id": "C63", "title": "Damping removes kinetic energy", "statement": "With P.damping a moving body loses kinetic energy.", "quantifier": "every state with nonzero velocities", "why_tests_cant": "all states", "anchors": ["grid.py:Grid.update_momentum"]}
{"id": "C64", "title": "A particle's density is the interpolated nodal density", "statement": "After a step without P.cyclic, the density of every non-rigid particle is the tent-weighted sum, over the four nodes of the cell it was in, of nodal mass over nodal volume, nodes at or below P.M_tol counting as empty. Hence it lies between any bounds on the nodal densities.", "quantifier": "every state with particles in the domain, every law but Rigid, every load schedule", "why_tests_cant": "all particle lists; the volume of edge and corner nodes must be the one used", "anchors": ["particle.py:Particle.move_material_points", "grid.py:Grid.volume", "MPM.py:time_march"]}
{"id": "C65", "title": "The NT scheme conserves every size class", "statement": "The increments NT returns for one size class add up to zero along every row (advection in x) and every column (advection in y) that begins and ends in a wall or empty node.", "quantifier": "every grid, number of sizes, field of fractions and pressure gradients, time step", "why_tests_cant": "all field values; the limiter has three regimes per neighbour pair", "anchors": ["integrators.py:NT", "integrators.py:flux", "integrators.py:pad_NT"]}
{"id": "C66", "title": "The NT scheme keeps the fractions summing to one", "statement": "At every node the increments NT returns for the size classes add up to zero.", "quantifier": "every number of sizes, every field of fractions that sum to one", "why_tests_cant": "all field values and class counts", "anchors": ["integrators.py:NT", "integrators.py:flux"]}
{"id": "C67", "title": "Without a gradient of kinetic pressure nothing segregates", "statement": "If P.G.grad_pk is zero at the nodes of a line, or P.dt is zero, the advective increments of the grain size fractions along it are zero.", "quantifier": "every field of fractions, both schemes", "why_tests_cant": "all field values", "anchors": ["integrators.py:KT", "integrators.py:KT_flux", "integrators.py:NT"]}
{"id": "C68", "title": "Advection never makes a fraction negative", "statement": "Under a Courant condition (no segregation speed crosses a quarter of a cell in a step) phi + KT(x) + KT(y) is nonnegative at every node when phi was.", "quantifier": "every grid, number of sizes, nonnegative field, pressure gradients within the bound", "why_tests_cant": "all field values; needs the slope limiter in every regime", "anchors": ["integrators.py:KT", "integrators.py:KT_flux", "integrators.py:increment_grainsize"]}
{"id": "C69", "title": "The KT scheme approximates the advection equation", "statement": "In a uniform mixture the increment of a class at an inner node is -dt*phi*(v_(i+1)-v_(i-1))/(2dx), v the segregation speed; where the speed is constant and the profile is linear it is exactly -dt*v*dphi/dx.", "quantifier": "every line length, spacing, mixture and pressure gradient", "why_tests_cant": "exactness over all profiles cannot be sampled", "anchors": ["integrators.py:KT", "integrators.py:KT_flux"]}
{"id": "C70", "title": "The nodal grain size is a mass-weighted mean of the sizes of the points", "statement": "After get_nodal_gsd every node heavier than P.M_tol holds the mean of the sizes of the points around, weighted by tent function and mass; so it lies between the smallest and the largest size. map_gsd_to_mp interpolates these values back.", "quantifier": "every list of points in the domain, all sizes and masses", "why_tests_cant": "all lists, real positions", "anchors": ["mplist.py:MatPointList.get_nodal_gsd", "particle.py:Particle.update_nodal_gsd", "particle.py:Particle.map_gsd_to_mp"]}
{"id": "C71", "title": "add_to_boundary marks the four nodes of the point's cell and no other", "statement": "After add_to_boundary the mask is true exactly at the corners of the cell containing the point.", "quantifier": "every grid and every point in the domain", "why_tests_cant": "all positions and grid sizes", "anchors": ["particle.py:Particle.add_to_boundary"]}
{"id": "C72", "title": "Normalising the increments moves no grain mass between classes", "statement": "normalise_phi_increment returns increments with the same total per size class as those it is given, and fractions in [0,1].", "quantifier": "every field of fractions and increments whose clipped total is nonzero", "why_tests_cant": "all field values", "anchors": ["integrators.py:normalise_phi_increment"]}
{"id": "C73", "title": "The limiters of the stand-alone solver are slope limiters", "statement": "vanLeer, vanAlbada1 and minmod2 return zero for slopes of opposite sign and otherwise a slope bounded by a fixed multiple of each argument.", "quantifier": "all real arguments", "why_tests_cant": "all real arguments", "anchors": ["new_integrator.py:vanLeer", "new_integrator.py:vanAlbada1", "new_integrator.py:minmod2"]}
{"id": "C74", "title": "The stand-alone solver keeps concentrations between 0 and 1", "statement": "Under a Courant condition an explicit step maps concentrations in [0,1] to concentrations in [0,1].", "quantifier": "every line length, profile and velocity field", "why_tests_cant": "all profiles", "anchors": ["new_integrator.py:KT", "new_integrator.py:Euler", "new_integrator.py:main"]}
{"id": "C75", "title": "Segregation keeps every fraction at most one", "statement": "Under the Courant condition of C68 phi + KT is at most one where the fractions are valid.", "quantifier": "every valid field of fractions", "why_tests_cant": "all field values", "anchors": ["integrators.py:KT", "integrators.py:KT_flux"]}
{"id": "C76", "title": "The nodal fields are mass-weighted sums of what the points' laws show", "statement": "After a step G.pressure, G.dev_stress, ... hold at every node the sum over the points of mass times tent value times the quantity shown by the law; divided by the nodal mass they lie between the extremes of that quantity. The pressure field has one sign convention.", "quantifier": "every grid, every list of phases and points, any of the laws", "why_tests_cant": "all lists, positions and laws", "anchors": ["constit.py", "mplist.py:MatPointList.update_stress_strain", "grid.py:Grid.wipe"]}
{"id": "C77", "title": "The mu(I) laws set the shear stress to friction times pressure", "statement": "pouliquen and linear_mu: the deviatoric stress lies along the shear strain increment and its size is mu(I) times the pressure, or the cap set by eta_max if smaller; mu(I) rises from mu_0 to mu_0+delta_mu (pouliquen) or as mu_0+b*I (linear_mu).", "quantifier": "every strain increment, pressure and material constants", "why_tests_cant": "real strains and pressures", "anchors": ["constit.py:pouliquen", "constit.py:linear_mu"]}
{"id": "C78", "title": "The law ken_kamrin resists shear", "statement": "The deviatoric stress lies along the shear strain increment, has the size mu(I) times the pressure up to the cap eta_max, and does not feed energy into the shear.", "quantifier": "every strain increment, pressure and material constants, either sign of P.max_g", "why_tests_cant": "real strains and pressures", "anchors": ["constit.py:ken_kamrin"]}
{"id": "C79", "title": "The law ken_simple has a friction coefficient mu_0", "statement": "The viscosity follows the current shear rate, so that the shear stress is bounded by mu_0 times the pressure.", "quantifier": "every point, every history of steps", "why_tests_cant": "depends on a field that no step sets; holds over all histories", "anchors": ["constit.py:ken_simple", "particle.py:Particle.__init__"]}
{"id": "C80", "title": "Segregation does not cross walls or empty nodes", "statement": "KT gives no increment at a node that is a wall or holds less mass than P.M_tol; bodies separated by such nodes keep their own grains.", "quantifier": "every grid, field of fractions, masses and gradients; every stretch of a row or column", "why_tests_cant": "all fields and all placements of empty nodes", "anchors": ["integrators.py:KT", "integrators.py:KT_flux"]}
{"id": "C81", "title": "The result does not depend on the origin of the coordinates", "statement": "Shifting the extents of the grid and the coordinates of all points by the same vector shifts the whole run: same exceptions, same velocities, stresses, fields and times of the output hooks, positions shifted.", "quantifier": "every shift, initial state, law, set of walls and options; every number of steps", "why_tests_cant": "all shifts and all histories; a test compares one shift up to rounding", "anchors": ["MPM.py:time_march", "MPM.py:main", "grid.py:Grid.__init__", "particle.py:Particle", "mplist.py:MatPointList"]}
{"id": "C82", "title": "A run never changes the mesh", "statement": "Node coordinates, spacings, node volumes, the boundary and the conveyor nodes stay as built in Grid.__init__, and so do the masks boundary_v and boundary_h.", "quantifier": "every reachable state, every number system (rounding included), law and option", "why_tests_cant": "all histories", "anchors": ["MPM.py:time_march", "grid.py:Grid.update_momentum", "grid.py:Grid.wipe"]}
{"id": "C83", "title": "The option box adds the four sides of a square to the other walls and removes none", "statement": "P.B.box adds to the masks the four sides of the square of nodes from column 4 to 8 and row 4 to 8, and nothing else: left and right sides stop horizontal motion, lower and upper sides vertical motion.", "quantifier": "every grid with at least nine rows and columns, every other wall option", "why_tests_cant": "all sizes of grid; the offsets mix rows and columns, which a test on a square grid cannot see", "anchors": ["grid.py:Grid.boundary", "grid.py:Grid.__init__"]}
{"id": "C84", "title": "A run computes the textbook material point scheme", "statement": "For elastic and viscous materials, without segregation, periodic ends, conveyors, inlets, outlets and wall friction, the points after n passes of the main loop (positions, velocities, stresses, pressures, masses, volumes) are those of the textbook scheme: nodal mass and momentum by tent functions summed over all points and all nodes, walls as projections, strain from gradients of the tent functions, stress from the material, forces from stress divergence and gravity, points moved with the nodal velocity after the update. The run raises no exception as long as the points of the scheme stay in the domain.", "quantifier": "every grid, number of points, phases, walls, loads without surface loads, every number of steps", "why_tests_cant": "refinement of loops over cells, corners and arrays by sums over all points and nodes, for all states and histories", "anchors": ["MPM.py:time_march", "MPM.py:main", "mplist.py:MatPointList", "particle.py:Particle", "grid.py:Grid", "constit.py:elastic", "constit.py:viscous"]}
{"id": "C85", "title": "The kinetic pressure that drives segregation is the pressure times the inertial number", "statement": "After Grid.update_pk, pk at a node is the pressure there times the inertial number of the flow (shear rate, mean size, solid density, pressure), zero where there is no pressure, never negative, the same for both directions of shear; grad_pk is its slope wherever it varies linearly. It is a number at every node.", "quantifier": "every grid field, grain size distribution and pressure; every number of nodes", "why_tests_cant": "all fields; empty nodes show up only in particular flows", "anchors": ["grid.py:Grid.update_pk", "grid.py:Grid.calculate_gradient", "MPM.py:time_march"]}
{"id": "C86", "title": "A run does not depend on the units", "statement": "Multiply all lengths (domain, positions), masses (points, M_tol) and times (dt) of a set-up by three positive factors, and moduli, viscosities, velocities, stresses, gravity by the factors of their units: after every number of steps the points of the second run are those of the first, converted.", "quantifier": "every three positive factors, grid, walls, elastic or viscous materials, gravity in every direction, every number of steps", "why_tests_cant": "all factors and all histories; a hidden constant with units shows up only at particular scales", "anchors": ["MPM.py:time_march", "MPM.py:main", "grid.py:Grid", "mplist.py:MatPointList", "particle.py:Particle", "constit.py:elastic", "constit.py:viscous"]}
{"id": "C87", "title": "The mirror image of a run is the run of the mirror image", "statement": "Reflect a set-up in the vertical middle line of the domain (points, velocities, stresses, walls, direction of gravity): after every number of steps the points of the second run are the reflections of the points of the first.", "quantifier": "every grid, set of points, walls, elastic or viscous materials, gravity in every direction, every number of steps", "why_tests_cant": "all set-ups and histories; points exactly on lines of nodes are a null set that random tests miss and regular initial layouts hit", "anchors": ["MPM.py:time_march", "particle.py:Particle.get_reference_node", "particle.py:Particle.get_basis_functions", "grid.py:Grid.N"]}
{"id": "C88", "title": "No direction is special but through walls and gravity", "statement": "Exchange x and y in a set-up (domain, number of columns and rows, points, walls, direction of gravity): after every number of steps the points of the second run are those of the first with x and y exchanged.", "quantifier": "every grid, set of points, walls, elastic or viscous materials, gravity in every direction, every number of steps", "why_tests_cant": "all set-ups and histories; row-column mix-ups are invisible on square grids", "anchors": ["MPM.py:time_march", "grid.py:Grid", "mplist.py:MatPointList", "particle.py:Particle"]}
{"id": "C89", "title": "initial_flow = steady starts a flow that is steady down the slope", "statement": "With P.initial_flow='steady', the velocity Particle.__init__ gives a point depends on its height only; at every height the shear stress of this flow (viscosity times shear rate, or mu(I) times the overburden) carries the weight component of the layer above up to y_M; gammadot is the derivative of the velocity; the velocity vanishes at the lower edge of the domain and points down the slope.", "quantifier": "every height, slope, gravity, density, viscosity, friction coefficients, grain size", "why_tests_cant": "a statement about derivatives at all heights, for all parameters", "anchors": ["particle.py:Particle.__init__"]}
{"id": "C90", "title": "initial_flow = steady_poiseulle starts the steady flow of a channel", "statement": "With P.initial_flow='steady_poiseulle', the velocity is a function of the distance to the nearer wall: zero at the walls, between wall and plug mu(I) of its slope equals shear stress over pressure, constant and continuous in the plug; no flow if the drive does not exceed the friction at rest.", "quantifier": "every channel height, drive, pressure, friction coefficients and grain size", "why_tests_cant": "a differential equation at all heights, for all parameters", "anchors": ["particle.py:Particle.__init__"]}
{"id": "C91", "title": "A run with cyclic_lr is the material point method on a cylinder", "statement": "With boundary.cyclic_lr and no other special option, after every number of passes of time_march the points are those which the textbook scheme gives on the cylinder obtained by glueing the left edge of the domain to the right one: one column of nodes fewer, tent functions reaching around, points that leave on one side coming back on the other; the two end columns of the grid carry the same mass, momentum and forces.", "quantifier": "every grid, set of points and materials of the elastic and viscous laws, walls along the floor and the ceiling, body forces, every number of passes", "why_tests_cant": "equality of whole histories with a scheme that has a different set of nodes; a wrong end column shows up only for points near the seam", "anchors": ["MPM.py:time_march", "grid.py:Grid.make_cyclic", "grid.py:Grid.BCs", "mplist.py:MatPointList"]}
{"id": "C92", "title": "Nothing resists a motion around the cylinder", "statement": "With cyclic_lr, the total momentum of the points in every direction without walls changes per pass by dt times damping times the total weight; points that all move with the same velocity without stress move on together, pass after pass, around the domain, whatever the number of times they cross the seam.", "quantifier": "every grid, set of points, number of passes and of crossings", "why_tests_cant": "sums over all points for histories of any length", "anchors": ["MPM.py:time_march", "grid.py:Grid.make_cyclic", "mplist.py:MatPointList.move_material_points"]}
{"id": "C93", "title": "The place of the seam does not matter", "statement": "With cyclic_lr and walls that are the same in all columns, carry all points a whole number of cells around the cylinder: after every number of passes the points are those of the first run, carried by as much.", "quantifier": "every grid, set of points, number of cells carried, number of passes", "why_tests_cant": "pairs of histories; the seam shows only in special positions", "anchors": ["MPM.py:time_march", "grid.py:Grid.make_cyclic", "mplist.py:MatPointList.cyclic_lr"]}
{"id": "C94", "title": "A filled domain starts with the declared density", "statement": "With the points that the input scripts place (a fixed number per cell and direction, in every cell) and the area per point they compute (area of the domain over the number of points, or area of a cell over the points in it), the mass of every node after the first step is exactly rho times the volume of the node, and the density of every point is rho; in a layer with empty cells above it so are the nodes below the surface, the nodes of the surface get half, those above nothing.", "quantifier": "every domain, number of nodes, points per cell, thickness, density, walls, open or joined ends", "why_tests_cant": "exact equality at all nodes for every resolution; the edges of the domain need weights of their own", "anchors": ["inputs/seg_unit_test.py:66-78", "inputs/silo.py:80-92", "mplist.py:MatPointList.__init__", "particle.py:Particle.__init__", "grid.py:Grid.__init__"]}
{"id": "C95", "title": "The area that a script gives to its points is the area they fill", "statement": "For each script that fills cells with points: the declared density is the density of the material when the run starts.", "quantifier": "the fills of incline.py and chuteflow.py, every domain and number of points", "why_tests_cant": "the run looks right; only the density, and with it the wave speed, is off by a factor that depends on the grid", "anchors": ["inputs/incline.py:81-93", "inputs/chuteflow.py:84-97"]}
{"id": "C96", "title": "A layer that starts under its own weight stays at rest", "statement": "A layer of points at rest with the stress of P.initial_pressure = 'lithostatic' and steady gravity does not move at all, in any number of passes: every position, velocity and stress stays exactly what it was. Between rough walls and on a rough or no-slip floor with joined ends this holds for every slope; between smooth walls on level ground. With another gravity g than the stress carries, each point gets dt (g - max_g) in the first pass.", "quantifier": "every domain, number of points per cell and rows, density, area per point, elastic or (level) viscous material, number of passes", "why_tests_cant": "exact balance at every node of the discrete scheme, for every resolution and number of steps; tests can show a small velocity only", "anchors": ["particle.py:Particle.__init__", "MPM.py:time_march", "grid.py:Grid.nodal_forces", "mplist.py:MatPointList.internal_forces"]}
{"id": "C97", "title": "Prescribed loads follow their path", "statement": "Gravity under the ramp of the scripts starts from zero, never overshoots P.max_g, never falls and approaches it; the loads of the unit tests rise together to P.max_q and then part with their sum unchanged, without a jump, and push at the sample as long as it runs.", "quantifier": "every time, characteristic time, target, number of passes", "why_tests_cant": "monotone for all times; sign of the load in the late part of a run", "anchors": ["inputs/triaxial.py:21-24", "inputs/dp_unit_test.py:23-30", "inputs/dp_rate_unit_test.py:23-30", "inputs/pouliquen_unit_test.py:22-30"]}
{"id": "C98", "title": "The surface load that acts is the one the script sets", "statement": "The load on the surfaces with vertical_force or horizontal_force is the P.q that the script's update_forces sets and the log prints.", "quantifier": "every script that sets P.q, every time", "why_tests_cant": "nothing fails; the sample is only loaded at once instead of slowly", "anchors": ["inputs/triaxial.py:21-24", "inputs/slope_stab.py:21-27", "grid.py:247", "initialise.py:21-22", "mplist.py:281"]}
{"id": "C99", "title": "Bodies that stay apart do not feel each other", "statement": "A body all of whose points stay at least two cells away, along one of the axes, from all other points has at every pass the positions, velocities and stresses it has in the run without the others.", "quantifier": "every subset of the points, elastic and viscous materials, walls, loads, any number of passes", "why_tests_cant": "needs pairs of runs for all arrangements; exact equality in spite of the shared grid", "anchors": ["MPM.py:time_march", "mplist.py", "grid.py:nearby_nodes"]}
{"id": "C100", "title": "Only the distribution of mass counts, not the number of points", "statement": "Replacing a point by any number of points at the same place and in the same state that share its mass and volume changes nothing: in every pass each of them has the position, velocity and stress of the point it replaces.", "quantifier": "every way to cut the points, each in proportions of its own; any number of passes", "why_tests_cant": "needs pairs of runs for all ways to cut; a weight that was not linear in the mass would only show in special cases", "anchors": ["MPM.py:time_march", "mplist.py:MatPointList.get_reference_node", "mplist.py:MatPointList.update_forces"]}
{"id": "C101", "title": "A step is exact for affine fields on a filled grid", "statement": "With the same number of points in every cell, and velocity, stress and pressure that depend linearly on the place: in a step every point one cell or more inside gets the stress that its law gives for the exact strain of the flow; every point two cells or more inside is accelerated by exactly body force plus divergence of the new stress over density, and moves with its new velocity. With a uniform stress (patch test) gravity alone acts.", "quantifier": "every grid, number of points per cell, height of the layer, affine field, time step, elastic or viscous material", "why_tests_cant": "consistency of the discretisation, for all fields and resolutions at once; a test samples one field", "anchors": ["MPM.py:time_march", "mplist.py:MatPointList.update_strain_rate", "mplist.py:MatPointList.internal_forces", "grid.py"]}
{"id": "C102", "title": "A run with any of eight materials, intruders, loads and belts is the material point scheme", "statement": "With open ends, after any number of passes the points are where the written-out scheme puts them, with its velocities, stresses, masses and memories: hat-function sums for nodal mass, momentum and force, the stress of each material from its own strain history, body force, surface loads in proportion to the nodal mass, belts that hold the nodes they touch, intruders that keep the prescribed velocity, and nodal density handed back to the materials that use it.", "quantifier": "every mixture of rigid, elastic, heated elastic, Von Mises, viscous, Bingham, Ken-Kamrin and Pouliquen phases, every grid and load history, any number of passes", "why_tests_cant": "the whole loop against an independent description, for all materials and states; a test compares one run with one number", "anchors": ["MPM.py:time_march", "mplist.py", "constit.py", "particle.py", "grid.py"]}
{"id": "C103", "title": "Bodies that stay apart do not feel each other, whatever they are made of", "statement": "A body whose points stay two cells away, along one of the axes, from all other points has at every pass the positions, velocities, stresses, masses and memories it has in the run without the others, under loads, above belts and with intruders.", "quantifier": "every subset of the points, the eight materials of C102, any number of passes", "why_tests_cant": "needs pairs of runs for all arrangements and materials", "anchors": ["MPM.py:time_march", "mplist.py", "constit.py", "grid.py:nearby_nodes"]}
{"id": "C104", "title": "Only the distribution of mass counts, whatever the material", "statement": "Replacing a point by any number of points at the same place and in the same state that share its mass and volume changes nothing: in every pass each has the position, velocity, stress and memory of the point it replaces and its share of the mass, also when the mass decays with time.", "quantifier": "every way to cut the points, the eight materials of C102, any number of passes", "why_tests_cant": "needs pairs of runs for all ways to cut and all materials", "anchors": ["MPM.py:time_march", "mplist.py", "constit.py"]}
{"id": "C105", "title": "An intruder keeps its course", "statement": "The points of a rigid phase move on straight lines with the velocity given in the input, whatever they meet: after n passes they have moved by n time steps times that velocity, and keep mass and volume.", "quantifier": "every state, every number of passes, every mixture of the materials of C102", "why_tests_cant": "for all states and numbers of passes; a test runs one intruder", "anchors": ["MPM.py:time_march", "particle.py:Particle.move_rigid_points", "mplist.py:MatPointList.move_rigid_points", "constit.py:rigid"]}
{"id": "C106", "title": "A change is felt at most five cells further after every pass", "statement": "If two simulations with the same settings start with the same points within c + 5n cells of a place, and no point moves a cell or more in one pass, then after n passes they have the same points in the same state within c cells of that place, whatever the rest of the domain contains.", "quantifier": "all pairs of simulations of C102, all places, distances and numbers of passes", "why_tests_cant": "needs pairs of runs for all arrangements; any hidden global coupling would break it", "anchors": ["MPM.py:time_march", "mplist.py", "grid.py:nearby_nodes"]}
{"id": "C107", "title": "A run with joined ends and any of eight materials is the material point scheme on a cylinder", "statement": "With cyclic_lr, after any number of passes the points are where the scheme written out on a cylinder puts them: the first and the last column of nodes are one, points near one end feel those near the other, intruders, belts and vertical surface loads act as without joined ends, and points that leave through one end come back at the other.", "quantifier": "every mixture of rigid, elastic, heated elastic, Von Mises, viscous, Bingham, Ken-Kamrin and Pouliquen phases, every grid with equal walls at both ends and every load history, any number of passes", "why_tests_cant": "needs all materials and states, and points on both sides of the seam at once; a test compares one run with one number", "anchors": ["MPM.py:time_march", "mplist.py:make_cyclic", "mplist.py:cyclic_lr", "grid.py:make_cyclic", "constit.py", "particle.py"]}
{"id": "C108", "title": "The saved fields show the stress and the shear rate of the material", "statement": "G.pressure and G.dev_stress hold, per point and unit mass, the mean and the norm of the deviator of the stress the law gives the point, G.dev_stress_dot the rate of that deviator, G.gammadot the deviatoric strain increment over the time step, and G.eta the viscosity the stress was computed with.", "quantifier": "all materials, stresses, strain increments and time steps", "why_tests_cant": "the relation between what is drawn and what is computed must hold for all states; a test of one output cannot tell a stress from something equal to it once", "anchors": ["constit.py:von_mises", "constit.py:viscous", "constit.py:bingham", "constit.py:ken_kamrin", "constit.py:pouliquen", "constit.py:linear_mu", "constit.py:ken_simple"]}
{"id": "C109", "title": "Runs that choose their own time steps compute the scheme", "statement": "With P.time_stepping = 'dynamic', the points after n passes are those of the material point scheme in which every step takes the time step chosen from the speeds of the nodes at the end of the step before: CFL times the smallest of the critical times of the materials and of the time in which the fastest node crosses a tenth of a cell. The fastest node is one that carries velocity, and no point crosses more than a tenth of a cell in a pass.", "quantifier": "all states, eight materials, loads, belts, intruders, numbers of passes", "why_tests_cant": "a run is a sequence of choices that depend on each other; tests see one sequence and cannot tell which nodes limit the step", "anchors": ["MPM.py:main", "MPM.py:time_march", "initialise.py:update_timestep", "grid.py:update_momentum"]}
{"id": "C110", "title": "Segregation leaves the motion alone", "statement": "Switching on P.segregate_grid changes the size fractions and nothing else within a step: positions, velocities, stresses, masses and densities of all points are those of the material point scheme. For the materials whose laws do not read the fractions (all but pouliquen) whole runs with and without segregation move the same points along the same paths, and runs with segregation do not fail.", "quantifier": "all states, eight materials (runs: seven), any fractions, sizes and segregation constants, numbers of passes", "why_tests_cant": "segregation writes grid and particle arrays between the momentum update and the move; a test sees two runs agree for one set-up and cannot exclude that a nodal array used by the move is overwritten in another", "anchors": ["MPM.py:time_march", "integrators.py:increment_grainsize", "mplist.py:move_grainsize_on_grid", "particle.py:map_phi_to_mp"]}
{"id": "C111", "title": "Segregation keeps the total mass of every size class", "statement": "A step with P.segregate_grid moves grains between places but the sum over the points of m*phi[i] stays the same for every class i, when no point enters, leaves or sheds mass.", "quantifier": "all states, materials, classes, grids; normalise_phi off", "why_tests_cant": "fractions, nodal increments and weights combine over all nodes and points; a test with a symmetric layout passes although the increments are not weighted by the mass of the nodes", "anchors": ["integrators.py:increment_grainsize", "integrators.py:KT", "particle.py:map_phi_to_mp", "mplist.py:move_grainsize_on_grid", "MPM.py:time_march"]}
{"id": "C112", "title": "Segregation respects the ends of the grid", "statement": "With P.segregate_grid, the nodal viscosity G.eta at an end of the grid shows only the points near that end unless the ends are joined; and if they are joined (cyclic_lr) the mixtures of the grains do not depend on where.", "quantifier": "all states, grids and materials; one step", "why_tests_cant": "make_cyclic is called for one field whatever the boundary, and not called for the fractions; a test with one end empty or with grains far from both ends sees nothing", "anchors": ["MPM.py:time_march", "grid.py:make_cyclic", "mplist.py:get_nodal_mass_momentum"]}
{"id": "C113", "title": "Runs of grains do not fail", "statement": "The grain laws (pouliquen, linear_mu, ken_simple) succeed exactly on points that carry a fraction for every size class with a size and, for pouliquen, friction parameters for each class, and a few numbers; with these a run of grains and other materials never fails while its points stay in the domain.", "quantifier": "all points, materials and grids at the law; all states, numbers of passes and mixes of the eight materials of the scheme for the runs", "why_tests_cant": "the laws read lists class by class and stop the run if a stress is not finite; tests with one set of lists cannot show that the lists stay long enough over a run, with segregation changing them", "anchors": ["constit.py:pouliquen", "constit.py:linear_mu", "constit.py:ken_simple", "MPM.py:time_march", "MPM.py:main"]}
{"id": "C114", "title": "Rounding does not spoil what the grid gets", "statement": "When every floating-point operation is rounded with relative error at most u, the node coordinates, the cell a point is put into, its weights and the sums on the grid are all computed wrongly, yet each node's mass and momentum is the exact tent-weighted sum up to a stated multiple (of order u times the number of points near the node plus u times nx^2) of what the points within two cells of it have, and the total mass is that of the points up to the same kind of factor. A node's mass can be negative, but only by that much. Nothing fails as long as points keep a rounding away from the right and upper ends.", "quantifier": "all rounding functions with relative error u, all resolved grids, all sets of points and phases", "why_tests_cant": "a test compares floats with a tolerance it guesses; no test covers the points that sit so close to a node that rounding puts them into the wrong cell, for all grids", "anchors": ["grid.py:Grid.__init__", "grid.py:N", "particle.py:get_reference_node", "particle.py:get_basis_functions", "particle.py:get_nodal_mass_momentum", "mplist.py:get_nodal_mass_momentum"]}
{"id": "C115", "title": "Saved tables show the step just made", "statement": "Called after a step, save_density writes a table of ny rows and nx columns whose entry at a node is the mass gathered there divided by the volume that belongs to the node, so that the table times these volumes sums to the mass of all points, on a plain grid and on one with joined ends. save_u writes the velocities that the step moved the points with: the displacement of every point is dt times the interpolation of the two tables. save_s_bar of a run with segregation writes the mass-weighted mean size of the grains around each node, between the smallest and the largest size. save_phi_MP writes one row per point, position then fractions, phase by phase.", "quantifier": "all grids, all phases and points in the domain, all options of the step (plain ends for the velocities), every law", "why_tests_cant": "a test looks at one file of one run; that the layout, the weights and the stage of the step at which the table is taken fit together for every run is not observable from one file", "anchors": ["plotting.py:save_s_bar", "plotting.py:save_density", "plotting.py:save_u", "plotting.py:save_phi_MP", "MPM.py:time_march"]}
{"id": "C116", "title": "Saved tables agree along the seam, hold numbers and show the grains", "statement": "The table of save_s_bar has the same size at the two ends of a row of a cylinder, which are one line; save_u writes a number at every node; save_s_bar shows the sizes of the grains whether or not they segregate. All three are false.", "quantifier": "all runs", "why_tests_cant": "the tables are only looked at as pictures", "anchors": ["plotting.py:save_s_bar", "plotting.py:save_u", "MPM.py:time_march", "grid.py:make_cyclic", "grid.py:wipe"]}
{"id": "C117", "title": "A run with a dynamic time step ends", "statement": "With dynamic_dt the main loop reaches the final time: the time step never becomes so small that the clock stops. False: a stressed point that lies exactly on a line of nodes gives force but no mass to the nodes on its other side, their infinite velocity sets the time step to about 5e-310, and the run goes on for ever without changing anything. It does end, within a stated number of passes, as long as no node is faster than some V.", "quantifier": "all numbers of passes of the binary64 run; all runs with bounded nodal velocities", "why_tests_cant": "a test that never ends tells nothing, and a test with another position of the point ends", "anchors": ["initialise.py:update_timestep", "MPM.py:main", "grid.py:update_momentum", "particle.py:get_nodal_forces"]}
{"id": "C118", "title": "A picture of the grid puts things where they are", "statement": "The cells of every pcolormesh panel are centred on the nodes they show, and the green pluses, red crosses and red pluses of draw_grid lie on the nodes that are free, on the walls that stop the flow up and down and on those that stop it to the left and right. False as to the marks: coordinates are multiplied by the masks, so every node that is not of a kind is marked as well, at the point (0, 0).", "quantifier": "all grids with at least two nodes a side, all boundaries", "why_tests_cant": "a picture is looked at, not compared with the masks, and the common grids are square", "anchors": ["plotting.py:draw_grid", "grid.py:__init__"]}
{"id": "C119", "title": "The panels of draw_continuum show what their titles say", "statement": "Each panel of draw_continuum shows, at every node with mass, the quantity of its title: density, velocity, size of the shear rate, stresses per mass, gradient of the shear rate; nodes without mass stay blank; and a run that works can be drawn. False: the panel |gammadot| shows the signed rate divided by the mass for most laws, the panels of its gradient are always zero, and a Bingham run without eta_max steps but cannot be drawn.", "quantifier": "all states, all laws, all nodes", "why_tests_cant": "a wrong factor of the nodal mass is invisible in a picture whose colour scale adapts", "anchors": ["plotting.py:draw_continuum", "grid.py:calculate_grad_gammadot", "grid.py:wipe"]}
{"id": "C120", "title": "The discs of draw_gsd_mp show the grain sizes", "statement": "The wedges of each disc of draw_gsd_mp sit at the point, follow each other without gap or overlap, each spans the share of its size, and together they close the circle when the shares add up to one.", "quantifier": "all points, all lists of shares", "why_tests_cant": "the angles are computed one from another, so an error shows only for particular lists", "anchors": ["plotting.py:draw_gsd_mp"]}
{"id": "C121", "title": "draw_gamma_dot shows the shear rate of the points", "statement": "For every point the colour of draw_gamma_dot is the rate of shear at that point during the last step. False for all but the elastic laws: the others store a rate where the picture expects an increment, and the picture divides by the time step once more.", "quantifier": "all points, all laws", "why_tests_cant": "needs the meaning of an attribute that each law writes in its own way", "anchors": ["plotting.py:draw_gamma_dot", "constit.py:viscous"]}
{"id": "C122", "title": "The pictures of draw_gsd_grid show the grains of the nodes", "statement": "At every node that is not lighter than M_tol the first picture of draw_gsd_grid shows the mean grain size and the picture of each size its share; the shares are between zero and one and add up to one, the mean lies between the smallest and the largest size, and the other nodes are blank. False for joined ends: a node of the seam that no point touches has the mass of its partner, so it is drawn, with no grains at all.", "quantifier": "all states after a step with segregation, all nodes", "why_tests_cant": "needs every arrangement of points, and the blank nodes of a picture are not compared with masses", "anchors": ["plotting.py:draw_gsd_grid", "mplist.py:get_nodal_mass_momentum", "grid.py:make_cyclic"]}
{"id": "C123", "title": "The energy table has a row for every time step", "statement": "With nt = int(t_f/dt), as the scripts set it, the table P.O.energy that measure_energy asks for has exactly one row for every step: a hook that stores energy[P.tstep] never fails, and at the end every row has been written once, with the time of its step. True in exact arithmetic. False with rounding: steps of 0.1 until 0.6 are seven for six rows (IndexError), steps of 0.01 until 0.06 are six for seven rows.", "quantifier": "all runs with a fixed time step from time zero", "why_tests_cant": "depends on the rounding of t_f/dt and of the sum of the time steps, so only some pairs of numbers fail", "anchors": ["initialise.py:get_parameters", "MPM.py:main", "plotting.py:draw_energy", "inputs/anisotropy.py"]}
{"id": "C124", "title": "RK4 integrates the stress to fourth order", "statement": "RK4(func, dstrain, stress) is the increment, over a unit of time, of the solution of ds/dt = func(dstrain, s): exact when func does not look at the stress, up to a fifth derivative of the solution over 120 when it is linear in the stress, and it keeps every linear combination of the entries that func keeps. The dp law does not depend on the speed: a strain k times as large changes the stress k times as fast.", "quantifier": "all laws that are linear in the stress, all stresses and strains", "why_tests_cant": "the order is a statement about a limit, and the weights 1, 2, 2, 1 can be wrong without any step failing", "anchors": ["constit.py:RK4", "constit.py:dp"]}
{"id": "C125", "title": "A Drucker-Prager point resists deformation", "statement": "Once the friction coefficient of the point is known, straining a point of a dp phase changes its stress. False: wherever the stress in the plane is isotropic, zero included, the direction of the shear stress is 0/0 and nan_to_num turns the whole increment into zero, so that a point that starts without stress carries none for ever.", "quantifier": "all points of dp phases with isotropic stress, all strains, all parameters", "why_tests_cant": "needs the propagation of NaN through a formula, for all strains", "anchors": ["constit.py:dp", "particle.py:update_stress"]}
{"id": "C126", "title": "Rounding when the points are moved", "statement": "Moving a point with every operation rounded to relative error u (binary64: 2^-53) gives it the true motion up to a stated error: its place differs from the old place plus the time step times the tent-weighted mean of momentum over mass of all nodes by at most ((1+u)^4-1) times the old place, plus astray times the time step times the largest speed of a node; its velocity likewise with forces over masses. astray depends only on u and on how far the grid is from the origin in cells, and is below 1e-9 for a grid of four by three unit cells.", "quantifier": "all roundings, grids, points clear of the right and upper ends, nodal masses, momenta and forces", "why_tests_cant": "the bound is over all places of a point and all nodal values, and includes points that rounding puts in the neighbouring cell", "anchors": ["particle.py:move_material_points", "particle.py:get_reference_node", "particle.py:get_basis_functions"]}
{"id": "C127", "title": "A dp point at yield stays at yield while it is loaded", "statement": "Where the stress of a dp point is on the yield surface q = mu p and the strain loads it, the law keeps it there. False: the plastic multiplier (constit.py:178-179) is divided by 3 G mu p^2 + beta q^2 where the condition needs K beta q^2, so that the yield function changes at the rate X mu^2 (1-K)/(3G+mu^2), X > 0 the loading: zero only if K is 1, and negative for the K of any material, however hard it is sheared.", "quantifier": "all stresses on the surface, all strains, all K, G, mu and exponents s, all paths of stresses that follow the law", "why_tests_cant": "a dimensional slip in one term; no run fails, the material is only too weak", "anchors": ["constit.py:dp"]}
{"id": "C128", "title": "The relaxation of dp_rate does not depend on the time step", "statement": "Within the yield surface dp_rate is elastic. Beyond it the point relaxes in the time t_star of the material. False: the plastic strain of constit.py:261-262 is a rate that is added once per step without the factor P.dt, so that a point that is not strained loses the same stress in every step whatever the step is: halving P.dt doubles the speed of the relaxation.", "quantifier": "all points, materials, strains and time steps", "why_tests_cant": "no single run shows it: two runs with different steps have to be compared, for all states", "anchors": ["constit.py:dp_rate"]}
{"id": "C129", "title": "K is the bulk modulus of every law", "statement": "Two materials with the same K answer the same small change of volume with the same change of mean stress. False: the solids (elastic, von_mises, dp, dp_rate) answer a volumetric strain with K times it, viscous, bingham and ken_kamrin with a third of that, as they multiply K by the mean of the diagonal of the strain rather than by its trace.", "quantifier": "all points, strains, moduli and time steps", "why_tests_cant": "a factor shared by a family of laws; each run is plausible on its own", "anchors": ["constit.py:elastic", "constit.py:viscous", "constit.py:bingham", "constit.py:ken_kamrin"]}
{"id": "C130", "title": "Viscous stresses take energy out of the motion", "statement": "The part of the stress that is due to viscosity does work against the motion: its product with the strain increment is never negative, and a stress-free point that is compressed ends under compression. False: viscous, bingham and ken_kamrin subtract the volumetric viscosity mu_v where they should add it, so that it feeds every change of volume, and for mu_v > K dt a compressed point ends under tension.", "quantifier": "all points, strains, viscosities and time steps", "why_tests_cant": "a sign error in a term that is small in the shipped set-ups; needs all strains", "anchors": ["constit.py:viscous", "constit.py:bingham", "constit.py:ken_kamrin"]}
{"id": "C131", "title": "The drainage of elastic_time does not depend on the time step", "statement": "After t_0 a point of the first phase loses its excess mass at a rate that belongs to the material, so that two runs with different time steps agree at the same time. False: the law multiplies the mass by 0.95 in each call, whatever P.dt is; runs with different steps have different masses at every common time.", "quantifier": "all materials, masses, times, all pairs of time steps", "why_tests_cant": "no single run shows it: two runs with different steps have to be compared", "anchors": ["constit.py:elastic_time"]}
{"id": "C132", "title": "A von_mises point stays within its yield surface", "statement": "The deviatoric stress of a von_mises point never exceeds sqrt(2) k. It holds while the point is strained in one direction in small steps. False otherwise: the law steps along the tangent of the surface, so that every loading that is not straight along the deviator takes the point beyond it, and straining across the deviator is not resisted at all: in steps as small as one likes it takes the deviator beyond any bound.", "quantifier": "all points, materials, exponents, all sequences of strains of any length", "why_tests_cant": "depends on whole strain paths; straight paths, which a test would use, behave", "anchors": ["constit.py:von_mises"]}
{"id": "C133", "title": "Unloading a von_mises point is elastic", "statement": "Strain that takes a von_mises point back from its yield surface changes the stress by 2 G times the strain. False: the absolute value of the work in constit.py:130 gives the plastic term the sign of loading, so that the point is stiffer by the factor 1 + r^s when it is unloaded, r the stress relative to yield: twice as stiff at yield.", "quantifier": "all points, materials, exponents and unloading strains along the deviator", "why_tests_cant": "a test of loading up to yield passes; needs reversals at all stress levels", "anchors": ["constit.py:von_mises"]}
{"id": "C134", "title": "The stress of an elastic point is Hooke's law of its strain", "statement": "An elastic point that starts free of stress and strain and is back at zero strain is back at zero stress. False: update_stress adds -(L s + s L_T) dt with L = L_T = twice the rate of strain, so that stretching by e and pushing back by e leaves a stress; over and over, it grows towards a quarter of the stiffness K + 4G/3, whatever e is, with MP.strain zero after every cycle.", "quantifier": "all elastic materials, all small strains, any number of cycles", "why_tests_cant": "one cycle leaves a stress of second order that any tolerance hides; the growth needs unboundedly many", "anchors": ["particle.py:update_stress", "particle.py:update_strain", "constit.py:elastic"]}
{"id": "C135", "title": "The angular momentum of a free body is kept", "statement": "A body of elastic or viscous points away from walls, without loads and with symmetric stresses, has the same angular momentum before and after a step. False: the nodal forces act with the lever of the mass that the node gets, which is not that of the node, so that a body at rest with a stress in one of its points starts to spin, in first order of the time step. Points without nodal forces keep their angular momentum, whatever their velocities.", "quantifier": "all bodies of elastic and viscous points, all positions, velocities, stresses and grids", "why_tests_cant": "the exact change is a sum over all nodes; symmetric set-ups, the ones that are easy to test, hide it", "anchors": ["particle.py:get_nodal_mass_momentum", "particle.py:get_nodal_forces", "particle.py:move_material_points"]}
{"id": "C136", "title": "A point moves with the velocity it carries", "statement": "A point whose velocity MP.v is not zero moves, by about MP.v * dt in a step, and P.damping takes its kinetic energy away. False: points move with the velocity of the grid, and three points of one material at one height in one cell have velocities in any direction of which no node gets to know; without stresses and loads they keep these velocities and their places for ever, with or without damping, and the energy table keeps counting them.", "quantifier": "all plain runs of any length, all masses and places of three points in a row in a cell", "why_tests_cant": "the statement is about every number of steps and about all places and masses", "anchors": ["particle.py:get_nodal_mass_momentum", "particle.py:move_material_points"]}
{"id": "C137", "title": "Grains that are apart do not press against each other", "statement": "In pouliquen (above 0.8 of the density of the material), linear_mu and ken_simple, a point whose volume is larger than at the start, where it had no pressure, has no pressure. False: the pressure is cut off at zero and forgets by how much, so that after any history it is K times the compression since the moment at which the grains were furthest apart; grains pulled apart and pushed part of the way back press against each other.", "quantifier": "all histories of strain of any length, the three granular laws", "why_tests_cant": "histories are unbounded sequences of arbitrary strains; a test sees one of them", "anchors": ["constit.py:pouliquen", "constit.py:linear_mu", "constit.py:ken_simple"]}
{"id": "C138", "title": "A slope below the angle of friction stays at rest", "statement": "A point of a granular material, or of a Bingham fluid, that does not move keeps the shear stress that its friction or its yield stress allows. False: the shear stress of viscous, bingham, ken_kamrin, pouliquen, linear_mu and ken_simple is proportional to the rate of shear of the step, so that a point that is at rest for one step has lost all of it; to carry a shear stress, grains have to creep at least at the rate stress / eta_max.", "quantifier": "all stresses and parameters of the six laws", "why_tests_cant": "the statement is about all states of stress, and holds of every point of every slope", "anchors": ["constit.py:pouliquen", "constit.py:linear_mu", "constit.py:ken_simple", "constit.py:bingham", "particle.py:update_stress"]}
{"id": "C139", "title": "The order of the materials does not matter", "statement": "Whatever the order in which the materials of P.S and the points of each material are listed, a run gives the same points. False for the materials: increment_gravity acts on the material with number 0 only, so that when gravity is switched on after the start, the same points fall at another speed once the two materials are listed in the other order. It holds for the points of a material, and for the materials behind the first: they can be listed in any order and shared out in any way.", "quantifier": "all runs of the plain scheme, with any number of materials, points and steps", "why_tests_cant": "the statement compares all orders of all lists of points over runs of any length", "anchors": ["particle.py:increment_gravity", "mplist.py:MatPointList.increment_gravity", "MPM.py:time_march"]}
{"id": "C140", "title": "Points that move by a small part of a cell per step give a stable run", "statement": "A time step in which no point moves by more than a small part of a cell, which is what the default update_timestep asks for (initialise.py:106-116) when no material has a critical_time, does not make the velocities grow. False: two elastic points of one cell that approach each other have 1 - dt^2 (K + 4/3 G) / 2 times their velocity after one step, for unit cells and points of unit density in the cell, whatever the distance they move; for every bound on the distance and every factor there is a body whose velocities all grow by the factor in one step.", "quantifier": "all bounds on the distance moved per step, all factors of growth, all elastic moduli, time steps and velocities of the pair", "why_tests_cant": "the statement is about all time steps and all stiffnesses; a test uses one of each", "anchors": ["initialise.py:update_timestep", "MPM.py:time_march", "constit.py:elastic"]}
{"id": "C141", "title": "Bodies that move apart do not pull each other", "statement": "Two bodies that touch or are close, that carry no stress and that move away from each other, go on as they are. False while they share a cell: the points of all materials share the nodal velocities, so that both bodies are stretched and pull each other back, as if they were glued; both are slower after a step, by the factor 1 - dt^2 (M1 + M2) / 4 with the moduli M = K + 4/3 G of the two bodies.", "quantifier": "all pairs of elastic moduli, speeds and stable time steps", "why_tests_cant": "the statement holds for all moduli and speeds, and no run of a few bodies shows the factor", "anchors": ["particle.py:update_strain", "grid.py:update_momentum", "mplist.py:MatPointList.update_stress_strain"]}
{"id": "C142", "title": "An evenly packed layer carries its weight up to its surface", "statement": "The points of a layer that fills its cells evenly have the density of their material, so that the grains of the law pouliquen keep their pressure (constit.py:455 takes the pressure of points with MP.rho < 0.8 P.S[p].rho). False within a cell of a free surface: the density that move_material_points computes is the nodal mass over the whole volume of the node, of which half is empty at the surface, so that it is (1 + t) / 2 of that of the material at t < 1 cells below the surface; grains less than 3/5 of a cell below the surface lose all of their pressure in every step.", "quantifier": "all grids, layers of any number of rows, any number of points per cell, all materials, stresses and strains", "why_tests_cant": "the statement is about layers of all sizes and points at all depths", "anchors": ["particle.py:move_material_points", "constit.py:pouliquen", "inputs/incline.py", "grid.py:Grid"]}
{"id": "C143", "title": "A moving observer sees the same motion", "statement": "Add one velocity to all points of a body away from walls: the step moves the points as before, but for that velocity, and gives the same stresses. False if a point touches a node that gets no more mass than M_tol, since such a node counts as at rest: a point without stress that stays as it is when at rest is squeezed when it moves. It holds when all nodes that the points touch are heavier.", "quantifier": "all bodies of elastic and viscous points of any number of materials, all velocities and loads; one step", "why_tests_cant": "the statement compares all bodies at all velocities, of which a test tries a few", "anchors": ["MPM.py:time_march", "particle.py:update_strain", "particle.py:move_material_points", "grid.py:update_momentum"]}
{"id": "C144", "title": "Where a body lies between the nodes does not matter", "statement": "Set a body down elsewhere, away from walls: it does as before, but for the shift. False: two elastic points that approach each other in a cell and that are set down a part d of a cell further on get stresses 1 / (1 - 4 d^2) times as large in a step. It holds for shifts by whole cells, over any number of steps.", "quantifier": "all bodies of elastic and viscous points of any number of materials, all shifts, loads and numbers of steps", "why_tests_cant": "the statement compares runs from all places, of any length", "anchors": ["MPM.py:time_march", "particle.py:update_strain", "particle.py:move_material_points", "particle.py:get_basis_functions"]}
{"id": "C145", "title": "Points at different places stay at different places", "statement": "Two material points never come to lie at one place. False for long steps: two points that approach each other in one cell so fast that the nodes of the cell go half a cell in the step end at the same place, whatever the time step. It holds, for any walls, loads, materials and numbers of steps, while no node goes a sixteenth of a cell in a step.", "quantifier": "all bodies of elastic and viscous points of any number of materials, all walls, loads and numbers of steps", "why_tests_cant": "the statement ranges over all pairs of points of all bodies in runs of any length", "anchors": ["MPM.py:time_march", "particle.py:move_material_points", "particle.py:get_basis_functions", "grid.py:update_momentum"]}
{"id": "C146", "title": "A run without friction can be run backwards", "statement": "Points without stiffness, walls and loads: turn all velocities round after n steps, and n more steps bring every point back to its place. False for every n: two points that approach each other in one cell keep their velocities for ever and never meet, and when they are turned round they end closer to each other than they were at the start.", "quantifier": "two points at any distance within a cell, with all speeds and time steps for which they do not meet in the first step; all numbers of steps", "why_tests_cant": "the statement is about runs of every length", "anchors": ["MPM.py:time_march", "particle.py:move_material_points", "mplist.py:get_nodal_mass_momentum", "grid.py:update_momentum"]}
{"id": "C147", "title": "A small shift of a point changes little", "statement": "Move points by a small distance: what a step gives changes by little. False for the motion: a stressed point at rest that lies on a column of nodes is pushed to one side, and next to the column, as close as one likes, it is pushed to the other side equally hard. It holds for the masses of the nodes, which change by at most eps (1/dx + 1/dy) times the mass of the body when points move by at most eps.", "quantifier": "all bodies, all shifts (masses); every stress and every shift below M_tol (motion)", "why_tests_cant": "continuity is about all small shifts at once", "anchors": ["MPM.py:time_march", "particle.py:get_basis_functions", "mplist.py:get_nodal_mass_momentum", "mplist.py:get_nodal_forces"]}
{"id": "C148", "title": "A free body keeps its momentum and its centre of mass its course", "statement": "Without walls and loads, the momentum of a body stays the same for ever and its centre of mass moves on a straight line with constant velocity. False if points touch nodes that get no more mass than M_tol: a stressed point at rest, alone in the domain, sets itself in motion. It holds for any number of steps, with or without damping, while all nodes that the points touch are heavier.", "quantifier": "all bodies of elastic and viscous points of any number of materials, with any stresses and velocities; all numbers of steps", "why_tests_cant": "the statement is about bodies of any size and runs of any length", "anchors": ["MPM.py:time_march", "mplist.py:get_nodal_mass_momentum", "mplist.py:get_nodal_forces", "particle.py:move_material_points"]}
{"id": "C149", "title": "A body falls as a mass point does", "statement": "Under constant gravity and away from walls, the momentum of a body grows by its weight times the time and its centre of mass follows the discrete parabola, whatever the points of the body do to each other. False with P.damping, with which a body falls with 0.7 of the gravity that the script sets, and for all materials but the first, which gravity does not pull. The exact law, with both factors, holds for any number of steps while all nodes that the points touch are heavier than M_tol.", "quantifier": "all bodies of elastic and viscous points of any number of materials, with any stresses and velocities, any gravity and slope; all numbers of steps", "why_tests_cant": "the statement is about bodies of any size and runs of any length", "anchors": ["MPM.py:time_march", "mplist.py:update_forces", "mplist.py:get_nodal_forces", "particle.py:move_material_points", "grid.py:update_momentum"]}
{"id": "C150", "title": "Points at one place that have different velocities part", "statement": "Two points at one place with different velocities MP.v are at different places after a step. False for all bodies: points move with the velocity of the grid at their place, so that two points that have once come to one place stay together for ever, whatever their velocities, stresses and materials. Two points in the same state stay in the same state.", "quantifier": "all bodies of elastic and viscous points of any number of materials, all walls, loads, velocities and numbers of steps", "why_tests_cant": "the statement is about all pairs of points in runs of any length", "anchors": ["MPM.py:time_march", "particle.py:move_material_points", "particle.py:get_basis_functions"]}
{"id": "C151", "title": "A falling body keeps its energy", "statement": "Without walls and damping the energy of the centre of mass of a body, of its motion and of its height, is the same at all times of a run under constant gravity. False: it falls by n dt^2 M g^2 / 2 in n steps of length dt, whatever the body is made of and whatever it does while it falls, so that the loss in a given time goes with the time step.", "quantifier": "all bodies of elastic and viscous points, all directions of constant gravity, all numbers of steps", "why_tests_cant": "the loss is a formula in all time steps, masses and numbers of steps", "anchors": ["MPM.py:time_march", "particle.py:move_material_points", "mplist.py:update_forces"]}
{"id": "C152", "title": "How a body falls does not depend on the time step", "statement": "Two runs of one body under constant gravity with different time steps show the same momentum and the same centre of mass at the same time. Half true: the momentum at a given time is the same for all time steps and all grids, but the centres of mass differ by half the time that has passed times the difference of the time steps times the weight.", "quantifier": "all bodies of elastic and viscous points without walls, all directions of constant gravity, all pairs of time steps, grids and numbers of steps", "why_tests_cant": "it compares runs for all pairs of time steps", "anchors": ["MPM.py:time_march", "particle.py:move_material_points", "mplist.py:update_forces"]}
{"id": "C153", "title": "A body slides along a smooth wall as if the wall were not there", "statement": "On a grid with any walls, none of which holds the motion along one axis (a floor without roughness and no_slip_bottom does not hold the motion along x), a body under constant gravity of any direction gains along this axis the momentum that its weight gives it, and its centre of mass follows as that of a mass point does, whatever the body does to the wall and however it deforms. Holds for bodies of which all points touch heavy nodes only.", "quantifier": "all bodies of elastic and viscous points of any number of materials, all grids, walls, directions of gravity and numbers of steps", "why_tests_cant": "the statement is about all bodies, all walls and runs of any length", "anchors": ["MPM.py:time_march", "grid.py:BCs", "mplist.py:update_forces", "particle.py:move_material_points"]}
{"id": "C154", "title": "The centre of mass moves in the same way whatever the material", "statement": "A body of elastic, von_mises, viscous, bingham, ken_kamrin and pouliquen points, in any mixture of phases, on a grid with any walls none of which holds the motion along one axis: along this axis the body gains in every step the momentum that its weight gives it, and its centre of mass follows, whatever stresses the materials have or develop. Holds without belts and without load along the axis, for bodies of which all points touch heavy nodes only.", "quantifier": "all bodies of points of these laws, all states of stress and memories, all walls, directions of gravity and numbers of steps", "why_tests_cant": "the statement is about all materials and runs of any length", "anchors": ["MPM.py:time_march", "constit.py:von_mises", "constit.py:bingham", "constit.py:pouliquen", "particle.py:get_nodal_forces", "particle.py:move_material_points"]}
{"id": "C155", "title": "A floor takes the velocity of what lies on it", "statement": "A point that lies on the floor y = y_m of the domain has no velocity into the floor after a step, and a point on the floor with an upward velocity leaves it. False for all materials: the floor holds the nodes, and points gain velocity from the nodes by increments only, so that points that all lie on the floor keep both their height and their vertical velocities for ever, whatever these velocities, the loads and the stresses.", "quantifier": "all bodies of points of eight laws without intruders that lie on a floor, all loads and numbers of steps", "why_tests_cant": "the statement is about all velocities, materials and runs of any length; MP.v and the kinetic energy of such a point look like those of a moving one", "anchors": ["grid.py:BCs", "particle.py:move_material_points", "MPM.py:time_march"]}
{"id": "C156", "title": "What a body loses to the walls is the force on their nodes", "statement": "After any number of steps the momentum of a body of elastic, von_mises, viscous, bingham, ken_kamrin and pouliquen points, in any mixture of phases, is what it was at the start, plus what its weight and the loads of vertical_force and horizontal_force have given it, less the forces on the nodes that the walls hold, each times the time step; with damping all of them count by 0.7. Nothing else takes momentum: not the stresses, not the belts, not the moving of points between cells. Holds for bodies of which all points touch heavy nodes only.", "quantifier": "all bodies of points of these laws, all walls, loads, belts and numbers of steps", "why_tests_cant": "the statement is about all materials, walls and runs of any length", "anchors": ["MPM.py:time_march", "grid.py:BCs", "grid.py:update_momentum", "particle.py:get_nodal_forces", "particle.py:move_material_points"]}
