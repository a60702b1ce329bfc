#!/usr/bin/env python3
"""Writes /verif/properties.jsonl (source of truth for the property list)."""
import json, os
P = []
def p(title, statement, quantifier, why, anchors):
    P.append(dict(id="C%02d" % (len(P)+1), title=title, statement=statement,
                  quantifier=quantifier, why_tests_cant=why, anchors=anchors))

ANYRUN = "every material, geometry, option set, incident particle, random-number stream and floating-point semantics for which the call returns"
RND = "depends on the random stream and on unboundedly many collisions; a test fixes one stream and one length"

p("Every returned particle is finished, in exactly one way, and the geometry agrees",
  "When single_ion_bca returns, each particle in the result is either stopped or left, never both and never neither; a particle marked left is outside the simulation boundary at its final position, and a particle marked stopped is inside the simulation boundary and the energy barrier with energy below its cutoff energy.",
  ANYRUN, RND, ["src/bca.rs:single_ion_bca", "src/material.rs:boundary_condition_planar"])
p("The incident ion is the first and only incident particle returned, with its identity preserved",
  "The result of single_ion_bca on an incident ion is non-empty; its first element is that ion (same mass, charge, cutoff, binding energies, origin, starting energy, weight, tag, tracked vector, interaction index and tracking flag) and every other element is a non-incident recoil.",
  ANYRUN, RND, ["src/bca.rs:single_ion_bca", "src/particle.rs:Particle"])
p("Every recoil comes from one target species and carries the ion's weight, tag and tracked vector",
  "Each recoil returned was created inside the material, has mass, charge, cutoff, surface binding and displacement energies and interaction index of one and the same target species, started with energy strictly above its cutoff, and carries the weight, tag and tracked vector of the ion that was passed in, through any number of generations.",
  ANYRUN, RND, ["src/bca.rs:single_ion_bca", "src/bca.rs:choose_collision_partner", "src/material.rs:choose"])
p("With recoil tracking off exactly one particle comes back",
  "If options.track_recoils is false, single_ion_bca returns a list of exactly one particle, the ion.",
  ANYRUN, RND, ["src/bca.rs:single_ion_bca"])
p("single_ion_bca accepts any particle",
  "single_ion_bca returns normally for a particle that is already stopped or has already left (it should be handed back unchanged).",
  "every already-finished particle", "tests only pass fresh particles; the failing path needs a particle that is already finished",
  ["src/bca.rs:single_ion_bca"])
p("Trajectories are append-only histories that end where the particle ended",
  "A particle's trajectory only grows at the end; if its trajectory flag is off it is never extended; if it is on, the last trajectory point of a returned particle is its final position and energy. Energy-loss records are appended only for incident particles with track_energy_losses on.",
  ANYRUN, RND, ["src/particle.rs:update_trajectory_tracker", "src/particle.rs:update_energy_loss_tracker", "src/material.rs:boundary_condition_planar"])
p("Every accepted particle is eventually stopped or leaves",
  "For every particle accepted by Particle::from_input, single_ion_bca terminates.",
  "every accepted particle and every random stream", "non-termination can only be excluded or exhibited for all step counts; a test can only time out",
  ["src/bca.rs:single_ion_bca", "src/geometry.rs:Mesh0D", "src/particle.rs:from_input"])
p("Energies never become negative",
  "In exact arithmetic, with positive masses and non-negative surface binding energies, every particle ever returned or queued has non-negative energy.",
  "every run in real arithmetic", RND, ["src/bca.rs:single_ion_bca", "src/bca.rs:subtract_electronic_stopping_energy", "src/material.rs:surface_binding_energy"])
p("A collision transfers between nothing and the kinematic maximum",
  "calculate_binary_collision reports a recoil energy T with 0 <= T <= 4 Ma Mb/(Ma+Mb)^2 E <= E.",
  "all positive masses, non-negative energies, all potentials, integrals and impact parameters", "continuum of masses, energies and angles",
  ["src/bca.rs:calculate_binary_collision"])
p("A collision conserves energy and momentum in the laboratory frame",
  "Rotating the projectile by psi and the recoil by -psi_recoil about the same azimuth, with energies E-T and T, conserves total momentum as a vector and total kinetic energy.",
  "all positive masses and energies, all centre-of-mass angles with 0 < theta < pi, all azimuths, all unit directions that are not along the x axis", "continuum of inputs; unit tests compare a few numbers to a tolerance",
  ["src/bca.rs:calculate_binary_collision", "src/particle.rs:rotate", "src/particle.rs:get_momentum"])
p("Laboratory angles agree with the centre-of-mass angle",
  "For 0 < theta <= pi the reported recoil angle is pi/2 - theta/2, psi and psi_recoil lie in [0, pi], and tan(psi) = sin(theta)/(Ma/Mb + cos(theta)) whenever the denominator is non-zero.",
  "all positive mass ratios and angles", "continuum of inputs", ["src/bca.rs:calculate_binary_collision"])
p("Deflection keeps directions normalised and turns them by exactly psi",
  "Particle::rotate(psi, phi) on a unit direction not along x gives a unit direction whose angle with the old one has cosine cos(psi), and leaves every other field alone.",
  "all unit directions with |cos x| < 1, all psi, phi", "continuum of inputs", ["src/particle.rs:rotate", "src/structs.rs:Vector"])
p("Transport never reaches the excluded gimbal-lock direction",
  "A direction accepted by Particle::from_input (not along the x axis) is never turned by deflection into a direction along the x axis.",
  "all accepted directions and all deflections", "the failing set has measure zero and random tests never hit it", ["src/particle.rs:rotate", "src/particle.rs:from_input"])
p("The collision partner sits one free path ahead at one impact parameter's distance",
  "The recoil chosen by choose_collision_partner is at pos + mfp*dir plus an offset perpendicular to dir whose length is the impact parameter.",
  "all unit directions not along x, all azimuths, impact parameters and free paths", "continuum of inputs; at normal incidence the error vanishes", ["src/bca.rs:choose_collision_partner"])
p("Free flight is along the pre-collision direction and path lengths telescope",
  "Each step moves the particle by (mfp + previous deflection - new deflection) along the direction it had before the collision; over any number of steps the total path equals the sum of the mean free paths plus first minus last asymptotic deflection.",
  "all step sequences", "unbounded number of steps", ["src/particle.rs:advance"])
p("Crossing the planar surface barrier is exact refraction",
  "surface_refraction of a unit direction at a unit normal keeps the direction a unit vector, changes the energy by exactly Es, preserves the momentum tangential to the surface and makes the outgoing normal energy equal the incoming normal energy plus Es.",
  "all unit directions and normals, all energies with E > 0 and E cos^2 + Es >= 0, E + Es > 0", "continuum of inputs", ["src/particle.rs:surface_refraction"])
p("Entering and leaving through the same surface restores the particle",
  "Refracting in through a normal with Es and then out through the same normal with -Es restores energy and direction when the particle moves along the normal.",
  "all unit directions with non-negative normal component and all E > 0, Es >= 0", "continuum of inputs", ["src/particle.rs:surface_refraction"])
p("The surface barrier decides by normal energy and charges exactly the binding energy",
  "A particle crossing the barrier outwards while moving away from the surface escapes iff its leaving energy (E cos^2, or E for the isotropic model) exceeds the surface binding energy; escaping costs exactly that energy; otherwise it is specularly reflected with unchanged energy, unit direction and reversed normal component, and is marked so that its re-entry costs and gains nothing.",
  "all particles, geometries and surface models", "continuum of inputs and geometry shapes", ["src/material.rs:surface_binding_energy"])
p("A particle reflected by the surface moves back towards the material in the next step",
  "After the surface barrier reflects a particle, its next displacement has a positive component towards the material.",
  "all reflected particles", "needs two consecutive steps with a reflection in between; observable only as a statistical bias", ["src/material.rs:surface_binding_energy", "src/particle.rs:advance"])
p("Entering the material never turns a particle around",
  "A particle that enters through the surface barrier keeps moving into the material after refraction.",
  "all entering particles and free path lengths", "only fails when one step carries the particle past the surface plane", ["src/material.rs:surface_binding_energy", "src/particle.rs:surface_refraction"])
p("Electronic stopping removes min(E, loss), and what it reports bounds what it removes",
  "subtract_electronic_stopping_energy leaves the particle with max(0, E - loss) inside the material and unchanged outside; the reported loss is never less than the energy actually removed.",
  "all particles, materials, stopping modes and path lengths", "continuum of inputs", ["src/bca.rs:subtract_electronic_stopping_energy"])
p("Reported energy losses add up to the energy lost",
  "For every step, the recorded nuclear plus electronic loss equals the drop of the particle's energy in that step.",
  "all steps inside the material", "fails only on the last, clamped step of a trajectory", ["src/bca.rs:single_ion_bca", "src/bca.rs:subtract_electronic_stopping_energy", "src/particle.rs:update_energy_loss_tracker"])
p("Collision geometry sampling stays in its annuli",
  "determine_mfp_phi_impact_parameter returns weak_collision_order + 1 geometries (one with free flight paths); azimuths are in [0, 2 pi); without free flight paths the k-th impact parameter lies in [pmax sqrt k, pmax sqrt(k+1)) with pmax = mfp/sqrt(pi), all share one path length, and that length is the mean free path, scaled down only on the first step and by the gaseous factor.",
  "all materials, options, particles and random streams with values in [0,1)", "all random streams", ["src/bca.rs:determine_mfp_phi_impact_parameter"])
p("The density-threshold mean free path model is honoured",
  "With THRESHOLD{density}, free paths are exponentially distributed wherever the total density is below the threshold.",
  "all densities below the threshold", "needs every option combination; only one of three code paths looks at the threshold", ["src/bca.rs:determine_mfp_phi_impact_parameter", "src/enums.rs:MeanFreePathModel"])
p("Species are drawn with their concentrations",
  "With concentrations that are non-negative and sum to one, choose() succeeds for every random number in [0,1), and returns species i exactly when the random number lies in the i-th concentration interval, whose length is concentration i.",
  "all concentration vectors, all random numbers", "all random numbers and list lengths", ["src/material.rs:choose", "src/material.rs:get_cumulative_concentrations"])
p("Choosing a species never fails in double precision",
  "For concentrations computed by the geometry constructors from positive densities, choose() never panics.",
  "all positive density vectors and all doubles in [0,1) that the generator can return", "probability about 1e-16 per draw", ["src/material.rs:choose", "src/geometry.rs:Mesh0D"])
p("Averages and surface binding energies follow the documented models",
  "average_Z, average_mass and average_bulk_binding_energy lie between the least and greatest species value; the surface binding energy is the particle's (INDIVIDUAL), the concentration average or zero (TARGET), or the mean of both or zero (AVERAGE), and is non-negative.",
  "all materials and concentrations", "all list lengths and values", ["src/material.rs:actual_surface_binding_energy", "src/material.rs:average_Z"])
p("The AVERAGE surface model is zero when the target's local binding energy is zero",
  "With AVERAGE, if the concentration-weighted target surface binding energy at the point is zero, the result is zero.",
  "all materials and positions", "needs a species with non-zero Es and zero local concentration", ["src/material.rs:actual_surface_binding_energy", "src/enums.rs:SurfaceBindingCalculation"])
p("The bulk binding model option is honoured",
  "With bulk_binding_model INDIVIDUAL the energy given to a recoil is reduced by that species' own bulk binding energy.",
  "all multi-species materials", "single-species tests cannot tell the two models apart", ["src/material.rs:actual_bulk_binding_energy", "src/bca.rs:single_ion_bca"])
p("minimum_cutoff_energy is the minimum",
  "minimum_cutoff_energy returns the least cutoff energy of the material's species.",
  "all non-empty lists of non-negative cutoffs", "all list lengths and values", ["src/material.rs:minimum_cutoff_energy"])
p("Electronic stopping scales with the correction factor",
  "In the low-energy modes every stopping cross-section is proportional to the correction factor, positive for positive inputs, and one is returned per species; in the interpolated mode a larger factor does not decrease it.",
  "all materials, particles and modes", "continuum of inputs", ["src/material.rs:electronic_stopping_cross_sections"])
p("Inside implies inside the barrier implies inside the simulation boundary",
  "For each of the 0D, 1D, sphere, ball and 2D geometries with positive barrier thickness, every point inside the material is inside the energy barrier, and (0D, 1D, sphere, ball) every point inside the barrier is inside the simulation boundary.",
  "all points and all constructible geometries", "continuum of points", ["src/geometry.rs:Mesh0D", "src/geometry.rs:Mesh1D", "src/geometry.rs:Mesh2D", "src/sphere.rs:Sphere", "src/parry.rs:ParryBall"])
p("Layer lookup in a 1D mesh is total and unambiguous",
  "A Mesh1D accepted by its constructor has layers that tile (top, bottom] without gap or overlap, so every getter returns the data of exactly one layer and never panics, at any x.",
  "all layer counts and thicknesses, all x", "all layer counts", ["src/geometry.rs:Mesh1D", "src/geometry.rs:Layer1D"])
p("A 1D mesh keeps every layer of its input",
  "If the Mesh1D constructor accepts an input, the mesh has as many layers as the input and its bottom is the sum of all thicknesses.",
  "all inputs", "only shows for inputs with a short correction factor list", ["src/geometry.rs:Mesh1D"])
p("closest_point returns a nearest point of the surface",
  "For 0D, 1D and sphere geometries closest_point returns a point of the material surface at least as near as every other surface point.",
  "all query points (except the centre of a sphere)", "continuum of points", ["src/geometry.rs:Mesh0D", "src/geometry.rs:Mesh1D", "src/sphere.rs:Sphere", "src/parry.rs:ParryBall"])
p("Triangle containment is containment",
  "Triangle2D::contains(x, y) holds exactly when (x, y) is a convex combination of the three vertices.",
  "all non-degenerate triangles and all points", "continuum of points", ["src/geometry.rs:Triangle2D"])
p("Triangle distance is the distance to the triangle's outline",
  "Triangle2D::distance_to(x, y) is attained by a point of one of the three sides and no point of any side is nearer; it panics exactly when a side has zero length.",
  "all triangles and points", "continuum of points", ["src/geometry.rs:Triangle2D"])
p("2D mesh lookups return the containing or the nearest cell",
  "Inside the boundary polygon, Mesh2D getters return the data of the first cell containing the point and panic exactly when no cell contains it; outside they return the data of a cell at least as near as every other.",
  "all meshes, points and polygon predicates", "all mesh sizes", ["src/geometry.rs:Mesh2D"])
p("Concentrations are a probability vector",
  "Concentrations computed by every geometry constructor from non-negative densities with positive sum are non-negative and sum to one.",
  "all density lists", "all list lengths and values", ["src/geometry.rs:Mesh0D", "src/geometry.rs:Mesh1D", "src/geometry.rs:Mesh2D", "src/sphere.rs:Sphere", "src/material.rs:get_cumulative_concentrations"])
p("Screening functions and their derivatives agree",
  "For every screened potential, dphi is the derivative of phi at every point, phi is positive and strictly decreasing, and phi(0) = 1.",
  "all screened potentials, all distances", "continuum of points", ["src/interactions.rs:phi", "src/interactions.rs:dphi"])
p("The derivative handed to the root finders is the derivative of the function handed to them",
  "diff_distance_of_closest_approach_function is the derivative of distance_of_closest_approach_function (in the variable the solver iterates on), and likewise for the singularity-free pair, for every potential that has one.",
  "all potentials with a derivative, all positive distances and parameters", "continuum of points; finite differences cannot separate a small wrong term from rounding", ["src/interactions.rs:diff_distance_of_closest_approach_function", "src/interactions.rs:diff_distance_of_closest_approach_function_singularity_free"])
p("Roots of the distance-of-closest-approach functions are classical turning points",
  "For every potential V handled by a root finder and every r > 0, the distance-of-closest-approach function vanishes at r exactly when 1 - V(r)/Er - (p/r)^2 = 0.",
  "all potentials, energies, impact parameters and distances", "continuum of inputs", ["src/interactions.rs:distance_of_closest_approach_function", "src/interactions.rs:doca_four_eight"])
p("Polynomial coefficients encode the turning point equation",
  "For the inverse-polynomial potentials, t >= 0 is a root of the polynomial returned by polynomial_coefficients exactly when inverse_transform(t) is a classical turning point.",
  "all energies, impact parameters, potentials of that kind and distances", "continuum of inputs", ["src/interactions.rs:polynomial_coefficients", "src/interactions.rs:inverse_transform"])
p("The Coulomb closed form is the turning point",
  "The distance of closest approach used for the COULOMB potential satisfies the turning point equation and is the only positive solution.",
  "all charges, energies and impact parameters", "continuum of inputs", ["src/bca.rs:distance_of_closest_approach", "src/interactions.rs:coulomb"])
p("Newton's method only reports converged answers",
  "newton_rootfinder returns Ok(x) only if the last of at most max_iterations Newton steps had squared length below the tolerance, and Err otherwise; for the screened potentials the turning point it looks for is unique.",
  "all inputs and iteration counts", "all iteration counts", ["src/bca.rs:newton_rootfinder", "src/interactions.rs:doca_function"])
p("Head-on collisions are handled",
  "newton_rootfinder succeeds for impact parameter zero at low reduced energy.",
  "all screened potentials with reduced energy at most 5", "an impact parameter of exactly zero has probability about 1e-16 per draw", ["src/bca.rs:newton_rootfinder"])
p("crossing_point_doca is the outermost zero of the potential",
  "For the Lennard-Jones and Morse potentials V vanishes at crossing_point_doca, is positive below and negative above.",
  "all parameters", "continuum of inputs", ["src/interactions.rs:crossing_point_doca", "src/interactions.rs:lennard_jones", "src/interactions.rs:morse"])
p("Quadratures give no deflection when there is no potential",
  "The Gauss-Mehler quadrature with V = 0 and r0 = p gives theta = 0 for every number of points.",
  "all numbers of quadrature points and impact parameters", "all quadrature orders", ["src/bca.rs:scattering_integral_gauss_mehler"])
p("Accepted options never cause an out-of-range interaction lookup",
  "If input() accepts the options and interaction indices, then every lookup of potential, scattering integral and root finder for any pair of particle and target species is in range.",
  "all accepted option sets", "all matrix sizes and index vectors", ["src/input.rs:input", "src/bca.rs:calculate_binary_collision"])
p("Accepted options never reach an unimplemented combination",
  "If input() accepts a potential, scattering integral and root finder combination, the collision code does not panic with an unimplemented-combination error on it.",
  "all accepted option sets", "all combinations; many are never tried by the tests", ["src/input.rs:input", "src/interactions.rs:phi", "src/bca.rs:magic"])
p("Accepted inputs have per-species arrays of matching length",
  "If input() accepts a file, every per-species material array and every per-particle array has an entry for each species.",
  "all accepted inputs", "all array length combinations", ["src/input.rs:input"])
p("The particle list is the requested one",
  "input() produces N_i particles for the i-th particle entry, in order, with mass, charge, energy, cutoff, binding energy and position multiplied by the stated units and the interaction index of that entry.",
  "all numbers of entries and counts", "all list lengths", ["src/input.rs:input"])
p("Weights and tags of particle input reach the simulation",
  "Particle::from_input gives the particle the weight and tag of its ParticleInput.",
  "all particle inputs", "tests only use weight 1 and tag 0", ["src/particle.rs:from_input", "src/particle.rs:ParticleInput"])
p("Chunking simulates every ion exactly once in order",
  "physics_loop splits the particles into consecutive chunks whose concatenation is the input, each non-empty and none longer than total/num_chunks; it rejects exactly the runs with more chunks than particles.",
  "all particle counts and chunk counts", "all counts", ["src/physics.rs:physics_loop"])
p("The number of chunks is the requested one",
  "physics_loop processes exactly num_chunks chunks.",
  "all particle counts and chunk counts", "only fails when num_chunks does not divide the count", ["src/physics.rs:physics_loop"])
p("Parallel and serial runs agree",
  "For every way of splitting a chunk among worker threads, the finished particle list is the one the serial loop produces when each ion sees the same random numbers.",
  "all task splittings and chunk sizes", "all schedules", ["src/physics.rs:physics_loop"])
p("The per-species summary counts every particle once",
  "After any run the summary has one row per distinct mass, in order of first appearance, and the reflected, deposited and sputtered entries are the numbers of incident-left, incident-not-left and recoil-left particles with that mass.",
  "all particle sequences", "all sequences", ["src/output.rs:SummaryPerSpecies", "src/output.rs:Summary"])
p("Each particle is written to the right list files",
  "output_lists appends one row to reflected/deposited/sputtered exactly for incident-left/incident-stopped/recoil-left particles, a displacement row exactly for recoils above their displacement energy when tracking displacements, a trajectory count equal to the number of trajectory rows, and energy-loss rows only for incident particles when tracking them; after a run the numbers of rows equal the summary totals.",
  "all particle sequences and options", "all sequences", ["src/output.rs:output_lists", "src/output.rs:SummaryPerSpecies"])
p("Completed chunks survive a crash",
  "After a chunk is finished, a crash at any later point does not lose any row of that chunk from any list file.",
  "all crash points, buffer sizes and chunk contents", "crash points cannot be enumerated", ["src/output.rs:output_list_flush", "src/physics.rs:physics_loop"])
p("Histograms count a particle in the bin that contains it",
  "Distributions::update never writes outside its arrays, and a stopped incident particle is counted in implanted_x bin i only if x_min + i dx <= x < x_min + (i+1) dx; the same for energy/angle bins.",
  "all positions, energies, angles and bin counts", "continuum of inputs; only a sliver below the range is misplaced", ["src/output.rs:Distributions"])
p("Default options do not depend on build features",
  "Options::default_options(track_recoils) sets track_recoils to its argument and trajectory tracking off in every build.",
  "both arguments and both builds", "a single build is tested", ["src/input.rs:default_options"])
p("energy_origin is in the same unit as the energy",
  "A freshly constructed particle has energy_origin equal to its energy.",
  "all constructor arguments", "continuum of inputs", ["src/particle.rs:default_incident", "src/particle.rs:new", "src/particle.rs:from_input"])
p("C list interfaces keep their arrays aligned",
  "compound_tagged_bca_list_c returns particles, tags, weights and incident flags of equal length where entry k of each describes the same particle, and contains exactly the particles that left or are incident.",
  "all inputs", "all list lengths and random streams", ["src/lib.rs:compound_tagged_bca_list_c"])
p("Memory handed to C is freed with the layout it was allocated with",
  "drop_output_bca and drop_output_tagged_bca deallocate each array with the size it was allocated with.",
  "all list lengths", "undefined behaviour is not observable in a unit test", ["src/lib.rs:drop_output_bca", "src/lib.rs:drop_output_tagged_bca"])
p("Yields and reflection coefficients do not depend on thread scheduling",
  "sputtering_yield and reflection_coefficient return the number of recoils that left with positive energy moving away from the surface, respectively the number and energy of such incident ions, divided by the number of samples, for every interleaving of the worker threads; the particle reflection coefficient lies in [0,1].",
  "all interleavings and sample counts", "all schedules", ["src/lib.rs:sputtering_yield", "src/lib.rs:reflection_coefficient"])
p("Surface-normal frame changes are rotations that undo each other",
  "rotate_given_surface_normal maps the inward surface normal to the x axis, preserves lengths and angles, and rotate_back is its inverse, up to the documented perturbation.",
  "all unit normals and directions", "continuum of inputs", ["src/lib.rs:rotate_given_surface_normal", "src/lib.rs:rotate_back"])
p("simple_compound_bca accepts any number of target species",
  "simple_compound_bca does not panic when a target species other than the first is chosen.",
  "all species lists", "needs a compound target and the right random number", ["src/lib.rs:simple_compound_bca"])
p("The command line selects the documented geometry",
  "With no argument the 2D geometry and input.toml are used; with one argument the 2D geometry and that file; with two the named geometry and the file; anything else is rejected.",
  "all argument vectors", "all argument strings", ["src/main.rs:main"])
p("The implanted-energy bookkeeping of a cascade is bounded by the ion's energy",
  "In exact arithmetic, per collision the energies of projectile and recoil after the collision plus the bulk binding energy equal the projectile energy before it.",
  "all collisions", "unbounded cascades", ["src/bca.rs:single_ion_bca"])

p("List interfaces start the ion outside the surface barrier",
  "Every interface that builds a half-space target and places the incident ion itself (compound_bca_list_c, compound_tagged_bca_list_c, reflect_single_ion_c, the Python list functions) places it outside the energy barrier, so that it crosses the surface once on the way in.",
  "all target densities", "depends on real-valued densities and on the geometry's own barrier thickness", ["src/lib.rs:compound_bca_list_c", "src/lib.rs:simple_bca", "src/lib.rs:compound_bca_list_1D_py"])
p("reflect_single_ion_c reports zero energy exactly for ions that stay",
  "After reflect_single_ion_c the energy is zero if and only if the ion did not leave the target.",
  "all inputs and random streams", RND, ["src/lib.rs:reflect_single_ion_c"])
p("Python list results are aligned and stopped ions have zero energy",
  "compound_bca_list_py returns an output list and an incident list of equal length describing the same particles, in which stopped particles have energy zero; reflect_single_ion_py returns a non-zero energy only for an ion that left.",
  "all inputs and random streams", RND, ["src/lib.rs:compound_bca_list_py", "src/lib.rs:reflect_single_ion_py"])
p("Directions are dimensionless",
  "The direction components of an input particle do not depend on the length unit chosen for its position, whatever kind of value (fixed, normal, uniform) describes them.",
  "all length units and value kinds", "all units and distributions", ["src/input.rs:input", "src/particle.rs:Particle::from_input"])
p("List interfaces accept velocities along the surface normal",
  "compound_bca_list_c gives a finite trajectory to an ion whose velocity is exactly along +x (normal incidence).",
  "all speeds", "the failing inputs form a measure-zero set that random testing does not hit", ["src/lib.rs:compound_bca_list_c", "src/particle.rs:Particle::rotate"])
p("A transmitted or turned ion flies along its current direction",
  "After a surface crossing in a step, the collision partner of that step is placed and the ion advanced along the direction the ion has after the crossing.",
  "all crossings", "needs particular random numbers at a surface", ["src/bca.rs:single_ion_bca", "src/bca.rs:choose_collision_partner"])
p("The top surface belongs to the top layer",
  "For a 1D layered target the composition, density and correction factor at the top surface itself (depth zero) are those of the top layer.",
  "all layered targets", "a single point of a continuum of depths", ["src/geometry.rs:Mesh1D"])

p("Gauss-Mehler scattering angles are angles",
  "For the screened potentials, evaluated at the turning point, every radicand of the Gauss-Mehler quadrature is positive and the scattering angle lies in [0, pi], for every number of nodes.",
  "all screened potentials, species, energies, impact parameters and node counts", "real-valued parameters and an unbounded node count", ["src/bca.rs:scattering_integral_gauss_mehler", "src/bca.rs:gauss_mehler"])
p("Newton's method on a Lennard-Jones potential converges to the turning point",
  "When newton_rootfinder reports convergence for a Lennard-Jones 12-6 potential, the reported distance is near a classical turning point.",
  "all parameters, energies, tolerances and iteration limits", "quantifies over real parameters", ["src/bca.rs:newton_rootfinder", "src/interactions.rs:diff_doca_lennard_jones"])
p("A distance reported by Newton's method is usable by the quadrature",
  "The distance of closest approach reported by newton_rootfinder for a screened potential makes every radicand of the Gauss-Mehler quadrature positive (a negative radicand gives NaN and the run panics).",
  "all screened potentials, energies, impact parameters, tolerances and node counts", "depends on how the tolerance, the energy and the node count combine", ["src/bca.rs:newton_rootfinder", "src/bca.rs:scattering_integral_gauss_mehler"])
p("The root finder option governs the collision",
  "The distance of closest approach of a collision is computed by the root finder (kind, iteration limit, tolerance) that the options give for the pair of species.",
  "all potentials, species pairs, energies and root finder settings", "the option is silently replaced for some potentials at every positive energy; results differ only in the last digits", ["src/bca.rs:distance_of_closest_approach", "src/interactions.rs:energy_threshold_single_root"])

p("Bookkeeping does not influence the physics",
  "Weights, tags, tracked vectors, recorded histories and the options that switch trajectory, displacement and energy-loss recording, buffering, threads and chunks on or off do not change what single_ion_bca computes: on the same random numbers the same particles come back with the same energies, positions, directions and flags (or the run ends in the same failure).",
  "all particles, materials, random streams and pairs of options or particles that differ only in bookkeeping", "a comparison of two runs for every input; an extra random draw or an order change in one branch would only show on some inputs", ["src/bca.rs:single_ion_bca", "src/particle.rs:Particle::update_trajectory_tracker", "src/particle.rs:Particle::update_energy_loss_tracker", "src/lib.rs:compound_tagged_bca_list_c"])
p("Flat targets have no preferred place",
  "On a half space or a layered target, moving the incident ion parallel to the surface moves every position in the result by the same vector and changes nothing else; on a 2D mesh the same holds along the third axis (exact arithmetic).",
  "all ions, shifts, flat or 2D targets, options and random streams", "a comparison of two runs for every input and shift; rounding hides or fakes differences in a test", ["src/bca.rs:single_ion_bca", "src/geometry.rs:Mesh0D", "src/geometry.rs:Mesh1D", "src/geometry.rs:Mesh2D", "src/geometry.rs:HomogeneousMesh2D"])
p("Electronic stopping is taken at the particle's own position",
  "electronic_stopping_cross_sections uses the correction factor and the densities at the particle's (x, y, z).",
  "all geometries of the program, materials, particles and modes", "the code reads y where z is meant; whether that matters depends on every geometry", ["src/material.rs:electronic_stopping_cross_sections"])
p("List interfaces simulate their ions one after the other",
  "Every list interface (tagged and plain C, Fortran, the Python lists) on the concatenation of two ion lists returns the concatenated results of two calls, the second continuing the random stream; the reported count is the number of rows.",
  "all ion lists, their splits, targets and random streams", "needs an induction over list lengths and over failures in the middle", ["src/lib.rs:compound_tagged_bca_list_c", "src/lib.rs:compound_bca_list_c", "src/lib.rs:compound_bca_list_fortran", "src/lib.rs:compound_bca_list_py", "src/lib.rs:compound_bca_list_1D_py", "src/lib.rs:simple_bca_list_py"])
p("Electronic stopping follows Lindhard-Scharff and Bethe",
  "Per target species the stopping cross section is the correction factor times the Lindhard-Scharff formula in the low-energy modes, and the Biersack-Varelas combination with the relativistic Bethe formula in the interpolated mode; both depend on the projectile's energy and mass only through its speed.",
  "all projectiles of positive energy, mass and charge, all targets and modes", "identities over the reals between transcendental formulas", ["src/material.rs:electronic_stopping_cross_sections", "src/consts.rs"])
p("An accepted incident particle is well formed",
  "Particle::from_input and Particle::default_incident accept exactly the particles of positive energy whose direction is not (within 2^-52) the surface normal, and the particle they build is unused, carries the given data and has a unit direction parallel to the given one.",
  "all inputs, including extreme and special floating-point values", "the exceptional inputs are overflow and infinity cases no unit test enumerates", ["src/particle.rs:Particle::from_input", "src/particle.rs:Particle::default_incident"])
p("The choice of units does not matter",
  "Every geometry constructor returns the same geometry for the same target described in different length units, and Material::new stores masses and energies in SI for every unit; an unknown unit is refused.",
  "all inputs and pairs of units, named or numeric", "ranges over all pairs of units and all inputs", ["src/geometry.rs:Mesh0D::new", "src/geometry.rs:Mesh1D::new", "src/geometry.rs:Mesh2D::new", "src/geometry.rs:HomogeneousMesh2D::new", "src/sphere.rs:Sphere::new", "src/parry.rs:ParryBall::new", "src/parry.rs:ParryTriMesh::new", "src/material.rs:Material::new"])
p("Electronic losses follow the stopping mode",
  "A simulation step charges the continuous stopping loss over the path flown, the Oen-Robinson loss of the collision made in the step, or half of each, as the electronic stopping mode says; a step without a collision charges no local loss.",
  "all targets, particles, potentials, modes and random streams", "the local part is charged also when nothing was hit, which only happens near surfaces for particular random numbers", ["src/bca.rs:single_ion_bca", "src/particle.rs:Particle::subtract_electronic_energy_loss", "src/interactions.rs:screening_length", "src/interactions.rs:first_screening_radius"])
p("Electronic stopping only slows particles down",
  "The electronic energy loss of a step is never negative.",
  "all targets, particles, modes and random streams", "the path of a step becomes negative only for particular sequences of collisions", ["src/bca.rs:single_ion_bca", "src/particle.rs:Particle::advance", "src/bca.rs:subtract_electronic_stopping_energy"])
p("A cascade carries no more energy than the ion brought",
  "Without surface binding energies the energies of all particles returned by single_ion_bca add up to at most the energy of the incident ion.",
  "all targets, ions, options and random streams", "an energy balance over cascades of unbounded size", ["src/bca.rs:single_ion_bca", "src/bca.rs:update_particle_energy", "src/bca.rs:subtract_electronic_stopping_energy"])

p("A collision pushes the projectile the right way",
  "After a simulated collision with a repulsive potential the projectile's direction has turned away from the collision partner; with an attractive interaction it has turned towards it.",
  "all flight directions, azimuthal angles, impact parameters and potentials", "depends on the sign of every direction cosine and on the sign of the scattering angle", ["src/bca.rs:single_ion_bca", "src/bca.rs:choose_collision_partner", "src/bca.rs:calculate_binary_collision", "src/particle.rs:Particle::rotate"])
p("Deep recoils are dropped exactly beyond their range",
  "With recoil tracking and suppress_deep_recoils a recoil is followed if and only if its distance to the surface is below Eckstein's range estimate and its energy is above its cutoff.",
  "all targets, collisions and recoils", "an equivalence over the reals between the code's expression and a formula of the literature, for every geometry", ["src/bca.rs:single_ion_bca", "src/bca.rs:choose_collision_partner"])
p("High-energy free flight paths follow their model",
  "With high_energy_free_flight_paths the step length is the path on which one collision above the cutoff is expected, shortened to a 5 % electronic loss, and never below the mean free path; the impact parameter belongs to that path.",
  "all targets, particles and random streams", "formulas over the reals; the 5 % limit fails only for correction factors other than one", ["src/bca.rs:determine_mfp_phi_impact_parameter", "src/bca.rs:subtract_electronic_stopping_energy"])
p("Following recoils does not change the ion",
  "The incident ion's own row (every field, records included) is the same whether recoils are followed or not, whether deep recoils are suppressed, and whatever is recorded about recoils; and switching recoil tracking off gives exactly that row for every run that comes back.",
  "all number types, targets, ions, options and random streams", "two whole runs are compared, over cascades of any size", ["src/bca.rs:single_ion_bca", "src/bca.rs:choose_collision_partner"])

p("The CPR and polynomial root finders return the outermost turning point",
  "With the cpr_rootfinder feature, if the root library lists exactly the roots of the function it is given, the root finder succeeds and returns (in units of the screening length) the largest separation at which the relative motion turns round.",
  "all potentials the root finder supports, energies, impact parameters and thresholds", "a statement about all roots of a real function, of which a test sees samples; the wrong root only shows in multi-root potentials", ["src/bca.rs:polynomial_rootfinder", "src/bca.rs:cpr_rootfinder"])
p("The Gauss-Legendre quadrature is the five-point rule",
  "The rule integrates every polynomial up to degree nine up to the rounding of its tabulated nodes and weights, and gives no deflection when there is no potential.",
  "all polynomials of degree at most nine; all impact parameters and energies", "an identity for all coefficients; a wrong digit in a node changes results only slightly", ["src/bca.rs:scattering_integral_gauss_legendre"])
p("A flat target has no preferred azimuth",
  "On a homogeneous or layered flat target, turning the incident ion about the surface normal turns the whole cascade - directions, positions, recorded tracks - and changes nothing else, for the same random numbers.",
  "all flat targets, ions, options, random streams and angles", "two whole runs are compared, for a continuum of angles and cascades of any size", ["src/bca.rs:choose_collision_partner", "src/bca.rs:single_ion_bca", "src/particle.rs:Particle::rotate"])
p("Every simulation has its mirror image",
  "Mirroring the incident ion in a mirror plane of the target and reflecting the random numbers that need it gives the mirrored cascade, so that the statistics of a simulation respect the mirror planes of its target.",
  "all 0D, 1D, 2D, homogeneous 2D and sphere targets, ions, options and random streams", "two whole runs are compared, over cascades of any size and all random streams", ["src/bca.rs:choose_collision_partner", "src/bca.rs:single_ion_bca", "src/particle.rs:Particle::rotate", "src/geometry.rs", "src/sphere.rs"])

p("Screened interactions are screened Coulomb repulsions",
  "Each screened potential is positive, falls with the distance, stays below the repulsion of the bare nuclei and approaches it close to them; screening lengths are those of the literature; nothing depends on which atom is called the projectile.",
  "all pairs of atoms, distances and screened potentials", "inequalities over the reals for all distances; the exchange symmetry is for all pairs", ["src/interactions.rs:interaction_potential", "src/interactions.rs:screening_length", "src/interactions.rs:phi", "src/interactions.rs:screened_coulomb"])
p("Attractive potentials have the well their parameters describe",
  "Lennard-Jones 12-6, 6.5-6, Morse and 4-8 potentials have exactly one minimum, at the distance and of the depth given by their parameters.",
  "all parameters and distances", "global minimum over all distances for all parameters", ["src/interactions.rs:lennard_jones", "src/interactions.rs:lennard_jones_65_6", "src/interactions.rs:morse", "src/interactions.rs:four_eight"])
p("Joined potentials are joined",
  "The tungsten-tungsten potential has no jump but at its joints, where it is below 0.11 %, and ends at its cutoff; the KR-C-Morse potential lies between its two parts and goes over from one to the other at x0.",
  "all distances and parameters", "continuity at every distance; a wrong coefficient only shows near a joint", ["src/interactions.rs:tungsten_tungsten_cubic_spline", "src/interactions.rs:krc_morse", "src/interactions.rs:sigmoid", "src/interactions.rs:heaviside"])


p("Entry points simulate the ions and targets their arguments describe",
  "Every C, Fortran and Python entry point simulates, one after the other, ions of the mass, charge, cutoff and surface binding energy, energy (or velocity) and direction (or angle of incidence, from the surface normal) it was given, on a target of the species, densities and layers it was given, in the documented units, starting outside the target; and reports them in the documented columns and units.",
  "all arguments, ion lists of any length, targets of any number of species and layers, random streams", "an equation between the arguments and complete runs, for all arguments", ["src/lib.rs:compound_bca_list_c", "src/lib.rs:simple_bca_list_c", "src/lib.rs:compound_tagged_bca_list_c", "src/lib.rs:compound_bca_list_fortran", "src/lib.rs:compound_bca_list_py", "src/lib.rs:compound_bca_list_1D_py", "src/lib.rs:simple_bca", "src/lib.rs:reflect_single_ion_c", "src/lib.rs:reflect_single_ion_py", "src/lib.rs:sputtering_yield", "src/lib.rs:reflection_coefficient"])

p("Leaving costs the surface binding energy and displacing costs the bulk binding energy",
  "At the surface a particle gets its surface binding energy when it comes in and pays it when it goes out, so that no sequence of crossings and reflections creates energy; every displaced atom costs at least the bulk binding energy. A cascade therefore displaces and sputters no more atoms than the energy of the ion, plus its surface binding energy if it stays, can pay for.",
  "every target with a uniform surface barrier, ion, random stream, number of collisions and recoils", "a bound over complete cascades of unbounded length; violations need particular flights at the boundary", ["src/material.rs:surface_binding_energy", "src/material.rs:boundary_condition_planar", "src/bca.rs:single_ion_bca"])

p("A species may be entered in parts, and a species that is not there has no influence",
  "What is simulated is the target, not the way its composition is written down: entering one species as two species with the same constants that share its density, or listing a further species whose density is 0 everywhere, gives the same particles, trajectories and recoils from the same random numbers.",
  "every target, position in the list, ion, options, random stream and number of collisions (exact arithmetic)", "compares whole runs on two targets; it must hold for every composition, position in the list and history", ["src/material.rs:choose", "src/material.rs:average_Z", "src/material.rs:electronic_stopping_cross_sections", "src/bca.rs:single_ion_bca", "src/bca.rs:subtract_electronic_stopping_energy"])

p("Rounding makes no energy negative or undefined",
  "In double precision, no collision takes more energy from a particle than it has, and every particle that single_ion_bca returns has an energy that is a number and not negative; a run does not end in an energy assertion because a rounded collision overdrew the energy.",
  "every mathematical library with sines in [-1,1] and exact squares, every target, ion, options, potential, quadrature, random stream and number of collisions, with all roundings, overflows and NaNs of binary64", "rounding errors of a few units in the last place for special pairs of masses and special angles are never met by test inputs, and the result must hold for whole cascades", ["src/bca.rs:calculate_binary_collision", "src/bca.rs:single_ion_bca", "src/bca.rs:subtract_electronic_stopping_energy", "src/material.rs:surface_binding_energy"])

p("How far a surface binds and particles are followed",
  "A half-space is x > 0, a layered target lies between 0 and the sum of its layer thicknesses, a sphere or ball is the ball of its radius; each binds particles up to 2/sqrt(pi) mean atomic distances n^(-1/3) outside its surface and is simulated up to ten times that distance. In a layered target the upper limits follow from the density of the first layer and the lower limits from that of the last. A polygon binds up to the same distance from its closest boundary point and follows particles inside the given outer polygon; a triangulated body binds up to this distance from its surface and follows particles up to ten times it from its bounding box.",
  "every input accepted by the constructors, in every length unit, and every point", "the limits depend on continuous densities, units and positions; a wrong thickness at one of several surfaces shows only for particles passing it", ["src/geometry.rs:Mesh0D::new", "src/geometry.rs:Mesh1D::new", "src/geometry.rs:Mesh1D::inside_energy_barrier", "src/geometry.rs:HomogeneousMesh2D::inside_energy_barrier", "src/sphere.rs:Sphere::inside_energy_barrier", "src/parry.rs:ParryBall::inside_energy_barrier", "src/parry.rs:ParryTriMesh::inside_simulation_boundary"])

p("Returned particles have a direction of length one",
  "Every particle returned by single_ion_bca for an accepted ion has a direction of length one and a position that is a number: no sequence of collisions, refractions and reflections stretches, shrinks or loses a direction.",
  "every target, options, potential, accepted ion, random stream and number of steps", "directions are renormalised in some places and not in others (refraction, reflection), the division by zero for directions along the surface normal needs a coincidence of rounding, and the invariant must hold through whole cascades", ["src/particle.rs:Particle::rotate", "src/particle.rs:surface_refraction", "src/particle.rs:Particle::from_input", "src/material.rs:surface_binding_energy", "src/bca.rs:single_ion_bca"])

p("Public helper functions return what their names say",
  "For every particle get_momentum returns the vector along the direction with p^2 = 2mE; refraction_angle is the difference of the angles before and after by Snell's law; the run summary counts exactly the reflected ions and sputtered atoms; a triangle's centroid is the mean of its corners, lies in it, and the distance to the centre is the distance to it; the distance to a layer is the distance to its nearer face; the concentrations a material reports at a point are the shares of the densities there and add up to one.",
  "every particle, energy pair, list of finished particles, triangle, layer, material and point", "each is a statement about all real arguments or all particle lists", ["src/particle.rs:Particle::get_momentum", "src/particle.rs:refraction_angle", "src/output.rs:Summary", "src/geometry.rs:Triangle2D::calculate_distance_to_center", "src/geometry.rs:Layer1D", "src/material.rs:Material::get_concentrations"])

p("Sampled paths and impact parameters are usable numbers in double precision",
  "determine_mfp_phi_impact_parameter, computing with doubles from random numbers in [0, 1), returns finite non-negative azimuths of at most 2 pi, finite impact parameters in their annuli and finite path lengths.",
  "every target, particle, math library, weak collision order and random stream of doubles in [0, 1)", "rounding happens in every operation and the offending random number 0 has probability 2^-53: no test meets it", ["src/bca.rs:determine_mfp_phi_impact_parameter"])

p("Every point of a 2D mesh has a cell",
  "For a triangulated 2D target whose triangles cover the inside of its boundary, the densities, concentrations and correction factor can be looked up at every point inside the boundary.",
  "every mesh and every point inside", "the points that fail lie on shared edges and depend on the rounding of the barycentric coordinates", ["src/geometry.rs:Triangle2D::contains", "src/geometry.rs:Mesh2D::get_densities", "src/geometry.rs:Mesh2D::get_ck", "src/geometry.rs:Mesh2D::get_concentrations", "src/geometry.rs:Mesh2D::new"])

p("Targets are well defined for every double",
  "For every accepted layered target, every coordinate a double can hold - infinities and NaN included - has exactly one layer, which all lookups use, and the layers tile the target; and for half-spaces, layered targets and spheres whose barrier thickness is a non-negative number, inside implies inside the barrier implies inside the simulation volume at every double, with all boundaries computed in rounded arithmetic.",
  "every layered target accepted by Mesh1D::new, every half-space and sphere with a non-negative barrier thickness, every double as coordinate, every math library", "adjacent layers, rounded sums that absorb the thickness and overflowing boundaries are met only by particular doubles", ["src/geometry.rs:Mesh1D::new", "src/geometry.rs:Layer1D::contains", "src/geometry.rs:Mesh0D::inside_energy_barrier", "src/geometry.rs:Mesh1D::inside_simulation_boundary", "src/sphere.rs:Sphere::inside_energy_barrier"])

p("Sampled collision geometries have the documented distributions",
  "With random numbers uniform on (0, 1): azimuths are uniform, the k-th impact parameter is uniform over the area of its ring, the first path is uniform in the mean free path, gaseous paths are exponential with the mean free path as mean, impact parameters of high-energy free flights follow the Poisson law of the cylinder around the path, and no random number decides two of these.",
  "every target with a positive density, every particle, options, random numbers in (0, 1) and threshold value", "a distribution is a statement about all random numbers and all thresholds; tests see samples of it", ["src/bca.rs:determine_mfp_phi_impact_parameter", "src/material.rs:Material::mfp"])

p("Entry points given the same simulation return the same particles",
  "The C list function for one species returns what the compound function returns for a one-species compound; the tagged C function reports the particles of the plain one, with tags, weights and tracked positions added; the Fortran and the Python compound list functions report the same particles in the same order; and the Python list function for one species, given energies and directions, returns the rows that the C one returns for the corresponding velocities.",
  "every ion list, species, build, random stream and step budget, including runs that panic", "two interfaces agree only if they do so for every input and every run of the random stream", ["src/lib.rs:simple_bca_list_c", "src/lib.rs:compound_bca_list_c", "src/lib.rs:compound_tagged_bca_list_c", "src/lib.rs:compound_bca_list_fortran", "src/lib.rs:compound_bca_list_py", "src/lib.rs:simple_bca_list_py"])

p("Every requested ion is accounted for",
  "When a run of the program completes, the ions its input file asks for, in order, have each been simulated to an end and appear in exactly one row of exactly one of the reflected and the deposited list, with the identity the file gave them; the rows of the two lists, and the reflected and deposited numbers of the printed summary, add up to the numbers N of the file.",
  "every accepted input file, random streams, number of threads and chunks, and every way the scheduler divides the chunks", "no ion may be lost, counted twice or filed under two headings, for any input and any schedule", ["src/main.rs:main", "src/input.rs:input", "src/physics.rs:physics_loop", "src/output.rs:output_lists", "src/output.rs:SummaryPerSpecies"])

p("The default scattering angle is the Gauss-Lobatto value of the classical integral",
  "For every screened potential and every collision whose closest approach has been found, the default (Mendenhall-Weller) rule succeeds and returns pi - (pi p / r0) times the four-point Gauss-Lobatto sum of the classical scattering integrand after the substitution r = r0 / cos(pi t / 2): the end points enter through the limits of the integrand there, the two inner nodes are those of the rule to four decimals, both radicands are positive, and the angle is between 0 and pi.",
  "every screened potential, pair of atoms (positive charges and masses), energy > 0, impact parameter > 0 and exact closest approach", "the closed form of the quadrature hides an improper integral with a singular end point; a test compares a few angles with tabulated ones", ["src/bca.rs:mendenhall_weller", "src/bca.rs:scattering_integral_mw", "src/interactions.rs:phi", "src/interactions.rs:dphi"])

p("The MAGIC angle is the formula of Biersack and Haggmark",
  "For the Moliere, Kr-C, ZBL and TRIDYN potentials the MAGIC rule returns 2 acos((B + Rc + Delta)/(R0 + Rc)) with the published parameter tables, Rc = -2 (E - V)/V' from the true derivative of the potential at the closest approach, and Delta the published correction; at the closest approach the cosine is in (0, 1), so the angle is between 0 and pi.",
  "the four tabulated potentials, every pair of atoms (positive charges and masses), energy > 0, impact parameter > 0, distance > 0", "the code computes a rearranged form of the formula; that it is the same number, and that the acos argument never leaves its domain, concerns all energies and impact parameters", ["src/bca.rs:magic", "src/interactions.rs:phi", "src/interactions.rs:dphi"])

p("Exactly the consistent input files are accepted",
  "input() accepts a parsed input file if and only if: threads and chunks are positive; high-energy free flight paths come with interpolated stopping and no weak collisions; the gaseous model comes with no weak collisions; the three interaction tables have full rows; every root finder is in the build and suits its potential; the units are known; the geometry was constructed; the material and particle lists have the checked lengths; the interaction indices are rows of the tables; every distribution that is sampled is valid and no ion has cos x fixed at 1. Acceptance does not depend on the random numbers.",
  "every parsed input file, build (features), and random stream", "an equivalence over all files: a test shows one file accepted or one rejected", ["src/input.rs:input", "src/material.rs:Material::new", "src/particle.rs:ParticleParameters", "src/enums.rs:Distributions"])

p("More quadrature points bring the Gauss-Mehler angle to the classical scattering angle",
  "For every screened potential, pair of atoms, energy and impact parameter, with the distance of closest approach being the turning point, the classical scattering angle pi - 2p * integral from r0 to infinity of dr / (r^2 sqrt(1 - V/E - p^2/r^2)) exists as an improper integral, is unique and lies between 0 and pi, and the angle computed with GAUSS_MEHLER and n points converges to it as n grows.",
  "all screened potentials, charges, masses, energies, impact parameters > 0 and all error bounds e > 0 (then all n from some n0 on)", "A limit over an unbounded number of quadrature points of an improper integral with a singular integrand cannot be observed by finitely many runs.", ["src/bca.rs:scattering_integral_gauss_mehler", "src/bca.rs:gauss_mehler", "src/interactions.rs:interaction_potential"])

p("Coulomb scattering is Rutherford scattering",
  "With the COULOMB potential for charges Z1 and Z2, the distance of closest approach the program computes is the turning point, the classical angle is Rutherford's, tan(theta/2) = K/(2 E p) with K = Z1 Z2 e^2 / (4 pi eps0) and E the relative energy, and the GAUSS_MEHLER angles converge to it as the number of points grows.",
  "all charges, masses, energies and impact parameters > 0, all error bounds", "The closed form is claimed for a continuum of inputs and as a limit over an unbounded number of quadrature points.", ["src/bca.rs:distance_of_closest_approach", "src/bca.rs:gauss_mehler", "src/interactions.rs:coulomb"])

p("Exactly the consistent geometries are accepted",
  "A half space, sphere, ball, triangulated body or homogeneous polygon is constructed if and only if its length unit is known. A layered target is constructed if and only if, in addition, every layer lists the same number of species, there are as many thicknesses as density rows, at least one layer has a correction factor, and every layer that has one ends, as computed, below where it starts (over the reals: has positive thickness). A triangulated 2D target is constructed if and only if the unit is known, the density rows have one length, there are as many rows as triangles, the corners of every triangle with a correction factor are among the points and so are the boundary indices.",
  "every geometry input and number type", "an equivalence over all inputs: a test shows one geometry accepted or one rejected", ["src/geometry.rs:Mesh0D::new", "src/geometry.rs:Mesh1D::new", "src/geometry.rs:Layer1D::new", "src/geometry.rs:HomogeneousMesh2D::new", "src/geometry.rs:Mesh2D::new", "src/sphere.rs:Sphere::new", "src/parry.rs:ParryBall::new", "src/parry.rs:ParryTriMesh::new"])

p("Output features do not change the simulation",
  "Building with 'distributions', with 'no_list_output' or with both does not change what a run simulates: it completes (with the same species summary) or panics exactly as the plain build does; the list files receive exactly the same records in the same order, or with 'no_list_output' are neither created nor touched; and the histograms of 'distributions' are those of all finished particles of the run, once each, normalised by the number of incident ions. This needs at least two bins per histogram axis: with one energy bin the histograms stop a run that completes without them.",
  "every choice of features, every histogram option with at least two bins per axis, every chunk runner (serial or parallel), options, units and list of ions, in any arithmetic", "Each cargo feature set is a different program; unit tests are compiled for one of them, and the claim compares all of them on every input, panics included.", ["src/physics.rs:physics_loop", "src/output.rs:Distributions", "src/output.rs:output_lists", "Cargo.toml:features"])

p("Closer collisions deflect more and transfer more energy",
  "For every screened Coulomb potential and each of the three quadratures (Mendenhall-Weller, Gauss-Mehler with any number of points, Gauss-Legendre), of two collisions of the same pair at the same energy, each evaluated at its distance of closest approach, the one with the smaller impact parameter has the smaller distance of closest approach and the strictly larger scattering angle, never above pi. With Mendenhall-Weller and Gauss-Mehler it also transfers strictly more energy and sends the recoil more forward. A head-on collision turns the projectile around (angle pi) under every rule including MAGIC, transfers the kinematic maximum and sends the recoil straight ahead. The same order of angles holds for two bare charges under Gauss-Mehler and Gauss-Legendre.",
  "every pair of atoms, masses, positive energy, pair of impact parameters 0 <= p1 < p2, screened potential, quadrature and number of points", "monotonicity compares the outcomes of all pairs of inputs of a nonlinear numerical rule; no finite table of angles shows that the rule nowhere turns back", ["src/bca.rs:calculate_binary_collision", "src/bca.rs:mendenhall_weller", "src/bca.rs:gauss_mehler", "src/bca.rs:gauss_legendre", "src/bca.rs:magic", "src/interactions.rs:interaction_potential"])

p("An input file is read as it is written",
  "For each geometry mode, an input document that states - in any order, with unknown keys anywhere, with optional keys left out where the documented default is meant - given options, material, particles and geometry is read as exactly these values: every key goes to its own field, every variant name and every named unit to its own meaning, every distribution to its own kind, and any other unit string to the number it parses as. A section holding only a name reads as the default options of the library functions with recoils tracked. A file in which a key without default, or a section, is missing is never accepted.",
  "every document tree, every options, material, particle and geometry record, every string-to-float parser, random stream and build flags", "the set of documents and records is infinite; a swapped key, default or variant name shows up only for the inputs that use it", ["src/input.rs:Options", "src/input.rs:default_interaction_potential", "src/enums.rs:InteractionPotential", "src/enums.rs:Distributions", "src/material.rs:MaterialParameters", "src/particle.rs:ParticleParameters", "src/geometry.rs:Mesh0DInput"])

p("What an input file says has an effect",
  "Interaction indices given in an accepted input file are the ones the material and the particles use, and a key that the program does not know is reported.",
  "every input document, index, unknown key, random stream and build", "a setting that is silently dropped gives a plausible run of a different problem; no test of a particular file shows that no setting of any file is dropped", ["src/input.rs:input", "src/input.rs:Options", "src/material.rs:MaterialParameters", "src/particle.rs:ParticleParameters"])

p("Faster projectiles deflect less and lose a smaller share of their energy",
  "Two collisions of the same pair of atoms at the same (non-zero) impact parameter with a screened potential, each evaluated at its turning point: the one at the higher energy comes closer, its scattering angle is smaller for Mendenhall-Weller, Gauss-Mehler and Gauss-Legendre alike, it transfers a smaller fraction of its energy to the recoil and sends the recoil further from the forward direction. The same holds for two bare Coulomb charges. The classical scattering angle, to which Gauss-Mehler converges, is monotone both in the energy and in the impact parameter.",
  "every screened potential, every pair of atomic numbers and masses, every impact parameter, every pair of energies, every number of Gauss-Mehler points", "A comparison of all pairs of collisions: a test sees a finite grid of energies; the proof rests on the coefficients of the screening tables, which no finite grid explores", ["src/bca.rs:calculate_binary_collision", "src/bca.rs:mendenhall_weller", "src/bca.rs:gauss_mehler", "src/bca.rs:gauss_legendre", "src/interactions.rs:phi"])

p("What a run of the program does to the files",
  "From the command line to the output files: a run changes no file but the eight whose names begin with the name given in the input document; wrong arguments, a missing file, a rejected input or more chunks than ions leave every file as it was; a run that finishes leaves exactly one row per ion asked for by the document, in the reflected or the deposited list, and a summary that counts the rows of the lists, whatever those files held before; runs with different names never touch each other's files; a run that dies, wherever and however, leaves in each list file the old contents or a beginning of what it would have written.",
  "every command line, state of the file system, input document, geometry type, thread schedule, random stream, buffering of the streams and every point at which the run can die", "The histories are unbounded (schedules, buffer spills, crash points, earlier contents of the disk); a test runs one of them", ["src/main.rs:main", "src/input.rs:input", "src/physics.rs:physics_loop", "src/output.rs:open_output_lists", "src/output.rs:SummaryPerSpecies"])

p("The build with histograms writes the plain build's lists and counts the same particles",
  "The build with the feature distributions reads the fifteen axis keys from the options section as they are written, in any order among other keys, and rejects a document without one of them. A run of it that finishes has the summary and the list rows of the plain build for the same chunks, and its histograms are those of the particles the chunks returned, in order, each counted once: no histogram counts more particles than its list file has rows, in any arithmetic.",
  "every options section, axes, options, stream of ions, behaviour of the chunks, rounding", "Quantifies over all documents, all runs and all roundings; the project's tests never build this feature", ["src/physics.rs:physics_loop", "src/output.rs:Distributions", "src/output.rs:update", "src/input.rs:Options"])

p("The histograms never stop a run the plain build completes",
  "Any axes the input accepts give a run that finishes whenever the plain build finishes.",
  "every axes, options, target, stream of ions, thread schedule and random stream", "Quantifies over all runs; a test fixes the axes", ["src/output.rs:Distributions", "src/output.rs:update", "src/physics.rs:physics_loop", "src/input.rs:Options"])

p("Averages of the sampled collision geometries",
  "Averaged over a random number uniform on (0,1), whatever the other numbers are: no side of the path is preferred (the direction to each partner averages to zero), the mean squared impact parameter of the k-th partner is (k + 1/2) N^(-2/3)/pi, the free path of a gas averages to N^(-1/3), and the first step to half of that in every model; each average exists and is unique.",
  "every target, density, weak collision order, mean free path model, particle and stream of random numbers", "An average over a continuum of random numbers: tests estimate it within a tolerance", ["src/bca.rs:determine_mfp_phi_impact_parameter"])

p("Histograms in double precision put values in the right bins",
  "In double precision, whatever the axis: of two values in order the larger is never counted in a lower bin (positions, energies and angles); on an axis that starts at zero a value counted in bin i lies between i and i + 1 steps, up to one part in 2^53 at the lower end, and no deposited ion below the number of bins times the step is left out. An energy tabulated as the edge of a bin is counted in that bin, and a position that is not a number in none.",
  "every axis, units, options, particle, elementary-function library and all doubles", "Quantifies over all doubles and all axes; the project's tests use axes whose edges are exact", ["src/output.rs:Distributions", "src/output.rs:update"])

p("Directions keep length one in double precision",
  "In double precision, a direction whose components are numbers, the largest between 2^-500 and 2^500 in size, becomes a parallel one whose squared length is within 2^-47 of one: for every accepted ion, and every recoil of a projectile with such a direction. Particle::rotate keeps it within 2^-47, turns it by the given angle (the cosine of the angle between old and new direction is cos psi within 2^-18), and any number of rotations does so: errors do not add up as long as no direction on the way is within 2^-20 of the x axis.",
  "every direction of ordinary size, every sequence of angles, every elementary-function library that returns a sine and a cosine up to 2^-50", "Rounding errors over all doubles and any number of rotations; the project's tests use a few angles and a tolerance", ["src/structs.rs:normalize", "src/particle.rs:rotate", "src/particle.rs:from_input", "src/bca.rs:choose_collision_partner"])

p("Collisions and flights conserve energy in double precision",
  "In double precision, the energy a collision reports as transferred is between zero and the projectile's energy E and equals 4 Ma Mb/(Ma+Mb)^2 E sin^2(theta/2) of the reported angle within one part in 2^49. What the projectile keeps and the transfer add up to E within 2^-53 E, and with a kept recoil the two energies and the bulk binding energy add up to E within 2^-52 of E and the binding energy. Over a whole flight with any number of simultaneous collisions up to 2^20, the reported nuclear loss, the reported electronic loss and the energy kept add up to E within 2^-51 E per collision and one more, except that an electronic loss beyond what is left leaves zero.",
  "every ion, target, options and random stream; masses between 2^-400 and 2^400 that are the same or differ by more than one part in 2^24; energies up to 2^1000; every elementary-function library whose sines lie in [-1, 1] and whose second power is the rounded product", "Rounding errors accumulate over collisions; no test can bound them for all energies, masses and angles", ["src/bca.rs:calculate_binary_collision", "src/bca.rs:single_ion_bca", "src/bca.rs:subtract_electronic_stopping_energy", "src/particle.rs:update_energy_loss_tracker"])

out = os.path.join(os.path.dirname(os.path.abspath(__file__)), "..", "properties.jsonl")
with open(out, "w") as f:
    for q in P:
        f.write(json.dumps(q) + "\n")
print(len(P))
