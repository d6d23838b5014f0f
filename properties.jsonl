{"id": "C01", "title": "Substitution keeps free variables inside their bounds", "statement": "After OptimizationProblem.substitute_variables(xvals), every unlocked variable holds a value between its lower and upper bound; an entry already inside the bounds is taken over unchanged, an entry outside is replaced by the nearest bound, and this remains true after any sequence of substitutions.", "quantifier": "every list of variables with lb <= ub, every real vector (including wildly infeasible ones), every sequence of substitutions", "why_tests_cant": "the vector comes from arbitrary solvers; tests sample a handful of vectors and never all histories", "anchors": ["metku/optimization/structopt.py: OptimizationProblem.substitute_variables", "metku/optimization/variables.py: Variable.substitute"]}
{"id": "C02", "title": "Locked variables never move", "statement": "Once a variable is locked at a value, no sequence of substitutions made through the problem changes its value until it is unlocked, and unlocked variables are unaffected by the lock.", "quantifier": "every problem, every history of lock / unlock / substitute operations", "why_tests_cant": "a history property over unbounded operation sequences", "anchors": ["metku/optimization/variables.py: Variable.lock, Variable.substitute", "metku/optimization/structopt.py: OptimizationProblem.vars, substitute_variables"]}
{"id": "C03", "title": "A locked index variable ignores direct substitution", "statement": "Calling substitute on a locked IndexVariable leaves its value unchanged, as it does for every other variable kind.", "quantifier": "every index variable, locked or not, every value", "why_tests_cant": "must hold for every value and lock state", "anchors": ["metku/optimization/variables.py: IndexVariable.substitute"]}
{"id": "C04", "title": "Constraints see the full design vector in declaration order when some variables are locked", "statement": "Evaluating a non-linear or linear constraint with the free entries of the design vector gives the constraint function the complete vector in the order in which the variables were declared, each locked position filled with that variable's locked value.", "quantifier": "every lock pattern over any number of variables, every free vector", "why_tests_cant": "2^n lock patterns for every n", "anchors": ["metku/optimization/constraints.py: NonLinearConstraint.__call__, LinearConstraint.__call__", "metku/optimization/structopt.py: fixed_vals"]}
{"id": "C05", "title": "Objective evaluation assigns each free variable its own entry", "statement": "Evaluating the objective at the vector of free entries leaves every free variable holding its own entry (clamped to bounds), whatever variables are locked.", "quantifier": "every lock pattern, every free vector", "why_tests_cant": "2^n lock patterns for every n", "anchors": ["metku/optimization/objective.py: ObjectiveFunction.__call__"]}
{"id": "C06", "title": "Feasibility verdict is exactly tolerance-wise satisfaction of every constraint", "statement": "The problem reports a point feasible if and only if every constraint holds within the tolerance according to its own type (<, >, =); the verdict does not depend on constraint order and enlarging the tolerance never turns feasible into infeasible.", "quantifier": "every list of typed constraint values, every tolerance", "why_tests_cant": "needs all lists of constraints and all values", "anchors": ["metku/optimization/structopt.py: OptimizationProblem.feasible"]}
{"id": "C07", "title": "Linear constraint value is the affine form over all variables", "statement": "At every point within the variable bounds a LinearConstraint evaluates to a.x - b over the complete variable vector (locked values included): exactly when the point differs from the stored one, and within sum|a_i| times the 1e-8 synchronisation tolerance otherwise.", "quantifier": "every coefficient vector, right-hand side and pair of points of any dimension", "why_tests_cant": "algebraic law over all dimensions", "anchors": ["metku/optimization/constraints.py: LinearConstraint.__call__"]}
{"id": "C08", "title": "Exterior penalty vanishes exactly on the feasible set", "statement": "The exterior penalty function is never below the objective, equals it exactly at the points where all constraints and all finite variable bounds hold, and exceeds it strictly elsewhere, for positive penalty weight; it does not decrease when the weight grows.", "quantifier": "every list of typed constraint values and every positive weight", "why_tests_cant": "all lists and values", "anchors": ["metku/optimization/structopt.py: OptimizationProblem.exterior_penalty_fun"]}
{"id": "C09", "title": "Exact (non-smooth) penalty penalises every violated constraint", "statement": "The exact penalty function (sum of constraint violations) is never negative, is zero exactly at the points where all constraints and finite bounds hold, and is strictly positive whenever some constraint is violated, whatever its type.", "quantifier": "every list of typed constraint values and every positive weight", "why_tests_cant": "all lists and values", "anchors": ["metku/optimization/structopt.py: OptimizationProblem.exact_penalty_fun"]}
{"id": "C10", "title": "Lagrange multiplier updates keep inequality multipliers non-negative", "statement": "After an update, the multipliers of inequality constraints and of lower and upper bounds are non-negative, zero for sufficiently inactive constraints, and each bound multiplier is updated from its own previous value.", "quantifier": "every current multiplier vector, weight and point", "why_tests_cant": "all values", "anchors": ["metku/optimization/structopt.py: update_lag_mult, augmented_lagrangian"]}
{"id": "C11", "title": "Neighbouring catalogue values are adjacent", "statement": "For a discrete variable, smaller() returns the largest catalogue value below the current one and larger() the smallest above it: no catalogue value lies strictly between, and an error is raised exactly when there is none.", "quantifier": "every catalogue (unsorted, with repetitions) and every current value", "why_tests_cant": "all catalogues", "anchors": ["metku/optimization/variables.py: DiscreteVariable.smaller, larger"]}
{"id": "C12", "title": "Discrete admissibility and discrete violation agree", "statement": "A value reported as allowed for an integer or discrete variable has zero discrete violation, the violation is the distance to the nearest admissible value when reported non-zero, and is never negative.", "quantifier": "every catalogue, every value", "why_tests_cant": "all catalogues and values", "anchors": ["metku/optimization/variables.py: IntegerVariable, DiscreteVariable: is_allowed_value, discrete_violation"]}
{"id": "C13", "title": "Binary reformulation selects exactly one profile", "statement": "In the problem produced by index2binary, every point whose binary variables are 0/1 and that satisfies the generated equality constraints selects exactly one profile of each group, and every property variable equals that profile's (rounded) property; conversely every choice of profile gives such a point.", "quantifier": "every profile list, every property table, every 0/1 assignment", "why_tests_cant": "exponentially many assignments, all sizes", "anchors": ["metku/optimization/opt_functions.py: index2binary"]}
{"id": "C14", "title": "Potentially active set contains every violated constraint", "statement": "Every constraint that is violated or active at the point is in the set returned by potentially_active_constraints; constraints left out hold with the stated margin.", "quantifier": "every list of typed constraint values", "why_tests_cant": "all lists", "anchors": ["metku/optimization/opt_functions.py: potentially_active_constraints"]}
{"id": "C15", "title": "CONLIN approximation matches value and gradient and is conservative", "statement": "The convex linearisation equals the function and its gradient at the expansion point and is nowhere below the linear nor below the reciprocal first-order approximation on the positive orthant.", "quantifier": "every gradient vector, every positive expansion point and every positive point, any dimension", "why_tests_cant": "all reals, all dimensions", "anchors": ["metku/optimization/opt_functions.py: conlin_fun"]}
{"id": "C16", "title": "CONLIN approximation is convex on the positive orthant", "statement": "Along every segment of positive points the approximation lies on or below its chord.", "quantifier": "every gradient, expansion point, pair of positive points and mixing ratio", "why_tests_cant": "all reals, all dimensions", "anchors": ["metku/optimization/opt_functions.py: conlin_fun"]}
{"id": "C17", "title": "MMA approximation matches value and gradient and is convex between its asymptotes", "statement": "The MMA approximating function equals the function value and gradient at the expansion point and is convex strictly between the asymptotes.", "quantifier": "every gradient, all asymptotes enclosing the expansion point, any dimension", "why_tests_cant": "all reals, all dimensions", "anchors": ["metku/optimization/opt_functions.py: mma_fun, MMAFunction"]}
{"id": "C18", "title": "MMA moving asymptotes always enclose the current point", "statement": "After any number of iterations the updated lower and upper asymptotes lie strictly on either side of the current iterate, no closer than the programmed fraction and no further than ten times the variable range.", "quantifier": "every iterate history, every variable range > 0", "why_tests_cant": "unbounded iteration histories", "anchors": ["metku/optimization/solvers/mma.py: MMA.take_action, gamma"]}
{"id": "C19", "title": "MMA sub-problem stays between the asymptotes", "statement": "The bounds of the MMA sub-problem lie inside the variable bounds and strictly between the asymptotes, so the approximating function is defined on the whole sub-problem.", "quantifier": "every iterate, asymptote pair and variable bounds", "why_tests_cant": "all reals incl. negative asymptotes", "anchors": ["metku/optimization/solvers/mma.py: MMAProblem"]}
{"id": "C20", "title": "Branching loses no admissible point and separates children", "statement": "Branching a node of the branch-and-bound tree on a variable yields children that together contain every integer/catalogue-admissible point of the parent, share no such point, and both exclude the fractional relaxation value.", "quantifier": "every node box, branching variable and fractional value", "why_tests_cant": "all boxes and points", "anchors": ["metku/optimization/solvers/bnb.py: BnB.branch"]}
{"id": "C21", "title": "Branch and bound with an exact relaxation returns the global optimum", "statement": "If the relaxation solver returns a true lower bound for every node and the search ends with no open node, the incumbent is no worse than every admissible feasible point of the original problem, within the programmed tolerance.", "quantifier": "every problem, every oracle satisfying the bound contract, every node selection order, any number of nodes", "why_tests_cant": "unbounded trees and selection orders", "anchors": ["metku/optimization/solvers/bnb.py: BnB.solve, lower_bound, upper_bound"]}
{"id": "C22", "title": "Branch-and-bound incumbent only improves", "statement": "During a branch-and-bound run the incumbent objective never increases and the stored incumbent point always has the stored objective value.", "quantifier": "every run prefix", "why_tests_cant": "unbounded runs", "anchors": ["metku/optimization/solvers/bnb.py: upper_bound, solve"]}
{"id": "C23", "title": "Branch-and-bound accepts only feasible incumbents", "statement": "Every incumbent stored by branch and bound satisfies all constraints of the problem within the tolerance, whatever the constraint types.", "quantifier": "every list of typed constraints", "why_tests_cant": "all constraint lists", "anchors": ["metku/optimization/solvers/bnb.py: upper_bound"]}
{"id": "C24", "title": "Bound tightening keeps every feasible point", "statement": "Feasibility-based bound tightening never removes a point satisfying the linear constraints.", "quantifier": "every linear constraint system and box", "why_tests_cant": "all systems and boxes", "anchors": ["metku/optimization/solvers/bnb.py: feasibility_tightening"]}
{"id": "C25", "title": "Iterative solver returns the best feasible iterate", "statement": "solve called on a newly created iterative solver returns, if any iterate was feasible, a feasible iterate with the least objective value among all feasible iterates visited; otherwise the last iterate.", "quantifier": "every sequence of iterates, values and feasibility flags", "why_tests_cant": "unbounded sequences", "anchors": ["metku/optimization/solvers/optsolver.py: OptSolver.solve"]}
{"id": "C26", "title": "A solver step stays inside the variable bounds", "statement": "The point after a step lies inside all variable bounds, whatever the step returned by the sub-problem.", "quantifier": "every point, action and bounds", "why_tests_cant": "all reals", "anchors": ["metku/optimization/solvers/optsolver.py: step", "metku/optimization/solvers/slp.py: step"]}
{"id": "C27", "title": "PSO global best never degrades", "statement": "Over any run of particle evaluations the recorded global best is the best seen: once feasible it stays feasible and its objective never increases; it was attained by some evaluated particle.", "quantifier": "every sequence of evaluated particles", "why_tests_cant": "unbounded sequences", "anchors": ["metku/optimization/solvers/pso.py: update_best, eval_particle"]}
{"id": "C28", "title": "PSO particles stay on the discrete grid within bounds", "statement": "After every move each particle coordinate lies in the variable bounds (and, for discrete problems, is one of the catalogue values closest to the clamped position), and velocities stay in the limits.", "quantifier": "every position, velocity and random draw", "why_tests_cant": "all random draws", "anchors": ["metku/optimization/solvers/pso.py: Particle.move"]}
{"id": "C29", "title": "Grid search examines every combination", "statement": "Grid search runs the solver exactly once for every element of the Cartesian product of the solver parameter lists, each combination assigning one listed value to every named parameter.", "quantifier": "all parameter lists of any number and length", "why_tests_cant": "all sizes", "anchors": ["metku/optimization/solvers/grid_search.py"]}
{"id": "C30", "title": "SLP move limits stay inside the variable bounds and contain the iterate", "statement": "The sub-problem's move-limit box is contained in the variable bounds and contains the current point whenever the current point is within bounds.", "quantifier": "all points, bounds and move limits", "why_tests_cant": "all reals", "anchors": ["metku/optimization/solvers/slp.py"]}
{"id": "C31", "title": "Two-phase discretisation window", "statement": "The second-phase catalogue window built around a continuous optimum is a non-empty contiguous slice of the catalogue containing the value nearest to the optimum.", "quantifier": "every catalogue, every continuous value, all window widths", "why_tests_cant": "all catalogues", "anchors": ["metku/optimization/solvers/two_phase.py"]}
{"id": "C32", "title": "Discrete neighbourhood consists of admissible points near the centre", "statement": "discrete_neighborhood(x, k, 'nearest') produces exactly the combinations that take, for every list or integer variable, one of its k admissible values nearest to the centre x; for k >= 1 the nearest admissible point is among them.", "quantifier": "every catalogue, centre and width", "why_tests_cant": "all sizes", "anchors": ["metku/optimization/structopt.py: discrete_neighborhood"]}
{"id": "C33", "title": "Linearised constraints reproduce values and slopes", "statement": "linearize returns coefficients such that the affine constraint has, at the expansion point, the same value as the original, and for an affine original is identical to it everywhere.", "quantifier": "every affine constraint, all points, any dimension", "why_tests_cant": "all reals, all dimensions", "anchors": ["metku/optimization/structopt.py: linearize"]}
{"id": "C34", "title": "Degree-of-freedom numbering is a bijection", "statement": "After nodal_dofs every free nodal degree of freedom has its own number, numbers are consecutive from zero, and no two nodes share one.", "quantifier": "every node count and dimension, every set of supports", "why_tests_cant": "all model sizes", "anchors": ["metku/framefem/framefem.py: nodal_dofs"]}
{"id": "C35", "title": "Global stiffness matrix is symmetric", "statement": "The assembled global stiffness matrix is symmetric whenever every element matrix is.", "quantifier": "every mesh, every element connectivity", "why_tests_cant": "all sizes", "anchors": ["metku/framefem/framefem.py: global_stiffness_matrix"]}
{"id": "C36", "title": "Assembly does not depend on element order", "statement": "Re-ordering the elements of the model yields the same global stiffness matrix and load vector.", "quantifier": "every permutation of every element list", "why_tests_cant": "n! orders for every n", "anchors": ["metku/framefem/framefem.py: global_stiffness_matrix, global_load_vector"]}
{"id": "C37", "title": "Assembled strain energy is the sum of element energies", "statement": "For every displacement vector u, u'Ku equals the sum over elements of the element energies of u restricted to the element's degrees of freedom; hence K is positive semi-definite when the elements are.", "quantifier": "every mesh and every displacement vector", "why_tests_cant": "all sizes, all reals", "anchors": ["metku/framefem/framefem.py: global_stiffness_matrix"]}
{"id": "C38", "title": "Reduced solve satisfies equilibrium and support conditions", "statement": "With the support method 'REM', the returned displacement vector is zero on supported degrees of freedom and satisfies the full equilibrium equations on every free one, provided the linear solver returns a solution of the reduced system.", "quantifier": "every matrix, load vector and support set", "why_tests_cant": "all sizes", "anchors": ["metku/framefem/framefem.py: linear_statics"]}
{"id": "C39", "title": "Beam element stiffness is symmetric, positive semi-definite, and free of spurious force under rigid motion", "statement": "The 2D Euler-Bernoulli element stiffness is symmetric and positive semi-definite and gives zero nodal forces for rigid translations and the infinitesimal rotation.", "quantifier": "every E, A, I > 0 and displacement vector; every length in the member frame, and in the global frame every member whose length is a whole number of thousandths (the resolution the code keeps)", "why_tests_cant": "all reals", "anchors": ["metku/framefem/elements/ebbeam.py: EBBeam.local_stiffness_matrix"]}
{"id": "C40", "title": "Beam element stiffness rank: only rigid motions are stress free", "statement": "A displacement vector with zero element energy is a rigid-body motion.", "quantifier": "every E, A, I > 0 and displacement; every length in the member frame, whole thousandths in the global frame", "why_tests_cant": "all reals", "anchors": ["metku/framefem/elements/ebbeam.py: EBBeam.local_stiffness_matrix"]}
{"id": "C41", "title": "Coordinate transformation preserves lengths", "statement": "The element transformation matrix is orthogonal, so local and global displacement vectors have the same length and the element energy does not depend on the frame.", "quantifier": "every pair of distinct node positions", "why_tests_cant": "all real coordinates", "anchors": ["metku/framefem/framefem.py: Element.length, direction_cosines", "metku/framefem/elements/ebbeam.py: EBBeam.transformation_matrix"]}
{"id": "C42", "title": "Equivalent nodal loads are statically equivalent to the line load", "statement": "For a line load on a beam element the equivalent nodal forces and moments have the same resultant force and moment as the distributed load.", "quantifier": "all load intensities, lengths and directions", "why_tests_cant": "all reals", "anchors": ["metku/framefem/elements/ebbeam.py: EBBeam.equivalent_nodal_loads"]}
{"id": "C43", "title": "Shape functions interpolate the nodal displacements", "statement": "The element shape functions reproduce the nodal displacement and rotation at both ends and reproduce rigid motions everywhere along the element.", "quantifier": "every length and every position", "why_tests_cant": "all reals", "anchors": ["metku/framefem/elements/ebbeam.py: EBBeam.shape_fun"]}
{"id": "C44", "title": "Rod and spring elements transmit equal and opposite forces", "statement": "The rod and spring stiffness matrices are symmetric, positive semi-definite and give self-equilibrated end forces proportional to the elongation.", "quantifier": "all stiffnesses, lengths, orientations and displacements", "why_tests_cant": "all reals", "anchors": ["metku/framefem/elements/rod.py", "metku/framefem/elements/springs.py"]}
{"id": "C45", "title": "Semi-rigid beam element interpolates between hinge and rigid joint", "statement": "The semi-rigid beam stiffness is symmetric, positive semi-definite and free of force under rigid motion; it equals the rigid beam stiffness with two rigid joints and approaches it entry by entry as the joints stiffen; no moment stiffness at an end exceeds the rotational stiffness of its joint.", "quantifier": "all stiffnesses and lengths", "why_tests_cant": "all reals", "anchors": ["metku/framefem/elements/eb_semi_rigid_beam.py"]}
{"id": "C46", "title": "Releases take effect whenever they are set", "statement": "Setting or clearing a hinge release on a beam element changes its stiffness matrix accordingly whether or not the stiffness had been evaluated before.", "quantifier": "every history of evaluations and release changes", "why_tests_cant": "history property with a cache", "anchors": ["metku/framefem/elements/ebbeam.py: EBBeam.local_stiffness_matrix (lru_cache)"]}
{"id": "C47", "title": "Nodal load vector is additive over loads and linear in the load factor", "statement": "The global load vector of a union of loads is the sum of the load vectors, and scaling a load's factor scales its contribution.", "quantifier": "every list of nodal loads", "why_tests_cant": "all lists", "anchors": ["metku/framefem/framefem.py: global_load_vector, PointLoad.load_and_dofs"]}
{"id": "C48", "title": "Cross-section classification is monotone and matches EN 1993-1-1 Table 5.2", "statement": "For fixed epsilon the class returned by each classification function never decreases when the part gets more slender, is always between 1 and 4, and equals the class of Table 5.2.", "quantifier": "every slenderness, every epsilon in (0,1]", "why_tests_cant": "all reals", "anchors": ["metku/eurocodes/en1993/en1993_1_1.py: internal_part_in_bending, internal_part_in_compression, internal_part_comp_bend, outstand_part_in_compression, CHS_class"]}
{"id": "C49", "title": "Classification accepts epsilon of every steel grade", "statement": "Calling a classification function with epsilon = sqrt(235/fy) gives the class of Table 5.2 for that steel for every yield strength.", "quantifier": "every yield strength > 0", "why_tests_cant": "all reals, incl. fy < 235", "anchors": ["metku/eurocodes/en1993/en1993_1_1.py: internal_part_in_compression, outstand_part_in_compression"]}
{"id": "C50", "title": "Buckling reduction factor is a proper reduction", "statement": "The flexural buckling reduction factor is defined, lies in (0,1], equals 1 for slenderness up to 0.2, and never exceeds the elastic critical value 1/slenderness^2.", "quantifier": "every slenderness >= 0 and imperfection factor of the five curves", "why_tests_cant": "all reals", "anchors": ["metku/eurocodes/en1993/en1993_1_1.py: buckling_reduction_factor"]}
{"id": "C51", "title": "Buckling reduction factor decreases with slenderness and imperfection", "statement": "The buckling reduction factor never increases when slenderness grows and never increases when a worse buckling curve is used (slenderness >= 0.2).", "quantifier": "all pairs of slendernesses and imperfection factors", "why_tests_cant": "all pairs of reals", "anchors": ["metku/eurocodes/en1993/en1993_1_1.py: buckling_reduction_factor"]}
{"id": "C52", "title": "Equivalent uniform moment factor lies between 0.4 and 1", "statement": "equivalent_moment_factor returns a value in [0.4, 1] for every moment diagram.", "quantifier": "all end and span moments, both load types", "why_tests_cant": "all reals, many branches", "anchors": ["metku/eurocodes/en1993/en1993_1_1.py: equivalent_moment_factor"]}
{"id": "C53", "title": "Equivalent uniform moment factor ignores member orientation", "statement": "Changing the sign of all moments does not change the factor; swapping the two end moments does not change it either when each end moment is zero or larger than the code's threshold of 1e-6.", "quantifier": "all moments; end moments zero or above 1e-6 for the swap", "why_tests_cant": "all reals", "anchors": ["metku/eurocodes/en1993/en1993_1_1.py: equivalent_moment_factor"]}
{"id": "C54", "title": "Beam-column utilisation is monotone", "statement": "The interaction utilisation and interaction factors never decrease when the axial or bending utilisation grows.", "quantifier": "all utilisations and slendernesses >= 0.2", "why_tests_cant": "all reals", "anchors": ["metku/eurocodes/en1993/en1993_1_1.py: beam_column_utility, kyy, kzz"]}
{"id": "C55", "title": "Effective width never exceeds the plate width", "statement": "The plate-buckling reduction factor lies in (0,1], the effective parts of a compressed plate add up to the effective width, which is at most the compressed width, and nothing is removed from stocky plates.", "quantifier": "all widths, slendernesses and stress ratios", "why_tests_cant": "all reals", "anchors": ["metku/eurocodes/en1993/en1993_1_5.py: reduction_factor_internal, reduction_factor_outstand, effective_width_internal, effective_width_outstand"]}
{"id": "C56", "title": "Plate buckling factor is continuous in the stress ratio", "statement": "The internal-part plate-buckling coefficient has no jumps larger than rounding of the code's table at its branch limits, and is defined for every stress ratio used.", "quantifier": "all stress ratios in (-3, 1]", "why_tests_cant": "all reals", "anchors": ["metku/eurocodes/en1993/en1993_1_5.py: buckling_factor_internal, buckling_factor_outstand"]}
{"id": "C57", "title": "Shear buckling contribution factor decreases with web slenderness", "statement": "The web shear-buckling factor never increases with slenderness by more than the rounding of the standard's constants (0.0012, and not at all with a non-rigid end post), never exceeds eta and stays positive.", "quantifier": "all slendernesses and both end-post types", "why_tests_cant": "all reals", "anchors": ["metku/eurocodes/en1993/en1993_1_5.py: shear_buckling_reduction_factor"]}
{"id": "C58", "title": "Fire reduction factors interpolate their table", "statement": "The temperature reduction of a steel property equals the tabulated factor at table temperatures, lies between neighbouring tabulated values elsewhere, never increases with temperature (except the factor stored as ky for 1.4301, whose table rises) and stays within [0,1].", "quantifier": "every temperature at which the factor exists, every steel and tabulated property", "why_tests_cant": "all reals", "anchors": ["metku/eurocodes/en1993/en1993_1_2.py: linear_interpolation, reduce_property"]}
{"id": "C59", "title": "Fire reduction factors exist at every temperature", "statement": "reduce_property returns a value for every temperature between 20 and 1200 degrees for every steel type.", "quantifier": "every temperature in [20,1200]", "why_tests_cant": "all reals", "anchors": ["metku/eurocodes/en1993/en1993_1_2.py: reduce_property, SPECIAL_TEMPS"]}
{"id": "C60", "title": "Fire stress-strain law", "statement": "The elevated-temperature stress-strain relation is continuous, never exceeds the effective yield strength (1.25 times the yield strength with hardening), is non-negative, never falls up to a strain of 0.15 and returns zero beyond the ultimate strain.", "quantifier": "all strains >= 0, all temperatures below 1200 at which the factors exist, all steels with E at least 150 times fy", "why_tests_cant": "all reals", "anchors": ["metku/eurocodes/en1993/en1993_1_2.py: stress"]}
{"id": "C61", "title": "Gas temperature curves increase with time", "statement": "The standard and hydrocarbon fire curves increase strictly with time and start from ambient temperature.", "quantifier": "all times", "why_tests_cant": "all reals", "anchors": ["metku/eurocodes/en1993/en1993_1_2.py: standard_fire, hydrocarbon_fire"]}
{"id": "C62", "title": "Thermal elongation never decreases with temperature", "statement": "The thermal elongation of steel is non-decreasing over the whole temperature range up to the printed precision of its branches (8.4e-6), which meet within that precision.", "quantifier": "all temperature pairs", "why_tests_cant": "all reals", "anchors": ["metku/eurocodes/en1993/en1993_1_2.py: therm_elongation"]}
{"id": "C63", "title": "RHS properties follow its dimensions through any edit history", "statement": "After any sequence of changes of height, width and thickness, area, second moments and moduli equal those of a fresh section of the final dimensions.", "quantifier": "every sequence of dimension assignments", "why_tests_cant": "history property", "anchors": ["metku/sections/steel/RHS.py: RHS.__setattr__, update_properties"]}
{"id": "C64", "title": "RHS area is the exact area of the rounded rectangular ring", "statement": "The computed area equals the difference of the areas of the outer and inner rounded rectangles and is positive.", "quantifier": "all valid dimensions", "why_tests_cant": "all reals", "anchors": ["metku/sections/steel/RHS.py: RHS_area, RHS_outer_radius"]}
{"id": "C65", "title": "RHS shear areas sum to the gross area", "statement": "The two shear areas of a rectangular hollow section add up to its area, as in EN 1993-1-1 6.2.6(3).", "quantifier": "all dimensions, after construction and after edits", "why_tests_cant": "all reals", "anchors": ["metku/sections/steel/RHS.py: RHS_shear_area, update_properties"]}
{"id": "C66", "title": "Bending resistance reduced by axial force never exceeds the unreduced one and vanishes at full axial utilisation", "statement": "moment_axial_force_interact returns a value between 0 and MRd, non-increasing in the axial utilisation, 0 beyond full utilisation.", "quantifier": "all axial utilisations", "why_tests_cant": "all reals", "anchors": ["metku/sections/steel/RHS.py: moment_axial_force_interact", "metku/sections/steel/ISection.py: moment_axial_force_interact"]}
{"id": "C67", "title": "CHS section properties are mutually consistent", "statement": "For circular hollow sections the torsion constant is twice the second moment, the elastic modulus is second moment over radius, and the plastic modulus exceeds the elastic one.", "quantifier": "all D > 2T > 0", "why_tests_cant": "all reals", "anchors": ["metku/sections/steel/CHS.py"]}
{"id": "C68", "title": "Plastic neutral axis of a welded I-section halves the area", "statement": "The plastic neutral axis returned for a welded I-section divides its area into two equal parts.", "quantifier": "all flange and web dimensions", "why_tests_cant": "all reals, three branches", "anchors": ["metku/sections/steel/wi.py: plastic_neutral_axis"]}
{"id": "C69", "title": "Elastic neutral axis of a welded I-section is its centroid and the second moment obeys the parallel axis theorem", "statement": "The first moment of area about the returned elastic neutral axis is zero; the second moment of area about it is the sum of the rectangles' own and transfer terms and is the least over all parallel axes.", "quantifier": "all dimensions", "why_tests_cant": "all reals", "anchors": ["metku/sections/steel/wi.py: elastic_neutral_axis, second_moment"]}
{"id": "C70", "title": "Welded section properties follow dimension edits", "statement": "Areas, second moments, moduli, torsion and warping constants, shear centre and perimeter of a welded I-section read after any sequence of dimension changes are those of a section constructed with the final dimensions, and every assigned dimension reads back; the imperfection factors stay those chosen at construction.", "quantifier": "every sequence of dimension assignments", "why_tests_cant": "history property", "anchors": ["metku/sections/steel/wi.py: __getattribute__, __setattr__"]}
{"id": "C71", "title": "ULS combination takes the worst of the two code expressions over every leading action", "statement": "The ULS design value is the maximum over the permanent-only expression and the expression with each variable action leading, of the sums with the correct partial and combination factors.", "quantifier": "every list of permanent and variable loads and consequence class", "why_tests_cant": "all lists", "anchors": ["metku/eurocodes/en1991/en1991.py: ULSCombiner.combine"]}
{"id": "C72", "title": "SLS combination uses the leading action that maximises the combination", "statement": "The characteristic combination reported is the largest over the choices of the leading variable action.", "quantifier": "every list of loads", "why_tests_cant": "all lists", "anchors": ["metku/eurocodes/en1991/en1991.py: SLSCombiner.combine"]}
{"id": "C73", "title": "Adding favourable-free load never lowers the design value", "statement": "Adding a non-negative permanent or variable load to a combiner never decreases the ULS design value.", "quantifier": "every list of non-negative loads and additional load", "why_tests_cant": "all lists", "anchors": ["metku/eurocodes/en1991/en1991.py: ULSCombiner.combine, Combiner.add"]}
{"id": "C74", "title": "Wall pressure zones cover the wall", "statement": "The wind zones of a rectangular building's side wall have non-negative lengths and add up to the wall length for every plan ratio; the flat roof zone areas add up to the roof area, and all are non-negative exactly when the governing width is at most twice the roof depth.", "quantifier": "all building dimensions", "why_tests_cant": "all reals, several branches", "anchors": ["metku/eurocodes/en1991/en1991_1_4.py: rect_building_wall_pressure, flat_roof_pressure"]}
{"id": "C75", "title": "Peak velocity pressure grows with height and basic wind speed", "statement": "The peak velocity pressure is positive and non-decreasing in height and in the basic wind velocity.", "quantifier": "all heights and velocities", "why_tests_cant": "all reals", "anchors": ["metku/eurocodes/en1991/en1991_1_4.py: peak_velocity_pressure"]}
{"id": "C76", "title": "Table interpolation stays between the tabulated values", "statement": "The interpolation helper returns the end values at the end points, stays between them inside and is monotone.", "quantifier": "all intervals and arguments", "why_tests_cant": "all reals", "anchors": ["metku/eurocodes/en1991/en1991_1_4.py: interpolate"]}
{"id": "C77", "title": "Charring depth never decreases with fire exposure time", "statement": "The notional charring depth is zero before charring starts, and never decreases with time.", "quantifier": "all times, protection times and charring rates", "why_tests_cant": "all reals incl. branch boundaries", "anchors": ["metku/eurocodes/en1995/en1995_1_2.py: d_char_n"]}
{"id": "C78", "title": "Adding a load to a frame never discards another", "statement": "After any sequence of load additions all loads ever added are still present in the frame.", "quantifier": "every sequence of additions with arbitrary names", "why_tests_cant": "unbounded histories and names", "anchors": ["metku/raami/raami.py: add_pointload, add_lineload"]}
{"id": "C79", "title": "Node and member identifiers are unique", "statement": "After any sequence of additions every node and every member has a distinct identifier equal to its position.", "quantifier": "every sequence of additions", "why_tests_cant": "unbounded histories", "anchors": ["metku/raami/raami.py: add_node, add_member"]}
{"id": "C80", "title": "A member line load is distributed over the elements without loss", "statement": "The element loads generated from a linearly varying member load have the same total as the member load and are continuous between elements, whatever the number of equal elements.", "quantifier": "all end intensities and element counts", "why_tests_cant": "all element counts", "anchors": ["metku/raami/frame_loads.py: LineLoad.add_load"]}
{"id": "C81", "title": "Annual cost repays the investment", "statement": "The annuity returned by annual_cost, discounted over the service years, has a present value equal to the investment.", "quantifier": "all investments, interest rates > 0 and years >= 1", "why_tests_cant": "all reals and all years", "anchors": ["metku/cost/workshop.py: annual_cost"]}
{"id": "C82", "title": "Cost centre cost is non-negative and monotone in work time", "statement": "With non-negative unit costs and times the cost is non-negative and does not decrease when times or unit costs grow; cutting cost is positive for every plate thickness.", "quantifier": "all times and unit costs, all thicknesses", "why_tests_cant": "all reals", "anchors": ["metku/cost/workshop.py: CostCentre.cost, CuttingCost.ProductiveTime"]}
{"id": "C83", "title": "Scaling a variable does not change what is written into the structure", "statement": "After var.scale(s), substituting x/s writes the physical value x into the structural property, and x is within the old bounds iff x/s is within the new ones.", "quantifier": "all variables, scaling factors and values", "why_tests_cant": "all reals and target kinds", "anchors": ["metku/optimization/variables.py: Variable.scale, Variable.substitute"]}
{"id": "C84", "title": "A constraint is always evaluated on an analysis of the current design", "statement": "After any history of substitutions, objective and constraint calls, evaluating a constraint leaves every load id it needs marked as analysed, with the analysis made for exactly the variable values now in force.", "quantifier": "all histories of problem-level calls, all variables and load ids", "why_tests_cant": "unbounded histories", "anchors": ["metku/optimization/constraints.py: Constraint.__call__", "metku/optimization/structopt.py: substitute_variables, fea"]}
{"id": "C85", "title": "Linearisation and objectives use an analysis of the current design", "statement": "The finite-difference evaluations made by linearize, and an objective declared with fea_required, see an analysis of the design being evaluated.", "quantifier": "all problems, variables and perturbations", "why_tests_cant": "unbounded histories", "anchors": ["metku/optimization/structopt.py: linearize", "metku/optimization/objective.py: ObjectiveFunction.__call__"]}
{"id": "C86", "title": "The recorded starting point is the first substituted point", "statement": "problem.x0 keeps the first point ever substituted, however many substitutions follow.", "quantifier": "all histories of substitutions", "why_tests_cant": "unbounded histories", "anchors": ["metku/optimization/structopt.py: substitute_variables"]}
{"id": "C87", "title": "The inverse barrier keeps interior points interior", "statement": "At strictly feasible points the inverse barrier function is at least the objective, and it exceeds any given level as soon as some inequality constraint is close enough to its limit.", "quantifier": "every list of typed constraint values, every weight and level", "why_tests_cant": "all lists and values, limits", "anchors": ["metku/optimization/structopt.py: barrier_fun"]}
{"id": "C88", "title": "The recorded iterate history is the sequence of visited points", "statement": "After solve, the solver's recorded history is the starting point followed by the points visited, in order, and the array the caller passed as starting point is unchanged.", "quantifier": "every starting point, bounds and sequence of steps, arrays or lists as starting point", "why_tests_cant": "array aliasing over unbounded runs", "anchors": ["metku/optimization/solvers/optsolver.py: OptSolver.step, solve"]}
{"id": "C89", "title": "The SLP sub-problem has the feasible set of affine constraints", "statement": "For problems whose constraints are affine, a point satisfies the rows of the SLP sub-problem (with zero relaxation) exactly when it satisfies the original constraints.", "quantifier": "every number of variables, all affine constraints and points", "why_tests_cant": "all dimensions and reals", "anchors": ["metku/optimization/solvers/slp.py: take_action", "metku/optimization/structopt.py: linearize"]}
{"id": "C90", "title": "An analysis uses the elements and nodes the model has when it is run", "statement": "Adding nodes, elements and loads to a model between two analyses changes the second analysis: every degree of freedom used by an element has a number and every load on it acts.", "quantifier": "every model, every sequence of additions and analyses", "why_tests_cant": "depends on the order of additions and analyses", "anchors": ["metku/framefem/framefem.py: linear_statics, nodal_dofs"]}
{"id": "C91", "title": "Geometric stiffness follows the sign of the axial force", "statement": "The geometric stiffness matrix of a beam is symmetric, its energy has the sign of the axial force for every displacement, it gives no force under translation and the couple P times rotation under a rigid rotation.", "quantifier": "every axial force, length and displacement vector", "why_tests_cant": "all reals", "anchors": ["metku/framefem/elements/ebbeam.py: local_geometric_stiffness_matrix"]}
{"id": "C92", "title": "Second order stiffness satisfies member equilibrium", "statement": "The second order stiffness matrix of a compressed member is symmetric and under any rigid motion gives exactly the couple of the axial force.", "quantifier": "every compressed member below the critical argument 2 pi, every rigid motion", "why_tests_cant": "transcendental functions of all reals", "anchors": ["metku/framefem/elements/ebbeam.py: local_second_order_stiffness_matrix"]}
{"id": "C93", "title": "Three-dimensional beam stiffness is symmetric, positive semi-definite and free of force under rigid motion", "statement": "The 12x12 stiffness of the 3D beam is symmetric, its energy is the sum of axial, torsional and two bending energies, and the six rigid motions give no force.", "quantifier": "every positive E, G, A, I, J, L and displacement vector", "why_tests_cant": "all reals", "anchors": ["metku/framefem/elements/ebbeam.py: EBBeam3D.local_stiffness_matrix"]}
{"id": "C94", "title": "Reported end forces are in equilibrium with the loads on the element", "statement": "Axial force, shear force and bending moment reported at the two ends of a beam satisfy the equilibrium equations of the member with all its line loads.", "quantifier": "every displacement vector, every set of line loads", "why_tests_cant": "all reals and load lists", "anchors": ["metku/framefem/elements/ebbeam.py: internal_forces, equivalent_nodal_loads"]}
{"id": "C95", "title": "A changed joint stiffness takes effect", "statement": "Setting the rotational stiffness of a member end (Sj1, Sj2) changes the stiffness matrix used in the next analysis accordingly.", "quantifier": "every history of stiffness changes and analyses", "why_tests_cant": "depends on the history of evaluations", "anchors": ["metku/framefem/elements/eb_semi_rigid_beam.py: local_stiffness_matrix", "metku/frame2d/frame2d.py: FrameMember.Sj1, Sj2"]}
{"id": "C96", "title": "Outstand plate buckling coefficient follows Table 4.2", "statement": "The buckling coefficient of an outstand part follows Table 4.2 of EN 1993-1-5 for both stress distributions, and does not jump between its branches.", "quantifier": "all stress ratios in (-1, 1]", "why_tests_cant": "all reals", "anchors": ["metku/eurocodes/en1993/en1993_1_5.py: buckling_factor_outstand"]}
{"id": "C97", "title": "Effective width of a plate grows with thickness and with width", "statement": "The effective width computed from slenderness, buckling coefficient and reduction factor is defined and positive, never exceeds the compressed width, never shrinks when the plate is made thicker and never shrinks when it is made wider.", "quantifier": "all widths, thicknesses, epsilons and stress ratios in (-3, 1]", "why_tests_cant": "all reals; the reduction falls with width while the gross width grows", "anchors": ["metku/eurocodes/en1993/en1993_1_5.py: lambda_p, buckling_factor_internal, reduction_factor_internal, effective_width_internal", "metku/sections/steel/wi.py:800-804"]}
{"id": "C98", "title": "Web shear resistance", "statement": "The shear buckling coefficient is at least 5.34, continuous where the panel is square and never grows with stiffener spacing; the web resistance is positive, at most the plastic resistance times eta, and never falls when the web is made thicker.", "quantifier": "all web depths, spacings, thicknesses and yield strengths", "why_tests_cant": "all reals", "anchors": ["metku/eurocodes/en1993/en1993_1_5.py: shear_buckling_coefficient, shear_buckling_slenderness, tau_crit, shear_buckling_reduction_factor", "metku/sections/steel/wi.py:859-862"]}
{"id": "C99", "title": "Resistance to transverse forces grows with bearing length", "statement": "The transverse force resistance of a web is positive, at most the yield load of the whole web between stiffeners and never falls when the stiff bearing length grows, for every load application type.", "quantifier": "all plate girder dimensions, bearing lengths and load types", "why_tests_cant": "all reals", "anchors": ["metku/eurocodes/en1993/en1993_1_5.py: transverse_force_resistance"]}
{"id": "C100", "title": "Sway imperfection", "statement": "The initial sway imperfection lies between 1/200 times 2/3 times sqrt(1/2) and 1/200, and never grows with building height or number of columns.", "quantifier": "all heights > 0 and column counts >= 1", "why_tests_cant": "all reals", "anchors": ["metku/eurocodes/en1993/en1993_1_1.py: sway_imperfection"]}
{"id": "C101", "title": "Net heat flux and one heating step follow the temperature difference", "statement": "The net heat flux into steel has the sign of the difference of gas and steel temperature and grows with the gas temperature; one time step heats steel that is colder than the gas, cools steel that is hotter and leaves equal temperatures alone.", "quantifier": "all temperatures above -273, all section factors, time steps and emissivities", "why_tests_cant": "all reals", "anchors": ["metku/eurocodes/en1993/en1993_1_2.py: hnet, steel_temp, spec_heat, spec_heat_stainless"]}
{"id": "C102", "title": "Steel temperature history", "statement": "The computed temperature history has one entry per time stamp, the stamps are 0, dt, 2 dt, ..., the first stamp at or after the requested time is the last, the temperature never falls and never exceeds the gas temperature when the step is short for the section (ksh AmV dt <= 6000); a non-positive step never returns.", "quantifier": "all durations, steps, section factors and gas curves below 1200 degrees", "why_tests_cant": "unbounded number of steps", "anchors": ["metku/eurocodes/en1993/en1993_1_2.py: steel_temp, stainless_steel_temp"]}
{"id": "C103", "title": "Axial force interaction of welded I-sections uses the code's web share", "statement": "The reduced bending resistance of a welded I-section under axial force is that of EN 1993-1-1 6.2.9.1(5) with a = (A - flange areas)/A limited to 0.5.", "quantifier": "all section dimensions and axial utilisations", "why_tests_cant": "all reals", "anchors": ["metku/sections/steel/wi.py: moment_axial_force_interact"]}
{"id": "C104", "title": "The effective area of a welded I-section does not exceed its gross area", "statement": "In pure compression the effective area is at most the gross area, and equal to it when no plate part is reduced.", "quantifier": "all section dimensions and steel grades", "why_tests_cant": "all reals", "anchors": ["metku/sections/steel/wi.py: Aeff, effective_flange, effective_web, effective_neutral_axis"]}
{"id": "C105", "title": "Plastic section modulus is at least the elastic one", "statement": "For rectangular hollow, circular hollow and welded I-sections the plastic section modulus is never below the elastic one, about both axes.", "quantifier": "all dimensions (minor axis of a welded I: web not thicker than 1.5 times the wider flange)", "why_tests_cant": "all reals, position of two neutral axes", "anchors": ["metku/sections/steel/wi.py: section_modulus, plastic_section_modulus", "metku/sections/steel/RHS.py: RHS_elastic_modulus, RHS_plastic_modulus"]}
{"id": "C106", "title": "Paint perimeter is the length of the outline", "statement": "The circumference used for painting and fire section factors equals the length of the outer boundary of the section.", "quantifier": "all dimensions", "why_tests_cant": "all reals", "anchors": ["metku/sections/steel/RHS.py: RHS_paint_area", "metku/sections/steel/wi.py: paint_area", "metku/sections/steel/ISection.py: cross_section_properties"]}
{"id": "C107", "title": "Shear centre offset and Wagner factor vanish for doubly symmetric sections", "statement": "For a doubly symmetric welded I-section the shear centre coincides with the centroid and the asymmetry factor zj is zero.", "quantifier": "all doubly symmetric dimensions", "why_tests_cant": "all reals", "anchors": ["metku/sections/steel/wi.py: shear_centre, wagners_factor"]}
{"id": "C108", "title": "Turning a welded I-section upside down does not change its properties", "statement": "Exchanging the flanges leaves area, second moments, elastic and plastic moduli, torsion constant and perimeter unchanged and mirrors both neutral axes and the shear centre.", "quantifier": "all dimensions", "why_tests_cant": "all reals, three branches of the plastic neutral axis", "anchors": ["metku/sections/steel/wi.py"]}
{"id": "C109", "title": "Neutral axes and modulus of a WQ beam", "statement": "The elastic neutral axis of a WQ beam is its centroid, the plastic neutral axis halves the area and the elastic modulus is the second moment over the distance of the outermost fibre.", "quantifier": "all dimensions", "why_tests_cant": "all reals", "anchors": ["metku/sections/steel/wq.py: elastic_neutral_axis, plastic_neutral_axis, section_modulus"]}
{"id": "C110", "title": "Cross-section class follows the compressed parts", "statement": "The class is the worst class of the parts that are compressed by the acting axial force and moment; tension without bending gives class 1.", "quantifier": "all axial forces, moments and part classes", "why_tests_cant": "all reals", "anchors": ["metku/sections/steel/steel_section.py: section_class, bending_resistance"]}
{"id": "C111", "title": "Cross-section utilisations are at most one exactly when the code's checks hold", "statement": "All utilisations returned by the cross-section check are at most 1 iff axial force, shear force and moment do not exceed their resistances and the moment does not exceed the resistance reduced for axial force (class 1 and 2) or the linear interaction holds (class 3 and 4).", "quantifier": "all forces and positive resistances", "why_tests_cant": "all reals, boundary at full axial utilisation", "anchors": ["metku/sections/steel/steel_section.py: section_resistance", "metku/sections/steel/RHS.py: moment_axial_force_interact"]}
{"id": "C112", "title": "A square hollow section stays square", "statement": "A square hollow section has equal height and width and equal properties about both axes, also after its dimension is changed.", "quantifier": "all dimensions and edits", "why_tests_cant": "history property", "anchors": ["metku/sections/steel/RHS.py: SHS, RHS.__setattr__"]}
{"id": "C113", "title": "Accidental combination takes the worst leading action", "statement": "The accidental design value is the largest of the permanent loads alone and the combinations with each variable load leading (psi1 for snow and wind, psi2 otherwise; psi2 for the others), and equals the sum of the reported loads times their factors.", "quantifier": "every list of loads", "why_tests_cant": "quantifies over all load lists", "anchors": ["metku/eurocodes/en1991/en1991.py:445"]}
{"id": "C114", "title": "Area reduction lowers imposed loads by at most 30 percent", "statement": "The area reduction factor lies between 0.7 and 1; applying it changes imposed loads only, never raises them and never lowers them by more than 30 percent; applying it again with the same area changes nothing further.", "quantifier": "all load lists and areas", "why_tests_cant": "quantifies over all real areas and loads", "anchors": ["metku/eurocodes/en1991/en1991.py:194"]}
{"id": "C115", "title": "Member totals add up the reported loads", "statement": "The load total reported for a member and direction is the sum of the factored loads in that direction acting on the member, up to the rounding of each load to two digits.", "quantifier": "all combinations, member numbers and directions", "why_tests_cant": "quantifies over all combinations", "anchors": ["metku/eurocodes/en1991/en1991.py:208"]}
{"id": "C116", "title": "Wall pressure coefficients follow the table without jumps", "statement": "For every building the windward and leeward coefficients lie between the tabulated extremes, equal the table at h/d = 0.25, 1 and 5, and change monotonically and without jumps with h/d; the side zones have the tabulated coefficients.", "quantifier": "all building dimensions", "why_tests_cant": "continuity and range over all real ratios", "anchors": ["metku/eurocodes/en1991/en1991_1_4.py:226"]}
{"id": "C117", "title": "Monopitch roof coefficients follow the table without jumps", "statement": "The roof coefficients equal the tabulated values at the tabulated slopes and vary without jumps between them, and the pressures of the zones are the peak pressure times these coefficients.", "quantifier": "all slopes of at least 5 degrees, both wind directions", "why_tests_cant": "continuity over all real slopes", "anchors": ["metku/eurocodes/en1991/en1991_1_4.py:70"]}
{"id": "C118", "title": "Timber design strength and panel protection move the right way", "statement": "The timber modification factor grows from permanent to instantaneous load, does not grow with the service class, the design strength is positive, below the characteristic strength and increasing in it; a thicker wooden panel delays charring.", "quantifier": "all strengths, classes, densities and thicknesses", "why_tests_cant": "quantifies over all real strengths and thicknesses", "anchors": ["metku/eurocodes/en1995/en1995_1_1.py:17", "metku/eurocodes/en1995/fire_protection.py:110"]}
{"id": "C119", "title": "A load combination contains every load once with its factor", "statement": "Adding a combination of load cases adds one copy of every load of the cases, equal to the original except for the combination's id and for its factor, which is the partial factor of the type (1.15 permanent, 1.5 variable at ULS, 1 otherwise), times psi0 unless the load belongs to the first case that is not dead; loads already in the frame stay.", "quantifier": "all frames built by additions, all lists of cases and loads", "why_tests_cant": "unbounded lists of cases and loads", "anchors": ["metku/raami/frame_loads.py:79-153", "metku/raami/frame_loads.py:185-209"]}
{"id": "C120", "title": "Replacing a combination leaves the others alone", "statement": "Adding a combination again replaces the loads it had added before; the loads of all other ids remain.", "quantifier": "all frames and combinations", "why_tests_cant": "unbounded histories and names", "anchors": ["metku/raami/frame_loads.py:128-153"]}
{"id": "C121", "title": "Local and global positions on a member agree", "statement": "A local coordinate turned into a point and back is unchanged, 0 and 1 are the member's ends, the mesh nodes start and end at the ends and divide the member into parts of equal length, and the perpendicular is a unit vector at right angles to the member.", "quantifier": "all members of positive length, all element counts", "why_tests_cant": "all reals, all counts", "anchors": ["metku/raami/frame_member.py:229-354"]}
{"id": "C122", "title": "The member angle does not depend on the member's direction", "statement": "The angle lies in [0, pi), is the same when the end points are exchanged and its tangent is the slope of the member.", "quantifier": "all end points", "why_tests_cant": "all reals", "anchors": ["metku/raami/frame_member.py:300-315"]}
{"id": "C123", "title": "The mesh of a member is a chain between its end nodes", "statement": "Meshing a member into n elements gives n elements, each starting where the previous one ends, from the first to the last node of the member, through distinct nodes.", "quantifier": "all n and node numbers", "why_tests_cant": "all element counts", "anchors": ["metku/raami/frame_member.py:577-602"]}
{"id": "C124", "title": "The design force is the member force of greatest magnitude", "statement": "The design force of a member is a force at an end of one of its elements and no element end has a force of greater magnitude.", "quantifier": "all lists of element end forces", "why_tests_cant": "unbounded lists of reals", "anchors": ["metku/raami/frame_member.py:373-412"]}
{"id": "C125", "title": "Force envelopes hold over all load cases", "statement": "The reported maximum (minimum) of a force over the load cases is the largest (smallest) of all its values in all cases.", "quantifier": "all load cases and values", "why_tests_cant": "unbounded lists of reals", "anchors": ["metku/raami/frame_member.py:480-518"]}
{"id": "C126", "title": "Releasing an end releases that member only", "statement": "Adding a hinge to a member changes that end of that member and nothing else.", "quantifier": "all sequences of member creations and hinges", "why_tests_cant": "unbounded histories, aliasing", "anchors": ["metku/raami/frame_member.py:103-170", "metku/raami/frame_member.py:814-822"]}
{"id": "C127", "title": "Self-weight is applied once", "statement": "However often self-weight is added, every member carries its self-weight once.", "quantifier": "all numbers of members and calls", "why_tests_cant": "unbounded histories", "anchors": ["metku/raami/raami.py:254-273", "metku/raami/frame_member.py:317-333"]}
{"id": "C128", "title": "Profile optimisation ends with a sufficient profile", "statement": "Optimising a member ends with the first profile of the list that is permitted and satisfies every load case; the sweep over the members stops after a bounded number of analyses and, if it stops early, every profile is the one its forces call for.", "quantifier": "all profile lists, load cases and analyses", "why_tests_cant": "unbounded lists", "anchors": ["metku/raami/frame_member.py:1205-1259", "metku/raami/raami.py:413-453"]}
{"id": "C129", "title": "Members of a group have one profile", "statement": "Creating a group, setting its profile and adding members to it always leave all its members with the profile of the group.", "quantifier": "all groups and edits", "why_tests_cant": "unbounded histories", "anchors": ["metku/raami/frame_member.py:1380-1444"]}
{"id": "C130", "title": "The resistance flag covers all load cases", "statement": "After designing a member for its load cases the stored utilisations are those of all cases and the flag tells whether all of them are within the limit.", "quantifier": "all lists of load cases", "why_tests_cant": "unbounded lists", "anchors": ["metku/raami/frame_member.py:521-536", "metku/raami/frame_member.py:1179-1203"]}
{"id": "C131", "title": "A stepped member load is represented on the safe side", "statement": "On an element beside the step the element load is the load of that side, and on the element containing the step it is the larger of the two, along the member from its first to its second end.", "quantifier": "all values, step positions and elements", "why_tests_cant": "all reals", "anchors": ["metku/raami/frame_loads.py:365-387"]}
{"id": "C132", "title": "A quote does not depend on earlier quotes", "statement": "The cost a cost centre returns for given arguments is the same whatever was costed with it before.", "quantifier": "blasting, cutting, painting, welding and sawing; all histories of calls and arguments", "why_tests_cant": "unbounded histories of mutation", "anchors": ["metku/cost/workshop.py:428-441", "metku/cost/workshop.py:513-520", "metku/cost/workshop.py:541-567", "metku/cost/workshop.py:660-670", "metku/cost/workshop.py:818-860"]}
{"id": "C133", "title": "Cutting cost grows with length and thickness", "statement": "Cutting costs nothing negative, and cutting more length or a thicker plate (within the range of the speed formulas, up to 157 mm) never costs less.", "quantifier": "all lengths, thicknesses and unit costs", "why_tests_cant": "all reals", "anchors": ["metku/cost/workshop.py:461-520"]}
{"id": "C134", "title": "Painting and blasting costs are monotone, painting is additive", "statement": "Painting and blasting costs are non-negative and do not decrease with the size of the part; painting two areas costs as much as painting their sum.", "quantifier": "all areas, lengths, paints and unit costs", "why_tests_cant": "all reals", "anchors": ["metku/cost/workshop.py:428-441", "metku/cost/workshop.py:541-567", "metku/cost/workshop.py:112-131"]}
{"id": "C135", "title": "Welding cost grows with weld size and length", "statement": "Welding takes non-negative time and its cost does not decrease when the weld gets longer or thicker.", "quantifier": "all sizes and lengths, fillet and butt welds", "why_tests_cant": "all reals", "anchors": ["metku/cost/workshop.py:621-670"]}
{"id": "C136", "title": "Sawing cost grows with the work", "statement": "The sawing cost is non-negative and does not decrease with member length, number of bevels, and sawn height, thickness or area.", "quantifier": "all members and numbers of ends", "why_tests_cant": "all reals, unbounded lists", "anchors": ["metku/cost/workshop.py:708-860"]}
{"id": "C137", "title": "Annual cost moves with investment, interest and life", "statement": "The annual cost is non-negative, grows with the investment and the interest rate and falls with the number of years.", "quantifier": "all investments, rates above zero and years", "why_tests_cant": "all reals, all years", "anchors": ["metku/cost/workshop.py:223-228"]}
{"id": "C138", "title": "Plate cost is consistent", "statement": "The cost of a plate is non-negative, is the same when evaluated again, does not decrease with width, height or thickness and reflects the plate's current welds and holes.", "quantifier": "all plates and workshops", "why_tests_cant": "all reals, histories of edits", "anchors": ["metku/structures/steel/plates.py:66-116", "metku/cost/cost_data.py:33-70"]}
{"id": "C139", "title": "Bolts are priced by their size", "statement": "A bolt is priced as the bolt of its own size, or of the next larger size in the table.", "quantifier": "all sizes and tables", "why_tests_cant": "all reals, all tables", "anchors": ["metku/cost/cost_calculation.py:63-78"]}
{"id": "C140", "title": "The bolt length is the shortest one sold", "statement": "Creating a Bolt of a size, class and required length gives a bolt whose length is the shortest length sold with partial thread for that size that is not shorter than required; when none is long enough, no bolt is returned (an exception is raised).", "quantifier": "for all sizes, classes and required lengths", "why_tests_cant": "The required length is a real number; tests can only try some lengths in each interval of the price table.", "anchors": ["metku/eurocodes/en1993/en1993_1_8/en1993_1_8.py:107-170", "metku/cost/cost_data.py:126-154"]}
{"id": "C141", "title": "Changing the size of a bolt equals creating it anew", "statement": "Assigning a new size to a bolt gives the same bolt as creating one with the new size, the same class and the originally required length: hole, areas, length and strengths.", "quantifier": "for all bolts, sizes and required lengths, including sizes for which creation fails", "why_tests_cant": "Every pair of sizes combines with every real required length.", "anchors": ["metku/eurocodes/en1993/en1993_1_8/en1993_1_8.py:182-230"]}
{"id": "C142", "title": "Shear and tension resistance of a bolt", "statement": "The shear resistance with threads in the shear plane is positive and smaller than with the shank in it; both follow EN 1993-1-8 Table 3.4 for the class, and both, like the tension resistance, grow with the bolt size. The free function bolt_shear_resistance with the same data gives the same resistance.", "quantifier": "for all sizes, classes, lengths and both positions of the shear plane", "why_tests_cant": "Products of tabulated data with all classes and sizes, compared with each other and with a second implementation.", "anchors": ["metku/eurocodes/en1993/en1993_1_8/en1993_1_8.py:234-284", "metku/eurocodes/en1993/en1993_1_8/en1993_1_8.py:2109-2182"]}
{"id": "C143", "title": "Bearing resistance of a bolt", "statement": "When edge distances and spacings are at least the minimum ones, the bearing resistance is positive, at most 2.5 fu d t / 1.25 and 2.5 fub d t / 1.25, and does not decrease when a distance, spacing, plate strength or plate thickness grows. The free function bolt_bearing_resistance with the same data gives the same resistance.", "quantifier": "for all bolts, real distances, spacings, thicknesses and strengths, edge and inner bolts", "why_tests_cant": "Six real inputs enter nested minima; tests see only some of the pieces.", "anchors": ["metku/eurocodes/en1993/en1993_1_8/en1993_1_8.py:287-334", "metku/eurocodes/en1993/en1993_1_8/en1993_1_8.py:2135-2169"]}
{"id": "C144", "title": "A utilisation of at most one in combined shear and tension is safe", "statement": "If the combined utilisation of a bolt is at most one, neither the shear force exceeds the shear resistance nor the tension force the tension resistance.", "quantifier": "for all non-negative forces and positive resistances", "why_tests_cant": "A statement about the whole region of real force pairs.", "anchors": ["metku/eurocodes/en1993/en1993_1_8/en1993_1_8.py:2196-2207"]}
{"id": "C145", "title": "Block tearing resistance", "statement": "The block tearing resistance is non-negative, does not decrease when the net area in tension or shear grows, and eccentric loading gives at most the concentric value, the difference being half the tension part.", "quantifier": "for all non-negative strengths and net areas", "why_tests_cant": "Ordering over all real areas.", "anchors": ["metku/eurocodes/en1993/en1993_1_8/en1993_1_8.py:2209-2228"]}
{"id": "C146", "title": "The full-strength weld throat is exactly sufficient", "statement": "The throat thickness returned for double-sided fillet welds, and the one for the one-sided weld of a tube wall, is the smallest throat for which the weld satisfies the directional criterion of EN 1993-1-8 4.5.3.2 when the plate is loaded to its yield resistance.", "quantifier": "for all steel grades with a correlation factor, strengths and plate thicknesses", "why_tests_cant": "Minimality over all real throats cannot be sampled.", "anchors": ["metku/eurocodes/en1993/en1993_1_8/en1993_1_8.py:2240-2259"]}
{"id": "C147", "title": "A T-stub fails in the weakest of its three modes", "statement": "The resistance of a T-stub is the smallest of the plastic, the combined and the bolt failure resistance of EN 1993-1-8 Table 6.2, it is positive, the reported mode is the first one that attains it, and the resistance does not decrease with flange thickness, yield strength, effective lengths or bolt resistance.", "quantifier": "for all T-stubs with positive dimensions", "why_tests_cant": "Minimum of three rational functions of seven real numbers.", "anchors": ["metku/eurocodes/en1993/en1993_1_8/en1993_1_8.py:1173-1369"]}
{"id": "C148", "title": "Moving the bolts away from the web never strengthens an inner row", "statement": "For an inner bolt row of an unstiffened flange, increasing the distance of the bolts from the web does not increase the T-stub resistance, although the effective lengths grow with that distance.", "quantifier": "for all positive dimensions, strengths and distances", "why_tests_cant": "Two opposing effects of one real variable; monotonicity holds over the whole line.", "anchors": ["metku/eurocodes/en1993/en1993_1_8/en1993_1_8.py:1253-1369", "metku/eurocodes/en1993/en1993_1_8/en1993_1_8.py:1419-1467"]}
{"id": "C149", "title": "The effective length belongs to the governing failure mode", "statement": "The effective length of a T-stub is the one of the mode that governs its present resistance, no matter which quantities were asked for before.", "quantifier": "for all T-stubs and all sequences of queries and changes of geometry", "why_tests_cant": "The value is remembered inside the object, so the answer depends on the history of calls.", "anchors": ["metku/eurocodes/en1993/en1993_1_8/en1993_1_8.py:1257-1297", "metku/eurocodes/en1993/en1993_1_8/en1993_1_8.py:1353-1369", "metku/eurocodes/en1993/en1993_1_8/en1993_1_8.py:1717-1740"]}
{"id": "C150", "title": "Effective lengths of column flange rows", "statement": "For inner and end rows of an unstiffened column flange the circular and non-circular effective lengths are positive and at most those of an inner row, with equality for inner rows and for end rows far from the edge.", "quantifier": "for all positive distances and all these positions, with finite or infinite end distance", "why_tests_cant": "Real distances and an infinite value enter a minimum.", "anchors": ["metku/eurocodes/en1993/en1993_1_8/en1993_1_8.py:1419-1467"]}
{"id": "C151", "title": "Resistance of a bolt row", "statement": "The tension resistance of a bolt row is the smallest of the resistances of column flange, end plate, column web and beam web; it is positive for every admissible row and never exceeds the tension resistance of its bolts.", "quantifier": "for all end-plate joints, rows and positions", "why_tests_cant": "Depends on some twenty real dimensions and eight by eight positions.", "anchors": ["metku/eurocodes/en1993/en1993_1_8/en1993_1_8.py:752-923"]}
{"id": "C152", "title": "Effective lengths and resistance of a group of rows", "statement": "For a group of rows of a column flange the sum of the effective lengths depends only on the distance of the first and last row; the group resistance is the smallest of the components that apply, at most that of all its bolts, and does not depend on the order in which lengths are computed.", "quantifier": "for groups of any number of rows at any levels", "why_tests_cant": "The number of rows is unbounded and the distances are stored in the rows between calls.", "anchors": ["metku/eurocodes/en1993/en1993_1_8/en1993_1_8.py:1015-1170", "metku/eurocodes/en1993/en1993_1_8/en1993_1_8.py:1833-2037"]}
{"id": "C153", "title": "Components act as springs in series", "statement": "The effective stiffness of a bolt row is positive, its inverse is the sum of the inverses of the component stiffnesses, so it is at most each of them and does not decrease when one of them grows; the group effective length used for it is the smallest positive one.", "quantifier": "for any number of components with positive stiffness", "why_tests_cant": "Unbounded lists of reals.", "anchors": ["metku/eurocodes/en1993/en1993_1_8/en1993_1_8.py:925-946", "metku/eurocodes/en1993/en1993_1_8/en1993_1_8.py:593-650"]}
{"id": "C154", "title": "The reduction factor for shear in the column web", "statement": "For every transformation parameter between 0 and 2 the reduction factor for the interaction with shear is at most one, one up to 0.5, and it does not increase with the parameter between 0 and 1 or with the effective width.", "quantifier": "for all parameters in [0, 2], effective widths, web thicknesses and shear areas", "why_tests_cant": "A piecewise function with five branches over real numbers.", "anchors": ["metku/eurocodes/en1993/en1993_1_8/component_method.py:13-41"]}
{"id": "C155", "title": "Column web in compression, tension and shear", "statement": "For parameters in [0, 1] and stresses up to the yield strength the column web resistance in transverse compression is positive, at most the yield force of the effective width, and does not increase with the longitudinal stress or the transformation parameter; the tension resistance is bounded in the same way, and the shear resistance is 0.9 times the plastic one.", "quantifier": "for all columns with positive dimensions, beams, plates, welds and stresses", "why_tests_cant": "Products of piecewise reduction factors of real arguments.", "anchors": ["metku/eurocodes/en1993/en1993_1_8/component_method.py:103-119", "metku/eurocodes/en1993/en1993_1_8/component_method.py:154-286"]}
{"id": "C156", "title": "Stiffened column web in compression", "statement": "The resistance of a stiffened column web is positive, at most the yield force of the stiffened cross-section, and does not increase with the buckling length, also across the limit slenderness where the buckling check starts.", "quantifier": "for all positive dimensions and buckling lengths", "why_tests_cant": "Monotonicity across a branch point over the reals.", "anchors": ["metku/eurocodes/en1993/en1993_1_8/component_method.py:232-255"]}
{"id": "C157", "title": "Stiffness ratio of a joint", "statement": "The ratio of initial to secant stiffness is one up to two thirds of the moment resistance, at least one everywhere, continuous at two thirds and does not decrease with the moment.", "quantifier": "for all moment ratios and exponents", "why_tests_cant": "Real powers over all arguments.", "anchors": ["metku/eurocodes/en1993/en1993_1_8/en1993_1_8.py:2230-2238"]}
{"id": "C158", "title": "The alpha factor of rows next to a stiffener", "statement": "The approximate alpha factor lies between 4 and 8, does not decrease when the edge distance grows or when the row moves towards the stiffener; the value found by the iterative search solves its equation within the tolerance whenever the search stops before its iteration limit.", "quantifier": "for all positive distances and all iterations of the search", "why_tests_cant": "A loop with a real-valued stopping criterion and up to a thousand steps.", "anchors": ["metku/eurocodes/en1993/en1993_1_8/component_method.py:43-97"]}
{"id": "C159", "title": "Geometry of a bolt row", "statement": "The smaller edge distance of the column flange T-stub is the minimum over flange and end plate; setting the distance from the plate top and reading it back agree, and so do writing back what was read; the distances above and below a row outside the flange add up to the overhang less the weld; the lever arm moves with the row.", "quantifier": "for all joints, rows and levels", "why_tests_cant": "Identities over reals with a case distinction on widths.", "anchors": ["metku/eurocodes/en1993/en1993_1_8/en1993_1_8.py:448-583"]}
{"id": "C160", "title": "Intersection of two lines", "statement": "The intersection of two lines is returned with its parameters on both lines, lies on both lines and is their only common point; the call fails exactly when the directions are parallel.", "quantifier": "for all points and directions", "why_tests_cant": "Uniqueness and failure conditions over all real coordinates.", "anchors": ["metku/eurocodes/en1993/en1993_1_8/rhs_joints.py:52-106"]}
{"id": "C161", "title": "Distance from a line and rotation", "statement": "The distance from a line to a point is the smallest distance to any point of the line and is attained only at the returned point, for a line given by two points and for a line given by a direction; rotating keeps lengths, angles add up, and a turn of 90 degrees maps the x axis to the y axis.", "quantifier": "for all points, directions and angles", "why_tests_cant": "A minimum over infinitely many points of the line.", "anchors": ["metku/eurocodes/en1993/en1993_1_8/rhs_joints.py:34-120"]}
{"id": "C162", "title": "Eccentricity of a gap joint", "statement": "The eccentricity is the distance below the chord axis at which the axes of the two braces meet, and it grows linearly with the gap.", "quantifier": "for all dimensions, gaps and brace angles with a sum below 180 degrees", "why_tests_cant": "Trigonometric identity over continuous angles.", "anchors": ["metku/eurocodes/en1993/en1993_1_8/rhs_joints.py:25-32", "metku/eurocodes/en1993/en1993_1_8/rhs_joints.py:400-405"]}
{"id": "C163", "title": "Strength reduction of high strength chords", "statement": "The strength reduction factor is 1, 0.9 or 0.8 by yield strength unless set by the user, does not grow with the yield strength, and the reduced yield strength does not fall when a stronger steel is chosen.", "quantifier": "for all yield strengths and user values", "why_tests_cant": "Boundaries between the grades.", "anchors": ["metku/eurocodes/en1993/en1993_1_8/rhs_joints.py:195-212"]}
{"id": "C164", "title": "Chord stress function", "statement": "Compressing the chord or bending it more raises the stress ratio and never raises the chord stress function; the function is 1 for a chord in tension, never above 1, at least 0.15 in the elastic range when the width ratio is at least 0.35, and negative exactly when the ratio exceeds 3.25 times the width ratio.", "quantifier": "for all chord sections, forces and width ratios", "why_tests_cant": "Sign and monotonicity over continuous forces.", "anchors": ["metku/eurocodes/en1993/en1993_1_8/rhs_joints.py:184-231"]}
{"id": "C165", "title": "Resistances of a K gap joint", "statement": "The resistances of chord face, chord shear, brace and punching shear follow the code table, are positive for an elastic chord, do not grow when the brace becomes steeper, and only the chord face resistance falls when the chord is compressed more; the resistance of the joint is no greater than any of those that apply.", "quantifier": "for all chords, braces, angles, gaps and chord forces", "why_tests_cant": "Monotonicity over continuous geometry and forces.", "anchors": ["metku/eurocodes/en1993/en1993_1_8/rhs_joints.py:396-484", "metku/eurocodes/en1993/en1993_1_8/rhs_joints.py:708-735"]}
{"id": "C166", "title": "Shear and axial force of the chord in the gap", "statement": "The shear area lies between that of the two webs and that of the webs with one flange and shrinks with the gap; the axial resistance of the chord in the gap is the full reduced resistance without shear, does not grow with shear, is never negative and vanishes when the shear exceeds the shear resistance.", "quantifier": "for all chords, gaps and shear forces", "why_tests_cant": "Square roots and a case distinction over continuous values.", "anchors": ["metku/eurocodes/en1993/en1993_1_8/rhs_joints.py:428-452"]}
{"id": "C167", "title": "Brace forces of a K gap joint", "statement": "For one brace in compression and one in tension the compression force and its angle are those of the compressed brace, the tension force is that of the other brace, the shear in the gap is the transverse component of the brace force, and the chord force in the gap can be evaluated for every sign of the chord force.", "quantifier": "for all non-empty lists of equal section forces in both braces", "why_tests_cant": "Depends on sign conventions over all force lists.", "anchors": ["metku/eurocodes/en1993/en1993_1_8/rhs_joints.py:314-374", "metku/structures/steel/steel_member.py:179-187"]}
{"id": "C168", "title": "Resistances of Y joints and the chord stress", "statement": "The resistances of a Y joint are positive, follow the code table, do not grow when the brace becomes steeper, and the chord face resistance does not grow when the chord is compressed more.", "quantifier": "for all chords, braces, angles and chord forces", "why_tests_cant": "Monotonicity of a real power over continuous forces.", "anchors": ["metku/eurocodes/en1993/en1993_1_8/rhs_joints.py:754-885"]}
{"id": "C169", "title": "Utilisation of Y joints", "statement": "The utilisation is non-negative, at most 1 exactly when the brace force does not exceed the resistance, proportional to the force; between the width ratios 0.85 and 1 the resistance is interpolated between the chord face resistance at 0.85 and the side wall resistance at 1.", "quantifier": "for all chords, braces and forces", "why_tests_cant": "Interpolation over a continuous range of width ratios.", "anchors": ["metku/eurocodes/en1993/en1993_1_8/rhs_joints.py:965-1003"]}
{"id": "C170", "title": "Side wall strength of Y joints", "statement": "For a brace in tension the side wall strength is the yield strength; for a brace in compression it is positive and never above the yield strength; a new joint knows from the member whether the brace is compressed.", "quantifier": "for all chords, braces and forces", "why_tests_cant": "Buckling curve over continuous slenderness.", "anchors": ["metku/eurocodes/en1993/en1993_1_8/rhs_joints.py:756-846"]}
{"id": "C171", "title": "X joints against Y joints", "statement": "An X joint can be designed for both signs of the brace force and for every angle, and its utilisation equals that of the Y joint with the same data when the brace is in tension and steep enough.", "quantifier": "for all chords, braces, angles and forces", "why_tests_cant": "Case distinction over continuous geometry.", "anchors": ["metku/eurocodes/en1993/en1993_1_8/rhs_joints.py:1007-1047"]}
{"id": "C172", "title": "Sections and force envelopes of a steel member", "statement": "After any history of add_section calls each location holds the forces given last for it, the number of sections is the number of distinct locations, clear_sections removes all, setting the axial force or the moment reaches every section and leaves the other forces, and NEd, MEdY and NcEd are the extreme values over the sections (NcEd zero exactly when no section is compressed).", "quantifier": "for all histories of add_section calls, all locations and forces", "why_tests_cant": "Arbitrary histories of calls and numbers of sections.", "anchors": ["metku/structures/steel/steel_member.py:92-192", "metku/structures/steel/steel_member.py:563-584"]}
{"id": "C173", "title": "Euler load, slenderness and buckling strength of a member", "statement": "The critical load follows Euler's formula, the slenderness is proportional to the length, the buckling strength is positive, never above the yield load nor the critical load, equal to the yield load up to slenderness 0.2, and never grows with the length.", "quantifier": "for all members with positive data and imperfection factors between 0 and 1", "why_tests_cant": "Continuous range of slenderness, with square roots.", "anchors": ["metku/structures/steel/steel_member.py:220-342"]}
{"id": "C174", "title": "Torsional buckling in the design of a member", "statement": "A member whose design value is at most 1 carries its compression force without torsional buckling.", "quantifier": "for all members with positive data", "why_tests_cant": "Existence of a section for which torsional buckling governs.", "anchors": ["metku/structures/steel/steel_member.py:323-342", "metku/structures/steel/steel_member.py:772-797"]}
{"id": "C175", "title": "Lateral torsional buckling strength of a member", "statement": "The lateral torsional buckling strength is positive, at most the bending resistance, equal to it for small slenderness, never lets the moment pass the critical moment, grows with the critical moment and does not grow with the moment; the utilisation of the check is at most 1 exactly when the moment is at most the strength.", "quantifier": "for all members, critical moments and both methods", "why_tests_cant": "Two methods, two switching rules and square roots over a continuous range.", "anchors": ["metku/structures/steel/steel_member.py:281-294", "metku/structures/steel/steel_member.py:344-378", "metku/structures/steel/steel_member.py:658-666"]}
{"id": "C176", "title": "Elastic critical moment", "statement": "The critical moment is positive, satisfies the quadratic equation of the three-factor formula, falls with the length, and falls when the load acts higher, for sections with one or two axes of symmetry.", "quantifier": "for all members, factors C1 > 0, C2 >= 0, kz, kw > 0 and load levels", "why_tests_cant": "Continuous ranges; monotonicity of a difference of a square root and a linear term.", "anchors": ["metku/structures/steel/steel_member.py:402-470"]}
{"id": "C177", "title": "Critical moment of a cantilever", "statement": "For a constant K between 0.1 and 2.5 the critical moment of a cantilever is positive, lowest for a load at the top flange and highest for a load at the bottom flange, for point loads and distributed loads, with free and restrained end.", "quantifier": "for all doubly symmetric members with K in the range of the table", "why_tests_cant": "Sign of fitted polynomials over a continuous range.", "anchors": ["metku/structures/steel/steel_member.py:472-543"]}
{"id": "C178", "title": "Section check of a member", "statement": "check_sections gives the largest utilisation over all sections and is independent of the order of the sections; it depends only on axial force, major axis moment and shear force in the plane of the web.", "quantifier": "for all members and numbers of sections", "why_tests_cant": "Arbitrary number and order of sections, state in the profile.", "anchors": ["metku/structures/steel/steel_member.py:586-628"]}
{"id": "C179", "title": "Buckling check of a member", "statement": "The buckling check is zero without compression; otherwise each value is the largest compression divided by the strength about that axis, and is at most 1 exactly when the compression does not exceed the strength.", "quantifier": "for all members with positive data and any sections", "why_tests_cant": "Quantifies over all members and forces.", "anchors": ["metku/structures/steel/steel_member.py:636-656"]}
{"id": "C180", "title": "Interaction of compression and bending", "statement": "check_beamcolumn returns for every member two values that are at least the buckling utilisations and follow the interaction formula of Method 2.", "quantifier": "for all members, classes, sway conditions and forces", "why_tests_cant": "Depends on attributes set elsewhere and on the sign of a linear expression.", "anchors": ["metku/structures/steel/steel_member.py:668-758"]}
{"id": "C181", "title": "Equivalent uniform moment factor of a member", "statement": "Cmy is 0.9 for sway members, otherwise between 0.4 and 1 and determined by the moments of the present sections at the ends and at midspan.", "quantifier": "for all members and histories", "why_tests_cant": "Depends on the history of the object.", "anchors": ["metku/structures/steel/steel_member.py:198-218"]}
{"id": "C182", "title": "Design of a member", "statement": "design returns for every member with sections a value not below any section utilisation nor any buckling utilisation, so that a value of at most 1 means every check holds, and the value depends only on the sections and data of the member, not on earlier use.", "quantifier": "for all members, forces and histories", "why_tests_cant": "Depends on the history of the object and on all combinations of checks.", "anchors": ["metku/structures/steel/steel_member.py:772-797"]}
{"id": "C183", "title": "Shear stiffness, weight and cost of a member", "statement": "The required shear stiffness is positive and falls with the length towards 70 G It / h^2; weight and cost are additive in the length.", "quantifier": "for all members with positive data", "why_tests_cant": "Continuous ranges of length.", "anchors": ["metku/structures/steel/steel_member.py:380-400", "metku/structures/steel/steel_member.py:760-770"]}
{"id": "C184", "title": "Cross-section resistances are those of EN 1993-1-1", "statement": "The axial, bending, net section and shear resistances returned for an area or section modulus and a strength equal the formulas of EN 1993-1-1 6.2 with partial factors 1.0 and 1.25 (net section: 0.72 times area times ultimate strength; shear: area times yield strength over the root of three, never above the axial one); the buckling strength is the reduction factor times the compression resistance; the slenderness squared times the critical load is the squash load.", "quantifier": "all areas, moduli, strengths, reduction factors and positive critical loads", "why_tests_cant": "all reals", "anchors": ["metku/eurocodes/en1993/en1993_1_1.py: tension_resistance, net_section_resistance, compression_resistance, bending_resistance, shear_resistance, slenderness, buckling_strength"]}
{"id": "C185", "title": "Interaction factors are those of EN 1993-1-1 Annex B", "statement": "For classes 1 and 2 the interaction factors kyy, kzz, kyz and kzy equal the smaller (for members susceptible to torsion: larger) of the two expressions of Tables B.1 and B.2; for classes 3 and 4 kyy and kzz are never below Table B.1 and never above its upper limit; the beam-column utilisation is the axial utilisation plus the amplified moments.", "quantifier": "all slendernesses, axial utilisations, moment factors and cross-section classes", "why_tests_cant": "all reals", "anchors": ["metku/eurocodes/en1993/en1993_1_1.py: kyy, kzz, kyz, kzy, beam_column_utility"]}
{"id": "C186", "title": "Timber sections shrink in fire", "statement": "Height, width, area, second moments and section moduli are always positive; without fire they are the nominal ones; they are exactly the nominal size less the charring depths of the exposed sides (a vanished dimension is replaced by 1e-5); a longer fire never gives a larger dimension and fire on four sides never a larger height than on three.", "quantifier": "all sizes, charring rates, fire durations and protections with ordered times", "why_tests_cant": "continuous sizes and times", "anchors": ["metku/sections/timber/timber_section.py:125-216", "metku/sections/timber/timber_section.py:276-308"]}
{"id": "C187", "title": "Protection boards are set up consistently", "statement": "Every gypsum board protection has ordered times (charring start, failure, end of the fast phase); a gap of at least 2 mm costs 9 minutes of its charring start; side-specific protections take precedence over the generic one, which on three-sided exposure leaves the top alone; protections set through the section's setters behave as those given to the constructor.", "quantifier": "all boards, gaps, grades and combinations of sides", "why_tests_cant": "combinations of boards, gaps, grades and sides", "anchors": ["metku/eurocodes/en1995/fire_protection.py:1-122", "metku/sections/timber/timber_section.py:32-124", "metku/sections/timber/timber_section.py:219-233"]}
{"id": "C188", "title": "Strength classes are physically consistent", "statement": "All strengths, moduli and densities are positive and in their physical order, design values are positive and below the characteristic ones, and a higher softwood or hardwood class is at least as strong and stiff in every respect; the same for glulam classes.", "quantifier": "all grades, service classes and load durations", "why_tests_cant": "cross product of grades and properties", "anchors": ["metku/materials/timber_data.py: Timber, T"]}
{"id": "C189", "title": "Size factors never make a larger member weaker", "statement": "The depth factor lies in its range (1 to 1.3 for solid timber, 1 to 1.1 for glulam, at most 1.2 for LVL), and a larger height or width never gives a smaller bending or axial resistance although the factor falls; the length factor of LVL is at most 1.1, one for other materials, and at most one beyond 3 m.", "quantifier": "all materials, sizes, exponents and forces", "why_tests_cant": "continuous sizes", "anchors": ["metku/sections/timber/timber_section.py:172-201", "metku/structures/timber/timber_member.py:116-134"]}
{"id": "C190", "title": "Heights of tapered beams", "statement": "The heights of single tapered, ridge and belly beams take the given end and apex values, vary monotonically between them and stay within them; element heights are those at the element middles; the volume of a ridge beam is its width times span times mean height.", "quantifier": "all end and apex heights, apex positions, slopes and locations", "why_tests_cant": "continuous geometry", "anchors": ["metku/sections/timber/timber_section.py:245-540", "metku/structures/timber/timber_member.py:388-390"]}
{"id": "C191", "title": "Heights of curved beams", "statement": "A curved beam and a curved ridge beam have the end height at both ends, are symmetric, nowhere lower than at the ends, and a curved beam has constant height over its lower arc.", "quantifier": "all spans, heights, slopes 0 <= beta <= alpha < 90 degrees and radii whose arcs fit the span; all locations", "why_tests_cant": "continuous geometry with six pieces", "anchors": ["metku/sections/timber/timber_section.py:542-835"]}
{"id": "C192", "title": "Buckling segments partition the member", "statement": "The buckling lengths between lateral supports are one more than the supports, sum to the member length, lie between 0 and the member length, do not depend on the order of the supports, and are the lengths of the segments the buckling check uses.", "quantifier": "all lengths and lists of supports", "why_tests_cant": "lists of any length", "anchors": ["metku/structures/timber/timber_member.py:1439-1464", "metku/structures/timber/timber_member.py:1144-1161"]}
{"id": "C193", "title": "The buckling factor of timber columns", "statement": "The factor solves the equation of EN 1995-1-1 6.3.2, is positive, never gives more than the Euler load, is at most one exactly for relative slenderness of at least 0.3 (and never above 50/47), and falls strictly with slenderness and with length.", "quantifier": "all materials, slendernesses, lengths and strengths", "why_tests_cant": "transcendental/continuous", "anchors": ["metku/structures/timber/timber_member.py:701-708", "metku/structures/timber/timber_member.py:875-912"]}
{"id": "C194", "title": "The lateral buckling factor of timber beams", "statement": "The factor lies in (0,1], is one up to slenderness 0.75, never gives more than the critical stress, and never rises by more than 0.0003 with the slenderness; the critical stress is inversely proportional to the effective length and positive.", "quantifier": "all slendernesses, sizes, moduli and positive effective lengths", "why_tests_cant": "continuous, three pieces", "anchors": ["metku/structures/timber/timber_member.py:914-954"]}
{"id": "C195", "title": "Torsional stress of rectangles", "statement": "The torsional stress of a rectangle lies between 3 and 5 times T / (h b^2) with b the smaller side, does not depend on which side is called height, and falls with growing slenderness of the section; the torsional constant does not exceed a third of h b^3; the shape factor lies in (1, 1.3].", "quantifier": "all sizes and torsional moments", "why_tests_cant": "continuous table with interpolation", "anchors": ["metku/structures/timber/timber_member.py:629-699"]}
{"id": "C196", "title": "Section checks of timber members are those of EN 1995-1-1", "statement": "The utilisations for axial force, shear, biaxial bending, torsion and the combinations with tension and compression equal the expressions of EN 1995-1-1 6.1 and 6.2 for the section's forces, whatever their signs, and are at least zero.", "quantifier": "all sections, forces and members with positive data", "why_tests_cant": "six force components of any sign", "anchors": ["metku/structures/timber/timber_member.py:999-1006", "metku/structures/timber/timber_member.py:1104-1136"]}
{"id": "C197", "title": "Shear reduction near supports", "statement": "In the reduction zone of a support the shear check uses a section still within the zone, the last one before the zone's end, never one beyond it, and never raises; outside the zones it uses the section itself.", "quantifier": "all sorted lists of sections, indices and disjoint zones", "why_tests_cant": "lists of any length, negative indices", "anchors": ["metku/structures/timber/timber_member.py:1056-1107"]}
{"id": "C198", "title": "Member buckling checks of timber members", "statement": "The buckling utilisation of every segment is at least the expression of EN 1995-1-1 (6.23), (6.24) at every compressed section of the segment and is zero without compression; the utilisation of the member is at least that of every segment; the lateral-torsional ratio equals (6.33), (6.35).", "quantifier": "all lists of sections, supports, factors and forces of any sign", "why_tests_cant": "lists of any length", "anchors": ["metku/structures/timber/timber_member.py:1138-1203"]}
{"id": "C199", "title": "The verdict of a timber member", "statement": "check_sections returns for each of the six checks the largest utilisation over the sections; design is at most one exactly when every check passes; the strength flag agrees with design being at most one.", "quantifier": "all lists of sections and utilisations, beams and columns", "why_tests_cant": "lists of any length", "anchors": ["metku/structures/timber/timber_member.py:1391-1418", "metku/structures/timber/timber_member.py:1466-1473"]}
{"id": "C200", "title": "Apex factors of timber beams", "statement": "The factors for apex stresses (k_l, k_p, k_r, k_dis, k_vol, k_m,alpha) equal those of EN 1995-1-1 6.4.", "quantifier": "all slopes, radii, heights, volumes and strengths", "why_tests_cant": "continuous", "anchors": ["metku/structures/timber/timber_member.py:341-474"]}
{"id": "C201", "title": "Apex moment", "statement": "The moment at the apex is that of the section there; if there is none it is the mean of the moments of the nearest sections on both sides.", "quantifier": "all lists of sections at distinct locations surrounding the apex", "why_tests_cant": "lists of any length", "anchors": ["metku/structures/timber/timber_member.py:305-332"]}
{"id": "C202", "title": "Bracing forces and bearing stress", "statement": "The bracing stiffness, force and line load are those of EN 1995-1-1 9.2.5 for the largest compression; the bearing stress under another member uses that member's force at the node, its effective contact length and the smaller width; the bearing factor is that of 6.1.5.", "quantifier": "all members, supports, nodes and forces", "why_tests_cant": "geometry of nodes", "anchors": ["metku/structures/timber/timber_member.py:500-566", "metku/structures/timber/timber_member.py:1205-1243"]}
{"id": "C203", "title": "Equivalent moment factors are those of EN 1993-1-1 Table B.3", "statement": "For a moment diagram with a span moment that is not linear, the factor returned is the value of Table B.3 for the ratio of span and end moment, the ratio of the end moments and the load type.", "quantifier": "all end and span moments above the code's thresholds, both load types", "why_tests_cant": "all reals, twelve branches", "anchors": ["metku/eurocodes/en1993/en1993_1_1.py:315-406"]}
{"id": "C204", "title": "Thermal properties of steel are those of EN 1993-1-2", "statement": "Conductivity, specific heat and elongation of carbon and stainless steel equal the expressions of EN 1993-1-2 3.4 and Annex C; the conductivity of carbon steel never rises with the temperature.", "quantifier": "all temperatures", "why_tests_cant": "all reals, branches", "anchors": ["metku/eurocodes/en1993/en1993_1_2.py:285-346"]}
{"id": "C205", "title": "Loads enter a combiner with the factors of EN 1990", "statement": "Adding a load appends exactly one load to the permanent (dead and area) or the variable (imposed, snow, wind) loads, leaves the others untouched, multiplies its value by the spacing (dead loads: by one) and gives it the factors of Table A1.1 for the structure's category, for snow those of the Finnish annex depending on whether it is below 2.75 kN/m2; the consequence-class factor is 0.9, 1.0, 1.1 for classes 1 to 3.", "quantifier": "all loads, combiners, spacings, categories and classes", "why_tests_cant": "combiners with any number of loads; every category", "anchors": ["metku/eurocodes/en1991/en1991.py:21-27", "metku/eurocodes/en1991/en1991.py:93-178"]}
{"id": "C206", "title": "Area reduction of imposed loads", "statement": "The reduction factor is 5/7 psi0 + 10/A limited to 0.7 ... 1.0, applied to every imposed load and nothing else, for categories A to D only.", "quantifier": "all combiners, areas and factors", "why_tests_cant": "lists of any length", "anchors": ["metku/eurocodes/en1991/en1991.py:194-205"]}
{"id": "C207", "title": "Wind zones, terrain and velocities are those of EN 1991-1-4", "statement": "Wall zones follow Figure 7.5 in its three cases, flat roof zones Figure 7.6, the roughness length, minimum height and terrain factor Table 4.1 and (4.5), and the turbulence intensity, mean velocity and peak pressure (4.7), (4.3), (4.8).", "quantifier": "all dimensions, heights, categories and wind velocities", "why_tests_cant": "continuous", "anchors": ["metku/eurocodes/en1991/en1991_1_4.py:159-411"]}
{"id": "C208", "title": "Timber tables and the charring depth", "statement": "Modification factors are those of EN 1995-1-1 Table 3.1, partial factors Table 2.3, charring rates those of EN 1995-1-2 Table 3.1 (with the panel correction below 20 mm), and the charring depth of a protected side follows the three phases of 3.4.3 with the zero-strength layer of Table 4.1.", "quantifier": "all materials, densities, thicknesses, times and protections (times other than the failure time itself)", "why_tests_cant": "continuous, every phase", "anchors": ["metku/eurocodes/en1995/en1995_1_1.py:17-70", "metku/eurocodes/en1995/en1995_1_2.py:22-105"]}
{"id": "C209", "title": "SLSQP and COBYLA get exactly the constraints of the problem", "statement": "The feasible set handed to scipy by the SLSQP and COBYLA solvers is the feasible set of the problem: a point of the free variables satisfies the passed 'eq' and 'ineq' functions iff every constraint of type <, <=, >, >=, = holds there (locked variables at their fixed values). SLSQP's bounds are those of the free variables and its default start lies inside them; COBYLA, which passes no bounds, can return a point outside them.", "quantifier": "all problems (any number of variables, locked or free, linear or nonlinear constraints, any type) and all points", "why_tests_cant": "a sign or type slip only shows at points where the constraint is active; tests sample few points and types", "anchors": ["metku/optimization/solvers/slsqp.py:33-121", "metku/optimization/solvers/slsqp.py:170-211"]}
{"id": "C210", "title": "The trust-region solver gets exactly the constraints of the problem", "statement": "The limits passed to scipy's trust-constr method describe the feasible set of the problem: for nonlinear constraints always, for linear constraints whenever no variable is locked. With a locked variable the coefficients of a linear constraint are matched to the wrong variables.", "quantifier": "all problems and points", "why_tests_cant": "the matching error only shows for locked variables and points near the constraint", "anchors": ["metku/optimization/solvers/trust_region.py:110-148"]}
{"id": "C211", "title": "LP and MILP solvers solve the given problem", "statement": "For problems with only linear constraints of type <, > or = and no locked variable, the rows handed to the LP/MILP solver describe exactly the feasible set, and the variables of the MILP are exactly the allowed ones when all are continuous or binary. Outside of this the solver silently solves a different problem: nonlinear constraints are dropped, <= becomes an equation, locked variables shift the coefficients, and integer and discrete variables are relaxed.", "quantifier": "all problems and points", "why_tests_cant": "needs the feasible set, not a sample point", "anchors": ["metku/optimization/solvers/lp.py:57-102", "metku/optimization/solvers/milp.py:47-57"]}
{"id": "C212", "title": "MISLP sub-problem ranges, rows and selections", "statement": "In the mixed-integer sequential LP each variable's range contains its current value, stays within the bounds and includes the neighbouring catalogue values; '<' and '=' constraints get their linearised rows; the binary selection allows exactly the catalogue values; the new point differs from the LP solution by at most 0.0005; the feasibility checker accepts exactly the points within 1e-5 of all limits. '>' constraints get no row, a problem with a binary variable gets no selection, and rounding can leave the catalogue.", "quantifier": "all variables, move limits, catalogues, rows and points", "why_tests_cant": "interaction of classes, move limits and catalogues", "anchors": ["metku/optimization/solvers/mislp.py:29-216"]}
{"id": "C213", "title": "Ant colony: probabilities, pheromones and best design", "statement": "Selection probabilities are positive, sum to one and are proportional to pheromone^alpha * heuristic^beta; the local update scales exactly the chosen entries; the global update adds rho*(top-rank)/fitness for the best-ranked ants to exactly their entries, keeps pheromones positive and rewards better ants more; the returned design is the best over all generations run, and the run ends only after the last generation or more than nmax generations without improvement.", "quantifier": "all populations, pheromone tables, ranks and generations", "why_tests_cant": "random algorithm; tests see single runs", "anchors": ["metku/optimization/solvers/aco.py:81-241"]}
{"id": "C214", "title": "Genetic algorithm: best design, penalty and cache", "statement": "The best fitness is the minimum over all evaluated individuals and the start value, attained by an evaluated individual; the penalty is zero iff all constraint values are non-positive; values reused from the dictionary of analysed individuals equal a fresh evaluation. The penalty ignores constraint types, and the reported design is the one before rounding, whose fitness may differ from the reported one.", "quantifier": "all individuals, functions, bounds and evaluation sequences", "why_tests_cant": "random algorithm; in-place changes of the dictionary key", "anchors": ["metku/optimization/solvers/ga.py:72-139", "metku/optimization/solvers/ga.py:303-318"]}
{"id": "C215", "title": "Discrete VNS accepts only feasible improvements", "statement": "A trial is accepted iff it is strictly lighter than the best accepted one and has no positive constraint value; accepted designs have strictly decreasing values below 10000, lie between 0 and the upper bound of the first variable, and the last one is returned. Designs of value 10000 or more are never accepted, and bounds of the other variables are not respected.", "quantifier": "all functions, step sequences and starting points", "why_tests_cant": "random algorithm and hidden constants", "anchors": ["metku/optimization/solvers/vns.py:183-353"]}
{"id": "C216", "title": "VNS neighbourhoods and acceptance", "statement": "The search range of a continuous or index variable contains the current value, stays within the bounds, has the advertised half-width and grows with the step; an action either is zero and keeps the best value or leads to a point of the inner solver with strictly lower value and restores the bounds. An improvement leaving a coordinate unchanged is rejected, giving up leaves the narrowed bounds, and discrete variables get a range wider than their catalogue.", "quantifier": "all variables, step lengths, inner solver results and expansions", "why_tests_cant": "depends on recursive expansion and on numpy comparison", "anchors": ["metku/optimization/solvers/vns.py:34-106"]}
{"id": "C217", "title": "Steepest descent decreases the objective", "statement": "The direction is the normalised negative gradient; if the line search never increases the objective, recorded values never increase and the last point is the best; if the line search never fails the method returns a history of at most maxiter steps. A failing line search at the start raises IndexError.", "quantifier": "all functions, gradients, line searches and iteration limits", "why_tests_cant": "iteration of unbounded length", "anchors": ["metku/optimization/solvers/steepest.py:53-107"]}
{"id": "C218", "title": "Augmented Lagrangian method: multipliers and optimality", "statement": "Multipliers of inequalities and bounds stay non-negative; penalties grow by 1.5 per update; if a minimiser of the augmented Lagrangian leaves all multipliers unchanged it is feasible and no feasible point has a lower objective (variables without upper bound). A solver object used twice compares values of the earlier run and may stop early.", "quantifier": "all problems, multipliers, penalties and numbers of iterations", "why_tests_cant": "global statement about all feasible points", "anchors": ["metku/optimization/solvers/alm.py:31-168", "metku/optimization/structopt.py:995-1076"]}
{"id": "C219", "title": "Variable groups create one variable per attribute", "statement": "A continuous or discrete group creates, for every position present in all given lists, one variable with the attribute, bounds or catalogue and value of that position. Lists of different lengths silently shorten the group, and without given values the value is 0, possibly outside the bounds.", "quantifier": "all attribute, bound and value lists", "why_tests_cant": "needs arbitrary lengths", "anchors": ["metku/optimization/variable_group.py:40-102"]}
{"id": "C220", "title": "Workshop prices follow the cost data", "statement": "The price of blasting, cutting (plasma up to 30 mm, flame above), painting with each system, welding and sawing with the default cost centres equals the closed formula: minutes times the rate (wages with 70 % overheads, 20, 10 and 50 year annuities at 5 %, maintenance, spread over 120960 minutes a year) plus energy and consumables; the feeding-speed, blade, thickness and quantity tables hold on every interval; a welded plate with holes costs material plus the sum of its work steps.", "quantifier": "all amounts, thicknesses, sizes and plates", "why_tests_cant": "continuous ranges of dimensions, tables with many intervals", "anchors": ["metku/cost/workshop.py:39-860", "metku/cost/cost_data.py:22-70", "metku/structures/steel/plates.py:92-116"]}
{"id": "C221", "title": "Load case ids, sweeps and fresh members", "statement": "Adding a load case makes its id known and keeps all earlier ids, an empty case adds exactly its id when new and no loads; one sweep of the member optimisation gives every group and every member the best choice for its own position; members created without hinges have none until a hinge is added.", "quantifier": "all frames, load lists, choices and creation histories", "why_tests_cant": "unbounded histories and list lengths", "anchors": ["metku/raami/raami.py:124-140", "metku/raami/raami.py:413-453", "metku/raami/frame_member.py:103-170"]}
{"id": "C222", "title": "Section properties of an open profile are the area integrals they stand for", "statement": "For OpenProf(nodes, t): area(), first_moments(), second_moments() and product_moment() are the integrals of 1, z, y, z^2, y^2 and yz over the walls (every polynomial of degree at most two is integrated exactly by the corresponding combination), and centroid(), Iy, Iz, product_moment_gc() are the integrals about the centroid, where both first moments vanish. The constructor joins consecutive nodes, gives all segments the single thickness or one thickness each, and raises IndexError when thicknesses are missing.", "quantifier": "all profiles with any number of nodes and any coordinates and thicknesses", "why_tests_cant": "the formulas are sums over an arbitrary number of segments of arbitrary direction; a test fixes one shape", "anchors": ["metku/eurocodes/en1993/en1993_1_3/open_prof.py:26-52", "metku/eurocodes/en1993/en1993_1_3/open_prof.py:130-212", "metku/eurocodes/en1993/en1993_1_3/open_prof.py:437-481"]}
{"id": "C223", "title": "Moving, turning or renumbering an open profile does not change the section", "statement": "If all nodes of an open profile are turned by any angle and shifted by any vector, the centroid and the shear centre move with the profile, the second moments transform as a tensor, and the warping constant, the torsion constant and the torsion modulus do not change. Listing the nodes and thicknesses from the other end changes no result. For the shear centre and the warping constant the determinant Iy*Iz - Iyz^2 must exceed the threshold 1e-8 in the code.", "quantifier": "all profiles, angles and vectors", "why_tests_cant": "the claim relates two runs for all rigid motions and all shapes", "anchors": ["metku/eurocodes/en1993/en1993_1_3/open_prof.py:147-314"]}
{"id": "C224", "title": "Splitting a wall of an open profile changes no section property, but torsion then fails", "statement": "split_segment(n, s) with 0 <= s <= 1 leaves area, centroid, second moments, sectorial constants, shear centre and warping constant unchanged. Finding: the array of thicknesses is not extended, so torsion_constant() raises after any split of a profile with at least two walls.", "quantifier": "all profiles, segments and fractions 0 <= s <= 1", "why_tests_cant": "the invariance has to hold for every shape and every split point, and the failure for every profile", "anchors": ["metku/eurocodes/en1993/en1993_1_3/open_prof.py:307-340"]}
{"id": "C225", "title": "The shear centre is the pole with vanishing sectorial products and the warping constant is minimal there", "statement": "When the determinant of the second moments exceeds 1e-8, moving the origin to the point shear_center() gives makes the sectorial products Iyw and Izw zero and the sectorial constant Iww equal to warping_constant(); it is the only such point; and the warping constant is nonnegative and not larger than the sectorial constant about any other origin.", "quantifier": "all profiles with nonnegative thicknesses and all origins", "why_tests_cant": "it is a minimum over a continuum of poles and a uniqueness statement", "anchors": ["metku/eurocodes/en1993/en1993_1_3/open_prof.py:214-305"]}
{"id": "C226", "title": "Symmetric open profiles have centroid and shear centre on the axis of symmetry", "statement": "For a profile symmetric about the z axis the centroid and the shear centre have y = 0 and the product moment is zero; mirroring any profile mirrors its shear centre and keeps the warping constant; Iy and Iz are nonnegative and Iyz^2 <= Iy*Iz.", "quantifier": "all profiles, with nonnegative thicknesses for the inequalities", "why_tests_cant": "symmetry is a condition on lists of any length; the inequality is Cauchy-Schwarz over all shapes", "anchors": ["metku/eurocodes/en1993/en1993_1_3/open_prof.py:147-305"]}
{"id": "C227", "title": "Open-profile properties scale with the unit of length, until the shear centre is lost", "statement": "Enlarging a profile k times multiplies the centroid by k, the area by k^2, the second moments by k^4, the shear centre by k and the warping constant by k^6 as long as the determinant stays above 1e-8; finding: the threshold is absolute, so for every profile there is a unit in which shear_center() returns (0, 0). The torsion constant is the sum of b*t^3/3, and the torsion modulus divides it by the smallest thickness.", "quantifier": "all profiles and all factors k > 0", "why_tests_cant": "relates runs in all units; the loss happens for every profile in some unit", "anchors": ["metku/eurocodes/en1993/en1993_1_3/open_prof.py:283-314"]}
{"id": "C228", "title": "Average yield strength and corner geometry of cold-formed sections", "statement": "fya() lies between fyb and (fu+fyb)/2, equals the formula until k*n*t^2 = Ag/2 and the upper limit afterwards, and grows with bends and thickness and falls with the area. notional_width() of a list of corners is b + sum rm*sin(phi/2), between b and b + sum rm; rounding_factor() is 0.43*sum(r*phi/90)/sum(bp) and lies between 0 and 0.43*sum(r)/sum(bp) for angles up to 90 degrees. Findings: gr() uses the full angle instead of half of it, exceeds the Eurocode value for every angle below 90 degrees and is unbounded near 90; a single number for the radius is counted for two corners with the default angles, and a single radius with a single angle raises.", "quantifier": "all strengths, thicknesses, areas, lists of corners and angles in the stated ranges", "why_tests_cant": "continuous ranges and lists of any length; unboundedness", "anchors": ["metku/eurocodes/en1993/en1993_1_3/en1993_1_3.py:38-84"]}
{"id": "C229", "title": "Distortional buckling and axial resistance of cold-formed members", "statement": "The distortional reduction factor is 1, 1.47-0.723*l or 0.66/l on its three ranges, is positive and decreases on each range; findings: it exceeds 1 just above 0.65 and jumps up at 1.38, so it is neither bounded by 1 nor decreasing. The edge stiffener factor is 0.5 up to 0.35, grows with the cube-root law up to 0.6 (below 0.83) and raises above. The distortional critical stress satisfies (s*As)^2 = 4*K*E*Is. axial_force_resistance() is fya*A in tension, fyb*Aeff for sections with Aeff < A, and between fyb*A and fya*A otherwise for slenderness ratios up to 1; a missing keyword gives 0; for a ratio above 1 it can be negative.", "quantifier": "all slendernesses, width ratios, areas and strengths", "why_tests_cant": "monotonicity and bounds over continuous ranges with breakpoints", "anchors": ["metku/eurocodes/en1993/en1993_1_3/en1993_1_3.py:86-149"]}
{"id": "C230", "title": "Web crippling resistance of a single web", "statement": "In the range of validity RwRd() is positive and not larger than the Eurocode value, grows with the support width (apart from interior loads across ss/t = 60), is larger for interior loads than near an end and larger with stiffened flanges. Findings: the angle factor divides by 90^2 without squaring the angle, so at 90 degrees the result is only 0.7033 of the Eurocode value; interior loads drop when ss/t passes 60; with web stiffeners the function raises.", "quantifier": "all webs in the range of validity: hw/t <= 200, ss/t <= 210, r/t <= 6, fyb < 912", "why_tests_cant": "inequalities over six continuous parameters", "anchors": ["metku/eurocodes/en1993/en1993_1_3/en1993_1_3.py:151-269"]}
{"id": "C231", "title": "Web crippling resistance of sheeting", "statement": "RwRd_two_webs() follows Eq. (6.18) with alfa 0.15 and the bearing length la at internal supports and for loads further than 1.5*hw from an end, and with 0.075 and la = 10 near an end or for close opposite forces; la lies between 10 and ss, interpolates in the shear force ratio and decreases with it; the internal resistance is at least twice the end resistance and grows with ss. Findings: without VEd, or with zero forces, the internal case raises; the forces must be given in the order of magnitude (swapping them turns la = 10 into la = ss); a negative end distance is treated as an internal support.", "quantifier": "all sheets, support widths >= 10, shear forces and distances", "why_tests_cant": "relates several cases over continuous ranges", "anchors": ["metku/eurocodes/en1993/en1993_1_3/en1993_1_3.py:271-382"]}
{"id": "C232", "title": "Self-tapping screws", "statement": "screw_validity() is exactly e1, p1, p2 >= 3d, e2 >= 1.5 and 3 <= d <= 8; finding: the edge distance 1.5 is in millimetres instead of diameters, so for every d an edge distance hardly more than the radius is accepted. The bearing coefficient lies between min(3.2*sqrt(t/d), 2.1) and 2.1, interpolates linearly between t1 = t and t1 = 2.5t, grows with t1, and the resistance is alfa*fu*d*t/1.25. The shear table is defined for its four diameters, grows with the diameter, and hardened screws carry more than stainless ones. Finding: bearing at elevated temperature uses the strength of the screw instead of the plate, exceeding the Eurocode value whenever the screw is stronger.", "quantifier": "all diameters, thicknesses, strengths and temperatures", "why_tests_cant": "continuous ranges with case distinctions", "anchors": ["metku/eurocodes/en1993/en1993_1_3/en1993_1_3.py:387-496"]}
{"id": "C233", "title": "Restraint by sheeting and geometry of trapezoidal sheets", "statement": "CD_A() in its supported cases equals C100*kba*kt*kbR*kA*kbT, is positive, grows with the purlin flange, the thickness and the load and decreases with the sheet widths. The shear stiffness is 1000*sqrt(t^3)*(50+10*broof^(1/3))*s/hw and monotone in every argument. Findings: CD_A() raises for gravity loads in the negative position and for every thickness below 1.0 other than 0.75 under gravity loads; the web length of a trapezoidal sheet is hw*sin(angle), shorter than the height of the web for every inclined web, so the area is too small, and the pitch uses the cosine instead of the cotangent.", "quantifier": "all purlins, sheets and loads", "why_tests_cant": "monotonicity in six arguments; strict inequality for all angles", "anchors": ["metku/eurocodes/en1993/en1993_1_3/en1993_1_3.py:498-570", "metku/eurocodes/en1993/en1993_1_3/trapezoidal.py:56-107"]}
{"id": "C234", "title": "Sloped roof trusses have the member count of a statically determinate truss", "statement": "SlopedTruss.generate_topology with any web pattern ('K', 'N', 'KT'), any number of panels n>=1, either first diagonal, any lengths and any start dx1>=0 of the bottom chord makes no brace twice, and the numbers of members m and nodes j satisfy m+3=2j when the bottom chord starts inside the span or the end verticals are requested, and m+5=2j when the bottom chord starts at the supports and the end verticals are left out. The number of nodes is 4n+1 (K), 4n (N), 6n+1 (KT) with an inset bottom chord, and 4n+5/4n+3 (K up/down), 4n+2 (N), 6n+5/6n+3 (KT up/down) otherwise.", "quantifier": "all dimensions, web patterns and numbers of panels", "why_tests_cant": "count over an unbounded number of panels in eight configurations", "anchors": ["metku/raami/raami_plane_truss.py:554-1063"]}
{"id": "C235", "title": "A generated symmetric roof truss is stable on its own supports", "statement": "For L1=L2, equal dx with 0<=dx<L, heights 0<H0<=H1 and enough panels to keep nodes apart, the truss made by generate_topology on the supports made by generate_supports has no strainless motion when all members are pinned: every infinitesimal motion that keeps the lengths of all members and respects the supports is zero. Finding: with the bottom chord starting at the supports and edge_verticals=False the truss always has such a motion (the outermost nodes of one chord hang on one collinear or single member), so every truss made with that option is a mechanism.", "quantifier": "all symmetric dimensions, web patterns and numbers of panels", "why_tests_cant": "rigidity of a framework with an unbounded number of nodes", "anchors": ["metku/raami/raami_plane_truss.py:554-1080"]}
{"id": "C236", "title": "Nodes of symmetric roof trusses lie on the roof line and are mirror images", "statement": "For L1=L2 and 0<=dx<L every top chord node lies on the roof line that rises from (0,0) to (L,H1-H0) and falls to (2L,0), the top chord starts and ends at the eaves and has a node at the ridge, every bottom chord node lies at -H0, the x coordinates of each chord increase strictly, and each chord is its own mirror image about x=L. Findings: for L1<>L2 the ridge of an 'N' truss lies at (L1+L2)/2 and not at L1; a 'K' truss with one panel per half and the first diagonal down has two coincident bottom chord nodes.", "quantifier": "all symmetric dimensions, web patterns and numbers of panels", "why_tests_cant": "coordinates found by line intersections for an unbounded number of panels", "anchors": ["metku/raami/raami_plane_truss.py:183-189,554-960"]}
{"id": "C237", "title": "Bottom chord nodes of roof trusses are evenly spaced", "statement": "With an inset bottom chord the nodes of the bottom chord are (L-dx)/(n-1/2) apart for 'K' and 'KT' webs and (L-dx)/(n-1) apart for 'N' webs. With a bottom chord from support to support an 'N' truss has distance L/n on both chords and a 'KT' truss even distances on both chords (apart from the half panels at the ends when it starts downwards). Finding: a 'K' truss whose bottom chord starts at the supports is uneven: the distance in the halves is 1-1/(2n) (first diagonal up) or 1-1/(2(n-1)) (down) times the distance in the middle, one half of it for n=2.", "quantifier": "all symmetric dimensions and numbers of panels", "why_tests_cant": "exact distances for an unbounded number of panels", "anchors": ["metku/raami/raami_plane_truss.py:574-620,743-760,861-925"]}
{"id": "C238", "title": "Joints are made for every node of a roof truss by the number of braces", "statement": "After generate_topology (any lengths, web pattern and n>=1) at most three braces meet at a node, generate_joints does not raise, makes exactly one entry per node, and the joint of a node is its own: a Y joint for one brace, a K joint for two, a KT joint for three and none for no brace.", "quantifier": "all dimensions, web patterns and numbers of panels", "why_tests_cant": "the loop variable keeps its former value for more than three braces, so a bound for all nodes of all trusses is needed", "anchors": ["metku/raami/raami_plane_truss.py:1137-1214"]}
{"id": "C239", "title": "The ridge joint of a symmetric roof truss is found", "statement": "For L1=L2 the ridge joint is at the top chord node at (L,H1-H0) for every 'K' and 'KT' truss and for an 'N' truss whose bottom chord starts at the supports with the first diagonal up. Finding: for every other 'N' truss (inset bottom chord, or first diagonal down) only one brace meets the ridge and no ridge joint is recorded.", "quantifier": "all symmetric dimensions, web patterns and numbers of panels", "why_tests_cant": "needs the coordinates and the brace count at the ridge for unbounded n", "anchors": ["metku/raami/raami_plane_truss.py:1173-1201"]}
{"id": "C240", "title": "Zone loads load every chord member with the value of its zone", "statement": "generate_piecewise_uniform_load with two boundaries and three values gives every member that does not span both boundaries exactly one load whose intensity at every inner point is the value of the zone of that point; generate_uniform_load gives every member the value. Findings: with one boundary a member that crosses it gets no load at all; with three boundaries a member inside the third zone is loaded twice; a member that spans both boundaries carries the second value over the third zone.", "quantifier": "all values, boundaries and members", "why_tests_cant": "intensity at every point for all positions of the member", "anchors": ["metku/raami/raami_plane_truss.py:1082-1135"]}
{"id": "C241", "title": "Heights and slope of a sloped truss agree", "statement": "SlopedTruss keeps the lengths given, uses every non-zero height as given, finds a missing height from the slope, and reports a slope with H1-H0 = L1*tan(slope); it raises exactly when both heights are given with h2<h1 or one is missing and the slope is falling. Finding: with only h2 given, a slope with L1*tan(slope)>h2 is accepted and makes the height at the ends negative.", "quantifier": "all lengths, heights and slopes", "why_tests_cant": "trigonometric identity for all reals", "anchors": ["metku/raami/raami_plane_truss.py:88-119,450-519"]}
{"id": "C242", "title": "Rolled I-sections: properties of the plates and fillets", "statement": "The area, plastic section moduli and warping constant of a rolled I-section equal those of its flanges and web, plus the exact contribution of the four fillets for area and plastic moduli; the shear area is web plus fillets plus the flange part (tw+2r)*tf. The second moments use decimal fillet terms that differ from the exact ones by at most 2e-4*r^2*(h-2tf)^2 about the major axis and 2e-4*r^2*(tw+r)^2 about the minor axis; the elastic moduli are the second moments over half the height and half the width.", "quantifier": "all positive flange, web and height dimensions with 2*tf < h; for the accuracy bound also fillets that fit", "why_tests_cant": "continuous geometry; accuracy of rounded coefficients for all sizes", "anchors": ["metku/sections/steel/ISection.py: cross_section_properties"]}
{"id": "C243", "title": "Exact properties of tubes, welded I and WQ sections", "statement": "A CHS has the paint area, shear area, plastic modulus and second moment of an annulus. The outer corner radius of an RHS is 2T up to 6 mm, 2.5T above 6 up to 10 mm and 3T above. A welded I-section has the torsion constant of its three plates, the minor-axis second moment of its plates, a warping constant whose product with Iz is If_top*(If_bottom+Iz_web)*hs^2, a shear area of 1.2 (up to grade S460) or 1.0 times the web, and the imperfection factors of curves b/c up to flange thickness 40 mm and c/d above, c or d for lateral-torsional buckling with h at most or above twice the width of the narrower flange. The second moment of a WQ section is the sum over its plates about its elastic axis.", "quantifier": "all positive dimensions", "why_tests_cant": "all reals, with breakpoints at 6, 10, 40, 460 and h/b = 2", "anchors": ["metku/sections/steel/CHS.py", "metku/sections/steel/RHS.py: RHS_outer_radius", "metku/sections/steel/wi.py", "metku/sections/steel/wq.py"]}
{"id": "C244", "title": "Concrete data, creep coefficient and self weights", "statement": "The Young's modulus of every concrete grade C12 to C50 is within 500 MPa of EN 1992-1-1 Table 3.1; modulus and design strength increase and the reduction for cracked concrete decreases with the grade, the design strength being acc*fck/1.5. creep_coefficient returns exactly the value of EN 1992-1-1 Annex B (strength factors 1 up to fcm=35 MPa); it is positive and increases with time and decreases with age at loading, humidity and notional size; it is 0 at the time of loading and fails just before it. Slabs weigh 25 kN/m3 times their full depth (a composite slab counts the depth of the sheet as concrete) and rebars 7850 kg/m3 times their area.", "quantifier": "all grades, humidity 0 to 100 %, positive sizes, ages and times", "why_tests_cant": "transcendental function of five real arguments; accuracy and monotonicity for all of them", "anchors": ["metku/eurocodes/en1992/constants.py:30-103", "metku/eurocodes/en1992/en1992_1_1.py:55-91", "metku/sections/composite/composite_beam.py:23-98"]}
{"id": "C245", "title": "Elastic stiffness of composite beams", "statement": "The elastic centroid of a composite I-beam lies strictly between the centroids of the slab and of the steel and balances their axial stiffnesses; the bending stiffness is the sum of both plus EAa*EAc/(EAa+EAc) times the squared distance of the centroids; for short term loads it is (1+composite_coefficient) times the sum of the parts. With creep the stiffness is smaller, still positive, and the centroid moves towards the steel; the modular ratios for creep and shrinkage exceed the short term one.", "quantifier": "all composite beams with positive dimensions, humidity 0 to 100 %, age at loading below 1e8 days", "why_tests_cant": "parallel-axis identity and comparisons over all real dimensions", "anchors": ["metku/sections/composite/composite_beam.py:123-329"]}
{"id": "C246", "title": "Plastic moment of composite beams", "statement": "When the steel section is weaker than the slab, plastic_neutral_axis and MplRd give the depth and moment of the plastic stress blocks in equilibrium, the axis lying in the slab. Findings: when the axis is in the steel the formulas for flange and web are swapped: with the axis in the web the reported axis is too high and MplRd exceeds the moment of the stress blocks by (Ra-Rc-2Rf)^2/(4fy)*(1/tw-1/b); with the axis in the flange MplRd falls below it by the same amount and the axis is reported too high. The slab force contains the factor 0.85 twice.", "quantifier": "all composite beams with positive dimensions and tw at most b", "why_tests_cant": "equilibrium of stress blocks for all dimensions and strengths", "anchors": ["metku/sections/composite/composite_beam.py:331-418"]}
{"id": "C247", "title": "Concrete core and rebars of filled tubes", "statement": "The area and plastic modulus of the concrete in a concrete filled tube are those of a rectangle with rounded corners less the four bars; the area, plastic modulus and second moment of the bars are those of four discs at their distance. Findings: the second moment of the concrete is too large by pi*r^2*(x^2-(x-r)^2), x=h/2-t+4r/(3pi), because the corner discs are put a radius too far out; setting the cover v and reading it back gives v plus the bar diameter, while u reads back as set. The weight per length is that of the three parts.", "quantifier": "all tubes, bars and positions", "why_tests_cant": "geometry over real dimensions", "anchors": ["metku/sections/composite/composite_column.py:74-81,131-151,163-282"]}
{"id": "C248", "title": "Axial resistance of filled tubes", "statement": "The plastic resistance of a concrete filled tube is the sum of the three parts with strengths fy, fsk/1.15 and fck/1.5; the steel share lies strictly between 0 and 1. The effective modulus of concrete is Ecm/(1+phi*NG/NEd) and at most Ecm. The buckling resistance about the major axis is positive, at most the plastic resistance and at most the critical force, equal to the plastic resistance when the critical force is at least 25 times the characteristic resistance, and does not grow with the length or with the sustained share of the load. It cannot be computed without an axial force, nor about the minor axis.", "quantifier": "all filled tubes with positive dimensions, non-zero axial force and sustained force of the same sign", "why_tests_cant": "chain of real functions (creep, stiffness, buckling curve); monotonicity for all inputs", "anchors": ["metku/sections/composite/composite_column.py:84-86,111-128,221-229,299-451"]}
{"id": "C249", "title": "Plastic moment of filled tubes", "statement": "MplRd of a concrete filled tube with the first neutral axis clear below the bars is the moment of plastic stress blocks in equilibrium; otherwise it is the moment for a second axis, in equilibrium with all bars in tension. Finding: the second axis can lie below the bars again (the first axis cutting them), so that the assumed distribution is not in equilibrium.", "quantifier": "all filled tubes with positive dimensions", "why_tests_cant": "equilibrium of stress blocks over real dimensions", "anchors": ["metku/sections/composite/composite_column.py:453-501"]}
{"id": "C250", "title": "Second order moment and utilisation of filled tubes", "statement": "design() takes the end moment larger in absolute value as M2. Below a tenth of the effective critical force the design moment is imperfection moment plus M2, above it the moment with the equivalent factor max(0.66+0.44*M1/M2,0.44) is magnified by 1/(1-NEd/Ncr,eff) but not below M2. The utilisation is MEd/(alpha_m*mu*MplRd) with mu=1 up to the concrete resistance and then linear to 0 at the plastic resistance. Findings: for NEd above the effective critical force there is no magnification at all; a negative M2 is ignored when second order effects count; for NEd above the plastic resistance the utilisation is negative.", "quantifier": "all filled tubes, forces and end moments", "why_tests_cant": "case analysis over real forces; the failing cases are beyond the collapse loads", "anchors": ["metku/sections/composite/composite_column.py:89-103,323-333,411-421,503-604"]}
{"id": "C251", "title": "Fastener group factor of diaphragms", "statement": "For n >= 2 troughs the factor of a row of fasteners loaded linearly (sum of cubes of the relative distances) has the closed form given by the parity of n and by fastening in every trough or not: m^2(2m^2-1)/(2m-1)^3 and (m+1)^2/(4m) in the trough, (2m^2-1)/(8m) and 2m^2(m+1)^2/(2m+1)^3 elsewhere, for n=2m and n=2m+1. In the trough it is at least 1 and does not decrease with n; outside it is positive and smaller.", "quantifier": "every number of troughs n >= 2", "why_tests_cant": "the loop length grows with n; closed forms hold for all n", "anchors": ["metku/structures/steel/stressed_skin.py:170-205"]}
{"id": "C252", "title": "Table of sheet distortion", "statement": "The distortion factor of a sheet is the entry of the table for its web angle class (5 degrees), depth ratio and flange ratio class (0.1); it lies between 0.013 and 6.453 and exists only for web angles above 40 and up to 90 degrees; the table has no holes, and for vertical webs deeper sheets have larger factors. Finding: with a crest flange below a tenth of the pitch the last column is read (index -1), so the factor is 0.193 where it should be at most 0.013.", "quantifier": "all sheets", "why_tests_cant": "real-valued ratios hit every boundary of the classes; negative list index", "anchors": ["metku/structures/steel/stressed_skin.py:21-91,207-236"]}
{"id": "C253", "title": "Shear strengths of diaphragms", "statement": "The resistance of a seam fastener is positive, by EN 1993-1-3 or by min(2.9*sqrt(t/d)*fu*d*t, 3.8 kN). The seam strength with fastening in the trough is a/b*((floor(b/spacing)-1)*Fs + beta1*Fp) and does not decrease with closer spacing; with the other fastening it cannot be computed. The sheet to rafter strength is 0.6*Fp*a/p. Finding: with a spacing larger than the diaphragm depth the seam strength can be negative.", "quantifier": "all diaphragms with positive data", "why_tests_cant": "monotone step function of real spacing", "anchors": ["metku/structures/steel/stressed_skin.py:139-168,276-422"]}
{"id": "C254", "title": "Shear flexibility of diaphragms", "statement": "The shear flexibility is the sum of distortion, shear strain, three fastener terms and edge member strain; with at least one whole sheet width and one edge fastener it is positive, and thicker sheets, larger edge members or fewer panels do not make it larger. With a depth below the edge fastener spacing it cannot be computed. Finding: with a diaphragm narrower than half a sheet the seam term is negative.", "quantifier": "all diaphragms with positive data", "why_tests_cant": "sum of real functions with powers 2.5; counts by truncation", "anchors": ["metku/structures/steel/stressed_skin.py:276-293,449-589"]}
{"id": "C255", "title": "Sandwich panels and their screws", "statement": "The bending stiffness of a panel (faces plus sandwich part) is the stiffness of both faces about their stiffness-weighted axis; the shear stiffness is G*b*d^2/tc. The stiffness of a screw is the reciprocal of the least elastic energy over all shares of the force carried by the outer face; it is positive and does not decrease with stiffer hole, support or screw. The hole stiffness does not decrease with the face thickness, also across the jump of the formula at 0.7 mm. The rotational stiffness of the support is kv*n/(2L)*sum(c^2), the shear resistance 4.2*sqrt(tcor^3*d1)*fu/1.25.", "quantifier": "all panels and supports with positive data", "why_tests_cant": "minimum over a continuum; monotonicity across a case boundary", "anchors": ["metku/sandwich/sandwich.py:19-30,59-278"]}
{"id": "C256", "title": "CLT slabs", "statement": "A layer's bending stiffness uses the modulus of its grain direction in x and the other one in y with the widths of the slab. A slab made from lists has as many layers as the shortest list. For a symmetric lay-up the reported axis (half the thickness) is the stiffness-weighted axis. Findings: layers shared by several slabs keep the widths of the last slab made; for an unsymmetric lay-up the reported axis is not the stiffness axis.", "quantifier": "all lists of layers and sequences of slabs", "why_tests_cant": "aliasing over arbitrary sequences of constructions; symmetric lists of any length", "anchors": ["metku/structures/timber/clt_slab.py:21-167"]}
{"id": "C257", "title": "Plastic truss LP", "statement": "The linear program built for a truss is feasible at a point exactly when its areas are in their bounds and its forces balance the loads of every load case and stay within the stress limits; every such plastic design is a feasible point; an optimum of the program is a plastic design of least volume.", "quantifier": "all trusses, any number of members, degrees of freedom and load cases", "why_tests_cant": "row indexing for arbitrary numbers of members and load cases; optimality quantifies over a continuum", "anchors": ["metku/optimization/problems/truss_optimization.py:627-728"]}
{"id": "C258", "title": "Profile selection MILP", "statement": "For one load case, a feasible point of the mixed integer program picks exactly one profile per member, its displacements (in cm) are an elastic equilibrium of that truss with all resistances respected, its force variables are the elastic member forces (in kN) and zero for profiles not chosen; every admissible design is represented; the optimum is the lightest admissible design. Findings: load cases with different loads make the program infeasible even if every one has an admissible design, because the equilibrium rows of all load cases use the forces of the first; forces and displacements of later load cases are not tied to any load.", "quantifier": "all trusses, profile lists and load cases", "why_tests_cant": "optimality over a combinatorial number of designs and a continuum of states; indexing for arbitrary sizes", "anchors": ["metku/optimization/problems/truss_optimization.py:730-904", "metku/optimization/problems/raami_truss_optimization.py:731-880"]}
{"id": "C259", "title": "Statics matrix", "statement": "Column i of the statics matrix holds minus the direction cosines at the first end's degrees of freedom, the cosines at the second end's and zero elsewhere; with supports removed, its transpose applied to the free displacements gives the elongation of the rod; b k b' is the rod's stiffness matrix.", "quantifier": "all trusses of rods with distinct end degrees of freedom, all sets of supports", "why_tests_cant": "any number of rods and degrees of freedom", "anchors": ["metku/framefem/framefem.py:906-926"]}
{"id": "C260", "title": "Truss constraints", "statement": "A member passes both stress constraints iff |N/A| is at most the limit, both strength constraints iff |N| is at most NRd; the buckling constraint says the compression is at most the first buckling resistance (or first Euler force); a displacement constraint holds iff the displacement respects its bound, for bounds of any sign. Findings: buckling about the second axis is never checked, and only the first load case is checked.", "quantifier": "all forces, areas, limits and displacements", "why_tests_cant": "real-valued equivalence over sign cases", "anchors": ["metku/optimization/problems/truss_optimization.py:368-520"]}
{"id": "C261", "title": "Scaling a truss design", "statement": "scale_design multiplies all sizes by one factor: the least factor that keeps all sizes in their bounds and satisfies all ratio constraints if there is one, else 1. Multiplying all areas by t divides the displacements by t and leaves the forces, so stress constraints and displacement constraints with a positive upper or negative lower bound are ratio constraints. Finding: with a negative upper displacement bound the scaled design violates a bound the given design satisfied.", "quantifier": "all lists of variables with positive bounds and sizes, all constraint values, all trusses", "why_tests_cant": "minimality over a continuum; linear response of trusses of any size", "anchors": ["metku/optimization/problems/truss_optimization.py:581-624"]}
{"id": "C262", "title": "Fully stressed design", "statement": "When the member forces do not depend on the areas, the fully stressed design iteration gives every variable the area |N|/fy of the last member of its group in the last load case, limited to its bounds; with one load case and one member per variable this is the least admissible area and the member is fully stressed when above its lower bound. Findings: with several load cases, or several members in a group, members may be overstressed although their bounds allow an admissible area.", "quantifier": "all lists of disjoint variables, members, forces and load cases", "why_tests_cant": "iteration over arbitrary groups and load cases", "anchors": ["metku/optimization/problems/truss_optimization.py:535-578"]}
{"id": "C263", "title": "Frame member frame of reference", "statement": "For a frame member of positive length, the local coordinates 0 and 1 are mapped to the two ends, local coordinate t lies at |t| times the length from the first end, the unit vector and the perpendicular have length 1 and are orthogonal with the side chosen by the reverse flag, shape(x) is the height of the member's line at x for a member that is not vertical, and angle lies in [0, pi), does not depend on the order of the ends and has the tangent of the member's slope.", "quantifier": "all members of positive length, all local coordinates", "why_tests_cant": "positions, slopes and reversed members are a continuum; the case split at vertical members and negative slopes is easy to miss", "anchors": ["metku/frame2d/frame2d.py:1592-1620, 1703-1718, 2023-2041"]}
{"id": "C264", "title": "Intersection point of two member lines", "statement": "line_intersection returns nothing exactly if the two lines are parallel and otherwise the one common point of the two lines, rounded to five decimals in each coordinate.", "quantifier": "all pairs of members with distinct ends", "why_tests_cant": "needs the uniqueness of the common point for all real coordinates", "anchors": ["metku/frame2d/frame2d.py:2676-2701"]}
{"id": "C265", "title": "Points on members and nodes at crossings", "statement": "point_intersection accepts every point of a member (vertical or at least 1e-8 wide), accepts only points within 2e-8 of the member and raises only for members without extent; a node added on the member is kept once. Two crossing members of a frame should both get a node at the crossing: this holds when the crossing has at most five decimals and fails otherwise, since the rounded point is then not on the sloping member.", "quantifier": "all members, points and lists of added nodes", "why_tests_cant": "the failing crossings are those with long decimal expansions", "anchors": ["metku/frame2d/frame2d.py:238-262, 2147-2176, 2703-2735"]}
{"id": "C266", "title": "Node coordinates of a member", "statement": "calc_nodal_coordinates returns the added nodes and n+1 regular ones in order of distance from the first end; if the added ones lie on the member, the list starts at the first end, ends at the second, stays on the member and its segments add up to the member's length. Regular nodes are within L/2000 of their exact place and exact if n divides 1000, but with 6 elements the spacing is not equal.", "quantifier": "all members of positive length, all lists of added nodes on the member, all element numbers", "why_tests_cant": "sorting and rounding interact with any number of added nodes", "anchors": ["metku/frame2d/frame2d.py:2070-2140"]}
{"id": "C267", "title": "Finite element nodes are shared", "statement": "After generate, no two finite element nodes have the same coordinates, every member coordinate has a node, and two members refer to the same node exactly where their rounded coordinates coincide. The end node n1 is the node of the first coordinate; n2 is the node of the last coordinate only if that node does not have index 0.", "quantifier": "all lists of members and coordinates", "why_tests_cant": "number and overlap of members are unbounded", "anchors": ["metku/frame2d/frame2d.py:680-690, 2183-2197"]}
{"id": "C268", "title": "Elements of a member", "statement": "A column or beam with k nodes gets k-1 elements joining consecutive nodes; the first and last element of a beam carry the rotational stiffness of the end at their outer side and are rigid at the inner side, inner elements have no springs. A bar should be a rod between its two ends; a bar with inner nodes ends at its second node instead.", "quantifier": "all node lists, stiffnesses and member types", "why_tests_cant": "number of nodes per member is unbounded", "anchors": ["metku/frame2d/frame2d.py:2199-2340"]}
{"id": "C269", "title": "Force and displacement envelopes of a frame member", "statement": "The stored maximum forces of a member are element end values of greatest magnitude over all elements, and the reported displacement is the one of greatest magnitude. The value reported by NEd, VEd and MEd and the sections given to the design are complete when the force does not jump at inner nodes; otherwise the start (or end) values of inner elements are left out and a peak can be missed.", "quantifier": "all lists of element end forces", "why_tests_cant": "element numbers and force values are unbounded, the missed case needs a jump at an inner node", "anchors": ["metku/frame2d/frame2d.py:1623-1635, 1744-1771, 2378-2454, 2519-2541"]}
{"id": "C270", "title": "Loads on frame members", "statement": "A line load has its two given values at the ends of the member and varies continuously over the elements; for elements of equal length, or for a uniform load, the resultant is the mean value times the length. With elements of different length a trapezoidal load has another resultant, the factor of the load is ignored, and a point load acts on the node at its coordinate if there is one but is dropped if its coordinate has more than three decimals.", "quantifier": "all load values, element lengths and node lists", "why_tests_cant": "resultants depend on arbitrary element numbers and lengths", "anchors": ["metku/frame2d/frame2d.py:3600-3672"]}
{"id": "C271", "title": "Generated storey frames", "statement": "The columns and beams generated for a frame are those of the rectangular grid with the given numbers of bays and storeys, each once, and the span and height of the frame are bays times the bay length and storeys times the storey height.", "quantifier": "all numbers of storeys and bays, all positive storey heights and nonnegative bay lengths", "why_tests_cant": "grid sizes are unbounded", "anchors": ["metku/frame2d/frame2d.py:164-187, 600-647"]}
{"id": "C272", "title": "Joint stiffness of beams", "statement": "A stored rotational stiffness lies between 1e-4 and 1e20, equals the given one in that range and preserves order; a relative stiffness that is not cut off is recovered from the stored one, whereas the factor 0 of a hinge is read back as a positive one.", "quantifier": "all stiffnesses and positive section data", "why_tests_cant": "cut-off at both ends of a continuum", "anchors": ["metku/frame2d/frame2d.py:1991-2021, 2043-2055"]}
{"id": "C273", "title": "Profile selection of frame members", "statement": "optimum_design leaves the member with the first profile of the list for which all utilisations are at most 1, or with the last one if there is none, and reports whether the profile changed. optimize_members makes at most ten sweeps; with a single member stopping early means that a further sweep changes nothing, but with several members the sweeps stop as soon as the last member keeps its profile, even if another one is no longer sufficient.", "quantifier": "all utilisation functions, profile lists and numbers of members", "why_tests_cant": "depends on the whole history of analyses", "anchors": ["metku/frame2d/frame2d.py:537-552, 2609-2674"]}
{"id": "C274", "title": "Location of truss joints", "statement": "After assigning a location between 0 and 1 to a truss joint that is not reversed, reading it gives the value to three decimals; values outside are clamped; the read value always lies in [0, 1]. A Y joint at an end of the chord is moved inward by its gap. For a reversed joint the setter mirrors the value and the getter does not: assigning a joint its own location moves it to the mirrored place and a Y joint at one end jumps to the other.", "quantifier": "all locations, gaps and chord lengths, reversed or not", "why_tests_cant": "continuum of values; rounding", "anchors": ["metku/truss2d/truss2d.py:1025-1065, 1399-1403"]}
{"id": "C275", "title": "Angle between web and chord", "statement": "The angle reported between a web and the chord lies in [0, 90] degrees, is symmetric, and is the acute angle of the two axes when the chord is horizontal or when neither inclination exceeds 90 degrees. For a rising chord of inclination c and a web leaning the other way it is too small by 2c.", "quantifier": "all inclinations of web and chord", "why_tests_cant": "trigonometric continuum", "anchors": ["metku/truss2d/truss2d.py:1077-1111"]}
{"id": "C276", "title": "Eccentricity and gap of K joints", "statement": "At all times the eccentricity and gap of a K joint satisfy the relation of EN 1993-1-8 with the current section heights and angles; whichever of the two was written last keeps its value under any later changes of the geometry, the other adapts. The gap passed when the joint is created has no effect: a new joint has eccentricity 0.", "quantifier": "all sequences of geometry changes and assignments, all angles strictly between 0 and 180 degrees not summing to 180", "why_tests_cant": "unbounded sequences of assignments", "anchors": ["metku/truss2d/truss2d.py:1113-1222"]}
{"id": "C277", "title": "Nodes of K joints", "statement": "The webs of a K joint end on the face of the chord where their axes, drawn through the eccentric point, cross the face; their distance is (e + h/2)(cot t1 + cot t2), which is the gap plus the half widths of the webs on the face. Near a chord end all nodes are shifted together so that the projections stay on the chord and mutual distances are kept.", "quantifier": "all chords, heights, eccentricities above -h/2, web positions on both sides of the joint", "why_tests_cant": "geometric continuum", "anchors": ["metku/truss2d/truss2d.py:1254-1396"]}
{"id": "C278", "title": "Geometric constraints of tube joints", "statement": "The geometric constraints created for a K joint are all met exactly when the joint is within the range of validity of EN 1993-1-8 (width ratios, gap, angles, eccentricity), provided beta < 1; those of a Y joint exactly when 0.35 b0 <= b1 <= b0 and the angle is at least 30 degrees.", "quantifier": "all section sizes, gaps, eccentricities, angles", "why_tests_cant": "sixteen inequalities over a continuum", "anchors": ["metku/optimization/problems/structural_problem.py:123-282"]}
{"id": "C279", "title": "Strength constraints of tube joints", "statement": "Y joints: met exactly when the brace force is at most the chord face resistance, its compression at most the chord web resistance and its magnitude at most the brace resistance, so a compressed brace is not checked against the chord face. K joints: met exactly when each web's force is at most its own resistance if the webs were added from left to right; otherwise the resistances of the two webs are exchanged and an overloaded web can pass.", "quantifier": "all forces and positive resistances", "why_tests_cant": "depends on the order of construction", "anchors": ["metku/optimization/problems/structural_problem.py:299-372; metku/truss2d/truss2d.py:1434-1497"]}
{"id": "C280", "title": "Member constraints of the structural problem", "statement": "The cross-section constraints of an element bound axial force, shear and moment at its first node, so that for a chain of elements every node of the member but the last is covered; the force at the last node is never looked at. Buckling is met exactly when no axial force is below -NbRd; deflection exactly when all deflections are within a positive limit, and there is no constraint for a limit None or 0; the class constraints are those of class 3 webs and class 2 flanges whatever value is requested. Lateral-torsional buckling is checked against the largest moment, so hogging moments escape.", "quantifier": "all forces, resistances, lists of any length", "why_tests_cant": "lists of any length over a continuum", "anchors": ["metku/optimization/problems/structural_problem.py:392-526"]}
{"id": "C281", "title": "Group constraints", "statement": "Creating the constraints of a group removes a member's former constraints completely only if there is a single one; of n adjacent former constraints n/2 stay beside the new ones, and the constraints of every joint are added once more for every object of the group.", "quantifier": "all constraint lists, group sizes and numbers of joints", "why_tests_cant": "removal while iterating over lists of any length", "anchors": ["metku/optimization/problems/structural_problem.py:573-662, 800-817"]}
{"id": "C282", "title": "Variables of the structural problem", "statement": "Every group yields one variable, a group of several properties one per property (fewer if fewer values are given; an error if bounds and properties differ in number); without groups the creation of variables fails for every structure with a member. Turning an index variable of a web, column or chord into size variables keeps every profile available at its position, but also allows sizes that belong to no profile.", "quantifier": "all lists of groups, numbers of members, catalogues", "why_tests_cant": "lists of any length", "anchors": ["metku/optimization/problems/structural_problem.py:664-798"]}
{"id": "C283", "title": "Fin plate joints: bolts in shear", "statement": "The shear force given as the bolt resistance of a fin plate joint is exactly the largest one for which, with the force and its eccentric moment distributed elastically over the bolts, no bolt exceeds its shear resistance. The elastic distribution is in equilibrium with the force and moment for any pattern.", "quantifier": "all numbers of bolts in one vertical row (at least 2) or two vertical rows, all distances, eccentricities, bolts", "why_tests_cant": "number of bolts unbounded, continuum of geometries", "anchors": ["metku/structures/steel/fin_plate_joint.py:93-95, 156-183"]}
{"id": "C284", "title": "Fin plate joints: bearing", "statement": "The plate and beam web bearing resistances of a fin plate joint are exactly the largest shear force for which every bolt satisfies the quadratic interaction of its vertical and horizontal bearing resistances under the elastic distribution.", "quantifier": "all numbers of bolts in one or two vertical rows, all distances, positive bearing resistances", "why_tests_cant": "number of bolts unbounded, continuum of geometries", "anchors": ["metku/structures/steel/fin_plate_joint.py:185-220, 304-341"]}
{"id": "C285", "title": "Fin plate joints: plate and web resistances", "statement": "Shear resistances of gross and net sections and block tearing follow EN 1993-1-8 with the net areas of the hole pattern, for two vertical rows or one row with zero horizontal distance; with one row and a nonzero distance the plate block tearing resistance is too large by 0.4 fu t p2. If the plate is at least 2.73 z high, bending does not govern over gross shear; the lateral-torsional resistance is positive, never above the bending resistance and equal to it for z < t/0.15.", "quantifier": "all plates, beams, bolts", "why_tests_cant": "continuum of geometries", "anchors": ["metku/structures/steel/fin_plate_joint.py:223-302, 353-374"]}
{"id": "C286", "title": "Fin plate joints: edge distances", "statement": "Reading the vertical edge distance centres the hole pattern: top and bottom edge distances become equal and together with the pattern make up the plate height; the horizontal ones likewise and the lever arm is the middle of the pattern. The positioning check holds exactly when e1, e2 and the horizontal beam edge distance are at least 1.2 d0, p1 at least 2.2 d0 and p2 absent or at least 2.4 d0; it does not look at the vertical edge distance in the beam.", "quantifier": "all plates, beams, bolts", "why_tests_cant": "continuum of geometries", "anchors": ["metku/structures/steel/fin_plate_joint.py:69-95, 406-426; metku/structures/steel/plates.py:202-217"]}
{"id": "C287", "title": "Bolt row forces of an end plate joint respect every row, group and compression limit", "statement": "After MjRd is read, for any bolt rows and any bolt row groups whose resistances can be evaluated, the stored force of each tension row is at most its own tension resistance, the forces of the rows of each group add up to at most the resistance of the group, and the tension rows together carry at most the compression resistance. With non-negative resistances no tension row is in compression, shear rows are untouched, the moment is the sum of force times lever arm and at most compression resistance times the largest lever arm, and reading MjRd again gives the same forces and the same value.", "quantifier": "all lists of rows, lists of groups, resistances and compression resistances", "why_tests_cant": "the reductions are applied one after another to shared rows; tests fix one joint with few rows", "anchors": ["metku/structures/steel/end_plate_joint.py:479-605"]}
{"id": "C288", "title": "Moment resistance of an end plate joint is the largest plastic moment when the groups are nested and listed by size", "statement": "For a joint whose rows are all tension rows listed from the top with non-increasing lever arms, and whose groups are formed by the first rows and listed by increasing number of rows, MjRd equals the largest moment over all force distributions that respect the row, group and compression limits, and the same distribution carries the largest total force. If the same groups are listed in another order, MjRd can be smaller.", "quantifier": "all numbers of rows, row resistances, lever arms, nested groups and compression resistances", "why_tests_cant": "optimality compares with infinitely many force distributions", "anchors": ["metku/structures/steel/end_plate_joint.py:530-600"]}
{"id": "C289", "title": "Shear rows do not take part in the moment resistance of an end plate joint", "statement": "MjRd of a newly made joint should be the sum over the tension rows of force times lever arm. Shear rows keep the placeholder force -1 they are created with and the sum runs over all rows, so that each shear row lowers MjRd by its lever arm.", "quantifier": "all rows, groups and compression resistances of a new joint", "why_tests_cant": "the deviation is one newton per shear row and invisible at usual test tolerances", "anchors": ["metku/structures/steel/end_plate_joint.py:596-598", "metku/eurocodes/en1993/en1993_1_8/en1993_1_8.py:406"]}
{"id": "C290", "title": "Column web panel shear resistance of an end plate joint", "statement": "Without a pair of flange stiffeners, V_wp_Rd is 0.9 fy Av / sqrt(3). With both stiffeners, EN 1993-1-8 (6.8) adds min(4 Mfc/ds, (2 Mfc + Mst + Msb)/ds). The code agrees when the two stiffeners together are not stronger than two flanges, and otherwise returns a strictly larger resistance, because the first bound is not divided by ds.", "quantifier": "all columns, beams and stiffeners with positive dimensions", "why_tests_cant": "the missing division never shows when stiffeners are thinner than the flange", "anchors": ["metku/structures/steel/end_plate_joint.py:316-330, 395-412"]}
{"id": "C291", "title": "Compression resistance of an end plate joint and the effect of a stiffener", "statement": "The compression resistance is the smallest of web panel shear over beta, column web in compression and beam flange in compression. Adding a stiffener at the lower flange by its thickness should raise the column web resistance. Instead MjRd raises, since the plate has no attribute khp; and if that attribute is supplied, the width and height of the plate are exchanged, so that the clear depth of the column takes the place of the stiffener outstand in the effective area.", "quantifier": "all columns, beams, plates and stiffener thicknesses", "why_tests_cant": "an exchanged pair of dimensions gives plausible numbers", "anchors": ["metku/structures/steel/end_plate_joint.py:332-348, 422-433, 482-488", "metku/eurocodes/en1993/en1993_1_8/component_method.py:232-255"]}
{"id": "C292", "title": "Equivalent bolt row and initial stiffness of an end plate joint", "statement": "For tension rows with positive stiffness and lever arm, the equivalent lever arm lies between the smallest and the largest lever arm, the equivalent stiffness k satisfies k z = sum k h and k z^2 = sum k h^2 and is at most the sum of the row stiffnesses. With two or more tension rows Sj_ini is E z^2 divided by the sum of the reciprocal stiffnesses of web shear, web compression and the equivalent row, positive and below E sum k h^2. keq() differs from it by the shear rows. With exactly one tension row Sj_ini raises.", "quantifier": "all rows and profiles with positive data", "why_tests_cant": "bounds over all rows; the failing branch needs a joint with one tension row", "anchors": ["metku/structures/steel/end_plate_joint.py:607-712"]}
{"id": "C293", "title": "Rotational stiffness of an end plate joint", "statement": "rotational_stiffness is Sj_ini divided by the stiffness ratio of EN 1993-1-8 (6.28) for a ratio MjEd/MjRd with MjEd in kNm. MjEd is the bending moment stored in the beam section, which the section checks take in Nmm; with that unit the ratio is a million times too large, and any moment above MjRd/1500000 gives less stiffness than the code rule and less than Sj_ini.", "quantifier": "all moments, resistances and initial stiffnesses", "why_tests_cant": "the error is a unit and depends on the other users of the attribute", "anchors": ["metku/structures/steel/end_plate_joint.py:150-164, 714-730"]}
{"id": "C294", "title": "Shear resistance of an end plate joint", "statement": "After MjRd has been read, VjRd is 0.572 FvRd for every row in tension and 2 FvRd for every other row, so it lies between 0.572 and 2 times the sum of bolt resistances. Before, it counts only the shear rows, and is zero if there are none. Bearing of the plate and the flange does not limit it. A row loaded by its tension force and its share of VjRd exceeds the shear and tension check of the same library.", "quantifier": "all rows", "why_tests_cant": "the value depends on the order of two property reads", "anchors": ["metku/structures/steel/end_plate_joint.py:173-177, 732-784", "metku/eurocodes/en1993/en1993_1_8/en1993_1_8.py:2196-2207"]}
{"id": "C295", "title": "Dimensions of an end plate joint after assignments", "statement": "After any sequence of assignments to etop, ebolts, xbolts, bp and tp, the height of the plate is etop + ebottom + beam height. After an assignment to xbolts, as long as bp and ebolts are not assigned, xbolts is half the plate width minus ebolts and the bolts are 2 xbolts apart. Assigning bp or ebolts leaves xbolts behind, and assigning ebottom leaves the plate height behind until etop is assigned. The lever arm of a row is measured from the centre line of the lower flange.", "quantifier": "all sequences of assignments and values", "why_tests_cant": "unbounded sequences of assignments", "anchors": ["metku/structures/steel/end_plate_joint.py:78-86, 208-286"]}
{"id": "C296", "title": "Notional widths and corner data of a cold-formed section", "statement": "With rounded corners the notional width of the web, of a flange without and with a lip and of a lip is the centre line width minus the offset gr once per corner, with 0 < gr < rm; without rounded corners it is the centre line width. The centre line length is the sum of the centre line widths minus (2 - pi/2) rm per corner. A radius of zero means 1.5 times the nominal thickness. A request for sharp corners is honoured exactly when r <= 5 t and r is at most a tenth of both flange widths.", "quantifier": "all thicknesses, heights, widths, lips, radii and coatings", "why_tests_cant": "continuous geometry, five dimensions", "anchors": ["metku/eurocodes/en1993/en1993_1_3/cf_profs.py:109-174, 331-401, 738-853"]}
{"id": "C297", "title": "Area of a cold-formed section from its polyline", "statement": "The area of the calculation model is the thickness times the length of its polyline. If the inner nodes of the top flange and of its lip lie between their ends, it is below Agross and above 95/96 of it (four chords per corner). If the top lip is shorter than twice the centre line radius, its middle node lies inside the corner, the polyline runs back, and the area exceeds the exact one.", "quantifier": "all Z and C sections whose straight parts are not negative", "why_tests_cant": "the polyline has up to 27 nodes and the fold appears only for short lips", "anchors": ["metku/eurocodes/en1993/en1993_1_3/cf_profs.py:95-103, 429-562, 855-858, 983-1011, 1414-1526"]}
{"id": "C298", "title": "Centroid of a cold-formed section with equal flanges", "statement": "For a Z section with equal flanges and lips the centroid of the calculation model is the middle of the web. For a C section it lies at middle height.", "quantifier": "all symmetric Z and C sections", "why_tests_cant": "exact cancellation of trigonometric sums for all radii", "anchors": ["metku/eurocodes/en1993/en1993_1_3/cf_profs.py:201-205, 429-562, 1013-1017, 1414-1526"]}
{"id": "C299", "title": "Average yield strength and tension resistance of a cold-formed section", "statement": "fya is min(fyb + (fu - fyb) 28 t^2 / Ag, (fu + fyb)/2) and lies between fyb and the mean of fyb and fu. EN 1993-1-3 counts the corners of the section. The code always counts four, so that for sections with fewer lips fya is at least the value of the standard, and larger unless the upper limit governs. For a non-negative axial force NRd of a C section is fya times the area.", "quantifier": "all materials with fyb <= fu and all sections", "why_tests_cant": "the corner count matters only for sections without lips", "anchors": ["metku/eurocodes/en1993/en1993_1_3/cf_profs.py:277-284, 1237-1266", "metku/eurocodes/en1993/en1993_1_3/en1993_1_3.py:37-60"]}
{"id": "C300", "title": "Z sections in compression", "statement": "The web is reduced exactly when its notional width exceeds 28.4 eps t (1 + 2 sqrt 0.03), and then by (lambda - 0.22)/lambda^2. The effective section of a Z section in compression should then lose (1 - rho) of the web. For Z sections with a slender web the effective section raises. For a Z section with lips whose parts are all fully effective, the factors chi_d reduce the top lip and three quarters of the bottom lip only, instead of the stiffeners with their half flanges.", "quantifier": "all materials, sections and reduction factors", "why_tests_cant": "no test uses Z sections in compression", "anchors": ["metku/eurocodes/en1993/en1993_1_3/cf_profs.py:591-689, 929-948, 1071-1118"]}
{"id": "C301", "title": "Effective area of a C section in compression", "statement": "For a C section without lips the effective area should be A - t ((1-rho_w) bw + (1-rho_t) bt + (1-rho_b) bb); the code leaves out the bottom flange. With two lips each slender flange should lose (1-rho) bp and each stiffener the share 1 - chi_d. The code loses the length from the stiffener to a quarter point (top) or third point (bottom) of the flange. It moves the end of the bottom lip the wrong way, so that a lip which is not fully effective makes the gross area grow by 2 t (1-rho) bp_lip.", "quantifier": "all C sections with rounded corners and all reduction factors whose effective parts reach past the corners", "why_tests_cant": "needs exact geometry of a changed polyline", "anchors": ["metku/eurocodes/en1993/en1993_1_3/cf_profs.py:1569-1746"]}
{"id": "C302", "title": "Compression resistance of a cold-formed section", "statement": "NRd in compression is at most fya A. It is fyb Aeff when the section is reduced. Otherwise it is fya A up to a slenderness ratio of 3/4, at least fyb A up to one, linear in between, and it does not grow with a slenderness. For a C section without lips with a slender web or top flange, NRd is fyb (A - t ((1-rho_w) bw + (1-rho_t) bt)), whatever the bottom flange.", "quantifier": "all materials, sections and slendernesses", "why_tests_cant": "piecewise rule with three slendernesses; depends on the effective geometry", "anchors": ["metku/eurocodes/en1993/en1993_1_3/cf_profs.py:860-981, 1071-1118, 1237-1266, 1569-1708"]}
{"id": "C303", "title": "Spring stiffness of an edge stiffener and distortional buckling", "statement": "In compression edge_stiffness is the K of EN 1993-1-3 (5.10b) with kf = 1 for equal flanges and the ratio of the stiffener areas otherwise; without compression kf is zero. It does not grow with the distances b1, b2 or with kf. In compression it raises when the other flange has no stiffener. distortional_buckling uses lambda_d with lambda_d^2 2 sqrt(K E Is) = fyb As and the curve of 5.5.3.1.", "quantifier": "all materials with -1 < nu < 1, stiffener areas, distances and stiffnesses", "why_tests_cant": "continuous inputs; two branches on the sign of the force and symmetry", "anchors": ["metku/eurocodes/en1993/en1993_1_3/cf_profs.py:950-981, 1120-1167"]}
{"id": "C304", "title": "Lateral springs of cold-formed purlins and standard Z sections", "statement": "1/KB is 4 (1-nu^2) h^2 (h + bmod)/(E t^3) with bmod = a for positive kh and 2a + b otherwise, and 1/K is 1/KB + h^2/CD, so that K is below both springs. kh of a C section with the default load 'gravity' equals kh for 'uplift', and is smaller by bt/(2h) than for 'down'. ruukki_z gives Z sections with flange width constant plus 2t, lips and radii by height; for heights between 250 and 300 mm or above, other than 300 and 350, it raises.", "quantifier": "all materials, sections, loads, heights and thicknesses", "why_tests_cant": "string comparison with a default that never matches; gaps in a table", "anchors": ["metku/eurocodes/en1993/en1993_1_3/cf_profs.py:31-92, 1169-1235, 1393-1412"]}
{"id": "C305", "title": "The name of a rectangular tube gives its dimensions", "statement": "make_section reads a name RHS, blanks, and three lengths separated by any text without figures, points or blanks, and returns the tube with exactly those height, width and thickness, provided every length has one decimal, or no decimals and at least two figures. A thickness written with a single figure and no decimal (RHS 100x100x5) raises; of two decimals the second is dropped; with three decimals or more the figures after the first decimal are taken as the thickness in millimetres (6.345 becomes 45 mm).", "quantifier": "All numbers of any size, all separators and blanks.", "why_tests_cant": "Names are unbounded strings; the pattern with a repeated group fails only on shapes the catalogue does not contain.", "anchors": ["metku/sections/steel/catalogue.py:1318-1350"]}
{"id": "C306", "title": "The name of an I section gives its entry in the catalogue", "statement": "make_section of IPE n, HE n A and HE n B returns the entry of the catalogue of that family and number for every number n; a number missing from the catalogue raises for IPE and HE A, while HE n B silently makes a section from fitted formulas; every other letter of an HE name and every other first word raises.", "quantifier": "All numbers, blanks, letters and first words.", "why_tests_cant": "The number goes through a regular expression, int, str and a dictionary; round trips over all numbers cannot be enumerated.", "anchors": ["metku/sections/steel/catalogue.py:1287-1350", "metku/sections/steel/ISection.py:489-621"]}
{"id": "C307", "title": "Which profile lists of the member design can be made", "statement": "Every name in the IPE, HEA, HEB and RHS lists is made by make_section with exactly the dimensions of the list; of the H list exactly the A and B series can be made; no name of the SHS and CHS lists can be made, so design with those lists always raises.", "quantifier": "All names of all lists that profile_list returns.", "why_tests_cant": "A test picks one profile per family; the lists hold over eight hundred names.", "anchors": ["metku/raami/frame_member.py:33-85", "metku/sections/steel/catalogue.py:152-1350"]}
{"id": "C308", "title": "Sections outside the catalogue are real sections", "statement": "For every family and every height from 40 mm to 10 m the fitted dimensions give a possible section (positive plates, room for the fillets); thicknesses and radius never decrease with height, width never decreases except for HEM, and the area always increases. The fitted dimensions are within a stated tolerance of every entry of the catalogue of their family. HEM loses more than 6 mm of width just above 340 mm, and the fitted IPE radius equals the web thickness and is at least 16 percent below every radius of the catalogue.", "quantifier": "All families, all real heights of the range; all entries.", "why_tests_cant": "Piecewise linear fits over the reals with jumps.", "anchors": ["metku/sections/steel/ISection.py:484-691"]}
{"id": "C309", "title": "The argument catalogue of the constructors of I sections", "statement": "With catalogue=True IPE, HEA, HEAA, HEC and HEM return the entry of that number or raise. With catalogue=False the fitted section has exactly the height given, except that IPE and HEB return the entry of the catalogue when the number is there. The height of an entry equals the number for IPE and HEB, is below it for HEA and HEAA, and above it for HEC and HEM, so the same argument means different heights with and without the catalogue.", "quantifier": "All families and numbers.", "why_tests_cant": "The two modes differ in meaning, not in failure.", "anchors": ["metku/sections/steel/ISection.py:484-691"]}
{"id": "C310", "title": "The section tables agree with each other", "statement": "No table repeats a name; the lists of the families are exactly the parts of the main table; every I section in the main table is geometrically possible; every tube has the radius of EN 10219 and room for its corners; square tubes are square; the IPE, HEA and HEB lists are in strictly increasing order of area; every member of ISections has the dimensions of the catalogue entry of that name; the names of circular, square and rectangular tubes state their dimensions. profile_data agrees with the catalogue except IPE 750, whose columns are shifted by one (height 134 mm).", "quantifier": "All entries of all tables.", "why_tests_cant": "Four copies of the data with different names; agreement is over all pairs.", "anchors": ["metku/sections/steel/catalogue.py:22-1285", "metku/sections/steel/profile_data.py:5-132", "metku/profiles/steel/isections.py:97-194"]}
{"id": "C311", "title": "Section properties from the formulas module", "statement": "The properties of ISections equal those of the section classes for every set of dimensions (area, shear area, second moments, torsion and warping constants, moduli); area and perimeter are exact sums of the parts, while the painted perimeter of the section classes is short by twice the web thickness; all scale with the right power of the unit of length; elastic moduli are positive and below plastic ones; shear areas lie between the web and the whole area; radii of gyration are below half the depth and half the width.", "quantifier": "All dimensions of possible sections; all scale factors.", "why_tests_cant": "Real identities and inequalities in five variables.", "anchors": ["metku/profiles/steel/isection_formulas.py:15-101", "metku/profiles/steel/isections.py:32-94", "metku/sections/steel/ISection.py:709-776"]}
{"id": "C312", "title": "The material tables agree with each other", "statement": "A grade that occurs in two of the four material tables has the same yield strength, ultimate strength and modulus in both; all have yield below ultimate strength and modulus 210000 MPa; all but S700 and S700MC meet the ratio 1.1 of the code. The stainless materials of the default materials have modulus 200, a thousandth of the value of the table of steel data.", "quantifier": "All grades of all tables.", "why_tests_cant": "Agreement of independent copies over all pairs.", "anchors": ["metku/sections/steel/catalogue.py:8-18", "metku/materials/steel.py:36-62", "metku/materials/steel_data.py:16-39", "metku/frame2d/materials.py:12-39"]}
{"id": "C313", "title": "Vierendeel truss geometry", "statement": "For every origin, span, height and positive number of panels n, generating the topology of a Vierendeel truss gives n+1 bottom nodes at equal distances span/n from the origin, n+1 top nodes exactly the height above them, n members in each chord joining neighbours, and n+1 vertical braces joining each top node to the bottom node below it; with zero panels it raises.", "quantifier": "for all origins, spans, heights and numbers of panels", "why_tests_cant": "Tests build one truss; the number of panels is unbounded.", "anchors": ["metku/raami/raami_vierendeel.py:46-181"]}
{"id": "C314", "title": "Vierendeel truss is stable on its own supports", "statement": "With the rigid joints it generates and its own pinned and sliding supports, a Vierendeel truss with any number of panels and non-zero span admits no displacement or rotation of its nodes without deformation of a member.", "quantifier": "for all numbers of panels, all displacement and rotation fields", "why_tests_cant": "Stability quantifies over all displacement fields and truss sizes.", "anchors": ["metku/raami/raami_vierendeel.py:166-187"]}
{"id": "C315", "title": "Vierendeel joints", "statement": "Generating the joints of a Vierendeel truss gives exactly one Y joint per node, in node order, with the brace of that node and exactly the chord members that end at the node, each once: two inside the truss, one at the ends.", "quantifier": "for all numbers of panels and all nodes", "why_tests_cant": "The loop with early exits must be right at every node of every truss.", "anchors": ["metku/raami/raami_vierendeel.py:189-257"]}
{"id": "C316", "title": "Vierendeel weight", "statement": "The detailed weight of a Vierendeel truss is density times area times span for each chord and density times area times height times (n+1) for the braces.", "quantifier": "for all dimensions, sections and numbers of panels", "why_tests_cant": "A closed form for every truss size needs induction.", "anchors": ["metku/raami/raami_vierendeel.py:95-121, metku/raami/raami_plane_truss.py:220-256"]}
{"id": "C317", "title": "No load of a Vierendeel truss is lost", "statement": "Whatever sequence of uniform and nodal load calls is made on a Vierendeel truss, with any load types and ids, every load asked for is stored exactly once although names are reused and end in digits, and the total vertical force is the sum over the calls of q times span, or of two end forces and n-1 inner forces on the top chord, or of n-1 inner forces on the bottom chord, whose end forces are left out.", "quantifier": "for all sequences of calls, load types, ids, values and numbers of panels", "why_tests_cant": "Name collisions depend on the whole history of calls.", "anchors": ["metku/raami/raami_vierendeel.py:259-290, metku/raami/raami.py:148-203"]}
{"id": "C318", "title": "Every load of a portal truss reaches the analysis once", "statement": "Each load asked for by the load calls of a portal truss is passed to the structural analysis exactly once. (False: the loads of the first truss call of every load id are passed twice, by the truss and again by the portal truss; all other loads once. This exact account is proved for every history that does not raise.)", "quantifier": "for all histories of truss, zone and column load calls, all load ids, values and numbers of chord members", "why_tests_cant": "Whether a load is doubled depends on the order of all previous calls.", "anchors": ["metku/raami/raami_portal_truss.py:471-476, metku/raami/raami_portal_truss.py:559-620, metku/raami/raami_plane_truss.py:1350-1356, metku/raami/raami.py:124-140"]}
{"id": "C319", "title": "Column loads of a portal truss may come in any order", "statement": "Loads on columns and truss of a portal truss can be given in any order. (False: a column load whose load id no truss load has used before always raises KeyError; when each column load follows a truss load with its id and every truss call loads a member, no call raises.)", "quantifier": "for all histories of load calls", "why_tests_cant": "Depends on arbitrary prefixes of calls.", "anchors": ["metku/raami/raami_portal_truss.py:598-612, metku/raami/raami.py:187-203"]}
{"id": "C320", "title": "Ridge height of a portal truss", "statement": "The ridge height reported by a portal truss equals the level of the truss ridge node at mid-span, whichever two of end height, ridge height and slope the truss was given, and is at least the eaves height.", "quantifier": "for all spans, eaves heights and shape data accepted by the truss constructor", "why_tests_cant": "Tests try one of the three ways to give the shape.", "anchors": ["metku/raami/raami_portal_truss.py:131-133, metku/raami/raami_plane_truss.py:450-523"]}
{"id": "C321", "title": "Nodes of the chord next to the column", "statement": "The analysis node at the face of the column and the brace node beyond the gap lie on the axis of the chord, at half the column depth and that plus the gap from the column axis. (Holds for chords that rise from the column or are horizontal; false for falling chords. The brace node first created is closer to the column than the one set on updating whenever the chord is inclined, and can be inside the column.)", "quantifier": "for all chord directions, column depths and both sides", "why_tests_cant": "A geometric identity over all slopes; tests use one roof slope.", "anchors": ["metku/raami/raami_portal_truss.py:247-315, metku/raami/raami_portal_truss.py:352-360, metku/raami/raami_portal_truss.py:523-553, metku/raami/raami_portal_truss.py:936-962"]}
{"id": "C322", "title": "The variables of the truss MILP are laid out without gaps and each index refers to its variable", "statement": "TrussMILP(...).create_milp(...) creates, in this order: one selection variable per member and admissible profile; for each load case one force variable per member and admissible profile followed by one displacement per degree of freedom; and in a topology problem one variable per member, one per node and one per group and profile of the group. Every variable has exactly one position, every position one variable, and the start indices stored by the method are the positions of the first member, node and group variable. The admissible profiles of a member are those given for it in member_profiles, else those of the last group listing it, else all profiles.", "quantifier": "all numbers of members, profiles, nodes, load cases, degrees of freedom, all groups and member profile lists", "why_tests_cant": "tests look at one small truss; the property is about index arithmetic for all sizes", "anchors": ["metku/optimization/problems/truss_milp.py"]}
{"id": "C323", "title": "A feasible point of the truss MILP is an elastic truss design, every truss design is a feasible point, and the optimum is the lightest design", "statement": "For one load case and positive scaling factors: every feasible point of the mixed-integer problem chooses exactly one admissible profile per member (in a topology problem at most one, and the member variable says whether there is one), its scaled displacements are in equilibrium with the load and within the scaled displacement bounds, its force variables are the elastic forces and respect the resistances, and the objective is the weight. Conversely every such design (with admissible topology) is a feasible point if zero displacement is allowed, so an optimal point is a lightest design.", "quantifier": "all trusses, profile lists, groups, loads, scaling factors and feasible points, sizing and topology problems", "why_tests_cant": "infinitely many feasible points; optimality quantifies over all designs", "anchors": ["metku/optimization/problems/truss_milp.py"]}
{"id": "C324", "title": "Scaling of the truss MILP leaves the limits unchanged", "statement": "The scaling factors for forces and displacements do not change which designs are feasible: with factors 1 the displacement bounds and resistances are the ones given. With other factors they are not: the displacement bounds are not scaled and the tension resistance is multiplied by the square of the displacement factor, and the default lower displacement bound 0.001 excludes every truss with a degree of freedom that does not move forwards.", "quantifier": "all trusses, scaling factors and feasible points", "why_tests_cant": "needs the feasible set for all scalings", "anchors": ["metku/optimization/problems/truss_milp.py"]}
{"id": "C325", "title": "The truss MILP treats all load cases alike", "statement": "In every load case the members of a feasible point are in equilibrium with the load of that case, carry the elastic forces of its displacements and respect the resistances. Only the resistances hold for every case: the equilibrium rows of every load case refer to the forces of the first one, so different loads make the problem infeasible, and the compatibility rows of a later case read other variables than its forces.", "quantifier": "all trusses, numbers of load cases and feasible points", "why_tests_cant": "index errors show only with several load cases and the wrong solution is still reported as optimal", "anchors": ["metku/optimization/problems/truss_milp.py"]}
{"id": "C326", "title": "The topology constraints of the truss MILP keep the members and nodes consistent", "statement": "In the topology problem a node exists only with enough members, at least two supported nodes exist, the necessary count for stability holds, and a member exists only between existing nodes. The last rule is coded the other way round: an existing node must keep all members of the ground structure, and a member may exist without its nodes. The exact set of feasible topologies is characterised.", "quantifier": "all ground structures, groups, supports and feasible points", "why_tests_cant": "quantifies over all subsets of members and nodes", "anchors": ["metku/optimization/problems/truss_milp.py"]}
{"id": "C327", "title": "Members of a group get the same profile in the truss MILP", "statement": "In the topology problem any two existing members of a group have the same profile at every feasible point. In the sizing problem the groups only limit the admissible profiles.", "quantifier": "all trusses, groups and feasible points", "why_tests_cant": "quantifies over all feasible points", "anchors": ["metku/optimization/problems/truss_milp.py"]}
{"id": "C328", "title": "Class of a rolled I-section", "statement": "section_class of a rolled I-section under compression, bending or both is the worse of the class of the flange outstand and of the web part by Table 5.2, the latter with the share of the web that is plastically compressed when the web carries the axial force and with the ratio of the elastic edge stresses.", "quantifier": "all dimensions a section can have, all steels from S235 up, all axial forces and moments of either sign", "why_tests_cant": "the limits depend on two continuous parameters and on the sign of the moment; a table of sections never meets the borders", "anchors": ["metku/sections/steel/ISection.py:158-335", "metku/sections/steel/steel_section.py:461-505", "metku/eurocodes/en1993/en1993_1_1.py:43-153"]}
{"id": "C329", "title": "Classes of a rolled I-section are ordered", "statement": "For a rolled I-section the class in pure bending is not worse than in bending with compression, which is not worse than in pure compression, and more compression at the same moment never gives a better class.", "quantifier": "all dimensions, steels, moments and pairs of axial forces", "why_tests_cant": "a comparison between infinitely many pairs of load states", "anchors": ["metku/sections/steel/ISection.py:220-335", "metku/sections/steel/steel_section.py:461-505"]}
{"id": "C330", "title": "Class of a rectangular hollow section", "statement": "section_class of a rectangular hollow section is the worse of the class of the compressed flange and of the web by Table 5.2 for the acting forces, also when compression and bending act together.", "quantifier": "all dimensions, steels and forces", "why_tests_cant": "the claim is over continuous dimensions and forces", "anchors": ["metku/sections/steel/RHS.py:188-232", "metku/sections/steel/steel_section.py:461-505"]}
{"id": "C331", "title": "Class of a circular hollow section", "statement": "section_class of a circular hollow section is the class of its wall by Table 5.2 (50, 70 and 90 epsilon squared) under compression, bending or both, and 1 in tension.", "quantifier": "all dimensions, steels and forces", "why_tests_cant": "the claim is over continuous dimensions and forces, and the state in which it raises is a set with a border", "anchors": ["metku/sections/steel/CHS.py:82-98", "metku/sections/steel/steel_section.py:461-505"]}
{"id": "C332", "title": "Class of a welded I-section in compression or bending", "statement": "section_class of a welded I-section in pure compression is the worst class of its two flanges and its web; in pure bending it is the worse of the compressed flange and of the web by Table 5.2 with the compressed share and the stress ratio of the straight part of the web.", "quantifier": "all dimensions with a straight part in the web, any throat of the welds, all steels", "why_tests_cant": "the plastic axis moves between flange and web with the dimensions; the throat enters a divisor", "anchors": ["metku/sections/steel/wi.py:492-551", "metku/sections/steel/steel_section.py:461-505"]}
{"id": "C333", "title": "Class of a welded section in bending and compression", "statement": "section_class of a welded I-section or WQ beam under bending and compression uses the share of the web compressed by both; more compression never gives a better class.", "quantifier": "all dimensions, steels, moments and axial forces below the squash load", "why_tests_cant": "a comparison between infinitely many pairs of load states", "anchors": ["metku/sections/steel/wi.py:553-565", "metku/sections/steel/wq.py:170-188"]}
{"id": "C334", "title": "Class of a WQ beam", "statement": "section_class of a WQ beam in compression is the worse class of the top flange between the webs and of the webs; in bending the web is classified with the ratio of the edge stresses.", "quantifier": "all dimensions, steels and forces", "why_tests_cant": "the claim is over continuous dimensions and forces", "anchors": ["metku/sections/steel/wq.py:124-168", "metku/sections/steel/steel_section.py:461-505"]}
{"id": "C335", "title": "Buckling curves and compression flange of rolled I-sections", "statement": "The buckling curves a rolled I-section is given about its axes are those of Table 6.2 for h/b, the flange thickness and the steel, those for lateral-torsional buckling are those for h/b up to 2 and above, and the compression flange is one flange with its fillets and a third of the compressed half of the web.", "quantifier": "all heights, widths, thicknesses and yield strengths the table covers", "why_tests_cant": "borders of the table are met by few sections", "anchors": ["metku/sections/steel/ISection.py:48-88", "metku/sections/steel/ISection.py:173-190"]}
{"id": "C336", "title": "Effective section of a welded I-section that is not slender", "statement": "For a doubly symmetric welded I-section with flange outstand up to 13.9 epsilon and web up to 121 epsilon the iterated effective second moment and section modulus are those of the full section, so that the class 4 resistance equals the class 3 resistance.", "quantifier": "all such dimensions and every epsilon", "why_tests_cant": "five passes of an iteration with roots; equality needs exact arithmetic", "anchors": ["metku/sections/steel/wi.py:335-419", "metku/sections/steel/wi.py:793-834"]}
{"id": "C337", "title": "Shear buckling resistance of a welded I-section", "statement": "shear_buckling_resistance is the shear resistance for a stocky web; otherwise the web contribution plus the flange contribution of EN 1993-1-5 5.4 for the moment in use. It is at least the web contribution, does not grow with the size of the moment or of the axial force, does not exceed the cap of 5.2(1), and is undefined exactly when the flanges cannot carry the moment.", "quantifier": "all dimensions, stiffener distances, end posts, yield strengths and forces", "why_tests_cant": "monotonicity and the exact domain are statements over continuous loads", "anchors": ["metku/sections/steel/wi.py:276-285", "metku/sections/steel/wi.py:829-898", "metku/eurocodes/en1993/en1993_1_5.py:268-399"]}
{"id": "C338", "title": "Symmetry pairs of nodes", "statement": "After symmetry('y', s) on a frame without pairs every pair consists of two different nodes of the same height at the same distance from the line x = s (within the tolerance); if no node has two mirror images, two nodes are paired exactly when they mirror each other; if mirroring within the tolerance has no chains, pairing is mutual. Without the last condition it is not mutual.", "quantifier": "all lists of nodes and all positions of the axis", "why_tests_cant": "a claim over all configurations of nodes; tests use a handful of trusses", "anchors": ["metku/raami/raami.py:803-822"]}
{"id": "C339", "title": "Default axis and repeated symmetry detection", "statement": "Without a given axis position a symmetric frame is mirrored about its own axis, and all its pairs are found. Calling symmetry again changes nothing - including pairs that are no longer mirror images after nodes were moved.", "quantifier": "all symmetric frames, all numbers of calls and moves in between", "why_tests_cant": "idempotence and staleness are statements about call sequences on arbitrary frames", "anchors": ["metku/raami/raami.py:777-787", "metku/raami/raami.py:803-822"]}
{"id": "C340", "title": "Symmetry pairs of members", "statement": "With mutual node pairs and members between two different nodes, no two of them between the same nodes, two members are paired exactly when the nodes of one are the mirror images of the nodes of the other (nodes without partner mirror to themselves), and pairing is mutual. With parallel members between the same nodes it is not mutual.", "quantifier": "all lists of members and all mutual node pairs", "why_tests_cant": "the nested loops with a visited list have a correctness argument by invariant only", "anchors": ["metku/raami/raami.py:824-859"]}
{"id": "C341", "title": "Symmetric members have the same profile", "statement": "Assigning a profile to a single-span member also assigns it to its symmetry pair: after any sequence of assignments each member has the profile last given to it or to its pair, so that pairs differ in nothing once one of them was assigned; a sweep of optimize_members searches each pair once and both get the result. Members of several spans do not share profiles although their pair is skipped in the sweep, and a single-span member paired with a multi-span member cannot be assigned a profile.", "quantifier": "all mutual pairings, all sequences of assignments, all results of the searches", "why_tests_cant": "sequences of assignments of any length on any pairing", "anchors": ["metku/raami/frame_member.py:188-201", "metku/raami/frame_member.py:927-935", "metku/raami/raami.py:415-450"]}
{"id": "C342", "title": "Length, points and finite element nodes of multi-span members", "statement": "The length of a member of several spans never exceeds the sum of its spans and equals it for nodes in order on a straight line; then local coordinates run linearly from the first to the last node and going to global coordinates and back returns the size of the local coordinate; the finite element nodes start at the first node, end at the last one, contain all nodes of the member and number one more than the elements. For a bent member length, weight and local coordinates ignore the bend.", "quantifier": "all lists of nodes, element counts and local coordinates", "why_tests_cant": "real geometry over lists of any length", "anchors": ["metku/raami/frame_member.py:981-1050"]}
{"id": "C343", "title": "Profile search of groups and multi-span members", "statement": "The search of a group ends with the first profile of the list whose width and class are within the limits and which carries every load case in every member; if there is none, with the last profile. The slenderness limit given to it has no effect: slender profiles are chosen although a stocky one is available. The search of a member of several spans is the same search without width limits and ignores its argument max_utility.", "quantifier": "all profile lists, limits, load cases and utilizations not stored before", "why_tests_cant": "the loop's continue only ends the inner loop: only a universally quantified statement shows the limit is dead", "anchors": ["metku/raami/frame_member.py:1320-1363", "metku/raami/frame_member.py:1446-1531"]}
{"id": "C344", "title": "Moving a node", "statement": "Assigning a coordinate to a node changes this coordinate of this node only, and every member at the node afterwards has its stored points and its length from the present end nodes while other members stay unchanged; the node of the finite element model gets the same value. A node created with whole-number coordinates stores the value truncated towards zero, while the finite element node gets the full value.", "quantifier": "all frames, nodes and values", "why_tests_cant": "holds for all frames; truncation depends on how the node was created and is silent", "anchors": ["metku/raami/frame_node.py:28-86", "metku/raami/frame_member.py:335-354"]}
{"id": "C345", "title": "Angle between brace and chord of a tubular truss joint", "statement": "The angle a joint of a tubular truss reports between its chord and a brace lies between 0 and 90 degrees and is the acute angle between the two lines: a brace turned by d degrees from the chord gives min(d, 180 - d), whichever end of brace or chord is taken first. The point where the centre line of a brace meets the chord face lies on that line and on the face, half the chord height from the chord axis, and the accompanying chord point is its foot on the chord axis.", "quantifier": "all unit directions of chord and brace, all positions of the intersection point, all chord heights, joints not at the ridge", "why_tests_cant": "tests try a few trusses; the folding of obtuse angles and the projection must hold for every direction", "anchors": ["metku/raami/raami_plane_truss.py:2689-2714", "metku/raami/raami_plane_truss.py:3193-3275"]}
{"id": "C346", "title": "Gap of a K joint of a tubular truss", "statement": "The gap a K joint of a tubular truss computes from eccentricity and brace angles equals the distance on the chord face between the two brace centre lines minus half of each brace's footprint, when the braces lean to opposite sides; if both lean to the same side the computed gap is strictly larger than the real one. Feeding the gap to the eccentricity formula of RHS joints returns the eccentricity, and the gap grows strictly with the eccentricity.", "quantifier": "all chord and brace directions not parallel to the chord, all heights, eccentricities with e + h0/2 not negative, joints not at the ridge", "why_tests_cant": "the identity relates trigonometric formulas to plane geometry for a continuum of configurations", "anchors": ["metku/raami/raami_plane_truss.py:3305-3336", "metku/raami/raami_plane_truss.py:3246-3275", "metku/eurocodes/en1993/en1993_1_8/rhs_joints.py:25-32"]}
{"id": "C347", "title": "Moving the intersection point of a K joint", "statement": "After any sequence of assignments to xloc and yloc of the joints of a truss, the intersection point of every joint not at the ridge is the node plus xloc along the chord plus yloc perpendicular to it, and the joints of a symmetric pair keep opposite xloc, equal yloc and mirrored intersection points. At the ridge this fails: assigning yloc after xloc puts the point above the node and forgets xloc, the other order does not. The chord face point at the ridge lies below the node when the first chord rises and above it when the first chord falls.", "quantifier": "all trusses, all numbers of joints, all sequences of assignments, all mutual symmetric pairs away from the ridge", "why_tests_cant": "order and number of assignments are unbounded", "anchors": ["metku/raami/raami_plane_truss.py:2972-3112", "metku/raami/raami_plane_truss.py:3149-3202"]}
{"id": "C348", "title": "Symmetric joints of a truss", "statement": "If every node carries at most one joint, the symmetric joint found for a joint is exactly the joint at the symmetry node of its node, and the relation is mutual when that of the nodes is. With two joints at one node the relation need not be mutual.", "quantifier": "all lists of joints, all symmetry relations of nodes", "why_tests_cant": "depends on the whole list of joints and its order", "anchors": ["metku/raami/raami_plane_truss.py:2731-2747"]}
{"id": "C349", "title": "Forces used in the design of tubular truss joints", "statement": "The K gap joint takes the chord force of smaller magnitude of the two chord members, so for compressed chords its chord stress factor is never below that of either chord member. The gap shear force is the signed maximum, so a large negative shear is overlooked; the chord resistance at the gap is zero above the shear resistance of the chord, that of the RHS joint for magnitudes up to it and undefined below its negative. The design of a Y joint raises from beta = 0.85 on and otherwise returns brace force over chord face resistance; without a user reduction factor the chord force has no effect up to S355 and for a reduction factor below one more compression in the chord never raises the utilization.", "quantifier": "all sections, forces, angles and strength grades", "why_tests_cant": "the properties relate the result to all force values and grades, including signs tests do not try", "anchors": ["metku/raami/raami_plane_truss.py:2852-2963", "metku/raami/raami_plane_truss.py:3132-3133", "metku/raami/raami_plane_truss.py:3361-3382", "metku/raami/raami_plane_truss.py:3421-3460"]}
{"id": "C350", "title": "Weld length of a brace of a tubular truss", "statement": "The weld length of a brace used for the welding cost equals the perimeter of the rounded brace section for a brace at right angles to the chord, is never below it and strictly decreases as the angle grows towards 90 degrees.", "quantifier": "all brace sections of positive height, all angles in (0, 90]", "why_tests_cant": "holds over a continuum of angles and sections", "anchors": ["metku/raami/raami_plane_truss.py:2716-2729"]}
{"id": "C351", "title": "The eccentricity problem of a tubular truss has the gaps and vertical braces it promises", "statement": "minimize_eccentricity of a tubular truss creates, for every ridge or K gap joint on the left half, a variable for the vertical local coordinate with bounds -0.55 h0 and 0.25 h0 and, for K gap joints, a variable for the coordinate along the chord with bounds -200 and 200; each starts within its bounds and no coordinate appears twice. The constraints on a gap hold exactly when the gap is between half and one and a half b0(1 - beta), not less than the sum of the wall thicknesses and not less than the given minimum; they can be met exactly when the latter two do not exceed the upper limit, and met, the true distance between the brace feet on the chord face obeys the lower limits. The objective is zero exactly when every vertical coordinate is zero and its gradient is exact. The equation of a vertical brace between two straight chords holds exactly when both of its end points are on one vertical line after the values are set. Exception proved: at the ridge the equation can hold while the brace is not vertical.", "quantifier": "all joints, chord and brace sizes, lists of variables and values", "why_tests_cant": "tests try one truss; the equations must mean what is said for every vector the solver tries", "anchors": ["metku/raami/raami_truss_opt.py:26-161"]}
{"id": "C352", "title": "Resistance of a shear stud", "statement": "The shear resistance of a headed stud is the smaller of 0.8 fu pi^2 d^2/4 and 0.29 alpha d^2 sqrt(fck Ecm)/1.25 with alpha = 0.2(h/d + 1) at most 1; it raises exactly when fck Ecm is negative; it never decreases when the length, tensile strength or concrete values grow; it is never below the resistance of EN 1994-1-1 6.6.3.1 and it exceeds that resistance exactly when the steel decides in the standard. Exceptions proved: for ordinary data the returned resistance is above the standard's (pi squared, no partial factor), and the stud of the catalogue named 25 has the resistance of stud 19.", "quantifier": "all lengths, diameters above zero, strengths", "why_tests_cant": "tests compare with values computed by the same formula; the standard's formula must be bounded for all studs", "anchors": ["metku/eurocodes/en1994/en1994_1_1.py:23-64"]}
{"id": "C353", "title": "Stress-strain relation of stainless steel in fire", "statement": "The stress of stainless steel at a temperature is 0 at strain 0, the 0.2 proof strength f at the strain f/E + 0.002, the ultimate strength at the ultimate strain; between them it never decreases, stays below E times strain and below f up to the proof strain and between f and f + Ec(strain - proof strain) above it, and both branches have the slope Ec at the proof strain, the upper slope zero at the ultimate strain. For the strengths 230 and 540 and E = 200000 this holds for every temperature from 20 to 100 and from 200 to 1000 degrees. Exceptions proved: beyond the ultimate strain the stress mirrors the branch before it and then an error is raised; between 100 and 200 degrees every call raises; when the slope Ec exceeds f divided by the proof strain, as at 1100 degrees, strain zero raises.", "quantifier": "all strains not negative, all data with 2(fu - f) below Ec times the plastic strain range, temperatures as stated", "why_tests_cant": "tests sample points of the curve; monotonicity, tangency and the temperatures are for all reals", "anchors": ["metku/eurocodes/en1993/en1993_1_2.py:174-198", "metku/eurocodes/en1993/en1993_1_2.py:254-282"]}
{"id": "C354", "title": "Combiner results list the loads of the governing combination member by member", "statement": "The result of a load combination is a pair of lists for the x and y directions whose entry number i is None exactly when no load of the governing combination names member i and otherwise is the sum of the rounded design values of the loads naming it in that direction, once per mention; the lists end with the largest id named. It raises exactly when the combination holds no load or a load without ids. The parts of a split serviceability result add up to the unsplit one and exist exactly when it does. Serviceability results exist whenever there is a load and all loads name members; with a permanent load all results exist. A multiple combiner gives every load to three equal combiners and has a result exactly when all three have. Exceptions proved: with no permanent load and only non-positive variable loads the ultimate result raises, and with negative ones the accidental result raises.", "quantifier": "all lists of loads, ids, directions, values and factors; any rounding", "why_tests_cant": "tests use two or three loads; the lists must be right for all numbers of loads and members", "anchors": ["metku/eurocodes/en1991/en1991.py:208-302", "metku/eurocodes/en1991/en1991.py:337-516"]}
{"id": "C355", "title": "Individuals of the genetic algorithm hold one value per variable within its bounds and new populations contain every offspring and the best design", "statement": "The initial population has the requested number of individuals with one gene per variable. When the number of genes made before in the process is a multiple of the number of variables, gene i lies within the bounds of variable i, is a whole number step from the lower bound and below the upper bound for integer and index variables, and equals entry i of a given start design. A population of the same problem leaves this alignment unchanged. A new population consists of the offspring, repeated equally often, and the best individual; it has more than the population size and at most one set of offspring more; exactly one offspring, never the last of several, is overwritten in place by the best design and the others keep their genes. Exception proved: the gene counter is shared by all solvers of the process, so after a problem with another number of variables the genes are shifted and lie outside the bounds of their variable.", "quantifier": "all lists of variables and bounds, random numbers, population sizes, numbers of offspring and call counts", "why_tests_cant": "random populations can only be sampled; the bounds must hold for every draw", "anchors": ["metku/optimization/solvers/ga.py:152-174", "metku/optimization/solvers/ga.py:176-207", "metku/optimization/solvers/ga.py:210-233"]}
{"id": "C356", "title": "Numerical gradients and convex sub-problems agree with the functions they replace", "statement": "The numerical gradient of an affine function is its coefficient vector exactly, its error for a twice differentiable function is at most half the bound of the second derivative times the step max(1e-6|x|, 1e-8), and it is zero for a function that does not read the vector it is given. The sub-problems made by the convex linearisation and the method of moving asymptotes keep the types of constraints, reproduce at the expansion point the value and the gradient of the objective and (with no variable locked) the value of every constraint, and keep linear constraints as they are. Two exceptions: a constraint without a gradient of its own that reads the structure rather than the vector gets a zero gradient, so its approximation is constant; and with a locked variable the function of a constraint is called with the free values only. Making a sub-problem leaves the linear constraints of the original problem attached to the sub-problem: they can be called as before when no variable is locked and raise otherwise.", "quantifier": "for all functions, expansion points, asymptotes, variables (locked or not) and constraints", "why_tests_cant": "a test checks a sub-problem at a point or two; it does not show that the gradient handed to it is that of the structure's response", "anchors": ["metku/optimization/opt_functions.py:19-44", "metku/optimization/constraints.py:221-232", "metku/optimization/structopt.py:439-526", "metku/optimization/solvers/mma.py:25-86"]}
{"id": "C357", "title": "Random designs are allowed, and random feasible points satisfy the less-than constraints only", "statement": "random_values gives every variable an allowed value (discrete variables the allowed value nearest to the number drawn), and every allowed value can be drawn, except the upper bound of a continuous variable. random_feasible_point returns the first point drawn at which every constraint function is at most -0.15; discrete variables never get their upper bound. The point therefore satisfies every '<' constraint and violates every '>' and every '=' constraint, and for a problem whose designs are feasible with a smaller margin the search never ends.", "quantifier": "for all variables, constraints and sequences of random numbers", "why_tests_cant": "random draws are sampled by tests, and the wrong treatment of '>' and '=' constraints only shows when such constraints are present", "anchors": ["metku/optimization/structopt.py:271-293", "metku/optimization/solvers/optsolver.py:339-366", "metku/optimization/structopt.py:193-224"]}
{"id": "C358", "title": "The stopping criterion is a relative change of the design or of the objective", "statement": "The criterion on variables holds for an unchanged design that is not the origin, does not depend on the units of the variables, and when it holds every variable has changed by less than the tolerance times the Euclidean norm of the previous design. The criterion on the objective holds exactly when the new value is within atol + rtol|f| of the previous value f. At the origin the criterion never holds, even for an unchanged design, and it depends on the order of the two designs.", "quantifier": "for all designs, objectives and tolerances", "why_tests_cant": "tests stop a solver on one problem; scale invariance and the behaviour at the origin are statements about all designs", "anchors": ["metku/optimization/solvers/optsolver.py:110-151"]}
{"id": "C359", "title": "Particle swarm runs end in time and stay inside the bounds", "statement": "A run of the particle swarm solver makes at most the given number of generations; it returns earlier only after eleven generations in a row without a better feasible design, and always then. Inertia and velocity limit are reduced by the factors 0.9 and 0.95 together, at most five times per improvement plus five. Particles start within the bounds with velocities within a fifth of the range, every step leaves each coordinate within the bounds and its velocity within the reduced limit, and a step that violates neither is taken unchanged. Two exceptions: a swarm without a feasible particle gives up after ten generations whatever the limit, and a solver used a second time keeps its counters and inertia, so it may give up after one generation.", "quantifier": "for all numbers of generations, sequences of improvements, random numbers, bounds and particles", "why_tests_cant": "a random search is sampled by tests; the bound on all trajectories and the interplay of the counters need an invariant", "anchors": ["metku/optimization/solvers/pso.py:22-62", "metku/optimization/solvers/pso.py:100-107", "metku/optimization/solvers/pso.py:136-179", "metku/optimization/solvers/pso.py:207-227", "metku/optimization/solvers/pso.py:258-341"]}
{"id": "C360", "title": "Buckling strength and restraint stiffness of cold-formed members", "statement": "For each axis the buckling strength of a cold-formed member is the effective area times the yield strength reduced by the factor of EN 1993-1-1: it is positive, at most the cross-section's strength (equal to it up to the slenderness 0.2) and at most the Euler load of the buckling length, and a longer member is not stronger. The shear stiffness required of sheeting to restrain it is 70/h^2 times the sum of the warping, torsion and lateral bending terms; it falls with the length and stays above 70 G It / h^2.", "quantifier": "for all cross-section properties, imperfection factors from 0 to 1, lengths and buckling length factors", "why_tests_cant": "tests compare single members; order between members and bounds for all slendernesses need proof", "anchors": ["metku/structures/steel/cf_steel_member.py:23-80", "metku/structures/steel/steel_member.py:220-234"]}
{"id": "C361", "title": "Plastic moduli of WQ beams", "statement": "For a WQ beam whose plastic axis lies between the flanges, the plastic modulus about the horizontal axis is the absolute first moment of the cross-section about the axis that halves its area, and no other axis gives a smaller one. The axis lies there exactly if the flange areas differ by no more than the web areas allow. About the vertical axis the plastic modulus and the second moment are those of the plates about the plane of symmetry, and the elastic modulus is positive and below the plastic one. The painted length is the length of the outline. Exception: with a flange so heavy that the axis leaves the webs the modulus about the horizontal axis is reported as zero.", "quantifier": "for all plate dimensions", "why_tests_cant": "tests compare tabulated beams; equality with the integrals and the minimality over all axes need proof", "anchors": ["metku/sections/steel/wq.py:215-298"]}
{"id": "C362", "title": "Registration of variables and constraints of a problem", "statement": "After any sequence of operations on an optimization problem no variable and no constraint is registered twice; all variables are the free ones and the locked ones, and locking or unlocking one moves only that one. Adding appends unless present; deleting removes only that variable; replacing the variables keeps first occurrences in order; constraints added know the problem. The type of the problem is that of its variables if all are of one kind. Exceptions: constraints given to the constructor do not know the problem, assigning the problem's own variables drops locked ones or all, add_variable(s) change nothing, and a mixed problem takes the type of its first free variable.", "quantifier": "for all initial variables and constraints and all sequences of operations", "why_tests_cant": "sequences of operations are unbounded; tests run a few", "anchors": ["metku/optimization/structopt.py:83-93", "metku/optimization/structopt.py:118-189", "metku/optimization/structopt.py:231-261", "metku/optimization/structopt.py:656-667"]}
{"id": "C363", "title": "Relaxations and optimality-based tightening in branch and bound", "statement": "When a node of branch and bound is bounded, variables whose bounds coincide are held at the upper bound while the solver sees only the others, starting from their entries; the node's point has the bound for the held variables and the solver's values, in order, for the others, it is stored exactly if the solver succeeded or was feasible, and afterwards no variable is locked and no bound has changed. Tightening bounds by an exact linear-programming solver keeps exactly the points that satisfy bounds and linear constraints, every resulting bound is attained by such a point, a second tightening changes nothing, the resulting bounds are consistent, and it raises only if there is no such point. Exception: if the user has locked a variable the relaxation raises.", "quantifier": "for all numbers of variables, bounds, starting points, solver results and linear constraints", "why_tests_cant": "tests solve single small problems; exactness of the bounding box and the order of entries concern all of them", "anchors": ["metku/optimization/solvers/bnb.py:318-411", "metku/optimization/solvers/bnb.py:554-619", "metku/optimization/solvers/lp.py:31-138"]}
{"id": "C364", "title": "Effective stiffness of a bolt row", "statement": "The stiffness factors of the column flange and of the end plate of a bolt row are 0.9 times the smallest of the row's own effective lengths, those of its bolt groups and 1e5, times the cube of the thickness over the cube of the bolt distance; the factor of the column web in tension is 0.7 times such a length times web thickness over web height. For a row away from stiffeners the effective stiffness does not depend on how the joint was evaluated before, is never above the stiffness of the bolts alone, and further bolt groups never raise it. A row next to a stiffener is the exception: its column flange factor changes with the row distances an earlier evaluation left behind.", "quantifier": "all joints with positive dimensions, all rows, all lists of bolt groups, all states left by earlier evaluations", "why_tests_cant": "an observer sees one joint in one state; history independence and monotonicity quantify over all states and group lists", "anchors": ["metku/eurocodes/en1993/en1993_1_8/en1993_1_8.py:593-749", "metku/eurocodes/en1993/en1993_1_8/en1993_1_8.py:2039-2107", "metku/eurocodes/en1993/en1993_1_8/component_method.py:288-298"]}
{"id": "C365", "title": "Governing sections of the segments of a timber member", "statement": "For a timber member with sections at different locations, the stresses reported for each segment between lateral supports are those of a section in the segment with the largest bending stress about y in absolute value, also for the segments of the z direction, where a section with a larger stress about z may be passed over. The radius of gyration of a segment is that of the section with the largest signed stress, which governs when all stresses are positive, and is the least stressed section when they are all negative. Both are defined exactly when every segment contains a section, in particular when sections lie at both ends and at every support. The stress along the tapered edge is the stress of largest absolute value over the member, the negative one when two are equal.", "quantifier": "all members of positive dimensions, all heights along the member, all lists of sections and supports", "why_tests_cant": "selection by key depends on the whole list of sections and on signs; tests check a few lists", "anchors": ["metku/structures/timber/timber_member.py:283-292", "metku/structures/timber/timber_member.py:579-614", "metku/structures/timber/timber_member.py:710-753"]}
{"id": "C366", "title": "Wind zones and pressures of flat roofs", "statement": "flat_roof_pressure is defined for every roof of nonzero depth. The areas of the zones, the corner zone F counted twice, add up to the area of the roof, and if the depth is at least half of e = min(b, 2h) every point of the roof lies in exactly one zone. Without parapets the pressures are -1.8, -1.2, -0.7 and +-0.2 times the peak velocity pressure. Findings: with parapets all pressures are zero; a roof shorter than e/2 gets a zone I of negative width and zones that exceed the roof; for e below 20 m the corner zone is smaller than 10 m2, yet the coefficient of 10 m2 is used, which gives less suction than the Eurocode.", "quantifier": "all dimensions, peak pressures and parapet heights", "why_tests_cant": "coverage of every point and all building sizes cannot be enumerated", "anchors": ["metku/eurocodes/en1991/en1991_1_4.py:57-60", "metku/eurocodes/en1991/en1991_1_4.py:389-432"]}
{"id": "C367", "title": "Feasible end plate geometry", "statement": "For an extended end plate (first bolt row above the tension flange, the others between the flanges) a point satisfies the bounds and geometry constraints of the optimisation problem exactly when the plate thickness is in 4..30, the bolts keep washer clearance from the welds and root radii and 1.2 d0 from the column flange edge, rows are at least 2.2 d0 apart, the first row clears the flange weld, the inner rows clear both flange welds (all up to rounding to integers), and, if extension and plate width are variables, bolts keep 1.2 d0 from the plate edges. Any two rows i and k are then at least 2.2 d0 |k-i| apart. Substituting such a point sets exactly these dimensions. Findings: if the extension is not a variable the first row may sit at the edge of the plate; if the width is not a variable the bolts may violate the edge distance of a plate narrower than the column flange; the bolt edge distance after a substitution uses the previous plate width (a second substitution corrects it); for flush end plates two variables have the same name and two rows may coincide in a feasible design.", "quantifier": "all extended joints with any number of rows and all points", "why_tests_cant": "bolt row numbers, heights and combinations of variables are unbounded", "anchors": ["metku/optimization/problems/end_plate.py:101-175", "metku/optimization/problems/end_plate.py:296-318", "metku/optimization/problems/end_plate.py:360-470", "metku/structures/steel/end_plate_joint.py:213-286"]}
{"id": "C368", "title": "Strength checks in the apex zone of timber beams", "statement": "The bending check of a tapered or curved beam is k_l times the bending stress at the apex over k_r fmd, where the stress is that of the section at the apex or, if there is none, the mean of the sections next to it on either side; the check of tension perpendicular to the grain is at most one exactly when k_p 6M/(b h^2) is at most k_dis k_vol ft90d, and with equation 6.55 the stress is reduced by 0.6 p/b with p the last uniform load in y direction. The combined check adds the larger of two shear stresses over fvd, the one near the start taken from the last section within the support zone. Findings: a hogging moment of any size passes the bending check; of several uniform loads only the last counts; a downward load raises the tension instead of reducing it; the shear at the end is always taken at the last section whatever meets it there; as shear stresses are compared with sign, a negative shear at the end of any size is ignored, and the mirrored beam gets another verdict.", "quantifier": "all sections in ascending order, all loads and all members met at the ends", "why_tests_cant": "the number of sections and loads is unbounded and the errors need particular signs", "anchors": ["metku/structures/timber/timber_member.py:294-303", "metku/structures/timber/timber_member.py:960-997", "metku/structures/timber/timber_member.py:1254-1333"]}
{"id": "C369", "title": "The load cases of a frame in the analysis", "statement": "After any sequence of creating loads, adding loads, load cases and load combinations to a frame and generating its finite element model, the analysis of all load cases covers every load case once with exactly the loads that have its id, every load stored in the frame acts in exactly one load case, and the analysis succeeds exactly if there is a load case and each one has a load in the frame; the analysis of one id covers that id alone, without an id the first id ever given. Findings: a load case without loads, a load put in two load cases (it belongs to the one created last) and a load case whose loads have names in use make the analysis of all load cases raise; a load added after the finite element model was generated is left out of the analysis without a warning.", "quantifier": "all finite sequences of creations and additions of loads, load cases and combinations, all names, ids, types and factors", "why_tests_cant": "the property is an invariant of a dictionary of loads, a dictionary of load cases and mutable load ids over all histories of calls", "anchors": ["metku/raami/raami.py:124-203", "metku/raami/raami.py:276-320", "metku/raami/raami.py:323-373", "metku/framefem/framefem.py:287-300", "metku/framefem/framefem.py:540-600"]}
{"id": "C370", "title": "Resistance and stiffness requirements of end plate optimisation", "statement": "A design of an end plate joint with positive bending resistance is accepted by the resistance and stiffness constraints exactly if, for each option given, the design moment is at most the bending resistance, the design shear force at most the shear resistance, the (initial) rotational stiffness within the given percentage of the target, and the initial stiffness at least the rigid threshold; without options bending, shear and, given a target, stiffness are required. Findings: a dictionary of options once used without a target loses the stiffness requirement for all later problems made with it; the option for pinned joints has no effect, nor has the option for rigid joints with the threshold set by the constructor; moments of the other sign always pass.", "quantifier": "all option dictionaries, actions, targets, deviations, thresholds and responses of the joint", "why_tests_cant": "the acceptance region is a set of real responses for every combination of options, and the loss of a requirement depends on earlier calls with the same dictionary", "anchors": ["metku/optimization/problems/end_plate.py:32-84", "metku/optimization/problems/end_plate.py:178-358"]}
{"id": "C371", "title": "Compression of timber perpendicular to the grain at contacts", "statement": "For a timber member and its nodes with contacts of complete members, the utilisation in compression perpendicular to the grain is the largest compressive contact stress over all nodes divided by the strength times the factor kc90, which is 2.5 for solid timber and 1.75 for glued laminated timber with contact depth up to 400 mm if the nearest other contact is at least twice the member depth away, else 1; the stress is force over the contact length plus 30 mm (not more than the length itself) per side times the smaller width, 0 in tension. Findings: the force is always that at the last section of the other member, not the one at the contact; all contacts of a member with three or more sections count two sides, also at its ends; with only one contact the utilisation of a new member is 0 whatever the stress; for glued laminated timber the depth at the last contact node decides, so the result depends on the order of the nodes.", "quantifier": "all members, node lists of any length, numbers of contacts, dimensions and forces", "why_tests_cant": "closed forms over all node lists with a running minimum and a factor kept on the object between calls", "anchors": ["metku/structures/timber/timber_member.py:481-566", "metku/structures/timber/timber_member.py:1013-1054"]}
{"id": "C372", "title": "Incremental analysis: what it leaves behind, and mode shapes", "statement": "Running the incremental second order elastic analysis of a load case with n increments fails exactly when n is zero. Otherwise it leaves every load of the case with the factor (n-1)/n, whatever factor it had, and loads of other cases as they were; the current coordinates of nodes have moved by (n-1)/2 times the displacements of the case with all factors one, which is the position under the full loads only for n = 3; and a later linear analysis of the case sees (n-1)/n of its loads, so the full loads are never applied. After a linear buckling analysis each free degree of freedom of each node has the value of its row of the mode in the reduced system and each supported one has zero, provided the free degrees of freedom are listed in ascending order; with another order of the same set (the order of a Python set is not specified) nodes get values of other rows.", "quantifier": "all numbers of increments, loads, load cases, flexibility matrices and coordinates; all modes, supported degrees of freedom and numberings of nodes", "why_tests_cant": "The state after the analysis depends on the number of increments and on every load; tests look at printed results of one model.", "anchors": ["metku/framefem/framefem.py:391-394", "metku/framefem/framefem.py:760-794", "metku/framefem/framefem.py:886-904"]}
{"id": "C373", "title": "Export of a frame to Abaqus", "statement": "to_abaqus writes each node of the finite element model once, under the number nid + 1, with its coordinates in metres, and each element that is not an eccentricity element once, under its position + 1, with the numbers of its nodes. The rows of a set, read one after the other, are the numbers of the set, 16 to a row and the rest in the last. Each member listed in included_members has a set with the numbers of its elements, gap elements have sets if there are at least two, and the sets of the options are written as given. The first release set has exactly the elements of included members with at least two elements that are released at their first end; the second those released at their second end only. So hinges of a member of one element and the second hinge of an element with two are lost, and without included_members no member has a set and no hinge is exported. Nodes held out of plane are all but the slave nodes, and the export raises exactly if a slave is no node or is named twice. The monitored nodes are the requested number of nodes closest to the given place, but they are written counted from zero, so Abaqus monitors another node or none. Fixed supports, hinges and vertical rollers are exported with the degrees of freedom they hold; a support held only in x also holds the rotation in the export, and a support of the base class is not exported.", "quantifier": "all node and element lists, members, options and supports", "why_tests_cant": "The written file is checked by no test; the property is about all models and sizes of sets.", "anchors": ["metku/raami/raami.py:996-1295", "metku/raami/exports.py:13-82"]}
{"id": "C374", "title": "The outline of a hollow section exported to Abaqus follows the wall", "statement": "The outline exported for a rectangular hollow section is a closed chain of the announced number of segments, symmetric about both axes, whose every point lies on the middle line of the wall (in metres) when the corner radius plus one thickness fits in half of each side; its length is given by the flats and the chords of the corners, and when the radius plus two thicknesses fits in half of each side the exported thickness times the length is less than the gross area of the section and at least 95/96 of it. On thicker-walled sections the outline runs back over itself and the exported area can exceed that of the section (finding).", "quantifier": "for all heights, widths, thicknesses and corner radii (with the stated relations)", "why_tests_cant": "the points are computed with trigonometric functions for a continuum of dimensions; a test checks particular sections to rounding", "anchors": ["metku/sections/steel/RHS.py:332-405"]}
{"id": "C375", "title": "Variables are created with the target they name and write exactly to it", "statement": "Creating a variable is refused exactly when properties are named without objects or objects without properties; otherwise the target is the one named (or the target given). Substituting a cross-section variable sets its property, in the section of every member of its target, to the value times the scaling factor and changes no other property and no other section, so members with sections of their own never affect each other; with a list of properties and functions each member gets the function of the scaled value; a locked variable changes nothing. The change from index to binary variables with discrete property variables makes one variable per property with the value of the current profile and the range of the profiles as bounds, and leaves every member of the variable with a section of its own that has the same numbers. Findings: a cross-section variable cannot be created with a non-zero value or with profiles, so the change with continuous property variables (the default) fails; the discrete ones never reach the sections; and with a list of properties and no functions the scaling factor is ignored.", "quantifier": "for all arguments, targets, members sharing sections in any way, catalogues, values and scaling factors", "why_tests_cant": "sharing of sections between members and the combination of optional arguments are unbounded; tests fix a frame and a call", "anchors": ["metku/optimization/variables.py:16-202", "metku/optimization/variables.py:418-458", "metku/optimization/opt_functions.py:233-261"]}
{"id": "C376", "title": "The report of a solution lists the largest constraints", "statement": "Evaluating a problem at a point names the first constraint with the largest value as the maximum one, and lists as many constraints as asked for (at least one), or all, each once, in decreasing order of value (equal values from the last to the first), leaving out none with a larger value. If all constraints are of the type 'less than' and one does not hold, the maximum one and the first one listed do not hold, and all that do not hold are listed if there are no more of them than asked for. Findings: with constraints of the type 'greater than' the one that does not hold can be left out in favour of one that holds; and asked for zero constraints the report lists all.", "quantifier": "for all lists of constraints and values, numbers asked for and admissible results of the partial sort", "why_tests_cant": "ties, orders and the freedom of the partial sort are unbounded; a test fixes one list", "anchors": ["metku/optimization/structopt.py:561-620"]}
{"id": "C377", "title": "The two-phase solver hands over between its solvers", "statement": "The second solver of a two-phase solver is called with a starting point that has one entry per variable: the lower bound of a continuous variable and, for a variable with a list of values, the least of the values kept around the solution of the first phase; for ascending values it lies as many places below a nearest value as the lower limit says. The first solver starts where the caller asks, and each phase has its own limit of iterations or, with no limits set, the caller's. Findings: with the default limits the second phase starts from the value below the nearest one whenever there is one; a limit set for the first phase only holds for the second as well; and something that is not a solver is refused only as the first solver beside a proper second one.", "quantifier": "for all solutions of the first phase, lists of values, limits and options", "why_tests_cant": "lists, solutions and options are unbounded; a test fixes a problem", "anchors": ["metku/optimization/solvers/two_phase.py:27-91"]}
{"id": "C378", "title": "Line loads by class of element", "statement": "The load vector of a load case holds at each free degree of freedom the sum of the forces of the point loads and of the line loads on plane beams of that case, and nothing of another case. It exists exactly if no line load of the case is on an element other than a plane beam. A rod asked directly shares a line load equally between its ends, with a sum of the intensity times its projected length. Findings: one line load on a semi-rigid beam, a space beam, a rod or a spring makes the load vector of its case raise, because these elements are called with an argument they do not take; and the loads of a rod change sign when its nodes are listed the other way round.", "quantifier": "for all numbers of degrees of freedom, loads, load cases, and rods", "why_tests_cant": "numbers of loads and degrees of freedom are unbounded; a test fixes a frame", "anchors": ["metku/framefem/framefem.py:499-526", "metku/framefem/framefem.py:1290-1320", "metku/framefem/framefem.py:1359-1395", "metku/framefem/elements/ebbeam.py:360", "metku/framefem/elements/ebbeam.py:861", "metku/framefem/elements/eb_semi_rigid_beam.py:231", "metku/framefem/elements/rod.py:123-141", "metku/framefem/elements/springs.py:121"]}
