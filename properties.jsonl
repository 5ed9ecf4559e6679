{"id": "C01", "title": "build() attaches to every node its own coordinates, supports and loads", "statement": "For pairwise distinct node labels, when Model.build() returns normally, the node table is sorted by label, still contains exactly the nodes the user added with the coordinates the user gave them, and row k of the boundary table and of the force table belong to the k-th node: it is the row the user added for that label, or (1,1,1) resp. an all-zero force row if the user added none.", "quantifier": "all sets of node labels, all insertion orders, all supports and loads, every sort routine that returns some sorting permutation", "why_tests_cant": "a test fixes one node numbering and one insertion order; the claim ranges over every permutation and every subset of nodes carrying supports/loads", "anchors": ["src/trusspy/model.py:Model.build", "src/trusspy/handlers/handler_node.py:NodeHandler.fix_nodes", "src/trusspy/handlers/handler_boundary.py:BoundaryHandler.fix_bounds_U", "src/trusspy/handlers/handler_extforce.py:ExternalForceHandler.fix_forces"]}
{"id": "C02", "title": "build() rejects supports or loads that do not match the nodes one to one", "statement": "For a model with at least two nodes with distinct labels, Model.build() raises an exception whenever some node has two boundary rows or two force rows, or a boundary or force row names a node that does not exist; it never silently drops, merges or re-attaches such a row.", "quantifier": "all node sets with >= 2 distinct labels and all boundary/force histories", "why_tests_cant": "unbounded input space of ill-formed models; a test only shows that one particular mistake is reported", "anchors": ["src/trusspy/model.py:Model.build", "src/trusspy/handlers/handler_boundary.py:BoundaryHandler.fix_bounds_U", "src/trusspy/handlers/handler_extforce.py:ExternalForceHandler.fix_forces"]}
{"id": "C03", "title": "active and locked DOFs partition the system DOFs", "statement": "After build(), component c of the k-th node is an active DOF iff its boundary flag is 1 and a locked DOF iff it is 0; both lists are strictly increasing and, when every flag is 0 or 1, disjoint and jointly exhaustive. A flag that is neither 0 nor 1 puts the component in neither list.", "quantifier": "all boundary tables of any size", "why_tests_cant": "must hold for every boundary pattern of every size", "anchors": ["src/trusspy/model.py:Model.build", "src/trusspy/core/boundary.py:BoundaryU"]}
{"id": "C04", "title": "the model definition does not depend on insertion order", "statement": "Two models whose add_node / add_bound_U / add_force calls are permutations of one another (distinct labels, one row per node at most) build to identical node, boundary and force tables and identical active/locked DOF lists.", "quantifier": "all permutations of all insertion sequences", "why_tests_cant": "factorially many orders", "anchors": ["src/trusspy/model.py:Model.build", "src/trusspy/handlers/handler_node.py:NodeHandler.add_node", "src/trusspy/handlers/handler_boundary.py:BoundaryHandler.add_bound_U", "src/trusspy/handlers/handler_extforce.py:ExternalForceHandler.add_force"]}
{"id": "C05", "title": "element data is retrievable under its label and assign_* only touches the named labels", "statement": "After add_element with a fresh label, get_nodes, get_material_type, get_element_type, get_material_properties and get_geometric_properties return that element's data and every other element's data is unchanged; assign_material/assign_geometry/assign_geometries/assign_mtype/assign_etype change exactly the named labels' data, assign_material also zero-pads shorter rows (or the new values) to a common width, and no other element's values change. Element(...) keeps its material and geometric data under either of the two accepted argument names, nan when neither is given, and raises TypeError exactly when one of them is given under both names; add_elements on an empty table lists elements of different labels in the given order, each found under its label, and works exactly when all have rows of the same widths.", "quantifier": "every element table reachable by any sequence of add_element and assign_* calls, all labels and property lists", "why_tests_cant": "must hold after every sequence of edits", "anchors": ["src/trusspy/handlers/handler_element.py:ElementHandler", "src/trusspy/core/element.py:Element"]}
{"id": "C06", "title": "del_element keeps the remaining elements' data", "statement": "After del_element(label) the remaining elements keep their nodes and their material and geometric properties; the element and material TYPE of the remaining elements is kept exactly when the deleted element(s) come after them in the table. Otherwise the type arrays are not shortened and later elements silently report the type of an earlier neighbour (code defect).", "quantifier": "all element tables and all labels", "why_tests_cant": "needs every table and deletion position; the defect only shows with mixed types", "anchors": ["src/trusspy/handlers/handler_element.py:ElementHandler.del_element", "src/trusspy/handlers/handler_element.py:ElementHandler.get_material_type"]}
{"id": "C07", "title": "assigned material and geometry values are stored as given", "statement": "assign_geometry(ies)/assign_material store the given numbers exactly whenever the property table has floating dtype; when all previously added rows are integers the table has integer dtype and the assigned values are truncated toward zero (code defect: an area 0.5 becomes 0), except that assign_material widening the table makes it floating.", "quantifier": "all property tables, labels and values", "why_tests_cant": "depends on the dtype of the whole insertion history", "anchors": ["src/trusspy/handlers/handler_element.py:ElementHandler.assign_geometry", "src/trusspy/handlers/handler_element.py:ElementHandler.assign_geometries", "src/trusspy/handlers/handler_element.py:ElementHandler.assign_material", "src/trusspy/handlers/handler_element.py:ElementHandler.add_element", "tests/test_stiffness_function.py"]}
{"id": "C08", "title": "add / delete round trips on nodes, loads and supports", "statement": "Adding a row under a fresh label and deleting that label restores the previous node / force table, and the same for boundaries when at least two boundary rows were added before; deleting the only boundary row leaves a malformed table on which the next add_bound_U raises ValueError (code defect).", "quantifier": "all tables and labels, all add/delete histories", "why_tests_cant": "unbounded histories", "anchors": ["src/trusspy/handlers/handler_node.py:NodeHandler.del_node", "src/trusspy/handlers/handler_extforce.py:ExternalForceHandler.del_force", "src/trusspy/handlers/handler_boundary.py:BoundaryHandler.del_bound_U", "src/trusspy/handlers/handler_boundary.py:BoundaryHandler.add_bound_U"]}
{"id": "C09", "title": "build() is repeatable", "statement": "After a successful build() a second build() (with or without a run() in between) succeeds, leaves the node, element, boundary and force tables unchanged and produces the same initial analysis and results; but adding a support or load afterwards for a node that build() had auto-filled makes the next build() raise.", "quantifier": "all models with distinct labels; all histories of build and run", "why_tests_cant": "history property: must hold after any earlier sequence of builds and runs", "anchors": ["src/trusspy/model.py:Model.build", "src/trusspy/handlers/handler_boundary.py:BoundaryHandler.fix_bounds_U", "src/trusspy/handlers/handler_extforce.py:ExternalForceHandler.fix_forces"]}
{"id": "C10", "title": "linear elastic material", "statement": "For material type 1 the reported stress is E times the Biot strain for every strain, the tangent is its derivative everywhere and the state variables are untouched.", "quantifier": "all strains, strain increments and property lists with at least one entry", "why_tests_cant": "continuous input space", "anchors": ["src/trusspy/materials/material_definition.py:umat_el"]}
{"id": "C11", "title": "plastic stress never exceeds the current yield stress", "statement": "For E > 0, K >= 0 (E+K > 0) and Sy > 0, after any strain history fed to material type 2 starting from zero state, |stress| <= stored yield stress, the stored yield stress never decreases and never drops below Sy.", "quantifier": "all finite strain histories of any length, all admissible material constants", "why_tests_cant": "unbounded histories over a continuum", "anchors": ["src/trusspy/materials/material_definition.py:umat_elplast_iso"]}
{"id": "C12", "title": "elastic-plastic split and hardening law", "statement": "Along every strain history stress = E * (strain - plastic strain), and the stored yield stress equals Sy + K times the accumulated absolute plastic strain increments; plastic strain changes only when the trial stress exceeds the yield stress, and then in the direction of the stress with the new stress exactly on the yield surface (Kuhn-Tucker).", "quantifier": "all finite strain histories, all admissible constants", "why_tests_cant": "unbounded histories over a continuum", "anchors": ["src/trusspy/materials/material_definition.py:umat_elplast_iso"]}
{"id": "C13", "title": "consistent tangent of both materials", "statement": "For a fixed committed state the tangent returned by the material routine is the derivative of the returned stress with respect to strain at every strain that is not exactly on the yield limit.", "quantifier": "all strains off the yield limit, all committed states and constants", "why_tests_cant": "derivative statements cannot be tested exactly; difference quotients only approximate", "anchors": ["src/trusspy/materials/material_definition.py:umat_el", "src/trusspy/materials/material_definition.py:umat_elplast_iso"]}
{"id": "C14", "title": "elastic unloading, idempotence and tension/compression symmetry", "statement": "Re-evaluating material type 2 at the committed strain changes nothing; below the yield limit it coincides with the elastic law shifted by the plastic strain; mirroring a whole strain history mirrors stresses and plastic strains and leaves the yield stress unchanged.", "quantifier": "all strain histories and constants", "why_tests_cant": "unbounded histories", "anchors": ["src/trusspy/materials/material_definition.py:umat_elplast_iso"]}
{"id": "C15", "title": "assembled internal forces are the documented sum over elements", "statement": "For distinct node and element labels, after an equilibrium evaluation the internal force at every node is the sum over the elements of +N n at the end node and -N n at the begin node, with N = A * stress(strain), strain = l/L - 1, l and L the deformed and undeformed lengths and n the deformed unit direction; stretch, element_stress and element_force hold l/L, stress and N of each element, whatever was stored before.", "quantifier": "all truss geometries, displacement states and earlier analysis contents", "why_tests_cant": "all topologies and sizes", "anchors": ["src/trusspy/model.py:Model.equilibrium", "src/trusspy/elements/element_definition.py:truss", "docs/theory/truss.rst", "docs/theory/assembly.rst"]}
{"id": "C16", "title": "internal forces are self-equilibrated", "statement": "For every truss and every displacement state with non-degenerate elements, the internal nodal forces sum to zero in each direction and their moments about any point taken in the deformed configuration sum to zero.", "quantifier": "all trusses, all displacement states", "why_tests_cant": "all topologies; exact over the reals", "anchors": ["src/trusspy/elements/element_definition.py:truss", "src/trusspy/model.py:Model.equilibrium"]}
{"id": "C17", "title": "rigid body motions produce no change of element state (objectivity)", "statement": "Superposing a rigid translation leaves stretches, stresses, element forces and nodal internal forces unchanged; superposing a rigid rotation leaves stretches, stresses and element forces unchanged and rotates the nodal internal forces.", "quantifier": "all trusses, all translations, all rotations", "why_tests_cant": "continuum of motions", "anchors": ["src/trusspy/elements/element_definition.py:truss", "src/trusspy/model.py:Model.equilibrium"]}
{"id": "C18", "title": "the tangent stiffness is symmetric and annihilates rigid translations", "statement": "For every truss and state the full stiffness and the reduced stiffness returned by Model.stiffness are symmetric, and the full stiffness applied to a rigid translation is zero. In floating point the reduced stiffness is symmetric bit for bit.", "quantifier": "all trusses and states, real numbers and IEEE 754 doubles", "why_tests_cant": "all topologies", "anchors": ["src/trusspy/model.py:Model.stiffness", "src/trusspy/elements/element_definition.py:truss"]}
{"id": "C19", "title": "stiffness is the exact derivative of the internal forces", "statement": "For every truss and displacement state with non-degenerate elements, none exactly at its yield limit, entry (i,j) of the reduced matrix returned by Model.stiffness is the partial derivative of minus the i-th residual returned by Model.equilibrium with respect to the j-th active displacement at fixed load factor.", "quantifier": "all trusses, states and DOF pairs", "why_tests_cant": "derivatives, all topologies", "anchors": ["src/trusspy/model.py:Model.stiffness", "src/trusspy/model.py:Model.equilibrium", "src/trusspy/elements/element_definition.py:truss"]}
{"id": "C20", "title": "the extended matrix is the Jacobian of the extended residual", "statement": "For every control component j in 1..n+1 (either sign) the matrix used by the Newton solver (stiffness bordered by the negative reference load and the control row) is the Jacobian of the function it solves (negative residual with the control equation appended) with respect to displacements and load factor.", "quantifier": "all trusses, states, control components and prescribed values", "why_tests_cant": "derivatives, all topologies", "anchors": ["src/trusspy/solvers/tpsolver.py:f", "src/trusspy/solvers/tpsolver.py:dfdx"]}
{"id": "C21", "title": "supports are respected", "statement": "Locked components keep displacement exactly 0 in the analysis object and in every recorded result of every run; active components of a recorded result's displacement field are the recorded reduced vector whenever the increment went through the Newton loop.", "quantifier": "all models, settings and run lengths, any floating point arithmetic and any linear solver", "why_tests_cant": "invariant over every increment of every run", "anchors": ["src/trusspy/model.py:Model.equilibrium", "src/trusspy/solvers/tpsolver.py:pathfollow", "src/trusspy/model.py:Model.run"]}
{"id": "C22", "title": "history variables change only on acceptance", "statement": "Evaluating residuals or stiffness without the write flag (all Newton iterations, predictors, recycles, failed increments) leaves the stored state variables untouched; with the flag every element's row is replaced by what its own material law returns for its own old row, and no other row.", "quantifier": "all models, displacement states and evaluation sequences, any arithmetic", "why_tests_cant": "all iteration histories", "anchors": ["src/trusspy/model.py:Model.equilibrium", "src/trusspy/elements/element_definition.py:truss", "src/trusspy/solvers/tpsolver.py:pathfollow"]}
{"id": "C23", "title": "element order is irrelevant", "statement": "Reordering the elements (with their data) leaves the nodal internal forces and the assembled stiffness unchanged.", "quantifier": "all permutations of all element tables (exact arithmetic)", "why_tests_cant": "factorially many orders", "anchors": ["src/trusspy/model.py:Model.equilibrium", "src/trusspy/model.py:Model.stiffness"]}
{"id": "C24", "title": "newton() contract", "statement": "For every residual, Jacobian, linear solver and start value: success is reported iff the last iterate has norm(f) < ftol and the last correction norm(dx) < xtol, the iteration stops at the first such iterate, between 1 and nfev iterations are made and their number is returned, without success exactly nfev iterations were made, and the returned norms are those of the returned iterate; nfev <= 0 raises.", "quantifier": "all functions, solvers, tolerances and limits, any arithmetic including NaN", "why_tests_cant": "arbitrary callbacks", "anchors": ["src/trusspy/solvers/zerosearch.py:newton"]}
{"id": "C25", "title": "what a recorded increment is", "statement": "Every increment recorded by pathfollow() is exactly one of: accepted (a Newton run converged, all components of the increment are within dxtol*dxmax - or only the control component if it is locked - and the state was committed), skipped (the one-iteration predictor already met both tolerances; the solution vector is then recorded unchanged), or failed (it is the last one and an ERROR line was printed). Without an ERROR line no increment failed. Every result of a run, failed or not, stores the solution vector of its increment as a whole, its displacements without the last component and its last component as load factor.", "quantifier": "all residual/stiffness callbacks, settings, solvers; any arithmetic", "why_tests_cant": "all execution paths of the solver", "anchors": ["src/trusspy/solvers/tpsolver.py:pathfollow", "src/trusspy/model.py:Model.run"]}
{"id": "C26", "title": "accepted increments are in equilibrium", "statement": "In every accepted increment of every step of Model.run() the recorded residual vector is minus the recorded internal forces plus the recorded constant forces plus the recorded LPF times the recorded reference forces, it is below ftol in norm over the active DOFs, and the control component reached its prescribed value within ftol.", "quantifier": "all models, settings, solvers and increments", "why_tests_cant": "every increment of every run", "anchors": ["src/trusspy/solvers/tpsolver.py:pathfollow", "src/trusspy/model.py:Model.equilibrium", "src/trusspy/model.py:Model.run"]}
{"id": "C27", "title": "converged results are not separated from a failed one", "statement": "pathfollow() records the non-converged last iterate of a failed increment as if it were a result, Model.run() keeps it in Results and starts the next step from it; so `every result is converged' is false exactly for a last increment of a step after an ERROR line.", "quantifier": "all runs", "why_tests_cant": "needs the exact failing control path", "anchors": ["src/trusspy/solvers/tpsolver.py:pathfollow", "src/trusspy/model.py:Model.run"]}
{"id": "C28", "title": "number of increments and xlimit", "statement": "A step records at most incs increments (plus the start), none if incs <= 0; all recorded increments except the last satisfy abs(x[k]) <= limit for the xlimit component k (0 meaning the LPF), and if fewer than incs increments are recorded then an ERROR line was printed or the last one exceeds the limit.", "quantifier": "all settings and callbacks", "why_tests_cant": "all execution paths", "anchors": ["src/trusspy/solvers/tpsolver.py:pathfollow"]}
{"id": "C29", "title": "step width bounds of the adaptive control", "statement": "With stepcontrol the step limits stay a common multiple of the initial ones and that multiple stays between minfac/reduce and maxfac*(1+increase); the documented interval [minfac, maxfac] itself is violated in both directions by reachable states. With a free control component no converged increment moves an active DOF by more than dxtol*du, or the load factor by more than dxtol*dlpf (with stepcontrol: times maxfac*(1+increase)).", "quantifier": "all histories of convergence/non-convergence, all admissible parameters", "why_tests_cant": "unbounded histories", "anchors": ["src/trusspy/solvers/tpsolver.py:dxmax_control", "src/trusspy/solvers/tpsolver.py:pathfollow"]}
{"id": "C30", "title": "an increment, and a run, terminates", "statement": "For cycl >= 1 the recycle loop of an increment ends after at most cycl Newton runs without stepcontrol; with stepcontrol (exact arithmetic, reduce > 1, minfac > 0) it ends after a number of Newton runs bounded by cycl, minfac, maxfac, increase and reduce, whatever the callbacks return. So every run() of every model under such settings returns or raises, and waiting longer than that never changes how it ended. For cycl <= 0, or stepcontrol with minfac = 0, there are inputs on which it never ends.", "quantifier": "all callbacks, models, settings and solvers", "why_tests_cant": "termination is not testable", "anchors": ["src/trusspy/solvers/tpsolver.py:pathfollow", "src/trusspy/solvers/tpsolver.py:dxmax_control", "src/trusspy/model.py:Model.run"]}
{"id": "C31", "title": "locked control component", "statement": "With j_fixed the control component of every accepted increment is the user's j, and each accepted increment moves that component by sign(j)*dxmax_j up to ftol; without adaptive step control it is therefore, after q converged increments of a step, q step limits (du, or dlpf for the load factor) from where the step began, up to q times ftol; without j_fixed the user's initial component j0 has no influence on the results at all.", "quantifier": "all callbacks, settings and solvers", "why_tests_cant": "all execution paths", "anchors": ["src/trusspy/solvers/tpsolver.py:pathfollow", "src/trusspy/handlers/handler_settings.py:SettingsHandler"]}
{"id": "C32", "title": "structure of the result list", "statement": "After build() and run(), Results.R is the undeformed state followed by exactly the recorded increments of step 1, 2, ..., in order (when every step records at least one increment), and step_lpf_end holds the LPF of each step's last increment.", "quantifier": "all numbers of steps and increments", "why_tests_cant": "all run lengths", "anchors": ["src/trusspy/model.py:Model.run", "src/trusspy/handlers/handler_result.py:ResultHandler"]}
{"id": "C33", "title": "load history superposition over steps", "statement": "In every result of step s (any number of steps) the recorded constant force is the sum over the earlier steps of that step's final LPF times its reference forces, the recorded reference force is the s-th block of three force columns, and the next step starts from the last recorded displacements with LPF reset to 0.", "quantifier": "all numbers of steps, all forces and all callbacks' outcomes", "why_tests_cant": "all step sequences", "anchors": ["src/trusspy/model.py:Model.run"]}
{"id": "C34", "title": "running twice", "statement": "build() discards all earlier results, so build();run() yields the same results whatever ran before; run() twice without build() in between overwrites the last result of the first run and uses the first run's step-end load factors for the constant forces (code defect). A run that returns has exactly one list of steps (their start, records and printed lines).", "quantifier": "all models and histories", "why_tests_cant": "history property", "anchors": ["src/trusspy/model.py:Model.run", "src/trusspy/model.py:Model.build", "src/trusspy/handlers/handler_result.py:ResultHandler"]}
{"id": "C35", "title": "reactions balance the applied load", "statement": "In every result whose residual norm is below ftol the support reactions (internal minus external force at locked DOFs) balance the total external load in each direction up to (number of active DOFs) * ftol.", "quantifier": "all models and accepted increments", "why_tests_cant": "all models", "anchors": ["src/trusspy/model.py:Model.equilibrium", "src/trusspy/model.py:Model.run"]}
{"id": "C36", "title": "history and path data", "statement": "plot_history plots exactly one point per result plus a leading 0, in order, both coordinate lists always having equal length; Displacement/Force entries are those of the requested node. A State Variable request reads the row of the element stored at the node's position, not of the node's elements (code defect). Before a build every plot raises AttributeError.", "quantifier": "all result lists and nodes", "why_tests_cant": "all result lists", "anchors": ["src/trusspy/tools/plot_utilities.py:p_history", "src/trusspy/tools/plot_utilities.py:p_path"]}
{"id": "C37", "title": "plotted members connect the right points", "statement": "plot_model draws every element between the deformed positions of its two nodes if the sorted node labels are 1..n; for other labelings it draws wrong members or raises IndexError (code defect).", "quantifier": "all models", "why_tests_cant": "all labelings", "anchors": ["src/trusspy/tools/helper_functions2.py:plot_elems", "src/trusspy/tools/plot_utilities.py:p_model"]}
{"id": "C38", "title": "movie frames are in increment order", "statement": "The frames of plot_movie appear in increasing increment order as long as all increments are below 1000; from 1000 on the file-name order puts e.g. increment 1000 before 999 (code defect).", "quantifier": "all increment lists", "why_tests_cant": "unbounded increment numbers", "anchors": ["src/trusspy/tools/plot_utilities.py:p_movie", "src/trusspy/tools/movie_generator.py:png_to_gif"]}
{"id": "C39", "title": "logging to a file restores stdout", "statement": "For a single model with logfile=True, stdout after a normal run() is what it was before the constructor; with several such models this holds if they finish in reverse order of creation and fails otherwise.", "quantifier": "all interleavings of constructions and runs", "why_tests_cant": "all interleavings", "anchors": ["src/trusspy/model.py:Model.__init__", "src/trusspy/model.py:Model.run"]}
{"id": "C40", "title": "unknown material types", "statement": "An element whose material type is neither 1 nor 2 makes the evaluation raise if it is the first element and otherwise is silently evaluated with the law of the nearest preceding element of known type (code defect).", "quantifier": "all element tables", "why_tests_cant": "all tables", "anchors": ["src/trusspy/model.py:Model.equilibrium"]}
{"id": "C41", "title": "linear limit: uniaxial bar", "statement": "For one elastic bar along an axis with one free DOF the equilibrium path is exactly N = EA*u/L: residual zero iff LPF*F = EA*u/L (as long as the bar is not inverted), and an exact linear solver converges in two Newton iterations.", "quantifier": "all E, A, L, F, step widths", "why_tests_cant": "continuum of parameters", "anchors": ["src/trusspy/model.py:Model.equilibrium", "src/trusspy/solvers/zerosearch.py:newton"]}
{"id": "C42", "title": "accepted results are consistent in themselves", "statement": "In every accepted increment of Model.run() the recorded stretch of every element is that of the recorded displacements, its stress is what its material law gives for this stretch and the state variables of the previous increment, its force is area times stress, the recorded internal force of every node is the sum of the element forces pulling at it, and the internal forces of all nodes add up to zero.", "quantifier": "all models, settings, solvers and increments", "why_tests_cant": "every increment of every run of every model", "anchors": ["src/trusspy/model.py:Model.equilibrium", "src/trusspy/model.py:Model.run", "src/trusspy/solvers/tpsolver.py:pathfollow"]}
{"id": "C43", "title": "colours of the model plot", "statement": "In a deformed plot_model with a contour each member carries its own recorded value (force, stress or stretch) of the plotted increment; the colour limits are those given with the contour or the colour bar, and otherwise the smallest interval symmetric about 1 (stretch) or 0 (force, stress) that contains every value. The undeformed plot has no colours.", "quantifier": "all models, recorded results, increments, views, contours and limits", "why_tests_cant": "every set of recorded values and every increment, not a picture comparison of one truss", "anchors": ["src/trusspy/tools/plot_utilities.py:p_model", "src/trusspy/tools/helper_functions2.py:plot_elems", "src/trusspy/model.py:Model.plot_model"]}
{"id": "C44", "title": "the drawing of the truss does not matter", "statement": "Take a model and draw the same truss again: move all nodes by one vector, give the nodes other labels in the same order, give the elements other labels, list the rows of every table in another order, and swap begin and end node of any elements. In exact arithmetic every build and every following sequence of runs and changes of settings that succeeds for the first model succeeds for the second, prints the same lines and gives the same displacements, nodal forces and load factors in every increment; element results are the same numbers in the order of the elements.", "quantifier": "all models, translations, relabellings that keep the node order, row orders, element directions, settings, solvers and action sequences", "why_tests_cant": "every pair of equivalent descriptions and every session", "anchors": ["src/trusspy/model.py:Model.build", "src/trusspy/model.py:Model.run", "src/trusspy/model.py:Model.equilibrium", "src/trusspy/model.py:Model.stiffness", "src/trusspy/elements/element_definition.py:truss"]}
{"id": "C45", "title": "labels are only names", "statement": "Changing node labels without changing their order, changing element labels, and listing nodes, supports and loads in another order changes nothing that is computed: in the machine's own arithmetic, every sequence of build, runs and changes of settings gives identical results and prints the same lines.", "quantifier": "all arithmetics, models, relabellings, row orders, settings, solvers and action sequences", "why_tests_cant": "every relabelling of every model, bit by bit", "anchors": ["src/trusspy/model.py:Model.build", "src/trusspy/model.py:Model.run", "src/trusspy/handlers/handler_node.py:NodeHandler", "src/trusspy/handlers/handler_element.py:ElementHandler"]}
{"id": "C46", "title": "calls that fail leave no half definitions", "statement": "The user defines a new model with add_node, add_bound_U, add_force and add_element, and goes on when one of these calls raises or is interrupted at any point. If build then returns and the equilibrium equations can be evaluated with the bars (or no bar call failed), the model is exactly the one that a choice of the tried calls, all those that returned among them, gives when carried out completely. This needs two supports that were accepted or a node without support. A support or load call that fails raises ValueError and leaves the label without a row; deleting that label raises IndexError and restores the model.", "quantifier": "all sequences of calls and arguments, all failures and points of interruption, all sorting permutations", "why_tests_cant": "every interleaving of failures, interruptions and retries over any number of calls", "anchors": ["src/trusspy/handlers/handler_node.py:NodeHandler.add_node", "src/trusspy/handlers/handler_boundary.py:BoundaryHandler.add_bound_U", "src/trusspy/handlers/handler_extforce.py:ExternalForceHandler.add_force", "src/trusspy/handlers/handler_element.py:ElementHandler.add_element", "src/trusspy/model.py:Model.build"]}
{"id": "C47", "title": "interrupted build", "statement": "If build is interrupted at any point and each row of the tables of nodes, supports and loads is then under the label it was given for, a second build ends in the state the first would have reached. With three nodes or more every point of interruption is of this harmless kind, or the second build raises because a label has no row yet, or a table has sorted labels and unsorted rows. If the tables are given completely in label order, or the model has been built before, every point is harmless.", "quantifier": "all models that build, all points of interruption, all sorting permutations", "why_tests_cant": "every crash point of every build", "anchors": ["src/trusspy/model.py:Model.build", "src/trusspy/handlers/handler_node.py:NodeHandler.fix_nodes", "src/trusspy/handlers/handler_boundary.py:BoundaryHandler.fix_bounds_U", "src/trusspy/handlers/handler_extforce.py:ExternalForceHandler.fix_forces"]}
{"id": "C48", "title": "run that raises or is interrupted", "statement": "A run that raises or is interrupted anywhere leaves nodes, bars, supports, loads and settings as they were, so a following build does what it would have done before the run. The results recorded by then begin with the results of the steps that were finished, exactly those of a run with that many steps, and there is one end load factor for each finished step. If it raised, a run of one step more raises the same exception, and at most one further entry is recorded.", "quantifier": "all models, settings, solvers, exceptions and points of interruption", "why_tests_cant": "every crash point and every failing solve of every run", "anchors": ["src/trusspy/model.py:Model.run", "src/trusspy/handlers/handler_result.py:ResultHandler"]}
{"id": "C49", "title": "strain paths of the plastic material", "statement": "After any strain history of the elastic-plastic material (0 < E, 0 <= K, 0 < yield stress), the stress at the next strain rises with that strain at a slope between E K/(E+K) and E. Intermediate strains that only increase or only decrease do not change the stress, plastic strain and yield stress at the end. A strain path that comes back with the plastic strain unmoved comes back to the same stress and yield stress. The plastic work is at least the initial yield stress times the accumulated plastic strain, and the work done on the material is at least the elastic energy it ends with.", "quantifier": "all material constants, all strain histories of any length, all next strains and intermediate strains", "why_tests_cant": "a statement about every real-valued strain history", "anchors": ["src/trusspy/materials/material_definition.py:umat_elplast_iso"]}
{"id": "C50", "title": "forces are the gradient of an energy", "statement": "The residual returned by the equilibrium evaluation is minus the gradient, with respect to the active displacements, of the potential energy: energy of the members (E e^2/2 per volume for elastic members, for plastic members the least energy spent over all movements of the plastic strain) minus the work of the constant loads and of load factor times reference loads. The residual is zero exactly where the potential energy is stationary. The plastic strain returned by the plastic law is the one that spends the least energy.", "quantifier": "all trusses, materials, committed states, loads, load factors and displacements without bars of length zero", "why_tests_cant": "an identity of derivatives at every real state", "anchors": ["src/trusspy/model.py:Model.equilibrium", "src/trusspy/elements/element_definition.py:truss", "src/trusspy/materials/material_definition.py:umat_el", "src/trusspy/materials/material_definition.py:umat_elplast_iso"]}
{"id": "C51", "title": "definiteness of the stiffness", "statement": "x.Kx is the sum over the members of axial stiffness over undeformed length times the square of the relative end displacement along the bar plus normal force over length times the square of the part across it, for the full and the reduced matrix. So without compression and negative tangents the matrix is positive semidefinite; with all members in tension, positive tangents and every component joined to a locked one by members, the reduced matrix is positive definite and Kx = 0 only for x = 0. Applied to a small rotation about any point the matrix gives the internal forces turned by that rotation.", "quantifier": "all trusses, states, displacement fields, rotations and centres", "why_tests_cant": "a statement about every vector for every truss and every real state", "anchors": ["src/trusspy/model.py:Model.stiffness", "src/trusspy/elements/element_definition.py:truss"]}
{"id": "C52", "title": "member histories over whole sessions", "statement": "Take the accepted increments of all steps of all runs since build, in order. Without the predictor, the stresses and state variables recorded for a member are exactly what its material law returns when it is fed the member's recorded strains one after the other, starting from zero state; failed increments leave no trace, neither in the records that follow nor in the object the next run starts from. With the predictor the same holds leaving out increments that repeat the state before. So for a plastic member, in every accepted increment |stress| <= yield stress, stress = E (strain - plastic strain), and the yield stress is Sy plus K times the plastic strain accumulated since build; it never falls.", "quantifier": "all described trusses, members, numbers of runs and steps, settings changes in between, linear solvers and sorting functions; the law statement for every number type", "why_tests_cant": "ranges over all sessions: sequences of runs of any length with any failures in between", "anchors": ["src/trusspy/model.py:Model.run", "src/trusspy/model.py:Model.equilibrium", "src/trusspy/solvers/tpsolver.py:pathfollow", "src/trusspy/materials/material_definition.py:umat_elplast_iso"]}
{"id": "C53", "title": "displacement control of trusses with one free component", "statement": "Take a truss with any members whose only free component is loaded, and lock this displacement as control component (j0 = 1 or -1, jfixed, no step control). Then every run, at any point of a session, returns without an ERROR line, with all increments of all its steps: the q-th increment of a step moves the component by exactly q times du in the direction of the sign, the residual is below 10^-ftol, and Newton needs at most three iterations, whatever the tangent stiffness (limit points and snap-through included). So a bar of elastic-plastic material can be pulled and pushed like in a testing machine: the recorded strains are the prescribed ones, the load factor times the load is area times stress up to 10^-ftol, and over all runs the stresses are those of the elastic-plastic law for the prescribed strain path.", "quantifier": "all trusses with one free component, materials, loads, numbers of steps, increments and runs, settings changes in between; any solver that solves regular 2x2 systems; exact arithmetic", "why_tests_cant": "success of every run for every truss and every history is a statement over infinitely many nonlinear problems", "anchors": ["src/trusspy/model.py:Model.run", "src/trusspy/solvers/tpsolver.py:pathfollow", "src/trusspy/solvers/zerosearch.py:newton", "src/trusspy/materials/material_definition.py:umat_elplast_iso"]}
{"id": "C54", "title": "the log level only changes the printed text", "statement": "build and run do the same at every log level: for two levels at which the table of parameters can be printed, the outcome is the same (the same exception, or models that differ in the stored level only), and the text at the lower level is the text at the higher level with lines left out. The table cannot be printed with an initial control component j0, nor with step control and reduce = 0: there level 2 raises although level 1 returns. With level 0, one step and no step control, a run prints nothing unless it prints an ERROR, EXIT or recycling line; with step control it is not silent.", "quantifier": "all models (also half defined ones), levels, settings, outcomes, linear solvers, sorting functions and number types", "why_tests_cant": "compares two runs for every model, every pair of levels and every outcome", "anchors": ["src/trusspy/model.py:Model.run", "src/trusspy/model.py:Model.build", "src/trusspy/solvers/tpsolver.py:pathfollow", "src/trusspy/solvers/tpsolver.py:dxmax_control", "src/trusspy/solvers/zerosearch.py:newton"]}
{"id": "C55", "title": "the printed text tells the results", "statement": "For every run that returns: the ERROR, EXIT, recycling and increment lines appear as the run met them. From log level 1 on, the steps and within each step the increments are numbered from 1 without gaps, there is one 'final LPF' line per recorded result, in order and with its load factor, and in the text of an increment there are rows of iterations (except for an increment the predictor skips) and the last one shows a residual norm below 10^-ftol unless an ERROR line follows. From level 2 on, every result is listed once after its step with its number, the number of results and its load factor. However the run ends, every printed line is true of the settings (parameter table, step and iteration numbers, reduction and increase factors), and the lines about the step width tell what became of it.", "quantifier": "all models, settings, numbers of steps and increments, linear solvers, sorting functions and number types", "why_tests_cant": "ranges over all paths of all runs, including recycles, failures and limits", "anchors": ["src/trusspy/model.py:Model.run", "src/trusspy/solvers/tpsolver.py:pathfollow", "src/trusspy/solvers/zerosearch.py:newton"]}
{"id": "C56", "title": "what was printed stands, however the run ends", "statement": "Whatever happens later in a run with a log level (an exception in any place, an endless recycling, or a normal end), the increments shown before are real: for every step in the text and every number q of increments smaller than the number begun in it, the same model with q increments in this step and the later steps left out runs normally and shows exactly the same increment numbers and final load factors up to there.", "quantifier": "all models, settings, outcomes, steps and numbers of increments, linear solvers, sorting functions and number types", "why_tests_cant": "ranges over every point at which a run can end", "anchors": ["src/trusspy/model.py:Model.run", "src/trusspy/solvers/tpsolver.py:pathfollow"]}
{"id": "C57", "title": "no infinity and no NaN passes for a converged result", "statement": "In IEEE double arithmetic, whatever the linear solver returns: every increment recorded before an ERROR line has a finite load factor, a finite residual and internal force at every active DOF, and finite member forces, stresses, stretches and displacement components at every node with an active DOF; with free choice of the control component and a finite dxtol the whole solution vector is finite. Only the failed increment can be recorded with NaN values.", "quantifier": "all models with at least one active DOF, settings, sessions of several runs, linear solvers and sorting functions; numbers are IEEE 754 doubles", "why_tests_cant": "ranges over all overflows and invalid operations in all runs", "anchors": ["src/trusspy/solvers/zerosearch.py:newton", "src/trusspy/solvers/tpsolver.py:pathfollow", "src/trusspy/model.py:Model.equilibrium"]}
{"id": "C58", "title": "converged increments balance in floating point, rounding included", "statement": "In double precision arithmetic, where every operation rounds, and whatever the linear solver returns: every increment recorded before an ERROR line (other than one skipped by a converged predictor) satisfies, with its recorded numbers read as exact real numbers, the equilibrium equation -r + fconst + lpf*f of each active DOF within 10^-ftol and half a unit in the last place of the terms, and the control component went by its step limit likewise. At each active DOF of a node the reported normal forces of the members there, each along the exact unit vector of the displaced member, balance the load of the result up to 10^-ftol and an explicit multiple of 2^-51 of the sum of those forces, which depends on the number of members and on how short they are compared with the coordinates of their ends.", "quantifier": "all models with at least one active DOF, settings with ftol >= 0, sessions of several runs, steps, increments, nodes, linear solvers and sorting functions; numbers are IEEE 754 doubles", "why_tests_cant": "ranges over the roundings of all runs", "anchors": ["src/trusspy/model.py:Model.equilibrium", "src/trusspy/solvers/zerosearch.py:newton", "src/trusspy/solvers/tpsolver.py:pathfollow"]}
{"id": "C59", "title": "the plastic material in floating point", "statement": "In double precision arithmetic, where every operation rounds: for a member of material type 2 with positive modulus and yield stress and non-negative hardening modulus, through any strain history, the stored yield stress is never below the initial one and never decreases, exactly; up to an explicit rounding error of one evaluation (2^-47 of the stresses that occur in it, plus an underflow term) the stress is the modulus times the elastic part of the strain, the yield stress grows by the hardening modulus times the plastic strain, and the stress does not exceed the yield stress; the state changes only if the stress is at the yield stress up to that error, and the plastic strain only moves in the direction of the elastic strain before the evaluation, exactly. The errors do not add up along the history. The same holds for what the converged increments of all runs of a session without predictor show of the member, as long as the numbers shown are finite.", "quantifier": "all parameters, strain histories, models, sessions, increments and plastic members; numbers are IEEE 754 doubles", "why_tests_cant": "ranges over the roundings of all histories", "anchors": ["src/trusspy/materials/material_definition.py:umat_elplast_iso", "src/trusspy/model.py:Model.run"]}
{"id": "C60", "title": "convergence of the solution of one increment", "statement": "In exact arithmetic and with an exact linear solver: near a solution of the equilibrium and control equations at which no member has zero length, no material is on its yield limit and the extended matrix is nonsingular, Newton's method converges from every starting vector close enough, for all positive tolerances, and faster than any geometric sequence: however small q is, near the solution each iteration reduces the distance by at least the factor q, and the number of iterations needed depends on the tolerances only. From a balanced state of that kind every sufficiently small change of the controlled component is solved: the solver reports success within that number of iterations and the state found is as close as a constant times the change. Linear solvers as assumed exist.", "quantifier": "all models, states, control components, targets, tolerances, starting vectors in a neighbourhood and iteration limits that are not too small", "why_tests_cant": "a test runs the solver from finitely many starting vectors and tolerances", "anchors": ["src/trusspy/solvers/zerosearch.py:newton", "src/trusspy/solvers/tpsolver.py:f", "src/trusspy/solvers/tpsolver.py:dfdx", "src/trusspy/model.py:Model.equilibrium", "src/trusspy/model.py:Model.stiffness"]}
{"id": "C61", "title": "mirror images and plane trusses", "statement": "In exact arithmetic, with a linear solver that follows when equations or unknowns change sign (Gaussian elimination with partial pivoting does): mirror a model in any set of coordinate planes, that is, change the sign of these components of all coordinates and loads and the sign of a locked control component along them. Then the mirrored model builds, and every sequence of runs and changes of settings which works on the original works on the mirror image with the same printed lines, the same number of results and, result by result, the same load factor, stretches, stresses, bar forces and state variables, and the mirrored displacements, nodal forces and stiffness. Consequently a truss lying in a coordinate plane under loads in that plane never leaves the plane and has no nodal forces out of it, also when nodes are free to move out of it. The loads of the mirrored model may also be turned round, provided a control component is locked: then the load factors change sign as well.", "quantifier": "all models with whole load steps, all sets of mirrored axes, all sequences of runs and settings, all sorting routines", "why_tests_cant": "a test compares one truss with one mirror image over one session", "anchors": ["src/trusspy/model.py:Model.build", "src/trusspy/model.py:Model.run", "src/trusspy/model.py:Model.equilibrium", "src/trusspy/model.py:Model.stiffness", "src/trusspy/solvers/tpsolver.py:pathfollow", "src/trusspy/solvers/zerosearch.py:newton"]}
{"id": "C62", "title": "bars side by side", "statement": "In exact arithmetic: a bar may be replaced by several bars between the same nodes, with the same material, whose cross sections add up to its own, and such bars may be merged again; parts with cross section zero may be added or left out. Every sequence of runs and changes of settings that works for one of the two trusses works for the other, with the same printed lines, the same number of results and, result by result, the same displacements, nodal forces, stiffness and load factor; every part has the stretch, stress and state variables of the bar it belongs to, and the force of the bar is shared among its parts in proportion to their cross sections.", "quantifier": "all models, all ways of splitting any of the bars in any number of parts listed in any order, all sequences of runs and settings, all linear solvers and sorting routines", "why_tests_cant": "a test compares one truss with one way of splitting its bars over one session", "anchors": ["src/trusspy/model.py:Model.build", "src/trusspy/model.py:Model.run", "src/trusspy/model.py:Model.equilibrium", "src/trusspy/model.py:Model.stiffness", "src/trusspy/elements/element_definition.py:truss"]}
{"id": "C63", "title": "longer analyses extend shorter ones", "statement": "Take two settings that differ in the number of steps, the increments and the limits only, such that the first asks for no more steps (at least one), in its last step for no more increments and no wider limit than the second, and before it for the same. If the second run works, so does the first, and its results are exactly the first results of the second run, its step-end load factors but the last are the first of the second run, and its lines are the first lines, apart from a last line saying that the limit is reached. If the first run raises an exception, the second raises the same. So refining the question about the later part of the path never changes the answer about the earlier part.", "quantifier": "all models, settings, starting states, numbers of increments and steps, limits, arithmetics, linear solvers and sorting routines", "why_tests_cant": "a test compares two lengths of one analysis", "anchors": ["src/trusspy/model.py:Model.run", "src/trusspy/solvers/tpsolver.py:pathfollow", "src/trusspy/handlers/handler_result.py:ResultHandler"]}
{"id": "C64", "title": "nodes and bars feel only what is attached to them", "statement": "Take two trusses, of any size and shape, that both contain a node, and evaluate each at some displacements. If the bars that end at the node are the same in both (end nodes, law, material and geometry data, state variables, in the same order) and the ends of these bars have the same coordinates and displacements, then the internal force reported for the node is the same, number by number, whatever else the trusses contain and whatever the arithmetic. The stretch, stress and force of a bar depend in the same way on the bar, its state and its two ends only, and the 3x3 block of the stiffness matrix for two nodes only on the bars between them. A node without bars gets the internal force zero, two nodes without a common bar the stiffness zero.", "quantifier": "all pairs of trusses, nodes, displacements, state variables and arithmetics", "why_tests_cant": "a test compares two trusses", "anchors": ["src/trusspy/model.py:Model.equilibrium", "src/trusspy/model.py:Model.stiffness", "src/trusspy/elements/element_definition.py:truss"]}
{"id": "C65", "title": "turning the loads round turns the load factors round", "statement": "Give every load of every step the opposite sign and lock the control component (j_fixed), with its sign changed if it is the load factor and kept if it is a displacement. Then the model builds, and any session of runs and changed settings that completes on the given model completes on the other with the same log: in every recorded increment the displacements, internal forces, residuals, stiffness, element results, state variables and the forces carried over from earlier steps are the same, and the load factor is the opposite. What a user calls the positive direction of a load is a convention. (The automatic control is excluded for a reason: it starts in the direction of growing load factors whatever the sign of the loads.)", "quantifier": "all models, loads, numbers of steps, settings with a locked component, sequences of runs and changes of settings, and linear solvers indifferent to signs", "why_tests_cant": "a test compares two sessions", "anchors": ["src/trusspy/model.py:Model.run", "src/trusspy/model.py:Model.equilibrium", "src/trusspy/solvers/tpsolver.py", "src/trusspy/handlers"]}
{"id": "C66", "title": "the numbering of the nodes and the naming of the axes do not matter", "statement": "Give the nodes of a truss other labels, which may sort in any other order, list nodes, supports and loads in any other order, and call the three coordinate axes by each other's names (x, y, z permuted, the coordinates, supports and loads of every step following). Then, if the given model builds, the other builds too, and its nodes and free components are those of the given model in a certain order. If the control component is locked (j_fixed) and it and the limited components are named by their numbers in that order, every session of runs and changed settings that completes on the given model completes on the other with the same log, and in every recorded increment the displacements, internal forces, residuals, stiffness and forces carried over are those of the same nodes and axes, and the load factor, the stretches, stresses, forces and state variables of the bars are the same.", "quantifier": "all models and tables of at least two nodes, all new labels, all permutations of the axes and of the rows of the tables, numbers of steps, settings with a locked component, sequences of runs and changes of settings, and linear solvers whose answer follows the order of the unknowns", "why_tests_cant": "a test compares two numberings of one truss", "anchors": ["src/trusspy/model.py:Model.build", "src/trusspy/model.py:Model.run", "src/trusspy/model.py:Model.equilibrium", "src/trusspy/model.py:Model.stiffness", "src/trusspy/solvers/tpsolver.py", "src/trusspy/handlers", "src/trusspy/elements/element_definition.py:truss"]}
{"id": "C67", "title": "the printed summary and tables tell what was built, set and computed", "statement": "At log level 2, build prints the numbers of nodes, elements, degrees of freedom, active and fixed ones and the lists of active and fixed ones of the model it returns. A run that returns prints the settings in force, before every step but the first the forces carried over and the start vector (the displacements reached, load factor 0), and for every recorded increment the tables of its cycles: iterations numbered from 1, and a row of totals with the number of the cycle, the number of iterations (those of the predictor included), the control component, the norm of the last iteration and the three components that changed most relative to the allowed change, largest first. The last row of totals shows the recorded control component and the changes from the previous record to this one relative to the recorded allowed change; its norm is below the tolerance unless there is an ERROR line. A cycle that follows uses the same control component or the leading one; the next increment uses the leading one; every step begins with the load factor. A user who reads the log to see why an increment was slow or where the structure gives way reads the truth.", "quantifier": "all models, settings, log levels, numbers of steps, histories of the model object, sorting routines that sort, linear solvers and arithmetics", "why_tests_cant": "The tables are assembled from variables that change within the loops (control component before or after the update, allowed change before or after the step control, iterations with or without the predictor); a mistake shows only in the particular histories where the two differ, and comparing a log with numbers of a few runs does not cover them.", "anchors": ["src/trusspy/model.py:Model.build", "src/trusspy/model.py:Model.run", "src/trusspy/solvers/tpsolver.py:pathfollow", "src/trusspy/solvers/zerosearch.py:newton"]}
{"id": "C68", "title": "the unit of force does not matter", "statement": "Give the moduli, hardening moduli and yield stresses and the loads of every step of a truss in another unit of force, 10^k of which make one of the old, and lower the number of decimals of the residual tolerance (ftol) by k. Then, if the given model builds, the other builds too, and every session of runs and changed settings that completes on the given model completes on the other with the same log. In every recorded increment the displacements, load factors, stretches, plastic strains, control components and allowed changes are the same; the normal forces, stresses, yield stresses, internal forces, residuals, stiffness and loads carried over are those of the given model times 10^k. A single evaluation of the residual behaves so for every positive factor.", "quantifier": "all models and tables, materials, numbers of steps, integers k, settings (control component locked or not, step control on or off), sequences of runs and changes of settings, and linear solvers indifferent to multiplying equations by positive factors and exact in the control equation", "why_tests_cant": "a test compares two units on one truss; a threshold with a hidden unit shows only on the inputs near it", "anchors": ["src/trusspy/model.py:Model.build", "src/trusspy/model.py:Model.run", "src/trusspy/model.py:Model.equilibrium", "src/trusspy/model.py:Model.stiffness", "src/trusspy/solvers/tpsolver.py", "src/trusspy/solvers/zerosearch.py", "src/trusspy/materials", "src/trusspy/elements/element_definition.py:truss"]}
{"id": "C69", "title": "small steps succeed", "statement": "A new truss of linear elastic members, or elastic-plastic ones with positive modulus and yield stress and no softening, of positive stiffness and nonzero length that is not a mechanism can be loaded, under any loads: if the load factor is the locked control component, step control is off and the first step of the load is small enough, then run makes all its increments, reports each as done, and prints no message about a failed iteration, a wrong increment length or a repeated attempt. The q-th recorded load factor is q steps up to any given fraction tau, the displacements grow at most in proportion to the load, and the out-of-balance forces stay below tau times the step. How small the steps and how long the path may be depends only on the truss, the loads and tau, not on the tolerances; the number of iterations needed depends on the tolerances. The same holds for control by a displacement if the matrix of the first iteration is nonsingular.", "quantifier": "all trusses without mechanism of elastic and elastic-plastic members, loads, tolerances, fractions tau, numbers of increments, step sizes below the bound, sorting routines and exact linear solvers", "why_tests_cant": "a test runs one truss with one step size; that there is no well-posed truss for which every step size fails is a statement about all of them", "anchors": ["src/trusspy/model.py:Model.build", "src/trusspy/model.py:Model.run", "src/trusspy/solvers/tpsolver.py:pathfollow", "src/trusspy/solvers/zerosearch.py:newton", "src/trusspy/model.py:Model.stiffness"]}
{"id": "C70", "title": "under small loads the results are those of linear truss theory", "statement": "A truss without mechanism, of linear elastic bars and elastic-plastic ones with positive modulus and yield stress, has exactly one solution of linear truss theory (nodal displacements that vanish at the supports, and for which the bars, taken undeformed and following Hooke's law, carry the reference loads). A new model of it, run in k steps of size d of the load factor, or of a displacement component that moves in the linear solution, makes all increments if the value aimed at, k d, is small; and then every recorded displacement of a node and every recorded bar force is the recorded load factor times that of the linear solution, up to an error that becomes arbitrarily small against the value aimed at as that value tends to zero. So a user can check a model against a hand calculation or a linear code.", "quantifier": "all trusses of linear elastic or elastic-plastic bars of positive stiffness without mechanism, all supports and reference loads, tolerances, numbers and sizes of steps within the bound, relative errors, sort routines and exact linear solvers", "why_tests_cant": "a test compares the displacements of one truss under one small load within some tolerance; the claim is about the limit, for every truss", "anchors": ["src/trusspy/model.py:Model.build", "src/trusspy/model.py:Model.run", "src/trusspy/model.py:Model.equilibrium", "src/trusspy/model.py:Model.stiffness", "src/trusspy/solvers/tpsolver.py", "src/trusspy/elements/element_definition.py:truss", "src/trusspy/materials/material_definition.py"]}
{"id": "C71", "title": "a run of a complete model under usable settings does not raise", "statement": "Take a model with at least two nodes, distinct labels, members that join two different existing nodes and carry an area and all material parameters their law needs, at least one free component, and load rows with three columns for every step. Under settings in which every step has a number of increments and a limit on an existing component, at least one Newton iteration is allowed (two if one is spent on the predictor), a locked control component is given and exists, and the reduction factor is not zero, every run() after build(), also after earlier runs and changes of the settings, returns instead of raising. In floating point the only exception left is a ValueError for a control component that is not a number, and it cannot occur when the control component is locked. The conditions are also needed: a run that returns has increments and a limit for every step, and if some step asks for an increment, every member has its area and all its material parameters, a locked control component exists, an iteration is allowed and there are three loads per node for that step; a missing area or parameter is reported by an exception and never replaced by a default.", "quantifier": "all models, sessions, settings of this kind, solvers that return a vector of the right length, and arithmetics", "why_tests_cant": "that no input of the described kind raises is a statement about all of them; each test shows one that does not", "anchors": ["src/trusspy/model.py:Model.run", "src/trusspy/model.py:Model.equilibrium", "src/trusspy/model.py:Model.stiffness", "src/trusspy/solvers/tpsolver.py:pathfollow", "src/trusspy/solvers/zerosearch.py:newton"]}
{"id": "C72", "title": "stiffer and thinner: only modulus times cross section matters", "statement": "Replace bars by bars between the same nodes whose modulus of elasticity (for elastic-plastic bars also hardening modulus and yield stress) is t times as large and whose cross section is t times as small, with a positive factor t of its own for each bar. Every sequence of build(), runs and changes of settings that succeeds for the one truss succeeds for the other, prints the same lines and gives the same displacements, load factors, reactions, stretches and member forces; the stresses and yield stresses of a bar are t times as large, the plastic strains are the same. In particular the results of a truss of elastic bars depend on modulus and cross section only through their product. In exact arithmetic.", "quantifier": "all trusses, all factors, all sessions of runs and changes of settings, all linear solvers", "why_tests_cant": "a test can compare two trusses with two sets of numbers; the claim ranges over all trusses, factors and sessions", "anchors": ["src/trusspy/elements/element_definition.py:truss", "src/trusspy/materials/material_definition.py:umat_el", "src/trusspy/materials/material_definition.py:umat_elplast_iso", "src/trusspy/model.py:Model.run"]}
{"id": "C73", "title": "the stiffness matrix stored with a result", "statement": "The stiffness matrices stored with every converged result (full, reduced to the unknowns, and extended by load and control row) come from one evaluation with the supports, loads and state variables of the result before, at a point the recorded point was reached from by a correction shorter than the tolerance xtol (or at the recorded point itself). In exact arithmetic the stored matrix is symmetric, no rigid translation produces forces, and its entries are the derivatives of the out-of-balance forces there. It is in general not the matrix at the recorded point.", "quantifier": "every model, every session of build, runs and changes of settings, every step and converged increment, every linear solver; any arithmetic for where the matrix belongs, exact arithmetic for symmetry and derivatives", "why_tests_cant": "a test compares the stored matrix of one truss to a tolerance; that it always belongs to the last iterate, with the old state variables, must hold for every path of corrections, retries and skipped increments", "anchors": ["src/trusspy/solvers/zerosearch.py:newton", "src/trusspy/solvers/tpsolver.py:dfdx", "src/trusspy/solvers/tpsolver.py:pathfollow", "src/trusspy/model.py:Model.stiffness", "src/trusspy/core/analysis.py:Analysis"]}
{"id": "C74", "title": "a new model with the default settings", "statement": "Give a new model nodes, members with their areas and parameters, at least one free component and loads for one step, and change no setting: build succeeds and the run comes to its end with at most four Newton runs per increment; the only exception it can raise needs a number that is not a number. In exact arithmetic it returns after one step of exactly 50 increments, or of fewer and an ERROR line; every converged increment is in equilibrium to 10^-8 and moves every active DOF and the load factor by at most 0.02000002.", "quantifier": "every described model with complete members, every log level, every linear solver and every way of sorting; any arithmetic for returning, exact arithmetic for the numbers", "why_tests_cant": "the defaults have to work together for every truss a user describes; a test runs a few", "anchors": ["src/trusspy/handlers/handler_settings.py:SettingsHandler", "src/trusspy/model.py:Model.__init__", "src/trusspy/model.py:Model.build", "src/trusspy/model.py:Model.run"]}
{"id": "C75", "title": "the script of the README works for every truss", "statement": "Make a new model with add_node, add_element (label and two nodes only), assign_material('all', ...) and assign_geometry('all', [area]), add_bound_U and add_force, for any nodes, bars, supports and loads with distinct labels that join and name existing nodes: every call succeeds, and the model has exactly these nodes, supports and loads and one linear elastic bar per add_element with the assigned material and area. In exact arithmetic build and run then return, and every converged increment is in equilibrium to 10^-8. More generally the tables made by any sequence of adding and assigning calls describe exactly the bars the getters report.", "quantifier": "every list of nodes, bars, supports and loads, every material row and area given as ints or floats, every sequence of add and assign calls on elements, every log level, sort and linear solver; any arithmetic for the tables, exact arithmetic for the run", "why_tests_cant": "the documented way to define a model must lead to the model meant for every truss; a test shows one script", "anchors": ["README.md", "src/trusspy/handlers/handler_element.py:ElementHandler", "src/trusspy/core/element.py:Element", "src/trusspy/handlers/handler_boundary.py:BoundaryHandler", "src/trusspy/handlers/handler_extforce.py:ExternalForceHandler", "src/trusspy/handlers/handler_settings.py:SettingsHandler", "src/trusspy/model.py:Model.build", "src/trusspy/model.py:Model.run"]}
{"id": "C76", "title": "a truss without loads stays at rest", "statement": "Build a model whose load components are all zero, which is no mechanism, whose members have nonzero length and positive stiffness and follow Hooke's law at first (linear elastic, or plastic below the yield stress). Run it any number of times with the load factor locked as control component (j0 = last component, j_fixed True) and any other settings. Then every result stored by the model, including those of failed increments, has zero displacements at all nodes, zero stress and force in all members, and zero internal nodal forces, so no support has a reaction. The same holds with arbitrary loads on supported components, as long as no free component has a load.", "quantifier": "every such truss, every session of build, changes of settings and runs in load control that return, any number of steps and increments, with or without step control, any linear solver that solves nonsingular systems; exact arithmetic", "why_tests_cant": "no load must mean no deformation for every truss and every history of runs, also through the history variables written by earlier increments; a test shows one truss", "anchors": ["src/trusspy/model.py:Model.run", "src/trusspy/solvers/tpsolver.py:pathfollow", "src/trusspy/solvers/zerosearch.py", "src/trusspy/core/analysis.py:Analysis", "src/trusspy/materials/material_definition.py"]}
{"id": "C77", "title": "loads on supports do not matter", "statement": "Take two models with the same nodes, elements, supports and settings whose load tables give every free component the same load in every step; loads on supported components (flag 0) may differ in any way, and rows for nodes that are fully supported may be added or left out. If a sequence of runs and changes of settings returns for the first model, it returns for the second, prints the same messages, and stores the same results: displacements, stresses, member forces, internal nodal forces, load factors, history variables and stiffness, result by result. Only the stored loads, and the residual at supported components, differ.", "quantifier": "every pair of such models, every sequence of runs and changes of settings that returns, any number of steps and increments, any linear solver and any arithmetic; the load table has three columns per step", "why_tests_cant": "a supported load must not leak into the solution through any of the gathers, norms, scalings and step transitions of any run; a test compares two models", "anchors": ["src/trusspy/model.py:Model.build", "src/trusspy/model.py:Model.run", "src/trusspy/core/analysis.py:Analysis", "src/trusspy/solvers/tpsolver.py:pathfollow"]}
