{"id": "C01", "title": "Sub-domain widths fill the sub-domain", "statement": "For a mesh sub-domain [start,end] with `cells` >= 1 and `stretchRatio` r > 0, the cell widths the YAML parser produces are exactly `cells` many, all strictly positive, consecutive widths have ratio r (1 when |r-1|<=1e-12), and they sum to end-start.", "quantifier": "every start<end, every cell count n>=1, every ratio r>0", "why_tests_cant": "the claim ranges over all real intervals/ratios and unbounded n; a test checks a few literals", "anchors": ["src/parser/parser.cpp:parseOneSubDomain (334-356)", "include/petibm/misc.h:stretchGrid (148-163)"]}
{"id": "C02", "title": "Axis made of several sub-domains covers [start,last end]", "statement": "Parsing one mesh axis with any list of consecutive sub-domains gives nCells = sum of the `cells` entries = number of widths, the widths are the concatenation of the sub-domains' widths, bg/ed are the start and the last `end`, and the widths sum to ed-bg; the axis entry order in the YAML sequence does not matter.", "quantifier": "every list of sub-domains, every order of the direction entries", "why_tests_cant": "The number of sub-domains and of cells in each is unbounded, and the ends must match for all of them at once; a test tries a few lists.", "anchors": ["src/parser/parser.cpp:parseMesh, parseOneAxis, parseSubDomains (239-332)"]}
{"id": "C03", "title": "Staggered coordinates and widths are consistent and strictly increasing", "statement": "createMesh yields on each axis: vertices strictly increasing from min to max; each pressure coordinate is the midpoint of its cell and its width the vertex difference; a velocity component sits on the interior vertices along its own axis and on the pressure coordinates along the others; own-axis widths are half the sum of the two adjacent cells; coordinates including the two ghost entries are strictly increasing; the ghost sits on the boundary (own axis) or is the mirror image of the first/last point about the boundary (other axes).", "quantifier": "every list of positive widths of any length, every origin", "why_tests_cant": "unbounded mesh sizes and arbitrary real widths", "anchors": ["src/mesh/cartesianmesh.cpp:createPressureMesh, createVertexMesh, createVelocityMesh (136-355)"]}
{"id": "C04", "title": "Periodic ghost coordinates and widths are periodic images", "statement": "On a periodic axis every velocity component has as many points as there are cells, and its ghost entries (index -1 and n) have the coordinate of the wrapped point shifted by exactly one domain length and the width of the wrapped point.", "quantifier": "every list of positive widths, every component/direction pair", "why_tests_cant": "unbounded mesh sizes and arbitrary real widths", "anchors": ["src/mesh/cartesianmesh.cpp:createVelocityMesh (224-326)"]}
{"id": "C05", "title": "Periodic boundary-condition validation", "statement": "The periodic check accepts a boundary-condition table exactly when opposite boundaries are periodic together for each component and, in each direction, either no component or all simulated components are periodic; on success the reported flags are exactly that and agree for all simulated components.", "quantifier": "every 3x6 table of boundary types", "why_tests_cant": "5^18 tables, and downstream code relies on agreement of flags it reads from different components", "anchors": ["src/misc/misc.cpp:checkPeriodicBC (19-83)"]}
{"id": "C06", "title": "Natural index of a stencil", "statement": "getNaturalIndex maps interior (i,j,k) bijectively onto 0..N-1; a point one step outside in exactly one direction gives the natural index of its periodic image if that direction is periodic and -1 otherwise; every returned value is -1 or a valid index.", "quantifier": "every field size, every dimension, every stencil with at most one coordinate outside", "why_tests_cant": "The index formula has to be right for every mesh size and every stencil next to a boundary; tests enumerate small meshes only.", "anchors": ["src/mesh/cartesianmesh.cpp:getNaturalIndex (592-676)"]}
{"id": "C07", "title": "Natural index of corner ghosts", "statement": "A ghost stencil that is outside in several directions is looked at in the first of them (x, then y, then z) only: its natural index is -1 when that direction is not periodic, and otherwise the index formula of the stencil wrapped in that direction alone. The documented behaviour (-1 or the index of an existing point) therefore holds for every ghost whose first outside direction is not periodic, and fails otherwise: the index is wrong for every corner that has a periodic image, and a corner without an image can get the index of an unrelated point.", "quantifier": "every stencil of the ghost frame, every size, every periodicity flags, 2D and 3D", "why_tests_cant": "needs all corner cases of all sizes and flags", "anchors": ["src/mesh/cartesianmesh.cpp:getNaturalIndex (592-676)", "include/petibm/mesh.h:getNaturalIndex docs"]}
{"id": "C08", "title": "Packed global index is a bijection with the composite-vector layout", "statement": "getPackedGlobalIndex maps (velocity component, interior point) one-to-one onto 0..UN-1, and the value is the position of that point in the distributed composite vector (rank-major, then component, then local order), whatever the process count and even if some ranks own no point; ghost stencils give -1; pressure passes through.", "quantifier": "every number of ranks, every distribution of local sizes, every component and point", "why_tests_cant": "Bijectivity is a statement about all pairs of points of all fields on every number of ranks, with any uneven split; tests fix one partition.", "anchors": ["src/mesh/cartesianmesh.cpp:initDMDA (438-489), getGlobalIndex (709-721), getPackedGlobalIndex (740-779)"]}
{"id": "C09", "title": "Lagrangian packed index and owner search", "statement": "For a body pack, getPackedGlobalIndex maps (body, point, component) one-to-one onto 0..nPts*dim-1 following the rank-major composite layout, findProc returns the rank that owns the point, and out-of-range body/point/component is rejected.", "quantifier": "every number of bodies, points, ranks", "why_tests_cant": "It concerns every number of bodies, points and ranks, including ranks without points; a test fixes one set of bodies and one run.", "anchors": ["src/body/bodypack.cpp:init, findProc, getGlobalIndex, getPackedGlobalIndex (55-283)", "src/body/singlebodypoints.cpp:findProc, getGlobalIndex (156-193)"]}
{"id": "C10", "title": "Ghost-point map keys never collide", "statement": "The ordering used to key ghost points is a strict total order on stencils: two stencils are treated as the same key iff they are equal.", "quantifier": "all pairs/triples of stencils", "why_tests_cant": "Absence of collisions is a statement about all pairs of integers a stencil can hold, not about the pairs of one mesh.", "anchors": ["src/private/private.h:operator< (20-34)"]}
{"id": "C11", "title": "Ghost points are adjacent to owned interior targets", "statement": "For every boundary, the ghost list of a rank contains exactly one ghost per owned boundary-adjacent point, the ghost is one step outside the domain normal to the boundary, its target is the interior point next to it and is owned by this rank, its local index addresses that ghost cell in the ghosted local array, and the stored distance is positive and equals the coordinate difference.", "quantifier": "every mesh, every decomposition, every boundary", "why_tests_cant": "It must hold on every rank of every decomposition and for every boundary of every mesh; a test runs a few process counts.", "anchors": ["src/misc/misc.cpp:getGhostPointList, getPerpendAxes, getGhostTargetStencil (129-267)", "src/mesh/cartesianmesh.cpp:getLocalIndex (679-690)"]}
{"id": "C12", "title": "Dirichlet and Neumann ghost equations enforce the condition at the wall", "statement": "After any sequence of updates, a Dirichlet ghost value makes the velocity at the wall equal the prescribed value (the ghost itself for the normal component, the average of ghost and neighbour for a tangential one); a Neumann ghost makes the one-sided derivative along the coordinate axis equal the prescribed value.", "quantifier": "every interior value, prescribed value, boundary, distance, and update history", "why_tests_cant": "The ghost value depends on the whole history of updates and on real data; a test checks some values after some calls.", "anchors": ["src/boundary/singleboundarydirichlet.cpp (22-47)", "src/boundary/singleboundaryneumann.cpp (22-33)", "src/boundary/singleboundarybase.cpp (107-163)"]}
{"id": "C13", "title": "Convective ghost equation is the discrete advection update, for all histories", "statement": "After every updateEqs/updateGhostValues pair the convective boundary value satisfies the discrete advection equation with speed c (signed along the axis) between old and new time level, for any interior history; and the a0 coefficient never changes so operators assembled once stay valid.", "quantifier": "every sequence of time steps and interior values", "why_tests_cant": "The coefficients carry state from one call to the next, so the claim is about histories of any length.", "anchors": ["src/boundary/singleboundaryconvective.cpp (12-97)", "src/boundary/singleboundarybase.cpp (126-163)"]}
{"id": "C14", "title": "Laplacian matrix plus correction equals the ghost-extended stencil", "statement": "For every velocity vector u, L u + Lbc equals at every velocity point the three-point second differences evaluated on u extended with the current ghost values (periodic images in periodic directions), provided every periodic direction has at least three points. (With two points in a periodic direction it fails: the two neighbours are one unknown and its second coefficient overwrites the first; counterexample.)", "quantifier": "every mesh with at least 3 points per periodic direction, boundary types, ghost coefficients and velocity vector", "why_tests_cant": "Matrix, correction and ghost coefficients interact at every boundary row of every mesh; a test compares a few products with stored numbers.", "anchors": ["src/operators/createlaplacian.cpp (45-263)"]}
{"id": "C15", "title": "Laplacian consistency", "statement": "Interior Laplacian rows annihilate constants and coordinate-linear fields on every stretched mesh, give exactly 2 on the square of the coordinate along the component's own axis, and are self-adjoint under the cell-width weighting.", "quantifier": "every mesh with positive widths", "why_tests_cant": "It is a statement about every non-uniform mesh; a test samples a few stretching ratios.", "anchors": ["src/operators/createlaplacian.cpp:setRowValues (108-162)", "src/mesh/cartesianmesh.cpp:createVelocityMesh"]}
{"id": "C16", "title": "Divergence matrix plus correction is the net face flux", "statement": "For every velocity vector u, D u + Dbc at each pressure cell equals the sum over faces of outward (area-weighted or unit) velocities where boundary faces use the current ghost values, provided every periodic direction has at least two cells. (With one cell in a periodic direction it fails: both faces are one unknown and its second coefficient overwrites the first; counterexample.)", "quantifier": "every mesh with at least 2 cells per periodic direction, boundary types, ghost coefficients and velocity vector", "why_tests_cant": "The identity must hold row by row for every mesh, boundary type and real vector; a test multiplies a few vectors.", "anchors": ["src/operators/createdivergence.cpp (45-262)"]}
{"id": "C17", "title": "Discrete divergence theorem", "statement": "The sum over all pressure cells of D u + Dbc equals the net flux through the domain boundary faces (zero on a fully periodic domain).", "quantifier": "every mesh size, every velocity vector", "why_tests_cant": "The sums telescope over meshes of any size; a test sums one mesh, in floating point.", "anchors": ["src/operators/createdivergence.cpp (103-262)"]}
{"id": "C18", "title": "Gradient and divergence are negative adjoints", "statement": "D = -(R Mhat G)^T entrywise for the non-normalised operators (D = -G^T when normalised) wherever the boundary a0 is zero or periodic; hence D G is symmetric negative semi-definite.", "quantifier": "every mesh, every pair of pressure/velocity unknowns", "why_tests_cant": "Adjointness is about every pair of vectors and every mesh; a test compares entries of one matrix.", "anchors": ["src/operators/creategradient.cpp (36-135)", "src/operators/createdivergence.cpp (103-262)"]}
{"id": "C19", "title": "Pressure operator null space is exactly the constants", "statement": "G p = 0 iff p is constant on the grid; the constant vector handed to the Poisson solver is in the null space of D Bn G for every Bn.", "quantifier": "every grid size in 2D and 3D", "why_tests_cant": "That no other vector is in the null space is a connectivity argument over grids of any size; a test can only find counterexamples.", "anchors": ["src/operators/creategradient.cpp (36-135)", "applications/navierstokes/navierstokes.cpp:setNullSpace (395-429)"]}
{"id": "C20", "title": "Bn is the truncated inverse of the implicit operator", "statement": "createBnHead(Op,dt,c,n) returns B with (I/dt - c Op) B = I - (c dt Op)^n for n>=1 and fails for n<1; the mass-matrix variants return the analogous truncated inverse of M/dt - c Op.", "quantifier": "every square Op, every dt != 0, c and order n", "why_tests_cant": "It is an induction over the order for every square matrix; a test multiplies one matrix for orders 1 to 3.", "anchors": ["src/operators/createbn.cpp (19-220)"]}
{"id": "C21", "title": "Projection step makes the velocity discretely divergence free", "statement": "If the Poisson solve is exact, the velocity after advance() satisfies D u + Dbc = 0 with the boundary correction of the same step, for every intermediate velocity.", "quantifier": "every velocity, pressure, boundary data, Bn", "why_tests_cant": "It must hold after every step from every state; a test sees one flow, up to a tolerance.", "anchors": ["applications/navierstokes/navierstokes.cpp:advance, assembleRHSPoisson, applyDivergenceFreeVelocity (240-266,540-598)"]}
{"id": "C22", "title": "Pinned-pressure Poisson solve is equivalent", "statement": "When the GPU solver pins pressure cell 0 (row and column 0 replaced by those of the identity), an exact solution still satisfies the original equations in every row, including the replaced one, whenever the right-hand side is compatible; for order one the pinned matrix is still symmetric and determines the pressure uniquely. It is not definite, though: the pinned diagonal entry is +1 and the form is negative on all other fields.", "quantifier": "every symmetric zero-row-sum operator and compatible right-hand side; every mesh, decomposition and boundary condition without normal Neumann", "why_tests_cant": "Equivalence of the pinned and the singular system is about every right-hand side and every mesh; a test solves one.", "anchors": ["applications/navierstokes/navierstokes.cpp:setNullSpace, assembleRHSPoisson (395-429,540-563)"]}
{"id": "C23", "title": "Convection operator preserves free stream and conserves momentum", "statement": "The convective term of a uniform velocity that the boundary conditions let through is zero everywhere on one process without periodic directions, and everywhere on a fully periodic domain on any number of processes; with several processes or mixed boundaries it is zero away from boundaries that the flow crosses (and there it need not be: counterexample). The volume-weighted sum of the convective term of a component is the flux of that momentum component through the domain boundary, and zero on a periodic domain.", "quantifier": "every mesh, decomposition, boundary table, uniform velocity, velocity field and history of boundary updates", "why_tests_cant": "telescoping over unbounded sizes and all fields", "anchors": ["src/operators/createconvection.cpp (40-195)"]}
{"id": "C24", "title": "Convection never reads outside its ghosted local arrays", "statement": "For every mesh size and every process grid the default DMDA split accepts, applying the convection operator, any number of times and with any velocity and boundary state, never touches an entry outside a rank's owned range extended by the one-cell ghost layer; its result does not depend on earlier applications and is, at each point, the discrete divergence of the momentum flux of the velocity known to the owning rank.", "quantifier": "every cell count, process count and rank", "why_tests_cant": "unbounded number of splits; component grids differ by one point", "anchors": ["src/operators/createconvection.cpp (199-339)", "src/mesh/cartesianmesh.cpp:createSingleDMDA (492-538)"]}
{"id": "C25", "title": "Convection result is independent of the process grid", "statement": "For the same velocity and the same boundary updates, the convective term at a point is the same for any two process grids, on fully periodic domains everywhere, otherwise at every point that is not next to a boundary through which momentum of a tangential component is transported; next to such a boundary it depends on the process grid (counterexample).", "quantifier": "every pair of decompositions of a mesh, every boundary data and history", "why_tests_cant": "all decompositions; depends on which domain-ghost entries a rank fills", "anchors": ["src/operators/createconvection.cpp (199-339)", "src/boundary/boundarysimple.cpp:copyValues2LocalVecs (128-146)", "src/misc/misc.cpp:getGhostPointList (129-197)"]}
{"id": "C26", "title": "Diagonal operators and flux/velocity conversion", "statement": "createR, createRInv, createMHead, createM are diagonal with face area, its inverse, own-axis width and width/area; RInv R = I, M = MHead RInv, and convert2Flux/convert2Velocity are mutually inverse.", "quantifier": "every mesh with positive widths, every velocity vector", "why_tests_cant": "It has to hold for every entry of every mesh and vector; a test converts one field.", "anchors": ["src/operators/creatediagmatrix.cpp (90-231)", "src/solution/solutionsimple.cpp:convert2Velocity, convert2Flux (90-119)"]}
{"id": "C27", "title": "Delta kernels satisfy the discrete moment conditions", "statement": "Both regularised kernels are even, non-negative, vanish outside their support (1.5 / 2 cell widths), never take a square root of a negative number, and for every real shift the integer translates sum to 1/h with zero first moment (even/odd sums equal 1/(2h) for the 4-point kernel).", "quantifier": "every real offset and every h>0", "why_tests_cant": "The moment conditions hold for a continuum of offsets of a point between grid lines; a test samples some.", "anchors": ["src/misc/delta.cpp (17-74)"]}
{"id": "C28", "title": "Kernel window covers the kernel support", "statement": "On a mesh whose cells around the bodies are equal in each direction the window of Eulerian indices searched around the host cell contains every grid point of every component (cell- or face-centred) within the kernel's support, and every entry of the operator is the product of the kernel over the directions at the distance between the two points.", "quantifier": "every grid point, Lagrangian position, component direction", "why_tests_cant": "A point missed by the window would lose force silently only for some positions; the positions form a continuum.", "anchors": ["src/operators/createdelta.cpp:createDelta, getEulerianNeighbors (34-208)"]}
{"id": "C29", "title": "Interpolation operator reproduces constants and linear fields", "statement": "On a mesh whose cells around the bodies are equal in each direction the delta operator scaled by the cell volume interpolates a constant velocity exactly and a coordinate-linear velocity exactly at any Lagrangian point at least a kernel radius from the boundary; regularisation is its transpose so total force is preserved.", "quantifier": "every mesh uniform around the bodies and every such Lagrangian point", "why_tests_cant": "Points may lie anywhere in the mesh and the sums run over windows that depend on the position; a test uses a few points.", "anchors": ["src/operators/createdelta.cpp (34-208)", "applications/ibpm/ibpm.cpp:createOperators (100-203)", "applications/decoupledibpm/decoupledibpm.cpp:createExtraOperators (149-216)"]}
{"id": "C30", "title": "Delta operator across a periodic boundary", "statement": "The delta operator can be built exactly when every point is strictly inside the domain, every rank owns a point of every body and the window around every point stays within one ghost of the grid in the directions flagged periodic; where the mesh is uniform around the bodies its entries are then the kernel at the direct distances, so a grid point out of reach has entry 0 even if one of its periodic images is within reach. (The claim one would expect, that a point near a periodic boundary interacts with the periodic images at their true distance and row sums stay 1, is false of the code, as is the claim that only periodic directions are searched periodically.)", "quantifier": "every mesh, boundary conditions, distribution of the points and kernel", "why_tests_cant": "Whether the window wraps depends on index arithmetic for every mesh size and every position near the seam; a test uses one.", "anchors": ["src/operators/createdelta.cpp:getEulerianNeighbors (171-208), createDelta (48-52)"]}
{"id": "C31", "title": "Point interpolation is exact on multilinear fields and bounded by the corners", "statement": "A point probe of a velocity component placed in [first gridline, upper ghost gridline) writes, on exactly one rank, one line per scheduled step: the time and the value at the location of the multilinear function through the corners of the surrounding cell. Up to the last gridline this involves only points of the component, is exact on multilinear fields and lies between the corner values; past the last gridline of a non-periodic direction 0 is used in place of the boundary value.", "quantifier": "every mesh, decomposition, location, field and history of calls", "why_tests_cant": "Targets form a continuum, including points on grid lines and on the boundary of a rank; a test uses a few of them.", "anchors": ["src/misc/lininterp.cpp (94-209)", "src/misc/probes.cpp:ProbePoint::init, monitorVec (607-687)"]}
{"id": "C32", "title": "A probed point belongs to exactly one rank", "statement": "For velocity fields every point with coord[0] <= x < coord[n] in each direction is claimed by exactly one rank, whatever the decomposition; points outside are claimed by none; the coordinate reads stay in bounds. For the pressure the rank at the upper end reads past the coordinate array.", "quantifier": "every decomposition and every point", "why_tests_cant": "Points exactly on the interface of two ranks decide the claim, for every decomposition; a test hits them by chance.", "anchors": ["src/mesh/cartesianmesh.cpp:isPointOnLocalProc (825-841)"]}
{"id": "C33", "title": "Volume probe selects exactly the grid points in its box, once over all ranks", "statement": "The indices a volume probe monitors are exactly the grid points whose coordinates lie in the box enlarged by the tolerance, and the per-rank index sets are disjoint with union the whole box; the announced gridlines are those in the box. A box reversed across a gridline ends in an uncaught exception.", "quantifier": "every mesh, box, tolerance, decomposition", "why_tests_cant": "Boxes form a continuum and may cut ranks anywhere; a test uses one box and one decomposition.", "anchors": ["src/misc/probes.cpp:getInfo, createIS (240-310)"]}
{"id": "C34", "title": "Probe time averages", "statement": "With n_sum different from 0 the k-th record written is the arithmetic mean of monitored samples (k-1)*|n_sum|+1..k*|n_sum|, with the time of the last of them; no sample is used twice or skipped; with n_sum=0 each sample is written as is.", "quantifier": "every sample history and n_sum", "why_tests_cant": "The accumulated average depends on the whole history of samples and resets; a test averages a few.", "anchors": ["src/misc/probes.cpp:ProbeVolume::monitorVec (489-526)"]}
{"id": "C35", "title": "Probe monitoring schedule", "statement": "A probe records at step n and time t exactly when n is a multiple of n_monitor and t_start<=t<=t_end; pressure and velocity fields are routed to the right vector and any other field is an error at the first scheduled step; n_monitor = 0 divides by zero.", "quantifier": "every step, time and probe configuration", "why_tests_cant": "The schedule mixes steps, times and strides over runs of any length; a test watches some steps.", "anchors": ["src/misc/probes.cpp:ProbeBase::monitor (114-148)"]}
{"id": "C36", "title": "Time-integration schemes are consistent", "statement": "Each accepted scheme advances a constant right-hand side exactly and announces as many explicit terms as it has weights; Adams-Bashforth and Crank-Nicolson are also exact for right-hand sides affine in time; unknown names or missing keys are rejected.", "quantifier": "every scheme string", "why_tests_cant": "The claim is about every string a user may write in the configuration file and every right-hand side; a test tries known names.", "anchors": ["src/timeintegration/timeintegration.cpp (40-83)", "include/petibm/timeintegration.h (100-171)"]}
{"id": "C37", "title": "Explicit terms use the right history", "statement": "After k steps, explicit slot i holds the (sign-scaled) term evaluated with the velocity of step k-i for i<k, and the momentum right-hand side combines slots with their coefficients.", "quantifier": "every number of steps and explicit depth", "why_tests_cant": "Which history a term uses depends on how often the vectors were rotated, for runs of any length.", "anchors": ["applications/navierstokes/navierstokes.cpp:assembleRHSVelocity (432-521)"]}
{"id": "C38", "title": "Number of steps, simulated time and output schedule", "statement": "A run from step n0 with nt steps performs exactly nt advances, reaches step n0+nt and time t0+nt*dt, writes a solution file at exactly the steps that are multiples of nsave and restart data at exactly the multiples of nrestart (plus step 0 on a fresh start).", "quantifier": "every n0, nt, nsave, nrestart", "why_tests_cant": "Runs have any length and any combination of saving periods, new or restarted; a test runs one schedule.", "anchors": ["applications/navierstokes/navierstokes.cpp:write, finished, ioInitialData (207-314)", "applications/navierstokes/main.cpp (45-78)"]}
{"id": "C39", "title": "Restart equivalence", "statement": "Running k steps, saving, restarting and running m more steps gives the same state as running k+m steps without interruption (same velocity, pressure, explicit history, time), for Dirichlet/Neumann/periodic boundaries.", "quantifier": "every k, m, every state", "why_tests_cant": "It compares whole runs for every splitting point, every state and every history of earlier restarts.", "anchors": ["applications/navierstokes/navierstokes.cpp:writeRestartDataHDF5, readRestartDataHDF5, ioInitialData (207-237,637-746)", "src/boundary/singleboundaryconvective.cpp:setGhostICs (69-85)"]}
{"id": "C40", "title": "Restart data survives crashes of later steps and matches its step", "statement": "A crash at any point of a run leaves the files of all other steps intact; every step whose output was complete has a file holding the solution of that step (and the explicit history if it is a restart step), and restarting from it reaches the state the run would have reached. Exception of the code: a restart step that is not a solution step and whose file already exists keeps the old solution.", "quantifier": "every crash point, every history, every pre-existing directory content", "why_tests_cant": "A test kills the program at a few places; the claim is about every point between two file operations of every run.", "anchors": ["applications/navierstokes/navierstokes.cpp:write, writeRestartDataHDF5 (269-308,637-688)"]}
{"id": "C41", "title": "Step file names are unique", "statement": "Different non-negative step numbers give different solution file names, sorted lexicographically in step order below 10^7, and the XDMF tool generates the same names as the solver.", "quantifier": "every pair of step numbers", "why_tests_cant": "It is about all pairs of step numbers, also those longer than the padding of the name.", "anchors": ["applications/navierstokes/navierstokes.cpp:write (269-308)", "applications/createxdmf/main.cpp (48-270)"]}
{"id": "C42", "title": "XDMF index references only files the solver wrote", "statement": "With the default start/end/step, and a start step that is a multiple of nsave, the XDMF tool lists every step the solver saved and only those, and every entry names an existing file that holds that step. For other start steps the list is wrong.", "quantifier": "every startStep, nt, nsave", "why_tests_cant": "The listed files depend on the start, the length and the period of any run; a test lists one.", "anchors": ["applications/createxdmf/main.cpp (48-270)"]}
{"id": "C43", "title": "Settings precedence", "statement": "getSettings yields, for each top-level key, the value of its last definition, in the order command-line directory/output/logs, then the config, mesh, flow, parameters, bodies, probes files; it fails if a chosen file is missing or a directory cannot be made. So the command line decides directory/output/logs exactly when no file defines them: a file that does overrides the option after the directories of the option were made.", "quantifier": "every set of files and command-line options", "why_tests_cant": "The result depends on every combination of files and options, and on their order; a test tries a few.", "anchors": ["src/parser/parser.cpp:getSettings, readYAMLFile (152-237)"]}
{"id": "C44", "title": "Configuration words", "statement": "Every documented direction, field, boundary location, boundary type and probe type word is read as documented, whatever was read before. Words outside the vocabulary are not rejected: each is read as the first constant of its kind (x, u, xMinus, no condition, POINT), and a boundary condition for the pressure writes outside the tables.", "quantifier": "every string, every history of look-ups", "why_tests_cant": "It is about every string in the file and, for maps that insert on look-up, about every history of look-ups.", "anchors": ["src/parser/parser.cpp:YAML converters (47-143)", "src/misc/type.cpp (16-55)"]}
{"id": "C45", "title": "Factories report configuration errors", "statement": "The factories of linear solvers, single bodies, probes and time schemes return a non-zero code for types without implementation. createMesh, createBoundary and createBodyPack never do: when their initialisation fails (no flow node, mismatched periodic conditions, a boundary without condition, no bodies node) they return success and an unusable object.", "quantifier": "every invalid configuration", "why_tests_cant": "Invalid configurations are unbounded in kind and place; a test tries the mistakes its author thought of.", "anchors": ["src/mesh/mesh.cpp:createMesh (86-94)", "src/mesh/cartesianmesh.cpp:CartesianMesh (30-33)", "src/boundary/boundary.cpp", "src/body/bodypack.cpp"]}
{"id": "C46", "title": "Lagrangian point files", "statement": "A body file with a point count followed by exactly that many lines of 2 or 3 numbers is read to exactly those coordinates, a number being the value of a decimal numeral with optional sign, fraction and exponent; every accepted file has the announced number of coordinate lines, all with as many numbers as the first; files with fewer or malformed lines are rejected without touching memory out of bounds; reading back a written file with the count in front is the identity for exactly printable coordinates. The code does not extend this to every file: an extra line (even empty) or a count of zero accesses memory out of bounds, text after the numbers of the first coordinate line is ignored, and the body writer omits the count so that its files are rejected by the reader.", "quantifier": "every file content", "why_tests_cant": "Files come with any number of lines and any damage; a test reads a few files.", "anchors": ["src/io/io.cpp:readLagrangianPoints (23-118)", "src/body/singlebodypoints.cpp:readBody, writeBody"]}
{"id": "C47", "title": "Host cell of a Lagrangian point", "statement": "updateMeshIdx returns for each point strictly inside the domain the unique cell whose vertices enclose it, and rejects points on or outside the boundary.", "quantifier": "every mesh and every point", "why_tests_cant": "Points form a continuum, including points on grid lines and outside the domain; a test uses a few.", "anchors": ["src/body/singlebodypoints.cpp:updateMeshIdx (95-119)"]}
{"id": "C48", "title": "Integrated force", "statement": "calculateAvgForces returns minus the sum over all points of the Lagrangian forces per component and per body, independent of how points are distributed over ranks.", "quantifier": "every force vector, every distribution", "why_tests_cant": "The sum runs over points spread on ranks in any way; a test uses one body on one or two ranks.", "anchors": ["src/body/singlebodypoints.cpp:calculateAvgForces (207-236)", "src/body/bodypack.cpp:calculateAvgForces (298-324)"]}
{"id": "C49", "title": "No-slip constraint of the immersed-boundary solvers", "statement": "After every step of the coupled immersed-boundary solver whose combined pressure-force solve was exact, the velocity has no net flux out of any cell and, at the same time, its interpolation at every point of every body is zero; pressure and forces enter the momentum equation together. Setting up and stepping never fails with bodies well inside the domain. After every step of the decoupled solver with exact solves the velocity is divergence-free and its interpolation at every body point is zero up to the interpolated velocity correction of the last pressure projection. Two natural extensions fail: the decoupled solver does not restore the no-slip condition after the projection (a box around fixed points fills with the full free stream in one step), and the coupled solver ignores the initial pressure given by the user.", "quantifier": "every mesh, decomposition, set of bodies, kernel, boundary conditions, number of steps, initial velocity and (exact) solver", "why_tests_cant": "It must hold at every body point after every step of every run; a test looks at one body and a tolerance.", "anchors": ["applications/ibpm/ibpm.cpp (100-313)", "applications/decoupledibpm/decoupledibpm.cpp (105-316)", "applications/rigidkinematics/rigidkinematics.cpp (119-159)"]}
{"id": "C50", "title": "Moving-body time consistency", "statement": "After every step of the rigid-kinematics solver, for bodies whose motion is a function of time, the body points and the body velocities are those of the time reached at the end of that step, the operators and the matrix of the force solver are rebuilt from these points, the velocity is divergence-free, and at every point it is the body velocity up to the interpolated correction of the last projection. The file of a saving step holds the points of that step, and no file exists for other steps. With the functions of the base class the solver is exactly the decoupled one. In the oscillating-cylinder example the prescribed velocity is the time derivative of the position at every time, the cylinder returns after each period, and the peak velocity gives the requested Keulegan-Carpenter number. One natural extension fails: on restart the body file of the restart step is overwritten with the unmoved points.", "quantifier": "every mesh, decomposition, set of bodies, motion, step, restart point, frequency, amplitude and (exact) solver", "why_tests_cant": "positions and velocities must agree over a continuum of times and for all run lengths; a test sees finitely many steps of one motion", "anchors": ["applications/rigidkinematics/rigidkinematics.cpp (69-183)", "examples/api_examples/oscillatingcylinder2dRe100_GPU/oscillatingcylinder.cpp (63-111)"]}
{"id": "C51", "title": "The vorticity utility", "statement": "For every mesh, decomposition and range of steps whose files can be read, petibm-vorticity ends, never reads outside its ghosted arrays, adds or replaces in each of those files only the vorticity datasets (in natural order), adds the coordinates of the vorticity points to the grid file (keeping what is there), and changes no other file. The z value stored at every vertex that is not on a non-periodic boundary is the circulation of the stored velocity around the vertex per unit area: it is exact for velocities linear in the coordinates, zero for a discrete pressure gradient, and the area-weighted sum over a patch is the circulation along its boundary. On a non-periodic boundary not cut by the decomposition it uses the ghost values of the boundary conditions. The code does not satisfy the natural extension to the rest: the x and y values of a 3D flow are those of the neighbouring cell, a boundary vertex next to a cut of the decomposition gets a value that depends on the decomposition (non-zero for uniform flow), and a non-positive step never ends.", "quantifier": "every mesh, decomposition, boundary conditions, solution file and range of steps", "why_tests_cant": "Every mesh, field and pair of process grids must give the right circulation at every point; a test compares one file.", "anchors": ["applications/vorticity/main.cpp (31-494)"]}
{"id": "C52", "title": "Solution file round trip", "statement": "Writing the solution and reading it back restores the velocity and pressure on every rank for any decomposition, and the file holds each component in natural order, so it can be read with a different number of ranks.", "quantifier": "every state and pair of decompositions", "why_tests_cant": "Files written on one process grid are read on another, for all sizes and grids; a test reads back its own file.", "anchors": ["src/solution/solutionsimple.cpp:write, read (229-292)"]}
{"id": "C53", "title": "Initial conditions", "statement": "After setInitialConditions each velocity component equals its initial-condition expression evaluated at the coordinates of its own grid point (time 0, the configured viscosity, z = 0 in 2D), and the pressure at cell centres, 0 by default; a missing viscosity is reported; with fewer expressions than components an uninitialised function is called.", "quantifier": "every mesh, every expression", "why_tests_cant": "Expressions are arbitrary functions evaluated at all points of all meshes and ranks; a test tries one formula.", "anchors": ["src/solution/solutionsimple.cpp:setInitialConditions (122-226)", "src/parser/parser.cpp:parseICs (396-443)"]}
{"id": "C54", "title": "Index loops visit every index exactly once", "statement": "The nested loop helpers call the body exactly once for each index of the half-open box, in lexicographic order, and stop at the first failing call returning its error code.", "quantifier": "every bounds and body", "why_tests_cant": "The bounds may be empty, negative or large and the body may fail anywhere; a test counts calls for a few bounds.", "anchors": ["include/petibm/misc.h:doubleLoops, tripleLoops (184-229)"]}
{"id": "C55", "title": "Fractional step solves the momentum equation up to the splitting error", "statement": "If the momentum solve of a step is exact, the velocity and pressure increment the step produces satisfy A u + G dp = r + (c dt L)^N G dp, where r is the momentum right-hand side, A = I/dt - c L the implicit operator and N the order of Bn: the only defect is the order-N splitting term.", "quantifier": "every mesh, boundary table, state, time step, order N >= 1", "why_tests_cant": "The identity is about every state, time step and order, not about the flow of one test.", "anchors": ["applications/navierstokes/navierstokes.cpp:advance, createOperators (240-266,317-365)", "src/operators/createbn.cpp:createBnHead (19-95)"]}
{"id": "C56", "title": "Set-up and time steps never fail or read out of bounds", "statement": "On every valid mesh and boundary table the solver set-up and any number of time steps return without error and without an out-of-range access, provided the convection operator does.", "quantifier": "every mesh, decomposition, boundary table, initial field, number of steps", "why_tests_cant": "Absence of failures and of out-of-bounds reads is a claim about all runs of any length on all meshes.", "anchors": ["applications/navierstokes/navierstokes.cpp:init, advance (93-266)"]}
{"id": "C57", "title": "Restart on another number of ranks", "statement": "Restart files can be read on a different decomposition: velocity and pressure are restored point by point. The explicit history is not: it is stored in an order that depends on the decomposition.", "quantifier": "every mesh and pair of decompositions", "why_tests_cant": "All pairs of decompositions matter, and the damage to the history is silent when the sizes agree.", "anchors": ["applications/navierstokes/navierstokes.cpp:writeRestartDataHDF5, readRestartDataHDF5 (637-746)"]}
{"id": "C58", "title": "A documented configuration builds a simulation", "statement": "Every configuration written as the manual says, on a process grid that is not finer than the mesh, gives a mesh with exactly the configured cells and end points, the configured boundary-condition table, and a boundary object on every rank, whatever the order of the axes and entries; the mesh meets the hypotheses of all other properties.", "quantifier": "every documented configuration and process grid", "why_tests_cant": "The documented settings combine freely, on any process grid; a test builds a few of the combinations.", "anchors": ["src/parser/parser.cpp:parseMesh, parseBCs (240-393)", "src/mesh/cartesianmesh.cpp:init (55-130)", "src/boundary/boundarysimple.cpp", "src/mesh/mesh.cpp:createMesh", "src/boundary/boundary.cpp:createBoundary"]}
{"id": "C59", "title": "The forces file of the immersed-boundary solvers", "statement": "Every run of the immersed-boundary programs (coupled, decoupled, moving bodies), new or restarted, appends exactly one line per time step to its forces file: the time of the step, then for every body in configuration order and every direction minus the sum of the Lagrangian forces over the body's points. On a mesh that is uniform around the bodies, with the points away from the boundary, the numbers of one direction add up to minus the total force spread on the fluid. Runs on valid input complete.", "quantifier": "every mesh, decomposition, set of bodies, motion, run length, start step and step of the run", "why_tests_cant": "The file is a function of a whole run on some number of ranks: the packing of the Lagrangian vector differs with every distribution of the points, and the balance with the spread force needs the moment identities of the kernel at every possible point position. A test sees a few bodies on a few ranks.", "anchors": ["applications/ibpm/ibpm.cpp:writeForcesASCII, write (85-98,387-423)", "applications/decoupledibpm/decoupledibpm.cpp:writeForcesASCII, write (134-147,420-453)", "src/body/bodypack.cpp:calculateAvgForces", "applications/ibpm/main.cpp", "applications/decoupledibpm/main.cpp", "applications/rigidkinematics/rigidkinematics.cpp"]}
{"id": "C60", "title": "Restarting an immersed-boundary run continues it", "statement": "A run of k steps followed by a restarted run of j steps ends with the same time, step, velocity, pressure, Lagrangian forces and explicit history as one run of k + j steps, and the forces files of the two runs, put one after the other, are the forces file of the long run; for moving bodies with a motion that depends on time only the points also end at the same places. Needs restart data written at step k, no convective boundary and solvers that do not depend on their initial guess.", "quantifier": "every mesh, decomposition, set of bodies, motion, k, j, save and restart interval, disk content", "why_tests_cant": "Quantifies over the interruption point, all intervals and all earlier disk contents; the coupled solver stores pressure and forces in one nested vector that is split on writing and rebuilt on reading, for every layout.", "anchors": ["applications/ibpm/ibpm.cpp:writeRestartDataHDF5, readRestartDataHDF5 (338-384)", "applications/decoupledibpm/decoupledibpm.cpp:writeRestartDataHDF5, readRestartDataHDF5 (319-382)", "applications/rigidkinematics/rigidkinematics.cpp:ioInitialData, moveBodies"]}
{"id": "C61", "title": "The systems of a time step have exactly one solution", "statement": "For a solver set up with a positive time step and a non-negative implicit diffusion coefficient, the momentum equations have exactly one solution for every right-hand side, and every entry of it is at most the time step times the largest entry of the right-hand side, whatever the viscosity, the grid spacing and the boundary conditions. With a pinned pressure the Poisson equation also has exactly one solution for every right-hand side; without, it has a solution exactly when the right-hand side sums to zero, and then the solutions differ by constants. (Poisson: one-term approximation of the inverse, no Neumann condition on a velocity normal to its boundary.)", "quantifier": "every mesh, decomposition, boundary condition, viscosity, time step, right-hand side", "why_tests_cant": "A singular or ill-posed system would show up only for some combination of spacing, boundary types and coefficients; existence and uniqueness of the solution for every right-hand side is a statement about the whole matrix.", "anchors": ["applications/navierstokes/navierstokes.cpp:createOperators, setNullSpace (317-429)", "src/operators/createlaplacian.cpp", "src/operators/createbn.cpp", "src/operators/creategradient.cpp", "src/operators/createdivergence.cpp"]}
{"id": "C62", "title": "The process grid and the linear solvers do not change a run", "statement": "Two runs of the Navier-Stokes solver from the same initial fields, on any two process grids of the same mesh and with any two pairs of linear solvers that return solutions of the systems they are given, hold after every number of steps the same time, velocity and explicit history at every point of the mesh, and the same pressure (up to a constant when no reference pressure is set), if nothing flows through the boundaries that are not periodic. On one process grid the solvers do not matter for open boundaries either. (One-term approximation of the inverse.)", "quantifier": "every mesh, pair of process grids, pair of exact solvers, initial guess, boundary values with zero normal velocity at walls, number of steps", "why_tests_cant": "A test compares two process grids on one problem and only up to the solver tolerance, so that a small dependence cannot be told from rounding; the statement is about all grids and all numbers of steps.", "anchors": ["applications/navierstokes/navierstokes.cpp:init, advance (93-266), assembleRHSVelocity, assembleRHSPoisson", "src/operators/createconvection.cpp", "src/mesh/cartesianmesh.cpp:initDMDA", "src/boundary/boundarysimple.cpp"]}
{"id": "C63", "title": "Approximate linear solves are seen only as their residuals", "statement": "Whatever the linear solvers return, the net flux out of every cell after a step is exactly the residual of the Poisson solve in that cell (with a pinned pressure: in every other cell the residual, corrected by the entry of the pinned equation, and the pinned cell carries what the others leave of the net inflow), and the momentum equation is off by exactly the residual of the momentum solve plus the usual splitting term. For the immersed-boundary solvers the slip at every Lagrangian point is the residual of the corresponding row (coupled: Poisson solve; decoupled and moving: forces solve, before the projection).", "quantifier": "every mesh, decomposition, boundary condition, state after any number of steps, and every function as linear solver", "why_tests_cant": "Iterative solvers never return exact solutions, so every run a test can make violates the exact statements by an unknown amount; that the violation is the residual and nothing else is an identity between whole vectors for all of them.", "anchors": ["applications/navierstokes/navierstokes.cpp:advance, assembleRHSPoisson, solvePoisson, applyDivergence, projectionStep (240-266,470-636)", "applications/ibpm/ibpm.cpp:assembleRHSPoisson", "applications/decoupledibpm/decoupledibpm.cpp:advance, assembleRHSForces"]}
{"id": "C64", "title": "A solve that does not converge stops the program and spoils no file", "statement": "When a linear solve of some time step reports divergence, the program ends with the error code of PETSc in that step, and the disk holds exactly what the run with that many fewer steps would have left: no file of the failed step, no partial update, and the complete record of every earlier step. When all solves converge the program completes. There is no third outcome for a run that was initialised. The same holds for the three immersed-boundary programs.", "quantifier": "every configuration, disk content, start step, number of steps and behaviour of the linear solvers (solution and reason as arbitrary functions of guess and right-hand side)", "why_tests_cant": "The failing step can be any step of any run, in any of the two or three solves; a test needs a configuration that diverges at a chosen step.", "anchors": ["src/linsolver/linsolverksp.cpp:solve (85-106)", "applications/navierstokes/navierstokes.cpp:advance, solveVelocity, solvePoisson", "applications/navierstokes/main.cpp", "applications/ibpm/main.cpp", "applications/decoupledibpm/decoupledibpm.cpp:advance, solveForces", "applications/rigidkinematics/rigidkinematics.cpp:advance"]}
{"id": "C65", "title": "A documented configuration is the simulation that runs", "statement": "For a configuration written as the manual describes, the Navier-Stokes program does not raise an error of its own: it runs exactly the simulation the configuration describes (mesh, boundary conditions, initial fields, viscosity, time step, weights of the documented schemes, linear solvers, intervals, output directory, probes), with the documented default for every optional entry that is absent; the settings of the command line select the configuration; and a run resumed by raising startStep and lowering nt in the configuration ends with the fields of the uninterrupted run. A missing solver section, a missing scheme, an implicit convection scheme and an unknown probe viewer behave differently from the manual, as stated by separate theorems.", "quantifier": "every configuration tree described by the manual, number of dimensions, process grid, number of steps, disk content", "why_tests_cant": "The space of configurations is infinite, every entry has its own default and order of reading, and a wrong default or a swapped key shows only for the configurations that leave that entry out or use both keys with different values.", "anchors": ["applications/navierstokes/main.cpp", "applications/navierstokes/navierstokes.cpp:init, createOperators (38-135,317-400)", "src/timeintegration/timeintegration.cpp:createTimeIntegration", "src/linsolver/linsolver.cpp:createLinSolver", "src/misc/probes.cpp:ProbeBase::init, ProbeVolume::init, ProbePoint::init", "src/parser/parser.cpp", "doc/markdowns/inputs.md"]}
{"id": "C66", "title": "A documented configuration with bodies is the immersed-boundary simulation that runs", "statement": "For a configuration written as the manual describes, with a section bodies whose files hold the documented points, the coupled, the decoupled and the oscillating-cylinder program run exactly the simulation described: as for the Navier-Stokes program, plus the points of every body, the kernel (documented default when absent), the solver of the forces and, for the oscillating cylinder, the motion given by f, D and KC. With every point (at every time of a step) inside the domain, at least as many points per body as processes and a documented kernel, a new run completes, and the forces file has one line per step with the time after the step and a number per body and direction. A run resumed by raising startStep and lowering nt produces the remaining lines of the forces file and the final state of the uninterrupted run. An unknown kernel is reported as an error. An unreadable body is not reported; separate theorems say so.", "quantifier": "every configuration tree described by the manual, body files, number of bodies and points, process grid, number of steps, disk content, linear solvers as functions", "why_tests_cant": "The statement composes reading files of any length, dealing any number of points to any number of processes and any number of steps; a test fixes one configuration and one process count.", "anchors": ["applications/ibpm/main.cpp", "applications/ibpm/ibpm.cpp:init (50-100), createOperators (118-200)", "applications/decoupledibpm/main.cpp", "applications/decoupledibpm/decoupledibpm.cpp:init", "examples/api_examples/oscillatingcylinder2dRe100_GPU/oscillatingcylinder.cpp", "applications/rigidkinematics/rigidkinematics.cpp", "src/body/bodypack.cpp:init", "src/body/singlebody.cpp", "src/body/singlebodypoints.cpp:readBody", "src/misc/delta.cpp:getKernel", "doc/markdowns/inputs.md"]}
{"id": "C67", "title": "A run can be resumed on another process grid, or with other solvers", "statement": "A run interrupted after k steps and resumed for j steps from its restart file, on any other process grid of the same mesh and with any other linear solvers that return solutions of the systems they are given, ends with the time, step, velocity and pressure (without a reference pressure: up to a constant) of the run of k + j steps that was not interrupted. This holds when the schemes keep one explicit term; with the second-order Adams-Bashforth convection scheme it does not, because the older term keeps its place in the distributed vector and not its point in the domain.", "quantifier": "every mesh, pair of process grids, pair of exact solvers, k and j, save and restart interval, earlier content of the disk, boundary values with zero normal velocity at walls", "why_tests_cant": "Restart tests are run on one process grid and compare up to the solver tolerance; the statement is about all pairs of grids, interruption points and run lengths, and its failure for two-level schemes changes the values only at the points whose place differs.", "anchors": ["applications/navierstokes/navierstokes.cpp:writeRestartDataHDF5, readRestartDataHDF5 (637-746), ioInitialData, advance", "src/solution/solutionsimple.cpp:read, write", "src/mesh/cartesianmesh.cpp:initDMDA"]}
{"id": "C68", "title": "The visualisation files show the simulation that was run", "statement": "After a run of the solver, petibm-vorticity and petibm-createxdmf on the same configuration file, each on any process grid, succeed. The XDMF file of every velocity component, of the pressure and of every vorticity component lists exactly the saved steps, once each and in order. A viewer that opens an entry finds every dataset with the size the file announces, and shows at every point of the field, and nowhere else, the coordinates of that point and the value the computation had there after that many steps; inside the domain the z vorticity shown is the circulation of that velocity per unit area. The grid file has the coordinates of every field and nothing else, and petibm-writemesh writes the same. A later run of the solver in the same directory removes the coordinates of the vorticity points, so that the vorticity cannot be shown until the vorticity utility is run again; a separate theorem says so.", "quantifier": "every documented configuration (2D and 3D), three process grids, start step that is a multiple of nsave, number of steps, earlier content of the disk, linear solvers as functions, viewed point", "why_tests_cant": "The files are written by three programs that agree only by convention on names, sizes, axis order and storage order; a swapped axis shows only for unequal sizes, and a test looks at one mesh and one entry.", "anchors": ["applications/createxdmf/main.cpp", "applications/vorticity/main.cpp:main, initVorticityMesh (61-181)", "applications/writemesh/main.cpp", "src/mesh/cartesianmesh.cpp:write (798-823)", "src/io/io.cpp:writeHDF5Vecs (169-203)", "applications/navierstokes/navierstokes.cpp:init, writeSolutionHDF5"]}
{"id": "C69", "title": "Probes record the run without disturbing it", "statement": "Attaching probes to a run of any of the four programs changes nothing else: the run with probes ends exactly when the run without them ends, in the same state and with the same solution, restart, log and force files. Afterwards each probe has left its file and no other file has changed. A volume probe's file begins with the gridlines that cross its box and the natural indices of its points, followed by one record per scheduled step (or the averages over groups of n_sum scheduled steps) with the time of that step and the values the field had then at those points; a point probe's file has one line per scheduled step with the time and the interpolated value. With a time step above one millionth no record of an HDF5 file is lost. The probes are those of the configuration file. Three exceptions are separate theorems: pressure probes of the coupled solver on several ranks record forces, records less than a millionth apart overwrite each other, and a resumed run discards the records of the run it resumes.", "quantifier": "every mesh, process grid, list of probes with distinct files, schedule, averaging, file format, number of steps, start or resumption, linear solvers as functions, earlier content of the disk", "why_tests_cant": "Whether probes disturb a run, and whether every scheduled record is in the file, depends on all combinations of schedule, averaging, box, process grid and step count; tests look at one probe and one grid, and on one rank the wrong pressure values cannot appear.", "anchors": ["src/misc/probes.cpp", "include/petibm/probes.h", "applications/navierstokes/navierstokes.cpp:monitorProbes (839-856), write, init", "applications/ibpm/ibpm.cpp:createVectors (205-240)", "applications/decoupledibpm/decoupledibpm.cpp:write", "applications/rigidkinematics/rigidkinematics.cpp:write"]}
{"id": "C70", "title": "A flow that nothing drives loses energy", "statement": "With every boundary at rest (zero boundary values, periodic or not, no normal Neumann condition, no convective outlet) and exact linear solves: the viscous term never adds kinetic energy to any velocity and the pressure does no work on a velocity without divergence. In every step of every run the kinetic energy plus that of the velocity dt grad p changes by exactly minus the kinetic energy of the change of velocity plus dt times the powers of the viscous and explicit terms. With implicit diffusion and no explicit terms it never increases, whatever the time step, mesh, process grid and initial velocity, which need not be divergence-free. The same holds for the coupled immersed-boundary solver with bodies at rest, which do no work either: there the kinetic energy never exceeds that of the initial velocity.", "quantifier": "every mesh, process grid, boundary conditions at rest, initial fields, time step, viscosity, number of steps, exact solvers, bodies and kernels", "why_tests_cant": "Stability for every time step and every initial velocity is an inequality over an infinite set of runs; a test shows one run that does not blow up. It holds only if gradient, divergence, spreading and interpolation are adjoint in the same weights, which no test of a single operator shows.", "anchors": ["applications/navierstokes/navierstokes.cpp:createOperators, advance, assembleRHSVelocity, assembleRHSPoisson", "applications/ibpm/ibpm.cpp:createOperators, assembleRHSPoisson", "src/operators/createlaplacian.cpp", "src/operators/creategradient.cpp", "src/operators/createdivergence.cpp", "src/operators/creatediagmatrix.cpp", "src/operators/createdelta.cpp"]}
{"id": "C71", "title": "The programs lose no object and use none that was freed", "statement": "In every run of any of the four solvers (initialisation, any number of time steps with any outputs, destroy) no PETSc object is used before it is created or after it is freed, every object that is alive between two steps can still be got at, the members of the solver hold objects of the classes they held after the initialisation (only an accumulating probe adds one vector), each linear solver refers to its current operator only, and after destroy no object is alive. A second destroy, as by the destructor after an explicit call, does nothing, except in the coupled solver, where it fails. Destroying a solver that was never initialised, or whose initialisation stopped early (a configuration file that cannot be read), is undefined behaviour. Of the three functions that build the approximate inverse of the implicit operator two free what they allocate and one, given a mass matrix, loses a vector on each call.", "quantifier": "the four solvers, every dimension, number of explicit terms, bodies, probes and inverse terms, kind of linear solver, sequence of steps and outputs", "why_tests_cant": "A leak or a use after free on one path shows in no result; a test with a leak checker covers one configuration and one sequence of outputs, and whether a matrix keeps the ones it was computed from depends on the release of PETSc.", "anchors": ["applications/navierstokes/navierstokes.cpp:~NavierStokesSolver, destroy, init, advance, write", "applications/ibpm/ibpm.cpp:destroy (37-52), createOperators, createVectors", "applications/decoupledibpm/decoupledibpm.cpp:destroy, init", "applications/rigidkinematics/rigidkinematics.cpp:destroy, moveBodies", "src/operators/createbn.cpp", "src/linsolver/linsolverksp.cpp:setMatrix, destroy", "src/misc/probes.cpp:destroy", "src/mesh/mesh.cpp:destroy", "applications/navierstokes/main.cpp"]}
{"id": "C72", "title": "Convection moves kinetic energy but creates none", "statement": "On a uniform mesh whose boundaries nothing flows through, the discrete convection of a velocity without divergence does no work: the sum over the velocity points of velocity times convection times volume is zero. It holds after every step of every run with boundaries at rest, so with explicit Euler convection the stored energy grows in one step by at most dt squared times the kinetic energy of the convection. On stretched meshes it fails: a velocity without divergence exists that convection feeds energy into.", "quantifier": "all uniform meshes and partitions, all velocities without divergence, all tangential boundary velocities, all numbers of steps", "why_tests_cant": "A conservation law of a nonlinear operator holds by cancellation between all pairs of neighbouring points and must hold for every velocity; a test compares a few velocities to a tolerance and a slightly wrong average passes it for most.", "anchors": ["src/operators/createconvection.cpp:ConvectionMult2D, ConvectionMult3D, kernel", "applications/navierstokes/navierstokes.cpp:assembleRHSVelocity (437-505)", "applications/navierstokes/navierstokes.cpp:advance"]}
{"id": "C73", "title": "Total momentum changes only by the forces that the run records", "statement": "In a box with periodic boundaries, any number of time steps leaves the total momentum of the flow in each direction as it was, whatever the mesh, the time schemes, the order of the approximate inverse and the pressure solver. With immersed bodies a step of the coupled solver adds dt times the total force spread on the fluid. On a uniform mesh a complete run of the coupled, the decoupled or the moving-body program ends with the initial momentum minus dt times the sum of all forces on all bodies in all lines of its forces file.", "quantifier": "all periodic meshes and partitions, all initial fields, all schemes, all numbers of steps and bodies, all prescribed motions that stay a kernel radius from the boundary", "why_tests_cant": "The balance couples every operator of a step and accumulates over a run: a term that loses a little momentum, or a force recorded with a wrong factor or one step late, is below the tolerances of a test and different for every flow.", "anchors": ["src/operators/createconvection.cpp:ConvectionMult2D, ConvectionMult3D", "src/operators/createlaplacian.cpp:createLaplacian", "src/operators/creategradient.cpp:createGradient", "applications/navierstokes/navierstokes.cpp:advance, assembleRHSVelocity", "applications/ibpm/ibpm.cpp:advance, writeForcesASCII", "applications/decoupledibpm/decoupledibpm.cpp:advance, writeForcesASCII", "src/body/singlebodypoints.cpp:calculateAvgForces"]}
{"id": "C74", "title": "A run that starts from a steady flow stays there", "statement": "If the initial velocity and pressure satisfy the discrete steady equations (boundary conditions included, convection zero, viscous force equal to the pressure gradient, no net flux out of any cell), then after any number of time steps with any of the offered time schemes the velocity is unchanged and the pressure has changed by a constant at most, and by nothing if the solver pins it. In particular a uniform stream that the boundaries let through is kept, with convective outflow too, and so is the linear profile between two sliding walls, on stretched meshes as well.", "quantifier": "all meshes, partitions, viscosities, time steps, schemes whose diffusion weights sum to one, boundary types and values, steady flows and numbers of steps", "why_tests_cant": "A wrong ghost coefficient at one kind of boundary, a scheme weight that is off, or a lost boundary correction moves the flow away slowly; a test looks at one case for a few steps within a tolerance.", "anchors": ["applications/navierstokes/navierstokes.cpp:advance, assembleRHSVelocity, assembleRHSPoisson", "src/boundary/singleboundarydirichlet.cpp:updateEqsKernel", "src/boundary/singleboundaryneumann.cpp:updateEqsKernel", "src/boundary/singleboundaryconvective.cpp:updateEqsKernel", "src/operators/createlaplacian.cpp:createLaplacian", "src/operators/createdivergence.cpp:createDivergence", "src/operators/createconvection.cpp:ConvectionMult2D, ConvectionMult3D", "src/timeintegration/timeintegration.cpp:createTimeIntegration"]}
{"id": "C75", "title": "A solver written with the library as the API example shows agrees with petibm-navierstokes", "statement": "The program of examples/api_examples/liddrivencavity2d, on any documented configuration and whatever the linear solvers return, completes and writes a solution file; its velocity and pressure are entry by entry those of petibm-navierstokes on the same configuration with explicit Euler convection, implicit Euler diffusion, the time step and viscosity fixed in its source, and the same number of steps. (Its README says that the file holds the fields after 2000 steps and ships a configuration for it; both are refuted: it takes 2001 steps, and the configuration lacks an entry without which the program stops.)", "quantifier": "all documented configurations (mesh, boundary conditions, initial fields, solvers), all partitions, all results of the linear solvers", "why_tests_cant": "The example and the application assemble the same step from different calls in a different order; agreement has to hold for every mesh, boundary type and history of ghost values, and a test of the example checks one cavity.", "anchors": ["examples/api_examples/liddrivencavity2d/main.cpp:main", "examples/api_examples/liddrivencavity2d/README.md", "examples/api_examples/liddrivencavity2d/config.yaml", "applications/navierstokes/navierstokes.cpp:advance, createOperators", "src/solution/solutionsimple.cpp:setInitialConditions"]}
{"id": "C76", "title": "A three-dimensional run of a plane flow repeats the two-dimensional run", "statement": "Take any 2D case and the same grid extruded in the third direction with any cell widths there, periodic or between planes of symmetry, with the same conditions on the other boundaries, and start the solver on both from the same plane flow. After any number of steps the 3D run holds, in every plane, the velocity of the 2D run and (up to a constant) its pressure, and no velocity across the planes.", "quantifier": "all 2D grids (stretched or not), all extrusions, boundary types and values (open boundaries on process grids that do not cut the planes, see C23), schemes, initial plane flows, process grids, numbers of steps, exact linear solvers, pressure pinned or not", "why_tests_cant": "The two runs use different branches of almost every routine (dimension 2 and 3), different sizes and different linear systems; that they agree is a statement about every pair of grids and every number of steps, and the repository has no test that runs both.", "anchors": ["applications/navierstokes/navierstokes.cpp:advance", "src/mesh/cartesianmesh.cpp:createPressureMesh, createVelocityMesh", "src/boundary/singleboundarybase.cpp, singleboundaryconvective.cpp, singleboundaryneumann.cpp", "src/operators/createconvection.cpp", "src/operators/createdivergence.cpp, creategradient.cpp, createlaplacian.cpp"]}
{"id": "C77", "title": "Runs do not depend on the choice of axes and units; symmetric flows stay symmetric", "statement": "Describe a case in other axes (directions exchanged or reversed) and other units of length and velocity, with the time step, viscosity and boundary values converted accordingly. The solver's results after any number of steps are the converted ones: in particular two cases with the same Reynolds number give the same flow up to the units, a rotated case gives the rotated flow, and a flow that is symmetric about the middle of the domain in a symmetric case stays exactly symmetric, pressure included.", "quantifier": "all grids in 2D and 3D, all exchanges and reversals of directions (not of periodic ones), all units, boundary types and values (open boundaries on one process), schemes, initial flows, numbers of steps, exact linear solvers", "why_tests_cant": "Every routine treats the directions and the two ends of each direction in separate branches; a wrong sign or index in one of them shows only in a case that is not symmetric, and no finite set of cases covers all meshes, conditions and histories.", "anchors": ["applications/navierstokes/navierstokes.cpp:advance", "src/mesh/cartesianmesh.cpp", "src/boundary/singleboundarybase.cpp, singleboundaryconvective.cpp, singleboundaryneumann.cpp, singleboundarydirichlet.cpp", "src/operators/createconvection.cpp", "src/operators/createdivergence.cpp, creategradient.cpp, createlaplacian.cpp, createbnhead.cpp"]}
{"id": "C78", "title": "Immersed-boundary runs do not depend on the linear solvers", "statement": "Start an immersed-boundary solver twice from the same configuration, with different linear solvers that all return solutions of the systems they are given (the systems of the pressure and of the forces may be singular, so the solutions may differ). After any number of steps both runs hold the same time, velocity and explicit terms; the decoupled solvers the same pressure (up to a constant if it is not pinned) and the same force field on the fluid, hence the same total force in the forces file. If no two points of the bodies share the reach of the delta function the single forces agree too. (That the forces on each body are always determined is refuted: for two bodies at the same place the lines of the forces file differ.)", "quantifier": "all meshes, partitions, boundary conditions, schemes (first-order approximate inverse), bodies, motions, initial fields, numbers of steps, and all pairs of families of solutions", "why_tests_cant": "The solution of a singular system is whatever the chosen Krylov method returns; a test sees one method. That the flow does not depend on it rests on the null spaces of the operators of every mesh and every set of bodies.", "anchors": ["applications/ibpm/ibpm.cpp:createOperators, assembleRHSPoisson, applyDivergenceFreeVelocity", "applications/decoupledibpm/decoupledibpm.cpp:advance, createExtraOperators, solveForces", "applications/decoupledibpm/rigidkinematics.cpp:advance, moveBodies", "applications/navierstokes/navierstokes.cpp:solveVelocity, solvePoisson, setNullSpace"]}
{"id": "C79", "title": "Immersed-boundary runs do not depend on the process grid", "statement": "Start an immersed-boundary solver twice from the same data on two process grids (and with two distributions of the points of the bodies over the ranks), with linear solvers that return solutions of their systems, on a mesh whose cells around the bodies are equal in each direction, with no flow through the boundaries. After any number of steps both runs hold the same time, velocity and explicit terms at every point of the mesh; the decoupled solvers the same pressure (up to a constant if it is not pinned) and the same force field on the fluid, hence the same total force in the forces file. If the forces are determined (points far apart), every point has the same force and the lines of the forces file are the same; moving bodies are at the same places.", "quantifier": "all meshes uniform around the bodies, pairs of process grids, distributions of the points, boundary conditions without flow through the boundaries, schemes (first-order approximate inverse), bodies, motions given by the time, initial fields, numbers of steps, and all pairs of families of solutions", "why_tests_cant": "A test runs on the ranks of one machine. The numbering of the velocity, of the pressure and of the forces, their interleaving in the coupled system, the pinned row and the sum over the ranks all depend on the grid, and the systems may be singular.", "anchors": ["applications/ibpm/ibpm.cpp:createOperators, assembleRHSPoisson, applyDivergenceFreeVelocity", "applications/decoupledibpm/decoupledibpm.cpp:advance, createExtraOperators, solveForces", "applications/decoupledibpm/rigidkinematics.cpp:advance, moveBodies", "src/operators/createdelta.cpp:createDelta", "src/body/bodypack.cpp:getPackedGlobalIndex", "src/body/singlebodypoints.cpp:calculateAvgForces"]}
{"id": "C80", "title": "Bodies on stretched meshes", "statement": "Equal cells are needed only around the bodies: the statements on interpolation, spreading, no-slip, forces and independence of solvers and process grid hold on any stretched mesh whose cells within the window of the kernel around the bodies are equal in each direction, and runs are set up and go on for any number of steps on any mesh. On any mesh without periodic directions, whatever the cells, the entry of the delta operator between a point and a grid point of the same component whose indices are within the window of the cell of the point is the product of the kernel at their distance, with the widths stored at the cell of the first point of that body on the process that holds the point; all other entries are 0. (Hence the claim one would expect, that the operator does not depend on how the points are dealt to the processes, is false of the code where cells differ around a body.)", "quantifier": "all meshes, distributions of the points of the bodies over the processes, kernels, points and grid points", "why_tests_cant": "A test compares one mesh and one process count; the width is taken from the first local point, so the error appears only for bodies across cells of different size, and only as a small change of the numbers with the number of processes.", "anchors": ["src/operators/createdelta.cpp:createDelta (lines 68-78), getEulerianNeighbors", "src/misc/delta.cpp", "applications/ibpm/ibpm.cpp:createOperators", "applications/decoupledibpm/decoupledibpm.cpp:createExtraOperators"]}
{"id": "C81", "title": "Immersed-boundary runs can be resumed elsewhere", "statement": "An immersed-boundary run that is stopped after k steps and resumed from its files for j steps, with other linear solvers and on another process grid, completes and ends with the flow of the uninterrupted run of k + j steps: the same time, step, velocity and pressure gradient (coupled solver: pressure gradient less spread forces), and for the decoupled solver, with fixed or moving bodies and no two unknown forces that act alike, the same force at every point, the same positions, and the lines that the forces file of run 1 lacks. Conditions: cells of equal size around the bodies, no flow through the boundaries, first-order time integration or the same grid, solvers that solve the systems given, and unknown forces that have the same places in the distributed vectors of both grids, which holds with a single body whatever the grids, and with any bodies whose points are dealt alike to the processes. (Without the last condition the claim is false of the code: the resumed run starts with the forces of some points at others.)", "quantifier": "all meshes uniform around the bodies, pairs of process grids, distributions of the points, linear solvers, k, j, initial flows, disk contents and monitors", "why_tests_cant": "A test compares two process counts at one checkpoint and, with iterative solvers, only to a tolerance; misplaced forces are corrected by the next force solve up to the splitting error, so that they look like noise.", "anchors": ["applications/decoupledibpm/decoupledibpm.cpp:writeRestartDataHDF5, readRestartDataHDF5", "applications/ibpm/ibpm.cpp:writeRestartDataHDF5, readRestartDataHDF5", "applications/navierstokes/navierstokes.cpp:ioInitialData", "src/body/bodypack.cpp:createDmPack"]}
{"id": "C82", "title": "The spatial operators are second-order accurate", "statement": "Sample smooth velocity and pressure fields at the points of the mesh. Away from walls, the assembled operators with their boundary corrections then give the derivatives of those fields up to errors that shrink with the square of the cell widths, with explicit constants: the divergence (per cell size) within the sum of M w^2/24 on every mesh; the gradient between cells of widths a and b within |q''||b-a|/4 + M(a^2-ab+b^2)/24, at every face, hence M h^2/24 between equal cells; and, where neighbouring cells have equal widths, the Laplacian within the sum of M h^2/12 and the convective term within a constant times H^2 of the divergence of the products of the velocities. M bounds the third (fourth for the Laplacian) derivatives near the point only. In the row of points next to a Dirichlet wall parallel to the component the Laplacian has no such accuracy: its error there does not shrink with the cells.", "quantifier": "all meshes, process grids, boundary conditions and histories of boundary updates, smooth fields (periodic where the mesh is), points and cells", "why_tests_cant": "A convergence study observes a slope on a few meshes for one manufactured solution, with norms that hide single rows; a wrong coefficient that cancels for the chosen solution, or an O(1) error in the wall rows, stays unseen.", "anchors": ["src/operators/createlaplacian.cpp:createLaplacian", "src/operators/createdivergence.cpp:createDivergence", "src/operators/creategradient.cpp:createGradient", "src/operators/createconvection.cpp:ConvectionMult2D, ConvectionMult3D", "src/mesh/cartesianmesh.cpp:createPressureMesh, createVertexMesh, createVelocityMesh"]}
{"id": "C83", "title": "A crash of an immersed-boundary run costs at most the steps after the last complete restart step", "statement": "Whatever moment a run of the coupled, the decoupled or the moving-body program is killed at, the files of the steps whose write() had finished hold exactly what they hold after an uninterrupted run. Restarting from any such restart step and making the remaining steps succeeds, ends with the velocity, pressure, forces, body positions and time-stepping history of the uninterrupted run, and its forces file has the lines the uninterrupted run writes from there on. A file in which the forces (written last) are missing, as a kill just before they are written leaves it, is refused instead of being continued with invented forces.", "quantifier": "all meshes, process grids, bodies (fixed or with prescribed motion), solvers whose result depends on their input only, output settings, earlier disk contents and crash points; a file open at the crash may hold anything", "why_tests_cant": "A test kills a run at one chosen moment; the property is about every prefix of the sequence of file operations and every content of the files that were open.", "anchors": ["applications/ibpm/main.cpp:main", "applications/ibpm/ibpm.cpp:write, writeRestartDataHDF5, readRestartDataHDF5", "applications/decoupledibpm/decoupledibpm.cpp:writeRestartDataHDF5, readRestartDataHDF5, write", "applications/rigidkinematics/rigidkinematics.cpp:write", "applications/navierstokes/navierstokes.cpp:write"]}
{"id": "C84", "title": "Each linear solver takes its settings from its own options file", "statement": "A setting in the file given for a linear solver (velocity, Poisson, forces) with that solver's prefix is the setting the solver uses; the last line wins. If every file has options of its own solver only, the settings of each solver are those of its file, then those of the command line, then the defaults (conjugate gradients), whatever the other files contain; the three prefixes can never be confused, and a file of a solver created later never influences an earlier one. Not provided: an option of the command line does not override the file, the file replaces it.", "quantifier": "all options files, command lines and option names, for the Navier-Stokes, coupled, decoupled and moving-body programs", "why_tests_cant": "A test runs one set of files; the claim is about every combination of options in several files that all end in one global database, in the order of creation of the solvers.", "anchors": ["src/linsolver/linsolverksp.cpp:LinSolverKSP::init", "src/linsolver/linsolver.cpp:createLinSolver", "applications/navierstokes/navierstokes.cpp:init", "applications/decoupledibpm/decoupledibpm.cpp:init"]}
{"id": "C85", "title": "The simulation time in double precision", "statement": "The time after n steps, computed by adding dt n times in double precision, is a finite number within n*2^-52*(|t0|+n*|dt|) of t0+n*dt, and it increases at every step until it reaches 2^51 time steps. A run that is stopped and continued has the times of the uninterrupted run bit for bit, and its probes record the same steps. A probe records every step of its stride whose exact time lies inside [t_start, t_end] by more than that bound, and none that lies outside by more. Not provided: the step at the end of the window; with dt = 0.1 and t_start = 1.0 the tenth step is not recorded.", "quantifier": "all double-precision starting times and time steps, all numbers of steps up to 2^51, all windows and strides of probes", "why_tests_cant": "Rounding errors depend on every bit of t0 and dt and add up over the whole run; a test sees one pair and one length.", "anchors": ["applications/navierstokes/navierstokes.cpp:advance", "applications/decoupledibpm/decoupledibpm.cpp:advance", "src/misc/probes.cpp:ProbeBase::monitor"]}
{"id": "C86", "title": "The mesh vertices in double precision", "statement": "The coordinate of vertex k, computed in double precision by partial sums of the cell widths and a shift by the lower end of the domain, is within k*2^-52*(|min|+length) of the exact sum; for a uniform sub-domain it is within (k+2)*2^-52*(|start|+k*h) of start+k*h. Neighbouring vertices are in strictly increasing order if the cell between them is wider than 3*2^-52 of the distance, and the pressure point of a cell lies strictly between its two vertices if it is wider than 16*2^-52 of it. Not provided: that the last vertex is the configured end of the domain; for ten cells from 0 to 1 it is smaller than 1.", "quantifier": "all double-precision ends and cell widths, all numbers of cells up to 2^50", "why_tests_cant": "A test looks at one mesh; the errors of the sums depend on all widths and their order.", "anchors": ["src/mesh/cartesianmesh.cpp:CartesianMesh::createVertexMesh", "src/mesh/cartesianmesh.cpp:CartesianMesh::createPressureMesh", "src/parser/parser.cpp:parseOneSubDomain"]}
{"id": "C87", "title": "The iterations file", "statement": "The file iterations-<nstart>.txt has one line for each completed time step, numbered nstart+1, nstart+2, ..., and each line tells the iterations and residuals of the solves made in that step: velocity, Poisson and, for the decoupled solvers, forces. If a run ends there is a line for every configured step; if a step returns an error the lines are those of the steps before it. If the Poisson solver reports the norm of its residual and the pressure is not pinned, the reported number is the root of the sum of the squared net fluxes out of all the cells after that step (for the coupled solver together with the squared interpolated velocities at the body points), so no cell has a larger net flux. If the forces solver of the decoupled solvers reports the norm of its residual, that number bounds what the velocity sampled at every body point, before the pressure correction, differs from the velocity of the body there.", "quantifier": "all meshes, process grids, boundary conditions, bodies, solvers (converging or not), numbers of steps and starting steps", "why_tests_cant": "The residual of an iterative solve differs at every step of every run, and a test cannot compare the printed number with the divergence of the flow for all flows.", "anchors": ["applications/navierstokes/navierstokes.cpp:NavierStokesSolver::writeLinSolversInfo", "applications/decoupledibpm/decoupledibpm.cpp:DecoupledIBPMSolver::writeLinSolversInfo", "src/linsolver/linsolverksp.cpp:LinSolverKSP::getIters", "src/linsolver/linsolverksp.cpp:LinSolverKSP::getResidual"]}
{"id": "C88", "title": "Saved results of the immersed-boundary programs", "statement": "After a run of petibm-ibpm, petibm-decoupledibpm or the moving-body program (a new run or a restarted one), the file of the first step and of every saved step holds the velocity, the pressure (for petibm-ibpm without the forces it is solved with) and the time of the state after that many steps, whether or not the step was also a restart step. petibm-vorticity, on any process grid, and petibm-createxdmf run with the same configuration then succeed, and a viewer lists every saved step once, in order, and shows for it the coordinates of every point with the velocity component or pressure computed there, and the vorticity, whose z component inside the domain is the circulation of that velocity per unit area.", "quantifier": "all meshes, process grids (also another one for the utilities), boundary conditions, bodies, motions, solvers, starting steps, numbers of steps, saving and restart frequencies", "why_tests_cant": "The programs write the same files through overridden functions, in combinations of new, saved and restart steps and of process grids that a test run covers only in part.", "anchors": ["applications/ibpm/ibpm.cpp:IBPMSolver::writeSolutionHDF5", "applications/ibpm/ibpm.cpp:IBPMSolver::writeRestartDataHDF5", "applications/decoupledibpm/decoupledibpm.cpp:DecoupledIBPMSolver::writeRestartDataHDF5", "applications/navierstokes/navierstokes.cpp:NavierStokesSolver::write", "applications/vorticity/main.cpp", "applications/createxdmf/main.cpp"]}
{"id": "C89", "title": "Numbers in the text files", "statement": "Every line of a forces file, of a point probe file and of the iterations file is a row of decimal numbers separated by tabulators that has exactly one reading: the time and the force components in order, or the time and the value, agree with the computed numbers to nine decimal digits (half a unit of the last), with their sign; the step and iteration numbers are exact and the residuals agree to seven digits. A body that is written and read again with the count in front has the same points to nine digits. The times of a run that starts at 0 stay strictly increasing in the file for the first hundred million steps, though not beyond.", "quantifier": "all real numbers, all lines, any number of bodies and solvers, all time steps; every printf that follows ISO C", "why_tests_cant": "The set of numbers is unbounded; a missing separator, digit or column shows only for particular values.", "anchors": ["applications/ibpm/ibpm.cpp:IBPMSolver::writeForcesASCII", "applications/decoupledibpm/decoupledibpm.cpp:DecoupledIBPMSolver::writeForcesASCII", "applications/decoupledibpm/decoupledibpm.cpp:DecoupledIBPMSolver::writeLinSolversInfo", "applications/navierstokes/navierstokes.cpp:NavierStokesSolver::writeLinSolversInfo", "src/misc/probes.cpp:ProbePoint::monitorVec", "src/body/singlebodypoints.cpp:SingleBodyPoints::writeBody"]}
{"id": "C90", "title": "Settings of the GPU solvers", "statement": "A linear solver of type GPU that has a configuration file reads that file on every process and no file is changed or removed, for every interleaving of the processes. Without a configuration file every process gets empty settings (the defaults), the temporary file is gone afterwards and no other file is touched, for every interleaving, provided the AmgX wrapper lets no process continue before all have read the file; without that, only on one process: on two or more, a process may find the file already removed by another. The processes never wait for ever.", "quantifier": "all configurations, numbers of processes, contents of the file system and interleavings of the processes", "why_tests_cant": "The order in which processes create, read and remove the file cannot be controlled by a test, and the failing orders are rare.", "anchors": ["src/linsolver/linsolveramgx.cpp:LinSolverAmgX::init", "src/linsolver/linsolver.cpp:createLinSolver"]}
{"id": "C91", "title": "Directories of a run", "statement": "The settings function makes the output and the logs directory from every process at once. Whatever the number of processes and the order of their calls, all return the same, the directories on disk are the same, what existed before is unchanged and nothing else is made. The two directories exist afterwards if the first lies in a directory, the second in that one or in a directory, the user may write there and no file has their names. A file with such a name is taken for the directory without an error.", "quantifier": "all directory names, contents of the file system, permissions, numbers of processes and interleavings of their calls", "why_tests_cant": "Which process comes first differs from run to run and cannot be controlled by a test.", "anchors": ["src/parser/parser.cpp:getSettings", "src/parser/parser.cpp:createDirectory"]}
{"id": "C92", "title": "Files of the probes on several processes", "statement": "Every process empties the file of a point probe when it starts, and one of them writes to it; the file still ends with exactly one line per scheduled step, in order, for every interleaving that the barriers of the program allow, and no other file is touched. The file of a volume probe ends with the sub-mesh, the index set and the records of all steps in order. With the HDF5 format every process that opens the file finds the sub-mesh in it, provided that opening a file together waits for all processes; the code itself has no barrier there, and without one a process may open what an earlier run left or a file that does not exist. No process waits for ever at a barrier.", "quantifier": "all meshes, process grids, probes, calls of the solver, contents of the disk and interleavings of the processes", "why_tests_cant": "The order in which the processes open, empty and write a file cannot be controlled by a test; wrong orders are rare.", "anchors": ["src/misc/probes.cpp:ProbePoint::init", "src/misc/probes.cpp:ProbePoint::monitorVec", "src/misc/probes.cpp:ProbeVolume::init", "src/misc/probes.cpp:ProbeVolume::writeGrid_HDF5", "src/misc/probes.cpp:ProbeVolume::writeGrid_ASCII", "src/boundary/boundarysimple.cpp:BoundarySimple::updateGhostValues"]}
{"id": "C93", "title": "Delta kernels in double precision", "statement": "Computed in double precision, operation by operation, each delta kernel of the configuration gives a finite number, never NaN, within 2^-41 / (cell width) of its exact value; it is exactly zero at its published radius and beyond and takes the same value on both sides of a point. It can be negative, by that little, just inside the radius, where the exact kernel is positive. The discrete delta function of a body point and a grid point is within (number of directions) * 2^-39 / (cell volume) of its exact value, and the weights along a line add up to 1 within 2^-41 per point plus the error of the distances.", "quantifier": "all double-precision coordinates up to 2^400 and cell widths between 2^-100 and 2^100 (2^500 and 2^-500 for one kernel), both kernels, one to three directions", "why_tests_cant": "There are far too many doubles to try; cancellation and roots of numbers that rounding makes negative hide between the tested ones.", "anchors": ["src/misc/delta.cpp:Roma_et_al_1999", "src/misc/delta.cpp:Peskin_2002", "src/misc/delta.cpp:getKernel", "src/misc/delta.cpp:delta"]}
{"id": "C94", "title": "Averages of a volume probe in double precision", "statement": "A volume probe that averages over n recorded steps writes one value per point for every full cycle of n values. Computed in double precision, it is a finite number within (n + 2) * 2^-52 * M of the exact average of the n values of that cycle, where M bounds them; values of other cycles have no influence. The average of values that are all the same need not be that value.", "quantifier": "all numbers of values per cycle up to 2^50, cycles and double-precision values up to 2^900", "why_tests_cant": "Rounding errors grow with the number of steps and depend on the values; a test sees a few of them.", "anchors": ["src/misc/probes.cpp:ProbeVolume::monitorVec"]}
