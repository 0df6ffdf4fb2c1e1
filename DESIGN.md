# Formal model of PetIBM in Rocq (Coq 8.16.1)

Source modelled: `/repo` (barbagroup/PetIBM at the pinned commit). Properties:
`properties.jsonl` (C01...). Status per property: `MANIFEST.json`.
Mutation log: `seeded/LOG.jsonl`.

## 1. Layout of `rocq/theories`

For each topic `X`:

* `XModel.v`  - executable model of the code, no proofs. Every definition cites
  the file and lines it models and says where it simplifies.
* `XSpec.v`   - (when needed) the small independent specification.
* `XProof.v`  - lemmas.
* `XProps.v`  - the property theorems only: each closed by `exact lemma`,
  followed by `Print Assumptions` and by an `Example` showing that a concrete
  non-trivial case meets the hypotheses.

`Prelude.v` holds the common vocabulary: the outcome type `res` (`Ok`, `Err`,
`UB`), integer ranges, checked array reads, finite sums.

## 2. Modelling conventions

* `PetscInt` is `Z` (no overflow: sizes are assumed to fit, see section 5).
* `PetscReal` is `R` of Coq's standard library: **exact real arithmetic**;
  floating-point rounding is not modelled. Integer-only parts use no reals.
* Undefined behaviour (out-of-bounds read/write, modulo by zero, null call) is
  the distinct outcome `UB`; a PETSc error code is `Err`.
* A C++ loop is a fold over an explicit integer range. `std::` algorithms
  (`partial_sum`, `adjacent_difference`, `upper_bound`, `lower_bound`, ...) are
  modelled by functions following the standard's definition.
* PETSc/MPI/HDF5/YAML/SymEngine behaviour enters only through explicit
  definitions (e.g. the default DMDA split, the DMComposite layout, INSERT/ADD
  matrix assembly) or through explicit hypotheses (exact linear solve); all are
  listed in section 5.

## 3. Each property: what is modelled, how it is proved

The theorem names are in `MANIFEST.json`; the properties themselves in
`properties.jsonl`. "Refuted" means: the first, natural statement of the
property is false of the code. The property was then restated with the
conditions under which it holds, and the counterexample is a theorem whose name
ends in `_refuted` (section 4 explains each one).

| id | what is modelled | how it is proved |
|----|------------------|------------------|
| C01 | `stretchGrid`, `parseOneSubDomain` over R; n = 0 is a distinct outcome | induction on n, geometric sum |
| C02 | `parseSubDomains`, `parseOneAxis`, `parseMesh` over an abstract YAML tree | induction over the list of sub-domains |
| C03 | `createPressureMesh/VertexMesh/VelocityMesh`; shifted pointers are list + offset | list induction, characterisation of `partial_sum`, `adjacent_difference` |
| C04 | the same, periodic branch | the same |
| C05 | `checkPeriodicBC` | case analysis on the whole table, both directions |
| C06, C07 | `getNaturalIndex`, ghosts included | integer arithmetic; C07: full characterisation of what ghost arguments give, corner claim refuted |
| C08 | `initDMDA`, `getGlobalIndex`, `getPackedGlobalIndex`; the layouts are lists | index = position in the concatenation of the rank blocks |
| C09 | `BodyPack`/`SingleBodyPoints` index functions | the same |
| C10 | `operator<` on MatStencil | case analysis |
| C11 | `getGhostPointList` and the boundary objects of every rank | list membership, uniqueness |
| C12, C13 | the four boundary classes as a state machine over update histories of any length | algebra, induction over histories |
| C14, C15 | `createLaplacian`, `LCorrectionMult` as a log of INSERT/ADD events, assembled | sum reduction to a stencil over the extended field; consequences for affine and quadratic fields, self-adjointness |
| C16, C17 | `createDivergence`, `DCorrectionMult`, normalised and not | the same, telescoping |
| C18, C19 | `createGradient` with `createDivergence`, `M`, `R` | entrywise transpose; connectivity of the grid by induction |
| C20 | `createBnHead`, both `createBn` | induction on the order |
| C21, C22, C55, C56 | `NavierStokesSolver::init/advance`; the linear solvers are parameters | matrix algebra from "the solver returned a solution"; totality by induction on the number of steps |
| C23-C25 | convection kernels on the ghosted local arrays of every rank | value theorem at every point, telescoping; decomposition claim refuted at cut walls |
| C26 | `creatediagmatrix.cpp` | algebra |
| C27 | Roma and Peskin kernels over R | real analysis |
| C28-C30 | `createDelta`, `getEulerianNeighbors` | support contained in the window, moments from C27 |
| C31-C35 | `ProbePoint`, `ProbeVolume`, interpolation, monitoring | state machines, induction over histories |
| C36 | time-integration table and factory | case analysis over all strings |
| C37-C40 | time loop, history rotation, writing and reading of restart data, disk as a map from paths to datasets, crash points | induction over steps, simulation |
| C41, C42 | file names, XDMF driver | injectivity of decimal notation, loop invariant |
| C43-C45, C58 | settings, string tables, factories, whole set-up | case analysis; composition of C02-C12 |
| C46-C48 | body files, host cells, integrated forces | induction over lines; permutation of sums |
| C49 | coupled and decoupled immersed-boundary solvers | as C21, with the nested layout of pressure and forces |
| C50 | rigid-kinematics solver, oscillating cylinder | induction over steps, derivatives in Reals |
| C51 | vorticity utility | value theorem, discrete Stokes theorem |
| C52, C53, C57 | solution and restart files in natural order, initial conditions | C08 |
| C54 | `doubleLoops`, `tripleLoops` | induction |
| C59 | forces file of the three immersed-boundary programs (whole runs) | loop invariant; C48 and C29 |
| C60 | restart of the three programs | simulation between the two runs |
| C61 | matrices of the momentum and Poisson systems | discrete maximum principle on the rows of the Laplacian; elimination (injective square systems are solvable); kernel of the pressure operator |
| C62 | two runs on two process grids / with two pairs of solvers | simulation: the numberings of two grids are bijections of the same points, operators correspond entry by entry, C61 gives equal solutions, convection agrees when nothing flows through the walls |
| C63 | one step with arbitrary functions as linear solvers | as C21 and C49 with the residual carried along |
| C64 | `LinSolverKSP::solve` and the four main loops with solves that can fail | induction over the loop, comparing it with the loop whose solves cannot fail |
| C65 | `NavierStokesSolver::init` from the YAML tree: time integration, linear-solver and probe factories, settings, main | reading lemmas per entry, then composition with the theorems on mesh, boundaries, initial conditions and the run |
| C66 | `ibpm`, `decoupledibpm` and `oscillatingcylinder` from the YAML tree and the body files: createBodyPack, getKernel, forces solver, kinematics, main | composition of C65's reading lemmas with C28 (files), C27 (dealing), C31 (kernel), C50-C60 (runs) |
| C67 | runs of `main` resumed on another process grid or with other solvers | the relation between states on two grids of C62, started from what the restart file holds; converse for two-level schemes |
| C68 | grid file, `createxdmf`, `vorticity`, `writemesh` and the solver on one disk, from one configuration file | a viewer as specification; the content of each file is followed through the three programs |
| C69 | the probes of a run with their memory and their files, in all four programs and from the configuration file | the loop of `main` with the probes is related to the loop without; the content of each file by induction over the calls |
| C70 | inner products weighted by the volume around each velocity point; the operators and steps of both solvers as for C21, C49 | the weighted Laplacian is symmetric with non-negative off-diagonal entries and non-positive row sums; (divergence, interpolation) is minus the weighted transpose of (gradient, -spreading); an identity for one step; a generalised inverse shows exact solvers exist |
| C71 | memory with reference counts; the operations on handles of every function of the four solvers, for any dimension, probes, bodies, outputs | counts equal references (invariant of every operation); each variable is followed through the program on its own; whole runs by induction over the steps |
| C72 | the convection operator and the runs of C44, C61, C70 | the work of one direction on one component is a sum of transported products, which telescopes; the rest is the divergence of the averaged transport; concrete rational computation for the stretched mesh |
| C73 | the runs of C21, C49, C50 with the forces files of C59 | the volume-weighted sum of a component is a linear functional that kills Laplacian, gradient and convection of a periodic box (telescoping sums, adjointness); induction on steps; the kernel sums of C29 turn the spread force into the recorded one |
| C74 | the runs of C44 with the ghost points of C22 and the operators of C24-C30 | invariant over steps: velocity, ghost values and pressure up to a constant; the momentum system of a step has the steady velocity as its only solution (C61), the Poisson right-hand side vanishes, so the increment is constant; uniform streams and linear profiles are shown to be steady |
| C75 | `main` of the API example (ApiModel.v) up to the destruction of the objects | its loop is matched step by step with `advance` for one explicit convection term and no explicit diffusion term; equality of the right-hand sides as functions; the shipped configuration is encoded as a YAML tree |
| C76 | the solver of C30–C40 on two meshes | SimProof.v: if a map of points carries Laplacian, gradient, divergence, convection and ghost values of one mesh to those of another, induction over the steps carries the runs (velocity by uniqueness of the implicit solve, pressure by the kernel of the Poisson matrix); SimPlane.v: the map to the plane |
| C77 | the same | SimFrame.v: the map of points of a permutation and reversal of axes with scaling; the mirror theorem compares a run with itself |
| C78 | the three solvers with bodies, two families of linear solvers | IndepProof.v: the matrices of the pressure and of the forces are normal matrices of the gradient and of the spreading operator (pinned or not), so two solutions move the velocity alike; induction over the steps (IndepRun.v); IndepCase.v: solvability in undriven runs, points far apart |
| C79 | the three solvers with bodies on two process grids | IbGridProof.v: the points of the bodies and the nested unknowns are numbered in two ways; IbGridRun.v: every operator has the same entries up to the numbering, exact solutions of the singular systems move the velocity alike (C78), induction over the steps; IbGridProps.v |
| C80 | createDelta on meshes that are not uniform | DeltaProof.v and DeltaSum.v use only the cells within the window of the points (`uniform_around`); StretchProof.v: the entries on any mesh, one row at a time; StretchProps.v: a stretched mesh, and one and two processes with different entries |
| C81 | restart files and start of the immersed-boundary programs, on two grids | IbResumeSpec.v: solvers exact along a resumed program, places of the forces; IbResumeProof.v, IbResumeMain.v: what is read on D2 is related to what D1 wrote, and the relation of C79 is kept by the steps; IbResumeTotal.v: resumed programs complete; IbResumeCase.v, IbResumeExamples.v: exact solvers, two bodies whose forces change places, the runs of the example |
| C82 | the operators of C14, C16, C18 and C24 on sampled smooth fields | AccuracySpec.v: places of the points, partial derivatives, sampled fields; Taylor.v: the one-dimensional remainder bounds; AccuracyMesh.v: places and widths around periodic directions; AccuracyProof.v: each stencil against the derivatives |
| C83 | the file operations of the programs of C59/C60 in order (IbCrashModel.v), crashes of DriverSpec.v (C40) | IbCrashProof.v: the run that stops after the restart step is a prefix of the run, its file survives the crash, and a restarted run depends on the disk through that file only; then C60 |
| C84 | LinSolverKSP::init on PETSc's options database, the order of creation of the solvers (OptModel.v) | OptSpec.v: last value, own options, defaults; OptProof.v: the database after each file |
| C85 | `t += dt` in double precision and the probes' window (FloatModel.v, Flocq's binary64) | FloatSpec.v: exact time and drift; FloatProof.v: relative errors of the additions, summed by induction |
| C86 | the vertices of one direction in double precision (FloatModel.v) | FloatSpec.v: exact lengths; FloatProof.v: the same induction over std::partial_sum |
| C87 | the steps with the reports the KSP objects keep, writeLinSolversInfo and the loop of main (IterModel.v) | IterSpec.v: the reports of the solves of one step; IterProof.v: induction over the loop; the fluxes by C63 |
| C88 | the mains of the immersed-boundary programs (IbOutModel.v), the vorticity utility (VortModel.v) and the XDMF utility (XdmfModel.v) | IbVisSpec.v: what a viewer shows of a run; IbVisProof.v: induction over the loop for any program with these file operations, then the three programs |
| C89 | the lines printed by writeForcesASCII, writeLinSolversInfo, ProbePoint::monitorVec and writeBody as text (FmtModel.v, BodyModel.v) | FmtSpec.v: what ISO C says about %e and %d, agreement to so many digits, rows of numbers; FmtProof.v: digits of integers, induction over the columns, readings are unique |
| C90 | LinSolverAmgX::init on every process with a shared file system (GpuModel.v), createLinSolver (ConfigModel.v) | transition system, one action of any process at a time; GpuProof.v: invariants over all interleavings, progress from the process that is furthest behind |
| C91 | createDirectory and the directories of getSettings on every process with a shared file system (DirModel.v) | transition system, one call of any process at a time; DirProof.v: every interleaving ends as one process alone |
| C92 | what each process does with the file of a probe between two barriers (ShareModel.v), with the lines its own probe object computes (ProbeModel.v) | transition system with barriers; ShareProof.v: invariant over all interleavings, the content is that of the processes taking turns; then the point and volume probes |
| C93 | both kernels and delta() in double precision, operation by operation (KernelModel.v, Flocq's binary64) | KernelProof.v: an error bound is carried through every operation, the kernels are Lipschitz, the exact kernels of C27 are the reference |
| C94 | the accumulation of ProbeVolume::monitorVec in double precision, per entry (AvgModel.v) | AvgProof.v: the cycles are independent (induction on the values), then the errors of the additions and of the scaling |

## 4. Findings

Behaviour of the code that contradicts what a user would expect. Each item with
a theorem name is machine-checked; the others were seen while modelling.

Index and mesh
1. `getNaturalIndex` wraps only the first out-of-range direction of a ghost
   point: corner ghosts get a wrong (possibly valid-looking) index
   (`natural_index_corner_refuted`, `natural_index_corner_image_refuted`).
2. `stretchGrid` with n = 0 is undefined behaviour; a sub-domain with 0 cells
   leaves a gap; a ratio with r^n = 1, r <> 1 divides by zero.
3. Periodic directions with very few points: the Laplacian (n <= 2) and the
   divergence/gradient (n = 1) insert the same column twice, and INSERT keeps
   only the last value. C14, C16, C18, C19 carry the hypothesis `periodic_min`
   (`laplacian_small_periodic_refuted`, `divergence_small_periodic_refuted`).
4. In 2D, `checkPeriodicBC` accepts u, v periodic in z (harmless).

Operators
5. The Laplacian is not exact on squares of a transverse coordinate on a
   stretched mesh (`laplacian_transverse_square_refuted`); A is symmetric only
   on uniform meshes although CG is the default solver.
6. Convection near a wall that is cut by a process boundary reads corner ghosts
   nobody set: the result depends on the decomposition
   (`conv_decomposition_refuted`); with one periodic and one non-periodic
   direction the free stream is not preserved (`conv_free_stream_refuted`).
7. The pinned Poisson matrix is indefinite: `MatZeroRowsColumns` writes +1 into
   a negative semi-definite matrix (`pinned_poisson_definite_refuted`).
8. `createDelta` reads `periodic` from the wrong table entry (bds[0][d]):
   `wall_read_as_periodic_refuted`; images across periodic boundaries are never
   taken (`periodic_images_refuted`); a rank without points reads `meshIdx[0]`
   out of bounds (`rank_without_points_refuted`).

Solvers
9. The first Adams-Bashforth step uses the weights 1.5, -0.5 with a zero
   history: they sum to 1.5. EULER_IMPLICIT and CRANK_NICOLSON convection
   silently drop the implicit part.
10. The coupled solver discards the configured initial pressure
    (`coupled_initial_pressure_refuted`).
11. The decoupled solver loses the no-slip condition in the pressure projection
    (`decoupled_no_slip_lost_refuted`).
12. In the coupled solver a pressure probe is given the (pressure, forces)
    vector.
13. `setVelocityBodies` of the oscillating cylinder fails with several bodies.

Input and output
14. `nsave`, `nrestart`, probe interval 0: modulo by zero
    (`save_every_zero_refuted`, `probe_never_refuted`).
15. A restart is not equivalent with a convective boundary
    (`restart_convective_refuted`); the explicit history is stored in the order
    of the ranks and is scrambled on another number of ranks
    (`restart_other_ranks_refuted`), so that a resumed Adams-Bashforth run
    continues with another flow (`restart_other_grid_refuted`); a stale file of an earlier run is accepted
    (`stale_restart_file_refuted`); probe files are truncated on restart.
16. Restart of moving bodies overwrites the body file of that step with the
    unmoved points (`restart_body_file_refuted`).
17. XDMF: default steps do not match the files written when nstart is not a
    multiple of nsave (`xdmf_default_refuted`); a step <= 0 never ends
    (`xdmf_step_nonpositive_refuted`, `vorticity_bad_step_refuted`); negative
    steps have unreadable names (`xdmf_names_negative_refuted`); names sort
    wrongly from step 10^7 on (`step_names_sorted_beyond_refuted`).
18. Body files: extra lines write out of bounds (`body_file_extra_line_refuted`),
    a count of 0 with data (`body_file_zero_refuted`), files written by the
    program cannot be read back (`body_file_written_refuted`).
19. Vorticity: wx, wy in 3D are displaced by one cell
    (`vorticity_x_displaced_refuted`); values at walls cut by a process
    boundary depend on the decomposition (`vorticity_cut_wall_refuted`).
20. Probes: pressure points index out of bounds (`pressure_point_refuted`); near
    the upper boundary 0 is used for the ghost values
    (`point_probe_edge_refuted`); a reversed box throws
    (`volume_probe_reversed`).

Configuration
21. The file's own `output`/`logs` keys override the command line
    (`settings_cli_overridden_refuted`).
22. Unknown words become enum value 0 (`unknown_words_refuted`,
    `misspelt_*_refuted`); a boundary condition for `p` indexes out of bounds
    (`pressure_bc_refuted`).
23. Constructors drop error codes, so factories report success for unusable
    objects (`factories_never_report_refuted`, `mesh_without_flow_refuted`,
    `mesh_bad_periodic_refuted`, `boundary_without_condition_refuted`,
    `bodies_missing_refuted`).
24. `initialVelocity` with fewer than dim entries is undefined behaviour
    (`initial_conditions_too_few_refuted`).
25. Documentation: `stretchRatio` is documented as optional but a missing value
    throws; zMinus is called "front" in the manual and "back" in the code;
    `as<T>(fallback)` silently replaces malformed values.
26. A configuration without a `velocitySolver` or `poissonSolver` section is an
    exception; the defaults `CPU` and `None` exist only inside a section that is
    present (`solver_section_missing_refuted`, src/linsolver/linsolver.cpp:66-71).
27. The manual gives default schemes for `convection` and `diffusion`; a missing
    entry is error 63 (`scheme_default_refuted`, timeintegration.cpp:56-63).
28. `convection: EULER_IMPLICIT` is accepted and silently drops the convection
    term (`implicit_convection_refuted`).
29. A volume probe with a `viewer` other than `ascii` or `hdf5` uses an
    uninitialised viewer type (`probe_viewer_refuted`, probes.cpp:174-178).
30. A body without `file`, with a type other than `points`, or whose file cannot
    be opened is not reported: the constructor drops the error and the program
    continues with an object it then dereferences (`bad_body_refuted`,
    bodypack.cpp:72-81, singlebody.cpp).
31. The oscillating cylinder reads `center` and never uses it; leaving it out is
    an exception (`center_required_refuted`).
32. Every run of a solver truncates `grid.h5` and so discards the coordinates
    `petibm-vorticity` added to it: after a restart the XDMF files of the
    vorticity show nothing, for the earlier steps either, until the utility is
    run again (`vorticity_lost_refuted`).
33. The coupled solver keeps pressure and forces in one vector and hands it to
    the probes (ibpm.cpp:218-221, navierstokes.cpp:840-856). A volume probe of
    the pressure numbers its points as in a vector of pressures alone, so on two
    or more ranks it records forces and values of other points
    (`coupled_pressure_probe_refuted`). On one rank, and for velocity components,
    the files are right (`coupled_probe_files`).
34. The datasets of an HDF5 probe file are named with `std::to_string` of the
    time, which has six decimals: with a time step below 10^-6 records overwrite
    each other (`probe_dataset_lost_refuted`; above, none is lost:
    `probe_files_complete`).
35. A resumed run opens the files of the probes anew under the same names and
    so discards what the first run recorded (`resumed_probe_file_refuted`). The
    forces file carries the first step in its name.
36. `destroy` of the coupled solver resets the array of a vector that the first
    call set to NULL: a second call, as by the destructor after an explicit
    call, fails (`coupled_destroy_twice_refuted`). The other solvers allow it
    (`destroy_twice`).
37. The handles of the solvers are not initialised by the constructors. When the
    configuration cannot be read, or `init` stops before the vectors are
    created, `main` returns and the destructor destroys handles that were never
    set (`destroy_before_init_refuted`, `destroy_during_init_refuted`).
38. `createBn(Op, M, ...)` does not free the inverse of the mass matrix
    (createbn.cpp:125-208): every call loses a vector
    (`approximate_inverse_leaks_refuted`). The programs use `createBnHead`, which
    is clean (`approximate_inverse_frees`).
39. On a stretched mesh convection creates kinetic energy: the transporting
    velocity is the plain mean of its two neighbours, whatever their distance,
    and the transported one likewise, so the discrete work of a velocity without
    divergence need not vanish (`convection_work_refuted`). On uniform meshes it
    does (`convection_does_no_work`).
40. The program of examples/api_examples/liddrivencavity2d stops with
    PETSC_ERR_USER_INPUT on the configuration shipped with it: the section
    "flow" has no "nu", which `setInitialConditions` demands although the
    viscosity is fixed in the source (`api_example_configuration_refuted`;
    config.yaml:15-29, solutionsimple.cpp:156-159).
41. The same program takes 2001 steps (`iter <= end`, main.cpp:264) and writes
    the result to 0002000.h5, which its README calls the solution after 2000
    steps (`api_file_after_2000_steps_refuted`).

42. With two bodies (or points) at the same place the system of the forces is
    singular and the forces reported for each body depend on the linear solver,
    although every system is solved exactly (`coincident_bodies_refuted`);
    nothing in the programs checks for it. The flow and the total are not
    affected when the bodies do not move.
43. createDelta takes the cell widths of the kernel from the cell of the first
    point of the body on each process. Where the cells around a body differ, the
    entries of the operator (and so the forces) depend on the number of processes
    and the order of the points (`delta_entries_independent_of_grid_refuted`);
    nothing checks that the cells are equal. Also, the widths read are those of
    the x-velocity for every component and direction.
44. The forces in the restart files are in the order of the distributed vector
    (process, then body, point and component), while velocity and pressure are
    in natural order. Two or more bodies resumed on another number of processes
    start with the forces of other points (`restart_moves_forces`,
    `restart_other_places_refuted`); no check and no warning.
45. In the rows next to a Dirichlet wall the ghost value of a component parallel
    to the wall is extrapolated linearly through the wall value, and the discrete
    Laplacian of y^2 is 3/2 instead of 2 there whatever the cell size
    (`wall_row_refuted`). Schemes of this kind stay second-order accurate in the
    solution, so this is a limit of the claim rather than a defect.
46. The options file of a linear solver is inserted into PETSc's database when
    the solver is created, after the command line was read, and replaces what the
    command line says: `petibm-navierstokes -velocity_ksp_max_it 5` has no effect
    if the file sets that option (`command_line_refuted`). PETSc's own files have
    the opposite precedence.
47. The window of a probe is compared with the accumulated time, without a
    tolerance. With `dt: 0.1` and `t_start: 1.0` the time of step 10 is
    0.9999999999999999 and the step is not recorded (`probe_start_refuted`); with
    a stride (`n_monitor: 10`) recording starts ten steps late.
48. The last vertex of the mesh is a sum of rounded widths and may differ from the
    configured end of the domain: ten cells from 0 to 1 end at
    0.9999999999999999 (`last_vertex_refuted`).
49. The times in the forces files and point probe files have nine digits. After a
    hundred million steps, or when a restarted run has a small step at a large
    time, successive lines show the same time: 1000 and 1000.000001 are printed
    alike (`times_coincide_refuted`).
50. A GPU solver without a configuration file writes the same temporary file in
    the working directory from every process and every process removes it. Unless
    the AmgX wrapper synchronises the processes after reading, one process can
    remove it before another reads it (`gpu_defaults_race_refuted`). A file of
    that name that was there before is lost (`gpu_defaults`: the name is free
    afterwards, whatever it held).
51. A regular file with the name of the output or logs directory is taken for the
    directory: `createDirectory` accepts EEXIST (`file_in_the_way_refuted`). The
    run fails later, when it opens its first file.
52. `ProbeVolume::writeGrid_HDF5` has no barrier after the first process made the
    file, unlike `writeGrid_ASCII`. Unless MPI synchronises when a file is opened
    together, another process can open the file of an earlier run, or fail
    (`volume_file_opened_refuted`). Point probes are safe because of the barrier
    in `updateGhostValues` (`point_file_any_order`, `point_file_needs_barrier`).
53. Just inside their radius the computed delta kernels can be negative (about
    -2^-54 for a cell of width 1), although the exact ones are positive
    (`kernel_positive_refuted`). The error stays within `kernel_rounding`.
54. The average that a volume probe writes for a steady flow is not always the
    steady value: it multiplies by the rounded 1/n, and 49 values 1 average to the
    double below 1 (`steady_average_refuted`). The error is bounded by
    `averages_close`.
## 5. Trusted base

### 5.1 Logic

* The kernel of Coq 8.16.1 (`coqc`; the compiled library is also accepted by
  `coqchk`). No axiom, parameter or admitted proof of our own; no functor or
  module type; no plugin; no kernel check switched off.
* Standard-library axioms, as listed by `Print Assumptions`. They come from the
  real numbers (`ClassicalDedekindReals.sig_forall_dec`,
  `ClassicalDedekindReals.sig_not_dec`,
  `FunctionalExtensionality.functional_extensionality_dep`) and, for the four
  bounds of C82, from its mean value theorem (`Classical_Prop.classic`), which
  Flocq's theorems on rounding, used for C85, C86, C93 and C94, also use. Flocq 4.1 itself
  has no axioms; its definition of the IEEE-754 doubles is part of what the
  statements of C85, C86, C93 and C94 mean. Nothing else:

**closed under the global context (no axioms)** (84 theorems): periodic_check_accepts_valid_tables, periodic_check_rejects_other_tables, periodic_flags_agree, natural_index_interior, natural_index_injective, natural_index_onto, natural_index_ghost, natural_index_first_outside, natural_index_corner, natural_index_corner_refuted, natural_index_corner_image_refuted, packed_index_is_position, packed_index_bijection, packed_index_ghost, packed_index_pressure, default_decomposition_ok, body_index_bijection, body_owner, body_index_rejects, body_owner_rejects, default_distribution, stencil_order_lexicographic, stencil_order_trichotomy, stencil_order_transitive, step_names_unique, step_names_read_back, step_names_sorted, step_names_sorted_beyond_refuted, xdmf_names_agree, xdmf_names_negative_refuted, xdmf_default_lists_saved, xdmf_loop_ends, xdmf_default_refuted, xdmf_step_nonpositive_refuted, settings_precedence, settings_complete, settings_missing_file, settings_cli_kept, settings_cli_overridden_refuted, documented_words, unknown_words_refuted, misspelt_location_refuted, misspelt_field_refuted, misspelt_bctype_refuted, misspelt_probe_refuted, pressure_bc_refuted, factories_that_report, bodies_missing_refuted, double_loop_visits, triple_loop_visits, solver_section_missing_refuted, every_object_freed, steps_lose_nothing, destroy_twice, coupled_destroy_twice_refuted, destroy_before_init_refuted, destroy_during_init_refuted, approximate_inverse_frees, approximate_inverse_leaks_refuted, one_body_same_order, same_shares_same_order, own_file_decides, solvers_are_independent, prefixes_are_apart, later_files_have_no_effect, command_line_refuted, counts_read, location_synonyms, gpu_own_file, gpu_defaults, gpu_defaults_one_process, gpu_defaults_race_refuted, gpu_creation_proceeds, directories_any_order, directories_exist, directories_made, file_in_the_way_refuted, directories_proceed, files_any_order, barriers_proceed, point_file_needs_barrier, volume_file_any_order, volume_file_opened, volume_file_opened_refuted.

**`sig_forall_dec`** (9 theorems): save_every_zero_refuted, body_file_read, body_file_accepted, body_file_in_bounds, body_file_extra_line_refuted, body_file_roundtrip_with_count, initial_conditions_need_viscosity, center_required_refuted, forces_line_independent_of_grid.

**`sig_forall_dec`, `functional_extensionality_dep`** (200 theorems): subdomain_widths, axis_subdomains, mesh_axes, mesh_axes_order_irrelevant, parsed_mesh_is_valid_grid, mesh_creation_succeeds, vertices, pressure_points, velocity_own_axis, velocity_other_axis, velocity_coordinates_increase, velocity_entries_readable, velocity_entries_outside_unreadable, other_axis_interior, periodic_ghosts, periodic_own_axis_interior, ghost_list, ghost_on_one_rank, boundary_object, dirichlet_enforced, neumann_enforced, updates_never_fail, convective_advects, convective_initial, a0_never_changes, laplacian_is_extended_stencil, laplacian_small_periodic_refuted, laplacian_annihilates_affine, laplacian_of_own_square, laplacian_self_adjoint, laplacian_transverse_square_refuted, divergence_is_net_flux, divergence_small_periodic_refuted, discrete_divergence_theorem, gradient_is_face_difference, divergence_is_minus_gradient_adjoint, pressure_operator_symmetric_negative, gradient_null_space_is_constants, constants_in_poisson_null_space, bnhead_truncated_inverse, bn_scaled_truncated_inverse, bn_mass_truncated_inverse, bn_order_rejected, projected_velocity_divergence_free, pinned_solution_solves_original, original_solution_solves_pinned, pinned_poisson_solves_original, poisson_matrix_symmetric, pinned_poisson_unique, pinned_poisson_definite_refuted, conv_free_stream, conv_free_stream_points, conv_free_stream_refuted, conv_conservative, conv_conservative_periodic, conv_in_bounds, conv_no_memory, conv_rank_value, conv_value, conv_decomposition, conv_decomposition_periodic, conv_decomposition_refuted, diagonal_operators, flux_velocity_round_trip, point_probe_run, point_probe_inner, interpolant_unique, interpolant_exact, interpolant_bounds, point_probe_edge_refuted, point_owner, pressure_point_refuted, volume_probe_selects, volume_probe_reversed, volume_probe_records, probe_schedule, probe_never_refuted, scheme_words, scheme_consistent, scheme_order, explicit_history, momentum_right_hand_side, run_length, run_completes, simulation_completes, output_schedule, restart_equivalent, simulation_restart, restart_exact_solvers, restart_convective_refuted, crash_keeps_other_steps, crash_keeps_completed_steps, crash_recovery, simulation_recovers, stale_restart_file_refuted, xdmf_entries_exist, misspelt_direction_refuted, factories_never_report_refuted, mesh_without_flow_refuted, mesh_bad_periodic_refuted, boundary_without_condition_refuted, body_file_zero_refuted, body_file_written_refuted, cxx_syntax_proper, host_cells, host_cell_unique, host_cells_reject, integrated_forces, integrated_forces_independent, vorticity_in_bounds, vorticity_run, vorticity_z, vorticity_of_linear_flow, vorticity_at_walls, vorticity_xy_displaced, vorticity_positions, curl_of_gradient, vorticity_circulation, vorticity_bad_step_refuted, vorticity_cut_wall_refuted, vorticity_x_displaced_refuted, solution_file_roundtrip, solution_file_natural_order, initial_conditions, initial_conditions_too_few_refuted, fractional_step_momentum, ns_run_never_fails, restart_other_ranks_refuted, configuration_builds_simulation, momentum_system_unique, momentum_solution_bounded, pinned_poisson_solvable, nullspace_poisson_solvable, run_independent_of_grid, run_independent_of_solver, divergence_is_residual, pinned_divergence_is_residual, momentum_residual, failed_solve_stops_run, run_completes_or_stops, program_runs_configuration, program_completes, command_line_runs_configuration, program_restart, scheme_default_refuted, implicit_convection_refuted, probe_viewer_refuted, restart_other_grid, restart_moves_terms, restart_two_levels, restart_other_grid_refuted, grid_file_written, solution_displayed, pipeline_displayed, utilities_use_configuration, program_pipeline, vorticity_lost_refuted, probes_do_not_disturb, probe_files_written, probe_files_complete, program_probe_files, probe_dataset_lost_refuted, resumed_probe_file_refuted, viscosity_dissipates, pressure_does_no_work, energy_budget, stokes_energy_never_increases, exact_solver_exists, convection_does_no_work, convection_of_run_does_no_work, explicit_convection_energy, convection_work_refuted, momentum_conserved, steady_flow_kept, free_stream_kept, couette_flow_kept, api_example_runs, api_example_agrees, api_file_after_2000_steps_refuted, api_example_configuration_refuted, plane_flow_kept, frame_independent, similar_flows, mirror_symmetry_kept, wall_row_refuted, iterations_file_tells_solves, coupled_iterations_file, decoupled_iterations_file, numerals_read, numeral_file_read, mesh_counts, body_written_and_read, body_printed_refuted, rows_read_once, forces_columns, probe_columns, iterations_columns, times_in_order, times_coincide_refuted, point_file_any_order.

**`sig_forall_dec`, `sig_not_dec`, `functional_extensionality_dep`** (109 theorems): kernel_values, kernel_moments, kernel_even_odd, kernel_names, window_holds_support, delta_entries, delta_defined, interpolation_exact, spreading_preserves, images_ignored, periodic_images_refuted, wall_read_as_periodic_refuted, rank_without_points_refuted, coupled_divergence_free_and_no_slip, coupled_no_slip_at_points, coupled_momentum, coupled_never_fails, decoupled_divergence_free, decoupled_slip, decoupled_momentum, decoupled_never_fails, coupled_initial_pressure_refuted, decoupled_no_slip_lost_refuted, moving_bodies_follow_time, moving_slip, moving_divergence_free, moving_never_fails, body_files_hold_step_positions, restart_body_file_refuted, resting_bodies, oscillating_cylinder_motion, coupled_forces_file, decoupled_forces_file, moving_forces_file, forces_balance, forces_runs_complete, ib_simulations_complete, coupled_restart, decoupled_restart, moving_restart, coupled_simulation_restart, decoupled_simulation_restart, moving_simulation_restart, coupled_residual, decoupled_residual, moving_residual, coupled_failed_solve, decoupled_failed_solve, moving_failed_solve, ibpm_program_runs_configuration, decoupled_program_runs_configuration, oscillating_program_runs_configuration, ib_programs_complete, oscillating_program_completes, ibpm_program_restart, decoupled_program_restart, oscillating_program_restart, unknown_kernel_reported, bad_body_refuted, coupled_probes_do_not_disturb, coupled_probe_files, decoupled_probe_files, moving_probe_files, coupled_pressure_probe_refuted, coupled_energy_budget, coupled_energy_never_increases, coupled_momentum_balance, coupled_forces_are_momentum_lost, decoupled_forces_are_momentum_lost, moving_forces_are_momentum_lost, coupled_run_independent_of_solver, decoupled_run_independent_of_solver, decoupled_total_force_independent_of_solver, moving_run_independent_of_solver, far_apart_points_are_felt, coupled_exact_solvers_suffice, decoupled_exact_solvers_suffice, moving_exact_solvers_suffice, coincident_bodies_refuted, coupled_run_independent_of_grid, decoupled_run_independent_of_grid, decoupled_total_force_independent_of_grid, moving_run_independent_of_grid, delta_entries_on_any_mesh, delta_entries_independent_of_grid_refuted, decoupled_restart_other_grid, moving_restart_other_grid, coupled_restart_other_grid, restart_moves_forces, restart_other_places_refuted, coupled_file_operations, decoupled_file_operations, moving_file_operations, coupled_crash_keeps_steps, decoupled_crash_keeps_steps, moving_crash_keeps_steps, coupled_crash_recovery, decoupled_crash_recovery, moving_crash_recovery, restart_without_forces_refused, moving_iterations_file, reported_residual_bounds_divergence, coupled_reported_residual, decoupled_reported_residual, decoupled_reported_slip, moving_reported_residual, coupled_results, decoupled_results, moving_results.

**`sig_forall_dec`, `sig_not_dec`, `classic`, `functional_extensionality_dep`** (27 theorems): laplacian_second_order, divergence_second_order, gradient_accuracy, convection_second_order, time_drift, time_increases, time_increases_refuted, interrupted_run_has_same_times, probe_records_inside, probe_records_only, probe_start_refuted, vertex_positions, vertices_in_order, pressure_point_inside_cell, uniform_vertex_positions, uniform_vertices_in_order, last_vertex_refuted, every_number_prints, kernel_rounding, kernel_support_exact, kernel_even_exact, weights_add_up, delta_rounding, kernel_positive_refuted, averages_written, averages_close, steady_average_refuted.


### 5.2 What the model assumes of the libraries

These are definitions in the model, not axioms; the theorems are about programs
that call libraries behaving like this.

* PETSc `DMDA`: default 1D splits, box stencil of width 1; a global-to-local
  scatter fills the ghosts inside the domain (with periodic images) and leaves
  the others alone. New vectors are zero (`VecDuplicate` aside). `VecView` to
  HDF5 of a DMDA vector is in natural order, of a plain vector in storage order.
* `DMComposite`, `MatNest`, `VecNest`: rank-major concatenation; sub-vectors
  alias the parent.
* Matrix assembly: INSERT keeps the last value, ADD sums, rows and columns with
  negative indices are ignored. `MatZeroRowsColumns` as documented.
* Matrix products, `MatScale`, `VecAXPY` and so on: exact real linear algebra.
* Linear solvers: parameters of the model. "The solve is exact" is a hypothesis
  of the theorems that need it; KSP and AmgX themselves are not modelled.
* HDF5: a file is a map from dataset names to arrays; a write is atomic per
  dataset; open-new truncates; a file that was open at a crash is unreadable.
* yaml-cpp: an abstract tree; `as<T>(fallback)` takes the fallback on failure;
  `as<T>()` throws. SymEngine: an expression is a function of x, y, z, t, nu.
* MPI: collective calls are synchronous and deterministic; the processes are
  interleaved only in GpuModel, DirModel and ShareModel (C90-C92).
* `iostream` number parsing: a parameter with the properties listed in
  `cxx_syntax_proper`, which a concrete syntax is shown to meet.
* Integers do not overflow; reals are exact.

### 5.3 Modelled code

* `src/parser/parser.cpp`, `src/mesh/*.cpp`, `src/misc/type.cpp`,
  `src/misc/misc.cpp`, `include/petibm/misc.h`: GridModel, TypesModel,
  ConfigModel, IndexModel, LoopModel, DirModel.
* `src/boundary/*.cpp`: BoundaryModel.
* `src/operators/*.cpp`: OperatorModel, MatModel, BnModel, ConvModel, DeltaModel.
* `src/body/*.cpp`, `src/io/io.cpp` (body files, solution files): BodyModel,
  DriverModel.
* `src/misc/delta.cpp`, `src/misc/lininterp.cpp`, `src/misc/probes.cpp`,
  `src/timeintegration/*.cpp`: DeltaModel, ProbeModel, PfileModel (files of the
  probes, and the programs with probes), ShareModel (what each process does with
  these files).
* `src/solution/*.cpp`: SolutionModel, ConfigModel, DriverModel.
* `applications/navierstokes`, `ibpm`, `decoupledibpm`, `rigidkinematics`,
  `vorticity`, `createxdmf`, `writemesh`, and the user code of
  `examples/api_examples` (oscillating cylinder; lid-driven cavity: ApiModel): NSModel, DriverModel,
  IbpmModel, IbOutModel, VortModel, NameModel, XdmfModel; reading of the whole Navier-Stokes
  configuration: ProgModel.
* Creation, sharing and release of PETSc objects in all of these: LifeModel.
* The options files of the linear solvers: OptModel. The iterations file: IterModel. Double-precision rounding of
  the time and of the coordinates of vertices and pressure points: FloatModel; of the delta kernels: KernelModel; of the averages of probes: AvgModel.

### 5.4 Not modelled

* Floating-point rounding (except of the time, C85, of the vertices, C86, of the delta kernels, C93, and of averages, C94), iteration and convergence of the linear solvers
  (`src/linsolver/*` apart from its factory, `LinSolverKSP::solve`, `getIters`, `getResidual` and `LinSolverAmgX::init`), AmgX.
* Logging, `PetscLogStage`, `-log_view` files, `printInfo` texts,
  text formatting of numbers (a parameter; C89 states what ISO C says about it).
* The XML syntax of the XDMF files (their elements and attributes are modelled).
* MPI communicator handling; objects that PETSc creates inside its own objects.
* Example configurations (apart from that of C75), post-processing scripts, CMake.
