# Formal model of LehrFEM++ in Coq 8.16 — design

## Method

* Every C++ function that a property speaks about is transcribed into a total Gallina
  function (`*Model.v` files).  Each definition cites file and lines of /repo.
* `LF_VERIFY_MSG` (always active) is modelled by the outcome `Throw`; `LF_ASSERT_MSG`
  (debug builds only; in release builds the following statement is typically undefined
  behaviour) by the outcome `Assert`.  A successful run is `Ok v`.  So a theorem that
  concludes `= Ok ...` says no check fails, and theorems with hypothesis `= Ok m` speak
  about runs in which no check failed.
* Indices (`unsigned int`) are unbounded `nat`; `idx_nil` is `None`.  Overflow of 32-bit
  indices is outside the model.
* Floating point: the numerical parts (geometry, shape functions, quadrature, assembly
  values) are modelled over exact real numbers `R` (or an arbitrary ring).  Rounding
  errors are not modelled, except for the quadrature tables, whose decimal literals are
  transcribed exactly as rationals and the actual integration defect is bounded.
* Specifications live in `*Spec.v` files and do not use the model's helpers.
* Property theorems live in `Prop*.v` files, each closed by `exact <lemma>` with
  `Print Assumptions` beneath and an `Example` showing the hypotheses are satisfiable.
* `_partial` marks partial results, `_refuted` counterexamples (the code violates the
  property as stated; these are findings).

## Plan per property

| id | what is modelled | how it is proved |
|----|------------------|------------------|
| C01–C06 | `MeshFactory::{AddPoint,AddEntity,Build}` and the `hybrid2d::Mesh` constructor: node list, segment list, ordered edge map with adjacency lists, numbering, completeness check, cell/edge incidence, relative orientation | invariant of the edge map by induction over segments and cells; the map is a sorted association list keyed by (min,max) |
| C07 | the meshes `Build` can return | characterised as the well-formed meshes; counts |
| C10–C13 | `UniformFEDofHandler` / `DynamicFEDofHandler` index arrays as the loops of the code build them, with offsets | closed form for the arrays (prefix sums), then partition/order statements; refinement uniform → dynamic |
| C14–C20 | COO triplet list over a ring / R; assembler as nested folds; fix-dof transformations | algebra of finite sums |
| C21–C24 | the pattern tables `NumChildren`, `ChildPolygons`, child node tables of `PerformRefinement` | finite case analysis on pattern and anchor; for each case linear real arithmetic over arbitrary points |
| C25–C27 | the closure loop of `RefineMarked` with in-place edge updates | decreasing measure (number of unsplit edges), least fixpoint sandwich, exit condition |
| C28–C32 | `PerformRefinement`: nodes, edges, cells created through the factory, parent infos | composition with the C01–C06 theorems |
| C33–C35 | builders as loops emitting factory calls | closed forms for the emitted lists, arithmetic |
| C36 | `CountNumSuperEntities`, `flagEntitiesOnBoundary` | counting over incidence lists |
| C62 | `LongestEdge` of `MeshHierarchy` | induction over the list of lengths |
| C40–C44, C63, C64 | formulas of SegmentO1/O2, TriaO1/O2, QuadO1/O2, Parallelogram over R | `auto_derive`/`field`/`ring`, vectors componentwise in arbitrary dimension |
| C45–C47 | shape function formulas over R; FE evaluation through dof handler | `field`/`ring`; continuity by combining with C03, C11 |
| C48–C51 | Legendre/Jacobi recursions, hierarchic shape functions | induction on degree, Coquelicot integrals |
| C52–C54 | quadrature tables (decimal literals, exactly), Gauss and product rules, cache | moments of the tables checked with big integers on 63-bit machine integers (`vm_compute`, primitive integers), lifted to all polynomials by linearity; orthogonality for Gauss rules; history induction |
| C55, C56, C65 | element matrix and vector providers of `lf::fe`, `lf::uscalfe` as folds over quadrature points | closed form of the folds, gradients by the Gram matrix of the Jacobian (C43), exactness through polynomial spaces |
| C57–C60 | projection, essential conditions, integration, transfer | induction over entity lists |
| C66 | `prolongate`, by the models of transfer, nodal projection and Lagrangian spaces | continuity of the transferred function (every side of a child lies in the parent or one of its edges), cardinality of shape functions, composition of polynomials with the affine or bilinear child maps |
| C67–C69 | `GmshReader` from the parsed file (`GMshFileV2`/`GMshFileV4`) on: marking of main nodes, insertion of nodes and (blocks of) elements into the factory, index maps as growing vectors, `std::multimap` with `equal_range` | loops by induction with the invariant that index maps follow the listed elements; composition with C01–C06 for the outcome; ordered multimaps |
| C70 | geometries of all entities on all levels, as created by `PerformRefinement` and `ChildGeometry`; `watertight` (ConformSpec.v) compares a cell's map along an edge with the edge's own map | each coordinate of the geometries is a continuous mesh function exactly if the geometries fit together; every side of a child is a part of an edge of its parent or a new edge in its interior, and in both cases cell and edge have the parent's map, or the interpolant of it, along the same arc; induction over the levels |
| C71–C73 | `VtkWriter` with the file structure (`VtkFile`) as a record; arrays as lists of optional values, so that entries never written are visible; points of Lagrange cells in VTK's order are defined separately (VtkSpec.v) | loops over entities write disjoint blocks; every point of the file belongs to exactly one node, edge or cell interior; induction over the sequence of calls |
| C74–C76 | the assembler models of C15–C17 with the element models of C55, C65 as `Eval` functions; `MeshFunctionGradFE`; forms on coefficient vectors as relations that name the values and gradients of the two finite element functions (GalerkinSpec.v) | v^T A u is rearranged into the sum over cells and points; gradients: chain rule and the Gramian inverse of C43; essential conditions: a function vanishes on the selected edges iff its coefficients there are zero (C58), then unit vectors as test functions; exactly one solution (DirichletSpec.v): a definite form has only the zero solution of the homogeneous system, then Gaussian elimination (LinAlg.v); energy zero forces zero gradients at the points of the rules; a rule settles an element if this makes the coefficients in the cell equal, which holds for the library's tables on triangles (enough points in general position) and Gauss rules on quadrilaterals (a polynomial of degree k with k + 1 zeros); carried along chains of cells from the selected edges; positive reaction coefficients: the same rules pin the elements (a function that vanishes at their points is zero), shown by linear arithmetic for the table of degree 2 and by the zeros of polynomials on grids (not shown: the tables of degree 4 and 6 for quadratic and cubic elements on triangles, for which C76_reaction has it as a hypothesis); impedance conditions: assembling onto a matrix adds the forms, and a zero edge mass makes the function vanish on the edge |
| C77 | operators on mesh functions over an arbitrary scalar type; vectors of values with their memory layout (fixed-size matrices are one block of memory), Eigen types with sizes and storage order; compile-time errors are `Throw`, undefined behaviour is `Assert` (MfModel.v) | meaning of expressions at one point and typing rules in MfSpec.v; each operator keeps the relation between the vector and the values at the points, induction over expressions |
| C78 | data sets as lists indexed by entity; entities carry the identity of their mesh (DataModel.v) | invariant over histories of assignments |
| C79 | the Boost.Spirit grammars as parser functions on lists of characters: success with rest, failure, unmet expectation, other exceptions; skippers, `lexeme`, expectation points and `on_error` as in Spirit (MshModel.v) | formats as relations between contents and texts (MshSpec.v, style `written`); every parser reads every text of its format and stops at its end, by induction over lists |
| C80 | as C79 | style `accepted` of the same formats; every parser that succeeds has consumed a text of its format with the value it returns |
| C81 | composition of C79 and C67 (MshReadModel.v) | composition; numbers as exact reals |
| C82 | the constructor of `ProductUniformFEDofHandler` as it fills its tables, on top of the uniform handlers of C11; the queries (DpgModel.v) | numbering described by stacking the lists of the component handlers (DpgSpec.v); induction over the components |
| C83 | loops over sub-providers, `block +=`, assembly with providers that may fail (DpgModel.v) | blocks with sizes, positions and bilinear forms (DpgSpec.v); C15 for product and component spaces, exchange of sums |
| C84 | LDLT as elimination of the first unknown (without pivoting), DPG providers and estimators (DpgModel.v) | Schur complements of positive definite matrices are positive definite; Riesz representatives, Cauchy-Schwarz, expansion of the energy, C18 |
| C85 | the characters written by `writeMatlab`, `WriteMatlabLevel`, `WriteMatlab`; `operator<<` for integers and for `double` (%g with six digits) over exact rationals (WriteModel.v) | an interpreter for a subset of MATLAB (WriteSpec.v) is run on the text; error bound of decimal rounding, parsing by induction over the entities |
| C86 | the characters written by `writeMatplotlib` (WriteModel.v) | the reading loop of `plot_mesh.py` as a function on characters (WriteSpec.v) |
| C87 | `OuterNormals` (NormalModel.v) over exact reals | points of a polygon as convex combinations (NormalSpec.v); a normal is characterised by where small steps lead; sign analysis of sub-triangle areas |
| C88 | `PrescribedSignProvider` (NormalModel.v) | invariant of the nested loops: entry = largest adjacent cell visited; opposite normals from disjoint interiors |
| C89 | `flagEntitiesOnInflowBoundary`, `flagEntitiesOnOutflowBoundary` (NormalModel.v) | invariant over the visited pairs (cell, edge); boundary edges are visited once |
| C90 | `BoundaryQuadRule` (NormalModel.v) | restriction of polynomials to lines, exactness of the given rule |
| C91 | `ProductUniformFESpace`, `ProductUniformFESpaceFactory` (ProdModel.v) | characterisation of the checks of one component; dof handlers from C11 and C82; continuity by extending the space by elements for nodes and the argument of C47 |
| C92 | `InitEssentialConditionsFromFunctions` (ProdModel.v) | C58 for the components, disjointness of their dof ranges |
| C93 | `TraceScalarReferenceFiniteElement`, `DiscontinuousScalarReferenceFiniteElement`, `FeDiscontinuousO0*` (ProdModel.v) | vanishing of interior functions on edges by computation over the ring of reals, the rest from C45 |
| C94, C95 | `VtkGrammar`, `ValidateVtkFile`, `WriteToFile` (VtkFileModel.v) | a reader for the legacy VTK format (VtkFileSpec.v); every section is read back, whatever follows it; decimal numbers by exact arithmetic, bytes by induction on their number |
| C96-C98 | `projects/ipdg_stokes` (StokesModel.v): normals, element matrix and vector, `buildSystemMatrixNoFlow`, velocities | geometry of triangles from C87-C89; the matrix as a bilinear form, cell contributions resummed over edges (StokesProofs3); elimination of the edge unknowns; uniqueness by propagation of zero gradients from the boundary, existence because injective square matrices are surjective (LinAlg.v) |
| C99 | `AnnulusTriagMeshBuilder` (AnnulusModel.v) | as C33-C35; tiling by coordinates in the sectors between directions of corners |
| C100 | `createOffsetFunction`, `buildSystemMatrixInOutFlow` (StokesModel.v) | the matrix of the offset system is computed from the dof handlers of the boundary; it is regular because the total flow of a curl is zero and the boundary is connected; then as C97 |
| C101 | `L2norm`, `DGnorm` (NormsModel.v, on top of MfModel.v and FeToolsModel.v) | invariant of the two nested loops: every edge holds the sum over the sides visited so far; the two normals at an edge are opposite, so the squared norm of the sum is the squared difference. False for gradients of type Matrix2d and for edge rules with several points |
| C102 | `StrangSplit`, `diffusionEvolutionOperator`, `Evolution` (FisherModel.v) with divisions by zero as in IEEE arithmetic | refinement to a list of stages, each an SDIRK-2 step or the flow of the logistic equation; stability by writing u and v as polynomials in M^-1 A applied to one vector; uniqueness of the flow by Gronwall. The stages end at T - 3/2 T/m, not at T |
| C103 | `localQuadFunction`, `assembleGalerkinMatrices` (FisherModel2.v) on top of the models of assembler, element matrix providers, boundary flags and `make_QuadRule` | the assembly theorems (C74) for each of the three loops, the flags by C36; positivity of the mass matrix because the rule's points determine (bi)linear functions and every node belongs to a cell; conservation from row sums; composition with C102 |
| C104 | `writeTikZ`, the operators of `TikzOutputCtrl` (TikzModel.v), files as lists of characters | the specification has a reader for the needed part of TikZ and the documented drawing over exact rational numbers; proof by reading back every command, then induction over the entities. The documented default of the last argument is refuted |
| C105 | `DiffusionElementMatrixProvider`, `ReactionElementMatrixProvider`, `ConvectionElementMatrixProvider`, `LoadElementVectorProvider` and the two builders (LocModel.v) | entries by induction over the quadrature points, against inner products of gradients in world coordinates; exactness from the degree of the integrands; the builders by induction over the calls and C83; construction for every space of C91. The documented form of diffusion is proved for symmetric coefficients and refuted for others |
| C106 | `FluxElementMatrixProvider`, `TraceElementMatrixProvider` (LocModel.v) | induction over edges and quadrature points, with C87 (normals), C88 (signs), C90 (rules on edges); dofs of fluxes from the canonical order of C91. Flux functions are single-valued for degrees 0 and 1 and, refuted, not for 2 and 3 |
| C107 | no new model: C33 to C35 (BuilderModel.v) meet C31 (RefineModel.v) and C96 to C100 (StokesModel.v) | the numbering of nodes, edges and cells of the builders in closed form; every edge has one or two cells, on different sides; the boundary is one closed curve that reaches every cell; regular refinement keeps this: the four children of a triangle do not overlap (barycentric coordinates), the halves of boundary edges form the new curve (the levels of local refinement are only covered as far as C31 and C60 go) |
| C61 | `static_cast` between integer types as wrap modulo 2^w | arithmetic over Z |

Not modelled (and hence not claimed): floating point rounding, Eigen/Boost internals,
memory management, logging, performance, characters of VTK files,
Python bindings.

## Findings

Theorems with suffix `_refuted` prove that the code (as modelled) violates a property a
user would expect:

* `C20_repeated_index_refuted`: an index listed twice is fixed to the sum of the values.
* `C21_rejected_together_refuted`: pattern and anchor combinations outside the implemented
  ones are not rejected by all functions alike.
* `C28_degenerate_refuted`: refinement fails on meshes in which two cells share three nodes.
* `C33_C34_thin_cells_refuted`: the tensor product builders throw when the cells are too thin (ratio of
  the sides above about 7071, for example the unit square with 1 times 10000 cells), because the
  constructors of `TriaO1` and `QuadO1` take such cells for degenerate ones.
* `C35_small_torus_refuted`, `C35_two_along_refuted`: tori with one cell in a direction or two in both
  cannot be built (exception); with two cells in one direction they have fewer edges than documented.
* `C35_square_refuted`: on a square (the default domain is the unit square) with an even number of cells
  around the tube `TorusMeshBuilder::Build` throws: two corners of a cell coincide.
* `C41_tolerance_refuted`: the tolerance of `Parallelogram`'s constructor admits
  quadrilaterals whose sub-entities do not lie on the parametrized cell.
* `C42_barycentric_refuted`: a thin triangle (height 1, base 10000) passes the test for degenerate
  triangles, one of its children under barycentric refinement does not.
* `C49_segment_counts_refuted`: `FeHierarchicSegment::NumRefShapeFunctions(1, i)` is 2.
* `C52_exactly_refuted`: the tabulated rules are exact only up to 1e-15.
* `C56_load_outside_refuted`: `LinearFELocalLoadVector` evaluates the source function at
  (-1,-1), outside the reference triangle; on six-node triangles this throws.
* `C59_predicate_refuted`: `IntegrateMeshFunction` includes the integral over the first
  entity even if the predicate rejects it.
* `C59_points_refuted`: the overload of `IntegrateMeshFunction` with a degree leaves the
  rule for points empty, so integration over nodes is undefined behaviour; so is
  integration over an empty range (`C59_empty`).
* `C60_getMesh_refuted`: `MeshFunctionTransfer::getMesh` returns the mesh one level above the
  coarse level, also if the function is defined on a finer one.
* `C67_loose_edge_refuted`, `C67_formats_refuted`, `C67_lone_point_refuted`: nodes that belong to
  no cell are documented not to be inserted; in version 2 the ends of any edge are, in version 4 such an edge
  is an assertion failure, and a point element at such a node is ignored or an out-of-range access
  depending on its number.
* `C68_points_refuted`: a repeated point element adds its second physical number to the node with the largest
  number so far instead of the point itself.  `C68_sorted_refuted`: `PhysicalEntityNr` is documented to be sorted and is not.
* `C69_lookup_refuted`, `C69_lookup_undefined_refuted`: if several physical entities share a name (number) and
  none has the requested co-dimension, the loop runs past the candidates: an entity of another name is returned, or
  memory past the end of the map is read.
* `C71_order7_refuted`: `AuxNodesTria` places the inner points of triangles of order 7 and more wrongly (2.25/7 instead of 2/7).
* `C72_centre_refuted`: `WriteCellData` evaluates functions on quadrilaterals at (1/4,1/4) instead of the centre.
* `C77_objects_refuted`: the product of mesh functions whose values are neither scalars nor Eigen objects returns no values (the loop runs to `result.size()`, which is 0).
* `C77_row_major_refuted`: sums, differences, entrywise products and scalar multiples of fixed-size row-major matrices are copied in memory order to column-major matrices.
* `C77_matrix_norm_refuted`: `squaredNorm` of fixed-size matrices that are not vectors compiles and returns 0.
* `C77_no_points_refuted`: for an empty list of points the operators on fixed-size matrices evaluate `&u[0]` of an empty vector.
* `C72_long_vectors_refuted`: vectors of any size are documented to be accepted; four components fail an assertion.
* `C79_foreign_refuted`: MSH 4.1 allows sections with other names anywhere; in binary files the reader rejects them (the rule that should skip them has a skipper that eats line ends).
* `C79_dollar_refuted`: such sections may not contain a dollar sign.
* `C80_order_refuted`: the parser for version 4.1 does not check that the whole file was read: a `$Periodic` section after `$GhostElements` (and anything else after a section the parser does not expect) is dropped without an error.
* `C80_tags_refuted`: the number of tags of an element in version 2.2 text files is only used for partitions; an element with less than two tags is read with its nodes as tags and too few nodes.
* `C85_names_refuted`: `.m` is appended only if the second to last character is not a dot *and* the last one is not an `m`: `writeMatlab(mesh, "team")` writes a file `team` with a function `te`; names of one character lead to `pop_back()` on an empty string.
* `C85_directory_refuted`: the name of the function contains the directory, `function [...] = out/mesh()`, which MATLAB rejects.
* `C85_precision_refuted`: coordinates are written with six digits, so that distinct nodes coincide in the file.
* `C86_short_refuted`: `writeMatplotlib` throws `std::out_of_range` for names with fewer than four characters.
* `C87_curved_refuted`: `OuterNormals` accepts cells with curved edges (second-order geometries) and returns normals of the chords, which are not perpendicular to the edges.
* `C91_flux_refuted`, `C92_flux_refuted`, `C92_flux_fails`: components made by `AddFluxComponent` have elements for edges only, but `ComponentFESpace` hands them to `UniformScalarFESpace`, which insists on elements for cells. `InitEssentialConditionsFromFunctions` asks for the space of the flux component first of all and therefore throws whenever that component was made by `AddFluxComponent`, which is how the convergence studies of the library call it.
* `C91_reuse_refuted`: `Build` empties the factory but keeps the number of components, so indices returned afterwards do not belong to the components of the next space.
* `C94_unsigned_char_refuted`, `C95_unsigned_char_refuted`: the grammar writes `char` as the type of `ScalarData<unsigned char>`, so that 200 is read as -56.
* `C94_precision_refuted`: in text format coordinates keep three digits after the point; points closer than that coincide.
* `C94_empty_field_refuted`: in text format an empty array of global data is counted in `FIELD FieldData n` but not written, and the rest of the file is misread.
* `C94_names_refuted`: `WriteToFile` accepts names with blanks (`VtkWriter` refuses blanks, but not tabs or line ends).
* `C94_previous_refuted`: `WriteToFile` opens, and thereby empties, the file before it validates the object.
* `C99_center_refuted`: `AnnulusTriagMeshBuilder::setCenterPoint` has no effect, the mesh is always about the origin.
* `C99_few_cells_refuted`: with one or two cells around `AnnulusTriagMeshBuilder::Build` throws.
* `C100_hole_refuted` (general form `C100_several_curves`): on domains with holes the system for the offset function is singular, so `buildSystemMatrixInOutFlow` cannot be used there. The code says nothing about this and does not look at the state of SparseLU. `C100_system` also shows that the auxiliary unknowns of the offset are its plain jumps, while those of the solution carry the factor of the penalty; their sum is neither.
* `C101_gradient_refuted` (general form `C101_dg_fixed`): `DGnorm` ignores gradients of type `Eigen::Matrix2d`, because `squaredNorm` of a mesh function with such values is 0 (`C77_matrix_norm_refuted`; its documentation excludes matrices). All examples of projects/ipdg_stokes pass such gradients, the unit tests only pass gradients that are zero.
* `C101_points_refuted`: `DGnorm` fails with an assertion of Eigen for quadrature rules with more than one point on the edges: the rows `Points()` are combined with columns `Zero(n)` and `Ones(n)`.
* `C102_final_time_refuted` (general form `C102_durations`): `StrangSplit::Evolution` does not reach the final time. The loop runs m - 2 times and is preceded by half a step of diffusion and followed by half a step of reaction only, so both processes last T - 3/2 T/m (T/2 for m = 1). The programs call it several times in a row, and lose this time in each call.
* `C102_empty_refuted`: where capacity and population are both zero, `Evolution` returns NaN (0/0); with capacity > 0 an empty place stays empty.
* `C104_default_refuted`: write_tikz.h documents that `writeTikZ` without its last argument is the same as with 7 (cells, their numbers and the numbers of their corners); the declared default is `RenderCells` (1), so that cells and corners are not numbered.
* `C105_diffusion_refuted`: loc_comp_dpg.h documents the form (grad u) . alpha (grad v) with trial function u and test function v; the code computes (alpha grad u) . (grad v), which differs for coefficients that are not symmetric.
* `C106_flux_single_valued_refuted`: for flux components of degree 2 and 3 the dof handler reverses the dofs of an edge that runs against the cell, but the functions of `FeDiscontinuousO2`/`FeDiscontinuousO3` on edges are numbered end points first, so that reversing their order does not reverse the edge. The two cells at such an edge use different functions for the same dof; degrees 0 and 1 are right (`C106_flux_single_valued_partial`).
* `C64_second_order_refuted`: second-order geometries inherit `isAffine() == true`.

Observed while reading, not formalised: `LinearFELaplaceElementMatrix` uses only the
vertices, so curved cells are treated as straight; `QuadO2::SubGeometry(2, 8)` passes its
assertion; `COOMatrix::MatVecMult` (returning version) and
`FixSolutionComponentsLse`'s lambda hard-code `double`; `refutils.cc`'s test for ".m" uses
`&&`; `MeshHierarchy::Coarsen` is declared and not defined; `UniformScalarFESpace`'s pointer check tests
`rfs_quad_p_` twice; `VtkWriter` labels `unsigned char` data as `char`, its documentation allows order 0, which the
constructor's assertion does not; in MSH 4.1 files `$Entities` is mandatory, parametric node blocks are read as if they
had three coordinates per node, physical entities with empty names are rejected; the number of elements in binary MSH 2.2
files is only a lower bound for those that are read; the rules for `$Periodic` in gmsh_file_v2.cc use `=` instead of `%=`.

## Trusted base

* The kernel of Coq 8.16.1, including its `vm_compute` machine and its primitive 63-bit
  integers (used for C52 only, and what depends on it).
* The axioms below.  All of them come from Coq's standard library; there are none in
  /verif.  `sig_forall_dec`, `sig_not_dec` and `functional_extensionality_dep` come with
  the real numbers, `Classical_Prop.classic` with lemmas of Coquelicot on zeros of
  continuous functions, the `PrimInt63`/`Uint63` entries describe machine integers.
* The transcription: every definition in the `*Model.v` files cites the lines it models and
  says what is simplified.  Files modelled: `base/{ref_el,narrow}.h`, `mesh/hybrid2d/*`,
  `mesh/utils/{structured_mesh_builder,tp_triag_mesh_builder,tp_quad_mesh_builder,torus_mesh_builder,special_entity_sets}`,
  `geometry/*` (without `print_info`), `assemble/{dofhandler,assembler,coomatrix,fix_dof}`,
  `refinement/{refinement_pattern,hybrid2d_refinement_pattern,mesh_hierarchy,mesh_function_transfer.h,prolongation.h}`,
  `quad/*`, `fe/{scalar_reference_finite_element,hierarchic_fe,fe_point,loc_comp_ellbvp,fe_tools,mesh_function_fe,mesh_function_grad_fe}`,
  `uscalfe/{lagr_fe,loc_comp_ellbvp,lin_fe,precomputed_scalar_reference_finite_element}`, `mesh/utils/{mesh_function_unary,mesh_function_binary,mesh_function_constant,mesh_function_global,codim_mesh_data_set,all_codim_mesh_data_set}`, `projects/fisher_kpp/strangsplitting`, `io/{write_tikz,gmsh_reader,gmsh_file_v2,gmsh_file_v4,gmsh_file_v4_text,gmsh_file_v4_binary,vtk_writer,write_matlab,write_matplotlib,plot_mesh.py}`, `refinement/refutils`, `projects/dpg/{product_dofhandler,product_element_matrix_provider,product_element_vector_provider,dpg_element_matrix_provider,dpg_element_vector_provider,dpg_tools,product_fe_space,product_fe_space_factory,trace_scalar_reference_finite_element,discontinuous_scalar_reference_finite_element,discontinuous_fe_constant,loc_comp_dpg,sub_element_matrix_provider,sub_element_vector_provider,product_element_matrix_provider_builder,product_element_vector_provider_builder}`, `projects/ipdg_stokes/{mesh/{utils,annulus_triag_mesh_builder},assemble/*,post_processing/{solution_to_mesh_data_set,mesh_function_velocity}}`, and the finite
  element spaces built from them.
* The semantics of Boost.Spirit Qi, as transcribed at the start of MshModel.v (sequences, expectation, alternatives, lists,
  skipping before primitives, numeric and binary parsers; the attribute of the `$Periodic` rules of version 2 is taken to be
  filled).  NaN and infinities in text files are not parsed in the model, numbers are exact, running out of memory for
  absurd counts is ignored.
* Eigen's LDLT chooses pivots by symmetric permutations; the model eliminates in the given order, which has the same
  solution in exact arithmetic.
* Text output: files can be opened and written; coordinates are finite and not -0. What MATLAB and NumPy do with the
  files is described by WriteSpec.v (a MATLAB subset that rejects everything else; `line.split()`, `np.fromstring`).
* The generators of `boost::spirit::karma` are modelled by their documented effects (VtkFileModel.v). Floating point numbers are written with three digits after the point, which is the default of `real_policies`; the rounding is done in exact arithmetic. Text files with cells that have no corners are not modelled. The names of arrays are taken literally (vtkDataReader decodes `%xy`).
* `SparseLU` is not modelled: C97 speaks of solutions of the system, and shows that there is one.
* SparseLU in `createOffsetFunction` is a parameter [solver]; C100 assumes `exact_solver` (it solves systems with regular matrices; `C100_solver` shows one).
* Eigen's size checks in comma initialisers are modelled as assertion failures (C101); with NDEBUG they are not made and memory is overwritten.
* SparseLU is a parameter (C102): a function that solves linear systems with injective matrices exactly. The sign of zeros and infinities, overflow and underflow are not described; one entry that is no number makes all entries of the next diffusion step NaN in the model. m = 0 (division by zero and a loop of 2^32 - 2 steps) is not described.
* Newton's iterations for Gauss points are parameterised by the value at which they stop;
  theorems assume that these are the zeros of the orthogonal polynomials
  (C53_zeros_exist shows they exist).

## Axioms reported by `Print Assumptions`

<!-- generated -->
* none (closed under the global context): C01_factory_index_contract, C02_one_edge_per_node_pair,
  C03_incidence_and_orientation, C03_edge_geometry_orientation, C04_build_outcome,
  C05_numbering_bijective, C06_factory_reusable, C07_built_meshes_are_the_wellformed_ones,
  C07_counts, C10_uniform_dofs_partition, C11_uniform_canonical_order, C11_covering_dofs_distinct,
  C12_uniform_numbering_rules, C13_dynamic_same_contract, C13_dynamic_refines_uniform,
  C14_coo_denotes_sum, C14_makeSparse, C14_MatVecMult_adds, C14_MatVecMult_returns,
  C15_assembly_adds_local_contributions, C15_assembly_into_new_matrix,
  C15_small_element_matrix_reported, C15_uniform_handlers_serve, C15_dynamic_handlers_serve,
  C16_assembled_bilinear_form, C16_symmetric, C16_order_independent, C17_load_vector,
  C17_load_vector_adds, C18_fix_flagged_components, C19_fix_flagged_components_alt,
  C20_fix_listed_components, C20_repeated_index_sums, C20_repeated_index_refuted,
  C20_index_out_of_range_reported, C21_counts_agree, C21_implemented_accepted,
  C21_unimplemented_rejected, C21_missing_anchor_rejected, C21_rejected_together_refuted,
  C22_constructed, C24_same_patterns, C25_closure_terminates, C25_base_level_unrefined,
  C26_least_admissible_set, C26_nothing_marked, C27_patterns_compatible, C27_uniform_compatible,
  C27_no_hanging_nodes, C28_refinement_succeeds, C28_any_history, C28_degenerate_refuted,
  C29_entity_counts, C29_regular_counts, C29_barycentric_counts, C30_parents_and_children_inverse,
  C31_adjacent_cells, C32_uniform_hierarchy, C36_number_of_super_entities, C36_boundary_flags,
  C36_boundary_flags_all, C61_narrow, C60_constructor, C60_getMesh_partial, C68_is_physical,
  C73_set_binary, C77_expressions_partial, C77_constant, C77_objects_refuted, C77_row_major_refuted,
  C77_matrix_norm_refuted, C77_no_points_refuted, C78_codim, C78_codim_new, C78_all, C78_all_new,
  C79_read, C79_unique, C79_foreign_refuted, C79_dollar_refuted, C80_sound, C80_truncated,
  C80_order_refuted, C80_tags_refuted, C82_constructed, C82_stacked, C82_distributes,
  C82_no_repetition, C83_element_matrix, C83_element_vector, C83_matrix, C83_vector, C85_matlab,
  C85_level, C85_hierarchy, C85_names_refuted, C85_directory_refuted, C85_precision_refuted,
  C86_plot, C86_short_refuted, C88_signs, C88_one, C88_boundary, C91_accepts, C91_space,
  C91_component_space, C94_text, C94_accepted, C94_unsigned_char_refuted, C94_precision_refuted,
  C94_empty_field_refuted, C94_names_refuted, C94_previous_refuted, C95_binary,
  C95_unsigned_char_refuted, C104_picture, C104_closed, C104_or, C104_and, C104_no_cells,
  C104_default_refuted.
* `ClassicalDedekindReals.sig_forall_dec`, `FunctionalExtensionality.functional_extensionality_dep`:
  C16_positive_semidefinite, C22_children_tile, C23_edge_traces, C24_nodes_at_corners_of_children,
  C62_longest_edge, C40_jacobian_is_derivative, C42_shared_edges, C43_inverse_gramian, C64_affine,
  C45_counts, C45_cardinal, C45_partition_of_unity, C45_complete, C46_gradients, C47_continuous,
  C48_legendre_derivatives, C48_jacobi_derivatives, C48_ends, C48_ijacobi_left, C49_counts,
  C49_segment_rows, C49_segment_counts_refuted, C49_tria_traces, C49_quad_traces, C49_continuous,
  C50_segment, C50_tria, C50_quad, C54_transparent, C54_kept, C56_barycentric, C57_lagrange,
  C58_lagrange, C58_consistent, C66_fe_continuous, C66_interpolates, C70_neighbours,
  C71_grid_partial, C71_grid_kept, C72_point_function_partial, C72_point_vector_function_partial,
  C72_fe_function, C72_point_scalars, C72_point_vectors, C72_cell_scalars, C72_cell_vectors,
  C72_cell_function_partial, C72_cell_vector_function_partial, C73_valid_file, C73_rejected,
  C73_no_assertion, C73_nothing_lost, C73_global_data, C74_symmetric, C74_nonnegative,
  C74_form_symmetric, C74_mass_form_symmetric, C75_gradient, C75_lagrange, C76_essential,
  C76_unique, C77_global, C81_unique, C84_element_matrix, C84_element_vector, C84_optimal_unique,
  C91_factory, C91_rejected, C91_local, C91_components, C91_continuous, C91_flux_refuted,
  C91_reuse_refuted, C92_conditions, C92_accepted, C92_flux_refuted, C92_flux_fails, C93_constant,
  C93_discontinuous, C93_trace, C93_lagrange_traces, C93_boundary, C102_durations, C102_ends_early,
  C106_flux_single_valued_partial, C106_flux_single_valued_refuted.
* `ClassicalDedekindReals.sig_forall_dec`, `ClassicalDedekindReals.sig_not_dec`,
  `FunctionalExtensionality.functional_extensionality_dep`: C33_triangular_tensor_product_mesh,
  C33_C34_C35_nothing_to_build, C33_C34_thin_cells_refuted, C34_quadrilateral_tensor_product_mesh,
  C35_torus_mesh, C35_small_torus_refuted, C35_two_along_refuted, C35_square_refuted,
  C36_flags_of_structured_meshes, C41_edges, C41_nodes, C41_self, C41_no_others,
  C41_tolerance_refuted, C42_children, C42_point, C42_success, C42_barycentric_refuted,
  C43_integration_element, C43_affine_cells_regular, C44_control_points, C63_length, C63_area,
  C63_area_in_space, C64_second_order_refuted, C48_legendre_orthogonal, C48_jacobi_orthogonal,
  C51_segment, C51_tria, C51_quad, C52_weights, C53_zeros_exist, C53_elementary, C55_diffusion,
  C55_mass, C55_mass_edge, C55_load, C55_load_edge, C55_diffusion_energy, C55_mass_energy,
  C55_mass_total, C55_load_total, C55_diffusion_exact, C55_mass_exact, C55_load_exact,
  C55_diffusion_accuracy, C55_mass_accuracy, C55_load_accuracy, C55_lagrange, C56_laplace_tria,
  C56_laplace_tria_energy, C56_laplace_quad, C56_gauss4, C56_laplace_quad_energy, C56_load,
  C56_load_outside_refuted, C65_reaction_diffusion, C65_reaction_diffusion_given, C65_energy,
  C65_missing, C65_load, C65_load_given, C65_mass_edge, C65_load_edge, C57_hierarchic,
  C58_hierarchic, C59_sum_partial, C59_first_rejected, C59_predicate_refuted, C59_empty,
  C59_points_refuted, C59_exact, C59_accuracy, C59_degree, C60_history, C60_relative_geometry,
  C60_transfer, C60_image_unique, C60_same_point, C60_world_function, C60_geometries,
  C60_getMesh_refuted, C66_transfer_continuous, C66_prolongation, C66_exact, C67_import,
  C67_outcome, C67_loose_edge_refuted, C67_formats_refuted, C67_lone_point_refuted,
  C68_points_partial, C68_points_refuted, C68_sorted_refuted, C69_name_lookup_partial,
  C69_number_lookup_partial, C69_lookup_refuted, C69_lookup_undefined_refuted, C69_inverse,
  C69_entities, C70_levels, C70_first_order, C70_second_order, C71_order7_refuted, C71_levels,
  C72_centre_refuted, C72_long_vectors_refuted, C74_diffusion, C74_mass, C74_mass_edge, C74_load,
  C74_load_edge, C74_reaction_diffusion, C74_reaction_diffusion_rules, C74_uload, C74_uload_rules,
  C74_umass_edge, C74_uload_edge, C74_diffusion_defined, C74_mass_defined, C74_load_defined,
  C74_form_nonnegative, C74_mass_form_nonnegative, C74_constants, C74_lagrange,
  C74_diffusion_accuracy, C74_mass_accuracy, C74_load_accuracy, C74_data,
  C76_boundary_value_problem, C76_unique_problem, C76_unique_triangulation, C76_reaction, C76_robin,
  C81_import, C81_end_to_end, C84_estimator, C84_total_error, C84_minimal_residual,
  C87_outer_normals, C87_unique, C87_divergence, C87_curved_refuted, C88_prescribed_normal,
  C89_inflow, C89_outflow, C89_partition, C90_boundary_rules, C96_normals, C96_tangentials,
  C96_neighbours, C96_all_cells, C97_no_flow, C97_one_solution, C98_coefficients, C98_velocity,
  C98_function, C98_flow, C98_no_flow, C99_annulus_mesh, C99_region, C99_center_refuted,
  C99_few_cells_refuted, C100_system, C100_one_solution, C100_velocity, C100_several_curves,
  C100_hole_refuted, C101_l2, C101_l2_constant, C101_dg_partial, C101_dg_fixed,
  C101_gradient_refuted, C101_points_refuted, C102_empty_refuted, C102_step_unique,
  C102_step_stable, C102_step_conserves, C102_step_stationary, C102_step_eigenvector, C103_matrices,
  C103_symmetric, C103_nonnegative, C103_positive, C103_constants, C103_total, C103_population,
  C103_integral, C103_integral_missing, C105_diffusion, C105_diffusion_symmetric, C105_reaction,
  C105_convection, C105_diffusion_integrals, C105_reaction_integrals, C105_convection_integrals,
  C105_missing, C105_load, C105_load_integrals, C105_build, C105_build_load, C105_constructed,
  C105_load_constructed, C105_cells, C105_assembly, C106_flux, C106_flux_integrals,
  C106_flux_missing, C106_trace, C106_trace_integrals, C106_trace_missing, C106_flux_cells,
  C106_trace_cells, C107_structured, C107_refined, C107_triangulation, C107_no_flow,
  C107_in_out_flow, C107_levels, C107_rectangle_levels, C107_fit_no_flow, C107_fit_in_out_flow.
* `ClassicalDedekindReals.sig_forall_dec`: C47_two_cells, C57_sets, C57_reproduces, C58_flags,
  C58_values, C58_reproduces.
* `ClassicalDedekindReals.sig_forall_dec`, `ClassicalDedekindReals.sig_not_dec`,
  `FunctionalExtensionality.functional_extensionality_dep`, and for 63-bit integers `PrimInt63.add`,
  `PrimInt63.eqb`, `PrimInt63.int`, `PrimInt63.land`, `PrimInt63.leb`, `PrimInt63.lor`,
  `PrimInt63.lsl`, `PrimInt63.lsr`, `PrimInt63.ltb`, `PrimInt63.mulc`, `PrimInt63.sub`,
  `Uint63.add_spec`, `Uint63.eqb_correct`, `Uint63.eqb_refl`, `Uint63.leb_spec`, `Uint63.lor_spec`,
  `Uint63.lsl_spec`, `Uint63.lsr_spec`, `Uint63.ltb_spec`, `Uint63.mulc_spec`, `Uint63.of_to_Z`,
  `Uint63.sub_spec`: C52_tables, C52_exactly_refuted.
* `ClassicalDedekindReals.sig_forall_dec`, `ClassicalDedekindReals.sig_not_dec`,
  `Classical_Prop.classic`, `FunctionalExtensionality.functional_extensionality_dep`: C53_gauss,
  C76_rules_reaction, C76_rules_robin, C102_evolution_partial, C102_final_time_refuted,
  C102_diffusion_accuracy, C102_stability, C102_flow_unique, C102_flow_exists, C103_evolution,
  C105_diffusion_refuted.
* `ClassicalDedekindReals.sig_forall_dec`, `ClassicalDedekindReals.sig_not_dec`,
  `Classical_Prop.classic`, `FunctionalExtensionality.functional_extensionality_dep`, and for 63-bit
  integers `PrimInt63.add`, `PrimInt63.eqb`, `PrimInt63.int`, `PrimInt63.land`, `PrimInt63.leb`,
  `PrimInt63.lor`, `PrimInt63.lsl`, `PrimInt63.lsr`, `PrimInt63.ltb`, `PrimInt63.mulc`,
  `PrimInt63.sub`, `Uint63.add_spec`, `Uint63.eqb_correct`, `Uint63.eqb_refl`, `Uint63.leb_spec`,
  `Uint63.lor_spec`, `Uint63.lsl_spec`, `Uint63.lsr_spec`, `Uint63.ltb_spec`, `Uint63.mulc_spec`,
  `Uint63.of_to_Z`, `Uint63.sub_spec`: C54_total, C55_rules, C74_rules, C76_rules,
  C76_unique_library, C76_reaction_library, C76_robin_library, C103_rules.
