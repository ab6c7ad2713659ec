{"id": "C01", "title": "MeshFactory index contract", "statement": "The k-th successful AddPoint returns k; the k-th AddEntity of a segment returns k; the k-th AddEntity of a cell returns k (counting from 0, per kind, since the factory was created or last Built). After a successful Build, EntityByIndex(codim, that index) is the entity that was added: a point at the given position, a segment with the given end points in the given order, a cell of the given type with the given corners in the given order.", "quantifier": "all finite sequences of AddPoint/AddEntity calls accepted by the factory, followed by Build", "why_tests_cant": "the contract is about every interleaving of insertion calls and every mesh size; a test checks a handful of meshes", "anchors": ["lib/lf/mesh/hybrid2d/mesh_factory.cc: AddPoint, AddEntity, Build", "lib/lf/mesh/hybrid2d/mesh.cc: Mesh::Mesh, EntityByIndex"]}
{"id": "C02", "title": "One edge per node pair", "statement": "In a built mesh the edges are in bijection with the unordered node pairs {a,b} such that a segment a-b was added or a-b are consecutive corners of some added cell: no such pair is missing, none occurs twice, and there is no other edge.", "quantifier": "all insertion histories for which Build succeeds", "why_tests_cant": "edge identification goes through an ordered map shared by all cells; whether it can ever split or merge an edge is a statement about all meshes", "anchors": ["lib/lf/mesh/hybrid2d/mesh.cc: Mesh::Mesh, EndpointIndexPair"]}
{"id": "C03", "title": "Cell/edge incidence and relative orientation", "statement": "For every cell with n corners and every j<n, sub-entity j of codimension 1 is the edge connecting corner j and corner (j+1) mod n; RelativeOrientations()[j] is positive iff that edge's node 0 is corner j and negative iff that edge's node 0 is corner (j+1) mod n. Consequently two cells sharing an edge agree on its direction.", "quantifier": "all insertion histories for which Build succeeds, all cells, all local edges", "why_tests_cant": "orientation depends on which cell or which explicit segment registered the edge first, i.e. on the history", "anchors": ["lib/lf/mesh/hybrid2d/mesh.cc: Mesh::Mesh", "lib/lf/mesh/hybrid2d/triangle.cc: Triangle", "lib/lf/mesh/hybrid2d/quad.cc: Quadrilateral"]}
{"id": "C04", "title": "Outcome of Build", "statement": "The Add calls accept exactly the legal histories (non-null point geometry, right number of nodes, node indices below the number of points added so far). Build then succeeds iff the input is consistent (supplied segments have a geometry, two different endpoints and pairwise different endpoint pairs; neighbouring corners of a cell differ) and, if completeness is checked, complete (every supplied segment is a side of a cell, every node lies on an edge). It throws an exception exactly for consistent but incomplete input with the check on; all other failures are debug assertions. It never returns a mesh otherwise.", "quantifier": "all insertion histories", "why_tests_cant": "a characterisation by if-and-only-if ranges over all invalid inputs", "anchors": ["lib/lf/mesh/hybrid2d/mesh.cc: Mesh::Mesh completeness checks", "lib/lf/mesh/hybrid2d/mesh_factory.cc: AddEntity"]}
{"id": "C05", "title": "Entity numbering is a bijection", "statement": "For each codimension, Index maps the entities of a mesh one-to-one onto {0,...,NumEntities(codim)-1} and EntityByIndex is its inverse; explicitly added segments occupy the first indices in insertion order and implicitly created edges follow.", "quantifier": "all insertion histories for which Build succeeds", "why_tests_cant": "a bijection claim over all meshes", "anchors": ["lib/lf/mesh/hybrid2d/mesh.cc: Index, EntityByIndex, NumEntities"]}
{"id": "C06", "title": "Factory is reusable", "statement": "After Build the factory is empty: the mesh built from calls made after a Build depends only on those calls and index numbering restarts at 0.", "quantifier": "all histories containing any number of Build calls", "why_tests_cant": "state leaking between builds shows only for particular histories", "anchors": ["lib/lf/mesh/hybrid2d/mesh_factory.cc: Build"]}
{"id": "C07", "title": "Built meshes are exactly the well-formed meshes", "statement": "What a client sees of a mesh returned by Build (number of nodes, endpoints of edges, corners, edges and relative orientations of cells, by index) is a well-formed mesh: edges join two different existing nodes and no two edges join the same pair; edge j of a cell joins corners j and j+1 in the direction told by its orientation. Conversely every well-formed (and, with completeness check, complete) mesh is produced by some sequence of factory calls.", "quantifier": "all insertion histories and all well-formed meshes of any size", "why_tests_cant": "characterises the set of all reachable meshes", "anchors": ["lib/lf/mesh/hybrid2d/mesh.cc: Mesh::Mesh", "lib/lf/mesh/hybrid2d/mesh_factory.cc: MeshFactory"]}
{"id": "C10", "title": "Uniform dof numbering is a partition", "statement": "The sets InteriorGlobalDofIndices(e), e ranging over all nodes, edges and cells, are pairwise disjoint, each has NumInteriorDofs(e) distinct members, and their union is exactly {0,...,NumDofs()-1}; NumDofs() = sum over entities of the layout; Entity(dof) returns the unique entity owning the dof.", "quantifier": "all meshes, all non-negative uniform layouts (dofs per point/segment/triangle/quad)", "why_tests_cant": "off-by-one in offsets shows only for particular combinations of layout and hybrid meshes", "anchors": ["lib/lf/assemble/dofhandler.cc: UniformFEDofHandler"]}
{"id": "C11", "title": "Canonical local dof ordering and sharing", "statement": "GlobalDofIndices(cell) is the concatenation, in this order, of the interior dofs of its corners in corner order, of its edges in edge order, and of the cell itself; with orientation checking the edge block is reversed iff the relative orientation is negative. NumLocalDofs(cell) is its length. GlobalDofIndices(edge) = dofs of node 0, node 1, interior dofs of edge. Hence adjacent cells address shared dofs by the same numbers in the same order along the edge.", "quantifier": "all meshes, all layouts, all entities", "why_tests_cant": "conformity of the FE space for every mesh and every orientation pattern", "anchors": ["lib/lf/assemble/dofhandler.cc: initIndexArrays, GlobalDofIndices", "lib/lf/assemble/dofhandler.h: documentation of numbering rules"]}
{"id": "C12", "title": "Numbering rules across entities", "statement": "Dofs on entities of lower dimension have smaller numbers than dofs on entities of higher dimension, and for entities of equal dimension smaller entity indices have smaller dof numbers; interior dofs of one entity are numbered consecutively.", "quantifier": "all meshes, all layouts", "why_tests_cant": "ordering claim over all pairs of dofs", "anchors": ["lib/lf/assemble/dofhandler.h: lines 44-106", "lib/lf/assemble/dofhandler.cc"]}
{"id": "C13", "title": "Dynamic dof handler obeys the same contract", "statement": "For every assignment of local dof counts to entities, the dynamic dof handler satisfies C10-C12 (with orientation always respected), and if the assignment depends only on the entity type it produces exactly the numbering of the uniform dof handler.", "quantifier": "all meshes, all functions entity -> number of interior dofs", "why_tests_cant": "two separately written implementations must agree for every mesh and layout", "anchors": ["lib/lf/assemble/dofhandler.h: DynamicFEDofHandler", "lib/lf/assemble/dofhandler.cc"]}
{"id": "C14", "title": "COOMatrix denotes the sum of its triplets", "statement": "The matrix represented by a COOMatrix has entry (i,j) = sum of all values added at (i,j); makeDense and makeSparse produce that matrix; MatVecMult(alpha, v, r) adds alpha*A*v; setZero() yields the zero matrix; setZero(pred) zeroes exactly the entries whose positions satisfy pred and leaves all others unchanged; rows() and cols() never shrink: they are the smallest sizes that are at least the initial ones and make room for every position ever added.", "quantifier": "all sequences of operations and all matrices", "why_tests_cant": "history-quantified; duplicates and repeated zeroing combine arbitrarily", "anchors": ["lib/lf/assemble/coomatrix.h: AddToEntry, setZero, makeSparse, makeDense, MatVecMult"]}
{"id": "C15", "title": "Galerkin matrix assembly", "statement": "AssembleMatrixLocally adds to entry (i,j) exactly the sum over active entities K and local indices (a,b) with trial dof b of K equal j and test dof a of K equal i of the element matrix entry (a,b), i.e. A = A0 + sum_K P_test(K)^T M_K P_trial(K); inactive entities contribute nothing and entries present before are kept.", "quantifier": "all meshes, dof handlers, element matrix providers, activity predicates and initial matrices", "why_tests_cant": "the sum identity is over all meshes and all providers", "anchors": ["lib/lf/assemble/assembler.h: AssembleMatrixLocally"]}
{"id": "C16", "title": "Assembled bilinear form", "statement": "For coefficient vectors u,v: v^T A u = sum_K v_K^T M_K u_K with u_K the local coefficients; symmetric element matrices (same trial/test dof handler) give a symmetric A, positive semi-definite ones a positive semi-definite A; the result does not depend on the order in which cells are visited.", "quantifier": "all meshes, providers and coefficient vectors", "why_tests_cant": "algebraic consequence for all inputs", "anchors": ["lib/lf/assemble/assembler.h: AssembleMatrixLocally"]}
{"id": "C17", "title": "Load vector assembly", "statement": "AssembleVectorLocally adds to component i exactly the sum over active entities and local indices a with dof a of K equal i of the element vector entry a.", "quantifier": "all meshes, dof handlers, providers", "why_tests_cant": "as C15", "anchors": ["lib/lf/assemble/assembler.h: AssembleVectorLocally"]}
{"id": "C18", "title": "FixFlaggedSolutionComponents is equivalent elimination", "statement": "After FixFlaggedSolutionComponents(selvals, A, b): x solves A'x=b' iff x_i equals the prescribed value for every flagged i and (A x)_j = b_j (old A, b) for every unflagged j. If A was symmetric so is A'.", "quantifier": "all matrices, right-hand sides, flag/value selectors and vectors x", "why_tests_cant": "an equivalence over all linear systems", "anchors": ["lib/lf/assemble/fix_dof.h: FixFlaggedSolutionComponents"]}
{"id": "C19", "title": "FixFlaggedSolutionCompAlt is equivalent elimination", "statement": "Same equivalence as C18 for the row-only variant.", "quantifier": "all linear systems, selectors, vectors x", "why_tests_cant": "as C18", "anchors": ["lib/lf/assemble/fix_dof.h: FixFlaggedSolutionCompAlt"]}
{"id": "C20", "title": "FixSolutionComponentsLse", "statement": "For a list of (index,value) pairs with distinct indices FixSolutionComponentsLse has the effect described in C18 for that list; with a repeated index the behaviour deviates from prescribing any of the given values.", "quantifier": "all linear systems and all lists of pairs", "why_tests_cant": "the duplicate-index case is only visible for particular lists", "anchors": ["lib/lf/assemble/fix_dof.h: FixSolutionComponentsLse"]}
{"id": "C21", "title": "NumChildren agrees with ChildPolygons", "statement": "For each reference element, each pattern implemented for it, each anchor and codimension: NumChildren(codim) succeeds, ChildPolygons(codim) succeeds if the anchor is given whenever the pattern needs one, and the announced number equals the number of polygons. For cells, child cells and edges of unimplemented patterns are rejected by both. (That the two are always rejected together is false: for points ChildPolygons accepts every pattern, for segments it accepts every pattern at codimension 1, and NumChildren never asks for an anchor.)", "quantifier": "all (element, pattern, anchor, codim) and all admissible lattice constants", "why_tests_cant": "two separately written case tables (over 900 lines)", "anchors": ["lib/lf/refinement/hybrid2d_refinement_pattern.cc: NumChildren, ChildPolygons"]}
{"id": "C22", "title": "Child polygons tile the reference element", "statement": "For every supported pattern and anchor of triangle and quadrilateral: every point of the reference element lies in some child polygon, the open child polygons are pairwise disjoint and contained in the reference element, and their areas add up to its area.", "quantifier": "all real points of the reference element, all patterns and anchors, all lattice constants divisible by 6", "why_tests_cant": "covers a continuum of points", "anchors": ["lib/lf/refinement/hybrid2d_refinement_pattern.cc: ChildPolygons"]}
{"id": "C23", "title": "Edge traces of the patterns", "statement": "A pattern subdivides each edge of the reference element either not at all or exactly at its midpoint, and which edges are subdivided depends on pattern and anchor as documented; interior child edges/points reported for codim 1 and 2 are exactly the edges/points of the child polygons that do not lie on the element boundary.", "quantifier": "all patterns and anchors", "why_tests_cant": "table-wide claim tying three tables together", "anchors": ["lib/lf/refinement/hybrid2d_refinement_pattern.cc: ChildPolygons"]}
{"id": "C24", "title": "Topological refinement matches the patterns", "statement": "The corner nodes used by the mesh hierarchy for the children of a cell sit, in the same order, at the corners of the child polygons of its pattern; likewise for interior edges: vertex k of the parent is corner k, the new node on parent edge k is the midpoint of edge k, the new interior node is the lattice centre.", "quantifier": "all patterns and anchors", "why_tests_cant": "PerformRefinement and ChildPolygons are two independent tables", "anchors": ["lib/lf/refinement/mesh_hierarchy.cc: PerformRefinement", "lib/lf/refinement/hybrid2d_refinement_pattern.cc: ChildPolygons"]}
{"id": "C25", "title": "RefineMarked terminates", "statement": "The closure loop of RefineMarked terminates for every mesh, every choice of refinement edges and every marking.", "quantifier": "all conforming hybrid meshes, refinement edges and edge markings", "why_tests_cant": "termination is a liveness claim over all meshes", "anchors": ["lib/lf/refinement/mesh_hierarchy.cc: RefineMarked"]}
{"id": "C26", "title": "RefineMarked splits the least admissible edge set", "statement": "The set of edges split by RefineMarked is the least set that contains all marked edges and, whenever it contains an edge of a triangle, contains that triangle's refinement edge. In particular it does not depend on the traversal order, all marked edges are split and nothing is split if nothing is marked.", "quantifier": "all meshes, refinement edges, markings", "why_tests_cant": "least fixpoint over all meshes; over-refinement is not detected by any conformity test", "anchors": ["lib/lf/refinement/mesh_hierarchy.cc: RefineMarked"]}
{"id": "C27", "title": "Every cell gets a compatible pattern", "statement": "After the closure the pattern and anchor stored for each cell subdivide exactly those of its edges that are split (in the sense of C23), so neighbouring cells agree on their common edge (no hanging nodes).", "quantifier": "all meshes, refinement edges, markings, cells", "why_tests_cant": "all 2^3+2^4 split configurations times all meshes times closure interaction", "anchors": ["lib/lf/refinement/mesh_hierarchy.cc: RefineMarked", "lib/lf/refinement/hybrid2d_refinement_pattern.cc"]}
{"id": "C28", "title": "The refined mesh is conforming and complete", "statement": "Building the refined mesh succeeds; its edges are exactly the children of coarse edges and the interior edges of refined cells (no edge is created implicitly and every registered edge is an edge of some fine cell if that held on the coarse mesh), so every fine entity has a parent.", "quantifier": "all meshes satisfying the mesh invariants with compatible patterns (C27) or uniform refinement", "why_tests_cant": "an interplay of global numbering and local tables on all meshes", "anchors": ["lib/lf/refinement/mesh_hierarchy.cc: PerformRefinement", "lib/lf/mesh/hybrid2d/mesh.cc"]}
{"id": "C29", "title": "Entity counts of the refined mesh", "statement": "#fine nodes = #nodes + #split edges + #interior nodes, #fine edges = #copied edges + 2 #split edges + sum of interior edges, #fine cells = sum of NumChildren. For regular refinement of a triangular mesh: N+E nodes, 2E+3T edges, 4T cells.", "quantifier": "all meshes and refinements", "why_tests_cant": "counts over all meshes", "anchors": ["lib/lf/refinement/mesh_hierarchy.cc: PerformRefinement"]}
{"id": "C30", "title": "Parent/child links are inverse", "statement": "ParentInfos and the child lists stored for points, edges and cells are inverse to each other: fine entity f is the k-th child of entity p iff ParentInfo(f) = (p,k); every fine entity has exactly one parent and the parent index refers to an entity of the previous level.", "quantifier": "all meshes and refinements", "why_tests_cant": "a relation between two global tables", "anchors": ["lib/lf/refinement/mesh_hierarchy.cc: PerformRefinement", "lib/lf/refinement/mesh_hierarchy.h: ParentInfo"]}
{"id": "C31", "title": "Refinement preserves the boundary", "statement": "A fine edge has exactly one adjacent cell iff it is a child of a coarse edge with exactly one adjacent cell; edges interior to a refined cell have exactly two adjacent cells; the number of cells at a child edge equals that at its parent edge.", "quantifier": "all meshes and refinements", "why_tests_cant": "adjacency on all meshes", "anchors": ["lib/lf/refinement/mesh_hierarchy.cc: PerformRefinement", "lib/lf/mesh/utils/special_entity_sets.cc"]}
{"id": "C32", "title": "Uniform refinement hierarchy", "statement": "GenerateMeshHierarchyByUniformRefinement with L steps yields L+1 levels, level 0 being the given mesh, and with regular refinement level l has 4^l times the cells of level 0.", "quantifier": "all meshes, all L", "why_tests_cant": "induction over L", "anchors": ["lib/lf/refinement/mesh_hierarchy.cc: GenerateMeshHierarchyByUniformRefinemnt, RefineRegular"]}
{"id": "C33", "title": "Tensor-product triangular mesh builder", "statement": "For all nx,ny>=1, if the sides hx, hy of the cells do not differ too much (2(hx^2+hy^2) < 1e8*min(hx^2,hy^2)), Build yields a valid mesh with (nx+1)(ny+1) nodes, nx*ny+(nx+1)*ny+nx*(ny+1) edges, 2*nx*ny triangles; all triangles are positively oriented with area hx*hy/2 and tile the rectangle; every edge is adjacent to one or two triangles and has exactly one iff both end points lie on a common side of the rectangle. For all other hx, hy Build throws; without cells or on an empty rectangle it returns null.", "quantifier": "all nx,ny>=1 and rectangles of positive size", "why_tests_cant": "unbounded family of meshes", "anchors": ["lib/lf/mesh/utils/tp_triag_mesh_builder.cc"]}
{"id": "C34", "title": "Tensor-product quadrilateral mesh builder", "statement": "For all nx,ny>=1, if the sides of the cells do not differ too much (as in C33), Build yields a valid mesh with (nx+1)(ny+1) nodes, (nx+1)*ny+nx*(ny+1) edges and nx*ny quads, each edge adjacent to one or two cells, one iff on the boundary. All cells are positively oriented rectangles of area hx*hy and tile the domain; nodes are at the grid points. For all other sizes Build throws.", "quantifier": "all nx,ny>=1", "why_tests_cant": "unbounded family; edges are created implicitly", "anchors": ["lib/lf/mesh/utils/tp_quad_mesh_builder.cc", "lib/lf/mesh/hybrid2d/mesh.cc"]}
{"id": "C35", "title": "Torus mesh builder", "statement": "For all nx,ny>=3, if the torus has a hole and its cells are not too thin, the torus mesh has nx*ny nodes at the grid points of the torus, 2*nx*ny edges and nx*ny quads and no boundary (every edge is adjacent to exactly two cells); for smaller nx or ny the documented counts fail or Build throws, and it throws on squares with even nx.", "quantifier": "all nx,ny", "why_tests_cant": "unbounded family with wrap-around; small cases break", "anchors": ["lib/lf/mesh/utils/torus_mesh_builder.cc"]}
{"id": "C36", "title": "Boundary flags", "statement": "flagEntitiesOnBoundary(mesh,1) is true exactly for edges with exactly one adjacent cell; flagEntitiesOnBoundary(mesh,2) exactly for nodes that are end points of such an edge; the all-codimension version combines these and is false for all cells; CountNumSuperEntities counts adjacent super-entities.", "quantifier": "all meshes", "why_tests_cant": "set-level specification on all meshes", "anchors": ["lib/lf/mesh/utils/special_entity_sets.cc"]}
{"id": "C40", "title": "Jacobian is the derivative of the element map", "statement": "For every geometry type, Jacobian(x) is the derivative of Global at x (in every world dimension).", "quantifier": "all vertex/control point positions, all reference points", "why_tests_cant": "identity of real functions", "anchors": ["lib/lf/geometry/*.cc: Global, Jacobian"]}
{"id": "C41", "title": "SubGeometry is the restriction of Global", "statement": "SubGeometry(codim,i).Global(t) = Global(xi_i(t)) where xi_i parametrises sub-entity i of the reference element following its node order.", "quantifier": "all control points, all sub-entities, all t", "why_tests_cant": "identity of real functions", "anchors": ["lib/lf/geometry/*.cc: SubGeometry"]}
{"id": "C42", "title": "ChildGeometry is consistent", "statement": "For each child polygon the map of the returned geometry equals Global composed with the (affine or bilinear) map onto the child polygon whenever that composition belongs to the geometry's function class (always for affine cells), and at least at all its interpolation points otherwise; children sharing an edge agree on it.", "quantifier": "all control points, all child polygons, all reference points", "why_tests_cant": "identity of real functions for arbitrary polygons", "anchors": ["lib/lf/geometry/*.cc: ChildGeometry"]}
{"id": "C43", "title": "Metric quantities", "statement": "JacobianInverseGramian = J (J^T J)^-1 and IntegrationElement = sqrt(det(J^T J)) hold for all geometry types, including the special 2D formulas (J^-T and |det J|).", "quantifier": "all non-degenerate control points and reference points", "why_tests_cant": "identity of real functions", "anchors": ["lib/lf/geometry/*.cc: JacobianInverseGramian, IntegrationElement"]}
{"id": "C44", "title": "Control points are interpolated", "statement": "Every geometry's Global maps the reference nodes (and for second-order geometries the edge midpoints) to the points given to the constructor, in order.", "quantifier": "all geometry kinds, all world dimensions, all control points accepted by the constructor", "why_tests_cant": "identity over all real control points", "anchors": ["lib/lf/geometry/*.cc: constructors, Global", "lib/lf/geometry/geometry_interface.h: Corners"]}
{"id": "C45", "title": "Lagrangian basis is cardinal, complete and a partition of unity", "statement": "For each Lagrangian element (degree 1-3 on segment, triangle, quadrilateral) shape function i is 1 at evaluation node i and 0 at the others; the shape functions sum to 1; interpolation at the evaluation nodes reproduces every polynomial of the element's space.", "quantifier": "all reference points and all polynomials of the space", "why_tests_cant": "identity of polynomials, infinitely many functions", "anchors": ["lib/lf/uscalfe/lagr_fe.h"]}
{"id": "C46", "title": "Lagrangian gradients", "statement": "GradientsReferenceShapeFunctions returns the partial derivatives of EvalReferenceShapeFunctions.", "quantifier": "all reference points", "why_tests_cant": "identity of real functions", "anchors": ["lib/lf/uscalfe/lagr_fe.h"]}
{"id": "C47", "title": "Global continuity of Lagrangian finite element functions", "statement": "On every mesh, for every coefficient vector, the values of the finite element function computed from two cells sharing an edge coincide at every point of the edge, and coincide with the value computed from the edge itself.", "quantifier": "all meshes, coefficient vectors, degrees 1-3, edges, points", "why_tests_cant": "continuity for all meshes/orientations (orientation reversal matters for degree 3)", "anchors": ["lib/lf/uscalfe/lagr_fe.h", "lib/lf/fe/mesh_function_fe.h", "lib/lf/assemble/dofhandler.cc"]}
{"id": "C48", "title": "Legendre and integrated Legendre polynomials", "statement": "For every degree n: ILegendreDx and ILegendreDt are the partial derivatives of ILegendre, LegendreDx is the derivative of Legendre, ILegendre(n) vanishes at both end points for n>=2, Legendre polynomials are orthogonal with norm 1/(2n+1).", "quantifier": "all degrees n, all x and t", "why_tests_cant": "induction over unbounded degree", "anchors": ["lib/lf/fe/hierarchic_fe.cc"]}
{"id": "C49", "title": "Hierarchic shape functions: counts, traces, continuity", "statement": "For all degrees: number of rows = NumRefShapeFunctions; edge functions vanish on the other edges and interior functions on all edges; traces on an edge are the segment shape functions (up to the orientation reversal undone by the dof handler), so finite element functions are continuous on every mesh with variable degrees.", "quantifier": "all degree assignments, orientations, points, meshes", "why_tests_cant": "unbounded degree, all meshes", "anchors": ["lib/lf/fe/hierarchic_fe.h", "lib/lf/fe/hierarchic_scalar_fe_space.h"]}
{"id": "C50", "title": "Hierarchic gradients", "statement": "GradientsReferenceShapeFunctions of the hierarchic elements are the derivatives of EvalReferenceShapeFunctions.", "quantifier": "all degrees, orientations and points", "why_tests_cant": "unbounded degree", "anchors": ["lib/lf/fe/hierarchic_fe.h", "lib/lf/fe/hierarchic_fe.cc: IJacobi, IJacobiDx"]}
{"id": "C51", "title": "Hierarchic dof functionals are dual to the basis", "statement": "NodalValuesToDofs applied to the point values of a function in the local space returns its expansion coefficients (given a quadrature rule exact for the advertised degree).", "quantifier": "all degrees and all coefficient vectors", "why_tests_cant": "unbounded degree", "anchors": ["lib/lf/fe/hierarchic_fe.h: NodalValuesToDofs"]}
{"id": "C52", "title": "Triangle quadrature tables", "statement": "Each hard-coded triangle rule integrates every polynomial up to its advertised degree with error below a stated tolerance times the sum of the absolute values of the coefficients; all its points lie inside the triangle and its weights sum to 1/2 within that tolerance.", "quantifier": "all real polynomials of the degree", "why_tests_cant": "a continuum of polynomials", "anchors": ["lib/lf/quad/quad_rules_tria.cc", "lib/lf/quad/make_quad_rule.cc"]}
{"id": "C53", "title": "Tensor product, collapsed and elementary quadrature rules", "statement": "If the 1D rules are exact to their degree then the rules built by make_QuadRule for quadrilaterals (tensor product) and for triangles of degree >50 or 0 (Duffy) are exact to the advertised degree for all sizes; midpoint, edge midpoint, P6O4 and nodal rules are exact to the advertised degree.", "quantifier": "all numbers of points and all polynomials", "why_tests_cant": "all orders", "anchors": ["lib/lf/quad/make_quad_rule.cc", "lib/lf/quad/make_quad_rule_nodal.cc"]}
{"id": "C54", "title": "QuadRuleCache", "statement": "For every history of Get calls, Get(ref_el,degree) returns make_QuadRule(ref_el,degree), and rules returned earlier are not altered by later calls.", "quantifier": "all sequences of calls", "why_tests_cant": "history-quantified", "anchors": ["lib/lf/quad/quad_rule_cache.cc"]}
{"id": "C55", "title": "Element matrices and vectors", "statement": "The matrices and vectors returned by DiffusionElementMatrixProvider, MassElementMatrixProvider, MassEdgeMatrixProvider, ScalarLoadElementVectorProvider and ScalarLoadEdgeVectorProvider of lf::fe have as entries the values of the quadrature rule (of twice the polynomial degree) for the integrals of grad b_i . alpha grad b_j, gamma b_i b_j and f b_i over the entity, with true gradients in world coordinates. They are symmetric for symmetric coefficients and positive semi-definite for non-negative coefficients and weights; diffusion matrices annihilate constants when the shape functions form a partition of unity. On affine cells with constant coefficients the entries are the exact integrals, up to the exactness tolerance of the rule.", "quantifier": "all coefficients and source functions, geometries, finite elements, quadrature rules", "why_tests_cant": "identities for all inputs", "anchors": ["lib/lf/fe/loc_comp_ellbvp.h: DiffusionElementMatrixProvider::Eval, MassElementMatrixProvider::Eval, MassEdgeMatrixProvider::Eval, ScalarLoadElementVectorProvider::Eval, ScalarLoadEdgeVectorProvider::Eval"]}
{"id": "C56", "title": "LinearFELaplaceElementMatrix and LinearFELocalLoadVector", "statement": "On every non-degenerate triangle LinearFELaplaceElementMatrix returns area*grad(lambda_i).grad(lambda_j) with the true barycentric gradients, on quadrilaterals the values of the 2x2 Gauss rule for the integrals of products of gradients of bilinear shape functions; the matrices are symmetric, positive semi-definite and their rows sum to zero. LinearFELocalLoadVector returns the values of the edge midpoint rule for the integrals of source times shape function.", "quantifier": "all non-degenerate triangles/quadrilaterals", "why_tests_cant": "identities over the reals", "anchors": ["lib/lf/uscalfe/lin_fe.cc: LinearFELaplaceElementMatrix::Eval", "lib/lf/uscalfe/lin_fe.h: LinearFELocalLoadVector::Eval"]}
{"id": "C57", "title": "NodalProjection reproduces finite element functions", "statement": "Projecting a function that coincides on every cell with the finite element function of a coefficient vector returns that vector (whenever local NodalValuesToDofs is dual to the local basis); coefficients of dofs not touched by a selected cell are 0.", "quantifier": "all meshes, spaces, coefficient vectors, predicates", "why_tests_cant": "projection identity on all meshes", "anchors": ["lib/lf/fe/fe_tools.h: NodalProjection"]}
{"id": "C58", "title": "InitEssentialConditionFromFunction flags exactly the dofs of selected edges", "statement": "The result flags dof i iff i is a local dof of some selected edge; the value is the one computed from such an edge and values of unflagged dofs are zero.", "quantifier": "all meshes, selectors, functions", "why_tests_cant": "set-level specification on all meshes", "anchors": ["lib/lf/fe/fe_tools.h: InitEssentialConditionFromFunction"]}
{"id": "C59", "title": "IntegrateMeshFunction respects the predicate", "statement": "IntegrateMeshFunction returns the sum of the local integrals over exactly the entities satisfying the predicate.", "quantifier": "all meshes and predicates", "why_tests_cant": "only fails for predicates excluding the first entity", "anchors": ["lib/lf/fe/fe_tools.h: IntegrateMeshFunction"]}
{"id": "C60", "title": "Mesh function transfer", "statement": "MeshFunctionTransfer evaluates the coarse function at the image point through all intermediate levels, and getMesh returns the mesh of the fine level.", "quantifier": "all hierarchies, level pairs, points", "why_tests_cant": "multi-level composition over arbitrary level distances", "anchors": ["lib/lf/refinement/mesh_function_transfer.h"]}
{"id": "C61", "title": "narrow never changes the value", "statement": "base::narrow either returns a value equal to its argument as a mathematical integer or fails its check; it succeeds iff the value is representable.", "quantifier": "all pairs of integer types, all values", "why_tests_cant": "all values of all widths and signedness combinations", "anchors": ["lib/lf/base/narrow.h"]}
{"id": "C62", "title": "Initial refinement edge is the longest edge", "statement": "The refinement edge that the mesh hierarchy gives a triangle of the base mesh is a longest edge of it: its index is in range, no edge is longer, and it is the first one of maximal length.", "quantifier": "all non-empty lists of positive edge lengths", "why_tests_cant": "ranges over all triples of real lengths, including ties", "anchors": ["lib/lf/refinement/mesh_hierarchy.cc:MeshHierarchy::LongestEdge", "lib/lf/refinement/mesh_hierarchy.cc:MeshHierarchy::MeshHierarchy"]}
{"id": "C63", "title": "Volume of first-order geometries", "statement": "Volume() is the Euclidean length for straight segments, the polygon's area for planar triangles, quadrilaterals and parallelograms, and the surface area for triangles and parallelograms in space.", "quantifier": "all corner positions", "why_tests_cant": "identity over all real corner positions", "anchors": ["lib/lf/geometry/geometry_interface.cc: Volume", "lib/lf/geometry/*.cc: IntegrationElement"]}
{"id": "C64", "title": "isAffine() is right", "statement": "If isAffine() returns true then Global is an affine map and the Jacobian is the same at all reference points.", "quantifier": "all geometry kinds, all control points, all pairs of reference points", "why_tests_cant": "identity over all real control points and reference points", "anchors": ["lib/lf/geometry/geometry_interface.h: isAffine", "lib/lf/geometry/quad_o1.h: isAffine"]}
{"id": "C65", "title": "Providers of lf::uscalfe", "statement": "ReactionDiffusionElementMatrixProvider, ScalarLoadElementVectorProvider, MassEdgeMatrixProvider and ScalarLoadEdgeVectorProvider of lf::uscalfe return, for default and user-supplied quadrature rules, the values of the rule that belongs to the entity's type for the integrals of the (bi)linear form, with the shape functions and gradients precomputed at the points of that rule; matrices are symmetric and positive semi-definite for such coefficients. Entities without shape functions or without a rule are rejected by an exception.", "quantifier": "all coefficients, geometries, element layouts, collections of rules", "why_tests_cant": "identities for all inputs and all combinations of available elements and rules", "anchors": ["lib/lf/uscalfe/loc_comp_ellbvp.h", "lib/lf/uscalfe/precomputed_scalar_reference_finite_element.h"]}
{"id": "C66", "title": "Prolongation between levels", "statement": "For Lagrangian spaces of any orders on two consecutive levels of any mesh hierarchy and any coefficient vector of the right length, prolongate() succeeds; the resulting function on the finer mesh takes, at every interpolation node of every fine cell, the value of the coarse function at the image of that node. If the order does not decrease, it is equal to the coarse function at every point of every fine cell that has the type of its parent. The transfer of a continuous mesh function to any finer level is continuous, so that the coefficients do not depend on which cell a node is visited from.", "quantifier": "all refinement histories, meshes, levels, pairs of orders, coefficient vectors, cells and points", "why_tests_cant": "infinitely many hierarchies and coefficient vectors; consistency between all cells sharing a node or edge", "anchors": ["lib/lf/fe/prolongation.h: prolongate", "lib/lf/refinement/mesh_function_transfer.h", "lib/lf/fe/fe_tools.h: NodalProjection"]}
{"id": "C67", "title": "Import of Gmsh files", "statement": "A mesh read by GmshReader (version 2 or 4) has exactly the main nodes of the file as nodes, in the order of the file and with the same coordinates; its cells are, in order, the two-dimensional elements of the file (repetitions in a row are one cell) with the corresponding nodes; edges of the file come first among the edges, in order; all of them have the geometry (linear or second-order) given by the coordinates in the file, and the physical entity numbers of all their occurrences. A well-formed file is read exactly if no edge degenerates or is listed twice and (if completeness is checked) all edges belong to cells; in the latter case an exception is thrown otherwise.", "quantifier": "all contents of files of both versions, all element types, all orders of elements and blocks, both settings of the factory", "why_tests_cant": "unbounded files; all interleavings of points, edges, cells and repetitions", "anchors": ["lib/lf/io/gmsh_reader.cc: InitGmshFile", "lib/lf/io/gmsh_reader.h"]}
{"id": "C68", "title": "Physical entities of mesh entities", "statement": "PhysicalEntityNr(e) lists the numbers of the physical entities to which the file assigns e, for nodes, edges and cells, and IsPhysicalEntity(e,nr) holds exactly if nr is among them.", "quantifier": "all files, all entities", "why_tests_cant": "all orders in which (repeated) elements may be listed", "anchors": ["lib/lf/io/gmsh_reader.cc: PhysicalEntityNr, IsPhysicalEntity, InitGmshFile"]}
{"id": "C69", "title": "Names of physical entities", "statement": "PhysicalEntityName2Nr(name, codim) returns the number of the physical entity of that name and co-dimension listed in the file, without a co-dimension the only one with that name, and throws if there is none; likewise for PhysicalEntityNr2Name; the two are inverse to each other. PhysicalEntities(codim) lists exactly the named entities of that co-dimension in the order of their numbers.", "quantifier": "all lists of names, all names, numbers and co-dimensions", "why_tests_cant": "all multisets of names and numbers with all collisions", "anchors": ["lib/lf/io/gmsh_reader.cc: PhysicalEntityName2Nr, PhysicalEntityNr2Name, PhysicalEntities"]}
{"id": "C70", "title": "No gaps or overlaps along edges after refinement", "statement": "If in the mesh passed to a MeshHierarchy every cell maps each of its edges onto the same curve as the edge itself (with the orientation reported by RelativeOrientations) and its corners to the positions of its nodes, then this holds on every level of every hierarchy obtained by any sequence of uniform, barycentric and marked refinements: for every cell, local edge and parameter t in [0,1], Geometry()->Global on the cell gives exactly the point that Global of the edge gives, so that two cells sharing an edge agree on all of its points. Meshes of first-order cells built from common node positions, and meshes of second-order cells built from common node positions and one midpoint per edge, have this property.", "quantifier": "all refinement histories, levels, cells, local edges, points of edges, node positions and midpoints, world dimensions", "why_tests_cant": "tests compare corner positions at a few refined meshes; curved edges must agree at a continuum of points for unboundedly many refinement patterns and anchors", "anchors": ["lib/lf/refinement/mesh_hierarchy.cc: PerformRefinement", "lib/lf/geometry/segment_o2.cc: ChildGeometry", "lib/lf/geometry/tria_o2.cc: ChildGeometry, Global", "lib/lf/geometry/quad_o2.cc: ChildGeometry, Global", "lib/lf/geometry/tria_o1.cc: ChildGeometry", "lib/lf/geometry/quad_o1.cc: ChildGeometry", "lib/lf/refinement/hybrid2d_refinement_pattern.cc: ChildPolygons"]}
{"id": "C71", "title": "VTK files show the mesh", "statement": "For every watertight mesh of dimension 2 in a world of dimension 1 to 3, co-dimension 0 or 1 and order 1 to 10, the constructor of VtkWriter succeeds and creates an unstructured grid with exactly one cell per entity of the chosen co-dimension, at the index of the entity and of the VTK type for its shape and order. The points of a cell are listed in VTK's order for Lagrange cells, each at the position the entity's geometry gives for it (up to conversion to float); two cells share a point exactly if it lies on a common node or edge, and there are no unused points. The grid does not change by later calls. Every mesh of a refinement hierarchy over a watertight mesh can be written.", "quantifier": "all well-formed watertight meshes, geometries, co-dimensions, orders, roundings, refinement histories", "why_tests_cant": "tests write a few meshes and look at the file in a viewer; edge orientations, orders and shapes combine without bound", "anchors": ["lib/lf/io/vtk_writer.cc: VtkWriter::VtkWriter, NumAuxNodes, AuxNodesSegment, AuxNodesTria, AuxNodesQuad"]}
{"id": "C72", "title": "VTK data are the data passed in", "statement": "WritePointData with a mesh function appends one array, in which every point of every cell has the value of the function at this point of the entity; functions that are continuous across edges, such as all Lagrangian finite element functions, are represented exactly; vectors are extended by zeros to three components. With a mesh data set every corner of a cell has the value of the node, or the value for undefined entries. WriteCellData stores at the index of the entity the value of the data set, or the value of the function at the centre of the entity. Other arrays and the grid are left unchanged.", "quantifier": "all meshes, orders, functions, data sets, names, sequences of earlier calls", "why_tests_cant": "all functions, meshes and histories", "anchors": ["lib/lf/io/vtk_writer.h: WritePointData, WriteCellData, WriteScalarPointData, WriteVectorPointData, PadWithZeros"]}
{"id": "C73", "title": "The file written by VtkWriter is consistent", "statement": "After any sequence of successful and rejected calls on a VtkWriter the file passes its own validation when it is written: every point array has one value per point, every cell array one per cell, none is left unset, and no two arrays of a kind have the same name or a name with spaces. Calls with a name that is in use or contains a space throw and leave the file unchanged; no call with functions that have values at all points violates an assertion.", "quantifier": "all meshes, orders, sequences of calls", "why_tests_cant": "unbounded histories of calls", "anchors": ["lib/lf/io/vtk_writer.h: CheckAttributeSetName, WriteScalarPointData", "lib/lf/io/vtk_writer.cc: ValidateVtkFile, WriteGlobalData, setBinary, ~VtkWriter"]}
{"id": "C74", "title": "Assembled matrices and vectors are the Galerkin matrices and load vectors", "statement": "AssembleMatrixLocally with the element matrix providers for diffusion, reaction and edge mass terms returns the matrix A with v^T A u = a(u,v) for all coefficient vectors, and AssembleVectorLocally with the load providers the vector b with b^T v = l(v), where a and l are the bilinear and linear form of the finite element functions with these coefficients (values by MeshFunctionFE, gradients by MeshFunctionGradFE), summed over exactly the active entities with the quadrature rules of the providers. The matrices are symmetric and positive semidefinite if the coefficients are, and constants are in the kernel of the diffusion matrix. For Lagrangian elements on straight triangles and parallelograms with piecewise constant coefficients and the library's rules, the forms are the exact integrals up to the accuracy of the rules.", "quantifier": "all meshes, finite element spaces, selections of active entities, coefficients, quadrature rules and coefficient vectors", "why_tests_cant": "all meshes, spaces, coefficient functions and vectors", "anchors": ["lib/lf/assemble/assembler.h: AssembleMatrixLocally, AssembleVectorLocally", "lib/lf/fe/loc_comp_ellbvp.h: DiffusionElementMatrixProvider, MassElementMatrixProvider, MassEdgeMatrixProvider, ScalarLoadElementVectorProvider, ScalarLoadEdgeVectorProvider", "lib/lf/uscalfe/loc_comp_ellbvp.h: ReactionDiffusionElementMatrixProvider, MassEdgeMatrixProvider, ScalarLoadElementVectorProvider, ScalarLoadEdgeVectorProvider", "lib/lf/fe/mesh_function_fe.h", "lib/lf/fe/mesh_function_grad_fe.h"]}
{"id": "C75", "title": "MeshFunctionGradFE is the gradient of MeshFunctionFE", "statement": "The vector returned by MeshFunctionGradFE at a point of an entity is the gradient with respect to world coordinates of the function that MeshFunctionFE evaluates with the same coefficients: its product with the Jacobian of the parametrization is the derivative in reference coordinates, and it is tangential to the entity.", "quantifier": "all spaces, coefficient vectors, cells and edges that are not degenerate at the point, of any geometry in any world dimension", "why_tests_cant": "all functions, geometries and points", "anchors": ["lib/lf/fe/mesh_function_grad_fe.h: MeshFunctionGradFE", "lib/lf/fe/mesh_function_fe.h: MeshFunctionFE"]}
{"id": "C76", "title": "Essential conditions turn the Galerkin system into the boundary value problem", "statement": "After FixFlaggedSolutionComponents with the flags of InitEssentialConditionFromFunction, the solutions of the linear system are exactly the coefficient vectors of the finite element functions u that have the prescribed values at the nodes on the selected edges and satisfy a(u,v) = l(v) for all finite element functions v that vanish on the selected edges. No step of the pipeline (assembly of reaction-diffusion matrix and load vector, interpolation of boundary values, elimination) fails. If the bilinear form is definite on the functions that vanish on the selected edges, there is exactly one solution; with the quadrature rules that the library takes by default this holds when the cells do not degenerate, the diffusion coefficient is positive definite, the reaction coefficient is not negative, and every node is linked to a selected edge by a chain of cells. It also holds, for every selection of edges, when the reaction coefficient is positive and the diffusion coefficient is not negative. Edges with an impedance condition and a positive coefficient, assembled onto the matrix of the cells, serve as well as edges with prescribed values.", "quantifier": "all meshes, Lagrangian spaces of order 1 to 3, edge selections, continuous boundary functions, coefficients, sources, rules", "why_tests_cant": "the equivalence ranges over all meshes, data and candidate solutions", "anchors": ["lib/lf/assemble/fix_dof.h: FixFlaggedSolutionComponents", "lib/lf/fe/fe_tools.h: InitEssentialConditionFromFunction", "lib/lf/assemble/assembler.h", "lib/lf/uscalfe/loc_comp_ellbvp.h"]}
{"id": "C77", "title": "Arithmetic of mesh functions is pointwise", "statement": "The mesh function that -a, squaredNorm(a), transpose(a), adjoint(a), conjugate(a), a+b, a-b, a*b (and any expression of them) gives returns, for a list of points of an entity, one value per point in the order of the points, and this is the operation applied to the values of the operands at that point: entrywise sums, matrix products, entrywise products of arrays, multiples, for scalars, Eigen matrices and arrays of fixed or dynamic size and other objects. MeshFunctionConstant returns its constant and MeshFunctionGlobal the function at the global points.", "quantifier": "all expressions, operand mesh functions, value types, matrix sizes and storage orders, entities and lists of points", "why_tests_cant": "all nestings of operators, all sizes of the point lists and of the values; the operators reinterpret the memory of vectors of matrices", "anchors": ["lib/lf/mesh/utils/mesh_function_unary.h", "lib/lf/mesh/utils/mesh_function_binary.h", "lib/lf/mesh/utils/mesh_function_constant.h", "lib/lf/mesh/utils/mesh_function_global.h"]}
{"id": "C78", "title": "Mesh data sets are maps from entities to values", "statement": "A CodimMeshDataSet is defined on exactly the entities of its mesh with its co-dimension, an AllCodimMeshDataSet on exactly the entities of its mesh. After any history of assignments reading the value of an entity gives the value assigned to it last, or the initial value; an assignment to one entity leaves the others alone; access for other entities, or entities of other meshes, fails an assertion and changes nothing.", "quantifier": "all meshes, co-dimensions, value types, histories of assignments, entities", "why_tests_cant": "all histories", "anchors": ["lib/lf/mesh/utils/codim_mesh_data_set.h: CodimMeshDataSet", "lib/lf/mesh/utils/all_codim_mesh_data_set.h: AllCodimMeshDataSet", "lib/lf/mesh/hybrid2d/mesh.cc: Contains, Index, NumEntities"]}
{"id": "C79", "title": "MSH files are read back", "statement": "Every file that is written in one of the four formats MSH 2.2 text, 2.2 binary, 4.1 text and 4.1 binary (either byte order) is parsed successfully, and the result has exactly the contents of the file: names, entities, nodes with the numbers as written, elements with tags and partitions, periodic and ghost data. In particular a text never has two meanings. Words may be separated by any white space, sections of other programs may come between the sections (text files), and lines may end in \\n or \\r\\n.", "quantifier": "all contents and all texts that write them, all white space, byte orders, numbers of entities", "why_tests_cant": "unbounded files and contents, all layouts of white space, numbers with signs, points and exponents, backtracking of the parsers", "anchors": ["lib/lf/io/gmsh_reader.cc: ReadGmshFile", "lib/lf/io/gmsh_file_v2.cc: readGmshFileV2", "lib/lf/io/gmsh_file_v4.cc: ReadGmshFileV4", "lib/lf/io/gmsh_file_v4_text.cc", "lib/lf/io/gmsh_file_v4_binary.cc"]}
{"id": "C80", "title": "No MSH file is misread", "statement": "If a file is parsed without an exception, the result has the contents of the file: the file is a text of one of the four formats with these contents, up to missing white space between words and redundant or absent counts of tags (and, in version 4.1, up to what follows the last section). Files that are cut off before the end of the elements, lists with fewer or more entries than announced, numbers out of range and so on are therefore rejected.", "quantifier": "all sequences of characters", "why_tests_cant": "all files, including damaged ones", "anchors": ["lib/lf/io/gmsh_reader.cc: ReadGmshFile", "lib/lf/io/gmsh_file_v2.cc", "lib/lf/io/gmsh_file_v4.cc", "lib/lf/io/gmsh_file_v4_text.cc", "lib/lf/io/gmsh_file_v4_binary.cc"]}
{"id": "C81", "title": "From an MSH file to a mesh", "statement": "The constructor of GmshReader with a file name gives, for every file in one of the formats whose contents describe a mesh, the mesh with the nodes, edges and cells of the file, their coordinates as written (decimal or IEEE double precision), their geometries and physical entities; and whenever it succeeds the mesh is the one the file describes.", "quantifier": "all files (sequences of characters), mesh factories, world dimensions", "why_tests_cant": "all files", "anchors": ["lib/lf/io/gmsh_reader.cc: GmshReader, InitGmshFile, ReadGmshFile"]}
{"id": "C82", "title": "Dof handler of a product space", "statement": "The dof handler of a product space U_0 x U_1 x ... numbers the dofs of the first component first, then those of the second and so on, both globally and on each entity; within a component it agrees with the uniform dof handler of that component; Component, Offset, NumDofs(c), LocalStartIndex and Entity describe this numbering. Every index 0..N-1 belongs to exactly one entity, every entity owns as many dofs as the components prescribe together, and no index appears twice in the list of a cell.", "quantifier": "all well-formed meshes, all non-empty lists of layouts, all entities, components and indices", "why_tests_cant": "all meshes, numbers of components and layouts", "anchors": ["projects/dpg/product_dofhandler.h: ProductUniformFEDofHandler", "projects/dpg/product_dofhandler.cc"]}
{"id": "C83", "title": "Matrices on product spaces consist of blocks", "statement": "The element matrix (vector) of a product provider is the sum of the matrices (vectors) of the active sub-providers, each placed at the local indices of its trial and test component. After assembly, the Galerkin matrix (right hand side vector) on the product spaces is the sum of the matrices (vectors) that the assembler computes for each sub-provider on its two component spaces, placed at the global offsets of the components; as bilinear forms: a(u, v) is the sum of a_k(u_j(k), v_i(k)).", "quantifier": "all meshes, product spaces, lists of sub-providers, scalar rings, coefficient vectors", "why_tests_cant": "all meshes, spaces and sub-providers", "anchors": ["projects/dpg/product_element_matrix_provider.h: ProductElementMatrixProvider::Eval", "projects/dpg/product_element_vector_provider.h: ProductElementVectorProvider::Eval", "lib/lf/assemble/assembler.h"]}
{"id": "C84", "title": "The DPG solution minimises the estimated error", "statement": "If the Gramian of the test space on a cell is symmetric positive definite, every local trial function w has exactly one optimal test function t(w); the DPG element matrix is w^T A u = b(u, t(w)), symmetric, with w^T A w = |t(w)|^2, and the DPG element vector is w^T f = l(t(w)). The error estimate of a cell is the norm of the residual l - b(u, .) as a functional on the local test space, the estimate for the mesh is the root of the sum of the squares. A coefficient vector solves the assembled DPG system with prescribed values at flagged dofs if and only if it takes these values and no other vector with these values has a smaller estimated error.", "quantifier": "all meshes, dof handlers, local matrices with matching sizes, load vectors, sets of fixed dofs, coefficient vectors", "why_tests_cant": "a minimum over all vectors; all matrices", "anchors": ["projects/dpg/dpg_element_matrix_provider.h: DpgElementMatrixProvider::Eval", "projects/dpg/dpg_element_vector_provider.h: DpgElementVectorProvider::Eval", "projects/dpg/dpg_tools.h: ElementErrorEstimators, EvalPosteriorError", "lib/lf/assemble/fix_dof.h: FixFlaggedSolutionComponents"]}
{"id": "C85", "title": "MATLAB files return the mesh and the refinement tree", "statement": "The file that writeMatlab writes for a mesh of triangles and quadrilaterals is a MATLAB function named like the file; a call returns the coordinates of all nodes in the order of their indices, correct to six significant digits (exactly, if six digits are enough), for each triangle and quadrilateral in the order of the cells the numbers of its corners counted from one and its index, and for each edge its end points. The file that WriteMatlabLevel writes returns for each node, edge and cell of a level the index of its parent and its number among the children (-1 for none), for cells also the refinement edge. WriteMatlab writes both files for every level under different names.", "quantifier": "all meshes, node positions (finite numbers), hierarchies, file names that are MATLAB names and do not end in m", "why_tests_cant": "all meshes, coordinates and names", "anchors": ["lib/lf/io/write_matlab.cc: writeMatlab", "lib/lf/refinement/refutils.cc: WriteMatlabLevel, WriteMatlab, normalize_idx"]}
{"id": "C86", "title": "matplotlib files are read completely by plot_mesh.py", "statement": "From the file that writeMatplotlib writes, the script plot_mesh.py reads every node with its index and coordinates (six significant digits), every edge with its index and end points, and every cell with its index and edges, triangles and quadrilaterals separately and in order, and nothing else. The file is named like the argument, with .csv appended unless it is there.", "quantifier": "all meshes of triangles and quadrilaterals, node positions, file names of at least four characters", "why_tests_cant": "all meshes and coordinates", "anchors": ["lib/lf/io/write_matplotlib.cc: writeMatplotlib", "lib/lf/io/plot_mesh.py"]}
{"id": "C87", "title": "OuterNormals returns the outer unit normals", "statement": "For every triangle and quadrilateral of the plane with straight edges, convex or not, with its corners listed clockwise or counterclockwise, column i of OuterNormals is the unit vector perpendicular to edge i that points out of the cell: small steps along it from inner points of the edge leave the cell, small steps backwards enter it. With these normals the divergence theorem holds.", "quantifier": "all triangles and quadrilaterals with straight edges that the library can construct and that do not cross themselves", "why_tests_cant": "all positions of corners, orientations and non-convex shapes", "anchors": ["projects/dpg/dpg_tools.cc: OuterNormals"]}
{"id": "C88", "title": "Prescribed signs define one normal per edge", "statement": "For every edge PrescribedSign is 1 for exactly one of the adjacent cells and -1 for the others; on boundary edges it is 1. For two cells with disjoint interiors that share an edge the outer normals times the signs agree, so that a unique normal of the edge is prescribed, which points outwards on the boundary.", "quantifier": "all meshes, geometries with straight edges, edges", "why_tests_cant": "all meshes", "anchors": ["projects/dpg/dpg_tools.h: PrescribedSignProvider", "projects/dpg/dpg_tools.cc: init, PrescribedSign"]}
{"id": "C89", "title": "In- and outflow flags partition the boundary", "statement": "flagEntitiesOnInflowBoundary flags exactly the boundary edges at whose midpoint the velocity has a negative component along the outer normal, flagEntitiesOnOutflowBoundary exactly the boundary edges where it is not negative; every boundary edge belongs to exactly one of both, interior edges to none.", "quantifier": "all meshes with straight cells, all velocity fields", "why_tests_cant": "all meshes and velocity fields", "anchors": ["projects/dpg/dpg_tools.h: flagEntitiesOnInflowBoundary, flagEntitiesOnOutflowBoundary"]}
{"id": "C90", "title": "Quadrature rules on the boundary of reference elements", "statement": "BoundaryQuadRule returns one rule for each edge of the reference triangle or square; its points lie on that edge and it integrates all polynomials of P_k (Q_k on the square) along the edge exactly if the given rule is exact for degree k on the unit interval.", "quantifier": "all rules for the unit interval, degrees, edges, polynomials", "why_tests_cant": "all rules and polynomials", "anchors": ["projects/dpg/dpg_tools.cc: BoundaryQuadRule"]}
{"id": "C91", "title": "Product spaces and their factory", "statement": "A product space is accepted exactly if there is a component, there are equally many elements of each kind and the elements of each component agree on the numbers of functions of nodes and edges; it then reports these elements and numbers, and its dof handler gives every node, edge and cell the number of dofs of its type, components stacked one after the other. The factory returns consecutive indices, builds the space of the components added (H1, L2, flux, trace of the supported degrees) and refuses everything else. On every entity there are as many dofs as functions. H1 and trace components are continuous across edges and at nodes, whatever the orientations. The space of a component has its elements and its dof handler. (Refuted: every component has a space; indices after Build().)", "quantifier": "all meshes, all lists of elements, all lists of components and degrees, all coefficient vectors", "why_tests_cant": "all combinations of components, meshes and orientations", "anchors": ["projects/dpg/product_fe_space.h: ProductUniformFESpace", "projects/dpg/product_fe_space_factory.h: ProductUniformFESpaceFactory"]}
{"id": "C92", "title": "Essential conditions on product spaces", "statement": "InitEssentialConditionsFromFunctions returns a vector with an entry for every dof: those of the trace and the flux component are flagged exactly if the dof belongs to a selected edge and carry the value prescribed there; no other dof is flagged. (Refuted: it works for flux components of the factory; it always throws for them.)", "quantifier": "all meshes, product spaces, selectors and boundary data", "why_tests_cant": "all spaces and data", "anchors": ["projects/dpg/dpg_tools.h: InitEssentialConditionsFromFunctions"]}
{"id": "C93", "title": "Elements for traces and discontinuous functions", "statement": "The constant element has the one function 1. A discontinuous element has the functions, gradients, nodes and dofs of the element it decorates, all of which belong to the interior. A trace element drops exactly the functions of the interior; for Lagrange elements the dropped ones vanish on the boundary, the nodes of the others lie on the boundary, their dofs are dual to them, and on the boundary they are a partition of unity and reproduce all polynomials of the degree.", "quantifier": "all elements, reference elements, degrees, points and polynomials", "why_tests_cant": "all points and polynomials, any decorated element", "anchors": ["projects/dpg/trace_scalar_reference_finite_element.h", "projects/dpg/discontinuous_scalar_reference_finite_element.h", "projects/dpg/discontinuous_fe_constant.h"]}
{"id": "C94", "title": "VTK files in text format", "statement": "WriteToFile accepts an object exactly if its header has no line end and at most 256 characters, there is a type for every cell and every array has a number for every point or cell; otherwise it throws. The text file that it writes is a file in the legacy VTK format which contains the title, cells, cell types, names, types and integers of the object exactly, and its floating point numbers up to half a unit of the third digit after the point (of the mantissa below 10^-3 and from 10^5 on). (Refuted: for unsigned char data, which are declared as char; different points give different files; empty global arrays; names with blanks; a rejected object leaves an existing file alone.)", "quantifier": "all objects: headers, grids, global data, point data and cell data of all types and sizes", "why_tests_cant": "all sizes, types and numbers", "anchors": ["lib/lf/io/vtk_writer.cc: WriteToFile, VtkGrammar, ValidateVtkFile, cell_list_size", "lib/lf/io/vtk_writer.h: VtkFile"]}
{"id": "C95", "title": "VTK files in binary format", "statement": "The binary file that WriteToFile writes is a file in the legacy VTK format which contains the title, cells, cell types, names, types and all numbers of the object exactly. (Refuted: for unsigned char data, which are declared as char.)", "quantifier": "all objects, including infinite numbers and NaN", "why_tests_cant": "all sizes, types and bit patterns", "anchors": ["lib/lf/io/vtk_writer.cc: WriteToFile, VtkGrammar"]}
{"id": "C96", "title": "Normals of triangles for the Stokes solver", "statement": "computeOutwardNormals gives, for every triangle that can be constructed in the plane and whatever the order of its corners, the outer unit normals of its three edges; computeTangentials gives these normals turned by a quarter to the left. On a common edge of two triangles that do not overlap the normals and the tangentials are opposite.", "quantifier": "all triangles, all pairs of neighbours, all triangulations", "why_tests_cant": "all positions and orientations of the corners", "anchors": ["projects/ipdg_stokes/mesh/utils.cc: computeOutwardNormals, computeTangentials"]}
{"id": "C97", "title": "The Stokes system without flow through the boundary", "statement": "buildSystemMatrixNoFlow succeeds on every triangulation with one or two cells at every edge. Its matrix is symmetric. A vector solves the system exactly if its node part is zero on the boundary, the curl of the piecewise linear function with these node values solves the interior penalty equations (sum over the edges of the penalised tangential jumps = volume force + boundary data, for all test functions), and its edge part contains the penalised jumps. If sigma > 0 and every cell is connected with the boundary, there is exactly one solution.", "quantifier": "all triangulations, penalties, forces, boundary data, quadrature rules, both penalty variants", "why_tests_cant": "all meshes and all data; existence and uniqueness of solutions", "anchors": ["projects/ipdg_stokes/assemble/build_system_matrix.cc: buildSystemMatrixNoFlow", "projects/ipdg_stokes/assemble/piecewise_const_element_matrix_provider.cc: Eval", "projects/ipdg_stokes/assemble/piecewise_const_element_vector_provider.cc: Eval"]}
{"id": "C98", "title": "Velocities conserve mass", "statement": "extractVelocity and MeshFunctionVelocity give on each triangle the curl of the piecewise linear function with the given node values, extractBasisFunctionCoefficients gives these values. Such a velocity conserves mass: the flow out of every cell is zero in total, what leaves a cell through an edge enters its neighbour, and the flow through an edge is the difference of the values at its ends. For solutions of the system of C97 nothing flows through the boundary.", "quantifier": "all triangulations, all vectors", "why_tests_cant": "all meshes and all vectors", "anchors": ["projects/ipdg_stokes/post_processing/solution_to_mesh_data_set.cc", "projects/ipdg_stokes/post_processing/mesh_function_velocity.h: MeshFunctionVelocity"]}
{"id": "C99", "title": "Mesh builder for annuli", "statement": "For every inner and outer radius, at least one cell across and at least three around, if the cells are not too thin, AnnulusTriagMeshBuilder::Build yields a valid mesh with n(m+1) nodes on m+1 circles, n(3m+1) edges and 2nm positively oriented triangles that tile the region between the two regular polygons; every edge has one or two adjacent cells, one exactly if both ends are on the inner or both on the outer circle.", "quantifier": "all radii, numbers of cells", "why_tests_cant": "unbounded family of meshes with wrap-around", "anchors": ["projects/ipdg_stokes/mesh/annulus_triag_mesh_builder.cc: Build"]}
{"id": "C100", "title": "Stokes problem with in- and outflow", "statement": "For every triangulation without overlaps whose boundary is one closed curve, buildSystemMatrixInOutFlow yields a symmetric system and an offset function. The offset is zero at interior nodes; the flow of its velocity across every boundary edge is the prescribed normal component minus its mean over the boundary (so exactly the prescribed one if the data carry no net flow). A vector solves the system exactly if it vanishes at the boundary nodes and its sum with the offset satisfies the interior penalty equations; for positive penalty and connected meshes there is exactly one solution. The velocity extracted from solution plus offset conserves mass and has this flow across the boundary.", "quantifier": "all triangulations with one boundary curve, penalties, quadrature rules, sources, boundary data, exact solvers", "why_tests_cant": "all meshes and data; solvability is a statement about all right hand sides", "anchors": ["projects/ipdg_stokes/assemble/offset_function.cc: createOffsetFunction", "projects/ipdg_stokes/assemble/build_system_matrix.cc: buildSystemMatrixInOutFlow"]}
{"id": "C101", "title": "Norms of discontinuous vector fields", "statement": "L2norm returns the square root of the quadrature of |u|^2 over all cells; it is exact for fields constant on each cell. DGnorm returns the square root of the quadrature of |grad u|^2 over all cells plus, for every edge between two cells, the integral of |[u (x) n]|^2 / |e|, that is the square of the difference of the two values on the edge; boundary edges do not contribute. This must hold for every mesh, field, type of the gradient and quadrature rule.", "quantifier": "all triangulations, vector fields that may jump across edges, gradients, quadrature rules", "why_tests_cant": "all meshes and fields; the tests use fields with gradient zero and one-point rules only", "anchors": ["projects/ipdg_stokes/post_processing/norms.h: L2norm, DGnorm"]}
{"id": "C102", "title": "Strang splitting for Fisher-KPP reaches the final time", "statement": "StrangSplit::Evolution(cap, mu) approximates the solution at time T of M u' = -A u + reaction with logistic growth rate lambda and capacity cap by m splitting steps of length T/m: diffusion is advanced by L-stable SDIRK-2 steps of second order that do not increase the M-norm, keep conserved quantities and stationary states; reaction is advanced exactly; nonnegative values stay nonnegative numbers if diffusion keeps them nonnegative.", "quantifier": "all mass and diffusion matrices, capacities, growth rates, final times, numbers of steps and initial values", "why_tests_cant": "all matrices, step numbers and initial values; the project has no tests, its programs print convergence tables", "anchors": ["projects/fisher_kpp/strangsplitting.cc: diffusionEvolutionOperator, Evolution", "projects/fisher_kpp/strangsplitting.h: StrangSplit::StrangSplit"]}
{"id": "C103", "title": "Galerkin matrices of the Fisher-KPP model", "statement": "assembleGalerkinMatrices returns the N x N matrices of the bilinear forms int c grad u . grad v + int_boundary h u v - L(u,v) and int u v on piecewise linear functions, the boundary being the edges with exactly one cell. They are symmetric (if L is), positive semidefinite for nonnegative coefficients and dissipative L; the mass matrix is positive definite; without boundary transport diffusion maps constants to zero and its time steps keep the total population. localQuadFunction integrates a function over exactly the selected entities and fails if a quadrature rule is missing.", "quantifier": "all well-formed meshes of triangles and quadrilaterals, non-degenerate geometries, coefficient functions, boundary matrices L and coefficient vectors", "why_tests_cant": "all meshes, coefficients and vectors; the project has no tests", "anchors": ["projects/fisher_kpp/strangsplitting.h: localQuadFunction, assembleGalerkinMatrices"]}
{"id": "C104", "title": "TikZ pictures show the mesh", "statement": "writeTikZ returns true and writes a well-formed TikZ picture (a compilable document with WithPreamble) that contains exactly the documented figures for exactly the selected entities, cells before edges before nodes: nodes as stars or encircled indices, edges as lines or arrows between their end points with optional index, and with RenderCells cells as closed polygons inside the cell with optional corner numbers and index in the middle; coordinates are right to six digits. It returns false if the file cannot be opened. Without the last argument everything documented for the flags 7 is drawn.", "quantifier": "all meshes, positions of nodes, selectors and combinations of flags", "why_tests_cant": "the test only checks that a file is written; all meshes, selectors and 128 combinations of flags", "anchors": ["lib/lf/io/write_tikz.cc: writeTikZ, operator|, operator&", "lib/lf/io/write_tikz.h: TikzOutputCtrl"]}
{"id": "C105", "title": "Terms of variational formulations on product spaces: integrals over cells, and their builders", "statement": "AddDiffusionElementMatrixProvider, AddReactionElementMatrixProvider, AddConvectionElementMatrixProvider and AddLoadElementVectorProvider add the documented forms on the given pair of components: rows belong to the functions of the test component, columns to those of the trial component; entries are the integrals of the documented integrands computed with the rule for the sum of the degrees, and exact on affine cells with constant coefficients. Build() returns a provider for the sum of all terms added, each at the place of its components, and empties the builder. All terms that fit the components of a space made by the factory can be added.", "quantifier": "all product spaces made by the factory, meshes, cells, coefficients, quadrature rules and sequences of Add calls", "why_tests_cant": "all spaces, cells, coefficients and sequences of calls; the tests compare a few matrices", "anchors": ["projects/dpg/loc_comp_dpg.h: DiffusionElementMatrixProvider, ReactionElementMatrixProvider, ConvectionElementMatrixProvider, LoadElementVectorProvider", "projects/dpg/product_element_matrix_provider_builder.h: Build", "projects/dpg/product_element_vector_provider_builder.h: Build", "projects/dpg/sub_element_matrix_provider.h", "projects/dpg/sub_element_vector_provider.h"]}
{"id": "C106", "title": "Terms of variational formulations on product spaces: fluxes and traces on the boundary of cells", "statement": "FluxElementMatrixProvider computes, for every edge of the cell, the integrals of the flux functions of this edge, with its prescribed sign, times the coefficient and the test functions; TraceElementMatrixProvider the integral over the boundary of trial function times normal component of the coefficient times test function; exact on straight cells with constant coefficients. The flux functions that the two cells at an edge associate with the same dof are the same function on the edge.", "quantifier": "all meshes, straight cells (convex or not), product spaces made by the factory, coefficients, quadrature rules", "why_tests_cant": "all cells, orientations of edges and degrees; the tests use degrees 0 and 1", "anchors": ["projects/dpg/loc_comp_dpg.h: FluxElementMatrixProvider, TraceElementMatrixProvider"]}
{"id": "C107", "title": "Structured meshes can be refined and carry the Stokes method", "statement": "The meshes that TPTriagMeshBuilder, TPQuadMeshBuilder and TorusMeshBuilder return can be refined by every sequence of uniform and local refinements, and all levels are again such meshes. On every mesh of TPTriagMeshBuilder, with the geometries it creates, and on every mesh that uniform refinement makes of it, the Stokes systems of the interior penalty method, without and with flow across the boundary, are assembled and have exactly one solution.", "quantifier": "all rectangles, numbers of cells, refinement histories, penalties, loads and boundary data", "why_tests_cant": "all rectangles, numbers of cells and histories; whether the hypotheses under which refinement and solver work are met by the meshes one actually builds", "anchors": ["lib/lf/mesh/utils/tp_triag_mesh_builder.cc: Build", "lib/lf/mesh/utils/tp_quad_mesh_builder.cc: Build", "lib/lf/mesh/utils/torus_mesh_builder.cc: Build", "lib/lf/refinement/mesh_hierarchy.cc: RefineRegular, RefineMarked", "projects/ipdg_stokes/assemble/build_system_matrix.cc"]}
