{
 "claims": [
  {
   "property": "C01",
   "status": "proved",
   "theorems": [
    "C01_factory_index_contract"
   ],
   "note": ""
  },
  {
   "property": "C02",
   "status": "proved",
   "theorems": [
    "C02_one_edge_per_node_pair"
   ],
   "note": ""
  },
  {
   "property": "C03",
   "status": "proved",
   "theorems": [
    "C03_incidence_and_orientation",
    "C03_edge_geometry_orientation"
   ],
   "note": ""
  },
  {
   "property": "C04",
   "status": "proved",
   "theorems": [
    "C04_build_outcome"
   ],
   "note": ""
  },
  {
   "property": "C05",
   "status": "proved",
   "theorems": [
    "C05_numbering_bijective"
   ],
   "note": ""
  },
  {
   "property": "C06",
   "status": "proved",
   "theorems": [
    "C06_factory_reusable"
   ],
   "note": ""
  },
  {
   "property": "C07",
   "status": "proved",
   "theorems": [
    "C07_built_meshes_are_the_wellformed_ones",
    "C07_counts"
   ],
   "note": ""
  },
  {
   "property": "C10",
   "status": "proved",
   "theorems": [
    "C10_uniform_dofs_partition"
   ],
   "note": ""
  },
  {
   "property": "C11",
   "status": "proved",
   "theorems": [
    "C11_uniform_canonical_order",
    "C11_covering_dofs_distinct"
   ],
   "note": ""
  },
  {
   "property": "C12",
   "status": "proved",
   "theorems": [
    "C12_uniform_numbering_rules"
   ],
   "note": ""
  },
  {
   "property": "C13",
   "status": "proved",
   "theorems": [
    "C13_dynamic_same_contract",
    "C13_dynamic_refines_uniform"
   ],
   "note": ""
  },
  {
   "property": "C14",
   "status": "proved",
   "theorems": [
    "C14_coo_denotes_sum",
    "C14_makeSparse",
    "C14_MatVecMult_adds",
    "C14_MatVecMult_returns"
   ],
   "note": ""
  },
  {
   "property": "C15",
   "status": "proved",
   "theorems": [
    "C15_assembly_adds_local_contributions",
    "C15_assembly_into_new_matrix",
    "C15_small_element_matrix_reported",
    "C15_uniform_handlers_serve",
    "C15_dynamic_handlers_serve"
   ],
   "note": ""
  },
  {
   "property": "C16",
   "status": "proved",
   "theorems": [
    "C16_assembled_bilinear_form",
    "C16_symmetric",
    "C16_positive_semidefinite",
    "C16_order_independent"
   ],
   "note": ""
  },
  {
   "property": "C17",
   "status": "proved",
   "theorems": [
    "C17_load_vector",
    "C17_load_vector_adds"
   ],
   "note": ""
  },
  {
   "property": "C18",
   "status": "proved",
   "theorems": [
    "C18_fix_flagged_components"
   ],
   "note": ""
  },
  {
   "property": "C19",
   "status": "proved",
   "theorems": [
    "C19_fix_flagged_components_alt"
   ],
   "note": ""
  },
  {
   "property": "C20",
   "status": "proved",
   "theorems": [
    "C20_fix_listed_components",
    "C20_repeated_index_sums",
    "C20_repeated_index_refuted",
    "C20_index_out_of_range_reported"
   ],
   "note": "finding: a repeated index gets the sum of the listed values"
  },
  {
   "property": "C21",
   "status": "proved",
   "theorems": [
    "C21_counts_agree",
    "C21_implemented_accepted",
    "C21_unimplemented_rejected",
    "C21_missing_anchor_rejected",
    "C21_rejected_together_refuted"
   ],
   "note": "finding: rejection is not symmetric outside implemented patterns"
  },
  {
   "property": "C22",
   "status": "proved",
   "theorems": [
    "C22_children_tile",
    "C22_constructed"
   ],
   "note": ""
  },
  {
   "property": "C23",
   "status": "proved",
   "theorems": [
    "C23_edge_traces"
   ],
   "note": ""
  },
  {
   "property": "C24",
   "status": "proved",
   "theorems": [
    "C24_nodes_at_corners_of_children",
    "C24_same_patterns"
   ],
   "note": ""
  },
  {
   "property": "C25",
   "status": "proved",
   "theorems": [
    "C25_closure_terminates",
    "C25_base_level_unrefined"
   ],
   "note": ""
  },
  {
   "property": "C26",
   "status": "proved",
   "theorems": [
    "C26_least_admissible_set",
    "C26_nothing_marked"
   ],
   "note": ""
  },
  {
   "property": "C27",
   "status": "proved",
   "theorems": [
    "C27_patterns_compatible",
    "C27_uniform_compatible",
    "C27_no_hanging_nodes"
   ],
   "note": ""
  },
  {
   "property": "C62",
   "status": "proved",
   "theorems": [
    "C62_longest_edge"
   ],
   "note": "edge lengths are taken as given positive reals"
  },
  {
   "property": "C28",
   "status": "proved",
   "theorems": [
    "C28_refinement_succeeds",
    "C28_any_history",
    "C28_degenerate_refuted"
   ],
   "note": "for meshes whose cells have distinct corners and pairwise share at most two; finding: fails otherwise (C28_degenerate_refuted)"
  },
  {
   "property": "C29",
   "status": "proved",
   "theorems": [
    "C29_entity_counts",
    "C29_regular_counts",
    "C29_barycentric_counts"
   ],
   "note": ""
  },
  {
   "property": "C30",
   "status": "proved",
   "theorems": [
    "C30_parents_and_children_inverse"
   ],
   "note": ""
  },
  {
   "property": "C31",
   "status": "proved",
   "theorems": [
    "C31_adjacent_cells"
   ],
   "note": ""
  },
  {
   "property": "C32",
   "status": "proved",
   "theorems": [
    "C32_uniform_hierarchy"
   ],
   "note": ""
  },
  {
   "property": "C33",
   "status": "proved",
   "theorems": [
    "C33_triangular_tensor_product_mesh",
    "C33_C34_C35_nothing_to_build",
    "C33_C34_thin_cells_refuted"
   ],
   "note": ""
  },
  {
   "property": "C34",
   "status": "proved",
   "theorems": [
    "C34_quadrilateral_tensor_product_mesh",
    "C33_C34_C35_nothing_to_build",
    "C33_C34_thin_cells_refuted"
   ],
   "note": ""
  },
  {
   "property": "C35",
   "status": "proved",
   "theorems": [
    "C35_torus_mesh",
    "C33_C34_C35_nothing_to_build",
    "C35_small_torus_refuted",
    "C35_two_along_refuted",
    "C35_square_refuted"
   ],
   "note": "for at least three cells in both directions; findings: fails below that, and on squares"
  },
  {
   "property": "C36",
   "status": "proved",
   "theorems": [
    "C36_number_of_super_entities",
    "C36_boundary_flags",
    "C36_boundary_flags_all",
    "C36_flags_of_structured_meshes"
   ],
   "note": ""
  },
  {
   "property": "C40",
   "status": "proved",
   "theorems": [
    "C40_jacobian_is_derivative"
   ],
   "note": ""
  },
  {
   "property": "C41",
   "status": "proved",
   "theorems": [
    "C41_edges",
    "C41_nodes",
    "C41_self",
    "C41_no_others",
    "C41_tolerance_refuted"
   ],
   "note": "for objects of class Parallelogram the four points have to be those of a parallelogram exactly; finding: the constructor's tolerance admits others (C41_tolerance_refuted)"
  },
  {
   "property": "C42",
   "status": "proved",
   "theorems": [
    "C42_children",
    "C42_point",
    "C42_shared_edges",
    "C42_success",
    "C42_barycentric_refuted"
   ],
   "note": "whenever ChildGeometry returns; it may reject children that are degenerate within tolerance"
  },
  {
   "property": "C43",
   "status": "proved",
   "theorems": [
    "C43_inverse_gramian",
    "C43_integration_element",
    "C43_affine_cells_regular"
   ],
   "note": ""
  },
  {
   "property": "C44",
   "status": "proved",
   "theorems": [
    "C44_control_points"
   ],
   "note": ""
  },
  {
   "property": "C63",
   "status": "proved",
   "theorems": [
    "C63_length",
    "C63_area",
    "C63_area_in_space"
   ],
   "note": ""
  },
  {
   "property": "C64",
   "status": "partial",
   "theorems": [
    "C64_affine",
    "C64_second_order_refuted"
   ],
   "note": "holds for the first-order geometries; false for SegmentO2, TriaO2 and QuadO2, which inherit isAffine() = true (C64_second_order_refuted)"
  },
  {
   "property": "C45",
   "status": "proved",
   "theorems": [
    "C45_counts",
    "C45_cardinal",
    "C45_partition_of_unity",
    "C45_complete"
   ],
   "note": ""
  },
  {
   "property": "C46",
   "status": "proved",
   "theorems": [
    "C46_gradients"
   ],
   "note": ""
  },
  {
   "property": "C47",
   "status": "proved",
   "theorems": [
    "C47_continuous",
    "C47_two_cells"
   ],
   "note": ""
  },
  {
   "property": "C48",
   "status": "proved",
   "theorems": [
    "C48_legendre_derivatives",
    "C48_jacobi_derivatives",
    "C48_ends",
    "C48_ijacobi_left",
    "C48_legendre_orthogonal",
    "C48_jacobi_orthogonal"
   ],
   "note": ""
  },
  {
   "property": "C49",
   "status": "proved",
   "theorems": [
    "C49_counts",
    "C49_segment_rows",
    "C49_segment_counts_refuted",
    "C49_tria_traces",
    "C49_quad_traces",
    "C49_continuous"
   ],
   "note": "finding: on segments NumRefShapeFunctions(1, i) is 2 for each end point (C49_segment_counts_refuted)"
  },
  {
   "property": "C50",
   "status": "proved",
   "theorems": [
    "C50_segment",
    "C50_tria",
    "C50_quad"
   ],
   "note": ""
  },
  {
   "property": "C51",
   "status": "proved",
   "theorems": [
    "C51_segment",
    "C51_tria",
    "C51_quad"
   ],
   "note": "given exact rules; for triangles also no quadrature point with y = 1"
  },
  {
   "property": "C52",
   "status": "proved",
   "theorems": [
    "C52_tables",
    "C52_weights",
    "C52_exactly_refuted"
   ],
   "note": "decimal literals taken exactly; exact only up to 1e-15 (C52_exactly_refuted)"
  },
  {
   "property": "C53",
   "status": "proved",
   "theorems": [
    "C53_gauss",
    "C53_zeros_exist",
    "C53_elementary"
   ],
   "note": "provided the Newton iterations end at the zeros of the orthogonal polynomials; exact real arithmetic"
  },
  {
   "property": "C54",
   "status": "proved",
   "theorems": [
    "C54_transparent",
    "C54_total",
    "C54_kept"
   ],
   "note": ""
  },
  {
   "property": "C55",
   "status": "proved",
   "theorems": [
    "C55_diffusion",
    "C55_mass",
    "C55_mass_edge",
    "C55_load",
    "C55_load_edge",
    "C55_diffusion_energy",
    "C55_mass_energy",
    "C55_mass_total",
    "C55_load_total",
    "C55_diffusion_exact",
    "C55_mass_exact",
    "C55_load_exact",
    "C55_diffusion_accuracy",
    "C55_mass_accuracy",
    "C55_load_accuracy",
    "C55_rules",
    "C55_lagrange"
   ],
   "note": "real scalars and exact real arithmetic"
  },
  {
   "property": "C56",
   "status": "proved",
   "theorems": [
    "C56_laplace_tria",
    "C56_barycentric",
    "C56_laplace_tria_energy",
    "C56_laplace_quad",
    "C56_gauss4",
    "C56_laplace_quad_energy",
    "C56_load",
    "C56_load_outside_refuted"
   ],
   "note": "finding: on triangles the source function must be defined at (-1,-1) as well, which it is not on triangles with six nodes (C56_load_outside_refuted)"
  },
  {
   "property": "C65",
   "status": "proved",
   "theorems": [
    "C65_reaction_diffusion",
    "C65_reaction_diffusion_given",
    "C65_energy",
    "C65_missing",
    "C65_load",
    "C65_load_given",
    "C65_mass_edge",
    "C65_load_edge"
   ],
   "note": "real scalars; for load vectors a missing rule is an assertion failure in the constructor rather than an exception"
  },
  {
   "property": "C57",
   "status": "proved",
   "theorems": [
    "C57_sets",
    "C57_reproduces",
    "C57_lagrange",
    "C57_hierarchic"
   ],
   "note": "real scalars; complete meshes (every node and edge belongs to a cell) for the identity"
  },
  {
   "property": "C58",
   "status": "proved",
   "theorems": [
    "C58_flags",
    "C58_values",
    "C58_reproduces",
    "C58_lagrange",
    "C58_hierarchic",
    "C58_consistent"
   ],
   "note": "real scalars"
  },
  {
   "property": "C59",
   "status": "partial",
   "theorems": [
    "C59_sum_partial",
    "C59_first_rejected",
    "C59_predicate_refuted",
    "C59_empty",
    "C59_points_refuted",
    "C59_exact",
    "C59_accuracy",
    "C59_degree"
   ],
   "note": "holds if the predicate accepts the first entity; false otherwise: the integral over the first entity is always included (C59_predicate_refuted)"
  },
  {
   "property": "C61",
   "status": "proved",
   "theorems": [
    "C61_narrow"
   ],
   "note": "Integral types (bool, signed and unsigned integers of any width); narrowing that involves floating point types is not modelled."
  },
  {
   "property": "C60",
   "status": "partial",
   "theorems": [
    "C60_history",
    "C60_relative_geometry",
    "C60_constructor",
    "C60_transfer",
    "C60_image_unique",
    "C60_same_point",
    "C60_world_function",
    "C60_geometries",
    "C60_getMesh_partial",
    "C60_getMesh_refuted"
   ],
   "note": "evaluation: proved for all histories, level pairs and points; getMesh returns the mesh of the fine level only if the levels are neighbours (C60_getMesh_partial) and the wrong one otherwise (C60_getMesh_refuted)"
  },
  {
   "property": "C66",
   "status": "proved",
   "theorems": [
    "C66_fe_continuous",
    "C66_transfer_continuous",
    "C66_interpolates",
    "C66_prolongation",
    "C66_exact"
   ],
   "note": "real scalars; Lagrangian spaces of orders 1 to 3; on triangles that are children of a quadrilateral the function is interpolated but not reproduced, since the spaces are not nested"
  },
  {
   "property": "C67",
   "status": "proved",
   "theorems": [
    "C67_import",
    "C67_outcome",
    "C67_loose_edge_refuted",
    "C67_formats_refuted",
    "C67_lone_point_refuted"
   ],
   "note": "from the parsed representation of the file (GMshFileV2/V4) on; for two-dimensional meshes. Findings: ends of edges away from the cells become nodes of the mesh (version 2) or an assertion failure (version 4); points away from the cells may be out-of-range accesses"
  },
  {
   "property": "C68",
   "status": "partial",
   "theorems": [
    "C68_points_partial",
    "C68_points_refuted",
    "C68_sorted_refuted",
    "C68_is_physical",
    "C67_import"
   ],
   "note": "edges and cells: part of C67_import. Nodes: holds unless a repeated point element follows one with a larger node number; false otherwise (C68_points_refuted). The numbers are not sorted (C68_sorted_refuted)"
  },
  {
   "property": "C69",
   "status": "partial",
   "theorems": [
    "C69_name_lookup_partial",
    "C69_number_lookup_partial",
    "C69_lookup_refuted",
    "C69_lookup_undefined_refuted",
    "C69_inverse",
    "C69_entities"
   ],
   "note": "holds unless several entities have the name (number) and none of them the co-dimension; in that case the code reads past the candidates (C69_lookup_refuted)"
  },
  {
   "property": "C70",
   "status": "proved",
   "theorems": [
    "C70_levels",
    "C70_neighbours",
    "C70_first_order",
    "C70_second_order"
   ],
   "note": "exact real arithmetic; every geometry on finer levels is the one ChildGeometry creates"
  },
  {
   "property": "C71",
   "status": "partial",
   "theorems": [
    "C71_grid_partial",
    "C71_order7_refuted",
    "C71_levels",
    "C71_grid_kept"
   ],
   "note": "everything for edges, quadrilaterals and triangles of order up to 6; in triangles of order 7 to 10 only the points on the boundary and on the first triangle inside are where they belong, further ones are not (C71_order7_refuted)"
  },
  {
   "property": "C72",
   "status": "partial",
   "theorems": [
    "C72_point_function_partial",
    "C72_point_vector_function_partial",
    "C72_fe_function",
    "C72_point_scalars",
    "C72_point_vectors",
    "C72_cell_scalars",
    "C72_cell_vectors",
    "C72_cell_function_partial",
    "C72_cell_vector_function_partial",
    "C72_centre_refuted",
    "C72_long_vectors_refuted"
   ],
   "note": "point functions: inner points of triangles of order 7 and more are excepted as in C71; cell functions: holds for edges and triangles, false for quadrilaterals (C72_centre_refuted)"
  },
  {
   "property": "C73",
   "status": "proved",
   "theorems": [
    "C73_valid_file",
    "C73_rejected",
    "C73_no_assertion",
    "C73_nothing_lost",
    "C73_global_data",
    "C73_set_binary"
   ],
   "note": "up to the VtkFile structure passed to the output functions; output of the characters is not modelled"
  },
  {
   "property": "C74",
   "status": "proved",
   "theorems": [
    "C74_diffusion",
    "C74_mass",
    "C74_mass_edge",
    "C74_load",
    "C74_load_edge",
    "C74_reaction_diffusion",
    "C74_reaction_diffusion_rules",
    "C74_uload",
    "C74_uload_rules",
    "C74_umass_edge",
    "C74_uload_edge",
    "C74_diffusion_defined",
    "C74_mass_defined",
    "C74_load_defined",
    "C74_symmetric",
    "C74_nonnegative",
    "C74_form_symmetric",
    "C74_mass_form_symmetric",
    "C74_form_nonnegative",
    "C74_mass_form_nonnegative",
    "C74_constants",
    "C74_lagrange",
    "C74_diffusion_accuracy",
    "C74_mass_accuracy",
    "C74_load_accuracy",
    "C74_data",
    "C74_rules"
   ],
   "note": "real scalars; exact arithmetic"
  },
  {
   "property": "C75",
   "status": "proved",
   "theorems": [
    "C75_gradient",
    "C75_lagrange"
   ],
   "note": "real scalars"
  },
  {
   "property": "C76",
   "status": "proved",
   "theorems": [
    "C76_essential",
    "C76_boundary_value_problem",
    "C76_unique",
    "C76_unique_problem",
    "C76_rules",
    "C76_unique_library",
    "C76_unique_triangulation",
    "C76_reaction",
    "C76_rules_reaction",
    "C76_reaction_library",
    "C76_robin",
    "C76_rules_robin",
    "C76_robin_library"
   ],
   "note": "real scalars; Lagrangian spaces of orders 1 to 3; exactly one solution whenever the form is definite (C76_unique), which is shown for the default quadrature rules of the library, provided that the Newton iteration of GaussLegendre ends at the zeros of the Legendre polynomial; for problems without edge conditions (C76_reaction) the rules of the library are shown to do for order 1 on triangles and all orders on quadrilaterals"
  },
  {
   "property": "C77",
   "status": "partial",
   "theorems": [
    "C77_expressions_partial",
    "C77_constant",
    "C77_global",
    "C77_objects_refuted",
    "C77_row_major_refuted",
    "C77_matrix_norm_refuted",
    "C77_no_points_refuted"
   ],
   "note": "one scalar type per expression. Holds for well-typed expressions on nonempty lists of points; false for products of objects of other types, fixed-size matrices in row-major order, empty lists of points (the refutations); squared norms of fixed-size matrices other than vectors are zero"
  },
  {
   "property": "C78",
   "status": "proved",
   "theorems": [
    "C78_codim",
    "C78_codim_new",
    "C78_all",
    "C78_all_new"
   ],
   "note": ""
  },
  {
   "property": "C79",
   "status": "proved",
   "theorems": [
    "C79_read",
    "C79_unique",
    "C79_foreign_refuted",
    "C79_dollar_refuted"
   ],
   "note": "decimal numbers are exact, binary doubles are 64-bit words; foreign sections as in the specification (no dollar sign in the body, text files only): others are rejected, see the refutations"
  },
  {
   "property": "C80",
   "status": "proved",
   "theorems": [
    "C80_sound",
    "C80_truncated",
    "C80_order_refuted",
    "C80_tags_refuted"
   ],
   "note": "accepted style: words need not be separated, tag counts need not match, in version 4.1 anything may follow; the refutations show what this means"
  },
  {
   "property": "C81",
   "status": "proved",
   "theorems": [
    "C81_import",
    "C81_end_to_end",
    "C81_unique"
   ],
   "note": "exact real arithmetic for coordinates; two-dimensional meshes"
  },
  {
   "property": "C82",
   "status": "proved",
   "theorems": [
    "C82_constructed",
    "C82_stacked",
    "C82_distributes",
    "C82_no_repetition"
   ],
   "note": ""
  },
  {
   "property": "C83",
   "status": "proved",
   "theorems": [
    "C83_element_matrix",
    "C83_element_vector",
    "C83_matrix",
    "C83_vector"
   ],
   "note": "cells only (the providers of projects/dpg are for cells); any commutative ring"
  },
  {
   "property": "C84",
   "status": "proved",
   "theorems": [
    "C84_element_matrix",
    "C84_element_vector",
    "C84_optimal_unique",
    "C84_estimator",
    "C84_total_error",
    "C84_minimal_residual"
   ],
   "note": "exact real arithmetic"
  },
  {
   "property": "C85",
   "status": "proved",
   "theorems": [
    "C85_matlab",
    "C85_level",
    "C85_hierarchy",
    "C85_names_refuted",
    "C85_directory_refuted",
    "C85_precision_refuted"
   ],
   "note": "refutations: file names that end in m or contain a directory; six digits"
  },
  {
   "property": "C86",
   "status": "proved",
   "theorems": [
    "C86_plot",
    "C86_short_refuted"
   ],
   "note": "refutation: short file names"
  },
  {
   "property": "C87",
   "status": "proved",
   "theorems": [
    "C87_outer_normals",
    "C87_unique",
    "C87_divergence",
    "C87_curved_refuted"
   ],
   "note": "straight edges; refutation: curved edges"
  },
  {
   "property": "C88",
   "status": "proved",
   "theorems": [
    "C88_signs",
    "C88_one",
    "C88_boundary",
    "C88_prescribed_normal"
   ],
   "note": ""
  },
  {
   "property": "C89",
   "status": "proved",
   "theorems": [
    "C89_inflow",
    "C89_outflow",
    "C89_partition"
   ],
   "note": ""
  },
  {
   "property": "C90",
   "status": "proved",
   "theorems": [
    "C90_boundary_rules"
   ],
   "note": ""
  },
  {
   "property": "C91",
   "status": "proved",
   "theorems": [
    "C91_accepts",
    "C91_space",
    "C91_component_space",
    "C91_factory",
    "C91_rejected",
    "C91_local",
    "C91_components",
    "C91_continuous",
    "C91_flux_refuted",
    "C91_reuse_refuted"
   ],
   "note": "refutations: spaces of flux components; indices after Build"
  },
  {
   "property": "C92",
   "status": "proved",
   "theorems": [
    "C92_conditions",
    "C92_accepted",
    "C92_flux_refuted",
    "C92_flux_fails"
   ],
   "note": "refutation: flux components of the factory"
  },
  {
   "property": "C93",
   "status": "proved",
   "theorems": [
    "C93_constant",
    "C93_discontinuous",
    "C93_trace",
    "C93_lagrange_traces",
    "C93_boundary"
   ],
   "note": ""
  },
  {
   "property": "C94",
   "status": "proved",
   "theorems": [
    "C94_text",
    "C94_accepted",
    "C94_unsigned_char_refuted",
    "C94_precision_refuted",
    "C94_empty_field_refuted",
    "C94_names_refuted",
    "C94_previous_refuted"
   ],
   "note": "refutations: unsigned char, precision, empty global arrays, names, previous contents"
  },
  {
   "property": "C95",
   "status": "proved",
   "theorems": [
    "C95_binary",
    "C95_unsigned_char_refuted"
   ],
   "note": "refutation: unsigned char"
  },
  {
   "property": "C96",
   "status": "proved",
   "theorems": [
    "C96_normals",
    "C96_tangentials",
    "C96_neighbours",
    "C96_all_cells"
   ],
   "note": ""
  },
  {
   "property": "C97",
   "status": "proved",
   "theorems": [
    "C97_no_flow",
    "C97_one_solution"
   ],
   "note": ""
  },
  {
   "property": "C98",
   "status": "proved",
   "theorems": [
    "C98_coefficients",
    "C98_velocity",
    "C98_function",
    "C98_flow",
    "C98_no_flow"
   ],
   "note": ""
  },
  {
   "property": "C99",
   "status": "proved",
   "theorems": [
    "C99_annulus_mesh",
    "C99_region",
    "C99_center_refuted",
    "C99_few_cells_refuted"
   ],
   "note": "for at least three cells around and the centre at the origin; findings: the centre is ignored, fewer cells throw"
  },
  {
   "property": "C100",
   "status": "proved",
   "theorems": [
    "C100_system",
    "C100_one_solution",
    "C100_velocity",
    "C100_several_curves",
    "C100_hole_refuted"
   ],
   "note": "boundaries that are one closed curve; finding: for several curves the offset system is singular"
  },
  {
   "property": "C101",
   "status": "partial",
   "theorems": [
    "C101_l2",
    "C101_l2_constant",
    "C101_dg_partial",
    "C101_dg_fixed",
    "C101_gradient_refuted",
    "C101_points_refuted"
   ],
   "note": "L2norm proved; DGnorm proved for gradients of type MatrixXd and the midpoint rule on edges; false for Matrix2d (gradient ignored) and for several points per edge (assertion)"
  },
  {
   "property": "C102",
   "status": "partial",
   "theorems": [
    "C102_evolution_partial",
    "C102_durations",
    "C102_ends_early",
    "C102_final_time_refuted",
    "C102_diffusion_accuracy",
    "C102_empty_refuted",
    "C102_step_unique",
    "C102_step_stable",
    "C102_step_conserves",
    "C102_step_stationary",
    "C102_step_eigenvector",
    "C102_stability",
    "C102_flow_unique",
    "C102_flow_exists"
   ],
   "note": "all of it proved except the final time, which is refuted: the stages end at T - 3/2 T/m; NaN where capacity and value are zero"
  },
  {
   "property": "C103",
   "status": "proved",
   "theorems": [
    "C103_matrices",
    "C103_rules",
    "C103_symmetric",
    "C103_nonnegative",
    "C103_positive",
    "C103_constants",
    "C103_total",
    "C103_population",
    "C103_evolution",
    "C103_integral",
    "C103_integral_missing"
   ],
   "note": "exact real arithmetic; coefficients as functions of the point"
  },
  {
   "property": "C104",
   "status": "partial",
   "theorems": [
    "C104_picture",
    "C104_closed",
    "C104_or",
    "C104_and",
    "C104_no_cells",
    "C104_default_refuted"
   ],
   "note": "everything proved except the documented default of the last argument, which is refuted"
  },
  {
   "property": "C105",
   "status": "partial",
   "theorems": [
    "C105_diffusion",
    "C105_diffusion_symmetric",
    "C105_diffusion_refuted",
    "C105_reaction",
    "C105_convection",
    "C105_diffusion_integrals",
    "C105_reaction_integrals",
    "C105_convection_integrals",
    "C105_missing",
    "C105_load",
    "C105_load_integrals",
    "C105_build",
    "C105_build_load",
    "C105_constructed",
    "C105_load_constructed",
    "C105_cells",
    "C105_assembly"
   ],
   "note": "everything proved except the documented form of diffusion for coefficients that are not symmetric, which is refuted"
  },
  {
   "property": "C106",
   "status": "partial",
   "theorems": [
    "C106_flux",
    "C106_flux_integrals",
    "C106_flux_missing",
    "C106_flux_single_valued_partial",
    "C106_flux_single_valued_refuted",
    "C106_trace",
    "C106_trace_integrals",
    "C106_trace_missing",
    "C106_flux_cells",
    "C106_trace_cells"
   ],
   "note": "everything proved except that fluxes are single-valued, which holds for degrees 0 and 1 and is refuted for degrees 2 and 3"
  },
  {
   "property": "C107",
   "status": "proved",
   "theorems": [
    "C107_structured",
    "C107_refined",
    "C107_triangulation",
    "C107_no_flow",
    "C107_in_out_flow",
    "C107_levels",
    "C107_rectangle_levels",
    "C107_fit_no_flow",
    "C107_fit_in_out_flow"
   ],
   "note": "rectangles whose sides do not differ by a factor of several thousand (see C33); a torus needs three cells in each direction"
  }
 ]
}