{"claims": [
  {"property": "C01", "status": "proved", "theorems": ["C01_edge_table_is_map", "C01_edge_table_outputs"], "note": "All histories of hashNew/hashEdge/hashUpdate/hashEdgeTag/hashGet/hashPop refine a finite map on unordered pairs; refused growth reported by 0."},
  {"property": "C02", "status": "proved", "theorems": ["C02_face_table_is_map"], "note": "All histories of hashFace/hashGetFace refine a finite map on unordered triples."},
  {"property": "C03", "status": "proved", "theorems": ["C03_geom_table_is_map"], "note": "All histories of hNew/hEdge/hTag/hGet/hPop refine a finite map with (ref,tag) payload."},
  {"property": "C04", "status": "proved", "theorems": ["C04_adjacency", "C04_adjacency_manifold", "C04_adjacency_after_packing"], "note": "MMG3D_hashTetra on a packed mesh (pack=0) and after MMG5_paktet on any reachable mesh with holes (pack=1); allocations succeed"},
  {"property": "C05", "status": "proved", "theorems": ["C05_vertex_pool", "C05_element_pool"], "note": "All histories of newPt/delPt/newElt/delElt, growth macros and paktet. After a refused xpoint growth, growth and granted boundary creations are excluded (counter-examples C36_drift, C36_same_index_twice)."},
  {"property": "C06", "status": "partial", "theorems": ["C06_first_creation_refuted", "C06_tight_memory_overflows", "C06_first_creation_partial"], "note": "False as stated: when the memory limit fixes npmax=np the first creation writes past the array. Proved when npmax>np and nemax>ne."},
  {"property": "C07", "status": "proved", "theorems": ["C07_packing", "C07_same_geometry"], "note": "packMesh for a mesh of tetrahedra with one solution (non-Scotch order); prisms, quadrilaterals and normals are not modelled"},
  {"property": "C08", "status": "proved", "theorems": ["C08_packed_adjacency"], "note": "adjacency symmetric between distinct live tetrahedra before packing"},
  {"property": "C09", "status": "partial", "theorems": ["C09_creation_after_packing_refuted", "C09_creation_after_packing_partial"], "note": "False as stated: a stale link in slot npmax-1 makes newPt return a live vertex. Proved when the last two slots hold no link at the time of packing"},
  {"property": "C10", "status": "partial", "theorems": ["C10_vertices", "C10_elements", "C10_prisms_partial", "C10_prisms_refuted"], "note": "False as stated for prisms: Get_prisms exchanges two vertices (C10_prisms_refuted). Proved for vertices, tetrahedra, triangles, quadrilaterals and edges and any history of setting and marking calls; for prisms up to that exchange."},
  {"property": "C11", "status": "partial", "theorems": ["C11_iteration_partial", "C11_own_cursor", "C11_enumerates", "C11_two_meshes_refuted"], "note": "False as stated for prisms and quadrilaterals of several meshes (static cursors). Proved for every interleaving of readings of vertices, tetrahedra, triangles and edges of any meshes, and of the prisms and quadrilaterals of one mesh."},
  {"property": "C12", "status": "proved", "theorems": ["C12_set_tetrahedron"], "note": "Coordinates are reals."},
  {"property": "C13", "status": "partial", "theorems": ["C13_skip_partial", "C13_skip_trailing", "C13_skip_duplicates_refuted", "C13_skip_cursor_refuted", "C13_clean_triangles", "C13_clean_edges_partial", "C13_clean_edges_left_refuted", "C13_clean_edges_lost_refuted"], "note": "False as stated for skipIso (duplicates, lost triangles) and for the edges of Clean_isoSurf (an edge left, or lost). Proved in full for the triangles of Clean_isoSurf; the exact effect is proved for the others."},
  {"property": "C14", "status": "partial", "theorems": ["C14_exact_partial", "C14_granted", "C14_release", "C14_request", "C14_all_released", "C14_system_refusal_refuted", "C14_resize_refusal_refuted", "C14_negative_count_refuted", "C14_full_refuted"], "note": "False as stated when the system refuses memory, for negative counts and for growth at a full counter (refuted with witnesses); exact and bounded for all histories otherwise, with exact granting, release and no effect of a refused request."},
  {"property": "C15", "status": "partial", "theorems": ["C15_inverse", "C15_sides_and_back", "C15_unknown_reported", "C15_not_split_refuted", "C15_late_reference_refuted"], "note": "Proved for lookup, split and level-set queries and for the references set on the mesh and restored. False as stated for the query 'not split' (inverted) and for references given to elements after the materials."},
  {"property": "C16", "status": "partial", "theorems": ["C16_extension", "C16_format_of_extension_partial", "C16_known", "C16_unknown", "C16_directory", "C16_format_of_extension_refuted", "C16_exact_refuted", "C16_output_partial", "C16_output_default", "C16_output_refuted", "C16_output_unknown_refuted", "C16_input_sol_partial", "C16_output_sol_partial", "C16_sol_directory_refuted", "C16_output_sol_directory_refuted", "C16_bounds", "C16_path", "C16_remove_refuted", "C16_remove_partial"], "note": "False as stated: an output name with a dot never gets an extension, derived solution names take a directory for an extension, hidden files are treated according to the presence of a directory. Proved: exact characterisation of the extension found, formats of known extensions, directories in MMG5_Get_filenameExt, default output names, no write out of bounds in the setters."},
  {"property": "C17", "status": "proved", "theorems": ["C17_volumes", "C17_face_triangles", "C17_conform", "C17_inner_faces"], "note": "All 63 combinations of marked edges and all vertex numbers; volumes over the reals, for all coordinates and all positions of the new vertices inside their edges."},
  {"property": "C18", "status": "partial", "theorems": ["parts_defined", "parts_sum", "parts_bounds", "parts_exact", "triangle_sum", "triangle_bounds", "triangle_exact", "small_values_refuted", "all_small_refuted", "surface_refuted"], "note": "False as stated for values that are small but not zero (small_values_refuted) and for surfaces (surface_refuted). For values that are zero or at least 1e-12 in absolute value the two parts sum to the volume, lie between zero and it, and the positive part is the exact volume where the affine function is positive; the sum and the absence of assertion failures hold for all values."},
  {"property": "C19", "status": "partial", "theorems": ["sides", "components_removed", "remaining_large", "nothing_removed", "shared_vertex_refuted", "double_count_refuted"], "note": "False as stated for components that touch at a vertex only (shared_vertex_refuted). Proved for meshes whose vertex balls are connected through faces: exactly the too small (or unattached) components change, what remains is not small, the call always succeeds. The mark of 'visited once' is the NoDup pile inside the proof. Memory accounting of the pile not modelled."},
  {"property": "C20", "status": "partial", "theorems": ["mark_tables", "gradation_bounds", "gradation_graded", "gradation_greatest", "gradation_converges", "required_bounds", "required_neighbours", "long_strip_refuted", "required_pair_refuted", "required_increase_refuted", "unmarked_refuted", "surface_length_refuted"], "note": "Isotropic gradation of Mmg2d, Mmgs and Mmg3d. False as stated around required edges and after 100 sweeps (refuted theorems). Proved: bounds, graded when nothing changed, largest graded map, convergence up to 100 points, behaviour around required ends. Missing: anisotropic metrics; exact arithmetic instead of doubles."},
  {"property": "C21", "status": "partial", "theorems": ["scaling_defined", "scaling_unit_box", "scaling_inverse", "scalar_metric_inverse", "tensor_metric_inverse_partial", "unused_levelset_refuted", "refused_scaling_refuted", "unscale_displacement_refuted"], "note": "Proved for coordinates, parameters, level-sets and scalar metrics of accepted meshes. False as stated for refused meshes, unused vertices and 3D displacements. Missing: the truncation of tensor metrics (a parameter of the model)."},
  {"property": "C22", "status": "proved", "theorems": ["C22_in_place", "C22_renumber", "C22_orphan_refuted"], "note": "The order of the elements comes from SCOTCH and is an arbitrary permutation here. The graph given to SCOTCH, the memory limit and the early returns are not modelled. C22_orphan_refuted shows the case excluded by the hypothesis on permNodGlob."},
  {"property": "C23", "status": "partial", "theorems": ["C23_contents", "C23_cells", "C23_no_abort_partial", "C23_round", "C23_finest_cell_refuted"], "note": "Contents, counters and cells for every history that does not abort; no abort as long as at most 3*nv vertices share a cell of the finest level; beyond, an assertion on the size of the table can fail (refuted)."},
  {"property": "C24", "status": "partial", "theorems": ["C24_partial", "C24_face_refuted", "C24_many_cells_refuted"], "note": "False as stated: the search gives up when a lower face of the box lies on a plane between cells or when too many cells meet the box. Proved otherwise, for every history of the tree."},
  {"property": "C25", "status": "partial", "theorems": ["C25_partial", "C25_refuted"], "note": "False as stated: the recursive calls are dropped. Proved: the search ends in range, and is right between adjacent positions."},
  {"property": "C26", "status": "partial", "theorems": ["C26_invmat22", "C26_invmatg", "C26_invmat_partial", "C26_invmat_diagonal", "C26_invmat_refuted", "C26_invmat_zero_refuted", "C26_invmat33_partial", "C26_invmat33_refuted", "C26_sys33sym", "C26_products", "C26_rotmatrix_partial", "C26_rotmatrix_refuted", "C26_rotmatrix_orthonormal", "C26_normal"], "note": "False as stated for invmat, invmat33 and rotmatrix because of absolute thresholds; exact results proved outside the thresholds, in full for invmat22, invmatg, sys33sym, products and normals"},
  {"property": "C27", "status": "proved", "theorems": ["C27_sort", "C27_permute", "C27_sort_and_permute"], "note": "values compared by any total preorder (no NaN)"},
  {"property": "C28", "status": "proved", "theorems": ["C28_keep_one", "C28_keep_one_triangles"], "note": "Tetrahedra (Mmg3d) and triangles (Mmg2d, Mmgs) on meshes with symmetric adjacency or none. Elements are these: prisms and quadrilaterals are kept whatever their reference, and the theorems count them as users of their vertices. An already unused vertex with the required mark and a zero scratch flag is revived."},
  {"property": "C29", "status": "partial", "theorems": ["C29_read_back", "C29_frame", "C29_frame_real", "C29_history", "C29_invalid", "C29_reals", "C29_not_readable", "C29_angle", "C29_out_of_range", "C29_rejected_refuted", "C29_truncated_refuted", "C29_not_readable_refuted", "C29_angle_refuted", "C29_out_of_range_refuted", "C29_memory_reset_refuted"], "note": "False as stated for several parameters (refuted theorems). Proved: read back within the range of the type, no effect on other parameters, last value wins in any history, real values used as set."},
  {"property": "C30", "status": "partial", "theorems": ["C30_tables_partial", "C30_set_again_partial", "C30_set_again_refuted", "C30_base_references_refuted", "C30_refused_announcement_refuted"], "note": "False as stated: a key of a full table cannot be set again. The other parts are proved for all histories of calls whose allocations succeed."},
  {"property": "C31", "status": "partial", "theorems": ["default_bounds", "constant_size_bounds", "scaling_bounds", "zero_bound_refuted", "incoherent_bounds_refuted", "second_call_refuted"], "note": "Proved for positive and coherent user bounds. False as stated for bounds set to 0, incoherent bounds with a metric, and metrics with non-positive sizes after a first refusal."},
  {"property": "C32", "status": "proved", "theorems": ["C32_packing"], "note": "Any reachable mesh with at least one element; an empty mesh fires the assert (C32_empty)."},
  {"property": "C33", "status": "proved", "theorems": ["C33_delete", "C33_prune"], "note": "Assumes the hash tables can grow."},
  {"property": "C34", "status": "proved", "theorems": ["C34_swapbin", "C34_swapbin_int64", "C34_float_words", "C34_swapbin_int_refuted"], "note": "the unused swapbin_int is out of bounds with the default 32-bit MMG5_int"},
  {"property": "C35", "status": "partial", "theorems": ["swap_conforming", "split_conforming", "splitbar_conforming", "collapse_conforming", "split_nomem_refuted", "splitbar_realloc_refuted", "splitbar_assert_refuted", "splitbar_tags_refuted", "realloc_adja_refuted", "colver2_tags_refuted", "void_triangle_refuted"], "note": "Proved for the swap, the split of an edge, the insertion of a point and the collapse (link condition as hypothesis). False as stated when the memory runs out during the split, and for a collapse accepted by MMG2D_chkcol at a hole on a material interface (witnesses)."},
  {"property": "C36", "status": "partial", "theorems": ["C36_failed_creation_refuted", "C36_failed_creation_partial"], "note": "False as stated: refused xpoint growth leaves a ghost vertex. Proved for refusals of the vertex and element arrays."},
  {"property": "C37", "status": "partial", "theorems": ["C37_refused_adjacency_growth_refuted"], "note": "False as stated: a later deletion writes past the adjacency table."},
  {"property": "C38", "status": "partial", "theorems": ["C38_faces", "C38_edges", "C38_slots", "C38_orientation_partial", "C38_inner_edges_partial", "C38_inner_edges_six_partial", "C38_orientation_refuted", "C38_inner_edges_refuted", "C38_inner_edges_wrong_face_refuted"], "note": "False as stated: one branch of MMG5_split3op sets the orientation bit of the wrong face, MMG5_split6 reads an uninitialised variable and uses a wrong face for one tag. Faces, edges on edges and slots hold in full."},
  {"property": "C39", "status": "proved", "theorems": ["C39_tested", "C39_simulation"], "note": "The simulated and created tetrahedra are the same list; volumes over the reals."},
  {"property": "C40", "status": "partial", "theorems": ["C40_volume_cut_total", "C40_surface_cut_total", "C40_kept_material_refuted"], "note": "False as stated: MMG3D_cuttet_ls has no case for two opposite cut edges, which occur when a material is kept whole. Holds when all materials are split, and for the surface variant."},
  {"property": "C41", "status": "partial", "theorems": ["C41_too_large_partial", "C41_nonpositive_refuted"], "note": "False as stated for positions below one; proved for positions above the announced number."},
  {"property": "C42", "status": "proved", "theorems": ["C42_boundary", "C42_no_memory_refuted"], "note": "Proved when memory is found (tetrahedra only, no prisms); the refusal of memory is refuted with a witness."},
  {"property": "C43", "status": "partial", "theorems": ["C43_after_update_partial", "C43_refuted"], "note": "False as stated for the callers, which pass the position of the mesh as the old one. Proved when the mesh already holds the new position and the two codes differ."},
  {"property": "C44", "status": "partial", "theorems": ["C44_partial", "C44_refuted"], "note": "False as stated when the memory is raised after the arrays exist. Proved for the state right after the sizes are set, whatever came before."},
  {"property": "C45", "status": "partial", "theorems": ["C45_partial", "C45_given_partial", "C45_overflow_refuted", "C45_overflow", "C45_legacy_refuted", "C45_given_refuted"], "note": "False as stated: names of 256 characters or more overflow the buffer, stem.mmg3d5 is never tried, a given file with another extension is not opened. Proved for names up to 242 characters: the first existing file of the list tried is opened."},
  {"property": "C46", "status": "proved", "theorems": ["ball_complete", "shell_complete", "shell_boundary", "settag_everywhere", "deltag_everywhere"], "note": "MMG5_boulevolp, MMG5_coquil, MMG5_settag and MMG5_deltag. The balls and shells of surfaces (MMG5_boulesurfvolp, MMG5_coquilface) are not modelled."},
  {"property": "C47", "status": "proved", "theorems": ["tet_collapse_conforming", "tet_collapse_unchecked_refuted"], "note": "The condition on the faces stands for the geometric tests of the callers; without it the result may be wrong (tet_collapse_unchecked_refuted). The part of MMG5_colver that moves tags and references of faces to other tetrahedra is not modelled."},
  {"property": "C48", "status": "partial", "theorems": ["swap_runs", "swap_conforming", "swap_faces", "swap_edges", "swap_orientation_refuted", "swap_no_memory_refuted", "swap_no_boundary_memory_refuted"], "note": "False as stated: the orientation of a face of the second tetrahedron may be lost, and the mesh is damaged when memory lacks. Proved for the rest: no bad access, failure only when a table is full, conformity, orientation of the tetrahedra, references and tags of faces and edges."},
  {"property": "C49", "status": "proved", "theorems": ["ascii_round_trip", "fifteen_digits_refuted"], "note": "The coordinates come back as printed with 15 digits, which is not exact (fifteen_digits_refuted)."},
  {"property": "C50", "status": "partial", "theorems": ["binary_round_trip_partial", "binary_round_trip_refuted", "deleted_quadrilateral_refuted"], "note": "False as stated: the parallel marks are not written to binary files, and the marks of quadrilaterals are wrong when some are deleted. Proved for everything else."},
  {"property": "C51", "status": "proved", "theorems": ["sections_in_any_order", "keywords"], "note": ""},
  {"property": "C52", "status": "partial", "theorems": ["load_in_bounds_refuted", "load_ends_refuted", "sections_in_any_order"], "note": "False as stated: vertices out of range, negative marks, and positions that go backwards. Proved for the files of C51."},
  {"property": "C53", "status": "partial", "theorems": ["load_depends_on_the_mesh_refuted", "saved_is_readable_refuted", "ascii_round_trip"], "note": "False as stated: counters that are not reset, meshes without tetrahedra. Proved for an empty mesh and a mesh with tetrahedra."},
  {"property": "C54", "status": "proved", "theorems": ["solutions_round_trip", "metric_round_trip", "metric_refused"], "note": ""},
  {"property": "C55", "status": "partial", "theorems": ["binary_solutions_partial", "binary_metric_refuted"], "note": "False as stated: a new line is written after each vertex of a binary file. Proved: the file is accepted, the types and the values of the first vertex are right."},
  {"property": "C56", "status": "partial", "theorems": ["load_sol_initialised_refuted", "load_all_saved_refuted", "load_sol_ends_refuted", "solutions_round_trip"], "note": "False as stated: files without SolAtVertices, with no solution at vertices, and with a position that goes backwards. Proved for the files of C54."},
  {"property": "C57", "status": "proved", "theorems": ["orients"], "note": ""},
  {"property": "C58", "status": "proved", "theorems": ["components"], "note": ""},
  {"property": "C59", "status": "partial", "theorems": ["failure_is_moebius", "moebius_accepted_refuted", "moebius_accepted_s_refuted"], "note": "False as stated: a Moebius strip of eight triangles is accepted by MMG5_setadj and left inconsistent by MMGS_setadj. True part: a failure is reported only on surfaces without orientation."},
  {"property": "C60", "status": "proved", "theorems": ["hash_gives_neighbours", "hash_gives_surface"], "note": "For triangles without duplicates; the tags of the vertices are not modelled."},
  {"property": "C61", "status": "partial", "theorems": ["removed_has_twin", "duplicates_go_refuted", "only_crowded_marked_refuted", "glued_to_used_refuted"], "note": "False as stated: only the first sentence holds (without parallel edges); a duplicate may stay, may leave MG_NOM behind and, with a level set, may leave a triangle glued to a removed one."},
  {"property": "C62", "status": "partial", "theorems": ["solutions_read_back", "last_vertex_refuted", "size_before_mesh_refuted", "size_zero_refuted", "refused_kind_refuted", "refused_memory_refuted", "wrong_kind_refuted"], "note": "Proved for every history whose sizes are below the capacity of the mesh and granted, with setters and getters of the kind of the field. False as stated beyond (refuted theorems)."},
  {"property": "C63", "status": "partial", "theorems": ["positions_refused", "positions_2d_refuted", "refusal_lost_refuted", "read_beyond_refuted", "read_below_refuted"], "note": "False as stated for scalars and tensors of Mmg2d and for the i-th field functions. Proved for the other setters."},
  {"property": "C64", "status": "partial", "theorems": ["solutions_used_partial", "vectors_shifted", "vectors_used_refuted"], "note": "False as stated for the vectors of Mmg2d, where the exact shift is proved. Proved for everything else."},
  {"property": "C65", "status": "proved", "theorems": ["hash_2d_fits", "hash_2d_neighbours"], "note": "Soundness and symmetry for every mesh, completeness when no edge belongs to more than two triangles."},
  {"property": "C66", "status": "partial", "theorems": ["edges_reach_triangles", "every_edge_received_refuted"], "note": "False as stated: of an edge given twice only the first is used. Proved: every side receives the first edge given for it, the others keep what they had."},
  {"property": "C67", "status": "partial", "theorems": ["edges_made", "boundary_edges_once", "plain_edges_dropped", "required_edges_twice", "given_edges_returned", "edges_once_refuted", "interface_once_refuted"], "note": "False as stated: required edges inside a reference are returned twice, and so are interfaces with -opnbdy. Proved: the sides stored, once each, for boundary and interface edges, and that edges given come back with reference and marks. Quadrangles are not modelled."},
  {"property": "C68", "status": "partial", "theorems": ["pack_packs", "packed_packable", "solution_size_refuted"], "note": "False as stated for the size of the last solution only, which is not updated. Everything else is proved: numbers, order, data, adjacencies, edges, values, and that the result can be packed again. Quadrangles are not modelled."},
  {"property": "C69", "status": "partial", "theorems": ["free_cells", "free_cells_refuted", "new_vertex_refuted"], "note": "False as stated: the last cell keeps an old link. Proved when that cell ends its list."},
  {"property": "C70", "status": "proved", "theorems": ["setadj_marks"], "note": "For all meshes of triangles without quadrangles, references not negative."},
  {"property": "C71", "status": "proved", "theorems": ["setadj_components"], "note": "The count of the numbers holds when the first cell is a triangle, as in the quantifier."},
  {"property": "C72", "status": "partial", "theorems": ["required_vertex_kept", "required_vertex_refuted"], "note": "False as stated: with -nosurf a required vertex at an interface is frozen on the second visit and comes back not required; proved without -nosurf and without frozen or parallel edges."},
  {"property": "C73", "status": "partial", "theorems": ["stale_numbers", "second_run_refuted"], "note": "False as stated: the numbers left by the first call hide all triangles but the first from the analysis of the second."},
  {"property": "C74", "status": "partial", "theorems": ["hash_quads_fits", "hash_quads_neighbours", "hash_quads_refuted"], "note": "False as stated: a hole among the quadrilaterals shifts the numbers (hash_quads_refuted). Proved when there is no hole, for all meshes (hash_quads_fits) and with equivalence for conforming ones (hash_quads_neighbours). Step 2 of the function is the subject of C75."},
  {"property": "C75", "status": "proved", "theorems": ["hash_quads_triangles", "interface_found"], "note": "For meshes without holes among the quadrilaterals (see C74) and granted growths of the table."},
  {"property": "C76", "status": "partial", "theorems": ["quad_edges_made", "interface_not_doubled", "quad_edges_once_refuted"], "note": "False as stated: the edge 0 of the triangle 1 is returned twice when it lies on a quadrilateral (quad_edges_once_refuted). Proved: which edges are returned for the quadrilaterals (quad_edges_made); all other interface edges are returned from the triangle only (interface_not_doubled)."},
  {"property": "C77", "status": "proved", "theorems": ["interface_frozen"], "note": "The assertion on the references of the edges (analys_2d.c:246) is not modelled."},
  {"property": "C78", "status": "partial", "theorems": ["required_quads_kept", "required_quads_refuted"], "note": "False as stated: a quadrilateral with triangles on its four sides is returned as required (required_quads_refuted). Proved: those required by the user stay so, and one with a side that is neither required nor on a triangle is not returned as required (required_quads_kept)."},
  {"property": "C79", "status": "partial", "theorems": ["required_header_doubled", "required_unreadable", "quads_read_back_partial", "required_read_back", "save_load_quads_refuted"], "note": "False as stated: the required quadrilaterals are counted twice, so that a file with one of them cannot be read again; proved for meshes without required quadrilaterals, and that the reader is right on files with the true number."},
  {"property": "C80", "status": "partial", "theorems": ["quads_packed_partial", "quads_pack_ends", "quads_without_holes_kept", "quads_gap_refuted", "quads_assert_refuted"], "note": "False as stated: a hole at the end is counted in the result and two of them stop a program with assertions. Proved: nothing is lost, changed or doubled; with assertions all but the last are in use; a mesh without holes is kept."},
  {"property": "C81", "status": "proved", "theorems": ["quads3_read_back", "quads3_holes_refuted"], "note": "For meshes without holes; quads3_holes_refuted shows that it fails when there are some."},
  {"property": "C82", "status": "partial", "theorems": ["triangles_packed_partial", "triangles_packed_reachable", "triangles_gap_refuted"], "note": "False as stated when the last triangle is a hole: it is kept, or the packing fails; proved when the last triangle is in use, which is so in every mesh reached by deletions and creations from one whose triangles have all been set."},
  {"property": "C83", "status": "partial", "theorems": ["triangles_created_partial", "triangle_created_outside_refuted", "triangle_created_twice_refuted"], "note": "False as stated when the table is full: the next triangle lies outside the table or is in use; proved when the table is not full and its last cell ends the free list."},
  {"property": "C84", "status": "proved", "theorems": ["special_edges_of_the_mesh", "special_edges_once_partial", "edge_of_one_side_refuted"], "note": "Both passes over the triangles, holes anywhere; the table of edges has exactly the size counted. special_edges_once_partial is the second pass alone. An edge marked on one side only can be lost."}
]}
