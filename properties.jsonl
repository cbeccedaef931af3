{"id": "C01", "title": "Edge hash table is a finite map", "statement": "After any sequence of edge insertions, look-ups, value updates, tag merges and removals the edge table answers every query exactly as a finite map keyed by the unordered pair of end points: an inserted edge is found with the value it was first given (or last updated to), a removed or never inserted edge is not found, the order of the end points does not matter, and growing the table loses nothing and never touches memory outside it.", "quantifier": "every table size, every finite history of operations and every set of positive vertex indices, including all collision patterns and growth points", "why_tests_cant": "collision chains, in-place removal and growth interact differently for every history; a test fixes one history", "anchors": ["src/common/hash.c: MMG5_hashNew, MMG5_hashEdge, MMG5_hashGet, MMG5_hashUpdate, MMG5_hashEdgeTag", "src/mmg3d/hash_3d.c: MMG5_hashPop"]}
{"id": "C02", "title": "Face hash table identifies faces by their vertex set", "statement": "Two triangular faces are considered the same by the face table exactly when they have the same three vertices, whatever the order in which they are given; inserting a known face reports the index stored first and inserting a new one reports that it is new.", "quantifier": "every history of face insertions and look-ups, all vertex triples, all permutations of a triple, all collisions", "why_tests_cant": "the key stores only minimum, maximum and sum; that this is injective on vertex sets and survives collisions is a statement about all triples", "anchors": ["src/common/hash.c: MMG5_hashFace", "src/mmg3d/hash_3d.c: MMG5_hashGetFace"]}
{"id": "C03", "title": "Geometric edge table keeps reference and tags", "statement": "The geometric edge table behaves as a map from unordered vertex pairs to (reference, tags): storing a known edge changes nothing, tagging adds the tag bits and replaces the reference only by a non-zero one, reading returns the accumulated pair, popping returns and forgets it, and unknown edges read as (0,0) with failure.", "quantifier": "every history of store / tag / read / pop on every table size", "why_tests_cant": "in-place removal recycles slots; the defect space is the set of histories", "anchors": ["src/mmg3d/hash_3d.c: MMG5_hNew, MMG5_hEdge, MMG5_hTag, MMG5_hGet, MMG5_hPop"]}
{"id": "C04", "title": "Tetrahedral adjacency is symmetric and geometric", "statement": "After building adjacency, if face i of tetrahedron k is linked to face j of tetrahedron l then face j of l is linked back to face i of k, and both faces have the same three vertices; a face is left without neighbour only if no other unlinked face has the same vertices, so in a mesh where every face belongs to at most two tetrahedra, two faces are linked iff they coincide.", "quantifier": "every packed tetrahedral mesh with positive vertex indices", "why_tests_cant": "hash chains are threaded through the result array itself; correctness depends on every collision pattern", "anchors": ["src/mmg3d/hash_3d.c: MMG3D_hashTetra"]}
{"id": "C05", "title": "Vertex and tetrahedron allocators never hand out a live slot", "statement": "For any interleaving of creations, deletions and growths, a newly created vertex (tetrahedron) gets an index that is not currently in use, lies inside the allocated array, all other live entities keep their data, and creation fails only when no free slot is left in the list and the array may not grow, or when the boundary data of a boundary vertex cannot be allocated.", "quantifier": "every history of creations and deletions from every initial size", "why_tests_cant": "the free list is threaded through deleted entries; aliasing appears only in specific histories", "anchors": ["src/mmg3d/zaldy_3d.c: MMG3D_newPt, MMG3D_delPt, MMG3D_newElt, MMG3D_delElt, MMG3D_setMeshSize_alloc"]}
{"id": "C06", "title": "Initial free list stays inside the arrays for every memory setting", "statement": "Whatever the memory limit, once array sizes are fixed the first creation of a vertex or tetrahedron uses a slot inside the allocated array or reports failure.", "quantifier": "every number of vertices/elements and every maximal size not smaller than it", "why_tests_cant": "the failure needs a memory limit that leaves exactly no room, which tests do not hit", "anchors": ["src/mmg3d/zaldy_3d.c: MMG3D_setMeshSize_alloc, MMG3D_newPt, MMG3D_newElt"]}
{"id": "C07", "title": "Packing renumbers without changing the mesh", "statement": "Packing removes unused vertices and tetrahedra and renumbers the others one to one onto 1..n; each tetrahedron keeps its vertices (as coordinates), each vertex keeps its coordinates and each solution value stays attached to the vertex it was given for.", "quantifier": "every mesh with any pattern of deleted entries and at least one used vertex", "why_tests_cant": "three separate loops must compute the same renumbering for all hole patterns", "anchors": ["src/mmg3d/libmmg3d.c: MMG3D_mark_packedPoints, MMG3D_update_eltsVertices, MMG3D_pack_pointArray, MMG3D_pack_sol, MMG3D_pack_tetra"]}
{"id": "C08", "title": "Packing keeps adjacency valid", "statement": "If adjacency is symmetric and refers to live tetrahedra only before packing, it is so after packing, and it relates the same (renumbered) faces.", "quantifier": "every mesh and every pattern of deleted tetrahedra", "why_tests_cant": "moves and neighbour fix-ups are interleaved; the moved element may itself neighbour a moved element", "anchors": ["src/mmg3d/libmmg3d.c: MMG3D_pack_tetraAndAdja"]}
{"id": "C09", "title": "Creating entities after packing is safe", "statement": "After packing, further vertex creations never return the index of a vertex that is in use.", "quantifier": "every history creation/deletion/packing/creation", "why_tests_cant": "needs a history in which the last slots of the array have been used and freed before packing", "anchors": ["src/mmg3d/libmmg3d.c: MMG3D_pack_pointArray, MMG3D_pack_tetraAndAdja", "src/mmg3d/zaldy_3d.c: MMG3D_delPt, MMG3D_newPt"]}
{"id": "C10", "title": "Array setters and getters agree", "statement": "Vertices, tetrahedra, triangles, edges, quadrilaterals and prisms set through the array API are returned unchanged (up to the documented re-orientation) by the array getters.", "quantifier": "every entity count and content", "why_tests_cant": "the claim is about all contents and counts", "anchors": ["src/mmg3d/API_functions_3d.c: MMG3D_Set_vertices, MMG3D_Get_vertices, MMG3D_Set_tetrahedra, MMG3D_Get_tetrahedra, MMG3D_Set_prisms, MMG3D_Get_prisms, MMG3D_Set_triangles, MMG3D_Get_triangles"]}
{"id": "C11", "title": "Iterating getters enumerate every entity once", "statement": "Calling the one-by-one getter as many times as there are entities returns every entity exactly once in order, for each mesh independently of other meshes.", "quantifier": "every number of entities, every interleaving of getters on several meshes", "why_tests_cant": "the cursor is hidden state; only interleavings over several meshes expose sharing", "anchors": ["src/mmg3d/API_functions_3d.c: MMG3D_Get_vertex, MMG3D_Get_tetrahedron, MMG3D_Get_prism, MMG3D_Get_quadrilateral, MMG3D_Get_triangle, MMG3D_Get_edge"]}
{"id": "C12", "title": "Setting a tetrahedron stores a positively oriented one", "statement": "A tetrahedron set through the API is stored with non-negative oriented volume, with the same four vertices and the absolute value of the reference; a null volume is reported.", "quantifier": "all coordinates and vertex quadruples", "why_tests_cant": "orientation is a statement over all real coordinates", "anchors": ["src/mmg3d/API_functions_3d.c: MMG3D_Set_tetrahedron", "src/common/tools.c: MMG5_orvol"]}
{"id": "C13", "title": "Removing the isosurface entities keeps all the others", "statement": "Discarding previously computed isosurface triangles and edges removes exactly those carrying the isosurface reference and keeps every other triangle and edge once.", "quantifier": "every list of triangles and edges and every isosurface reference", "why_tests_cant": "depends on the position of the discarded entities in the list", "anchors": ["src/mmg3d/API_functions_3d.c: MMG3D_skipIso", "src/common/libtools.c: MMG5_Clean_isoEdges"]}
{"id": "C14", "title": "Memory accounting is exact and bounded", "statement": "At every moment the reported amount of memory in use equals the sum of the sizes of the live counted blocks and never exceeds the limit, for every sequence of counted allocations, growths and releases.", "quantifier": "every history of allocation, growth and release, every limit", "why_tests_cant": "requires all histories, in particular failing ones", "anchors": ["src/common/mmgcommon_private.h: MMG5_ADD_MEM, MMG5_DEL_MEM, MMG5_TAB_RECALLOC, MMG5_SAFE_CALLOC"]}
{"id": "C15", "title": "Multi-material map is inverted correctly", "statement": "For a list of materials with pairwise compatible references, the lookup from a child reference gives back the parent material and the sign of the side, non split materials map to themselves, and the queries split / not split / level-set interface agree with the list.", "quantifier": "every list of materials and every element reference in range", "why_tests_cant": "the lookup table packs index and attribute in one integer and later entries may overwrite former ones", "anchors": ["src/common/mmg2.c: MMG5_MultiMat_init, MMG5_InvMat_*, MMG5_getStartRef, MMG5_isSplit, MMG5_isNotSplit, MMG5_isLevelSet", "src/common/libtools.c: MMG5_Set_multiMat"]}
{"id": "C16", "title": "Extension and format recognition of file names", "statement": "The format reported for a file name depends only on its final extension, a directory name containing dots is not mistaken for an extension, and an output name without known extension gets one.", "quantifier": "every character string", "why_tests_cant": "the set of file names is infinite", "anchors": ["src/common/API_functions.c: MMG5_Get_format, MMG5_Get_filenameExt, MMG5_Set_outputMeshName"]}
{"id": "C17", "title": "Level-set splitting pattern tiles the tetrahedron", "statement": "For each combination of marked edges of a tetrahedron the sub-tetrahedra created by splitting have volumes that add up to the volume of the parent, each has the orientation of the parent when mid points lie inside the edges, and the faces they induce on each face of the parent depend only on the marked edges and vertex numbers of that face, so neighbours stay conformal.", "quantifier": "all 64 edge marks, all vertex numberings, all real coordinates and all positions of the new points on the edges", "why_tests_cant": "infinitely many coordinates and numberings; the tables are hand written", "anchors": ["src/mmg3d/split_3d.c: MMG5_split1, MMG5_split2sf, MMG5_split2, MMG5_split3, MMG5_split3cone, MMG5_split3op, MMG5_split4sf, MMG5_split4op, MMG5_split5, MMG5_split6"]}
{"id": "C18", "title": "Volume fractions of both sides add up", "statement": "The signed volume fractions computed on the two sides of the level-set in an element sum to the volume of the element and lie between zero and that volume.", "quantifier": "all coordinates and level-set values", "why_tests_cant": "real valued statement over all inputs", "anchors": ["src/common/mmg2.c: MMG5_vfrac", "src/mmg3d/mmg3d2.c: MMG3D_vfrac"]}
{"id": "C19", "title": "Small components are removed completely and only them", "statement": "Removing parasitic components flips the level-set sign exactly on the connected components of the positive (negative) side whose total volume is below the threshold, visits every element once and leaves the others untouched.", "quantifier": "every mesh, adjacency and level-set", "why_tests_cant": "graph traversal over arbitrary meshes", "anchors": ["src/mmg3d/mmg3d2.c: MMG3D_rmc", "src/common/mmg2.c: MMG5_rmc"]}
{"id": "C20", "title": "Size gradation terminates in a graded size map", "statement": "When the gradation sweeps end because nothing changed, sizes at the ends of every edge differ by no more than the gradation allows; sweeps never increase a size and keep sizes within bounds.", "quantifier": "all meshes, all size maps", "why_tests_cant": "iterative process over arbitrary graphs", "anchors": ["src/common/isosiz.c: MMG5_gradsiz_iso, MMG5_grad2met*", "src/mmg3d/isosiz_3d.c"]}
{"id": "C21", "title": "Scaling and unscaling are inverse", "statement": "Scaling a mesh to the unit box and unscaling it gives back coordinates, sizes, metrics and parameters; scaled coordinates lie in the unit box.", "quantifier": "all coordinates, sizes and metrics", "why_tests_cant": "real-valued identity for all inputs", "anchors": ["src/common/scalem.c: MMG5_scaleMesh, MMG5_unscaleMesh, MMG5_boundingBox"]}
{"id": "C22", "title": "Renumbering permutes in place without loss", "statement": "Applying a vertex or element permutation in place yields exactly the permuted array with consistent connectivity and solution.", "quantifier": "every permutation", "why_tests_cant": "cycle structure varies with each permutation", "anchors": ["src/common/librnbg.c", "src/mmg3d/librnbg_3d.c: MMG5_swapTet, MMG5_renumbering"]}
{"id": "C23", "title": "Spatial search tree holds exactly the inserted vertices", "statement": "After any sequence of insertions and deletions the search tree contains exactly the inserted and not deleted vertices, in cells that contain them, with consistent counters and never overflowing its vertex arrays.", "quantifier": "all coordinates in the unit cube and all histories", "why_tests_cant": "subdivision and merging depend on the history and the geometry", "anchors": ["src/mmg3d/PRoctree_3d.c: MMG3D_addPROctreeRec, MMG3D_delPROctreeRec, MMG3D_mergeBranches"]}
{"id": "C24", "title": "Proximity filter rejects close points", "statement": "A point is accepted for insertion only if no vertex of the search tree lies closer than the prescribed distance.", "quantifier": "all trees and points", "why_tests_cant": "geometric predicate over all configurations", "anchors": ["src/mmg3d/PRoctree_3d.c: MMG3D_PROctreein_iso, MMG3D_getListSquareRec, MMG3D_intersectRect"]}
{"id": "C25", "title": "Ordered insertion position is found", "statement": "The position search used to keep the list of cells ordered by distance returns the position of the largest smaller element.", "quantifier": "all ordered lists and values", "why_tests_cant": "binary search over all lists", "anchors": ["src/mmg3d/PRoctree_3d.c: MMG3D_seekIndex"]}
{"id": "C26", "title": "Small matrix kernels solve what they claim", "statement": "Symmetric and general 3x3 inversion, 2x2 inversion and the symmetric solver return the exact inverse / solution over the reals when they report success, and the rotation sends the given unit vector to the third axis and is orthonormal.", "quantifier": "all real matrices and unit vectors for which success is reported", "why_tests_cant": "identities over all reals", "anchors": ["src/common/tools.c: MMG5_invmat, MMG5_invmatg, MMG5_invmat33, MMG5_invmat22, MMG5_sys33sym, MMG5_rotmatrix, MMG5_rmtr"]}
{"id": "C27", "title": "Index sort orders values", "statement": "Sorting returns a permutation of the indices that orders the values, and permuting the values with it gives the sorted sequence.", "quantifier": "all lengths and values", "why_tests_cant": "all inputs", "anchors": ["src/common/tools.c: MMG5_nsort, MMG5_nperm"]}
{"id": "C28", "title": "Removing other subdomains keeps connectivity consistent", "statement": "Keeping one subdomain deletes exactly the elements of other references, unlinks them from their neighbours, marks as unused exactly the vertices no remaining entity uses and keeps isolated required vertices.", "quantifier": "all meshes and references", "why_tests_cant": "all meshes", "anchors": ["src/common/tools.c: MMG5_keep_subdomainElts, MMG5_mark_usedVertices, MMG5_mark_verticesAsUnused"]}
{"id": "C29", "title": "Parameters are stored, bounded and read back", "statement": "Every accepted integer or real parameter is read back by the getter or used as set, rejected ones leave the parameters unchanged, and invalid combinations of parameter and value report failure.", "quantifier": "all parameters and values", "why_tests_cant": "all values", "anchors": ["src/mmg3d/API_functions_3d.c: MMG3D_Set_iparameter, MMG3D_Get_iparameter, MMG3D_Set_dparameter"]}
{"id": "C30", "title": "Local parameter and material tables hold one entry per key", "statement": "After any sequence of calls the tables of local parameters and materials contain at most one entry per key, never exceed the announced size, the last value set for a key is the one stored and an already set key may always be set again.", "quantifier": "all histories of calls", "why_tests_cant": "histories", "anchors": ["src/mmg3d/API_functions_3d.c: MMG3D_Set_localParameter", "src/common/libtools.c: MMG5_Set_multiMat, MMG5_Set_lsBaseReference"]}
{"id": "C31", "title": "Default size bounds are consistent", "statement": "After automatic setting of the size bounds the minimal size is positive and not larger than the maximal size, and user bounds that are coherent are kept.", "quantifier": "all bounds given or not by the user and all mesh sizes", "why_tests_cant": "real-valued case analysis over all inputs", "anchors": ["src/common/API_functions.c: MMG5_Set_defaultTruncatureSizes", "src/common/scalem.c: MMG5_check_setted_hminhmax, MMG5_compute_..."]}
{"id": "C32", "title": "Packing before hashing makes the element array dense", "statement": "After the element packing that precedes adjacency building, all elements up to the count are valid, they are the former live ones, and the free list covers exactly the remaining slots.", "quantifier": "every hole pattern", "why_tests_cant": "all hole patterns", "anchors": ["src/mmg3d/hash_3d.c: MMG5_paktet"]}
{"id": "C33", "title": "Redundant boundary triangles are removed", "statement": "Deleting flagged triangles keeps the others once in order, and triangles given several times or not lying on a boundary are discarded.", "quantifier": "all triangle lists", "why_tests_cant": "all lists", "anchors": ["src/mmg3d/hash_3d.c: MMG5_chkBdryTria_flagExtraTriangles, MMG5_chkBdryTria_deleteExtraTriangles"]}
{"id": "C34", "title": "Byte order conversion is involutive", "statement": "Converting the byte order of an integer or a floating-point word twice gives it back, and once reverses its bytes.", "quantifier": "all words", "why_tests_cant": "all bit patterns", "anchors": ["src/common/inout.c: MMG5_swapbin, MMG5_swapf, MMG5_swapd"]}
{"id": "C35", "title": "Local surface operators keep adjacency valid", "statement": "Swapping an edge, splitting an edge and collapsing in a triangular mesh keep a symmetric adjacency table and the triangles stay consistently oriented.", "quantifier": "all triangle meshes and admissible operations", "why_tests_cant": "all meshes and histories of operations", "anchors": ["src/mmg2d/swapar_2d.c: MMG2D_swapar", "src/mmg2d/split_2d.c: MMG2D_split1b", "src/mmg2d/colver_2d.c: MMG2D_colver"]}
{"id": "C36", "title": "A failed vertex or element creation leaves the mesh unchanged", "statement": "When the creation of a vertex or tetrahedron is reported as failed, the mesh is the same as before the call: no vertex appears, no free slot disappears.", "quantifier": "every reachable allocator state and every refused allocation", "why_tests_cant": "needs an allocation to be refused at a precise moment", "anchors": ["src/mmg3d/zaldy_3d.c: MMG3D_newPt, MMG3D_newElt", "src/mmg3d/libmmg3d_private.h: MMG3D_POINT_REALLOC, MMG3D_TETRA_REALLOC"]}
{"id": "C37", "title": "A refused growth of the adjacency table leaves the mesh usable", "statement": "When the element array grows but the adjacency table cannot, the failure is reported and later creations and deletions stay inside the arrays.", "quantifier": "every allocator state, every later history", "why_tests_cant": "needs an allocation to be refused at a precise moment", "anchors": ["src/mmg3d/libmmg3d_private.h: MMG3D_TETRA_REALLOC"]}
{"id": "C38", "title": "Splitting hands down the boundary data", "statement": "After a tetrahedron is split, each face or edge of a created tetrahedron that lies on a face or edge of the parent carries the reference, tag and orientation of that face or edge; faces and edges created inside carry none; edges created inside a face carry the tag of that face without the reference mark; exactly the created tetrahedra that touch the boundary own a slot of boundary data and no slot is shared.", "quantifier": "all sets of marked edges, all vertex numbers, all references, tags and orientations of the parent", "why_tests_cant": "the result depends on 63 combinations of marked edges times 24 orders of the vertex numbers times arbitrary tags; a wrong tag in one branch shows only for meshes with the right numbering", "anchors": ["src/mmg3d/split_3d.c: MMG5_split1, MMG5_split2sf, MMG5_split2, MMG5_split3, MMG5_split3cone, MMG5_split3op, MMG5_split4sf, MMG5_split4op, MMG5_split5, MMG5_split6"]}
{"id": "C39", "title": "Split simulation predicts the created tetrahedra", "statement": "The simulation run before a split accepts if and only if the parent and every tetrahedron that the split would create have at least the minimal accepted volume.", "quantifier": "all sets of marked edges, vertex numbers and coordinates", "why_tests_cant": "simulation and split are separate code with their own numbering tables for each pattern; they must agree for every combination", "anchors": ["src/mmg3d/split_3d.c: MMG3D_split1_sim, MMG3D_split2sf_sim, MMG3D_split2_sim, MMG3D_split3_sim, MMG3D_split3cone_sim, MMG3D_split3op_sim, MMG3D_split4sf_sim, MMG3D_split4op_sim, MMG3D_split5_sim, MMG3D_split6_sim"]}
{"id": "C40", "title": "Level-set discretisation handles every cut tetrahedron", "statement": "Whatever the signs of the level-set at the vertices and the materials that are split or kept, every tetrahedron with a cut edge is split by one of the patterns, so the mesh stays conforming.", "quantifier": "all sign patterns, all choices of split materials, all meshes", "why_tests_cant": "the configurations depend on neighbours of other materials; tests use few material layouts", "anchors": ["src/mmg3d/mmg3d2.c: MMG3D_cuttet_ls", "src/mmg3d/mmg3d2s.c: MMG3D_cuttet_lssurf"]}
{"id": "C41", "title": "Positions outside the announced range are refused", "statement": "Setting a vertex or an element at a position that is not between one and the announced number of entities returns 0 and leaves the mesh unchanged.", "quantifier": "all meshes, positions and values", "why_tests_cant": "the argument ranges over all integers; a write just before the array has no visible effect until the memory is reused", "anchors": ["src/mmg3d/API_functions_3d.c: MMG3D_Set_vertex, MMG3D_Set_tetrahedron, MMG3D_Set_prism, MMG3D_Set_triangle, MMG3D_Set_quadrilateral, MMG3D_Set_edge"]}
{"id": "C42", "title": "The analysis completes the boundary", "statement": "After the check of the boundary of an input mesh, the list of triangles covers each boundary face (face without neighbour or between two references) exactly once: the user's triangles on the boundary come first, in order and unchanged, copies and triangles off the boundary are gone, missing triangles are added oriented outward with the documented reference, and exactly the vertices of these triangles are marked as boundary vertices.", "quantifier": "all conforming tetrahedral meshes and all triangle lists given by the user", "why_tests_cant": "the result depends on the coincidences between an arbitrary list of triangles and all faces of the mesh", "anchors": ["src/mmg3d/hash_3d.c: MMG5_chkBdryTria, MMG5_chkBdryTria_countBoundaries, MMG5_chkBdryTria_hashBoundaries, MMG5_chkBdryTria_flagExtraTriangles, MMG5_chkBdryTria_deleteExtraTriangles, MMG5_chkBdryTria_addMissingTriangles, MMG5_bdryTria"]}
{"id": "C43", "title": "Moved vertices are found by the search tree", "statement": "After a vertex of the mesh has been moved, the search tree holds it in a cell that contains its new position, so that it is found by later searches and deletions.", "quantifier": "all trees, vertices and positions in the unit cube", "why_tests_cant": "a stale entry only shows up when another point is later inserted near the moved vertex", "anchors": ["src/mmg3d/PRoctree_3d.c: MMG3D_movePROctree, MMG3D_getPROctreeCoordinate", "src/mmg3d/movpt_3d.c: callers"]}
{"id": "C44", "title": "Recorded capacities match the allocated arrays", "statement": "Whatever the order in which the memory parameter and the sizes of the mesh are set, the recorded maximal numbers of vertices and tetrahedra never exceed the allocated arrays and the announced entities fit.", "quantifier": "all sequences of calls, sizes and amounts of memory", "why_tests_cant": "the overflow only appears later, for particular sequences and amounts of memory", "anchors": ["src/mmg3d/API_functions_3d.c: MMG3D_Set_iparameter (MMG3D_IPARAM_mem), MMG3D_Set_meshSize", "src/mmg3d/zaldy_3d.c: MMG3D_memOption, MMG3D_memOption_memRepartition"]}
{"id": "C45", "title": "The right parameter file is opened", "statement": "For every name of mesh the parameter file of that name is opened when it exists, the default one otherwise; a parameter file given by the user is the one opened, or the call fails; no name makes the library write out of bounds.", "quantifier": "every mesh name, parameter file name and set of existing files", "why_tests_cant": "the set of names and directories is infinite, and the failing names are long", "anchors": ["src/mmg3d/libmmg3d_tools.c: MMG3D_parsop", "src/common/API_functions.c: MMG5_Get_filenameExt"]}
{"id": "C46", "title": "Balls and shells are complete", "statement": "In a conforming tetrahedral mesh whose ball (shell) is connected through faces, the ball of a vertex lists every tetrahedron with that vertex and the shell of an edge every tetrahedron with that edge, each of them once and with the right local number; the shell is reported open exactly when a face at the edge has no neighbour; setting or removing a tag of an edge reaches every tetrahedron of the shell and changes nothing else. The searches give up only when the list is full or a tetrahedron is required.", "quantifier": "every conforming mesh, tetrahedron, vertex and edge", "why_tests_cant": "the walks depend on the numbering and on the number of tetrahedra around an edge, which tests sample only", "anchors": ["src/mmg3d/boulep_3d.c: MMG5_boulevolp, MMG5_coquil, MMG5_settag, MMG5_deltag"]}
{"id": "C47", "title": "A collapse in a tetrahedral mesh keeps it conforming", "statement": "When the point p of an edge p-q is collapsed on q in a conforming tetrahedral mesh without duplicated tetrahedra, in which faces p,z,w and q,z,w always belong to a common tetrahedron, either nothing changes and the collapse would have given two equal tetrahedra (or the ball is too large for the list), or the tetrahedra with the edge disappear, p is replaced by q in the others, and the mesh, its adjacency and its free list are again right.", "quantifier": "every conforming mesh, every edge", "why_tests_cant": "a wrong adjacency shows up only in later operations, for particular numberings", "anchors": ["src/mmg3d/colver_3d.c: MMG5_colver", "src/mmg3d/zaldy_3d.c: MMG3D_delElt"]}
{"id": "C48", "title": "A 2-3 swap keeps a tetrahedral mesh conforming and its boundary marked", "statement": "When two neighbouring tetrahedra of one reference, whose opposite vertices share no edge, are replaced by the three tetrahedra around the edge between these vertices, the mesh, its adjacency, its orientation and its tables are again right, the other tetrahedra do not change, each face keeps its reference, its tag and its orientation, the new faces and the new edge have no tag, and the other edges keep theirs. When memory lacks, the function reports it and the mesh is as before.", "quantifier": "every conforming oriented mesh, every pair of neighbouring tetrahedra, every numbering of their vertices, every state of the tables", "why_tests_cant": "there are 4*12 relative numberings, and a wrong link or mark shows up only in later operations", "anchors": ["src/mmg3d/swap_3d.c: MMG3D_swap23", "src/mmg3d/mmg3d1.c: MMG3D_anatet4_sim, MMG5_anatet4"]}
{"id": "C49", "title": "A mesh saved in an ASCII Medit file is read back", "statement": "Reading with MMG3D_loadMesh the ASCII file written by MMG3D_saveMesh for a mesh with at least one tetrahedron gives the vertices in use in the same order with their coordinates as printed, their references, their corner, required and parallel marks and their normals, and the tetrahedra in use, prisms, triangles, quadrilaterals and edges, in the same order, with the same vertices (the last two of a tetrahedron exchanged when its volume is negative), reference and required, parallel and ridge marks. A vertex of no tetrahedron and no prism comes back as unused unless it is required.", "quantifier": "every valid mesh, with deleted vertices and elements anywhere, every printing of the numbers", "why_tests_cant": "the numbers are compacted in five places by different code, which tests try on the meshes at hand, most of them without deleted entities", "anchors": ["src/mmg3d/inout_3d.c: MMG3D_saveMesh, MMG3D_loadMesh_opened"]}
{"id": "C50", "title": "A mesh saved in a binary Medit file is read back unchanged", "statement": "Reading with MMG3D_loadMesh the binary file written by MMG3D_saveMesh gives the same mesh as for an ASCII file, with the very same floating-point numbers and with every mark; each section is found at the position that the previous one announces.", "quantifier": "every valid mesh", "why_tests_cant": "a position that is wrong for one kind of entity matters only in meshes that have this kind and a later one", "anchors": ["src/mmg3d/inout_3d.c: MMG3D_saveMesh, MMG3D_loadMesh_opened"]}
{"id": "C51", "title": "The sections of a Medit file may come in any order", "statement": "An ASCII Medit file whose kinds of sections occur at most once, announce their number of entries and refer to existing vertices is loaded as it says whatever the order of the sections, the unknown sections being skipped; marks of entities that do not exist are ignored.", "quantifier": "every such file, every order", "why_tests_cant": "there are 20! orders, and keywords that are prefixes of others", "anchors": ["src/mmg3d/inout_3d.c: MMG3D_loadMesh_opened"]}
{"id": "C52", "title": "No file makes the loader leave its arrays or run for ever", "statement": "MMG3D_loadMesh ends on every file, with a mesh or with an error code, and never accesses memory outside the arrays of the mesh.", "quantifier": "every file", "why_tests_cant": "the malformed files are not enumerable", "anchors": ["src/mmg3d/inout_3d.c: MMG3D_loadMesh_opened"]}
{"id": "C53", "title": "What is loaded depends on the file only, and what is saved can be loaded", "statement": "The result of MMG3D_loadMesh does not depend on what the mesh held before, and each mesh that MMG3D_saveMesh saves can be loaded.", "quantifier": "every file and every mesh", "why_tests_cant": "tests load into new meshes and save meshes that they have loaded", "anchors": ["src/mmg3d/inout_3d.c: MMG3D_saveMesh, MMG3D_loadMesh_opened"]}
{"id": "C54", "title": "Solutions saved in an ASCII Medit file are read back", "statement": "Loading with MMG3D_loadAllSols (MMG3D_loadSol) the ASCII file that MMG3D_saveAllSols (MMG3D_saveSol) writes gives, in a mesh with as many vertices as there are vertices in use, the solutions at vertices in the same order, with the same types and, at the vertex of each rank, the values as printed of the vertex in use of this rank, component by component; a metric at a ridge with special storage is given in the canonical basis.", "quantifier": "every mesh, every list of solutions at vertices and at tetrahedra, every printing", "why_tests_cant": "deleted vertices shift the values, and the two exchanges of tensor components must cancel out", "anchors": ["src/mmg3d/inout_3d.c: MMG3D_saveSol, MMG3D_saveAllSols, MMG3D_loadSol, MMG3D_loadAllSols", "src/common/inout.c: MMG5_saveSolHeader, MMG5_loadSolHeader, MMG5_writeDoubleSol3D, MMG5_readDoubleSol3D"]}
{"id": "C55", "title": "Solutions saved in a binary Medit file are read back", "statement": "Loading the binary file that MMG3D_saveAllSols or MMG3D_saveSol writes gives the very same values at all the vertices in use.", "quantifier": "every mesh and every list of solutions", "why_tests_cant": "every value of the solution and every number of vertices", "anchors": ["src/mmg3d/inout_3d.c: MMG3D_saveSol, MMG3D_saveAllSols, MMG3D_loadSol, MMG3D_loadAllSols", "src/common/inout.c: MMG5_saveSolHeader, MMG5_loadSolHeader"]}
{"id": "C56", "title": "Every solution file is loaded or refused", "statement": "MMG3D_loadSol and MMG3D_loadAllSols end on every file, with the solutions or with an error code, and use only variables and array elements that have been set.", "quantifier": "every file and every mesh", "why_tests_cant": "the malformed files are not enumerable", "anchors": ["src/common/inout.c: MMG5_loadSolHeader", "src/mmg3d/inout_3d.c: MMG3D_loadSol, MMG3D_loadAllSols"]}
{"id": "C57", "title": "The boundary triangles are oriented consistently", "statement": "When the boundary surface can be oriented, MMG5_setadj succeeds, and afterwards two triangles glued along a manifold edge run along it in opposite directions. The triangles, their references, the references and tags of their edges and the gluings are the same up to the numbering of the vertices inside each triangle; MG_REF is added exactly where the references differ, MG_NOM and MG_OPNBDY exactly where nothing is glued.", "quantifier": "every surface of at least one triangle, with deleted triangles, any number of components, non-manifold and parallel edges, any initial orientation", "why_tests_cant": "the order of the visits depends on the whole surface and each exchange of vertices changes the tables of the neighbours", "anchors": ["src/mmg3d/analys_3d.c: MMG5_setadj"]}
{"id": "C58", "title": "The flags of the boundary triangles number the connected components", "statement": "After MMG5_setadj two boundary triangles have the same flag exactly when a path of manifold edges joins them; when the first triangle is in use the flags are all the numbers from 1 to the number of components.", "quantifier": "every orientable surface", "why_tests_cant": "all surfaces and all orders of visit", "anchors": ["src/mmg3d/analys_3d.c: MMG5_setadj"]}
{"id": "C59", "title": "Moebius strips are detected", "statement": "MMG5_setadj fails exactly when the surface has no consistent orientation. MMGS_setadj leaves no conflict of orientation but through edges that it has made non-manifold.", "quantifier": "every surface", "why_tests_cant": "it depends on the order of the visits", "anchors": ["src/mmg3d/analys_3d.c: MMG5_setadj", "src/mmgs/analys_s.c: MMGS_setadj"]}
{"id": "C60", "title": "The adjacencies of the triangles of a surface are exact", "statement": "After MMG5_mmgHashTria (MMG3D_hashTria, MMGS_hashTria) on triangles without duplicates, a triangle is glued along an edge only to another triangle that has that edge, and the other one is glued to it; two triangles that have the same edge are glued unless a third one has it; MG_NOM is added exactly on the edges of three triangles or more; MG_BDY and MG_PARBDYBDY are added only on edges that touch a boundary between processors, and the triangles keep their vertices and references. The result is then a surface in the sense of C57. The function fails only when the table cannot grow.", "quantifier": "every set of triangles, deleted ones included, every number of triangles on an edge, every size of the table, with or without level set", "why_tests_cant": "the chains of the table, its growth and the order of the triangles depend on the whole surface", "anchors": ["src/common/hash.c: MMG5_mmgHashTria", "src/mmg3d/hash_3d.c: MMG3D_hashTria", "src/mmgs/hash_s.c: MMGS_hashTria"]}
{"id": "C61", "title": "Duplicated triangles are removed and leave nothing behind", "statement": "MMG5_mmgHashTria removes a triangle only when another one with the same vertices stays; afterwards no two triangles have the same vertices, no edge of two triangles is made non-manifold by a removed one, and no triangle is glued to a removed one.", "quantifier": "every set of triangles", "why_tests_cant": "it depends on which edge of which triangle is met first", "anchors": ["src/common/hash.c: MMG5_mmgHashTria"]}
{"id": "C62", "title": "Solutions set through the API are read back", "statement": "After Set_solSize, whatever the order of the calls of Set_scalarSol(s), Set_vectorSol(s), Set_tensorSol(s), Set_ithSol(s)_inSolsAtVertices and of the getters on any number of fields, each getter gives the last values set for the vertex it reads, the iterating getters read the vertices in order and start again after the last one, and a field never disturbs another one.", "quantifier": "every history of calls, every number of fields and vertices, every kind of values, in Mmg2d, Mmgs and Mmg3d", "why_tests_cant": "the histories are unbounded and the cursor is shared by the getters", "anchors": ["src/mmg3d/API_functions_3d.c: MMG3D_Set_solSize, MMG3D_Set_scalarSol ... MMG3D_Get_ithSols_inSolsAtVertices", "src/mmg2d/API_functions_2d.c", "src/mmgs/API_functions_s.c"]}
{"id": "C63", "title": "Positions without solution are refused", "statement": "Setting or reading a solution at a position below 1 or above the number of vertices returns 0 and changes nothing.", "quantifier": "every state and position, every setter and getter with a position", "why_tests_cant": "all positions, all states; the failures are silent writes", "anchors": ["src/mmg3d/API_functions_3d.c: MMG3D_Set_scalarSol, MMG3D_Set_ithSol_inSolsAtVertices, MMG3D_Get_ithSol_inSolsAtVertices", "src/mmg2d/API_functions_2d.c: MMG2D_Set_scalarSol, MMG2D_Set_tensorSol"]}
{"id": "C64", "title": "The solution used is the one that was set", "statement": "The displacement, level set or metric that the program uses or writes to a file at a vertex is the one set for that vertex through the API.", "quantifier": "every history of calls, every vertex, every kind of values", "why_tests_cant": "the setters and the getters agree with each other, so that a round trip through the API shows nothing", "anchors": ["src/mmg2d/API_functions_2d.c: MMG2D_Set_vectorSol, MMG2D_Set_vectorSols", "src/mmg2d/mmg2d9.c: MMG2D_dispmesh", "src/mmg2d/inout_2d.c: MMG2D_writeDoubleSol", "src/mmg3d/mmg3d3.c: MMG5_dispmesh"]}
{"id": "C65", "title": "2D adjacencies are the shared edges", "statement": "After MMG2D_hashTria, the adjacency of side i of triangle k names side j of triangle l exactly when both have the same two vertices, the relation is symmetric, unused triangles are neither a neighbour nor have one, and a side is left without neighbour exactly when no other triangle has the edge.", "quantifier": "every 2D mesh with any unused triangles whose edges belong to at most two triangles; for the soundness and the symmetry, every mesh", "why_tests_cant": "the hash chains depend on every key of the mesh", "anchors": ["src/mmg2d/hash_2d.c: MMG2D_hashTria"]}
{"id": "C66", "title": "References and marks of input edges reach the triangles", "statement": "After MMG2D_assignEdge, each side of a triangle carries the reference and the marks of the edges given for its two vertices, in either direction, and the sides for which no edge was given keep what they had.", "quantifier": "every 2D mesh, every list of edges, first call or later one, whatever the growth of the table of edges", "why_tests_cant": "all lists of edges with repetitions, all collisions of keys", "anchors": ["src/mmg2d/hash_2d.c: MMG2D_assignEdge"]}
{"id": "C67", "title": "Each edge of the 2D output is returned once", "statement": "The edges made by MMG2D_pack are those of the boundary, of the interfaces between references and those that are marked; each is returned once with its reference and marks; in particular an edge given by the user and kept is found again with its reference and its marks.", "quantifier": "every 2D mesh, every list of edges, with and without -opnbdy", "why_tests_cant": "depends on the adjacencies, references and marks of every triangle", "anchors": ["src/mmg2d/hash_2d.c: MMG2D_pack"]}
{"id": "C68", "title": "The packed 2D mesh is the same mesh", "statement": "MMG2D_pack numbers the vertices and the triangles that are used from 1 without gap and in the same order; coordinates, references, marks, the vertices of the triangles, the ends of the edges, the adjacencies and the values of the solutions follow the new numbers, no cell after the last triangle is a triangle, the solutions have the size of the mesh, and the result can be packed again.", "quantifier": "every 2D mesh with any removed vertices and triangles, every solution with any number of values per vertex", "why_tests_cant": "in-place moves: all patterns of holes and of adjacencies", "anchors": ["src/mmg2d/hash_2d.c: MMG2D_pack"]}
{"id": "C69", "title": "Free cells are free after packing in 2D", "statement": "After MMG2D_pack the lists of free vertices and triangles hold no vertex or triangle of the mesh, so that MMG2D_newPt never returns a vertex in use.", "quantifier": "every history of creations and deletions before the packing", "why_tests_cant": "needs a mesh that filled its memory before the packing and again after it", "anchors": ["src/mmg2d/hash_2d.c: MMG2D_pack", "src/mmg2d/zaldy_2d.c: MMG2D_newPt, MMG2D_delPt"]}
{"id": "C70", "title": "2D boundary analysis marks exactly the boundaries", "statement": "MMG2D_setadj ends without access outside its arrays and both triangles of an edge get the same marks: ridge and boundary at a border, reference and boundary between two subdomains (or, with the open boundaries, at an edge marked by the user), none of these three elsewhere, together with the marks of the user on either side; with -nosurf (or for a parallel border) the edges that are not required are frozen. A vertex keeps its marks, has the boundary, ridge, reference and required marks of all its edges, and gets no mark that none of its edges has.", "quantifier": "every 2D mesh with any holes, references and marks, with and without open boundaries and -nosurf, whatever the order of the triangles", "why_tests_cant": "the result must not depend on the order in which the triangles are visited; a test sees some meshes and one order", "anchors": ["src/mmg2d/analys_2d.c: MMG2D_setadj"]}
{"id": "C71", "title": "Subdomain numbers are the connected components", "statement": "After MMG2D_setadj two triangles have the same number exactly when a path of neighbours that crosses no boundary joins them, and all the numbers from 1 to the number printed are used.", "quantifier": "every 2D mesh whose first cell is a triangle; the first part for all meshes", "why_tests_cant": "a statement about paths of any length in any mesh", "anchors": ["src/mmg2d/analys_2d.c: MMG2D_setadj"]}
{"id": "C72", "title": "A vertex required by the user is returned required", "statement": "A vertex that the user required before the remeshing of a 2D mesh is still required in the mesh returned, also with -nosurf.", "quantifier": "every 2D mesh and every choice of options", "why_tests_cant": "depends on the place of the vertex and on the order of the visits", "anchors": ["src/mmg2d/analys_2d.c: MMG2D_setadj", "src/mmg2d/hash_2d.c: MMG2D_pack"]}
{"id": "C73", "title": "Every call under -nosurf keeps the border", "statement": "When the library is called again on the mesh it returned, the analysis marks and freezes the border as in the first call.", "quantifier": "every 2D mesh, every number of calls", "why_tests_cant": "the tests run the programs, which make one call for each mesh", "anchors": ["src/mmg2d/analys_2d.c: MMG2D_setadj, MMG2D_analys", "src/mmg2d/hash_2d.c: MMG2D_pack"]}
{"id": "C74", "title": "Neighbours of the quadrilaterals of Mmg2d", "statement": "MMG2D_hashQuad gives each side of a quadrilateral the other side with the same vertices as neighbour, mutually, and leaves no two coinciding sides both without neighbour, also when some positions hold no quadrilateral (a position of MMG2D_Set_meshSize that was never set).", "quantifier": "every set of quadrilaterals, with any holes, any numbering of the vertices", "why_tests_cant": "depends on collisions in the hash table and on the place of the holes; the tests have no hole among the quadrilaterals", "anchors": ["src/mmg2d/hash_2d.c: MMG2D_hashQuad"]}
{"id": "C75", "title": "Interface between the quadrilaterals and the triangles of Mmg2d", "statement": "MMG2D_hashQuad gives each side of a quadrilateral that has no neighbour among the quadrilaterals, and has the vertices of a border edge of a triangle, that edge as neighbour (as a negative number), and gives no triangle to the other sides.", "quantifier": "every mesh of triangles and quadrilaterals without holes among the quadrilaterals, with any holes among the triangles, any size of the table of edges, any sequence of granted growths", "why_tests_cant": "depends on collisions in two hash tables and on the growth of the second", "anchors": ["src/mmg2d/hash_2d.c: MMG2D_hashQuad, MMG2D_hashTria", "src/common/hash.c: MMG5_hashEdge, MMG5_hashGet"]}
{"id": "C76", "title": "Edges of the quadrilaterals are returned once", "statement": "MMG2D_pack returns an edge for each side of a quadrilateral on the border, between two references or required, with its vertices, reference and marks, and returns an edge between a quadrilateral and a triangle once.", "quantifier": "every mesh of triangles and quadrilaterals, any references and marks, with and without open boundaries", "why_tests_cant": "one place of the interface in the numbering is treated wrongly; the tests do not count the edges", "anchors": ["src/mmg2d/hash_2d.c: MMG2D_pack, MMG2D_hashQuad"]}
{"id": "C77", "title": "The interface of quadrilaterals and triangles is frozen", "statement": "The analysis of a 2D mesh makes required every edge between a quadrilateral and a triangle, on both sides, with its two vertices, remembers that it was not the user who required it (MG_NOSURF), keeps the marks of those required already, and changes no other mark of the quadrilaterals; so the remeshing of the triangles leaves the quadrilaterals conforming.", "quantifier": "every mesh of triangles and quadrilaterals, all marks", "why_tests_cant": "a vertex or an edge may be met from several sides in any order; the result must not depend on it", "anchors": ["src/mmg2d/analys_2d.c: MMG2D_setadj", "src/mmg2d/hash_2d.c: MMG2D_hashQuad"]}
{"id": "C78", "title": "Required quadrilaterals are returned as given", "statement": "MMG2D_Get_quadrilateral and MMG2D_saveMesh give a quadrilateral as required exactly when the user required it.", "quantifier": "every mesh of triangles and quadrilaterals, all marks", "why_tests_cant": "depends on the elements around each quadrilateral; the tests look at the return value of the programs", "anchors": ["src/mmg2d/analys_2d.c: MMG2D_setadj", "src/mmg2d/hash_2d.c: MMG2D_pack", "src/mmg2d/API_functions_2d.c: MMG2D_Get_quadrilateral", "src/mmg2d/inout_2d.c: MMG2D_saveMesh"]}
{"id": "C79", "title": "Saved quadrilaterals can be read again", "statement": "MMG2D_loadMesh, given the text file written by MMG2D_saveMesh, finds the same quadrilaterals, in the same order, with the same vertices and references (without sign), and the same ones required.", "quantifier": "every packed mesh with quadrilaterals, all marks and references", "why_tests_cant": "the tests do not read their results again; whether the file is consistent depends on the marks of all quadrilaterals", "anchors": ["src/mmg2d/inout_2d.c: MMG2D_saveMesh", "src/mmg2d/inout_2d.c: MMG2D_loadMesh"]}
{"id": "C80", "title": "Packed quadrilaterals are those of the mesh, without gap", "statement": "After MMG2D_pack the quadrilaterals numbered 1 to the number returned by MMG2D_Get_meshSize are all in use, and they are the quadrilaterals that were in use before, each once.", "quantifier": "every mesh with quadrilaterals, holes anywhere", "why_tests_cant": "the loop moves the last element and changes its own bound; the result depends on where the holes are", "anchors": ["src/mmg2d/hash_2d.c: MMG2D_pack", "src/mmg2d/API_functions_2d.c: MMG2D_Get_meshSize", "src/mmg2d/API_functions_2d.c: MMG2D_Get_quadrilateral"]}
{"id": "C81", "title": "Saved quadrilaterals of 3D meshes can be read again", "statement": "MMG3D_loadMesh, given the text file written by MMG3D_saveMesh, finds the same quadrilaterals, in the same order, with the same vertices and references (without sign), and the same ones required.", "quantifier": "every mesh whose quadrilaterals have no holes, all marks and references", "why_tests_cant": "the tests do not read their results again; depends on the marks of all quadrilaterals", "anchors": ["src/mmg3d/inout_3d.c: MMG3D_saveMesh", "src/mmg3d/inout_3d.c: MMG3D_loadMesh"]}
{"id": "C82", "title": "Packing before hashing makes the triangles of a surface mesh dense", "statement": "When MMGS_hashTria builds the adjacency table, all triangles numbered from 1 to their number are in use after its packing, and they are the triangles that were in use, each once; packing does not fail.", "quantifier": "every surface mesh, holes anywhere", "why_tests_cant": "the loop moves the last triangle, and the deletion of it changes the bound by any amount", "anchors": ["src/mmgs/hash_s.c: MMGS_hashTria", "src/mmgs/zaldy_s.c: MMGS_delElt"]}
{"id": "C83", "title": "Creating triangles after hashing a surface mesh is safe", "statement": "After MMGS_hashTria, MMGS_newElt gives triangles inside the table that are not in use, each once, and then 0.", "quantifier": "every surface mesh, every size of the table, every number of creations", "why_tests_cant": "depends on the size of the table and on earlier deletions; the tests have tables far from full", "anchors": ["src/mmgs/hash_s.c: MMGS_hashTria", "src/mmgs/zaldy_s.c: MMGS_newElt"]}
{"id": "C84", "title": "Each special edge of a surface mesh is returned once", "statement": "When the two triangles at an edge agree that it is a ridge or has a reference, MMGS_packMesh returns that edge exactly once, with the new numbers of its ends and the reference and mark of one of its sides, and returns nothing else.", "quantifier": "every surface mesh with a symmetric adjacency table, holes anywhere, open or closed, any references", "why_tests_cant": "the choice of the side depends on the references and the order of the triangles; a test sees a few meshes", "anchors": ["src/mmgs/libmmgs.c: MMGS_packMesh"]}
