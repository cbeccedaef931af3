# Formal model of selected Mmg code in Rocq (Coq 8.16.1)

This document says what is modelled, how each property of `properties.jsonl`
is proved and what is trusted.  The C sources are read as text at the pinned
commit; nothing is compiled or run.

## Trusted base

* the Coq 8.16.1 kernel and its standard library;
* the axioms printed by `Print Assumptions` after each property theorem (see
  the table at the end).  Integer and list models use no axiom.  Statements
  over the real numbers use the standard library axioms of `Coq.Reals`
  (`ClassicalDedekindReals.sig_forall_dec`, `sig_not_dec`,
  `functional_extensionality_dep`) only;
* the translation by hand from C to Gallina.  Every definition cites file and
  lines and lists its simplifications.

## Modelling conventions

* An array of C structs is a pair of a length and a function from indices to
  records (`CBase.v`).  Every read and write is checked against the length; an
  access outside is the outcome `Stuck`.
* A failing `assert` is also `Stuck`.  A theorem that says the outcome is `Ret`
  therefore covers debug builds (no assertion fires) and release builds (no
  out-of-bounds access).
* `MMG5_int` is `Z` unless the property is about overflow.  Positive vertex
  indices below the overflow limits are hypotheses where they matter.
* `double` is `Q` or `R` (exact arithmetic).  No claim is made about rounding
  unless a file says so.
* `while` loops take explicit fuel and yield `Stuck` when it is exhausted; the
  theorems show that the fuel used by the model never runs out.
* Messages printed on the terminal are not modelled.

## Layout

* `theories/CBase.v`: outcomes, arrays, loops.
* one file per code area (`Hash*.v`, `Pool*.v`, `Pack*.v`, `Api*.v`, ...) with
  the model, its invariants and lemmas.
* `theories/Spec*.v`: specifications written without the model's helpers.
* `theories/Props*.v`: the property theorems with their `Print Assumptions`,
  each beside a concrete instance meeting the hypotheses.

## Plan per property

| id | model | proof |
|----|-------|-------|
| C01 | `hashNew/hashEdge/hashGet/hashUpdate/hashEdgeTag/hashPop` over one item array with chains and free list | representation invariant (bucket chains and free chain are disjoint lists), refinement to a finite map by induction on the history |
| C02 | `hashFace/hashGetFace` on the same array | same invariant; injectivity of (min,max,sum) on vertex sets |
| C03 | `hNew/hEdge/hTag/hGet/hPop` | same invariant with (ref,tag) payload |
| C04 | `MMG3D_hashTetra` with in-place links | invariant on chains threaded through the array, decreasing indices |
| C05 | `newPt/delPt/newElt/delElt` | free list invariant, history induction |
| C06 | `setMeshSize_alloc` then `newPt` | refuted by the case maximal size = current size; positive theorem otherwise |
| C07 | `mark_packedPoints`, `update_eltsVertices`, `pack_pointArray`, `pack_sol`, `pack_tetra` | loop invariants; the three loops are shown to realise the same bijection |
| C08 | `pack_tetraAndAdja` | loop invariant: symmetric adjacency over live elements |
| C09 | histories of the above | refuted by a history leaving a stale link in the last slot |
| C10 | array setters/getters | induction; prisms refuted |
| C11 | cursors | state machine; static cursors refuted |
| C12 | `Set_tetrahedron` over R | determinant antisymmetry |
| C13 | `skipIso`, `Clean_isoSurf`, `Clean_isoEdges` | loop invariants (permutation of the kept entities); refuted with witnesses for `skipIso` and the edges |
| C14 | `MMG5_ADD_MEM`, `MMG5_CHK_MEM`, `mycalloc`, `myrealloc`, `myfree`, `MMG5_SAFE_*ALLOC`, `MMG5_TAB_RECALLOC`, `MMG5_DEL_MEM` in MemModel.v with 64-bit wrap-around, headers of blocks and a system that may refuse | invariant of histories: counter = bytes of live blocks, at most the limit; a refused request changes nothing; grant exactly when it fits; all released gives 0.  Refused by the system, negative counts and full memory refuted |
| C15 | `MMG5_Set_multiMat`, `MMG5_MultiMat_init`, the `MMG5_InvMat_*` functions, the four queries, `MMG3D_setref_ls` and `MMG3D_resetRef_ls` in MatModel.v | invariant of the filling loop of the lookup table; queries decode the stored code; splitting then resetting the references is the identity.  `isNotSplit` and late references refuted |
| C16 | `MMG5_Get_format`, `MMG5_Get_filenameExt`, the setters of names, `Get_basename`, `Get_path`, `Remove_ext` in NameModel.v, strings as lists of characters, buffers with a size | the extension characterised by the last dot after the last separator, for all strings; refuted for hidden files, names with an unknown extension, directories containing `.mesh` |
| C45 | the choice of the file opened by `MMG3D_parsop` in NameModel.v | exact list of the files tried for names up to 242 characters; longer ones overflow |
| C46 | `MMG5_boulevolp`, `MMG5_coquil`, `MMG5_settag`, `MMG5_deltag` in Tet3Model.v | invariant of the traversal; the walk around an edge as a path of a reversible step function (Walk.v), which is a cycle or ends at both sides |
| C47 | `MMG5_colver` (vertices, adjacency, free list) and `MMG3D_delElt` in Tet3Model.v | closed form of the tables after the removal of each tetrahedron, then conformity of the renamed mesh |
| C48 | `MMG3D_swap23` and the choice of the configurations by `MMG3D_anatet4_sim` in Swap3Model.v; not the quality nor the test of the volumes | Rewire.v: a general theorem on the replacement of tetrahedra that moves faces by an injection; Swap3Out.v applies it to the twelve even orders of the vertices at once; Swap3Run.v, Swap3Marks.v: the table of the boundary tetrahedra |
| C49, C50 | `MMG3D_saveMesh` and `MMG3D_loadMesh_opened` on tokens (words, integers, numbers) in IoModel.v; the floating-point numbers are an arbitrary type with an arbitrary printing; not the comments, the endianness, the file names, nor the sizes of the integers | IoSave.v: the sections written are those of a content; IoScan.v, IoTrip.v: each section is found again, by its word or by its position; IoLoad.v, IoBody.v: what the loader makes of a content; IoSame.v: this is the mesh |
| C51 | the same loader | the content is found section by section whatever the order; a word is compared with all the keywords by prefix as in the code |
| C52, C53 | the same; outcome `Bad` for an access outside an array | false: witnesses; the true part is C51 |
| C54 | `MMG3D_saveSol`, `MMG3D_saveAllSols`, `MMG3D_loadSol`, `MMG3D_loadAllSols` and the headers in SolModel.v, on the tokens of C49; the metric of the canonical basis at a ridge is an arbitrary function; not the names of files, the failures of allocation | SolProofs.v: the rows written are fed to the reader, the exchanges of tensor components cancel out; PropsSol.v |
| C55 | the same functions on bytes, with an arbitrary encoding of the doubles in 8 bytes; not the other endianness, not single precision | false: the new lines; the true part (the file is accepted and the first vertex is right) for all meshes |
| C56 | the same loaders; outcome `Bad` for variables never set and accesses outside arrays | false: witnesses; the true part is C54 |
| C57, C58 | `MMG5_setadj` in SurfModel.v, with the adjacency table kept inside the triangles; not the marks and tags of the vertices nor the counters that are printed; the table that `MMG5_mmgHashTria` builds is the hypothesis `surface` | SurfProofs.v: each triangle is the initial one renumbered by a permutation whose parity is followed, so that the agreement of two neighbours is the parity of two turns; SurfLoop.v: invariant of the walk (the triangles numbered and out of the pile have all their neighbours numbered alike); PropsSurf.v |
| C59 | the same and `MMGS_setadj` | a failure implies that there is no orientation; the converse is false: witness of eight triangles |
| C60 | `MMG5_mmgHashTria` in TriHash.v, on the triangles of SurfModel.v and the table of HashModel.v (its own copy of the search and of the insertion is replaced by `hashGet` and `hashEdge`); not the tags of the vertices nor the counters that are printed | TriHashProofs.v: invariant by slots 3k+i, for the slots met so far; a second invariant for the loop on the parallel edges; PropsTriHash.v, with the link to the hypothesis `surface` of C57 |
| C61 | the same | TriHashDup.v: a removed triangle has a twin of smaller number that stays; the rest is false: three witnesses |
| C62, C63 | `Set_solSize`, the setters and getters of solutions and their variants for arrays of fields, for the three programs, in SolApi.v; values of any type; an array of the user is a checked array when it is read, a list when it is written | PropsSolApi.v: the expected answers are given by a specification on functions from vertices to lists of values, and every history of calls is a simulation; refutations by computation |
| C64 | the same and the place where the rest of the program reads a value | corollary of the simulation; for the vectors of Mmg2d the exact shift is proved (`vectors_shifted`) |
| C65 | `MMG2D_hashTria` with its two passes over the table of links, in Tria2.v; unused triangles kept | Tria2Hash.v: invariants of the buckets and of the second pass; PropsTria2.v: `hash_2d_fits`, `hash_2d_neighbours` |
| C66 | `MMG2D_assignEdge` with the hash table of Hash.v, growth of the table given by a function | Tria2Edges.v: the table holds the first edge given for each pair; PropsTria2.v: `edges_reach_triangles`; refutation by computation |
| C67 | the part of `MMG2D_pack` that counts and stores the edges (hash_2d.c:586-735), before the renumbering of vertices; quadrangles are not modelled, nor `MMG2D_keep_only1Subdomain` | Tria2Edges.v: the edges stored are in bijection with the sides counted; PropsTria2.v: `edges_made`, `boundary_edges_once`, `plain_edges_dropped`, `given_edges_returned`; refutations by computation |
| C68 | `MMG2D_pack` on a mesh that has its adjacencies (hash_2d.c:546-880), in Pack2.v; the fields of a vertex other than `tag` and `tmp` are one value; no quadrangles, no removal of subdomains, no refusal of memory | Pack2Proofs.v (ranks, vertices, values, lists), Pack2Tris.v (the table of adjacencies: invariant on the place of each side during the moves); PropsPack2.v: `pack_packs`, `packed_packable` |
| C69 | the same with `MMG2D_newPt`, `MMG2D_delPt` | `free_cells` when the last cell ends its list; refutation by a history of removals and creations |
| C70 | step 1 of `MMG2D_setadj` (analys_2d.c:50-219), in Setadj2.v; the marks of the edges, `cc` and the marks of the vertices are arrays beside the triangles; no quadrangles (step 2), no failure of the allocation of the pile; references are not negative | Setadj2Proofs.v: one side (the final mark is a fixed point of the visit, so that the order does not matter); Setadj2Loop.v: the loops; PropsSetadj2.v: `setadj_marks` |
| C71 | the same | Setadj2Loop.v (invariant: the sides seen do not separate numbers, the pile holds the current number); `setadj_components` |
| C72 | the same, and `thaw` of Pack2.v for `MMG2D_pack` | `required_vertex_kept` without -nosurf; refutation with -nosurf |
| C73 | two calls of `MMG2D_setadj`, with the release of the marks by `MMG2D_pack` between them and no other change of the mesh | `stale_numbers` (what the second call does), refutation |
| C74 | step 1 of `MMG2D_hashQuad` (mmg2d/hash_2d.c:151-275), in Quad2.v; the failure of the allocations is not modelled | Quad2Hash.v (the invariant of Tria2Hash.v with four sides); PropsQuad2.v: `hash_quads_fits`, `hash_quads_neighbours` without holes; refutation with a hole |
| C75 | the whole of `MMG2D_hashQuad` (mmg2d/hash_2d.c:151-322), in Quad2.v and QuadTria2.v, with `MMG2D_hashTria` of Tria2.v and the edge table of HashModel.v; the sizes of the table are left open; all growths are granted in the theorems (the code does not look at the value returned by `MMG5_hashEdge`) | QuadTria2.v (the table holds a border edge for each pair of vertices that has one); PropsQuadTria2.v: `hash_quads_triangles`, `interface_found` |
| C76 | the two passes of `MMG2D_pack` over the quadrilaterals (mmg2d/hash_2d.c:612-639, 694-730), in QuadPack2.v, after the passes over the triangles (Tria2.v); the second part of the table is a list whose length is checked | QuadPack2.v (the passes run over the list of the sides); PropsQuadPack2.v: `quad_edges_made`, `interface_not_doubled`; refutation |
| C77 | step 2 of `MMG2D_setadj` (mmg2d/analys_2d.c:221-259), in QuadFreeze2.v, after `MMG2D_hashQuad` (C75); the assertion on the references of the edges (line 246) is not modelled | QuadFreeze2.v (marking is idempotent, so that the order of the visits does not matter); PropsQuadFreeze2.v: `interface_frozen` |
| C78 | the same; the answer of `MMG2D_Get_quadrilateral` is the definition `is_required` | `required_quads_kept`; refutation |
| C79 | the sections of the quadrilaterals in `MMG2D_saveMesh` (mmg2d/inout_2d.c:1431-1509) and `MMG2D_loadMesh` (mmg2d/inout_2d.c:81-136, 454-506), text files as lists of words, `MMG_FSCANF` as with MMG_POSIX; binary files, the other sections, comments and the marks of the vertices are not modelled; meshes with holes are out of the theorems | SaveQuad2.v; PropsSaveQuad2.v: `required_header_doubled`, `required_unreadable`, `quads_read_back_partial`, `required_read_back`; refutation |
| C80 | the loop of `MMG2D_pack` that packs the quadrilaterals (mmg2d/hash_2d.c:775-788), with and without assertions; the new numbers of their vertices (lines 790-799) are not modelled | PackQuad2.v; PropsPackQuad2.v: `quads_packed_partial` (any holes: nothing lost or doubled; with assertions all but the last in use), `quads_pack_ends`, `quads_without_holes_kept`; refutations |
| C81 | the sections of the quadrilaterals in `MMG3D_saveMesh` (mmg3d/inout_3d.c:1814-1887) and `MMG3D_loadMesh` (mmg3d/inout_3d.c:192-199, 620-668), with the loops of C79; parallel quadrilaterals are not modelled | SaveQuad3.v; PropsSaveQuad3.v: `quads3_read_back`; `quads3_holes_refuted` for meshes with holes |
| C82 | `paktri` (mmgs/hash_s.c:45-68) and `MMGS_delElt` (mmgs/zaldy_s.c:93-110) on a mesh without adjacency table; the fields of a triangle other than `v[0]` and `v[2]` are one value | PakTri.v (invariant: the last triangle is in use); PropsPakTri.v: `triangles_packed_reachable` (every mesh reached by deletions and creations from one whose triangles have all been set), `triangles_packed_partial` (last triangle in use); refutation for triangles never set |
| C83 | the same and `MMGS_newElt` (mmgs/zaldy_s.c:71-82) | `triangles_created_partial` (table not full); refutations |
| C84 | both passes of `MMGS_packMesh` over the triangles (mmgs/libmmgs.c:114-168 and 236-269), with the renumbering of the neighbours while the triangles move and the count of the edges; the adjacency table is an array of rows of three in the first pass; the vertices get their new numbers in the second pass only (a packed vertex carries its own number); not modelled: the count of ridges and failed allocations | EdgesS.v (the edges are those of a list of sides), PackTriS.v (invariant: where each triangle is and what the entries of its neighbours are when triangle k is next); PropsEdgesS.v: `special_edges_once_partial` (second pass alone, table taken to be large enough); `edge_of_one_side_refuted`; PropsPackTriS.v: `special_edges_of_the_mesh` (both passes, holes anywhere) |
| C17 | all ten splitting patterns as lists of assignments | symbolic execution on labels for every set of marks and order of the vertices, transferred by a naturality lemma; volumes are affine in each new vertex, hence determined by the 64 corners, computed over Z |
| C18 | `MMG3D_vfrac` with its assertions, `MMG5_vfrac` | 81 (27) sign classes reduced to four shapes; each determinant is a product of barycentric coordinates times the volume; the positive part is compared with the divided difference of the truncated cubic (square) |
| C19 | `MMG3D_rmc` and `MMG5_rmc` as one function over the dimension, the two passes as one over the sign | the pile is the component (`bfs_spec`); invariant of a pass: the elements seen are whole components and the values differ from the initial ones exactly on the removed ones; the ball of a vertex is connected, so components that share a vertex inside are one |
| C20 | `MMG5_gradsiz_iso`, `MMG3D_gradsiz_iso`, `MMG5_gradsizreq_iso`, `MMG3D_gradsizreq_iso`, the marking of required points and the order of the calls; `sqrt` is any non-negative function; the anisotropic functions are not modelled | invariant of a sweep: an edge whose source is older than the last sweep is graded; each size comes with a chain of distinct points as long as its flag, so 100 sweeps suffice for 100 points; any graded map below the input stays below the sizes (so the result is the largest one) |
| C21 | `MMG5_boundingBox`, `MMG5_scale_meshAndSol`, `MMG5_scale_scalarMetric`, `MMG5_scale_tensorMetric`, `MMG5_solTruncature_iso`, `MMG5_scaleMesh`, `MMG5_unscaleMesh` in ScaleModel.v over Q.  The truncation of tensors is a parameter assumed to write only the metric and the bounds not set by the user | every loop described pointwise (ScaleProofs.v), then field identities; a scalar metric comes back truncated by the user bounds only.  Refused meshes, unused vertices and 3D displacements refuted |
| C22 | `MMG5_swapTet`, `MMG5_swapNod` and `MMG5_mmg3dRenumbering` in RnbModel.v, from the order returned by SCOTCH (any permutation) to the new adjacency | generic lemma on the in-place loop: the origin of each place is a bijection and every swap puts one more entry home; numbering of the vertices by an invariant on the set already met |
| C23 | `OctModel`: `MMG3D_addPROctreeRec`, `delPROctreeRec`, `mergeBranches` | invariant of the tree by induction on histories, coordinates in Q (the operations are exact in binary floating point); no abort with at most `3*nv` vertices per finest cell; refuted beyond |
| C24 | `OctModel`: `getListSquareRec`, `intersectRect`, `PROctreein_iso` | invariant of the clipped box, per direction; refuted for faces on cell planes and for long lists |
| C25 | `OctModel.seek_index` | ends in range for all lists, right between adjacent positions; refuted otherwise; the multiset of listed cells does not depend on it (`insert_ok`) |
| C43 | `OctModel.move_vertex` | right when the mesh already holds the new position and the codes differ; refuted for the way all callers use it |
| C26 | matrix kernels | field |
| C27 | `nsort` | selection sort invariant |
| C28 | the removal of subdomains in SubModel.v (tetrahedra) and SubModel2.v (triangles, shared by Mmg2d and Mmgs) on the pools of PoolModel.v | loop invariant giving every link after the deletions so far; the remaining vertices described by a predicate carried through the marking loops.  Prisms and quadrilaterals are never deleted, whatever their reference; vertices used only by triangles or edges of a volume mesh are deleted (the boundary is rebuilt afterwards) |
| C29 | `Set_iparameter`, `Get_iparameter`, `Set_dparameter` in ParamModel.v, with the C types of the members | case analysis, histories of calls; refuted for the cases listed below |
| C44 | `MMG3D_memOption`, `MMG5_memOption_memSet`, `MMG3D_Set_meshSize` in ParamModel.v | case analysis; refuted when the memory is raised after the allocation |
| C30 | the three announcing cases of `MMG3D_Set_iparameter`, `MMG5_Set_multiMat`, `MMG3D_Set_localParameter`, `MMG5_Set_lsBaseReference` in MatModel.v | induction on the history of calls: the table is a map to the last accepted value; setting a key again in a full table refuted |
| C31 | `MMG5_Set_defaultTruncatureSizes`, `MMG5_Compute_constantSize`, `MMG5_check_hminhmax`, `MMG5_check_setted_hminhmax` in ScaleModel.v, and the scaling that calls them | case analysis and the invariant of the loop computing the extreme sizes; bounds equal to 0 and incoherent bounds with a metric refuted |
| C32 | compaction loops | loop invariants |
| C33,C42 | the steps of `MMG5_chkBdryTria` in BdryModel.v (no prisms, no xtetra), on the adjacency built by the model of `MMG3D_hashTetra` | hash tables represented by lists of insertions; each loop described by a list; the final count by a bijection between kept triangles and covered faces |
| C34 | byte swap | list reversal |
| C35 | `MMG2D_swapar`, `MMG2D_split1b`, `MMG2D_splitbar`, `MMG2D_newElt`, `MMG2D_TRIA_REALLOC`, `MMG2D_delElt`, `MMG5_boulet`, `MMG2D_colver`, `MMG2D_colver3`, `MMG2D_colver2` in Op2Model.v (no coordinates: the geometric tests of the callers are not modelled; the free list of points is not modelled) | conformity (Op2Spec.v): no oriented edge twice, the table says exactly which triangles share an edge; each operator is described by a map from new to old half-edges and the property is transported along it; the collapse (`collapse_conforming`, PropsCol.v) is proved for all balls (closed, open, three and two triangles, and the refusal of a ball of more than 1024 triangles) when the ball of the removed point is connected by edges (`fan`), the link condition holds (`link_ok`: a vertex joined to both ends is in a triangle with both) and an inner edge is not collapsed from a boundary point. The topological tests of `MMG2D_chkcol` that should provide the link condition are in Op2Chk.v |
| C36,C37 | failing growth inside the allocators | refuted with witnesses; positive part for the other refusals |
| C38 | boundary data in the same patterns, `isxt` slots | same symbolic execution; three refuted cases |
| C39 | the ten simulations | equality of the two lists of tetrahedra |
| C40 | the two switches of the level-set cut | case analysis on signs; refuted for kept materials |
| C41 | setters | case analysis; nonpositive positions refuted |
| C42 | see C33 | hypothesis: the hash tables can grow; without it refuted |

## Findings

Statements of `properties.jsonl` that are false of the code, with the theorem
that exhibits the witness.

* C06 (`C06_first_creation_refuted`, `C06_tight_memory_overflows`):
  `MMG3D_setMeshSize_alloc` sets `npnil=np+1` (`nenil=ne+1`) even when
  `npmax==np`, which `MMG3D_memOption_memRepartition` produces when less than
  two vertices' worth of memory is left.  The first creation writes at index
  `npmax+1`.
* C36 (`C36_failed_creation_refuted`): `MMG3D_newPt` pops the slot and raises
  `np` before it tries to grow `xpoint`; on refusal a vertex without boundary
  data stays in the mesh.  `mesh->xp` is not restored (`C36_drift`), and the
  growth that follows may build a cyclic free list (`C36_same_index_twice`).
* C37: `MMG3D_TETRA_REALLOC` does not undo the growth of `tetra` when `adja`
  cannot grow.
* C32 (`C32_empty`): `MMG5_paktet` on an empty mesh fires its assertion.
* C09 (`C09_creation_after_packing_refuted`): `MMG3D_pack_pointArray` rebuilds
  the free list up to slot `npmax-2` only.  A link left in slot `npmax-1` by an
  earlier deletion is followed later and leads to a vertex in use.  The same
  holds for tetrahedra (`C09_tetra_adja_case`); `MMG3D_pack_tetra` (no adjacency)
  writes `v[0]=0` where the link `v[3]` was meant (`C09_tetra_case`).
* C07 (`C07_no_vertex`): packing a mesh without any used vertex is undefined.
* C26 (`C26_..._refuted` in PropsKer.v): `MMG5_invmat` and `MMG5_invmat33` take a
  diagonal shortcut with an absolute threshold, so a small non diagonal metric
  is inverted as if diagonal, and the zero matrix divides by zero;
  `MMG5_rotmatrix` returns the identity near the axis.
* C27: with a NaN among the values the selection sort does not sort.
* C34: `MMG5_swapbin_int` reads and writes past the end when MMG5_int has 32
  bits; it has no caller.
* C38 (`C38_orientation_refuted`): in `MMG5_split3op`, branch `imin12==ip2 &&
  imin03==ip3`, second tetrahedron, `MG_SET(xt1.ori,ip1)` stands for
  `MG_SET(xt1.ori,ip0)`: a boundary face gets the wrong orientation bit.
* C38 (`C38_inner_edges_refuted`): `MMG5_split6` computes `ftag` from its local
  `xt` before any assignment to it (split_3d.c:4519).
* C38 (`C38_inner_edges_wrong_face_refuted`): seventh tetrahedron of
  `MMG5_split6`, `tag[5]=ftag[3]` stands for `ftag[1]`.
* C40 (`C40_kept_material_refuted`): `MMG3D_cuttet_ls` cuts the edges of split
  materials only; a tetrahedron of a kept material may have two opposite edges
  cut (flags 12, 18, 33) or three in a row, which its switch does not handle.
  `MMG3D_cuttet_lssurf` handles them.
* C10 (`C10_prisms_refuted`): `MMG3D_Get_prisms` writes the second and third
  vertex of every prism in exchanged order (API_functions_3d.c:842-847).
* C11 (`C11_two_meshes_refuted`): the cursors of `MMG3D_Get_prism` and
  `MMG3D_Get_quadrilateral` are static variables, so reading two meshes in turn
  skips elements.
* C41 (`C41_nonpositive_refuted`): no setter rejects a position below one;
  position 0 is reported as set and is lost, a negative one writes outside.
* C12: a tetrahedron of null volume is refused with return value 0 but stays
  stored (part of `C12_set_tetrahedron`: the stored vertices are the given ones).
* C42 (`C42_no_memory_refuted`): `MMG5_chkBdryTria` does not read the codes of
  its steps.  When the memory limit stops the table of faces (open boundary mode
  stores every face of the mesh), triangles of the user are dropped, remade with
  the reference of the element, and 1 is returned.
* C22 (`C22_orphan_refuted`): `MMG5_mmg3dRenumbering` drops a valid vertex that
  no element uses and that is not required, then asserts that every valid vertex
  of `permNodGlob` has a new number.
* C13 (`C13_skip_duplicates_refuted`): `MMG3D_skipIso` does not lower the end of
  the list after it fills a discarded place, so the last kept triangle (edge) is
  present several times.
* C13 (`C13_skip_cursor_refuted`): it takes the reading cursor `nti` (`nai`) for
  the number of triangles; after a partial reading the other triangles are lost.
* C13 (`C13_clean_edges_left_refuted`, `C13_clean_edges_lost_refuted`): the last
  test of `MMG5_Clean_isoEdges` (libtools.c:431) compares `pa->a`, the first
  vertex, with the isosurface reference instead of `pa->ref`.
* C15 (`C15_not_split_refuted`): `MMG5_isNotSplit` returns 0 for a material that
  is not split and 1 for one that is, the opposite of its documentation, as soon
  as a table of materials is given (mmg2.c:456-459).
* C15 (`C15_late_reference_refuted`): the span of the lookup table is computed
  when the last material is set.  A reference given to an element afterwards may
  lie outside of the table, which is then read out of bounds.
* C30 (`C30_set_again_refuted`): `MMG5_Set_multiMat` and
  `MMG3D_Set_localParameter` look whether the table is full before they look for
  the key, so a key of a full table cannot be changed.
* C30 (`C30_base_references_refuted`): announcing a smaller number of base
  references keeps `nbri`, which then exceeds the size of the table.
* C30 (`C30_refused_announcement_refuted`): when the memory for the materials is
  refused, `nmat` keeps the new value without a table; the next
  `MMG5_Set_multiMat` writes through NULL.
* C14 (`C14_system_refusal_refuted`, `C14_resize_refusal_refuted`): `MMG5_ADD_MEM`
  raises `memCur` before the system is asked.  When `calloc`/`realloc` fails the
  counter is not lowered; a failed `realloc` also frees the old block, so the
  counter keeps old and new bytes of a block that no longer exists.
* C14 (`C14_negative_count_refuted`): a negative number of items (unchecked in
  `numberOfLocalParam` and `numberOfMat`) wraps: the counter is lowered, nothing is
  allocated, and the limit may then be exceeded by live blocks.
* C14 (`C14_full_refuted`): `MMG5_TAB_RECALLOC` asserts `memCur < memMax`.  A growth
  shortened to the remaining memory can reach equality, after which the next growth
  aborts instead of being refused.
* C23 (`C23_finest_cell_refuted`): in a cell of the finest level the table grows by
  `nv` items from `nv` on, but the deletion shrinks it at powers of two.  After 97
  insertions and one deletion with `nv=32` the next insertion finds a table of
  another size than the one `MMG5_SAFE_RECALLOC` asserts.
* C24 (`C24_face_refuted`): a branch whose common part with the box is flat is
  visited (`<=` in the choice of the branches), `MMG3D_intersectRect` then returns 0,
  which makes the whole search fail; `MMG3D_getListSquare` returns 0 cells and the
  point is accepted next to a vertex.
* C24 (`C24_many_cells_refuted`): when more than `nc-4` cells meet the box the list is
  dropped and the point is accepted.
* C25 (`C25_refuted`): `MMG3D_seekIndex` drops the values of its recursive calls and
  returns 1 for every list of more than two values.
* C43 (`C43_refuted`): `MMG3D_movePROctree` computes the code of the new position from
  `mesh->point[no].c` instead of `newVer`; all callers pass `p0->c` of the same vertex
  as the old position, so both codes are equal and the tree is never changed.
* C35 (`split_nomem_refuted`): when the memory runs out at the second new triangle of
  an interior edge, `MMG2D_split1b` returns 0 with one side of the edge split and
  `MMG2D_adpspl` deletes the new point and goes on: triangles in use have a deleted
  vertex and the adjacency is no longer symmetric.
* C35 (`realloc_adja_refuted`): `MMG2D_TRIA_REALLOC` does not undo the growth of `tria`
  when `adja` cannot grow; two splits later the adjacency is written out of bounds.
* C35 (`splitbar_realloc_refuted`): `MMG2D_splitbar` takes `pt` before the allocations
  and writes through it after, so it is dangling when the table was enlarged.
* C35 (`splitbar_assert_refuted`): `jel1` is a `int8_t`; with assertions compiled the
  insertion stops when the neighbour through edge 1 has a number above 127.
* C35 (`splitbar_tags_refuted`): `MMG2D_splitbar` clears the tags of the outer edges
  (opposite to the new point) instead of the new inner ones.
* C35 (`void_triangle_refuted`): `MMG2D_chkcol` turns around the second end of a boundary edge until a
  tagged edge to see whether the collapse closes a triangular hole; it stops at an inner reference edge, so a
  hole that lies on the line between two materials is closed: two triangles share an edge and the adjacency
  table says boundary on both sides.  The witness has positive areas before and after.
* C35 (`colver2_tags_refuted`): when the removed boundary point has two triangles and their common edge has a
  tag, `MMG2D_colver2` puts the tag on one side only (callers avoid it: such a point is a corner).
* C29: the setter stores before the step that may fail (`C29_rejected_refuted`); flags
  are kept on one byte, 256 reads back as 0 (`C29_truncated_refuted`); ten parameters
  have no getter (`C29_not_readable_refuted`); an angle of at least 90 degrees turns
  angle detection off (`C29_angle_refuted`); an out-of-range `MMG3D_DPARAM_xreg` is
  reported as accepted (`C29_out_of_range_refuted`); a non-positive memory is announced
  as a return to the default and is not (`C29_memory_reset_refuted`).
* C44 (`C44_refuted`): setting `MMG3D_IPARAM_mem` after `MMG3D_Set_meshSize` recomputes
  `npmax` and `nemax` without resizing the arrays.  With a larger memory than before the
  capacities exceed the arrays.
* C16 (`C16_output_refuted`, `C16_output_unknown_refuted`): `MMG5_Set_outputMeshName`
  compares `MMG5_Get_format(ptr,0)` with `MMG5_FMT_Unknown`, but the default passed is 0,
  ASCII Medit, so the comparison never holds.  A name with any dot after its first
  character is kept as it is: `v1.2/cube` and `cube.xyz` get no extension.
* C16 (`C16_sol_directory_refuted`, `C16_output_sol_directory_refuted`): the names of the
  solutions are derived by cutting at the last dot when `.mesh` follows, without looking
  for a separator: the solution of `a.meshes/cube` is `a.sol`.
* C16 (`C16_format_of_extension_refuted`): `.meshb` has no extension but `d/.meshb` has
  one.  `C16_exact_refuted`: extensions are compared by prefix, `vtkold` is VTK.
  `C16_remove_refuted`: `MMG5_Remove_ext` takes the first occurrence of the extension.
* C45 (`C45_overflow_refuted`): `MMG3D_parsop` copies the name of the mesh into 256 bytes
  without looking at its length (the same in Mmg2d and Mmgs).  `C45_legacy_refuted`: `.mmg3d5` is appended
  after `.mmg3d`, so `cube.mmg3d5` is never tried.  `C45_given_refuted`: the extension of
  a parameter file given by the user is replaced; `-f sizes.txt` looks for `sizes.mmg3d`.
* C21 (`refused_scaling_refuted`): `MMG5_scaleMesh` normalises the vertices before it
  checks the bounds; when it then fails the callers return without unscaling and the user
  gets the mesh back in the unit box.  `unused_levelset_refuted`: values at unused
  vertices are scaled and not unscaled.  `unscale_displacement_refuted`: the assertion
  `sol->size != MMG5_Tensor` compares a number of values with a type code (both 3) and
  fails for a 3D displacement (debug builds, early failure of `MMG3D_mmg3dmov`).
* C31 (`zero_bound_refuted`): a bound set to 0 is accepted.  `incoherent_bounds_refuted`:
  with a metric the bounds set by the user are never compared.  `second_call_refuted`: a
  metric with a non-positive size is refused once per process, because the flag
  `mmgWarn0` that limits the number of messages is also the condition of the refusal.
* C18 (`small_values_refuted`): values below 1e-12 in absolute value count as zero in the
  choice of the case but not in the interpolation.  When such values have the sign of the
  single vertex the intersections leave the edges and the other part is negative.  The
  bounds hold for values snapped to zero (`snapped`), which the callers ensure when
  `MMG3D_snpval_ls` runs before.  `all_small_refuted`: if all values are small both parts
  are zero.  `surface_refuted`: Mmgs uses the planar function, so the areas on a surface are
  those of the projection on the plane z = 0 (total area zero for a vertical surface).
* C19 (`shared_vertex_refuted`): the traversal crosses faces only; when two components
  touch at a vertex without a common face around it, the removal of the small one changes a
  value of the large one.  `components_removed` therefore asks for connected balls.
  `double_count_refuted`: with base references a negative component that is small and not
  attached is counted twice in the number reported.
* C20 (`long_strip_refuted`): the gradation stops after 100 sweeps; in a strip of 204
  triangles numbered against the propagation the result is not graded.
  `required_pair_refuted`: a vertex next to two required edges gets its size from the first
  and stays ungraded with respect to the second.  `required_increase_refuted`: required
  edges increase sizes.  `unmarked_refuted`: with `-hgrad 1` (`hgrad = log 1 = 0`) the
  gradation is not run and the required points are not marked either, because the second
  function marks them only if `hgrad < 0`; the field `s` then holds the numbers of required
  edges left by the computation of the sizes and the size at a required end can change.
  `surface_length_refuted`: `MMG5_gradsizreq_iso`, also used by Mmgs, measures lengths with
  two coordinates.
* C46: a required tetrahedron makes `MMG5_coquil` return 0, except the one the walk starts from when the shell is
  closed; when the shell is open the start may be met again by the second walk and is then refused.
* C47 (`tet_collapse_unchecked_refuted`): `MMG5_colver` refuses a collapse only if it gives a tetrahedron that exists
  already.  Faces p,z,w and q,z,w that do not belong to a common tetrahedron become one face with no neighbour on
  either side; the callers exclude this by their geometric tests only.
* C47, not proved: `MMG5_colver` returns -1 in the middle of the collapse when the table of the boundary tetrahedra
  cannot grow (colver_3d.c, near line 1486); the tetrahedra already removed are not restored.
* C48 (`swap_orientation_refuted`): `MMG3D_swap23` sets the orientation bit of a face taken from the second tetrahedron
  when it is set there, and never clears it (mmg3d/swap_3d.c:920, 946, 972); the boundary tetrahedron it starts from is a copy of
  the first one, whose bit on the common face is set.  A face between two subdomains seen from its second side becomes
  oriented from both sides.
* C48 (`swap_no_memory_refuted`): the first tetrahedron is copied over the second one before `MMG3D_newElt`
  (mmg3d/swap_3d.c:756-770): when no tetrahedron can be allocated the function returns -1 and leaves two equal tetrahedra.
* C48 (`swap_no_boundary_memory_refuted`): when the table of the boundary tetrahedra cannot grow the function returns -1
  after the swap, and two tetrahedra are left with one boundary tetrahedron.
* C48, not a property: the branch `if ( !pt1->xt )` tests the copy of the first tetrahedron, so it is never taken; its third
  block would write `xt[1]` for `xt[2]`.
* C49 (`fifteen_digits_refuted`): the coordinates are written with 15 significant digits (`%.15lg`), a double needs 17: a mesh
  saved and read again is not the same, and two vertices closer than 1e-15 become equal.
* C49 (`sample_ascii_shown`): a vertex of no tetrahedron and no prism comes back as unused, so it disappears at the next save; the
  required mark of a triangle is kept only if its three edges are required; every edge comes back with the tag MG_REF; the
  tags of the prisms are not written.
* C50 (`binary_round_trip_refuted`): the parallel marks are left out of binary files.  The numbers of the tangents written in binary are
  all the number of normals (mmg3d/inout_3d.c:1719); they are not read.
* C50 (`deleted_quadrilateral_refuted`): the marks of the quadrilaterals are written with their numbers in memory, without
  skipping the deleted ones, whereas the quadrilaterals are renumbered (mmg3d/inout_3d.c:1863, 1881): the mark is lost or goes to another
  one.  In binary the announced size may also be wrong.
* C52 (`load_in_bounds_refuted`): the vertices of the tetrahedra and prisms are used without a test, and the numbers of the marks are
  compared with the number of entities but not with zero.
* C52 (`load_ends_refuted`): the reader of binary files goes where the file says, backwards as well: a file of 28 bytes is read for ever.
* C53 (`load_depends_on_the_mesh_refuted`): the counters of the mesh are not reset, so a mesh that held triangles refuses a file
  without triangles.  `saved_is_readable_refuted`: a mesh without tetrahedra is saved and then refused.
* C51 (`keywords`): the sections `EdgesP2...` of meshes of high order are read as `Edges`, unlike `TrianglesP2...` and `TetrahedraP2...`
  which are skipped.
* C55 (`binary_metric_refuted`): `fprintf(inm,"\n")` after each vertex is executed for binary files too (mmg3d/inout_3d.c:2338, 2407,
  2423): one byte is inserted after each vertex, so that all the values but those of the first vertex are wrong, without any
  error.  The same lines are in mmg2d/inout_2d.c and mmgs/inout_s.c.
* C56 (`load_sol_initialised_refuted`): `MMG5_loadSolHeader` returns 1 on a file without SolAtVertices, and `np`, `nsols` and `type` are
  then used without having been set.
* C56 (`load_all_saved_refuted`): the file that `MMG3D_saveAllSols` writes for solutions at tetrahedra only makes
  `MMG3D_loadAllSols` read the first element of an empty array.
* C56 (`load_sol_ends_refuted`): as for C52, a file of 16 bytes is read for ever.
* C59 (`moebius_accepted_refuted`, `moebius_accepted_s_refuted`): `pt1->base = -pt1->base` is executed at each visit that finds the triangle well
  oriented (mmg3d/analys_3d.c:252, mmgs/analys_s.c:191), so the sign, which should mean "already oriented", is positive again after two visits.
  A third visit in conflict turns the triangle over instead of reporting the Moebius strip, and the surface is left with neighbours of
  opposite orientations.
* C57: without boundary triangle `pile[1]` is outside the pile (mmg3d/analys_3d.c:117-119, example `no_triangle`).
* C61 (`duplicates_go_refuted`, `only_crowded_marked_refuted`, `glued_to_used_refuted`): a triangle is compared, on each edge, only with the first
  triangle stored for that edge (common/hash.c:126-131).  A face given twice whose three edges were first met on other triangles stays twice,
  with non-manifold edges.  When the copy is removed on its second or third edge, the MG_NOM tags that it has already put on
  its first edges stay, and with a level set the gluing that it has already taken from its twin (hash.c:143-147) stays too: a triangle is then
  adjacent to a removed one.
* C64 (`vectors_used_refuted`, `vectors_shifted`): `MMG2D_Set_vectorSol(s)` store the vector of vertex k at 2(k-1)+1 (mmg2d/API_functions_2d.c:1564-1567, 1615-1618)
  while the displacement is read at 2k (mmg2d/mmg2d9.c:104, 150, 167), as are the files (mmg2d/inout_2d.c:1558): the vector used at a vertex
  is made of its second component and of the first component of the next vertex.  The getters have the same shift, so a round trip hides it.
* C62: `Set_solSize` takes the capacity of the mesh and never compares it with the number of vertices: the last vertex is refused when they
  are equal (`last_vertex_refuted`), and arrays of values are written past the end when the mesh is sized later (`size_before_mesh_refuted`).
  With 0 vertices it changes the kind but keeps the array (`size_zero_refuted`), a kind that is refused is recorded (`refused_kind_refuted`), and
  after a refusal of memory the number of vertices stays while the array is NULL (`refused_memory_refuted`).
* C63: `MMG2D_Set_scalarSol` and `MMG2D_Set_tensorSol` do not test positions below 1 (`positions_2d_refuted`); `Set_ithSol_inSolsAtVertices` returns 1 when
  the vector or the tensor is refused (`refusal_lost_refuted`); `Get_ithSol_inSolsAtVertices` returns the first vertex for the position
  after the last one, and reads below the array for negative ones (`read_beyond_refuted`, `read_below_refuted`); no setter tests the kind of the field (`wrong_kind_refuted`).
* C66 (`every_edge_received_refuted`): when an edge is given twice to Mmg2d, `MMG2D_assignEdge` keeps the first one only: the reference and the marks of the second one
  are lost, a required mark included.
* C67 (`edges_once_refuted`, `required_edges_twice`): `MMG2D_pack` returns a required edge, or an edge marked as corner, between two triangles of the same
  reference twice, once from each side, for lack of a comparison of the two triangles (mmg2d/hash_2d.c:602-604, 681-684).  With `-opnbdy` an edge with a reference
  between two references is returned twice as well (`interface_once_refuted`).
* C68 (`solution_size_refuted`): `MMG2D_pack` updates the number of values of its second argument only (mmg2d/hash_2d.c:853).  The level-set program gives the metric
  as third argument (mmg2d/libmmg2d.c:799) and the Lagrangian one the displacement (1011): `np` of that solution stays the one of the mesh before
  the packing, and `MMG2D_Get_solSize` returns it, or stops on its assertion.
* C69 (`free_cells_refuted`, `new_vertex_refuted`): the links of the free vertices are renewed up to `npmax-2` only (mmg2d/hash_2d.c:859-866); the cell `npmax-1` keeps the link it got
  when it was removed, which may be the number of a vertex of the packed mesh.  When the memory fills up again, `MMG2D_newPt` returns that vertex and overwrites it.
  The triangles have the same lists (870-877).
* C72 (`required_vertex_refuted`): under -nosurf an edge between two subdomains is frozen (MG_REQ and MG_NOSURF) when it is met from its first triangle; from the second one it looks like an edge
  required by the user and all its marks are copied to its vertices (mmg2d/analys_2d.c:124-127).  A vertex required by the user gets MG_NOSURF in this way, and `MMG2D_pack` takes MG_REQ away
  from it (mmg2d/hash_2d.c:557-560): it is returned not required.
* C73 (`stale_numbers`, `second_run_refuted`): `MMG2D_analys` resets the numbers `cc` of the triangles only for `isosurf` (mmg2d/analys_2d.c:1036-1039), and nothing else resets them between two calls of
  `MMG2D_mmg2dlib` on the same mesh.  In the second call all the triangles look visited: only the first one is analysed.  Under -nosurf the edges released by `MMG2D_pack`
  at the end of the first call are not frozen again, and the second call may move the border.
* C71: when the first cell of the triangles is a hole, number 1 is given to it and the number of subdomains printed is one too many (mmg2d/analys_2d.c:75-78).
* C74 (`hash_quads_refuted`): `MMG2D_hashQuad` numbers the sides with a counter that skips the holes (`iadr++`, mmg2d/hash_2d.c:216) but finds the quadrilateral of a side by `(l-1)/4+1`
  (mmg2d/hash_2d.c:229, 249), which counts the holes.  With one hole before two adjacent quadrilaterals, the common side has no neighbour on either side.  `MMG2D_hashTria` does not
  have this fault: it computes the number from the position.
* C76 (`quad_edges_once_refuted`): the table of the quadrilaterals has `-(3*k+i)` for the edge `i` of the triangle `k`, and `MMG2D_pack` recognises it by `adja[i]/4 < 0` (mmg2d/hash_2d.c:619-624, 706-711).
  For the edge 0 of the triangle 1 this is -3/4, which is 0 in C: the side looks like a border and the edge is returned a second time.  `interface_not_doubled` shows that this is the only such place.
* C75: `MMG2D_hashQuad` ignores the value returned by `MMG5_hashEdge` (mmg2d/hash_2d.c:292): when the table cannot grow it goes on with a table that must not be used any more.
* C78 (`required_quads_refuted`): the marks MG_REQ and MG_NOSURF put on the sides of the quadrilaterals at the interface (mmg2d/analys_2d.c:243-245) are never taken away: `MMG2D_pack` releases those of the
  vertices and of the triangles only (mmg2d/hash_2d.c:557-560, 592-595).  A quadrilateral with triangles on its four sides is returned, and saved, as required although the user did not require it.
* C79 (`required_unreadable`, `save_load_quads_refuted`): `MMG2D_saveMesh` counts the required quadrilaterals twice in the same variable, before and while writing (mmg2d/inout_2d.c:1442-1445 and 1476-1479).  The
  file announces 2n of them and lists n, so that the reader meets the word `End` and `MMG2D_loadMesh` returns -1: no mesh with a required quadrilateral can be read again by Mmg2d.  By C78 this
  also happens to meshes in which the user required none.  The reader itself is right (`required_read_back`).
* C80 (`quads_gap_refuted`, `quads_assert_refuted`): the loop ends with `++k < nquad` (mmg2d/hash_2d.c:787) and so never looks at the last quadrilateral, and it supposes that the last one is in use (line 782).  A hole at
  the end, for instance a quadrilateral announced to `MMG2D_Set_meshSize` and never set, is counted in the mesh returned; two of them stop a program with assertions.
* C81 (`quads3_holes_refuted`): the property is true without holes, but the required quadrilaterals are listed by their place in the table (mmg3d/inout_3d.c:1881) while the quadrilaterals are written without the holes.
  In a mesh with a hole, saved before it is packed, another quadrilateral is read as required.  The required tetrahedra are numbered as in the file (lines 1505-1515).
* C80 also concerns Mmg3d: `MMG3D_pack_prismsAndQuads` has the same two loops (mmg3d/libmmg3d.c:384-410).
* C82 (`triangles_gap_refuted`): `paktri` never looks at the last triangle (mmgs/hash_s.c:59): a hole at the end is kept, and when there is another hole `MMGS_delElt` refuses the last triangle, so that `MMGS_hashTria`
  fails although the mesh has valid triangles.
* C83 (`triangle_created_outside_refuted`): `paktri` sets `nenil` to nt+1 even when nt is ntmax (mmgs/hash_s.c:62), unlike `MMG5_paktet` (mmg3d/hash_3d.c:69-70).  The next `MMGS_newElt`, which should return 0, reads and writes
  past the end of the table.  ntmax is nt when the memory allowed is just enough (mmgs/zaldy_s.c:159-161).  (`triangle_created_twice_refuted`): the end of the list of free triangles, in the cell ntmax, is not
  reset, as `MMG5_paktet` does (mmg3d/hash_3d.c:78); when that cell has just been freed it leads to a triangle in use.  One deletion in a full table is enough.
* C84 (`edge_of_one_side_refuted`): an edge whose mark is on one side only is lost when the other side is the one chosen.  The comment in the code says that the triangle with the higher reference is chosen; the
  code chooses the one with the lower reference (mmgs/libmmgs.c:248-250).
