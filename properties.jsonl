{"id": "C01", "title": "Every cell is owned by exactly one rank", "statement": "After readmesh partitions a mesh over SIZE ranks, each global cell number appears in the globalcelltolocal section of exactly one rank's mesh file, exactly once, and that rank is the one the partitioner assigned to the cell; rank files list their cells in increasing global order.", "quantifier": "all meshes, all element partitions with values in [0,SIZE), all SIZE", "why_tests_cant": "a test fixes one mesh / one partition; the claim is about every mesh, every partition and every rank count", "anchors": ["manapy/ddm/meshpartitioning.py:readmesh", "manapy/ddm/numba_ddm.py:create_npart_cpart"]}
{"id": "C02", "title": "The GtoL table is a permutation", "statement": "The GtoL section (domain.cells.tc) written to mesh0.txt lists every global cell number exactly once, and equals the concatenation of the ranks' globalcelltolocal lists in rank order.", "quantifier": "all meshes, partitions, SIZE", "why_tests_cant": "a test fixes one mesh / one partition; the claim is about every mesh, every partition and every rank count", "anchors": ["manapy/ddm/meshpartitioning.py:readmesh l.214-219,285-290"]}
{"id": "C03", "title": "Local meshes are faithful copies of the owned part of the global mesh", "statement": "In each rank's file the node list contains exactly the global nodes touched by a cell the rank owns, once each; translating the local node numbers of its elements section through localnodetoglobal gives back the (sorted) global node numbers of the owned cells, in order; every local node number is in range.", "quantifier": "all meshes, partitions, ranks", "why_tests_cant": "a test fixes one mesh / one partition; the claim is about every mesh, every partition and every rank count", "anchors": ["manapy/ddm/meshpartitioning.py:readmesh l.200-212,294-335", "manapy/ddm/numba_ddm.py:create_npart_cpart", "manapy/ddm/numba_ddm.py:unique_func"]}
{"id": "C04", "title": "Send and receive halo lists agree between ranks", "statement": "For every ordered pair of ranks (i,j), the list of cells i announces it sends to j (halosint block of j in file i) is, element by element and in order, the list of cells j expects to receive from i (halosext block of i in file j).", "quantifier": "all meshes, partitions, pairs of ranks", "why_tests_cant": "a test fixes one mesh / one partition; the claim is about every mesh, every partition and every rank count", "anchors": ["manapy/ddm/meshpartitioning.py:readmesh l.221-228,308-322"]}
{"id": "C05", "title": "Halo completeness and exactness", "statement": "A rank's halosext section contains a remote cell if and only if that cell shares at least one node with a cell the rank owns (whenever the partitioner's node owner is the owner of some cell touching the node), and it contains it exactly once.", "quantifier": "all meshes, partitions, ranks, cells", "why_tests_cant": "a test fixes one mesh / one partition; the claim is about every mesh, every partition and every rank count", "anchors": ["manapy/ddm/numba_ddm.py:create_npart_cpart", "manapy/ddm/meshpartitioning.py:readmesh l.221-228"]}
{"id": "C06", "title": "Neighbour relation is symmetric and irreflexive", "statement": "j is listed in rank i's neigh section iff i is listed in rank j's; no rank lists itself; the lists are strictly increasing; and the count written beside neighbour j equals the number of cells in the halosint block for j.", "quantifier": "all meshes, partitions, pairs of ranks", "why_tests_cant": "a test fixes one mesh / one partition; the claim is about every mesh, every partition and every rank count", "anchors": ["manapy/ddm/meshpartitioning.py:readmesh l.200-205,336-343"]}
{"id": "C07", "title": "Writing the partition never fails when the partitioner honours its contract", "statement": "If every node owner reported by the partitioner owns a cell touching that node, readmesh completes for every mesh: every haloext/haloint lookup has an entry.", "quantifier": "all meshes, partitions, SIZE", "why_tests_cant": "a test fixes one mesh / one partition; the claim is about every mesh, every partition and every rank count", "anchors": ["manapy/ddm/meshpartitioning.py:readmesh l.231-343"]}
{"id": "C08", "title": "Mesh files round-trip", "statement": "Reading back the file written by readmesh for a rank (or for a sequential run) yields exactly the elements, node coordinates, node labels, halo lists, centre/volume rows, local-to-global tables and neighbour tables that were written.", "quantifier": "all meshes, partitions, ranks", "why_tests_cant": "the parser is a keyword-driven line scanner; correctness for every content and section length is an inductive claim", "anchors": ["manapy/ddm/meshpartitioning.py:readmesh", "manapy/ddm/numba_ddm.py:read_mesh_file"]}
{"id": "C09", "title": "Node label precedence", "statement": "A node touched by a boundary facet labelled 1 or 2 gets the label of the last such facet; otherwise, if touched by one labelled 3 or 4, the label of the last such; otherwise the label of the first facet touching it; untouched nodes get 0; in periodic directions 1,2,3,4,5,6 become 11,22,33,44,55,66 and nothing else changes. (Scope: facets given as arrays, as meshio does; for lists the labels are wrong, see C09_list_meshes_refuted.)", "quantifier": "all facet lists, all labelings, all periodic flags", "why_tests_cant": "order-dependent three-pass overwrite; only a proof covers all facet orders", "anchors": ["manapy/ddm/meshpartitioning.py:define_ghost_node"]}
{"id": "C10", "title": "Node-to-cell and cell-to-cell tables are exact", "statement": "For every node the cell list contains exactly the cells having that node, once; for every cell the node-neighbour list contains exactly the other cells sharing at least one node with it, strictly increasing, and the relation is symmetric; the padding and the stored count are right.", "quantifier": "all meshes in 2D and 3D", "why_tests_cant": "a test fixes one mesh / one partition; the claim is about every mesh, every partition and every rank count", "anchors": ["manapy/ddm/numba_ddm.py:create_node_cellid"]}
{"id": "C11", "title": "Faces are the distinct facets of cells", "statement": "The face table contains each facet (set of nodes) of each cell exactly once and nothing else; each cell's face numbers refer, in order, to its own facets.", "quantifier": "all meshes in 2D and 3D", "why_tests_cant": "a test fixes one mesh / one partition; the claim is about every mesh, every partition and every rank count", "anchors": ["manapy/ddm/pyccel_ddm.py:create_2dfaces", "manapy/ddm/pyccel_ddm.py:create_3dfaces", "manapy/ddm/pyccel_ddm.py:create_cell_faceid", "manapy/ddm/domain.py:Domain.__init__"]}
{"id": "C12", "title": "Face-to-cell adjacency", "statement": "On a conforming mesh (a facet belongs to at most two cells) the two cell numbers of a face are exactly the cells that have it, the first is the lower-numbered, and the second is -1 iff only one cell has it.", "quantifier": "all conforming meshes", "why_tests_cant": "a test fixes one mesh / one partition; the claim is about every mesh, every partition and every rank count", "anchors": ["manapy/ddm/pyccel_ddm.py:create_cellsOfFace"]}
{"id": "C13", "title": "Neighbour-by-face table", "statement": "Entry (i,j) of the cell neighbour table is the cell on the other side of cell i's j-th face, or -1 on the boundary; the relation is symmetric.", "quantifier": "all conforming meshes", "why_tests_cant": "a test fixes one mesh / one partition; the claim is about every mesh, every partition and every rank count", "anchors": ["manapy/ddm/numba_ddm.py:create_NeighborCellByFace"]}
{"id": "C14", "title": "Opposite nodes", "statement": "The opposite-node entry of a face for each adjacent cell is that cell's node not on the face; a boundary face has -1 as second entry.", "quantifier": "all conforming meshes in 2D and 3D", "why_tests_cant": "a test fixes one mesh / one partition; the claim is about every mesh, every partition and every rank count", "anchors": ["manapy/ddm/numba_ddm.py:create_2doppNodeOfFaces", "manapy/ddm/numba_ddm.py:create_3doppNodeOfFaces"]}
{"id": "C15", "title": "Face labels do not depend on node order", "statement": "The label of a boundary face depends only on the multiset of its node labels: permuting the face's nodes leaves the label unchanged; interior faces are labelled 0; a face whose nodes all carry label v gets v.", "quantifier": "all labelings of nodes, 2D and 3D", "why_tests_cant": "a long priority cascade of disjunctions; tests sample a few label combinations", "anchors": ["manapy/ddm/pyccel_ddm.py:create_info_2dfaces", "manapy/ddm/pyccel_ddm.py:create_info_3dfaces"]}
{"id": "C16", "title": "Every boundary face belongs to exactly one boundary category", "statement": "Each face is in exactly one of inner, halo, in, out, bottom, upper, front, back and periodic face lists.", "quantifier": "all label assignments", "why_tests_cant": "classification totality is a claim over all labels", "anchors": ["manapy/ddm/domain.py:Domain.__init__ l.458-513", "manapy/ddm/pyccel_ddm.py:create_info_2dfaces"]}
{"id": "C17", "title": "2D cell area and centroid; counter-clockwise orientation", "statement": "The volume stored for a triangle is its (positive, for non-degenerate triangles) area, its centre is the barycentre, and after construction its nodes are listed counter-clockwise while remaining the same set; re-running changes nothing.", "quantifier": "all triangles with real coordinates", "why_tests_cant": "real-valued, unbounded domain", "anchors": ["manapy/ddm/pyccel_ddm.py:Compute_2dcentervolumeOfCell"]}
{"id": "C18", "title": "3D cell volume and centroid", "statement": "The volume stored for a tetrahedron is |det(b-a,c-a,d-a)|/6, independent of node order, and its centre is the barycentre.", "quantifier": "all tetrahedra", "why_tests_cant": "real-valued, unbounded domain", "anchors": ["manapy/ddm/pyccel_ddm.py:Compute_3dcentervolumeOfCell"]}
{"id": "C19", "title": "Face normals", "statement": "Every face normal is orthogonal to the face, has length equal to the face's measure (length of the edge / area of the triangle), and does not point from the face centre towards the centre of its left cell.", "quantifier": "all meshes 2D and 3D", "why_tests_cant": "real-valued, unbounded domain", "anchors": ["manapy/ddm/pyccel_ddm.py:create_info_2dfaces", "manapy/ddm/pyccel_ddm.py:create_info_3dfaces"]}
{"id": "C20", "title": "Outward normals of a cell close", "statement": "For each non-degenerate cell, its own faces' outward normals (face normal with the sign towards the outside) sum to the zero vector.", "quantifier": "all triangles and tetrahedra, any face numbering", "why_tests_cant": "discrete divergence theorem for all geometries", "anchors": ["manapy/ddm/pyccel_ddm.py:create_info_2dfaces", "manapy/ddm/pyccel_ddm.py:create_info_3dfaces", "manapy/ddm/pyccel_ddm.py:create_NormalFacesOfCell"]}
{"id": "C21", "title": "Ghost cell centres are mirror images", "statement": "The ghost centre of a boundary face is the reflection of the adjacent cell centre in the line/plane of the face: their midpoint lies on it and their difference is orthogonal to the face. The ghost list of a node consists of the ghosts of the boundary faces containing it, each once, in face order.", "quantifier": "all non-degenerate faces", "why_tests_cant": "real-valued, unbounded domain", "anchors": ["manapy/ddm/numba_ddm.py:create_2d_halo_structure", "manapy/ddm/numba_ddm.py:create_3d_halo_structure"]}
{"id": "C22", "title": "Partition-boundary faces are recognised", "statement": "With more than one rank, on a rank with at least one cut face (C22_no_halo_face_refuted shows the failure on the others), a face without a local second cell is labelled 10 iff a halo cell has all its nodes, and its halo index then designates a halo cell containing those nodes.", "quantifier": "all local meshes and halo lists", "why_tests_cant": "a test fixes one mesh / one partition; the claim is about every mesh, every partition and every rank count", "anchors": ["manapy/ddm/numba_ddm.py:create_2d_halo_structure l.369-440", "manapy/ddm/numba_ddm.py:create_3d_halo_structure"]}
{"id": "C23", "title": "3D face node orientation", "statement": "After orientation the node order of each 3D face is right-handed with respect to its stored normal, and each face keeps its node set and first node.", "quantifier": "all 3D face tables", "why_tests_cant": "real-valued, unbounded domain", "anchors": ["manapy/ddm/numba_ddm.py:oriente_3dfacenodeid"]}
{"id": "C24", "title": "Vertex interpolation is exact for affine fields", "statement": "If cell, ghost, halo and halo-ghost values are samples of an affine function at the respective centres, the interpolated vertex value equals the function at the vertex, and for any data the interpolation weights sum to one, whenever the vertex's least-squares system is non-singular. On arbitrary data the vertex value is that of the unique affine function with the least sum of squared errors over the surrounding values.", "quantifier": "all vertex stencils (any number of cells, ghosts, halos), all affine functions, 2D and 3D", "why_tests_cant": "weights come from solving a per-vertex linear system; exactness is an algebraic identity over all stencils", "anchors": ["manapy/ddm/pyccel_ddm.py:variables", "manapy/ddm/pyccel_ddm.py:variables_3d", "manapy/ast/pyccel_functions.py:centertovertex_2d", "manapy/ast/pyccel_functions.py:centertovertex_3d"]}
{"id": "C25", "title": "Cell gradient is exact for affine fields", "statement": "If the data are samples of an affine function, the least-squares cell gradient equals its gradient, whenever the least-squares matrix is non-singular. On arbitrary data it is the gradient of the unique affine function with the cell's value at its centre and the least sum of squared errors over the surrounding values. (Scope: in 3D without periodic neighbours; C25_periodic3d_refuted shows that these are displaced wrongly.)", "quantifier": "all stencils, all affine functions, 2D and 3D", "why_tests_cant": "algebraic identity over all stencils", "anchors": ["manapy/ast/pyccel_functions.py:cell_gradient_2d", "manapy/ast/pyccel_functions.py:cell_gradient_3d"]}
{"id": "C26", "title": "Face (diamond) gradient is exact for affine fields", "statement": "If the two cell-side values and the face's node values are samples of an affine function, the face gradient equals its gradient, for any face whose diamond has non-zero area/volume.", "quantifier": "all faces, all affine functions, 2D and 3D", "why_tests_cant": "algebraic identity over all geometries", "anchors": ["manapy/ddm/pyccel_ddm.py:face_gradient_info_2d", "manapy/ddm/numba_ddm.py:face_gradient_info_3d", "manapy/ast/pyccel_functions.py:face_gradient_2d", "manapy/ast/pyccel_functions.py:face_gradient_3d"]}
{"id": "C27", "title": "Limiter bounds", "statement": "The Barth limiter value of every cell is in [0,1], and the limited linear reconstruction at each of the cell's face centres stays within the min/max of the cell and its face-neighbour values (up to the code's own 1e-8/1e-10 thresholds).", "quantifier": "all meshes, all fields and gradients", "why_tests_cant": "min over neighbours with division guards; real-valued", "anchors": ["manapy/ast/pyccel_functions.py:barthlimiter_2d", "manapy/ast/pyccel_functions.py:barthlimiter_3d"]}
{"id": "C28", "title": "Face-to-cell averaging", "statement": "The value given to a cell is the arithmetic mean of its faces' values, hence between their min and max, and a constant is reproduced.", "quantifier": "all face fields", "why_tests_cant": "real-valued", "anchors": ["manapy/ast/pyccel_functions.py:facetocell"]}
{"id": "C29", "title": "Convection is conservative", "statement": "The sum over cells of the convective residual equals minus the sum of the fluxes through non-interior faces: interior faces contribute zero net.", "quantifier": "all meshes, states, velocities, orders 1 and 2", "why_tests_cant": "telescoping over any face table", "anchors": ["manapy/fvm/pyccel_fvm.py:explicitscheme_convective_2d", "manapy/fvm/pyccel_fvm.py:explicitscheme_convective_3d"]}
{"id": "C30", "title": "Diffusion is conservative", "statement": "The sum over cells of the diffusive residual equals the sum of fluxes through non-interior faces.", "quantifier": "all meshes and face gradients", "why_tests_cant": "telescoping over any face table", "anchors": ["manapy/fvm/pyccel_fvm.py:explicitscheme_dissipative"]}
{"id": "C31", "title": "Upwind flux", "statement": "The flux through a face is (velocity . normal) times the value on the upstream side; for equal values it is exactly velocity.normal*value; it changes sign when sides and normal are swapped.", "quantifier": "all values, velocities and normals", "why_tests_cant": "real-valued", "anchors": ["manapy/fvm/pyccel_fvm.py:compute_upwind_flux"]}
{"id": "C32", "title": "Uniform states are preserved", "statement": "With a constant field and constant velocity the convective residual of every cell whose outward normals close is zero, so an explicit step leaves the field unchanged.", "quantifier": "all meshes, constants, velocities", "why_tests_cant": "needs the closing identity for every cell", "anchors": ["manapy/fvm/pyccel_fvm.py:explicitscheme_convective_2d", "manapy/fvm/pyccel_fvm.py:explicitscheme_convective_3d", "manapy/tools/pyccel_tools.py:update_new_value"]}
{"id": "C33", "title": "Time step satisfies the CFL bound in every cell", "statement": "The time step returned is positive and at most cfl*volume/(sum over faces of wave speed) for every cell with a non-zero wave speed.", "quantifier": "all meshes, fields, cfl>0", "why_tests_cant": "minimum over all cells", "anchors": ["manapy/tools/pyccel_tools.py:time_step"]}
{"id": "C34", "title": "First-order upwind obeys the maximum principle", "statement": "With a divergence-free face velocity field, order 1 and cfl<=1, an explicit step maps every cell value into the interval spanned by the values around it.", "quantifier": "all meshes, fields, velocities", "why_tests_cant": "convexity argument over all states", "anchors": ["manapy/fvm/pyccel_fvm.py:explicitscheme_convective_2d", "manapy/tools/pyccel_tools.py:time_step", "manapy/tools/pyccel_tools.py:update_new_value"]}
{"id": "C35", "title": "Ghost values realise the boundary condition", "statement": "After any history of in-place changes, neumann and periodic sides hold the adjacent cell value, dirichlet sides the prescribed value, nonslip sides the opposite value (provided the numbers of the halo ghosts, where there are any, are below the number of halo cells, as in every sequential run), at exactly the faces of the side; all other ghost entries are unchanged. On a rank whose node touches a boundary face of another rank, the ghost of that face holds the value of the halo cell behind it (neumann) or the value prescribed at the face centre (dirichlet) when the node carries the face's label. (Scope: slip sides, cut dirichlet faces at nodes of another label, halo ghosts of nonslip sides and re-assigned cell arrays do not behave, see the C35_*_refuted theorems.)", "quantifier": "all face lists, all fields", "why_tests_cant": "frame condition over all tables", "anchors": ["manapy/ast/pyccel_functions.py:ghost_value_neumann", "manapy/ast/pyccel_functions.py:ghost_value_dirichlet", "manapy/ast/pyccel_functions.py:ghost_value_nonslip", "manapy/ast/pyccel_functions.py:ghost_value_slip"]}
{"id": "C36", "title": "Boundary-condition dictionaries are validated", "statement": "For dictionaries of neumann, dirichlet, nonslip and periodic entries, the dirichlet ones before the neumann ones and with a dictionary of values, creating a Variable succeeds iff the dictionary is consistent with the periodic boundaries of the domain and every dirichlet boundary has a value; otherwise ValueError is raised. (Outside this scope the C36_*_refuted theorems show other exceptions or silent acceptance.)", "quantifier": "all BC dictionaries and domains", "why_tests_cant": "finite but large product of dictionary shapes and orders", "anchors": ["manapy/ast/core.py:Variable.__init__", "manapy/ast/core.py:Boundary.__init__"]}
{"id": "C37", "title": "Boundary values do not depend on the order of the BC dictionary", "statement": "Among dictionaries with the dirichlet entries before the neumann ones, the ghost values prescribed for a boundary depend only on that boundary's entry. (For other orders C37_order_refuted shows that they do not.)", "quantifier": "all orders of BC entries", "why_tests_cant": "aliasing bug visible only for some orders", "anchors": ["manapy/ast/core.py:Variable.__init__ l.205-330"]}
{"id": "C38", "title": "The triplet buffers are large enough", "statement": "The number of matrix entries written by the 2D/3D assembly never exceeds the size computed beforehand; in 3D they are equal; in 2D the difference is the number of partition-boundary faces.", "quantifier": "all meshes and boundary configurations", "why_tests_cant": "counting argument across two long functions", "anchors": ["manapy/ast/pyccel_functions.py:compute_2dmatrix_size", "manapy/ast/pyccel_functions.py:compute_3dmatrix_size", "manapy/ast/pyccel_functions.py:get_triplet_2d", "manapy/ast/pyccel_functions.py:get_triplet_3d"]}
{"id": "C39", "title": "The assembled operator is the discrete diffusion operator", "statement": "For every field w: (A w)_i - rhs_i = (1/vol_i) * sum over the faces of cell i of the outward diamond flux computed from w with the interpolated node values and Dirichlet data.", "quantifier": "all meshes, all fields", "why_tests_cant": "global identity linking four long functions", "anchors": ["manapy/ast/pyccel_functions.py:get_triplet_2d", "manapy/ast/pyccel_functions.py:get_rhs_loc_2d", "manapy/ast/pyccel_functions.py:centertovertex_2d", "manapy/ast/pyccel_functions.py:compute_P_gradient_2d"]}
{"id": "C40", "title": "Local and global right-hand sides agree", "statement": "The right-hand side assembled in global numbering is the local one scattered through loctoglob and zero elsewhere.", "quantifier": "all meshes, boundary data, numberings", "why_tests_cant": "loop-by-loop correspondence for all tables", "anchors": ["manapy/ast/pyccel_functions.py:get_rhs_loc_2d", "manapy/ast/pyccel_functions.py:get_rhs_glob_2d", "manapy/ast/pyccel_functions.py:get_rhs_loc_3d", "manapy/ast/pyccel_functions.py:get_rhs_glob_3d"]}
{"id": "C41", "title": "Solution scatter", "statement": "After a distributed solve, rank r's cell j holds the solution component of the global cell number loctoglob_r[j].", "quantifier": "all partitions, all solutions", "why_tests_cant": "a test fixes one mesh / one partition; the claim is about every mesh, every partition and every rank count", "anchors": ["manapy/ast/pyccel_functions.py:convert_solution", "manapy/ast/linearsystem.py:LinearSystem.solve"]}
{"id": "C42", "title": "Halo exchange delivers the owner's values", "statement": "After update_halo_value on all ranks, each rank's halo value k is the value its owner holds for the global cell halosext[k][0].", "quantifier": "all partitions, all fields", "why_tests_cant": "joint behaviour of all ranks' send/receive tables", "anchors": ["manapy/comms/communication.py:prepare_comm", "manapy/comms/communication.py:define_halosend", "manapy/comms/communication.py:all_to_all", "manapy/ast/core.py:Variable.update_halo_value"]}
{"id": "C43", "title": "Shallow-water update and friction", "statement": "update_SW adds dt*(residual/volume+sources) component-wise to every cell and nothing else; friction never increases nor reverses the discharge in a wet cell and leaves the depth alone.", "quantifier": "all states, dt>0, eta>=0", "why_tests_cant": "real-valued", "anchors": ["manapy/models/SWModel/tools.py:update_SW", "manapy/models/SWModel/tools.py:term_friction_SW"]}
{"id": "C44", "title": "Shallow-water scheme: mass conservation and consistency", "statement": "Interior faces contribute zero net h, hu, hv, hc; the numerical flux of two equal wet states whose flow is not exactly critical is the physical flux; a whole update changes the total mass (and without diffusion the tracer) only by the fluxes through partition and domain boundaries, and never changes the bathymetry.", "quantifier": "all meshes and states", "why_tests_cant": "telescoping / algebra over all states", "anchors": ["manapy/models/SWModel/tools.py:srnh_scheme", "manapy/models/SWModel/tools.py:explicitscheme_convective_SW"]}
{"id": "C45", "title": "Lake at rest", "statement": "At first order, with zero discharge and flat free surface the numerical mass flux vanishes, the source term balances the pressure flux and a whole update leaves the state alone; between still states with different surfaces water flows from the higher to the lower one.", "quantifier": "all bathymetries", "why_tests_cant": "well-balancing is an identity over all bathymetries", "anchors": ["manapy/models/SWModel/tools.py:srnh_scheme", "manapy/models/SWModel/tools.py:term_source_srnh_SW"]}
{"id": "C46", "title": "Shallow-water time step", "statement": "time_step_SW returns a positive dt at most cfl*volume/(sum of wave speeds) in every cell.", "quantifier": "all meshes/states", "why_tests_cant": "minimum over all cells", "anchors": ["manapy/models/SWModel/tools.py:time_step_SW"]}
{"id": "C47", "title": "Streamer drift velocity", "statement": "The electron velocity at each face is anti-parallel to the electric field (zero when the field is zero), with the speed of the piecewise drift law; field and velocity of a cell are the means over its faces. (The speed is not increasing in the field and the cell velocity need not be anti-parallel to the cell field: see the C47_*_refuted theorems.)", "quantifier": "all field values", "why_tests_cant": "real-valued, piecewise law", "anchors": ["manapy/models/StreamerModel/tools.py:compute_velocity"]}
{"id": "C48", "title": "Streamer residuals", "statement": "The streamer diffusive residual is conservative and the charge source acts identically on electrons and ions so that net charge is changed only by fluxes.", "quantifier": "all meshes/states", "why_tests_cant": "telescoping", "anchors": ["manapy/models/StreamerModel/tools.py:explicitscheme_dissipative_streamer", "manapy/models/StreamerModel/tools.py:update_streamer_flux", "manapy/models/StreamerModel/tools.py:explicitscheme_source_streamer"]}
{"id": "C49", "title": "Streamer Poisson right-hand side", "statement": "update_rhs_loc and update_rhs_glob store the same charge density through loctoglob; after any number of solves on any partition the right-hand side rank 0 gets holds, at every global cell, the present charge of the rank that owns it.", "quantifier": "all states", "why_tests_cant": "table correspondence", "anchors": ["manapy/models/StreamerModel/tools.py:update_rhs_loc", "manapy/models/StreamerModel/tools.py:update_rhs_glob"]}
{"id": "C50", "title": "Default solver and solver choice", "statement": "LinearSystem(domain,var) without solver uses the documented default spsolve; with a solver named the constructor allocates exactly the triplet arrays of the assembly, assembles the right-hand side in the numbering that solver needs, adds the user's right-hand side when it has the right length, and refuses spsolve and umfpack in parallel runs.", "quantifier": "all domains, variables, communicator sizes and ranks, right-hand sides", "why_tests_cant": "constructor path for every table size", "anchors": ["manapy/ast/linearsystem.py:LinearSystem.__init__"]}
{"id": "C51", "title": "Face lists of a variable", "statement": "dirichletfaces and neumannfaces are increasing, contain exactly the faces of the dirichlet sides and of the neumann/nonslip sides, and no face is in both.", "quantifier": "all BC dictionaries and domains", "why_tests_cant": "lists built by an order-dependent loop over any dictionary", "anchors": ["manapy/ast/core.py:Variable.__init__"]}
{"id": "C52", "title": "Boundary data of the linear system", "statement": "After any history of in-place changes of the variable, a linear system built on it sees at the faces of every Dirichlet side the value prescribed there, at the nodes labelled with that side the value prescribed at the node, and the labels it treats as Dirichlet are exactly those of the Dirichlet sides.", "quantifier": "all BC dictionaries, values and histories", "why_tests_cant": "aliasing and order over any history", "anchors": ["manapy/ast/linearsystem.py:LinearSystem.__init__", "manapy/ast/pyccel_functions.py:ghost_value_dirichlet"]}
{"id": "C53", "title": "Gradient of the solution", "statement": "compute_Sol_gradient stores, at every listed face, minus the diamond gradient of the solution (with the values the system has at Dirichlet nodes and faces, see C52; at corners with Neumann sides C53_corner_refuted shows that these are not the prescribed ones), and leaves all other faces unchanged.", "quantifier": "all meshes, fields and boundary data", "why_tests_cant": "real-valued identity over all tables", "anchors": ["manapy/ast/linearsystem.py:LinearSystem.compute_Sol_gradient", "manapy/ast/pyccel_functions.py:compute_P_gradient_2d", "manapy/ast/pyccel_functions.py:compute_P_gradient_3d"]}
{"id": "C54", "title": "Assembly does not change the mesh", "statement": "Assembling the matrix leaves the cell centres as they were. (Scope: no periodic neighbours in 3D, where C54_centers_refuted shows that centres are moved.)", "quantifier": "all meshes", "why_tests_cant": "aliasing through array views", "anchors": ["manapy/ast/pyccel_functions.py:get_triplet_3d"]}
{"id": "C55", "title": "Shallow-water flux is antisymmetric", "statement": "Exchanging the two sides and reversing the normal negates the flux, so the two ranks on both sides of a cut face use opposite fluxes.", "quantifier": "all states, normals", "why_tests_cant": "algebra over all states, two processes", "anchors": ["manapy/models/SWModel/tools.py:srnh_scheme", "manapy/models/SWModel/tools.py:explicitscheme_convective_SW"]}
{"id": "C56", "title": "Shallow-water flux is invariant under rotations and under shifts of the bottom level", "statement": "Rotating both states and the normal rotates the flux; adding a constant to both bottom levels does not change it.", "quantifier": "all states, normals, angles, shifts", "why_tests_cant": "identity over all states and angles", "anchors": ["manapy/models/SWModel/tools.py:srnh_scheme"]}
{"id": "C57", "title": "Supercritical flow is upwinded", "statement": "Over a flat bottom, when the mean flow through the face exceeds the celerity, the flux is the physical flux of the upstream side.", "quantifier": "all states beyond critical", "why_tests_cant": "identity over all states", "anchors": ["manapy/models/SWModel/tools.py:srnh_scheme"]}
{"id": "C58", "title": "Walls are closed", "statement": "Through a face whose ghost has the same depth and bottom and the opposite normal discharge (nonslip, slip) no water and no tracer pass; a basin surrounded by walls keeps its water and, without diffusion, its tracer in every update.", "quantifier": "all states, meshes", "why_tests_cant": "global sum over all faces and cells", "anchors": ["manapy/models/SWModel/tools.py:srnh_scheme", "manapy/models/SWModel/tools.py:update_SW", "manapy/models/SWModel/core.py:ShallowWaterModel.update_solution"]}
{"id": "C59", "title": "A uniform tracer concentration stays uniform", "statement": "If both sides have the same concentration hc/h = k then the tracer flux is k times the water flux.", "quantifier": "all states", "why_tests_cant": "identity over all states", "anchors": ["manapy/models/SWModel/tools.py:srnh_scheme"]}
{"id": "C60", "title": "Settings of the shallow-water model", "statement": "The constructor succeeds exactly if every coefficient of a requested term is given; the coefficients used are the ones given (zero for terms not requested); it does not alter the caller's arguments and models do not share state.", "quantifier": "all lists of terms and parameter dictionaries", "why_tests_cant": "product of dictionaries and histories of constructions", "anchors": ["manapy/models/SWModel/core.py:ShallowWaterModel.__init__", "manapy/models/SWModel/core.py:ShallowWaterModel.update_values"]}
{"id": "C61", "title": "Streamer time step", "statement": "time_step_streamer returns a positive step that satisfies the CFL bound in every cell whose mean field is not zero, the largest such one up to 1e6. (A cell with zero mean field is ignored even if electrons move in it: C61_zero_field_refuted.)", "quantifier": "all meshes, fields, velocities, cfl>0", "why_tests_cant": "minimum over all cells; nan in a comparison", "anchors": ["manapy/models/StreamerModel/tools.py:time_step_streamer"]}
{"id": "C62", "title": "Terms of the streamer model", "statement": "With the default terms, or a list naming source and dissipation, update_solution finds every term it reads; with any other list it raises AttributeError.", "quantifier": "all lists of terms", "why_tests_cant": "all lists", "anchors": ["manapy/models/StreamerModel/core.py:StreamerModel.__init__", "manapy/models/StreamerModel/core.py:StreamerModel.update_solution"]}
{"id": "C63", "title": "Periodic faces know the cell opposite", "statement": "On a domain that spans [0,L] in each periodic direction, with faces and nodes of the two sides paired and L a single precision number, building the domain succeeds; afterwards the second cell of every periodic face is the cell behind the face opposite and conversely, every other face is untouched, and the periodic neighbours listed for a cell are exactly the cells sharing a node with a cell opposite one of its periodic faces. (Scope: C63_*_refuted show a KeyError for a domain not starting at 0 and, in y and z, for a length single precision rounds, such as 0.1.)", "quantifier": "all meshes, face numberings, rounding functions, subsets of periodic directions", "why_tests_cant": "dictionary lookups with rounded coordinates, for every mesh", "anchors": ["manapy/ddm/numba_ddm.py:update_pediodic_info_2d", "manapy/ddm/numba_ddm.py:update_pediodic_info_3d"]}
{"id": "C64", "title": "Periodic nodes know the cells around the node opposite", "statement": "Every periodic node lists exactly the cells around the node opposite, in increasing order, once each, and has no ghosts; other nodes list none and keep their ghosts. (Scope: in 2D not the upper nodes, which get at most one cell: C64_upper_nodes_refuted.)", "quantifier": "all meshes, numberings, rounding functions", "why_tests_cant": "dictionary of lists keyed by rounded coordinates, loop variable surviving its loop", "anchors": ["manapy/ddm/numba_ddm.py:update_pediodic_info_2d", "manapy/ddm/numba_ddm.py:update_pediodic_info_3d"]}
{"id": "C65", "title": "The shift of a periodic cell moves it across the domain", "statement": "On a domain periodic in x no cell of which touches both sides, the shift is +L for the cells sharing a node with a left cell, -L for those sharing a node with a right one only, 0 elsewhere, so that the fluxes of the two faces of a pair are opposite. (Scope: in y and z the sign is wrong, C65_shift_yz_refuted.)", "quantifier": "all meshes periodic in x", "why_tests_cant": "overwriting loops over accumulated neighbour lists, for every mesh", "anchors": ["manapy/ddm/numba_ddm.py:update_pediodic_info_2d", "manapy/ddm/numba_ddm.py:update_pediodic_info_3d"]}
{"id": "C66", "title": "Building a domain succeeds and every later kernel gets sound tables", "statement": "On every simplicial mesh without periodic boundaries, in 2D and 3D, alone or as one of several ranks, Domain(...) succeeds; its tables describe the mesh given (each facet is one face, labelled and attached to its cells, cut facets to the halo cell behind them, nodes to their cells) and satisfy every assumption the interpolation, gradient, limiter, convection, diffusion, time-step, boundary-condition, linear-system and shallow-water kernels are proved correct under.", "quantifier": "all meshes, labels, partitions", "why_tests_cant": "composition of about twenty table-building loops; each kernel's precondition must follow for every mesh", "anchors": ["manapy/ddm/domain.py:Domain.__init__", "manapy/ddm/numba_ddm.py:create_2d_halo_structure"]}
{"id": "C67", "title": "Halo nodes receive exactly the ghosts of the other ranks", "statement": "update_haloghost_info succeeds on all the ranks of a partition and afterwards every halo node lists exactly the ghosts the other ranks have at the same node, each once, in the order of the ranks, with its point, name and face centre and the halo cell it belongs to, numbered 0,1,2,... along the halo nodes.", "quantifier": "all numbers of ranks, all tables that fit together", "why_tests_cant": "an all-to-all exchange with counts and displacements for every number of processes", "anchors": ["manapy/comms/communication.py:update_haloghost_info_2d", "manapy/comms/communication.py:update_haloghost_info_3d"]}
{"id": "C68", "title": "Setting up a parallel run", "statement": "For every simplicial mesh without periodic boundaries and every distribution of its cells to ranks in which each rank meets another one, partitioning, writing and reading the files and building the domains succeeds on all ranks; together the domains represent the mesh: each cell belongs to exactly one of them and each facet of its cells is one of its faces with the geometry the mesh has, a facet between two ranks is a face of both with opposite normals, halo cells and received ghosts are those of the cells and facets of the other ranks, an exchange delivers the owner's value to every halo cell; if the cells around each node are connected through facets, every rank sees at each of its nodes all cells and boundary facets of the mesh.", "quantifier": "all meshes, numbers of ranks, distributions of the cells", "why_tests_cant": "composition of partitioner, files, connectivity and exchanges over every number of processes", "anchors": ["manapy/ddm/domain.py:Domain.__init__", "manapy/ddm/meshpartitioning.py:readmesh", "manapy/ddm/numba_ddm.py:read_mesh_file", "manapy/comms/communication.py:prepare_comm", "manapy/comms/communication.py:update_haloghost_info_2d"]}
{"id": "C69", "title": "An explicit transport computation on any number of ranks is the upwind scheme on the whole mesh", "statement": "For every simplicial mesh without periodic boundaries, every distribution of its cells to ranks, every constant velocity, initial field, set of Dirichlet and Neumann conditions (Dirichlet sides named first) and cfl > 0, the order-1 time loop without diffusion (update_values, interpolate_facetocell, time_step, allreduce of the minimum, explicitscheme_convective, update_new_value, while time < tfinal) runs to its end on all ranks; all ranks use the largest step the CFL condition allows on the whole mesh, stop after the same number of steps, and then hold on their cells the values of the first-order upwind scheme on the whole mesh: the result does not depend on the number of ranks. With cfl <= 1 all values stay between the bounds of the initial and Dirichlet values; a step changes the total mass only by what crosses the boundary of the mesh.", "quantifier": "all meshes, numbers of ranks, distributions of the cells, velocities, fields, boundary conditions, numbers of steps", "why_tests_cant": "composition of partitioner, domain, boundary conditions, exchanges and kernels over any number of steps and processes", "anchors": ["manapy/models/tests/test_transport_2d_periodic.py:time loop", "manapy/ast/core.py:Variable.update_values", "manapy/ast/core.py:Variable.interpolate_facetocell", "manapy/fvm/pyccel_fvm.py:explicitscheme_convective_2d", "manapy/tools/pyccel_tools.py:time_step", "manapy/tools/pyccel_tools.py:update_new_value"]}
{"id": "C70", "title": "Vertex interpolation does not depend on the number of ranks", "statement": "After any history of a Variable (creation, assignments to its cells, updates, interpolations, gradients), on any number of ranks and for any distribution of the cells, interpolate_celltonode succeeds, leaves the cell values alone and gives each node of each rank the value at the node of the best affine fit to the cells of the whole mesh that have this node and to the mirror images behind the boundary; ranks that share a node agree, and the values are the same for every number of ranks. (Scope: no periodic sides, Dirichlet sides named first, planar nodes in 2D, cells around each vertex linked through facets, stencils not degenerate, Dirichlet corners not cut between ranks, see C35_cut_corner_refuted.)", "quantifier": "all meshes, numbers of ranks, distributions, boundary conditions, histories and fields", "why_tests_cant": "joint behaviour of all ranks' ghost, halo and halo-ghost tables over any history", "anchors": ["manapy/ast/core.py:Variable.interpolate_celltonode", "manapy/ast/pyccel_functions.py:centertovertex_2d", "manapy/ast/pyccel_functions.py:centertovertex_3d", "manapy/ast/core.py:Variable.update_values"]}
{"id": "C71", "title": "Cell gradients and limiter do not depend on the number of ranks", "statement": "After any history of a Variable, on any number of ranks, compute_cell_gradient succeeds and stores for each cell and each halo cell the best slope through the cell value in the whole mesh and its Barth limiter; the limiter is between 0 and 1 and keeps the reconstruction at each facet between the values of the cell and those beyond its facets, up to the code's threshold. (Scope: no periodic sides, Dirichlet sides named first, planar nodes in 2D, cells around each vertex linked through facets, stencils not degenerate, Dirichlet corners not cut between ranks, see C35_cut_corner_refuted.)", "quantifier": "all meshes, numbers of ranks, distributions, boundary conditions, histories and fields", "why_tests_cant": "joint behaviour of all ranks' tables and exchanges", "anchors": ["manapy/ast/core.py:Variable.compute_cell_gradient", "manapy/ast/pyccel_functions.py:cell_gradient_2d", "manapy/ast/pyccel_functions.py:cell_gradient_3d", "manapy/ast/pyccel_functions.py:barthlimiter_2d", "manapy/ast/pyccel_functions.py:barthlimiter_3d"]}
{"id": "C72", "title": "Face gradients do not depend on the number of ranks", "statement": "After any history of a Variable, on any number of ranks, compute_face_gradient succeeds and stores at each face the unique slope that has the differences of the node values along the facet and the difference of the two cell values across it; the two ranks of a cut face store the same slope. (Scope: no periodic sides, Dirichlet sides named first, planar nodes in 2D, cells around each vertex linked through facets, stencils not degenerate, Dirichlet corners not cut between ranks, see C35_cut_corner_refuted.)", "quantifier": "all meshes, numbers of ranks, distributions, boundary conditions, histories and fields", "why_tests_cant": "joint behaviour of all ranks' tables", "anchors": ["manapy/ast/core.py:Variable.compute_face_gradient", "manapy/ast/pyccel_functions.py:face_gradient_2d", "manapy/ast/pyccel_functions.py:face_gradient_3d"]}
{"id": "C73", "title": "The second-order transport-diffusion loop computes the same field on any number of ranks", "statement": "The whole time loop with order 1 or 2 and diffusion runs to its end on all ranks, with the largest step the CFL condition of advection and diffusion allows on the whole mesh; the values of the cells at the end do not depend on the number of ranks or the distribution. Each step changes the total mass only by what enters through the boundary of the mesh; a constant field equal to the Dirichlet values stays; with order 1 and without diffusion the result is that of C69. (Scope: no periodic sides, Dirichlet sides named first, planar nodes in 2D, cells around each vertex linked through facets, stencils not degenerate, Dirichlet corners not cut between ranks, see C35_cut_corner_refuted.)", "quantifier": "all meshes, numbers of ranks, distributions, velocities, diffusion coefficients with non-negative sum, fields, boundary conditions and numbers of steps", "why_tests_cant": "composition of all stages over any number of steps and processes", "anchors": ["manapy/models/tests/test_transport_2d_periodic.py:time loop", "manapy/fvm/pyccel_fvm.py:explicitscheme_convective_2d", "manapy/fvm/pyccel_fvm.py:explicitscheme_dissipative", "manapy/tools/pyccel_tools.py:time_step", "manapy/tools/pyccel_tools.py:update_new_value", "manapy/ast/core.py:Variable.compute_cell_gradient", "manapy/ast/core.py:Variable.compute_face_gradient"]}
{"id": "C74", "title": "The linear system is the discrete Poisson problem of the whole mesh, on any number of ranks", "statement": "After any history of a Variable, on any number of ranks, LinearSystem(domain, var, rhs, solver) followed by assembly() succeeds; the matrix made of the triplets of all the ranks and the right-hand side handed to the solver are those of the discrete problem div grad u = source on the whole mesh (diamond fluxes between two cells, difference quotients at Dirichlet facets, no flux at Neumann facets): they do not depend on the number of ranks, the distribution, the solver or the history. Sources of a solution balance the Dirichlet boundary fluxes; constants, and affine fields away from the boundary, have discrete Laplacian 0; without Dirichlet sides solutions are determined up to a constant at best. (Scope: no periodic sides, Dirichlet sides named first, planar nodes in 2D, cells around each vertex linked through facets, stencils not degenerate, Dirichlet corners not cut between ranks, see C35_cut_corner_refuted.)", "quantifier": "all meshes, numbers of ranks, distributions, boundary conditions, histories, sources and fields", "why_tests_cant": "joint behaviour of all ranks' triplets, halo numbering and reductions", "anchors": ["manapy/ast/linearsystem.py:LinearSystem.__init__", "manapy/ast/linearsystem.py:LinearSystem.assembly", "manapy/ast/pyccel_functions.py:get_triplet_2d", "manapy/ast/pyccel_functions.py:get_triplet_3d", "manapy/ast/pyccel_functions.py:get_rhs_loc_2d", "manapy/ast/pyccel_functions.py:get_rhs_glob_2d"]}
{"id": "C75", "title": "Solving the linear system delivers the solution of the Poisson problem to every rank", "statement": "When the numerical solver returns a vector that solves the system it was handed, LinearSystem.solve succeeds (mumps and petsc on any number of ranks, spsolve and umfpack on one) and every rank holds in var.cell the values of its cells of a solution of the discrete Poisson problem of the whole mesh, and conversely; with mumps and petsc the variable can be used further. Where the problem has one solution, the result does not depend on the number of ranks, the distribution or the solver. (Scope: no periodic sides, Dirichlet sides named first, planar nodes in 2D, cells around each vertex linked through facets, stencils not degenerate, Dirichlet corners not cut between ranks, see C35_cut_corner_refuted.)", "quantifier": "all meshes, numbers of ranks, distributions, boundary conditions, histories, sources and solver outputs", "why_tests_cant": "composition of assembly, reduction, solver and scatter over all ranks", "anchors": ["manapy/ast/linearsystem.py:LinearSystem.solve", "manapy/ast/linearsystem.py:LinearSystem.__init__", "manapy/ast/pyccel_functions.py:convert_solution"]}
{"id": "C76", "title": "The gradient of the solution does not depend on the number of ranks, and its divergence is the source", "statement": "After constructing the system and any later history, compute_Sol_gradient succeeds on any number of ranks and stores at each face minus the slope with the node values along the facet and the two cell values across it (at a Dirichlet facet with the prescribed normal component); both ranks of a cut face store the same. If all the nodes of Dirichlet facets carry a Dirichlet label, then for a solution of the Poisson problem the fluxes of this field out of a cell sum to minus the source in the cell. (Scope: no periodic sides, Dirichlet sides named first, planar nodes in 2D, cells around each vertex linked through facets, stencils not degenerate, Dirichlet corners not cut between ranks, see C35_cut_corner_refuted.)", "quantifier": "all meshes, numbers of ranks, distributions, boundary conditions, histories and fields", "why_tests_cant": "joint behaviour of all ranks' tables; an identity summed over any cell", "anchors": ["manapy/ast/linearsystem.py:LinearSystem.compute_Sol_gradient", "manapy/ast/pyccel_functions.py:compute_P_gradient_2d", "manapy/ast/pyccel_functions.py:compute_P_gradient_3d"]}
{"id": "C77", "title": "The shallow-water program computes the scheme on the whole mesh, on any number of ranks", "statement": "On any number of ranks and at both orders, the program ShallowWaterModel + time loop (update_time_step, update_values, update_solution, while time < tfinal) ends with a state exactly if the scheme on the whole mesh does, and then the cells of all ranks hold the state of the scheme after the same number of steps, each as long as the CFL condition of the whole mesh allows, and the nodes hold the interpolation of the depth. A wet state always allows a time step; a step can be made exactly if all cells are wet and all fluxes are defined (at any facet that is not exactly critical); without one of the terms convective, dissipation, source, coriolis the first step raises AttributeError. (Scope: no periodic sides, sides of hu and hv Dirichlet, Neumann or nonslip with the Dirichlet ones named first; cells around each vertex linked through facets, stencils not degenerate; nonslip sides on several ranks need as many neighbour cells as wall ends, see C35_haloghost_nonslip_refuted.)", "quantifier": "all meshes, numbers of ranks, distributions, boundary conditions, coefficients with Dx+Dy >= 0, initial states and numbers of steps", "why_tests_cant": "composition of friction, exchanges, interpolation, gradients, limiter, fluxes, source, dissipation, Coriolis and update over any number of steps and processes", "anchors": ["manapy/models/SWModel/core.py:ShallowWaterModel.update_solution", "manapy/models/SWModel/core.py:ShallowWaterModel.update_values", "manapy/models/SWModel/core.py:ShallowWaterModel.update_time_step", "manapy/models/SWModel/tools.py:explicitscheme_convective_SW", "manapy/models/SWModel/tools.py:term_source_srnh_SW", "manapy/models/SWModel/tools.py:update_SW", "manapy/models/tests/test_sw_2d.py:time loop"]}
{"id": "C78", "title": "The shallow-water program gives the same result on any number of ranks", "statement": "If the program ends on one distribution of the cells then it ends on every other one, on any number of ranks, at the same time and with the same depth, discharge, tracer and bottom in every cell of the mesh. (Scope: no periodic sides, sides of hu and hv Dirichlet, Neumann or nonslip with the Dirichlet ones named first; cells around each vertex linked through facets, stencils not degenerate; nonslip sides on several ranks need as many neighbour cells as wall ends, see C35_haloghost_nonslip_refuted.)", "quantifier": "all pairs of distributions and numbers of ranks, all meshes, boundary conditions, coefficients and initial states", "why_tests_cant": "relates two whole parallel executions", "anchors": ["manapy/models/SWModel/core.py:ShallowWaterModel.update_solution", "manapy/models/tests/test_sw_2d.py:time loop"]}
{"id": "C79", "title": "Water balance, closed basins, lakes at rest and uniform streams in the shallow-water program", "statement": "On any number of ranks a step changes the water in the mesh only by the fluxes through its boundary, whatever friction, Coriolis force and bottom; between nonslip walls, at first order, the program ends with the water it started with, and with the tracer if Dx = Dy. A lake at rest over any bottom is kept at first order by the whole program with any sides but Dirichlet ones; a uniform stream over a flat bottom without friction and Coriolis force, whose sides agree with it, is kept at both orders. (At second order walls leak and a lake at rest moves: C79_second_order_walls_refuted, C79_second_order_lake_refuted.) (Scope: no periodic sides, sides of hu and hv Dirichlet, Neumann or nonslip with the Dirichlet ones named first; cells around each vertex linked through facets, stencils not degenerate; nonslip sides on several ranks need as many neighbour cells as wall ends, see C35_haloghost_nonslip_refuted.)", "quantifier": "all meshes, numbers of ranks, distributions, bottoms, coefficients and numbers of steps", "why_tests_cant": "sums over all cells and invariants over any number of steps and processes", "anchors": ["manapy/models/SWModel/tools.py:srnh_scheme", "manapy/models/SWModel/tools.py:update_SW", "manapy/models/SWModel/tools.py:term_source_srnh_SW", "manapy/models/SWModel/core.py:ShallowWaterModel.update_solution", "manapy/models/tests/test_sw_2d.py:time loop"]}
{"id": "C80", "title": "The Darcy program computes pressure-driven transport on the whole mesh, on any number of ranks", "statement": "The program of test_darcy_2d/3d (LinearSystem.assembly, then while time < tfinal: solve with compute_grad, copy minus the face gradient into the face velocities, interpolate_facetocell, update_values, time_step with allreduce of the minimum, compute_cell_gradient, explicitscheme_convective, [compute_face_gradient,] explicitscheme_dissipative, update_new_value, interpolate_celltonode) runs on any number of ranks without an error. In each turn the solver is handed the discrete pressure equation of the whole mesh, and whatever it returns, the velocity is minus the gradient of it, the time step is the largest the condition on the mean cell velocities allows on the whole mesh, and the density makes one step of the first or second order transport scheme on the whole mesh; the program stops when the time reaches tfinal, after finitely many turns if the solver solves and the pressure is unique. (Scope: no periodic sides, Dirichlet sides named first, planar nodes in 2D, cells around each vertex linked through facets, stencils not degenerate, Dirichlet corners not cut between ranks, see C35_cut_corner_refuted.)", "quantifier": "all meshes, numbers of ranks, distributions, boundary conditions of density and pressure, solver outputs, orders, diffusion coefficients with non-negative sum, initial fields and numbers of turns", "why_tests_cant": "composition of assembly, solver, gradient, exchanges, interpolation, limiter, fluxes over any number of turns and processes", "anchors": ["manapy/models/tests/test_darcy_2d.py:time loop", "manapy/ast/linearsystem.py:LinearSystem.solve", "manapy/ast/linearsystem.py:LinearSystem.compute_Sol_gradient", "manapy/ast/core.py:Variable.interpolate_facetocell", "manapy/fvm/pyccel_fvm.py:explicitscheme_convective_2d", "manapy/tools/pyccel_tools.py:time_step", "manapy/tools/pyccel_tools.py:update_new_value"]}
{"id": "C81", "title": "The Darcy program gives the same result on any number of ranks", "statement": "Where the discrete pressure is unique and the solvers solve, the number of turns, the final time and the density do not depend on the number of ranks, the distribution of the cells, the solver or the initial pressure. (Scope: no periodic sides, Dirichlet sides named first, planar nodes in 2D, cells around each vertex linked through facets, stencils not degenerate, Dirichlet corners not cut between ranks, see C35_cut_corner_refuted.)", "quantifier": "all pairs of distributions, numbers of ranks and solvers, all meshes, boundary conditions and initial densities", "why_tests_cant": "relates two whole parallel executions", "anchors": ["manapy/models/tests/test_darcy_2d.py:time loop", "manapy/ast/linearsystem.py:LinearSystem.solve"]}
{"id": "C82", "title": "Mass balance, incompressibility and bounds of the Darcy program", "statement": "A turn changes the mass of the density only by what crosses the boundary of the mesh; without sources the velocity brings into each cell as much as it takes out, so a constant density equal to its Dirichlet values stays constant through the whole program at both orders; and at first order without diffusion a step during which no more than its volume enters each cell keeps the density between the bounds of its values and Dirichlet values. (The time step of the program does not guarantee the last condition: C82_time_step_refuted.) (Scope: no periodic sides, Dirichlet sides named first, planar nodes in 2D, cells around each vertex linked through facets, stencils not degenerate, Dirichlet corners not cut between ranks, see C35_cut_corner_refuted.)", "quantifier": "all meshes, numbers of ranks, distributions, pressures, densities, steps", "why_tests_cant": "sums over all cells and invariants over any number of turns and processes", "anchors": ["manapy/models/tests/test_darcy_2d.py:time loop", "manapy/tools/pyccel_tools.py:time_step", "manapy/fvm/pyccel_fvm.py:explicitscheme_convective_2d", "manapy/ast/pyccel_functions.py:compute_P_gradient_2d"]}
{"id": "C83", "title": "The streamer program computes drift, diffusion, ionisation and the field of the charge on the whole mesh, on any number of ranks", "statement": "The programs test_streamer_2d(.py, _bis.py): in every turn the potential of the charge is solved, minus its gradient is the field at the faces, electrons drift against it, the time step is the largest allowed on the whole mesh, and electrons and ions are advanced. On any number of ranks the program ends with the densities of that scheme on the whole mesh after the first turn that reaches tfinal, and holds the last potential, field and drift; an exception can only come from the decision to save. (Scope: gradients computed in every turn or order 2; see C83_order1_refuted, C83_saving_refuted.) (Scope: no periodic sides, Dirichlet sides named first, planar nodes in 2D, cells around each vertex linked through facets, stencils not degenerate, Dirichlet corners not cut between ranks, see C35_cut_corner_refuted.)", "quantifier": "all meshes in 2D and 3D, numbers of ranks, distributions, initial densities and potentials, boundary conditions, both orders, mumps and petsc, all backends that solve, all numbers of turns", "why_tests_cant": "loop over coupled kernels, linear solver and exchanges on all ranks; exponentials and powers of the field", "anchors": ["manapy/models/tests/test_streamer_2d.py", "manapy/models/tests/test_streamer_2d_bis.py", "manapy/models/StreamerModel/core.py:StreamerModel", "manapy/models/StreamerModel/tools.py", "manapy/ast/linearsystem.py:LinearSystem.solve"]}
{"id": "C84", "title": "The streamer program gives the same result on any number of ranks", "statement": "Where every charge has exactly one discrete potential and the solvers solve, final time, electron and ion densities do not depend on the number of ranks, the distribution, the solver, the initial potential, or on whether script or class is used; if one raises an exception so does the other. (Scope: no periodic sides, Dirichlet sides named first, planar nodes in 2D, cells around each vertex linked through facets, stencils not degenerate, Dirichlet corners not cut between ranks, see C35_cut_corner_refuted.)", "quantifier": "all pairs of distributions, numbers of ranks and solvers", "why_tests_cant": "relation between two executions of different process counts", "anchors": ["manapy/models/tests/test_streamer_2d.py", "manapy/models/tests/test_streamer_2d_bis.py", "manapy/models/StreamerModel/core.py:StreamerModel"]}
{"id": "C85", "title": "Charge balance, Gauss's law and rest in the streamer program", "statement": "In a turn the net charge in the mesh changes only by the electrons crossing its boundary; the ions grow by exactly the pairs produced and do not decrease while the electron density is not negative; the flux of the field out of a cell is the charge in it; with as many ions as electrons and one value on all electrodes nothing changes in any turn.", "quantifier": "all meshes, densities, fields, conditions, numbers of ranks and turns", "why_tests_cant": "global sums over all cells and ranks; induction on the turns", "anchors": ["manapy/models/tests/test_streamer_2d.py", "manapy/models/StreamerModel/core.py:StreamerModel.update_solution", "manapy/models/StreamerModel/tools.py:explicitscheme_source_streamer", "manapy/models/StreamerModel/tools.py:update_rhs_glob"]}
{"id": "C86", "title": "Variables and linear systems share two boundary arrays through the domain", "statement": "compute_Sol_gradient of a LinearSystem uses, at Dirichlet nodes and faces, the values of the linear system constructed last on the same domain, provided no Variable was constructed since; after the construction of any Variable (also by arithmetic) it uses 0. So the slopes are those of the system's own boundary values exactly when the system is the last thing constructed on its domain; other statements have no influence. (Scope: no periodic sides, Dirichlet sides named first, planar nodes in 2D, cells around each vertex linked through facets, stencils not degenerate, Dirichlet corners not cut between ranks, see C35_cut_corner_refuted.)", "quantifier": "all meshes, numbers of ranks, programs (sequences of constructions and other statements), fields and boundary values", "why_tests_cant": "aliasing through the domain, over any sequence of statements on all ranks", "anchors": ["manapy/ast/core.py:Variable.__init__", "manapy/ast/linearsystem.py:LinearSystem.__init__", "manapy/ast/linearsystem.py:LinearSystem.compute_Sol_gradient"]}
{"id": "C87", "title": "Arithmetic of variables", "statement": "The sum, difference and product of two variables of one domain holds, on any number of ranks, cell by cell the sum, difference or product of the two fields, whatever the past and the boundary conditions of the operands; a quotient likewise if the divisor is nowhere 0, otherwise exactly the ranks owning a cell where it is 0 raise ValueError. After update_values the halo cells hold the owner's result, and all boundary ghosts are 0.", "quantifier": "all meshes, numbers of ranks, distributions, fields and operands", "why_tests_cant": "joint behaviour of all ranks; aliasing of boundary objects", "anchors": ["manapy/ast/core.py:Variable.__add__", "manapy/ast/core.py:Variable.__sub__", "manapy/ast/core.py:Variable.__mul__", "manapy/ast/core.py:Variable.__truediv__"]}
{"id": "C88", "title": "Norm of the error", "statement": "norml2(exact, order) with order 1 (default) or 2 returns the norm of the difference divided by the norm of the exact values, each value weighted with the measure of its cell, over the cells of the calling rank; it is 0 exactly if they agree on these cells, nan or inf exactly if the exact values all vanish there, and raises AssertionError exactly for a list of the wrong length. (It is not the norm over the mesh on several ranks: C88_ranks_refuted.)", "quantifier": "all meshes, numbers of ranks, fields and exact values", "why_tests_cant": "real-valued, for every mesh", "anchors": ["manapy/ast/core.py:Variable.norml2"]}
{"id": "C89", "title": "The numbers of entries per row announced to PETSc", "statement": "LinearSystem.assembly for petsc: in 3D, and on one rank, after any history of the variable, if every cell has a facet with another cell behind it or on a Dirichlet side, the number announced for each row is exactly the number of triplets that all the ranks together add to it, so no row has more columns than announced; if one has not, IndexError. In 2D on several ranks the counts are right on the rank that owns cell 0, on every other rank each row gets the count of the row before it (C89_shifted, C89_too_small_refuted). (Scope: no periodic sides, Dirichlet sides named first, planar nodes in 2D, cells around each vertex linked through facets, stencils not degenerate, Dirichlet corners not cut between ranks, see C35_cut_corner_refuted.)", "quantifier": "all meshes, numbers of ranks, distributions, boundary conditions and histories", "why_tests_cant": "counts over all faces of all cells, on every number of processes", "anchors": ["manapy/ast/linearsystem.py:LinearSystem.assembly", "manapy/ast/pyccel_functions.py:get_triplet_2d", "manapy/ast/pyccel_functions.py:get_triplet_3d"]}
{"id": "C90", "title": "Transport across periodic sides", "statement": "On one process, for a mesh each direction of which is periodic (opposite boundary facets are translates of each other and labelled 11/22, 44/33, 66/55) or not: the domain has one face per facet, with label 0 inside and the label of the facet on the boundary, and the second cell of a periodic face is the cell of the facet it faces across the domain. The first-order transport loop (order 1, no diffusion) of the periodic scripts runs without an error, takes the largest step the CFL condition allows, stops at the first multiple of it that reaches tfinal, and its cells hold the upwind scheme in which the facing cell lies beyond a periodic facet. With cfl at most 1 it stays within the bounds of the initial and Dirichlet values; a constant equal to the Dirichlet values stays; a step changes the mass only by what crosses the sides that are not periodic, and if all are periodic the program conserves it. (Scope: meshes that start at 0 and whose lengths are single precision numbers, see C63_offset_domain_refuted and C63_length_refuted.)", "quantifier": "all meshes in 2D and 3D, periodic directions, velocities, initial fields, boundary conditions, cfl, tfinal", "why_tests_cant": "composition of domain construction, matching of periodic faces and the time loop over any number of steps, for every mesh; real-valued sums over all cells", "anchors": ["manapy/models/tests/test_transport_2d_periodic.py:time loop", "manapy/models/tests/test_transport_3d_periodic.py:time loop", "manapy/ddm/pyccel_ddm.py:update_pediodic_info_2d", "manapy/ddm/pyccel_ddm.py:update_pediodic_info_3d", "manapy/ddm/domain.py:Domain.__init__", "manapy/fvm/pyccel_fvm.py:explicitscheme_convective_2d", "manapy/fvm/pyccel_fvm.py:explicitscheme_convective_3d", "manapy/tools/pyccel_tools.py:time_step"]}
{"id": "C91", "title": "Saved results", "statement": "save_on_cell(value) and save_on_node(value), on any number of ranks which write in any order, write files which together show the field on the whole mesh: every cell of the mesh in exactly one of them, with its corners and its value (or the values at its corners); rank 0 prints the largest value on the mesh; on several ranks the index file of a number not used before is one document that names all the files; files of other numbers do not change. So after a program that saves any number of times under different numbers every save can be read. A value that is missing or has the wrong length on some rank raises ValueError or AssertionError. (Saving twice under one number on several ranks leaves an index file of two documents: C91_same_number_refuted.)", "quantifier": "all meshes, numbers of ranks, distributions, fields, orders of writing, and all programs of saves", "why_tests_cant": "every mesh, field and interleaving of the ranks", "anchors": ["manapy/ddm/domain.py:Domain.save_on_cell", "manapy/ddm/domain.py:Domain.save_on_node", "manapy/ddm/meshpartitioning.py:readmesh"]}
{"id": "C92", "title": "Initial conditions", "statement": "Whatever the arrays contain, on any number of ranks: initialisation_gaussian_2d/3d gives every cell the density of a Gaussian hill in the distance of its centre from the fixed point (between 1 and 6), velocity zero and the linear potential; initialisation_SW gives the dam break (depth 5 left of x = 1/2, depth 2 elsewhere, at rest, no tracer, flat bottom); initialisation_streamer/_3d gives as many ions as electrons, no velocity, no field. Programs that start from them: transport from the hill keeps all values in [1,6]; with CFL number up to 1, first order and sides without Dirichlet conditions the first step of the shallow-water program succeeds on any mesh and the depths stay between 2 and 5. (At second order the depths used in the fluxes leave that range: the limiter is computed from the tracer only, C92_second_order_refuted.)", "quantifier": "all meshes, numbers of ranks, distributions, contents of the arrays, constants", "why_tests_cant": "every mesh and distribution", "anchors": ["manapy/tools/pyccel_tools.py:initialisation_gaussian_2d", "manapy/tools/pyccel_tools.py:initialisation_gaussian_3d", "manapy/models/SWModel/tools.py:initialisation_SW", "manapy/models/StreamerModel/tools.py:initialisation_streamer", "manapy/models/StreamerModel/tools.py:initialisation_streamer_3d"]}
{"id": "C93", "title": "What the programs leave in the results directory", "statement": "The shallow-water script with its saves (after the first turn, after every tot-th turn with tot = int(tfinal/dt/50), and once more at the end), started on a mesh whose reading emptied the directory, on any number of ranks which write in any order: if tfinal is at least 50 times the first time step, the directory finally holds, under the numbers 0, 1, 2, ..., exactly the depth after these turns and at the end, on the cells or interpolated to the nodes, each readable as a whole, and nothing else. (If tfinal is less than 50 first time steps and the loop makes more than one turn, the script fails with ZeroDivisionError: C93_few_turns_refuted.) The transport script, where tot is one more, never fails and leaves the fields after turn 1 and every tot-th turn; it does not save the final one. (Scope: no periodic sides, Dirichlet sides named first, planar nodes in 2D, cells around each vertex linked through facets, stencils not degenerate, Dirichlet corners not cut between ranks, see C35_cut_corner_refuted.)", "quantifier": "all meshes, numbers of ranks, distributions, write orders, initial states, boundary conditions, numbers of turns", "why_tests_cant": "history of a whole parallel execution and of the files it leaves", "anchors": ["manapy/models/tests/test_sw_2d.py:time loop", "manapy/models/tests/test_transport_2d_periodic.py:time loop", "manapy/ddm/domain.py:Domain.save_on_cell", "manapy/ddm/domain.py:Domain.save_on_node"]}
{"id": "C94", "title": "What the Darcy and streamer programs leave in the results directory", "statement": "With their saves (after the first turn and after each turn whose number is a multiple of tot, tot being computed anew in every turn from its time step), started on a mesh whose reading emptied the directory, on any number of ranks which write in any order: the Darcy scripts never fail, and at the end the directory holds, under the numbers 0, 1, 2, ..., exactly the densities after these turns, on the cells or interpolated to the nodes, and nothing else, whatever the numerical solver returned. The script test_streamer_2d never fails either and leaves the electrons at the nodes (or, on the cells, the potential from which the turn was made), once more at the end. test_streamer_2d_bis leaves the electrons at the nodes, and fails, with ZeroDivisionError, only in a turn after the first whose time step is more than a fiftieth of tfinal. (Scope: no periodic sides, Dirichlet sides named first, planar nodes in 2D, cells around each vertex linked through facets, stencils not degenerate, Dirichlet corners not cut between ranks, see C35_cut_corner_refuted.)", "quantifier": "all meshes, numbers of ranks, distributions, initial fields, boundary conditions, solver outputs, final times, numbers of turns and orders of writing", "why_tests_cant": "every number of turns and processes; time steps that change from turn to turn", "anchors": ["manapy/models/tests/test_darcy_2d.py:time loop", "manapy/models/tests/test_streamer_2d.py:time loop", "manapy/models/tests/test_streamer_2d_bis.py:time loop", "manapy/ddm/domain.py:Domain.save_on_node", "manapy/ddm/domain.py:Domain.save_on_cell"]}
{"id": "C95", "title": "From the tags in the mesh file to the domains", "statement": "readmesh and Domain on a mesh whose boundary facets carry the physical tags 1..6 (in, out, upper, bottom, front, back; opposite sides without common nodes): every node gets the tag of its side of lowest direction (in/out before upper/bottom before front/back), 0 if it is on none, and a facet gets its own tag from its nodes exactly if it has a node on no side of a lower direction. If all facets have such a node, then on any number of ranks the domains are set up without an error, represent the mesh of the file, each boundary facet is one face whose label is its tag, and every face belongs to exactly one of the face lists of its domain. With periodic directions asked for in readmesh the labels are doubled (11, 22, ...) and matching sides make the mesh one of those of C90. (Where front and back are periodic and upper and bottom are not, front facets touching the upper side are taken for a part of it: C95_front_and_back_refuted.)", "quantifier": "all meshes in 2D and 3D, tags, periodicity flags, METIS answers, numbers of ranks", "why_tests_cant": "for every mesh, partition and numbering; the label of a face depends on all the facets around its nodes", "anchors": ["manapy/ddm/meshpartitioning.py:readmesh", "manapy/ddm/meshpartitioning.py:define_ghost_node", "manapy/ddm/pyccel_ddm.py:create_info_2dfaces", "manapy/ddm/pyccel_ddm.py:create_info_3dfaces", "manapy/ddm/domain.py:Domain"]}
