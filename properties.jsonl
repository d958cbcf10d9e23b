{"id": "C01", "title": "Double-precision field files round-trip bit for bit", "statement": "If a HexaData with wdsz 8, float64 arrays, an elmap that is a permutation of 1..nel and var equal to what its header can express is written with writenek and read back with readnek, the result has the same ndim, nel, lr1, var, istep, wdsz, elmap and endian, and every stored value of every written field of every element has the same 64 bits.", "quantifier": "every number of elements, polynomial order, field set, scalar count, element order, endianness and every float64 bit pattern (NaNs included)", "why_tests_cant": "The test suite checks two data files; the claim ranges over all sizes, all element orders and all bit patterns.", "anchors": ["src/pymech/neksuite/field.py::writenek", "src/pymech/neksuite/field.py::readnek"]}
{"id": "C02", "title": "Single-precision field files store the nearest float32 and are stable", "statement": "With wdsz 4, writenek followed by readnek returns for every finite value the float64 holding the float32 nearest to it (ties to even), and a second write/read of the result returns identical values.", "quantifier": "every mesh as in C01 and every float64 value", "why_tests_cant": "Rounding and widening have to be right for all 2^64 bit patterns, subnormals and overflow included.", "anchors": ["src/pymech/neksuite/field.py::writenek", "src/pymech/neksuite/field.py::readnek"]}
{"id": "C03", "title": "Field header metadata survives the text header", "statement": "For every header writenek can produce, the header is exactly 132 bytes long and read_header recovers wdsz, the three orders, the two element counts, istep, fid, the number of files and the number of variables of each kind.", "quantifier": "every word size in {4,8}, every order, element count, step number and variable combination that fits the field widths", "why_tests_cant": "Field widths, space separation and the S%02d scalar count interact; tests see two headers.", "anchors": ["src/pymech/neksuite/field.py::Header", "src/pymech/neksuite/field.py::Header.as_bytestring", "src/pymech/neksuite/field.py::read_header"]}
{"id": "C04", "title": "Field header time keeps 14 significant digits and is stable", "statement": "The time written by as_bytestring, read back as a decimal number, differs from the stored time by at most half a unit of the 14th significant digit.", "quantifier": "every finite float64 time", "why_tests_cant": "Decimal rounding and carry must be right for every exponent and mantissa.", "anchors": ["src/pymech/neksuite/field.py::Header.as_bytestring", "src/pymech/neksuite/field.py::read_header"]}
{"id": "C05", "title": "Field files are endian-neutral", "statement": "Whatever the byte order of the machine and whatever of 'big' / 'little' is requested in data.endian, the file written by writenek is read back with data.endian equal to the requested order and the same contents; an unrecognised endian string gives a file in the machine's own order.", "quantifier": "both machine byte orders, both requested orders, every mesh", "why_tests_cant": "A test runs on one machine.", "anchors": ["src/pymech/neksuite/field.py::writenek.correct_endianness", "src/pymech/neksuite/field.py::readnek"]}
{"id": "C06", "title": "skip_vars only leaves out the named variables", "statement": "readnek(f, skip_vars=s) returns the same data as readnek(f) for every variable not named in s and zeros for every variable named in s.", "quantifier": "every valid field file and every set of skipped variable names", "why_tests_cant": "The reader must advance over exactly the skipped bytes for each of the 2^k subsets of variables and for any element count in the file.", "anchors": ["src/pymech/neksuite/field.py::readnek", "src/pymech/neksuite/field.py::readnek.skip_elements"]}
{"id": "C07", "title": "Element data follow the element map", "statement": "Reading a field file puts the k-th stored block into element elmap[k], so two files holding the same fields in different element orders give the same element data; a file whose map contains a zero is read in storage order.", "quantifier": "every element map that is a permutation, and every map containing a zero", "why_tests_cant": "Ranges over all permutations.", "anchors": ["src/pymech/neksuite/field.py::readnek", "src/pymech/neksuite/field.py::writenek"]}
{"id": "C08", "title": "A field file torn by a crash is never read as complete", "statement": "If only a proper prefix of the bytes up to the end of the field data reached the disk, readnek with no skipped variables raises an exception; it never returns data.", "quantifier": "every crash point (every prefix length) of every field file", "why_tests_cant": "Crash points are as many as the bytes of the file.", "anchors": ["src/pymech/neksuite/field.py::readnek", "src/pymech/neksuite/field.py::read_header"]}
{"id": "C09", "title": "A rejected write leaves an existing file alone", "statement": "If writenek or writere2 raises because the data structure cannot be represented, the previous contents of the target file are unchanged.", "quantifier": "every unrepresentable data structure and every previous file content", "why_tests_cant": "It is about the order of validation and the truncating open, for every rejected input.", "anchors": ["src/pymech/neksuite/field.py::writenek", "src/pymech/neksuite/mesh.py::writere2"]}
{"id": "C10", "title": "Reading with dtype float32 gives data that can be written again", "statement": "The data returned by readnek(f, dtype='float32') can be written by writenek and the new file is read back with the same values.", "quantifier": "every field file, both word sizes", "why_tests_cant": "Depends on the combination of file word size and array precision.", "anchors": ["src/pymech/neksuite/field.py::readnek", "src/pymech/neksuite/field.py::writenek"]}
{"id": "C11", "title": "re2 meshes round-trip", "statement": "Writing a mesh with writere2 in the machine's byte order and reading it back gives the same ndim, nel, nbc, vertex coordinates, curvature types and parameters, and the same boundary conditions except that internal 'E' conditions become empty.", "quantifier": "every 2D or 3D linear mesh, number of elements, curved edge set, boundary condition set and number of fields", "why_tests_cant": "Vertex reordering, record layout and counts must be right for all sizes; tests see two files.", "anchors": ["src/pymech/neksuite/mesh.py::writere2", "src/pymech/neksuite/mesh.py::readre2"]}
{"id": "C12", "title": "re2 files are endian-neutral", "statement": "A mesh written by writere2 with data.endian set to the opposite of the machine's byte order is read back by readre2 with the same geometry, curvature and boundary conditions.", "quantifier": "both machine byte orders and every mesh", "why_tests_cant": "No test writes a foreign-endian re2 file.", "anchors": ["src/pymech/neksuite/mesh.py::writere2", "src/pymech/neksuite/mesh.py::readre2"]}
{"id": "C13", "title": "A torn re2 file is never read as complete", "statement": "If only a proper prefix of the bytes of a re2 file reached the disk, readre2 raises an exception rather than returning a mesh.", "quantifier": "every crash point of every re2 file", "why_tests_cant": "As many crash points as bytes.", "anchors": ["src/pymech/neksuite/mesh.py::readre2"]}
{"id": "C14", "title": "A mesh read from re2 is a fixed point of write/read", "statement": "A mesh obtained from readre2 contains no internal 'E' conditions written by writere2, and writing and reading it once more returns an identical mesh.", "quantifier": "every mesh accepted by writere2", "why_tests_cant": "Ranges over all meshes.", "anchors": ["src/pymech/neksuite/mesh.py::writere2", "src/pymech/neksuite/mesh.py::readre2"]}
{"id": "C15", "title": "rea meshes round-trip to printed precision", "statement": "A mesh with at least one boundary condition field and a correct ncurv, written with writerea and read back with readrea, has the same ndim, nel, nbc, curvature types, boundary condition types and connected element and face numbers, and each coordinate equals the original rounded to 7 significant digits.", "quantifier": "every number of elements below the format limits (including the 1e3 and 1e6 layout switches), every mesh with representable types", "why_tests_cant": "Three fixed-column layouts must agree between writer and reader for every value and width.", "anchors": ["src/pymech/neksuite/mesh.py::writerea", "src/pymech/neksuite/mesh.py::readrea"]}
{"id": "C16", "title": "writerea does not modify the mesh it writes", "statement": "After writerea(fname, data) returns, data is equal to what it was before the call.", "quantifier": "every mesh", "why_tests_cant": "Quantifies over all meshes and all fields of the mesh.", "anchors": ["src/pymech/neksuite/mesh.py::writerea"]}
{"id": "C17", "title": "writerea never writes a file readrea cannot read", "statement": "For every mesh accepted by writerea, readrea accepts the file.", "quantifier": "every mesh, including meshes without boundary condition fields and meshes produced by gen_circle or map2D", "why_tests_cant": "Quantifies over all meshes; depends on counters that other functions may leave stale.", "anchors": ["src/pymech/neksuite/mesh.py::writerea", "src/pymech/neksuite/mesh.py::readrea", "src/pymech/meshtools.py::gen_circle", "src/pymech/meshtools.py::map2D"]}
{"id": "C18", "title": "readma2 decodes the partition map", "statement": "For every map file made of a header, a tag in either byte order and nel records of one rank followed by nvert vertex numbers, readma2 returns exactly those ranks and vertices.", "quantifier": "every element count, vertex count, byte order and 32-bit contents; truncated files raise", "why_tests_cant": "Ranges over all contents and sizes.", "anchors": ["src/pymech/neksuite/map.py::readma2"]}
{"id": "C19", "title": "lims are the true extrema", "statement": "For every mesh, data.lims.pos/vel/pres/temp/scal hold for every component a value attained in some element that bounds the component in every point of every element.", "quantifier": "every mesh with at least one element and every value", "why_tests_cant": "A reduction over any number of elements, including one.", "anchors": ["src/pymech/core.py::DataLims", "src/pymech/core.py::HexaData.lims"]}
{"id": "C20", "title": "lims cannot be changed after construction", "statement": "After DataLims(elements) has been constructed, every attempt to set any attribute raises AttributeError and leaves all extrema as they were.", "quantifier": "every sequence of attribute assignments", "why_tests_cant": "Histories of assignments are unbounded.", "anchors": ["src/pymech/core.py::DataLims.__setattr__"]}
{"id": "C21", "title": "smallest_edge is the shortest edge", "statement": "Elem.smallest_edge returns the minimum of the lengths of the 4 (2D) or 12 (3D) edges of the element.", "quantifier": "every vertex position", "why_tests_cant": "Depends on which of many vertex pairs are compared; square test elements cannot tell.", "anchors": ["src/pymech/core.py::Elem.smallest_edge"]}
{"id": "C22", "title": "face_center is the centre of the numbered face", "statement": "Elem.face_center(i) is the mean of the four corner points of face i in Nek5000's numbering, for i in 0..5; any other face number raises.", "quantifier": "every element shape, every vertex position, every face number", "why_tests_cant": "Ranges over all elements and sizes.", "anchors": ["src/pymech/core.py::Elem.face_center"]}
{"id": "C23", "title": "check_connectivity accepts exactly the valid meshes", "statement": "check_connectivity returns True if and only if every 'E' or 'P' face names an existing element and face that carries the same condition and points back, with coinciding centres (within tol) for 'E'; it never returns False, and raises in all other cases.", "quantifier": "every mesh and tolerance", "why_tests_cant": "Quantifies over all meshes, valid or not.", "anchors": ["src/pymech/core.py::HexaData.check_connectivity"]}
{"id": "C24", "title": "check_bcs_present accepts exactly the fully specified meshes", "statement": "check_bcs_present returns True if and only if no face of any element in any field has an empty condition; otherwise it raises ValueError.", "quantifier": "every mesh", "why_tests_cant": "Quantifies over all meshes.", "anchors": ["src/pymech/core.py::HexaData.check_bcs_present"]}
{"id": "C25", "title": "merge appends the other mesh and touches nothing else", "statement": "After self.merge(other), nel, ncurv and elmap are the sums/concatenation, the geometry, curvature and fields of all elements are those of self followed by those of other; other is unchanged; meshes of different dimension or order raise ValueError and leave self unchanged. Meshes whose references are in range can always be merged, and the references of the result are in range.", "quantifier": "every pair of meshes", "why_tests_cant": "Quantifies over all pairs of meshes.", "anchors": ["src/pymech/core.py::HexaData.merge"]}
{"id": "C26", "title": "merge keeps connectivity valid", "statement": "If both meshes have valid connectivity (the same in all fields), no face of other is close to two faces of self, and periodic faces only meet periodic faces, then the merged mesh has valid connectivity, glued pairs are mutually connected 'E' faces, and the returned number is the number of glued pairs. For any two meshes, whichever faces meet: an entry of the result is the old one, or it connects the face to a face at the same place, or it is periodic and there were periodic faces.", "quantifier": "every pair of meshes and every order in which pairs are found", "why_tests_cant": "The re-linking of periodic partners depends on the whole history of previous gluings.", "anchors": ["src/pymech/core.py::HexaData.merge", "src/pymech/core.py::HexaData.offset_connectivity"]}
{"id": "C27", "title": "offset_connectivity shifts exactly the references above the threshold", "statement": "offset_connectivity(offset, iel_min) adds offset to every 'E'/'P' reference to an element with zero-based index at least iel_min and to the self-index of elements from iel_min on, and changes nothing else; shifting by offset and then back restores the mesh.", "quantifier": "every mesh, offset and threshold", "why_tests_cant": "Quantifies over all meshes and offsets.", "anchors": ["src/pymech/core.py::HexaData.offset_connectivity"]}
{"id": "C28", "title": "update_ncurv and get_points report the mesh", "statement": "After update_ncurv, ncurv is the number of edges with non-empty curvature type; get_points returns for every element all of its points, in order, each with its three coordinates.", "quantifier": "every mesh", "why_tests_cant": "Quantifies over all meshes.", "anchors": ["src/pymech/core.py::HexaData.update_ncurv", "src/pymech/core.py::HexaData.get_points"]}
{"id": "C29", "title": "delete_internal_bcs removes exactly the internal conditions", "statement": "delete_internal_bcs clears every 'E' condition of every field, changes no other condition and nothing else in the mesh, returns the number cleared, and a second call returns 0 and changes nothing.", "quantifier": "every mesh", "why_tests_cant": "Quantifies over all meshes.", "anchors": ["src/pymech/meshtools.py::delete_internal_bcs"]}
{"id": "C30", "title": "generate_internal_bcs connects faces mutually and only where they touch", "statement": "generate_internal_bcs changes only faces whose first-field condition was empty; each connected face is connected to exactly one face of another element, which points back, with centres within tol times the smaller element scale; so a mesh with valid connectivity keeps it.", "quantifier": "every mesh and tolerance", "why_tests_cant": "The greedy search with early exits depends on the order of all previous matches.", "anchors": ["src/pymech/meshtools.py::generate_internal_bcs"]}
{"id": "C31", "title": "generate_internal_bcs finds all connections and counts them", "statement": "After generate_internal_bcs no two unconnected faces of different elements are within tolerance, and the returned value is the number of connections made, each counted once per boundary condition field (so not the number of connected pairs when there are several fields).", "quantifier": "every mesh and number of fields", "why_tests_cant": "Completeness of a greedy search with early exits over all meshes.", "anchors": ["src/pymech/meshtools.py::generate_internal_bcs"]}
{"id": "C32", "title": "keep_elements extracts a valid sub-mesh", "statement": "keep_elements(mesh, elems, ext) keeps exactly the listed elements in increasing order; connections between kept elements are renumbered to the new positions, connections to removed elements become ext with references cleared, nothing else about the kept elements changes, and valid connectivity stays valid.", "quantifier": "every mesh and every set of distinct valid element numbers", "why_tests_cant": "Index renumbering over all subsets.", "anchors": ["src/pymech/meshtools.py::keep_elements"]}
{"id": "C33", "title": "Mesh operations keep the element map consistent", "statement": "After merge, extrude and keep_elements the element map is a permutation of 1..nel if it was one before, so that the mesh can be written with writenek.", "quantifier": "every mesh", "why_tests_cant": "Quantifies over all meshes and operation sequences.", "anchors": ["src/pymech/core.py::HexaData.merge", "src/pymech/meshtools.py::extrude", "src/pymech/meshtools.py::keep_elements"]}
{"id": "C34", "title": "extrude stacks copies of the 2D mesh", "statement": "extrude(mesh, z) has nel*(len(z)-1) elements; element i of layer k has the (x,y) vertices of element i at both ends, z[k] at the bottom and z[k+1] at the top, and the curvature of edges 0-3 on edges 0-3 and 4-7 with the midpoint z of 'm' edges set; meshes that are not 2D linear, or with one-sided periodicity, are rejected; ncurv is the number of curved edges.", "quantifier": "every 2D mesh and every list of z values", "why_tests_cant": "Quantifies over all meshes and layer counts.", "anchors": ["src/pymech/meshtools.py::extrude"]}
{"id": "C35", "title": "extrude builds valid connectivity", "statement": "If the 2D mesh has valid connectivity, extrude with internal_bcs=True and consistent end conditions gives a 3D mesh with valid connectivity: side faces connect within the layer, bottom and top faces connect to the adjacent layers, and the two ends carry bc1/bc2, connected to each other when periodic.", "quantifier": "every valid 2D mesh and every number of layers", "why_tests_cant": "Quantifies over all meshes and layer counts, including a single layer.", "anchors": ["src/pymech/meshtools.py::extrude"]}
{"id": "C36", "title": "extrude without internal conditions leaves none", "statement": "extrude(mesh, z, internal_bcs=False) returns a mesh without any internal 'E' condition.", "quantifier": "every 2D mesh and number of layers", "why_tests_cant": "Depends on the number of layers.", "anchors": ["src/pymech/meshtools.py::extrude", "src/pymech/meshtools.py::delete_internal_bcs"]}
{"id": "C37", "title": "gen_box tiles the rectangle", "statement": "gen_box(nx, ny, ...) has nx*ny elements; element i+nx*j is the cell (i,j) of the regular grid on [xmin,xmax]x[ymin,ymax], so neighbouring elements share their edge exactly; empty or inverted boxes are rejected.", "quantifier": "every nx, ny and every box", "why_tests_cant": "Quantifies over all grid sizes.", "anchors": ["src/pymech/meshtools.py::gen_box"]}
{"id": "C38", "title": "gen_box builds valid connectivity", "statement": "With internal_bcs=True and boundary conditions that are periodic on both or neither of opposite sides, the mesh made by gen_box has valid connectivity in every field and no face without a condition.", "quantifier": "every nx, ny >= 1, number of fields and boundary conditions", "why_tests_cant": "Quantifies over all grid sizes, including one-element-wide periodic boxes.", "anchors": ["src/pymech/meshtools.py::gen_box", "src/pymech/core.py::HexaData.check_connectivity"]}
{"id": "C39", "title": "rotate_2d rotates about the given axis", "statement": "rotate_2d(mesh, x0, y0, theta) maps every vertex and midpoint to its image under the rotation by theta about (x0, y0); distances are preserved and z is unchanged.", "quantifier": "every mesh, centre and angle", "why_tests_cant": "Quantifies over all centres; the tests only use (0, 0).", "anchors": ["src/pymech/meshtools.py::rotate_2d"]}
{"id": "C40", "title": "map2D maps every vertex and leaves its argument alone", "statement": "map2D returns a mesh whose vertices and edge midpoints are the images of those of the argument under the transformation; the argument is not modified.", "quantifier": "every mesh, curvature set and transformation", "why_tests_cant": "Quantifies over all meshes and all transformations; the tests rebind the variable.", "anchors": ["src/pymech/meshtools.py::map2D", "src/pymech/meshtools.py::edge_mid"]}
{"id": "C41", "title": "edge_mid returns the middle of the edge and does not modify the element", "statement": "For a straight edge edge_mid returns the midpoint of the end points; for a circular edge ('C' with radius r) the point of the circle arc equidistant from both ends; for an 'm' edge the stored midpoint; the element is unchanged.", "quantifier": "every element, edge and radius", "why_tests_cant": "Real geometry over all positions; aliasing with the element's arrays.", "anchors": ["src/pymech/meshtools.py::edge_mid"]}
{"id": "C42", "title": "edge_circle returns the circumscribed circle", "statement": "If the midpoint is not (nearly) aligned with the edge ends, edge_circle returns the centre of a circle through the two ends and the midpoint, and the absolute value of its radius.", "quantifier": "every element, edge and midpoint", "why_tests_cant": "Real geometry over all positions.", "anchors": ["src/pymech/meshtools.py::edge_circle"]}
{"id": "C43", "title": "exponential_refinement_parameter solves the spacing equation", "statement": "If the Newton iteration is stationary at the returned alpha outside the interval of approximation, then the lengths l0, alpha*l0, ..., alpha^(n-1)*l0 add up to ltot; for n >= 2 the iteration terminates.", "quantifier": "every l0, ltot, n and tol", "why_tests_cant": "Termination and exactness over all parameters.", "anchors": ["src/pymech/meshtools.py::exponential_refinement_parameter"]}
{"id": "C44", "title": "extrude_mid splits each element into six", "statement": "extrude_mid returns 6*nel*(nz/4) elements laid out as in its documentation, and raises ValueError unless nz is a multiple of 4 and the splitting function separates two corners from the other two in every element. With consistent end conditions its connectivity is reciprocal, connected internal faces share their vertices, the outer faces carry the given conditions, and the argument is not changed.", "quantifier": "every 2D mesh, z list, splitting function and pair of condition lists", "why_tests_cant": "Quantifies over all meshes and splitting functions.", "anchors": ["src/pymech/meshtools.py::extrude_mid"]}
{"id": "C45", "title": "extrude_refine honours its documented defaults", "statement": "extrude_refine with fun=None performs a simple extrusion, and funpar=None is equivalent to zeros; the number of layers must be a multiple of the refinement powers.", "quantifier": "every mesh and argument combination", "why_tests_cant": "Quantifies over argument combinations not covered by tests.", "anchors": ["src/pymech/meshtools.py::extrude_refine"]}
{"id": "C46", "title": "gen_circle builds a consistent disc", "statement": "gen_circle returns ns*ns + 4*no*ns elements, and ncurv equals the number of curved edges (4*ns).", "quantifier": "every ns, no >= 1", "why_tests_cant": "Quantifies over all sizes.", "anchors": ["src/pymech/meshtools.py::gen_circle"]}
{"id": "C47", "title": "readdns keeps every Fourier plane", "statement": "readdns stores each of the lr1[2] planes of the file into a different Fourier plane, so that no plane of the file is lost.", "quantifier": "every number of planes", "why_tests_cant": "Index arithmetic over all sizes; the test checks only metadata.", "anchors": ["src/pymech/simsonsuite.py::readdns"]}
{"id": "C48", "title": "readplane decodes plane files", "statement": "For every two-dimensional plane file in either byte order readplane returns the grid sizes, the coordinates and the data with the first index running fastest in the file; one- and three-dimensional files are read as well.", "quantifier": "every grid size, byte order and contents", "why_tests_cant": "Quantifies over all sizes and contents.", "anchors": ["src/pymech/simsonsuite.py::readplane"]}
{"id": "C49", "title": "hexa2vtk cells reference the right points", "statement": "For every 3D field, every cell produced by hexa2vtk references eight distinct points of its own element that are the corners of one sub-cell, all indices are within the point array, and the points carry the values of the field at the (down-sampled) grid points.", "quantifier": "every number of elements and polynomial order, with and without down-sampling", "why_tests_cant": "Index arithmetic over all sizes.", "anchors": ["src/pymech/vtksuite.py::hexa2vtk"]}
{"id": "C50", "title": "open_dataset only accepts Nek file extensions", "statement": "open_dataset treats a path as a Nek field file if and only if its extension is .f followed by five digits, or .fld.", "quantifier": "every path", "why_tests_cant": "Quantifies over all strings.", "anchors": ["src/pymech/dataset.py::can_open_nek_dataset", "src/pymech/dataset.py::open_dataset"]}
{"id": "C51", "title": "Dataset coordinates invert the mesh grid", "statement": "For an element whose points form a tensor-product grid with distinct coordinates (to 8 digits), the one-dimensional coordinates extracted by open_dataset are exactly the grid coordinates in increasing order.", "quantifier": "every grid size and coordinates", "why_tests_cant": "Quantifies over all grids.", "anchors": ["src/pymech/dataset.py::_NekDataStore.meshgrid_to_dim"]}
{"id": "C52", "title": "Default arguments do not leak between calls", "statement": "The mesh returned by gen_box() or gen_circle() with default arguments does not depend on what was done to meshes returned by earlier calls.", "quantifier": "every history of calls and of in-place changes to the returned meshes", "why_tests_cant": "Histories are unbounded.", "anchors": ["src/pymech/meshtools.py::gen_box", "src/pymech/meshtools.py::gen_circle"]}
{"id": "C53", "title": "hexa2vtk converts two-dimensional fields", "statement": "For every 2D field with positions the points of the VTK dataset are the grid points of the field and every quadrilateral refers to the four corners of one sub-cell.", "quantifier": "every 2D field", "why_tests_cant": "Quantifies over all fields; the tests convert 3D fields only.", "anchors": ["src/pymech/vtksuite.py::hexa2vtk"]}
{"id": "C54", "title": "hexa2vtk makes no spurious points", "statement": "The VTK dataset of a 3D field has exactly one point for every (down-sampled) grid point of every element.", "quantifier": "every number of elements and polynomial order, with and without down-sampling", "why_tests_cant": "Array sizes over all polynomial orders.", "anchors": ["src/pymech/vtksuite.py::hexa2vtk"]}
{"id": "C55", "title": "hexa2vtk offsets point at the cells", "statement": "The offset handed to VTK for each cell is the place in the cell array at which that cell begins.", "quantifier": "every 3D field and every cell", "why_tests_cant": "Index arithmetic over all sizes; recent VTK releases ignore the offsets, so no output shows an error.", "anchors": ["src/pymech/vtksuite.py::hexa2vtk"]}
{"id": "C56", "title": "Dataset values carry the coordinates of their own points", "statement": "In a dataset made by open_dataset from a box element, the value stored at indices (k, j, i) of every array is labelled with the x, y and z coordinates of the grid point it belongs to.", "quantifier": "every grid size, coordinates and direction in which the coordinates run", "why_tests_cant": "Quantifies over all grids, also those in which a coordinate decreases with its index; the sample files only hold increasing ones.", "anchors": ["src/pymech/dataset.py::_NekDataStore.meshgrid_to_dim", "src/pymech/dataset.py::_NekDataStore.get_variables"]}
{"id": "C57", "title": "Meshes that are not boxes are refused by open_dataset", "statement": "open_dataset raises NotImplementedError for every element whose points are not all the combinations of one list of x, one of y and one of z coordinates, with x along the last index and z along the first.", "quantifier": "every element", "why_tests_cant": "Quantifies over all deformed or turned elements.", "anchors": ["src/pymech/dataset.py::_open_nek_dataset", "src/pymech/dataset.py::_NekDataStore.get_variables"]}
{"id": "C58", "title": "edge_circle finds the radius of the arc that edge_mid halved", "statement": "For a circular edge in a plane of constant z, edge_circle applied to the middle returned by edge_mid returns the signed radius of the edge, unless the arc is nearly straight.", "quantifier": "every element, circular edge, radius and position", "why_tests_cant": "Real geometry over all positions and both signs of the radius.", "anchors": ["src/pymech/meshtools.py::edge_mid", "src/pymech/meshtools.py::edge_circle"]}
{"id": "C59", "title": "map2D keeps the count of curved edges right", "statement": "If ncurv is the number of curved edges of the argument of map2D, then it is the number of curved edges of its result.", "quantifier": "every 2D mesh, transformation and choice of curvature", "why_tests_cant": "Quantifies over all meshes; writerea writes ncurv next to all curved edges, so a wrong count corrupts the file.", "anchors": ["src/pymech/meshtools.py::map2D", "src/pymech/neksuite/mesh.py::writerea"]}
{"id": "C60", "title": "extrude_refine makes exactly the documented elements", "statement": "With splitting functions and parameters, every element of the 2D mesh belongs to the first function that is not positive in all its corners (inside if nowhere positive, in the middle otherwise), or to the outside. The new mesh has, in this order, the outside and for every function the inside and the middle part; the inside and outside parts are swept through every 2^|k - imesh_high|-th value of z, the middle part is cut into six elements for every four layers of its finer neighbour. No element is lost or made twice, the number of elements follows, the counter of curved edges is right. With internal_bcs the call returns whenever the number of layers is a multiple of the two documented powers, and every internal or periodic entry of the result names an existing face. Every condition of the result is that of the 2D side it was made of, the given one at the two ends, or internal between layers and pieces, unless the face has been connected to a face at the same place; a mark 'con' stands only on sides that connected two parts.", "quantifier": "every 2D mesh with reciprocal entries, every list of functions, parameters, imesh_high, z, and conditions for the ends, such that the middle elements can be cut", "why_tests_cant": "Functions, meshes and numbers of levels are unbounded; tests run one or two geometries.", "anchors": ["src/pymech/meshtools.py::extrude_refine", "src/pymech/meshtools.py::extrude_mid", "src/pymech/meshtools.py::keep_elements", "src/pymech/core.py::HexaData.merge"]}
{"id": "C61", "title": "internal_bcs=False leaves faces between elements without conditions", "statement": "With internal_bcs=False, extrude_refine returns a mesh in which no face is marked internal: every face has no condition, a condition of the 2D mesh other than internal, or the one given for an end. Faces between two elements carry no condition.", "quantifier": "every 2D mesh, list of splitting functions, z values and end conditions; every face of the result", "why_tests_cant": "Quantifies over all meshes and lines; which faces lie between elements depends on where the lines cut.", "anchors": ["src/pymech/meshtools.py::extrude_refine", "src/pymech/meshtools.py::extrude_mid", "src/pymech/meshtools.py::delete_internal_bcs", "src/pymech/meshtools.py::keep_elements", "src/pymech/core.py::HexaData.merge"]}
{"id": "C62", "title": "A torn SIMSON field is never read as a whole one", "statement": "If a SIMSON field file without passive scalars is cut anywhere before the end of its last row of numbers, readdns raises an exception: it returns neither a field nor an error code. If only what follows the last row is missing, the field is that of the whole file. The same content in the two byte orders gives the same field, but for the recorded byte order.", "quantifier": "every field content with at least one line per plane, every flow type, both byte orders, every position of the cut, every content of the bytes not looked at", "why_tests_cant": "A crash can cut the file at any byte and the layout depends on the flow type and on three sizes; tests cut a few files at a few places.", "anchors": ["src/pymech/simsonsuite.py::readdns"]}
{"id": "C63", "title": "SIMSON fields with passive scalars are read", "statement": "readdns reads a SIMSON field file with one or more passive scalars and puts each scalar in elem.scal.", "quantifier": "every number of scalars from 1 to 100, every Prandtl number of moderate size, every remaining content, both byte orders", "why_tests_cant": "The header's meaning depends on the bits of the Prandtl numbers; the code says this branch is not tested, and one file cannot tell whether other numbers would pass.", "anchors": ["src/pymech/simsonsuite.py::readdns"]}
{"id": "C64", "title": "Generating internal conditions undoes deleting them", "statement": "After delete_internal_bcs, generate_internal_bcs brings the mesh back exactly; a box made by gen_box without internal conditions becomes the box made with them, and the number reported is the number of inner sides of the grid, once for every field.", "quantifier": "every mesh whose internal conditions connect the inner faces lying at the same place; every box: number of cells, extent, fields, conditions, tolerance", "why_tests_cant": "The result depends on all pairs of faces and on distances compared with the tolerance and the size of the cells; a test fixes one mesh and one shape of cells.", "anchors": ["src/pymech/meshtools.py::delete_internal_bcs", "src/pymech/meshtools.py::generate_internal_bcs", "src/pymech/meshtools.py::gen_box"]}
{"id": "C65", "title": "readdns rebuilds the grid of the simulation", "statement": "The field read from a SIMSON file has the sizes, time and byte order of the file and the simulation's grid: x uniform from 0, z uniform and centred, y at the Chebyshev points between the walls, each coordinate to within five units of rounding.", "quantifier": "every file without passive scalars with at least two lines in y: sizes, box, displacement thickness, flow type, byte order; every point of the grid", "why_tests_cant": "A coordinate depends on three sizes, an index and a length read from binary data; a test looks at a few points of one file and with a tolerance.", "anchors": ["src/pymech/simsonsuite.py::readdns"]}
{"id": "C66", "title": "A mesh saved as re2 gets its internal conditions back", "statement": "A re2 file stores no internal conditions; writere2, readre2 and then generate_internal_bcs give back the shape, positions, curved edges and all boundary conditions of every element, and check_connectivity gives the same verdict as for the mesh that was saved.", "quantifier": "every mesh of linear elements whose internal conditions connect the inner faces lying at the same place and whose other conditions carry their own element and face numbers; every tolerance", "why_tests_cant": "Three operations interact: what the file leaves out must be exactly what the search puts back, for every mesh, number of fields and kind of condition.", "anchors": ["src/pymech/neksuite/mesh.py::writere2", "src/pymech/neksuite/mesh.py::readre2", "src/pymech/meshtools.py::generate_internal_bcs", "src/pymech/core.py::HexaData.check_connectivity"]}
{"id": "C67", "title": "The disc of gen_circle is completely and correctly connected", "statement": "In the mesh that gen_circle returns, the faces on the circle carry the boundary conditions that were asked for and every other face is internal: in every field it names a different face, which names it back, and the centres of the two faces coincide. check_connectivity accepts the mesh for every tolerance >= 0.", "quantifier": "every radius, every ratio s between 0 and 1, all numbers of elements, all curvature and spacing functions with the required ends that keep the layers in order, and all boundary conditions other than E and P, if the elements at the circle are at most 40 times as long as wide", "why_tests_cant": "The mesh is built by four merges that look for faces close to each other; whether they connect all the faces they should and no others depends on every size and on the two functions.", "anchors": ["src/pymech/meshtools.py::gen_circle", "src/pymech/core.py::HexaData.merge", "src/pymech/core.py::HexaData.check_connectivity", "src/pymech/meshtools.py::rotate_2d"]}
{"id": "C68", "title": "A pipe made by gen_circle and extrude is correctly connected", "statement": "Extruding the disc of gen_circle gives, for every list of at least two z coordinates, a mesh with one copy of the disc per layer in which the faces on the pipe wall carry the conditions of the circle in every layer, the two ends carry the conditions given to extrude, every other face is internal, and which check_connectivity accepts for every tolerance >= 0, however thin the layers are.", "quantifier": "every disc of C67, every list of z coordinates (in any order, with any spacing), all end conditions that are both periodic or both not", "why_tests_cant": "The mesh is the result of four merges, three rotations and an extrusion with free sizes, functions and conditions; a connection that is missed or wrong for one ratio of sizes would not show up in examples.", "anchors": ["src/pymech/meshtools.py::gen_circle", "src/pymech/meshtools.py::extrude", "src/pymech/core.py::HexaData.check_connectivity"]}
{"id": "C69", "title": "Printing a mesh shows what it contains", "statement": "repr of a mesh returns a text with its dimensions, word size, the true extrema of the coordinates, time, step, number of elements, and the centres of the first and the last element. The centre of an element is the mean of its points, so it lies between the extrema of the element, and for a linear element half way between opposite faces.", "quantifier": "every mesh, with any number of elements and any field values; every element shape", "why_tests_cant": "The text is computed from all points of all elements; the sample meshes of the tests all have several elements.", "anchors": ["src/pymech/core.py::HexaData.__repr__", "src/pymech/core.py::DataLims.__repr__", "src/pymech/core.py::Elem.__repr__", "src/pymech/core.py::Elem.centroid", "src/pymech/core.py::HexaData.lims"]}
{"id": "C70", "title": "Rotating a mesh does not change its connections", "statement": "For every angle, check_connectivity gives the same answer for a mesh and for the mesh turned by rotate_2d. Merging two turned meshes gives the turned merged mesh and the same number of connections; the same holds for generate_internal_bcs and delete_internal_bcs.", "quantifier": "every angle, every tolerance, all meshes with complete elements, with any sizes, conditions and curved edges", "why_tests_cant": "The operations compare distances of all pairs of faces; a dependence on the orientation would only show up for particular angles and meshes.", "anchors": ["src/pymech/meshtools.py::rotate_2d", "src/pymech/meshtools.py::generate_internal_bcs", "src/pymech/meshtools.py::delete_internal_bcs", "src/pymech/core.py::HexaData.merge", "src/pymech/core.py::HexaData.check_connectivity"]}
{"id": "C71", "title": "Curved edges of extrude_mid", "statement": "extrude_mid of a 2D mesh whose sides are straight or given by a point in the middle (type m): every edge of every new element is straight or of type m; sides that are not cut keep the shape they had; the two halves of a cut side depend on that side only, and lie on the parabola through its ends and its middle exactly if the middle is equidistant from the ends; the cut has its middle in the centre of the patch spanned by the four sides; edges in z are straight where the vertices are one above the other. Any two edges of the new mesh with the same ends are the same curve, if this holds for the sides of the 2D mesh.", "quantifier": "every 2D mesh of linear elements cut across two opposite sides, every splitting function, every pattern of bent sides, every number of groups of four layers with distinct z, every two edges of the result, over the reals and in float64", "why_tests_cant": "An edge belongs to up to a dozen new elements that write it separately, in four orientations and sixteen patterns of bent sides; a test looks at one mesh, and a mismatch makes a gap between elements that no check of pymech sees.", "anchors": ["src/pymech/meshtools.py::extrude_mid", "src/pymech/meshtools.py::edge_mid"]}
{"id": "C72", "title": "A written field opened as a dataset", "statement": "A field written with writenek and opened with open_dataset under a name with the extension of a field file gives one dataset for each element, in the order of the elements: its coordinates are those of the element, the variables xmesh, ymesh, zmesh, ux, uy, uz, and pressure, temperature, s01, s02, ... if the field has them, hold the values that were written (rounded to float32 if that was asked for, zero for a position or velocity component that is not stored), no two variables have the same name, and the time is that of the field to 14 digits.", "quantifier": "every two- or three-dimensional field of any number of elements, any polynomial order below 100, any element map, any set of stored variables, both precisions, both byte orders of writer and reader, whose elements are boxes with increasing coordinates", "why_tests_cant": "The path goes through a header, an element map, a byte order and a search for distinct coordinates; a test opens a few sample files and cannot cover all sizes, maps, variable sets and values.", "anchors": ["src/pymech/dataset.py::open_dataset", "src/pymech/dataset.py::_open_nek_dataset", "src/pymech/dataset.py::_NekDataStore", "src/pymech/neksuite/field.py::writenek", "src/pymech/neksuite/field.py::readnek"]}
{"id": "C73", "title": "Any history of operations keeps the connectivity valid", "statement": "From meshes whose connections are consistent, any sequence of merges, keep_elements, delete_internal_bcs and generate_internal_bcs, in any order and any number of times, makes a mesh that check_connectivity accepts, whose connected faces are paired in the same way in all fields, and on which each of these operations succeeds again.", "quantifier": "every set of meshes with valid connectivity and non-degenerate elements, every finite tree of operations on them (a merge joins the results of two histories), any numbers of elements, fields and steps; merges between meshes that fit together", "why_tests_cant": "Histories are unbounded: each operation renumbers or rewrites the connections that the next one relies on, and a test runs a few fixed sequences.", "anchors": ["src/pymech/core.py::HexaData.merge", "src/pymech/core.py::HexaData.check_connectivity", "src/pymech/meshtools.py::keep_elements", "src/pymech/meshtools.py::delete_internal_bcs", "src/pymech/meshtools.py::generate_internal_bcs"]}
{"id": "C74", "title": "Two boxes merged side by side are one box", "statement": "Merging the box [x1,x2]x[y0,y1] into the box [x0,x1]x[y0,y1], both made by gen_box with the same number of rows, glues as many faces as there are rows and gives the wide box: every cell is at its place, neighbours over the seam are connected to each other, the outer sides keep their conditions, and periodic left and right sides are connected around the wide box. With one step width the mesh is the one gen_box makes of the wide box, with other element numbers.", "quantifier": "all numbers of columns and rows, all extents, fields and conditions (the left and right sides of both boxes periodic or neither), every tolerance below half a step", "why_tests_cant": "Tests merge a few fixed meshes and count glued faces; that the merged mesh is the intended one, for all sizes and with the periodic partners of faces that disappear, needs an argument about all face pairs.", "anchors": ["src/pymech/core.py::HexaData.merge", "src/pymech/meshtools.py::gen_box"]}
{"id": "C75", "title": "The order of merging does not matter", "statement": "a.merge(b) and b.merge(a) glue the same number of faces and make the same mesh up to the numbers of the elements (those of the extended mesh come first): same geometry, same conditions on every face in every field, and connections, including the new partners of periodic faces, to the same faces.", "quantifier": "every pair of meshes with consistent connectivity that fit together (each face meets at most one face, periodic faces meet periodic faces, no edge of length 0), any sizes, numbers of fields and tolerances, with and without ignore_empty", "why_tests_cant": "A test compares one pair of meshes; the two calls run different double loops, rewrite different entries, and relink periodic faces in different orders.", "anchors": ["src/pymech/core.py::HexaData.merge", "src/pymech/core.py::HexaData.offset_connectivity"]}
{"id": "C76", "title": "Cutting a mesh in steps, not at all, or after a merge", "statement": "keep_elements applied twice gives the same mesh as keep_elements applied once to the elements that remain; with all the elements it gives the mesh back; and applied to the first elements of a merged mesh it undoes the merge, except that the glued faces carry the external condition.", "quantifier": "every well formed mesh, every list of element numbers without repetition in any order, any second list, every external condition that is not E or P; for the merge all pairs of meshes that fit together", "why_tests_cant": "Element numbers, connections and counters are rewritten by each call; agreement must hold for all subsets and all numberings.", "anchors": ["src/pymech/meshtools.py::keep_elements", "src/pymech/core.py::HexaData.merge"]}
{"id": "C77", "title": "A box of bricks made by gen_box and extrude", "statement": "Extruding the mesh of gen_box(nx, ny, ...) through positions z gives the nx x ny x (len(z)-1) box of bricks: brick number i + nx*j + nx*ny*k occupies the cell (i, j) between z[k] and z[k+1] with straight edges; every face between two bricks refers to the brick on its other side, the outer faces carry the conditions given for the sides and the ends, and periodic sides and ends refer to the opposite brick; check_connectivity accepts it with any tolerance, and check_bcs_present accepts it if no end condition is empty.", "quantifier": "all numbers of cells and layers, extents, positions z, numbers of fields and admissible conditions; float64 as well as real coordinates", "why_tests_cant": "The statement ranges over all sizes and all coordinates, where rounding decides whether neighbouring faces are found at the same place.", "anchors": ["src/pymech/meshtools.py::gen_box", "src/pymech/meshtools.py::extrude", "src/pymech/core.py::HexaData.check_connectivity"]}
{"id": "C78", "title": "Extruded meshes are good for any further operation", "statement": "Start from meshes whose connections are consistent and have edges of positive length (such as those of gen_box), and apply merge, keep_elements, delete_internal_bcs, generate_internal_bcs, rotate_2d and extrude in any order, any number of times, extruding only flat linear meshes through positions that differ from layer to layer with admissible end conditions: the result is again such a mesh, check_connectivity accepts it, and no admissible extrusion on the way raises.", "quantifier": "all histories of the six operations on all such meshes; real coordinates for the history, any arithmetic for the connections alone", "why_tests_cant": "The number of steps, the sizes and the coordinates are unbounded; each step must preserve what the next one needs.", "anchors": ["src/pymech/meshtools.py: extrude", "src/pymech/meshtools.py: rotate_2d", "src/pymech/meshtools.py: keep_elements", "src/pymech/meshtools.py: delete_internal_bcs", "src/pymech/meshtools.py: generate_internal_bcs", "src/pymech/core.py: HexaData.merge", "src/pymech/core.py: HexaData.check_connectivity"]}
{"id": "C79", "title": "The grouping of merges does not matter", "statement": "Let a, b and c be meshes with consistent connections and without periodic conditions, of which each face meets at most one face of the other two. Merging b into a and then c into the result, and merging c into b and then the result into a, both succeed, glue the same number of faces in total, and give the same mesh: the same elements in the same order with the same element map and header, the same conditions, and the same connections in all the fields.", "quantifier": "all such meshes, tolerances and choices of ignore_empty; float64 as well as real coordinates", "why_tests_cant": "It compares two different sequences of operations on all meshes of all sizes and in all positions to each other; the first merge changes what the second one may connect.", "anchors": ["src/pymech/core.py: HexaData.merge", "src/pymech/core.py: HexaData.offset_connectivity"]}
{"id": "C80", "title": "Mapping a conforming mesh keeps its connectivity valid", "statement": "If every internal side of a 2D mesh has the same two end points as the side it names, then map2D, with any transformation and any choice of curvature, succeeds and gives a mesh in which this is still so, in which every condition is as before, and which check_connectivity accepts with every non-negative tolerance. In particular a gen_box mesh, mapped by any transformation, has the images of the grid points as its vertices, is accepted, and is still accepted after it is extruded.", "quantifier": "all such meshes, all transformations of the plane, all choices of curvature, all tolerances, all sizes of boxes and all layers; float64 as well as real coordinates", "why_tests_cant": "The transformation is an arbitrary function given by the user; a test can only try some of them on some meshes, and rounding could move the two copies of a shared point apart.", "anchors": ["src/pymech/meshtools.py: map2D", "src/pymech/meshtools.py: gen_box", "src/pymech/meshtools.py: extrude", "src/pymech/core.py: HexaData.check_connectivity"]}
{"id": "C81", "title": "Mapping twice is mapping once by the composition", "statement": "map2D by f and then map2D of the result by g gives the same mesh as one map2D by the composition of f and g, and the calls have the same effect on the argument. Mapping by the identity gives back a mesh without curved edges other than midpoints, when no curvature is asked for; so mapping by a transformation and then by its inverse gives back the mesh.", "quantifier": "all meshes, all transformations of the plane, all choices of curvature for composition; any arithmetic, so float64 as well as real coordinates", "why_tests_cant": "The transformations are arbitrary functions given by the user, and the equality is exact, for all meshes and curved edges.", "anchors": ["src/pymech/meshtools.py::map2D"]}
{"id": "C82", "title": "Rotations add up", "statement": "Turning a mesh by rotate_2d by a and then by b gives the same mesh as turning it by a + b; so the order of two rotations does not matter, whole turns change nothing, and turning back gives back the mesh. For a flat mesh without arcs, rotate_2d is map2D by the rotation formula, bit for bit.", "quantifier": "all angles, all meshes with complete elements (real coordinates for the sums; any arithmetic for the last claim)", "why_tests_cant": "It is an equality for all angles and all meshes; a test sees only rounded results for a few angles.", "anchors": ["src/pymech/meshtools.py::rotate_2d", "src/pymech/meshtools.py::map2D"]}
{"id": "C83", "title": "Rotating commutes with extruding and with keeping elements", "statement": "Extruding the mesh turned by rotate_2d gives the turned extruded mesh, and keeping elements of the turned mesh gives the turned mesh of the kept elements, with the same coordinates, curved edges, conditions and header; if one raises, the other raises the same exception.", "quantifier": "every angle, all meshes with complete elements (of four points, for extrude), all layers, all conditions at the ends, with or without internal connections, all lists of kept elements and all conditions for the new boundary", "why_tests_cant": "It compares two orders of operations for all meshes, angles and arguments.", "anchors": ["src/pymech/meshtools.py::rotate_2d", "src/pymech/meshtools.py::extrude", "src/pymech/meshtools.py::keep_elements"]}
