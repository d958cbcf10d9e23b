{
 "claims": [
  {
   "property": "C01",
   "status": "proved",
   "theorems": [
    "C01_float64_round_trip"
   ],
   "note": "Any sizes, orders, element map permutation, byte orders and bit patterns that fit the header columns (field_mesh)."
  },
  {
   "property": "C02",
   "status": "proved",
   "theorems": [
    "C02_float32_round_trip"
   ],
   "note": "nearest32 states round to nearest even, overflow, infinities and NaNs; the second trip returns identical values."
  },
  {
   "property": "C03",
   "status": "proved",
   "theorems": [
    "C03_header_round_trip"
   ],
   "note": "header_fits are the column widths; a header with no variable at all cannot be read (C03_no_variables)."
  },
  {
   "property": "C04",
   "status": "proved",
   "theorems": [
    "C04_time_14_digits",
    "C04_short_time_exact",
    "C04_time_stable"
   ],
   "note": "Decimal number with 14 digits within half a unit of the last; the number read back is the nearest float64 to it."
  },
  {
   "property": "C05",
   "status": "proved",
   "theorems": [
    "C05_endian_neutral"
   ],
   "note": "Both machines' byte orders, any endian string."
  },
  {
   "property": "C06",
   "status": "partial",
   "theorems": [
    "C06_skip_vars_partial",
    "C06_skip_last_partial",
    "C06_refuted"
   ],
   "note": "Proved for files that hold all the elements, and for partial files when nothing is read after a quantity that is left out. Otherwise false for partial files (nb_elems_file < nb_elems): the reader skips nb_elems blocks; C06_refuted."
  },
  {
   "property": "C07",
   "status": "proved",
   "theorems": [
    "C07_element_map",
    "C07_order_irrelevant"
   ],
   "note": "Any valid file followed by anything; maps with zeros are read in storage order."
  },
  {
   "property": "C08",
   "status": "proved",
   "theorems": [
    "C08_torn",
    "C08_torn_written"
   ],
   "note": "Every proper prefix that ends before the end of the field data is rejected."
  },
  {
   "property": "C09",
   "status": "partial",
   "theorems": [
    "C09_refuted",
    "C09_re2_rejected",
    "C09_re2_accepted"
   ],
   "note": "writere2: proved. writenek: false: the file is opened for writing (and emptied) before the word size is validated. Shown for every mesh with another word size."
  },
  {
   "property": "C10",
   "status": "partial",
   "theorems": [
    "C10_float32_rewritten_partial",
    "C10_refuted"
   ],
   "note": "Holds for files of word size 4; false for word size 8 (C10_refuted)."
  },
  {
   "property": "C11",
   "status": "proved",
   "theorems": [
    "C11_re2_round_trip"
   ],
   "note": "For the machine's own byte order (the other one is C12) and fewer than 10^8 elements (C11_header_limit). A mesh without fields comes back with one field of empty conditions (C11_no_fields_refuted)."
  },
  {
   "property": "C12",
   "status": "partial",
   "theorems": [
    "C12_foreign_order_partial",
    "C12_foreign_order_lost",
    "C12_refuted"
   ],
   "note": "Exact characterisation: the foreign file is read back if and only if the mesh has no curved edge and no external condition; the counts are read in the machine's byte order."
  },
  {
   "property": "C13",
   "status": "partial",
   "theorems": [
    "C13_torn_partial",
    "C13_torn_between_fields",
    "C13_refuted"
   ],
   "note": "Every proper prefix is rejected but those that end where the table of a field begins; these are read as the mesh with the earlier fields only."
  },
  {
   "property": "C14",
   "status": "proved",
   "theorems": [
    "C14_fixed_point"
   ],
   "note": ""
  },
  {
   "property": "C15",
   "status": "proved",
   "theorems": [
    "C15_rea_round_trip",
    "C15_short_numbers_exact"
   ],
   "note": "For meshes with consistent arrays, at least one field, an up to date ncurv, types of at most 2 characters and numbers that fit their columns. Types: a condition without type must have no connected element and one of type E must have one; otherwise the type changes (C15_inconsistent_types_refuted)."
  },
  {
   "property": "C16",
   "status": "partial",
   "theorems": [
    "C16_only_empty_types_change_partial",
    "C16_typed_mesh_unchanged_partial",
    "C16_mesh_changed_refuted"
   ],
   "note": "False of the code: conditions without type become E in the caller's mesh. Proved: nothing else changes, and a mesh without such conditions is left alone."
  },
  {
   "property": "C17",
   "status": "partial",
   "theorems": [
    "C17_readable_partial",
    "C17_unreadable_refuted"
   ],
   "note": "False of the code for meshes without fields, with an out of date ncurv, with types of 3 characters, and with negative coordinates whose exponent has 3 digits (C17_unreadable_refuted); proved for the other well formed meshes."
  },
  {
   "property": "C18",
   "status": "proved",
   "theorems": [
    "C18_readma2",
    "C18_exact",
    "C18_torn"
   ],
   "note": "For at least one element and fewer than 2^53 vertices; for no elements the code divides by zero."
  },
  {
   "property": "C19",
   "status": "partial",
   "theorems": [
    "C19_lims_are_extrema_partial",
    "C19_single_element_refuted",
    "C19_fewer_than_two_raise"
   ],
   "note": "Proved for meshes of at least two elements without NaN. The code raises TypeError for a single element (C19_single_element_refuted), so the full property is false of the code."
  },
  {
   "property": "C20",
   "status": "proved",
   "theorems": [
    "C20_lims_immutable",
    "C20_del_reopens"
   ],
   "note": "Immutability holds for attribute assignment; del of the private _initialized attribute reopens the object (C20_del_reopens)."
  },
  {
   "property": "C21",
   "status": "partial",
   "theorems": [
    "C21_smallest_measured",
    "C21_smallest_edge_partial",
    "C21_smallest_edge_refuted"
   ],
   "note": "The code measures two diagonals instead of two edges. C21_smallest_measured states exactly what is measured; equality with the shortest edge is proved for boxes and refuted in general."
  },
  {
   "property": "C22",
   "status": "proved",
   "theorems": [
    "C22_face_center",
    "C22_other_faces_raise"
   ],
   "note": ""
  },
  {
   "property": "C23",
   "status": "proved",
   "theorems": [
    "C23_check_connectivity_iff",
    "C23_never_false",
    "C23_check_connectivity_float64",
    "C23_nan_refuted"
   ],
   "note": "Exact characterisation for all well-formed meshes. C23_nan_refuted: with NaN coordinates misplaced internal faces are accepted, so the 'at most' form needs the no-NaN hypothesis of C23_check_connectivity_float64."
  },
  {
   "property": "C24",
   "status": "proved",
   "theorems": [
    "C24_check_bcs_present_iff"
   ],
   "note": ""
  },
  {
   "property": "C25",
   "status": "proved",
   "theorems": [
    "C25_merge_appends",
    "C25_ignore_all_bcs",
    "C25_merge_rejects",
    "C25_merge_returns"
   ],
   "note": ""
  },
  {
   "property": "C26",
   "status": "proved",
   "theorems": [
    "C26_merge_glues",
    "C26_merge_valid",
    "C26_merge_connected",
    "C26_periodic_meets_wall_refuted",
    "C26_merge_types"
   ],
   "note": "For meshes whose connections are consistent and the same in all fields, with each face meeting at most one face and periodic faces meeting periodic faces; C26_periodic_meets_wall_refuted shows that last hypothesis is needed. The new partner of a periodic face whose partner was glued is specified too: the face it leads to over the glued faces."
  },
  {
   "property": "C27",
   "status": "proved",
   "theorems": [
    "C27_offset_shifts_exactly",
    "C27_offset_roundtrip"
   ],
   "note": "References up to 2^53 (exact in float64). The round trip is for offset >= 0."
  },
  {
   "property": "C28",
   "status": "proved",
   "theorems": [
    "C28_update_ncurv",
    "C28_get_points"
   ],
   "note": ""
  },
  {
   "property": "C29",
   "status": "proved",
   "theorems": [
    "C29_delete_internal"
   ],
   "note": ""
  },
  {
   "property": "C30",
   "status": "proved",
   "theorems": [
    "C30_generate_internal_bcs",
    "C30_keeps_valid",
    "C30_zero_edge_rejected"
   ],
   "note": "Validity is kept if faces open in the first field are not connected in another field and no element scale is NaN."
  },
  {
   "property": "C31",
   "status": "proved",
   "theorems": [
    "C31_complete_and_counted",
    "C30_generate_internal_bcs",
    "C31_pairs_counted_per_field_refuted"
   ],
   "note": "The returned number is the number of pairs times nbc; C31_pairs_counted_per_field_refuted shows it is not the number of connected pairs with two fields."
  },
  {
   "property": "C32",
   "status": "proved",
   "theorems": [
    "C32_keep_elements",
    "C32_order",
    "C32_numbers",
    "C32_keep_valid",
    "C32_invalid_number_rejected",
    "C32_repeated_refuted"
   ],
   "note": "For lists of distinct element numbers. C32_repeated_refuted: with a repeated number the connectivity comes out wrong."
  },
  {
   "property": "C33",
   "status": "partial",
   "theorems": [
    "C33_merge_elmap",
    "C33_extrude_elmap_refuted",
    "C33_keep_elmap_refuted"
   ],
   "note": "Proved for merge; false of the code for extrude and keep_elements."
  },
  {
   "property": "C34",
   "status": "proved",
   "theorems": [
    "C34_extrude_stack",
    "C34_ncurv",
    "C34_extrude_rejects"
   ],
   "note": "ncurv is right when it was right in 2D and edges 4-11 of the 2D elements are empty. Lists of fewer than two z values are outside the model."
  },
  {
   "property": "C35",
   "status": "partial",
   "theorems": [
    "C35_extrude_faces",
    "C35_extrude_valid",
    "C35_extrude_valid_float64",
    "C35_extrude_valid_iff_real",
    "C35_extrude_valid_thick_real",
    "C35_thin_layers_refuted"
   ],
   "note": "Proved for meshes whose connected faces coincide exactly (as gen_box builds them). For faces that are only close the layer thickness matters (C35_thin_layers_refuted); over the real numbers C35_extrude_valid_iff_real says exactly when the result passes the check, and C35_extrude_valid_thick_real that it does for every valid planar 2D mesh if no layer is thinner than the measured edges."
  },
  {
   "property": "C36",
   "status": "partial",
   "theorems": [
    "C36_single_layer_partial",
    "C36_several_layers_refuted"
   ],
   "note": "False of the code for more than one layer: only the first layer is cleared."
  },
  {
   "property": "C37",
   "status": "proved",
   "theorems": [
    "C37_gen_box_grid",
    "C37_grid_tiles",
    "C37_empty_rejected"
   ],
   "note": "Grid for every arithmetic (float64 included, neighbouring cells share the same numbers); tiling of the interval over the reals."
  },
  {
   "property": "C38",
   "status": "proved",
   "theorems": [
    "C38_gen_box_faces",
    "C38_gen_box_valid",
    "C38_gen_box_valid_float64",
    "C38_no_internal",
    "C38_one_sided_periodic_refuted"
   ],
   "note": "C38_one_sided_periodic_refuted: gen_box accepts one-sided periodicity, hence the hypothesis 'periodic on both or neither side'."
  },
  {
   "property": "C39",
   "status": "partial",
   "theorems": [
    "C39_origin_partial",
    "C39_distances",
    "C39_centre_refuted"
   ],
   "note": "The centre is ignored: proved for the centre (0, 0) over the real numbers with exact sine and cosine; for any other centre and any angle that is not a full turn no point at all is where it should be."
  },
  {
   "property": "C40",
   "status": "partial",
   "theorems": [
    "C40_mapped_partial",
    "C40_argument_kept_partial",
    "C40_argument_changed_refuted",
    "C40_no_conditions_refuted"
   ],
   "note": "Proved for elements with conditions, in any arithmetic: the result. The argument is left alone if it has no circular edges; otherwise each of them loses its radius. With curvature=False a mesh with nbc = 0 raises IndexError."
  },
  {
   "property": "C41",
   "status": "partial",
   "theorems": [
    "C41_straight",
    "C41_stored",
    "C41_arc_partial",
    "C41_sphere",
    "C41_unchanged_partial",
    "C41_changed_refuted"
   ],
   "note": "Over the real numbers, the values are right; but the middle of a circular edge is written over its radius."
  },
  {
   "property": "C42",
   "status": "proved",
   "theorems": [
    "C42_circle",
    "C42_aligned",
    "C42_changed_refuted"
   ],
   "note": "Over the real numbers, with the sign of the radius. C42_changed_refuted notes that the element is changed too, which the property does not speak of."
  },
  {
   "property": "C43",
   "status": "proved",
   "theorems": [
    "C43_stationary",
    "C43_converged",
    "C43_uniform",
    "C43_one_element_refuted"
   ],
   "note": "Over the real numbers: the residual of the returned factor, and the factor 1 for uniform elements. C43_one_element_refuted notes that one element always raises."
  },
  {
   "property": "C44",
   "status": "partial",
   "theorems": [
    "C44_elements",
    "C44_faces",
    "C44_faces_float64",
    "C44_valid_real",
    "C44_rejects",
    "C44_uncut_rejected",
    "C44_diagonal_refuted",
    "C44_connected_side_refuted",
    "C44_arc_refuted",
    "C44_s_refuted"
   ],
   "note": "Proved for every number arithmetic with exact small integers (so for float64 and the reals): the positions of the six elements per element and four layers, the numbering, the count of curved edges, the reciprocity and types of all face entries, and that internal faces share their four vertices; over the reals the result passes check_connectivity. Hypotheses: the cut goes through two opposite sides, the other two sides are not connected, and no arc among the sides or only four layers. Each of these is shown to be needed by a refutation. The shape of curved edges is the subject of C71. Missing: no layer at all."
  },
  {
   "property": "C45",
   "status": "partial",
   "theorems": [
    "C45_rejects",
    "C45_fun_none_refuted",
    "C45_funpar_none_refuted",
    "C45_no_functions_refuted"
   ],
   "note": "The documented defaults are refuted for every mesh: fun=None and funpar=None never return, and an empty list of functions rejects an odd number of layers that extrude accepts. The rejection of a wrong number of layers is proved. What is made with functions and parameters is C60."
  },
  {
   "property": "C46",
   "status": "partial",
   "theorems": [
    "C46_elements",
    "C46_returns",
    "C46_ncurv_refuted",
    "C46_places",
    "C46_conforming",
    "C46_default_ends",
    "C46_default_one_layer_refuted"
   ],
   "note": "The elements are proved in any arithmetic, their places over the real numbers. The counter of curved edges is always 0, so that half is refuted. The default spacing raises for one layer. For the connections see C67."
  },
  {
   "property": "C47",
   "status": "partial",
   "theorems": [
    "C47_plane_lost_refuted",
    "C47_planes_distinct_iff",
    "C47_kept_partial"
   ],
   "note": "False of the code: with three or more planes one plane of the file never reaches the result (C47_plane_lost_refuted), and the places of the planes differ only for at most two planes. Proved: which planes reach the transform. For files with passive scalars see C63. The transform is a parameter."
  },
  {
   "property": "C48",
   "status": "partial",
   "theorems": [
    "C48_readplane",
    "C48_torn",
    "C48_1d_3d_refuted",
    "C48_1d_3d_raise_refuted"
   ],
   "note": "Two-dimensional files in full. The last clause is false of the code: files of one or three dimensions raise an exception."
  },
  {
   "property": "C49",
   "status": "proved",
   "theorems": [
    "C49_hexa2vtk",
    "C49_cells_once",
    "C49_corners"
   ],
   "note": "For fields with at least two points in each direction, with and without down-sampling."
  },
  {
   "property": "C50",
   "status": "partial",
   "theorems": [
    "C50_opened_iff_partial",
    "C50_not_opened_partial",
    "C50_accepted_partial",
    "C50_other_extension_refuted",
    "C50_line_break_refuted"
   ],
   "note": "False as stated: nothing may follow the extension, but the pattern is not anchored at the end, so x.f00001.bak is opened; and a line break in the path makes a right extension fail. Proved: the exact set of accepted paths, that all others raise NotImplementedError, and that right extensions without line break are accepted."
  },
  {
   "property": "C51",
   "status": "proved",
   "theorems": [
    "C51_coordinates",
    "C51_separated"
   ],
   "note": "C51_separated replaces the hypothesis about rounding by: coordinates at most 2^20, at least 2e-8 apart. NaN and numbers over 2^990 are excluded."
  },
  {
   "property": "C52",
   "status": "partial",
   "theorems": [
    "C52_default_calls_agree_partial",
    "C52_default_leak_refuted"
   ],
   "note": "False of the code: the default var list is shared and kept by reference. Proved for callers that do not assign to items of mesh.var."
  },
  {
   "property": "C53",
   "status": "partial",
   "theorems": [
    "C53_two_dimensions_refuted"
   ],
   "note": "False of the code: positions are copied and cells are set only when there are three position components, which a 2D field never has. The theorem says what comes out instead, for every 2D field."
  },
  {
   "property": "C54",
   "status": "partial",
   "theorems": [
    "C54_points_iff",
    "C54_spurious_points_refuted"
   ],
   "note": "False of the code for more than two points in some direction, true otherwise (C54_points_iff is exact)."
  },
  {
   "property": "C55",
   "status": "partial",
   "theorems": [
    "C55_offsets_refuted"
   ],
   "note": "False of the code for every cell but the first: the offsets leave out the vertex counts."
  },
  {
   "property": "C56",
   "status": "partial",
   "theorems": [
    "C56_labels_partial",
    "C56_labels_refuted"
   ],
   "note": "True exactly when all three coordinates increase with their indices: proved in that case, and refuted for every grid for which it does not hold."
  },
  {
   "property": "C57",
   "status": "partial",
   "theorems": [
    "C57_not_box_partial",
    "C57_box_refuted"
   ],
   "note": "Only the number of different coordinates in each direction is checked. Proved: an element with a wrong number is refused. Refuted: an element with x along the second index is opened."
  },
  {
   "property": "C58",
   "status": "proved",
   "theorems": [
    "C58_radius_found"
   ],
   "note": "Over the real numbers."
  },
  {
   "property": "C59",
   "status": "partial",
   "theorems": [
    "C59_map2D_refuted"
   ],
   "note": "False of the code: ncurv is not updated; refuted for every mesh without curved edges when curvature is on."
  },
  {
   "property": "C60",
   "status": "proved",
   "theorems": [
    "C60_elements",
    "C60_returns",
    "C60_conditions"
   ],
   "note": "In any arithmetic with exact small integers, ordered numbers and zero, so for float64 and the reals. The middle elements must be cut through two opposite sides and have no circular arcs (C44 shows why). C60_elements and C60_returns hold for both values of internal_bcs (for False, C60_returns needs that the unused faces 5 and 6 of the 2D mesh are not periodic); what its conditions are is proved for internal_bcs=True here, C61 has the other value. C60_conditions gives the type of every entry, or a face at the same place within the tolerance of merge to which it was connected; that the parts fit together everywhere is not claimed."
  },
  {
   "property": "C61",
   "status": "partial",
   "theorems": [
    "C61_refine_types",
    "C61_refine_no_internal",
    "C61_walls_inside_refuted",
    "C61_refine_walls_inside_refuted"
   ],
   "note": "That no face is marked internal, and which types can occur, is proved for every mesh and every arithmetic. That faces between elements carry no condition is refuted: extrude_mid leaves the conditions of the uncut sides on the faces between the six elements (general theorem), so extrude_refine does it if an element at the boundary is cut (example)."
  },
  {
   "property": "C62",
   "status": "proved",
   "theorems": [
    "C62_torn_raises",
    "C62_read_iff",
    "C62_byte_order"
   ],
   "note": "For every content, flow type, byte order and position of the cut. The Fourier transform and the cosine are parameters. Files with no line at all (ny = 0) are excluded: they have no last row."
  },
  {
   "property": "C63",
   "status": "partial",
   "theorems": [
    "C63_scalars_refuted"
   ],
   "note": "False of the code: the eight bytes of the first Prandtl number are assigned to an array of floats before they are unpacked, so numpy takes them for the text of a number and raises ValueError. Proved for every number of scalars and every Prandtl number between 2^-15 and 2^17 in magnitude."
  },
  {
   "property": "C64",
   "status": "partial",
   "theorems": [
    "C64_restored",
    "C64_box",
    "C64_flat_refuted"
   ],
   "note": "Proved for every mesh whose internal conditions connect exactly the inner faces within the tolerance of each other, in every arithmetic with the stated laws; gen_box's meshes are shown to be such over the reals when tolerance * dx < dy. Without that condition it is false: the tolerance is scaled by smallest_edge, which is dx for a two-dimensional cell (C21), so flat cells are connected to the wrong neighbour (concrete mesh)."
  },
  {
   "property": "C65",
   "status": "proved",
   "theorems": [
    "C65_grid",
    "C65_one_line_nan"
   ],
   "note": "For every file, size, length far from the limits of the format and grid point. pi and the cosine are parameters; the cosine is assumed to return finite numbers between -1 and 1. With a single line in y, which the statement excludes, pi is divided by zero and all y coordinates are nan (C65_one_line_nan)."
  },
  {
   "property": "C66",
   "status": "proved",
   "theorems": [
    "C66_reload"
   ],
   "note": "For every mesh that meets the stated conditions, in float64 arithmetic, in the machine's byte order (for the other one see C12)."
  },
  {
   "property": "C67",
   "status": "proved",
   "theorems": [
    "C67_joined",
    "C67_usual"
   ],
   "note": "Over the reals (in floating point the corners of two blocks agree only up to rounding), with internal_bcs=True and given functions. C67_usual: the condition on the outer elements holds whenever ns < 20, s < 19/20 and the curvature lies between 0 and 1."
  },
  {
   "property": "C68",
   "status": "proved",
   "theorems": [
    "C68_pipe"
   ],
   "note": "Over the reals, under the conditions of C67_joined (given functions, internal_bcs=True)."
  },
  {
   "property": "C69",
   "status": "partial",
   "theorems": [
    "C69_shown",
    "C69_small_refuted",
    "C69_centroid_between",
    "C69_centroid_faces"
   ],
   "note": "False of the code for meshes with at most one element: lims raises TypeError (C19), so they cannot be printed; shown for every such mesh. Proved for the others, in float64 arithmetic; the centre over the reals. How Python prints a number is a parameter."
  },
  {
   "property": "C70",
   "status": "proved",
   "theorems": [
    "C70_check",
    "C70_merge",
    "C70_generate"
   ],
   "note": "Over the reals (in floating point a distance right at the tolerance may be rounded to the other side), including the exceptions."
  },
  {
   "property": "C71",
   "status": "proved",
   "theorems": [
    "C71_shape",
    "C71_fit",
    "C71_fit_float64",
    "C71_halves_real",
    "C71_cut_real"
   ],
   "note": "C71_shape in every arithmetic; C71_fit in every arithmetic with exact small integers, so for float64 and the reals. Elements must be cut through two opposite sides (C44 shows why) and have no circular arcs. The sides of the 2D mesh must agree with each other, cut points must not coincide with corners or with those of other sides, and no element may have its corners among those of another."
  },
  {
   "property": "C72",
   "status": "proved",
   "theorems": [
    "C72_written_field_opened",
    "C72_names"
   ],
   "note": "For elements that are boxes with increasing coordinates at least 2e-8 apart and not larger than a million (C56 and C57 show what happens otherwise). What xarray makes of the datasets of the elements is not modelled."
  },
  {
   "property": "C73",
   "status": "proved",
   "theorems": [
    "C73_history",
    "C73_history_float64",
    "C73_progress",
    "C73_box"
   ],
   "note": "In every arithmetic with exact small integers, so for float64 and the reals. Merges must be between meshes of which each face meets at most one face of the other and periodic faces meet periodic faces (C26 shows why). C73_box, over the reals: the boxes of gen_box are meshes to start from."
  },
  {
   "property": "C74",
   "status": "proved",
   "theorems": [
    "C74_wide_box",
    "C74_as_generated"
   ],
   "note": "Over the real numbers; the boxes share the side x = x1 and the rows, the tolerance is less than half and less than dy over the smaller dx."
  },
  {
   "property": "C75",
   "status": "proved",
   "theorems": [
    "C75_merge_order",
    "C75_merge_order_float64"
   ],
   "note": "In every arithmetic with exact small integers and symmetric distances, so for float64 and the reals. The hypotheses on the meshes are those of C26, and that no element has an edge of length 0."
  },
  {
   "property": "C76",
   "status": "proved",
   "theorems": [
    "C76_keep_twice",
    "C76_keep_all",
    "C76_merge_undone"
   ],
   "note": "In every arithmetic with exact small integers. The mesh given back by C76_keep_all needs right counters (ncurv and the element numbers in the conditions), since keep_elements recomputes them. elmap is left out: keep_elements does not reduce it (C33). For two dimensions the two unused places of a row of conditions are left out. For a periodic face that was not glued C76_merge_undone says that it is periodic or external."
  },
  {
   "property": "C77",
   "status": "proved",
   "theorems": [
    "C77_bricks",
    "C77_bricks_float64"
   ],
   "note": "For any arithmetic with the stated laws, and for float64 with up to 2^53 bricks."
  },
  {
   "property": "C78",
   "status": "proved",
   "theorems": [
    "C78_history",
    "C78_progress",
    "C78_extrude_connected",
    "C78_box"
   ],
   "note": "Real coordinates; C78_extrude_connected for any arithmetic with the stated laws. The admissible operations are those of MadeSpec.v: faces that are connected must be close enough for the thinnest layer, which C35 shows to be necessary."
  },
  {
   "property": "C79",
   "status": "proved",
   "theorems": [
    "C79_grouping",
    "C79_grouping_float64"
   ],
   "note": "In every arithmetic with exact small integers; float64 with up to 2^53 elements. Meshes with periodic conditions are outside the statement."
  },
  {
   "property": "C80",
   "status": "proved",
   "theorems": [
    "C80_map_valid",
    "C80_map_valid_real",
    "C80_box_map_extrude",
    "C80_box_map_extrude_float64"
   ],
   "note": "For any arithmetic with the stated laws, and float64 with up to 2^53 elements, the shared ends are in the same order on both sides (as in every gen_box mesh); over the reals they may be in either order. The transformation is a function on numbers that neither raises nor has other effects."
  },
  {
   "property": "C81",
   "status": "proved",
   "theorems": [
    "C81_composition",
    "C81_identity",
    "C81_undone"
   ],
   "note": "In any arithmetic. The transformations are functions on numbers that neither raise nor have other effects."
  },
  {
   "property": "C82",
   "status": "proved",
   "theorems": [
    "C82_sum",
    "C82_order",
    "C82_full_turns",
    "C82_back",
    "C82_as_map"
   ],
   "note": "Sums over the reals (in floating point they hold up to rounding only); C82_as_map in any arithmetic."
  },
  {
   "property": "C83",
   "status": "proved",
   "theorems": [
    "C83_extrude",
    "C83_keep"
   ],
   "note": "Over the reals, including the exceptions. extrude with fewer than two z values is outside the model."
  }
 ]
}