# Formal model of eX-Mech/pymech in Rocq (Coq 8.16.1)

Sources modelled: `/repo/src/pymech` (`core.py`, `meshtools.py`, `neksuite/field.py`,
`neksuite/mesh.py`, `neksuite/map.py`, `simsonsuite.py`, `vtksuite.py`, `dataset.py`).
Properties: `properties.jsonl`; theorem index: `MANIFEST.json`; wrong-program experiments:
`seeded/LOG.jsonl`.

## 1. Method

* Shallow embedding: each Python function becomes a total, computable Gallina function that
  mirrors it branch by branch. Exceptions are values (`res A := Ok a | Raise e`), loops are
  folds over the same index sequences (`range`, `itertools.product`), in the same order.
* A function that mutates its argument in Python returns the new argument; where the state
  *after a failure* matters (files, merge) the function returns state and outcome.
* Bytes and text are `list ascii` / `string`; files are byte lists; `read(n)` on a short file
  returns fewer bytes, exactly as Python does, and the callers' `struct.unpack` /
  `np.frombuffer` length checks are modelled.
* Numbers in files are Flocq's `binary64` / `binary32` with NaN payloads, so that "bit for bit"
  means what it says.
* Mesh code is generic over a record `arith` (number type and its operations). It is
  instantiated with Flocq's binary64 (round to nearest even: what numpy computes) and with the
  real numbers (what the geometry means). Theorems about indices and connectivity are proved
  for every `arith` satisfying a small law record, and both instances are proved to satisfy it.
* For each area: model file(s) `*_model`, a small specification file that speaks about
  observable fields only (`*Spec`), proof files, and `P_*.v` files with the property theorems,
  each with `Print Assumptions` and an `Example` that meets its hypotheses.
* Where the code violates a property of the list, the violation is proved: `…_refuted` is a
  theorem exhibiting an input, and `…_partial` is the strongest guarded statement that holds.

## 2. Plan per property

| id | modelled | how proved |
|----|----------|-----------|
| C01 | `readnek`, `writenek`, `Header`, `read_header` on byte lists | parser/printer inverse, induction over elements and fields |
| C02 | same, `astype(float32)` and widening on Flocq formats | correctness of `binary_normalize` (nearest even); narrowing after widening is the identity |
| C03 | header printing (`%1i`, `%2i`, `%10i`, `%9i`, `%6i`, `S%02d`) and parsing (`split`, `int`) | printer/parser inverse on decimal numerals |
| C04 | exact decimal rounding of a binary64 to 14 digits | bound in the reals |
| C05 | machine byte order as a parameter, `byteswap`, tag test | case analysis over both orders, byte-list reversal |
| C06 | `skip_elements` | reader equals "read and discard", for partial files too if nothing is read after a quantity that is left out; refutation otherwise |
| C07 | element map | permutation argument over the read fold |
| C08 | all reads on truncated byte list | induction: a short read raises |
| C09 | file state before/after a failing call | direct; refutation for `writenek` |
| C10 | array precision tag per value | refutation by computation plus guarded round trip |
| C11 | `writere2`/`readre2` on byte lists | printer/parser inverse |
| C12 | same, foreign byte order | refutation by computation; header/geometry part |
| C13 | truncated byte list | induction; refutation at field boundary |
| C14 | composition | from C11 |
| C15 | `writerea`/`readrea` on lists of lines | printer/parser inverse, three layouts |
| C16 | same, argument after the call | refutation by computation, exact description of the change |
| C17 | same | refutation by computation |
| C18 | `readma2` | parser inverse of an independent encoder |
| C19, C20 | `DataLims` | fold invariant; nel=1 refutation |
| C21 | `Elem.smallest_edge` | refutation in reals/binary64; guarded positive statement |
| C22 | `Elem.face_center` | case analysis, all shapes |
| C23, C24 | `check_connectivity`, `check_bcs_present` | loop = forall, both directions |
| C25, C26 | `merge` | fold invariant: pairing of faces stays an involution |
| C27 | `offset_connectivity` | pointwise |
| C28 | `get_points`, `update_ncurv` | fold = count / list equality |
| C29 | `delete_internal_bcs` | pointwise and count |
| C30, C31 | `generate_internal_bcs` | fold invariants (soundness), exhaustion (completeness) |
| C64 | `delete_internal_bcs` then `generate_internal_bcs`; `gen_box` without and with internal conditions | the pairing that the fold builds is unique when the conditions follow the places of the faces (`connected_by_place`); the box over the reals satisfies it (distances between face centres); refuted for flat cells numbered by columns |
| C66 | `writere2`, `readre2`, `generate_internal_bcs` in a row | the mesh read back is the saved one without internal conditions (C11), to which the pairing of C64 applies; what check_connectivity and the pairing look at is shown to be the same in both meshes |
| C67 | `gen_circle` and its four `merge` calls, over the reals | the position of every open face of the blocks is one of the sides, seams and arcs of the disc; different ones are farther apart than the tolerance, so each merge connects exactly the faces at the same place; induction over the four quarters |
| C68 | `gen_circle` followed by `extrude`, over the reals | the disc of C67 is planar and its connected faces coincide, so the exact criterion of C35 holds for every list of z; the conditions follow from C34 and C35 |
| C69 | `__repr__` of the three classes and `Elem.centroid` | the printed limits are those of C19; bounds on a mean by induction over the list of points; refuted for at most one element |
| C70 | `rotate_2d` with `check_connectivity`, `merge`, `generate_internal_bcs`, `delete_internal_bcs` | a relation between meshes (elements turned, all other data equal) that every loop preserves; face centres turn, distances and smallest edges stay |
| C71 | `extrude_mid`: the steps that write `curv` and `ccurv` | the table of the 72 edges of a block is computed for each of the 4 orientations and 16 patterns of bent sides, with coordinates left symbolic, and compared with a specification that only knows what an edge is part of; an edge is then described by its ends alone, so edges with the same ends are the same part of the same side |
| C72 | `writenek`, `readnek`, `open_dataset` together | the round trip of C01/C02, an invariant of `readnek` (arrays that are not in the file stay zero and all arrays have the shape of a new element), and C51/C56 for the coordinates; the list of variables is compared with a specification that only knows names and components |
| C73 | `merge`, `keep_elements`, `delete_internal_bcs`, `generate_internal_bcs`, `check_connectivity` | induction over an inductive description of the histories; the invariant (`sound`: paired, the same in all fields, no periodic face its own partner, valid, no degenerate element) is kept by each operation; boxes satisfy it, over the reals |
| C74 | `merge`, `gen_box` | over the reals: which faces of two grids touch, so the list of contacts is the seam; the specification of `merge` (C26), with the face that a periodic face leads to, then gives every entry |
| C75 | `merge` in both orders | from the specification of `merge` (C26): the contacts of both orders are the same pairs, where a periodic face leads to is unique and does not depend on the order; an explicit renumbering of the elements |
| C76 | `keep_elements`, `merge` | from the specifications of both (C32, C26): the new numbers compose (a counting argument on sorted subsets), so every entry is rewritten to the same entry |
| C77 | `gen_box` then `extrude` | specification BricksSpec.v of the box of bricks; the grid of C37/C38 is conforming, so C34 and C35 apply; in float64 too |
| C78 | histories with `extrude` | inductive set of meshes made by the six operations (MadeSpec.v); a stack of a connected mesh is connected (ExtrudeSound.v), its edges are those of C35 and positive, the check by C35; rotation by C70 (RotateSound.v); the rest by C73 |
| C79 | `merge` twice | the state of each face after a merge (its condition or its partner) from C26; the contacts of the second merge are those of the given meshes (ThreeMerge.v); then case by case on where a face comes from |
| C80 | `map2D` (with `gen_box` and `extrude`) | shared ends have equal images, so centres of joined sides stay equal (WarpJoin.v); a paired mesh with equal centres is valid; the sides of a grid share their ends (WarpBox.v) |
| C81 | `map2D` | closed form of the result for each element; composition of closed forms (WarpTwice.v) |
| C82 | `rotate_2d` (with `map2D`) | closed form of a rotated element; sum formulas of sine and cosine (RotateTwice.v) |
| C83 | `rotate_2d` with `extrude` and `keep_elements` | the relation "turned" of Rigid.v is kept by each step of the two functions (RigidExtrude.v) |
| C32 | `keep_elements` | rank function of the kept list |
| C33 | element map of merge/extrude/keep_elements | permutation; refutations |
| C34–C36 | `extrude` | index arithmetic over layers; refutation |
| C37, C38, C52 | `gen_box` (+ shared default list) | index arithmetic over the grid; heap with default object |
| C39 | `rotate_2d` over R | ring; refutation for centre ≠ 0 |
| C40, C41, C42 | `map2D`, `edge_mid`, `edge_circle` over R | field/nsatz; refutation for aliasing |
| C43 | `exponential_refinement_parameter` over R | algebra; fuel for the Newton loop |
| C44, C45, C60, C61 | `extrude_mid`, `extrude_refine`: elements, connections, defaults, conditions | one element and four layers by cases, then index arithmetic; the parts of the mesh by induction over the splitting functions |
| C46 | `gen_circle` counts and curvature | counting; refutation |
| C47, C48, C62, C63 | `readdns` plane map, torn files, passive scalars; `readplane` | arithmetic; parser inverse, number of bytes consumed; refutations |
| C65 | the geometry of `readdns` | composition of relative rounding errors (Flocq's `relative_error_N_FLT_ex`), exactness of halves; entries of the tables by position; `np.cos` and `np.arccos` are parameters, `np.cos` being assumed to return numbers between -1 and 1 |
| C49 | `hexa2vtk` index maps | nonlinear arithmetic |
| C50 | regular expression of `dataset.py` | characterisation of accepted strings; refutation |
| C51 | `meshgrid_to_dim` | sorting/uniqueness |
| C53, C54, C55 | `hexa2vtk`: dimensions, duplicate points, cell offsets | direct computation over all fields; refutations for all 2D fields, exact condition, for all cells |
| C56, C57 | `_NekDataStore.get_variables`, `open_dataset` | sorting/uniqueness; exact conditions, refutations |
| C58 | `edge_circle` after `edge_mid` over R | field/nsatz |
| C59 | `map2D`: number of curved edges | counting; refutation |

## 3. Trusted base

* Coq 8.16.1's kernel (including its virtual machine for `vm_compute`).
* Axioms: only those of the standard library's real numbers, as listed per theorem by the
  `Print Assumptions` commands in the `P_*.v` files (see section 5).
* The correspondence between the Gallina definitions and the Python text, stated in the comment
  on each definition (file and lines), and the modelling decisions of section 4.

## 4. Modelling decisions and what is not modelled

### Modelled, function by function

| file | modelled in | functions |
|------|-------------|-----------|
| `core.py` | `Mesh.v`, `Core.v` | `DataLims`, `Elem.__init__`, `smallest_edge`, `face_center`, `HexaData.__init__`, `lims`, `check_connectivity`, `check_bcs_present`, `merge`, `get_points`, `update_ncurv`, `offset_connectivity` |
| | `Repr.v` | `Elem.centroid`, `__repr__` of `DataLims`, `Elem` and `HexaData` |
| `meshtools.py` | `Tools.v` | `extrude`, `delete_internal_bcs`, `generate_internal_bcs`, `keep_elements`, `rotate_2d`, `gen_box` |
| | `Curve.v` | `edge_mid`, `edge_circle`, `map2D` |
| | `Mid.v`, `Split.v` | `extrude_mid`, `extrude_refine` |
| | `Refine.v` | `exponential_refinement_parameter` |
| | `Disc.v`, `DiscDefaults.v`, `Defaults.v` | `gen_circle`, its default functions, the shared default argument `var` |
| `neksuite/field.py` | `Field.v` | `Header`, `read_header`, `readnek`, `writenek` |
| `neksuite/mesh.py` | `Re2.v`, `Rea.v` | `readre2`, `writere2`, `readrea`, `writerea` |
| `neksuite/map.py` | `Map.v` | `readma2` |
| `simsonsuite.py` | `Simson.v` | `readdns`, `readplane` |
| `vtksuite.py` | `Vtk.v` | `hexa2vtk` |
| `dataset.py` | `Dataset.v` | `can_open_nek_dataset`, `open_dataset`, `_open_nek_dataset`, `_NekDataStore.meshgrid_to_dim`, `get_variables` |

`Base.v`, `Bytes.v`, `Text.v`, `Float.v` model the parts of Python and numpy that these functions
use: indexing, exceptions, `range`, `itertools.product`, `struct`, `tofile`/`frombuffer`, `%`
formatting, `split`, `int`, `float`, float64 and float32 arithmetic.

### Not modelled

* `log.py`, `__init__.py`,
  `PymechXarrayBackend` (it forwards to the modelled functions), `_NekDataStore.get_attrs`.
* What the libraries do with the results: `xr.combine_by_coords`, `xr.open_mfdataset`, the VTK
  writer behind `writevtk`, `np.fft.irfft2` in `readdns` (a parameter of the model).
* Log messages and warnings. Where the code only warns, the model does nothing.
* The file system: a file is its content. Opening cannot fail, and nobody else writes the file.
* Memory exhaustion, recursion limits, signals, threads (the code starts none).

### Simplifications

Each is stated in the comment of the definition concerned. They are:

* Text: `int` and `float` reject underscores and digits that are not ASCII; `decode` rejects
  everything that is not ASCII (`Text.v`, `Re2.v`, `Field.v`).
* numpy integers do not overflow: the i4 index arrays and `%i` fields hold any integer where the
  theorem does not say otherwise (`Core.v`, `Field.v`).
* Which of two zeros of different sign or which of several NaNs `np.min` returns is not fixed
  by numpy; the model picks one (`Field.v`). NaN is not sorted to the end by `np.unique`
  (`Dataset.v`).
* `readre2` and `readnek`: headers with negative counts or another dimension than 2 and 3 raise;
  Python goes on with arrays of odd shapes, or fails later (`Re2.v`, `Field.v`).
* `readma2`: `npts / nel` is the float64 quotient, Python's result up to 2^53 (`Map.v`).
* Functions given by the user (`map2D`, `extrude_mid`, `extrude_refine`, `gen_circle`) are
  functions on numbers that neither raise nor have other effects.
* An argument that an exception leaves half changed is not returned, except by `merge` and the
  writers, where the state after a failure is part of the property.
* `exponential_refinement_parameter` and the default functions of `gen_circle` are modelled over
  the real numbers only; their loops (Newton, secant) stop after the number of rounds written
  in the code.
* `math.sin`, `math.cos`, `math.log` and powers are the real functions, in float64 parameters of
  the model (`Disc.v`: record of the functions of `math`).

## 5. Print Assumptions

Every `P_*.v` file prints the assumptions below each theorem. The theorems of `MANIFEST.json`
fall into three groups. All axioms are those of the standard library (`Coq.Reals` and what it
uses; Flocq and its format theorems rest on the same ones).

**Closed under the global context (no axiom)**: `C16_only_empty_types_change_partial`,
`C16_typed_mesh_unchanged_partial`, `C19_fewer_than_two_raise`, `C20_lims_immutable`,
`C20_del_reopens`, `C22_other_faces_raise`, `C23_check_connectivity_iff`, `C23_never_false`,
`C24_check_bcs_present_iff`, `C25_merge_appends`, `C25_ignore_all_bcs`, `C25_merge_rejects`,
`C25_merge_returns`, `C26_merge_glues`, `C26_merge_valid`, `C26_merge_connected`, `C26_merge_types`,
`C28_update_ncurv`, `C28_get_points`, `C29_delete_internal`, `C30_generate_internal_bcs`,
`C30_keeps_valid`, `C30_zero_edge_rejected`, `C31_complete_and_counted`, `C32_keep_elements`,
`C32_order`, `C32_numbers`, `C32_keep_valid`, `C32_invalid_number_rejected`, `C33_merge_elmap`,
`C34_extrude_stack`, `C34_ncurv`, `C34_extrude_rejects`, `C35_extrude_faces`, `C35_extrude_valid`,
`C36_single_layer_partial`, `C37_gen_box_grid`, `C37_empty_rejected`, `C38_gen_box_faces`,
`C38_gen_box_valid`, `C38_no_internal`, `C40_mapped_partial`, `C40_argument_kept_partial`,
`C40_argument_changed_refuted`, `C40_no_conditions_refuted`, `C41_stored`, `C41_unchanged_partial`,
`C41_changed_refuted`, `C42_changed_refuted`, `C44_elements`, `C44_faces`, `C44_rejects`,
`C44_uncut_rejected`, `C45_rejects`, `C45_fun_none_refuted`, `C45_funpar_none_refuted`,
`C45_no_functions_refuted`, `C46_elements`, `C46_returns`, `C46_ncurv_refuted`,
`C47_planes_distinct_iff`, `C49_hexa2vtk`, `C49_cells_once`, `C49_corners`,
`C50_opened_iff_partial`, `C50_accepted_partial`, `C50_other_extension_refuted`,
`C50_line_break_refuted`, `C52_default_calls_agree_partial`, `C53_two_dimensions_refuted`,
`C54_points_iff`, `C54_spurious_points_refuted`, `C55_offsets_refuted`, `C59_map2D_refuted`,
`C60_elements`, `C60_returns`, `C60_conditions`, `C61_refine_types`, `C61_refine_no_internal`,
`C61_walls_inside_refuted`, `C64_restored`, `C69_small_refuted`, `C71_shape`, `C71_fit`,
`C72_names`, `C73_history`, `C73_progress`, `C75_merge_order`, `C76_keep_twice`, `C76_keep_all`,
`C76_merge_undone`, `C77_bricks`, `C78_extrude_connected`, `C79_grouping`, `C80_map_valid`,
`C80_box_map_extrude`, `C81_composition`, `C81_identity`, `C81_undone`, `C82_as_map`.

**`ClassicalDedekindReals.sig_forall_dec`, `ClassicalDedekindReals.sig_not_dec`,
`FunctionalExtensionality.functional_extensionality_dep`**: `C21_smallest_measured`,
`C21_smallest_edge_partial`, `C21_smallest_edge_refuted`, `C22_face_center`,
`C35_extrude_valid_iff_real`, `C35_extrude_valid_thick_real`, `C37_grid_tiles`,
`C39_origin_partial`, `C39_distances`, `C39_centre_refuted`, `C41_straight`, `C41_arc_partial`,
`C41_sphere`, `C42_circle`, `C42_aligned`, `C44_valid_real`, `C58_radius_found`, `C64_box`,
`C69_centroid_between`, `C69_centroid_faces`, `C70_check`, `C70_merge`, `C70_generate`,
`C71_halves_real`, `C71_cut_real`, `C73_box`, `C74_wide_box`, `C74_as_generated`, `C78_history`,
`C78_progress`, `C78_box`, `C80_map_valid_real`, `C82_sum`, `C82_order`, `C82_full_turns`,
`C82_back`, `C83_extrude`, `C83_keep`.

**`ClassicalDedekindReals.sig_forall_dec`, `ClassicalDedekindReals.sig_not_dec`,
`Classical_Prop.classic`, `FunctionalExtensionality.functional_extensionality_dep`**:
`C01_float64_round_trip`, `C02_float32_round_trip`, `C03_header_round_trip`, `C04_time_14_digits`,
`C04_short_time_exact`, `C04_time_stable`, `C05_endian_neutral`, `C06_skip_vars_partial`,
`C06_skip_last_partial`, `C06_refuted`, `C07_element_map`, `C07_order_irrelevant`, `C08_torn`,
`C08_torn_written`, `C09_refuted`, `C09_re2_rejected`, `C09_re2_accepted`,
`C10_float32_rewritten_partial`, `C10_refuted`, `C11_re2_round_trip`, `C12_foreign_order_partial`,
`C12_foreign_order_lost`, `C12_refuted`, `C13_torn_partial`, `C13_torn_between_fields`,
`C13_refuted`, `C14_fixed_point`, `C15_rea_round_trip`, `C15_short_numbers_exact`,
`C16_mesh_changed_refuted`, `C17_readable_partial`, `C17_unreadable_refuted`, `C18_readma2`,
`C18_exact`, `C18_torn`, `C19_lims_are_extrema_partial`, `C19_single_element_refuted`,
`C23_check_connectivity_float64`, `C23_nan_refuted`, `C26_periodic_meets_wall_refuted`,
`C27_offset_shifts_exactly`, `C27_offset_roundtrip`, `C31_pairs_counted_per_field_refuted`,
`C32_repeated_refuted`, `C33_extrude_elmap_refuted`, `C33_keep_elmap_refuted`,
`C35_extrude_valid_float64`, `C35_thin_layers_refuted`, `C36_several_layers_refuted`,
`C38_gen_box_valid_float64`, `C38_one_sided_periodic_refuted`, `C43_stationary`, `C43_converged`,
`C43_uniform`, `C43_one_element_refuted`, `C44_faces_float64`, `C44_diagonal_refuted`,
`C44_connected_side_refuted`, `C44_arc_refuted`, `C44_s_refuted`, `C46_places`, `C46_conforming`,
`C46_default_ends`, `C46_default_one_layer_refuted`, `C47_plane_lost_refuted`, `C47_kept_partial`,
`C48_readplane`, `C48_torn`, `C48_1d_3d_refuted`, `C48_1d_3d_raise_refuted`,
`C50_not_opened_partial`, `C51_coordinates`, `C51_separated`, `C52_default_leak_refuted`,
`C56_labels_partial`, `C56_labels_refuted`, `C57_not_box_partial`, `C57_box_refuted`,
`C61_refine_walls_inside_refuted`, `C62_torn_raises`, `C62_read_iff`, `C62_byte_order`,
`C63_scalars_refuted`, `C64_flat_refuted`, `C65_grid`, `C65_one_line_nan`, `C66_reload`,
`C67_joined`, `C67_usual`, `C68_pipe`, `C69_shown`, `C71_fit_float64`, `C72_written_field_opened`,
`C73_history_float64`, `C75_merge_order_float64`, `C77_bricks_float64`, `C79_grouping_float64`,
`C80_box_map_extrude_float64`.
