# Formal model of hypervehicle in Rocq 8.16

## Approach

The code is modelled function by function as small total Gallina functions.

* **Arithmetic is a parameter.**  Every geometric definition is generic over a
  type class `Num T` (`Num.v`): `+ - * /`, `sqrt`, `sin`, `cos`, `tan`,
  `arctan2`, `pow`, `%`, `round`, comparisons, integer literals, and `nstore`,
  the cast numpy-stl applies when a coordinate is stored in a mesh.  That gives
  three strata of theorems:
  * (S) *structural* theorems hold for any `Num T`, so also for IEEE doubles
    (mesh topology, dictionary keys, which calls are made, error behaviour);
  * (R) *algebraic* theorems use the instance on the standard library's reals
    (`NumR.v`); rounding is idealised away;
  * (F) *floating point* theorems use IEEE binary64 (Flocq / SpecFloat).
* **Exceptions are values.**  `res A := Ok a | Raise e`, with Python's
  exception classes as constructors of `exn`.
* **Objects.**  A `Path` is a record of its `__call__` and `length` methods; a
  surface is its `__call__`.  Where object identity matters (in-place update,
  aliasing, caches, vehicles) a separate heap/state model is used.
* **Dictionaries** are insertion-ordered association lists with Python's
  overwrite-in-place behaviour.
* **Specifications** live in `Spec*.v` and do not use model helpers
  (points of R^3, isometries, Bernstein polynomials, watertightness by edge
  counting, signed volume, parallel-axis theorem, ...).
* **Property files** `P_*.v` contain only theorem statements proved by
  `exact lemma`, examples showing the hypotheses can be met, and
  `Print Assumptions`.

Properties that the real code violates are stated as the user would expect
them, and refuted (`..._refuted`), together with an exact characterisation of
what does hold.

## Plan per property

| id | modelled | how proved |
|----|----------|-----------|
| C01-C02 | vector.py | algebra over R (ring/nra), Cauchy-Schwarz |
| C03 | frame transforms | exact error term, iff characterisation |
| C04 | heap of vectors | operational heap model |
| C05 | Line | R algebra; Flocq exactness of 1*x and 0*x |
| C06-C07 | Bezier | induction on control polygons; Bernstein sum spec |
| C08-C10 | Polyline | induction on segment lists, partition lemma |
| C11 | Polyline/Bezier aliasing | heap model |
| C12 | Spline | induction over iteration, segments list |
| C13-C15 | Arc | trigonometry with own atan2 over R; exact error term |
| C16-C17 | ArcLength, np.interp | monotone table lemma, induction on table |
| C18 | Path.length | induction on samples, triangle inequality |
| C19-C20 | roberts, distribute_points | Rpower monotonicity |
| C21 | SubRanged/Reversed | algebra |
| C22 | ElipsePath | algebra with sqrt |
| C23-C25 | CoonsPatch | algebra, case analysis on constructor |
| C26-C27 | Rotated/Mirrored | trigonometry, isometry spec |
| C28 | CurvedPatch | trigonometry of atan2(slope,1) |
| C29 | Revolved/Cone | trigonometry |
| C30 | BluntCone | evaluation raises |
| C31-C33 | swept patches, perimeter | list search lemmas |
| C34-C36 | sphere, cube | algebra; sum over grid for volume |
| C37-C40 | surfce_to_stl | induction over the grid; edge cancellation |
| C41 | Component.surface | evaluation |
| C42-C44 | swept/revolved components | edge-chain calculus |
| C45 | stl_check | counting of directed/undirected edge sets |
| C46-C47 | volume of meshes | edge cochain sums |
| C48 | stl_repair | list algorithm invariants, refutation witness |
| C49-C50 | Vehicle.add_component | invariant over histories |
| C51-C54 | generate/transform/mesh cache | state machine over component heap |
| C55-C56 | to_stl | string injectivity lemmas |
| C57-C58 | composite | key injectivity, evaluation |
| C59-C60 | inertia | sums over association lists, parallel-axis spec |
| C61-C63 | SensitivityStudy | call trace model, tables |
| C64-C65 | append_sensitivities_to_tri | list scan |
| C66 | Generator | dictionary lemmas |
| C67-C69 | Wing/Fin | patch dictionaries, seam algebra |
| C70 | OgiveNose | algebra |
| C71 | copy/deepcopy | heap model |
| C72 | StructuredGrid | dynamic typing of the Vector3 constructor |
| C73-C74 | stl_repair, stl_check | permutation of edges, counting |
| C75-C77 | Component.surface/mesh | evaluation, cache states |
| C78 | ghosts | dictionary filter |
| C79 | wing closing patches | seam algebra, affine thickness |
| C80 | constructors of paths and patches | heap model, reachability |
| C81-C83 | csv and xml files | tables as lists of rows |
| C84-C85 | double precision sweeps | Flocq: witness, and forward error bounds |
| C86 | Spline joints | derivative of the cubic pieces, contraction of the iteration |
| C87 | closed fins | seam algebra over all panels |
| C88 | swept prisms | boundary-edge sums: enclosed volume of strips and caps |
| C89 | ParametricWedge | heap extension, C51, C55, C62, C88 composed |
| C90 | bodies of revolution | boundary rings, telescoping frusta, limit of sin x / x |
| C91 | ParametricFinner | as C89; meshes affine in one parameter |
| C92 | CART3D | composition of the two rotations; generation of C51 twice |
| C93 | profiles monotone in x | frusta of one sign; polylines of monotone pieces; C14, C70 for the ogive |
| C94 | ParametricFalcon9 | as C91, with C93 for the lines and C59 for the mass |
| C95 | cylinder drawn as a polyline | frusta step by step; the step over the edge loses volume |
| C96 | component next to its reflected deep copy | pipeline of both components on the separated heap; reflection negates the signed volume |
| C97 | all files of to_stl | file system as directories and a dictionary; paths split at the last slash |
| C98 | stored analysis results | invariants over call histories |
| C99 | half bodies | counting directed edges on either side of the plane |
| C100 | scalar sensitivities | induction over the study; tables as lists of rows |
| C101 | files of a study | sequences of writes on a model of the file system |
| C102 | planform of a wing | replace the thickness functions by total ones that agree on the strip; values of Coons patches stay in the strip |
| C103 | parametric HTV | C102 for both wings, run of create_instance on any heap, C59 and C45 |
| C104 | mass of vehicles with reflected parts | composition of maps that scale volumes; C59 |
| C105 | parametric X-43 | wings and fins of C79 and C87 built for all parameters, run of create_instance on any heap, C55, C59 and C45 |
| C106 | parametric D-21 | wings, fins and bodies of revolution of C79, C87 and C95 built for all parameters, run of create_instance on any heap, a bracketing argument for the root search, C55, C59 |
| C107 | options and closedness | the pipeline is a map of vertices (C70), directed edges are carried along, a reflection reverses all; the converse by injectivity on vertices |
| C108 | clustering and closedness | a clustered mesh is the even mesh of a reparametrised patch, outlines cancel as in C42 and C44; necessity by following each rim edge to its partner |
| C109 | parametric HIFiRE 4 | generators run symbolically, the two curvatures as one map preserving the plane y = 0, chords stay open edges under it; the gap by solving for the spanwise slope |
| C110 | parametric waverider | generators run symbolically for all 28 attributes, modifier and curvatures as one map of the meshes; incidence by differentiating the bent and turned centre line |
| C111 | circle_patch | arcs evaluated as quarter turns; containment by the mean value theorem; acceptance through the corner check with the arc's end error |
| C112 | parametric HIFiRE 8 end to end | program of the generator, lathe volume, wing/fin lemmas, heap frame |
| C113 | parametric ReFEX end to end | program of the generator, lathe volume, sweep, wing/fin lemmas, heap frame |
| C114 | ReFEX with parts switched off | vehicles of pieces: induction over the objects made, run of the generator for symbolic switches |
| C115 | copies of composites | induction over the children with the memo, frame of every call |

The final state of each property is in MANIFEST.json.

## Trusted base

1. **Coq 8.16.1's kernel** (with its bytecode evaluator `vm_compute`, used in a
   few closed computations).  No flag of the kernel is switched off.
2. **Axioms.**  No axiom is declared here.  `Print Assumptions` lists only
   these, all from Coq's standard library:
   * `ClassicalDedekindReals.sig_forall_dec`
   * `ClassicalDedekindReals.sig_not_dec`
   * `FunctionalExtensionality.functional_extensionality_dep`
   * `Classical_Prop.classic`

   What each theorem uses is listed in the section *Assumptions of each theorem*
   below, generated by `tools/gen_assumptions.py`.
3. **Libraries.**  Coq's standard library and Flocq (definition of binary64 and
   the theorems about rounding); Flocq declares no axioms of its own.
4. **The model**, which is a transcription of the Python source by hand.  Every
   definition names the lines it transcribes.
5. **Contracts of the libraries the code calls**, stated below.

### What is modelled

| source | model | left out |
|--------|-------|----------|
| geometry/vector.py | `M_Vector.v`, `M_VecHeap.v` | `__str__`, `__repr__`, isinstance checks of the operators (only the check of `x` in the constructor, in `M_Grid.v`) |
| geometry/path.py | `M_Path.v`, `M_VecHeap.v` | `__repr__` |
| geometry/surface.py | `M_Surface.v`, `M_Grid.v`, `M_VecHeap.v` | body of `subgrid` after its first statement (which raises); stretching of length-one axes by numpy |
| geometry/geometry.py | `M_Geometry.v` | `__repr__` |
| utilities.py 16-147 | `M_Mesh.v` | negative cell counts; parameters raised to a negative power |
| utilities.py 150-242 | `M_Inertia.v`, `M_Output.v` | printing |
| utilities.py 245-803 | `M_Sens.v`, `M_SensOut.v` | writing of STL files; tables of mass, volume and area in which a name occurs twice in different places |
| utilities.py 806-940 | -- | paraview, pymesh and banner functions (calls of external programs) |
| components/component.py | `M_Component.v`, `M_Mesh.v`, `M_Stl.v`, `M_Vehicle.v` | `grid`, `to_vtk`, `analyse`, printing |
| components/{swept,revolved,polygon}.py | `M_Component.v` | `__repr__` |
| components/composite.py | `M_Component.v`, `M_Vehicle.v`, `M_Copies.v` | composites inside composites (refused by `add_component`); deep copies of children that share a dictionary |
| components/common.py | `M_Common.v` | nothing |
| components/wing.py | `M_Wing.v` | thickness functions that are None; non-ASCII str.lower |
| components/fin.py | `M_Fin.v` | printing |
| vehicle.py | `M_Vehicle.v`, `M_Inertia.v`, `M_Output.v` | `__repr__`, printing; file contents beyond the numbers, path normalisation, permissions |
| transformations.py | `M_Transform.v` | -- |
| generator.py | `M_Gen.v` | properties and `__setattr__` overrides |
| hangar/ | wedge.py, finner.py (`M_Hangar.v`), falcon9.py (`M_Falcon.v`), htv.py (`M_Htv.v`), x43.py (`M_X43.v`), d21.py (`M_D21.v`), hifire4.py (`M_Hifire4.v`), hifire8.py (`M_Hifire8.v`), refex.py (`M_Refex.v`) and waverider.py (`M_Waverider.v`) in full | Vector3-valued attributes (ReFEX's cannard_shift and its toggles are parameters of the model) |

### Contracts assumed of Python and of libraries

* Python: floats are binary64; dictionaries keep insertion order; attribute
  lookup goes through the instance and then the classes; `f(**d, **e)` raises
  TypeError for a common key.
* numpy: elementwise arithmetic, `linspace` as `start + i*step` with the last
  entry set to `stop`, `interp` as piecewise linear with constant ends,
  `argsort` returns a sorting permutation (theorems hold for any), `isclose`.
* numpy-stl: coordinates are stored in single precision (`nstore`); a `Mesh` is
  false iff it has no triangles; the normals of a new mesh are the cross
  products; `get_mass_properties_with_density` and `areas` are arbitrary
  functions of the mesh.
* scipy: `bisect` is an arbitrary function; where a theorem needs a root, it
  says so in its hypotheses.
* pandas: `concat`, `duplicated` and `read_csv` behave as the lists in
  `M_Sens.v`; `read_csv` is an arbitrary function in `append_sensitivities_to_tri`.
* multiprocess: `Pool.starmap` returns results in the order of its arguments.
* libm: in binary64 theorems every function beyond `+ - * / sqrt` is an
  arbitrary function (record `libm`); the theorems that need `pow(x, 1) = x`
  have it as a hypothesis.

### How the theorems were tested

`seeded/LOG.jsonl` lists edits of the model that imitate bugs, one line per
attempt.  After an edit the development is rebuilt; a lemma whose proof script
no longer compiles, or runs for more than 200 s, is replaced by `Admitted` and
the build goes on.  The theorems listed as `failed` are those that are such a
lemma or that `Print Assumptions` shows to depend on one.  So `failed` means
that the proof given here breaks.  It is not a proof that the statement is
false of the edited model, and a script stopped by the time limit is not told
apart from one that is refused.  Only the files of the properties named in the
line are rebuilt.  An attempt that gave no result (the edit does not
type-check, or the build ran out of memory) is listed with an empty `failed`
and a note that begins "no verdict".  The theorems added because an edit went
unnoticed are named under `tightened`.

<!-- assumptions -->

## Assumptions of each theorem

**Closed under the global context** (78):
C04_in_place C04_with_origin C04_global C11_harmless C11_overwritten C16_reject C30_never C35_seam_table C37_triangles C37_zero C38_crack_free C39_one_step C41_s_ignored C45_no_lines_refuted C49_bookkeeping C49_rejects C49_options C50_last_wins C50_default_names_distinct C53_stale C53_refreshed C54_refused C54_tuple C55_files C55_stops C55_untagged_distinct C56_merge_iff C57_merged C57_children C57_rejects C58_stored C58_ignored C59_failures C59_generates_first C61_calls C61_tables C61_scalars C61_overlap C61_vector C63_joined C63_component C63_aligned C66_attributes C66_inherited C66_reserved C66_unread C66_late C67_no_influence C72_coons C72_cone C72_paths C72_rejected C77_sticky_failure C78_non_ghosts C80_construct C80_line C80_polyline_shares C83_files C97_nothing C97_plain C97_nested C97_absolute C97_unopened C97_merge C98_consistent C98_explicit_analysis_not_saved C98_properties C98_transform_keeps C98_failed C100_values C100_arranged C100_same_components C100_own_names_iff C101_files C101_half_written C101_nothing C101_properties C115_shallow

**classic** (1):
C80_points

**sig_forall_dec, functional_extensionality_dep** (9):
C07_functionals C40_covers_iff C46_net_area C46_translation C46_reflection C68_fin_gap C99_turned C99_open C110_length_only

**sig_forall_dec, sig_not_dec, functional_extensionality_dep** (8):
C13_angle_unique C26_rigid C27_reversing C46_rotation C68_gap_size C90_limit C92_rotation C109_default_gap

**sig_forall_dec, sig_not_dec, classic, functional_extensionality_dep** (260):
C01_vector_space C01_dot_cross C01_cross_zero C02_norm C02_unit C03_roundtrip_error C03_roundtrip_error_no_origin C03_roundtrip_iff C03_local_coordinates C05_binary64 C05_binary64_finite C05_line C05_line_offset C06_bernstein C06_ends C06_empty C07_hull C07_affine C08_breakpoints C09_one_segment C09_breakpoint_values C09_joined C10_closed_defect C10_already_closed C11_iff C11_second_call C12_segments C12_interpolates C12_too_few C13_arc_flat C14_arc_value C14_arc_ends C15_arc_ok_iff C15_arc_error C16_reparameterisation C16_ends C17_equalises C18_length C18_straight C18_zero C19_bijection C19_mirror C19_clusters C19_identity C19_beta1 C20_distribute C20_beta1 C20_zero C20_cluster_function C21_sub C21_reversed C21_length_refuted C22_on_ellipse C22_quadrant C22_ends C22_bad_side C23_exact C23_mismatch C24_edges_iff C24_init C24_bilinear C25_displace C25_errors_kept C25_copy C26_rotation C26_compose C26_inverse C26_bad_axis C27_reflection C27_involution C27_bad_axis C28_value_x C28_value_y C28_thickness C28_missing C28_none C29_revolved C29_radius C29_seams C29_cone C30_why C31_blend C31_at_edge C31_above C31_below_refuted C32_ascending C32_descending_refuted C32_flat C32_bad_axis C33_sides C33_closed C33_exact C33_order C33_past C34_on_sphere C34_seams C35_on_cube C35_covers C35_seams C35_bad_face C36_cube_refuted C36_sphere_refuted C37_default C37_mirror C39_binary64 C39_binary64_exact C39_binary64_short C39_grid C39_uniform C40_columns C40_raises C41_count C41_swept C42_watertight C43_accepts_iff C43_generates_open C43_generates_closed C44_watertight C44_open C45_decides C45_stored_normals C45_area_test C46_moved_patch C47_append C47_replace C48_repair C48_chain_refuted C51_pipeline C52_twice C54_applies C59_totals C59_hull C59_translation C59_order C60_iff C60_error C61_exact C61_succeeds C61_step C62_comparable C62_rows C62_affine C62_mean_value C62_converges C62_distinct_positions C63_missing_coordinates C64_data C64_fraction C64_errors C65_list C65_names C66_study C67_degenerate C67_t_B2_alone C68_fin_seams C68_fin_stalls C68_wing_seams C69_flat_seams C69_overlap C69_panel_missed C70_pieces C70_line C70_degenerate C71_shallow_shares C71_shallow_reflected C71_deep_independent C72_parameters C73_repair_watertight C74_sound C74_degenerate_refuted C74_revolved_refuted C75_reflected_dict_refuted C76_single_section_refuted C79_closed C79_root_iff C79_flat_close C80_insulated C81_elements C81_again C82_round_trip C84_box_refuted C84_box_closed C85_near_exact C85_cracks C86_joints C86_natural C86_closed_refuted C87_fin_closed C87_fin_builds C87_fin_default C88_prism C88_straight C89_wedge C89_study C90_chain C90_volume C90_straight C90_factor C90_backwards C91_finner C91_study C92_frame C92_twice C93_inward C93_outward C93_single C93_ogive C94_falcon C94_mass C95_cylinder C96_pair C96_mass C98_table C98_mixed C99_component C99_pair C100_totals C100_analysed C102_planform C102_undefined C103_htv C103_mass C104_ledger C104_symmetric C105_x43 C105_mass C106_d21 C106_spike C106_mass C107_closed C107_open C108_revolved C108_swept C108_box_iff C108_roberts C109_hifire4 C109_short C109_mass C109_gap C110_waverider C110_short C110_mass C110_incidence C111_disc C111_accepts C112_hifire8 C112_mass C112_fins C112_wing_fixed C112_default C113_refex C113_script C113_mass C113_canards C113_apart C113_default C114_parts C114_mass C115_deep C115_regenerated
