# A machine-checked model of lecram/coral in Coq 8.16.1

## Layout

Every area X of the code has these files in `rocq/theories`:

* `XModel.v` – the model: one Gallina definition per Python function or loop,
  each with a comment citing file and lines of `/repo`. No proofs.
* `XSpec.v` – the specification vocabulary the theorems are stated in. It does
  not use the model's functions, only its data types.
* other `X*.v` – lemmas and proofs.
* `XProps.v` – the property theorems `Cnn_name` (each `Proof. exact lemma. Qed.`
  or a witness), beside each a concrete `Example` that meets its hypotheses, and
  `Print Assumptions` of every theorem.

Shared files: `Py.v` (Python run-time vocabulary: exceptions as values, slices,
indexing), `Num.v` (number systems), `RealNum.v`, `QcNum.v`, `FloatLib.v` (facts
about doubles), `StrModel.v`/`StrProofs.v`/`Text.v` (decimal text, split, lines),
`Utf8Model.v`/`Utf8Proofs.v` (the UTF-8 codec), `TrigLib.v`.

A theorem whose name ends in `_refuted` states that a natural expectation is
false of the code, with a witness. A theorem whose name ends in `_partial` would
prove less than its property; there is none at present.

## Modelling conventions

* Python `int` is `Z`; `bytes` is `list Z` (each 0..255); `str` is `list Z` of
  code points.
* Exceptions are values: `res A := Ok a | Err e`. Methods of objects with state
  are state transformers; the state survives an exception where the theorems
  talk about it (shapefile, buffers, caches, vector, files).
* Loops whose termination is not structural take explicit fuel and return
  `None` when it runs out; termination is a theorem ("there is a fuel for
  which the result is `Some`"), non-termination as well ("for all fuels the
  result is `None`").
* Python numbers: most numeric code is written once, generically over a
  record of operations (`Num.v`), and instantiated with exact rationals `Q`,
  the reals `R` and IEEE-754 binary64 (`Coq.Floats.SpecFloat`). A theorem says
  in its types which of them it is about. Trigonometric code is modelled over
  `R` only. What rounding does to an `R` or `Q` theorem is not claimed unless a
  theorem about doubles says so (C10, C21, C28, C36, C38, C78, C87, C88 and
  others have one).
* Generators are modelled by the list of values they yield plus how they end.
* Files are byte lists with a position; `open/seek/read/write` behave as on a
  regular file with no I/O errors.
* Where a name is not bound in the module (`collections` in rg.py, `extras` in
  names.py, `Ellipsoid` in frame.py), the model returns `Err NameError` at that
  point.

## Plan per property

| id | modelled | how |
|----|----------|-----|
| C01-C08 | all of bbox.py over generic numbers | case analysis, lra over Q; float instance by order lemmas |
| C09 | Buffer with its index arithmetic on Z bit operations | refinement to a list, induction over op lists |
| C10-C14 | nearest, sqr_fit, collinear, open_no_slit, closed_no_slit, simplify | loop invariants over list prefix; witnesses by vm_compute |
| C15-C19 | haversine, bearing, destination, midpoint, radiusat over R; bearing2* | trigonometric identities, monotonicity |
| C20 | geocentroid | induction over vertex list |
| C21-C25, C84-C86 | corangle and the projection classes over R | trigonometric identities, Newton iteration by convexity, derivatives |
| C26-C31 | grid.py, UTF-8 codec | arithmetic, induction over fields |
| C32-C33 | vlv and ascii codecs over byte streams | induction |
| C34-C38 | pf.py Writer/Reader to bytes and back | composition of codec lemmas; doubles through Flocq for C35, C36, C38 |
| C39-C42 | rg.py Writer/Reader | as above |
| C43-C48, C80, C81 | raster.py | arithmetic, loop invariants, parsing of the saved files |
| C49-C51 | stats.py, an LRU cache machine | invariant over histories; sums over lists |
| C52-C54, C82 | table.py | list induction |
| C55-C56 | gradient.py | induction over sorted lists |
| C57-C61, C83 | names.py | DP invariant against an inductive edit-script relation; matchings |
| C62-C63, C89 | frame.py | tree-valued JSON, text lines |
| C64-C69, C90-C92 | vector.py; the meaning of the text by a PostScript scanner and graphics-state interpreter (PsSpec.v) | simulation invariant |
| C106-C108 | vector.py: export and animation, with the shell as an argument | a reader for POSIX command lines; induction over the frames |
| C70-C71, C87-C88 | tqdm.py with a terminal-line model | invariant over the trace of events |
| C72-C75, C93, C94 | shapefile.py: shapes, .shp and .shx at byte level | layout of the format, composition of codec lemmas |
| C76, C77, C95-C98 | shapefile.py: attribute tables at byte level | the same |
| C99-C105 | shapefile.py: Editor, opening, editing and saving again | the same; refinement to programs of a Writer |
| C78 | signed_area, `__geo_interface__` | sums over lists over R; exactness in doubles |
| C79 | pf.py sf2pf, splitting into parts | list induction |
| C109 | pf.py Writer's distances | invariant of the writer; triangle inequality on the sphere |
| C110 | pf.py sf2pf | composition of the shapefile and P-file round trips |
| C111 | shapefile.py Reader, shapes, iterShapes on any bytes | a logic of file programs with exceptions; induction over the records |
| C112 | shapefile.py Reader, records on any bytes | induction over columns and rows |
| C113 | pf.py Reader on any bytes | induction over entries, parts and points; fuel independence |
| C114 | bbox.py on doubles | doubles as reals (Flocq); bounds on the rounded area, comparisons are exact |
| C115 | shapefile.Reader on any .dbf bytes, cell by cell | relational description of rows, cells and number texts (ShpCellSpec.v), shown to hold of every call and to be functional |
| C116 | pf.py Reader on any bytes, byte by byte | grammar of the file (PfFileSpec.v), shown sound and complete for opening by induction over numbers and entries; points by induction over parts |
| C117 | shapefile.py Reader.shapes, iterShapes, shape on any bytes, with or without index | grammar of records (ShpBytesSpec.v), shown sound (what a successful read has seen) and complete; induction over the records; an invariant of the Reader's state across calls, among them failed ones |
| C118 | pf.py Writer.write and Reader with IEEE doubles, sizes 1, 2, 4 | rounding-error bounds over Flocq (the +-360/180 steps exact below 2^56, stuck above 2^62), an invariant of the accumulated box, half-step plus error for each code; termination by induction over the distance, non-termination by a fixed point of the step |
| C119 | raster.py __getitem__ and __setitem__ of the three canvases, any integers | pixel numbers (RasterOutSpec.v); case analysis on slice bounds and on Python's negative indices |
| C120 | proj.py geo2rect and scale of seven projection classes, over R | derivatives of both coordinates (ProjMapSpec.v: metric and area element), the sphere turned to the map's axis, polynomial identities modulo sin^2+cos^2=1 |
| C121 | shapefile.py Editor.point on lists among the shapes | places in nested lists (ShpListSpec.v), induction over the points of a part |
| C122, C123 | raster.py aaline, blend, strokepolygon with aa, in doubles | Flocq error bounds per operation; induction over the columns for the accumulated error, over the writes for the canvas, over the sides |
| C124 | gradient.py in doubles | the comparisons of doubles are those of their rational values, so construction and search follow the exact gradient step by step; error bounds for the weights and the mixture |
| C125 | grid.py FVar in doubles | relative error bounds for the chain of roundings; an index less than 1 away from an integer is that integer |
| C126 | stats.py in doubles, with its caches | the cache invariant of C49 restated with the values of the keys; error bounds for each rounding, induction over the running sum, Cauchy-Schwarz for the correlation |
| C127 | coord.py nearest, sqr_fit, simplify in doubles | case analysis by binade for the addition of a half; error bound of the division; from the cells on the integer theorems on simplification apply |
| C128 | proj.py corangle in doubles | Sterbenz' lemma for the exact steps, induction over the number of turns for the rest |
| C129 | raster.py scanpolygon, fillpolygons in doubles | error bound of slope and step, induction over the rows for the running sum, then the row theorems of C48 for any sorted marks |
| C130 | names.py strerr, mapping, jaro, jaro_winkler in doubles | scores are quotients of small integers, so that unequal ones differ by more than the roundings: the double sort and search take the exact steps; error bounds for the mean of three quotients |
| C131 | bbox.py area, order, translate, scale in doubles | error bounds, one for each rounding; order by monotonicity of rounding |
| C132 | bbox.py hypot over the reals | characterised by its square |
| C133 | coord.py bearing2cardinal, bearing2hours, collinear in doubles | exactness of fmod and of multiples of 2^-44; error bounds for products of rounded differences |
| C134 | `__repr__`/`__str__` of BBox, Buffer, IVar, FVar, SVar; BBox argument count | a separate reader of Python call texts gives the meaning of repr(); injectivity of str() by splitting at the last separator |
| C135 | statistics on doubles (the generic model instantiated at spec_float) | sums bracketed between (1-u)^n and (1+u)^n times the exact ones, by induction over rows and over the sorted list; rounding of multiples of the least double is purely relative; quotient and difference by relative errors; sorted permutations are equal |
| C136 | canvas and page header on doubles (the generic model instantiated at spec_float) | calls with doubles are related to calls with reals; invariant over histories: the box is empty or covers and touches up to its rounding; relative errors of centre, scale and half page |
| C137 | centroid step of geocentroid, hulls by half-planes | sums over edges, translation to the point seen from |
| C138 | rg.Reader on arbitrary bytes against a separate layout | parsing both ways, induction over columns |
| C139 | float(value) at shapefile.py:516 with its value | parsing to n * 10^k, correct rounding of the ratio, spacing of doubles |
| C140 | str(value) at shapefile.py:916 with its text | search over digit counts; spacing of doubles, monotone rounding; composed with the table round trip C76 |
| C141 | texts of numbers by `repr64` (C140) and `str_int`, put together as `str.format` does; numerals as Python's grammar has them | the characters of a numeral exclude the separators, so the text splits in one way; C140 for each number |
| C142 | the symbols for numbers in the lines of C64 to C69 replaced by their texts (C141) | induction over the history: each call adds lines that scan without stray characters; then a simulation between the scanner on symbols and the scanner on characters |
| C143 | json.dump(indent=4) and json.load as functions on texts, over documents of numbers (`repr64`, `str_int`), strings, lists and dictionaries | the parser undoes the printer by induction on the document; number scanning by the shape of printed numbers and C140 |
| C144 | `math.degrees` and `math.radians` as products with doubles; the file as in C143 | roundings as integers nearest to scaled significands; the significands below and above 2^53 pi/180 apart, each by linear integer arithmetic |
| C145 | `//` on doubles as in CPython: exact remainder, rounded difference and quotient, snapping | remainder exact (Flocq), errors of the quotient below 2/5 of a unit, so snapping finds the floor |
| C146 | `format_meter` of C88 on doubles | the error of the two roundings is below 1/total, so only whole percents can go wrong; these are the percents of a total of 100, which are computed |

## Trusted base

* Coq's kernel (8.16.1), its conversion and `vm_compute`. No kernel check is
  switched off and there is no axiom, `Admitted` or open obligation.
* That the definitions in the `*Model.v` files (and `ShpFile.v`, `Py.v`,
  `StrModel.v`, `Text.v`, `Utf8Model.v`) say what the Python code does. This is by
  reading; every definition cites the lines it models. The Python run-time
  (arithmetic, slices, dict order, `struct`, `str.format`, UTF-8, sorting) is
  modelled as far as the code uses it.
* That the specifications (`*Spec.v`) say what the English statements say. The
  theorems have been run against wrong programs, see `seeded/LOG.jsonl`.
* The standard library's axioms of the classical real numbers, for the theorems
  listed below. No other library's axioms. Flocq's lemmas about binary64 are
  used in proofs (FloatLib.v and the `*Float.v` files); Flocq adds no axioms of its
  own beyond those of the standard library's reals.

### What Print Assumptions lists

"Closed under the global context" for all theorems that are not named here.

* `ClassicalDedekindReals.sig_forall_dec`, `FunctionalExtensionality.functional_extensionality_dep`:
    FrameProps: C89_snapped.
    GeoProps: C20_flat, C20_triangle, C20_start, C20_orientation, C20_shift, C20_cut,
    C20_region, C20_parts.
    ShpGeoProps: C78_area, C78_reversed, C78_shifted, C78_rotated, C78_additive,
    C78_open_ring_refuted, C78_large_ring_refuted, C78_view_polygons.
    VectorProps: C66_box, C66_flat_refuted, C67_fit, C67_saves, C91_anchor.
    ExportProps: C108_box, C108_nothing_drawn, C108_flat_refuted.
    GradientFloatProps: C124_values.
    SimplifyFloatProps: C127_tenths_refuted.
    AngleFloatProps: C128_exact_refuted.
    ScanFloatProps: C129_exact.
    GeoConvexProps: C137_hull, C137_box, C137_sense, C137_linear, C137_region,
    C137_crossing_refuted.
    FloatTextProps: C139_texts.
    FrameFloatProps: C144_centre_refuted.
    FloorDivProps: C145_one_cell.

* `ClassicalDedekindReals.sig_forall_dec`, `ClassicalDedekindReals.sig_not_dec`, `FunctionalExtensionality.functional_extensionality_dep`:
    FrameProps: C62_round_trip, C62_document, C62_ellipsoid, C62_ellipsoid_document.
    GeoProps: C18_bounds, C18_ends, C18_south, C18_surface.
    ProjProps: C21_corangle, C25_default_refuted, C86_conic.
    StatsProps: C49_transparent, C49_bounded, C49_counters, C49_clear, C49_info_ignores,
    C50_var, C50_covar, C50_corr, C50_failures, C50_longer_second_refuted, C51_agree,
    C51_invariant, C51_range, C51_failures, C51_negative_refuted.
    ProjMapProps: C120_stereographic, C120_azimuthal_area, C120_conic_area.
    BBoxScaleProps: C132_pythagoras, C132_diameter, C132_bounds, C132_zero,
    C132_translate, C132_scale.

* `ClassicalDedekindReals.sig_forall_dec`, `ClassicalDedekindReals.sig_not_dec`, `Classical_Prop.classic`, `FunctionalExtensionality.functional_extensionality_dep`:
    FrameProps: C63_names, C63_membership, C63_same_name_refuted, C63_space_refuted,
    C89_point, C89_point_zero, C89_planify_closed, C89_planify_open, C89_planify_zero,
    C89_same_cell_refuted, C89_base.
    GeoProps: C15_angle, C15_bounds, C15_symmetric, C15_self, C15_zero, C15_shift,
    C15_turn, C15_triangle, C15_default, C16_destination, C16_sense, C16_meridian,
    C16_default_refuted, C17_midpoint, C20_result, C20_order, C20_box_refuted,
    C16_forward, C16_default.
    PfProps: C38_upper_edge, C38_lon_180.
    ProjProps: C21_huge_refuted, C22_mercator, C22_pole, C22_ellipsoid,
    C22_ellipsoid_back, C22_ellipsoid_near, C22_sphere, C23_tmercator, C23_edge, C24_near,
    C24_far_refuted, C24_edge, C24_centre, C24_centre_refuted, C24_antipode, C24_polar,
    C25_conic, C84_omercator, C84_quarter, C84_far_refuted, C85_eckert, C86_mercator,
    C86_emercator.
    ShpGeoProps: C78_doubles, C78_view_polygons_doubles.
    TqdmProps: C88_double.
    Sf2pfProps: C109_exact.
    BBoxFloatProps: C114_truth, C114_has_point, C114_contains, C114_intersection,
    C114_union, C114_union_ignores, C114_collide, C114_center, C114_translate_ordered.
    PfFloatProps: C118_accepted, C118_round_trip, C118_ends, C118_hangs.
    ProjMapProps: C120_mercator, C120_emercator, C120_tmercator, C120_omercator.
    RasterAAProps: C122_blend, C122_gray, C122_colour, C122_flat, C122_last_row,
    C123_gray, C123_colour, C123_repeated, C123_closed.
    GradientFloatProps: C124_get, C124_hex, C124_beyond.
    GridFloatProps: C125_close, C125_encodable, C125_maximum_refused, C125_stable,
    C125_readable.
    StatsFloatProps: C126_sum, C126_avg, C126_var, C126_covar, C126_corr,
    C126_transparent, C126_fails, C126_zero_sign_refuted.
    SimplifyFloatProps: C127_nearest, C127_error, C127_open, C127_closed, C127_zero_cell,
    C127_binary.
    AngleFloatProps: C128_corangle.
    ScanFloatProps: C129_marks, C129_fill_bw, C129_fill_gray, C129_fill_colour.
    NamesFloatProps: C130_strerr, C130_mapping, C130_jaro, C130_jaro_range, C130_self,
    C130_winkler.
    BBoxScaleProps: C131_area, C131_order, C131_translate, C131_scale, C131_divide.
    CompassFloatProps: C133_cardinal, C133_hours, C133_collinear_integers,
    C133_collinear_lines, C133_collinear_close, C133_collinear_refuted.
    StatsFloatGiniProps: C135_kakwani, C135_deaton, C135_deaton_order,
    C135_kakwani_order_refuted, C135_equal, C135_fails.
    VectorFloatProps: C136_box, C136_page.
    GeoConvexProps: C137_geocentroid.
    FloatTextProps: C139_nearest, C139_overflow, C139_sign, C139_exact, C139_order,
    C139_same, C139_back, C139_strict.
    FloatReprProps: C140_back, C140_apart, C140_valid, C140_shortest, C140_length,
    C140_same, C140_again, C140_fits, C140_table.
    NumTextProps: C141_box, C141_box_refuted, C141_box_text, C141_real_text,
    C141_real_repr, C141_number.
    PsNumProps: C142_tokens.
    JsonProps: C143_frame, C143_apart, C143_document, C143_document_apart.
    FrameFloatProps: C144_again, C144_stable, C144_close.
    FloorDivProps: C145_cells, C145_order, C145_quotient_refuted.
    MeterFloatProps: C146_shown, C146_forward.


## What is modelled and what is not

All functions of the modules `bbox`, `coord`, `proj`, `grid`, `pf`, `rg`, `raster`,
`stats`, `table`, `gradient`, `names`, `frame`, `tqdm`, `vector` and `shapefile` are
modelled, except:

* `recipes.py`: its line 21 is `/////`, so it is not a Python program.
* `_Array.__repr__`.
* names.py:146-169, the body of `abbreviations` after the unbound name `extras`:
  it is never reached (C61_abbreviations).
* The external programs that `vector.Canvas.export`, `vector.export` and
  `vector.animation` run: gs and convert.
* shapefile.py: `b`, `u` and `is_string` for Python 2 (the encoding is UTF-8),
  `test`, and the private method `Editor.__fieldNorm`, which is never called.
* The file system: paths, permissions, I/O errors, buffering. A file is the bytes
  written to it.
* Time and terminals in tqdm are arguments of the model: any clock readings.
* `print`, logging and warnings.

Simplifications inside modelled functions are noted in the comment of the
definition. The most important ones:

* Trigonometric functions are the real functions. Python's `math` functions round,
  and no theorem of C15-C18 and C22-C25 is about the rounded values.
* The text a float prints as is modelled for attribute tables, boxes, real variables, drawing files and frame files
  (C139 to C143); elsewhere (the frames of C62) the text is an argument or a symbol.
* The distances of pf.py's writer use a function given as argument for doubles.
* In shapefile.py a coordinate is a float, given by its 64-bit pattern. C94_order
  shows that the order on patterns is that of the floats.
* Reading `.dbf` numbers with a fraction gives their text.
