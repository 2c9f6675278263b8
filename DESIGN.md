# Formal model of gosu-pp: design and trusted base

Source under study: `/repo` (Wieku/gosu-pp, Go). The library parses `.osu`
beatmaps, computes star ratings and strain peaks, and computes performance
points (pp). The model and all proofs are in Rocq (Coq 8.16.1), directory
`rocq/theories`, logical name `Verif`.

## 1. Layout

| Files | Role |
|---|---|
| `GoBase`, `GoFloat`, `GoString`, `GoSort` | How Go's run time, arithmetic and standard library are represented |
| `Mods`, `Difficulty`, `Timing`, `Curves`, `Objects`, `Stacking`, `Parser`, `Preprocessing`, `Skills`, `DiffCalc`, `PP` | The model: one definition per Go function, each with a comment citing file and lines |
| `*Lemmas`, `*Proofs`, `*Bounds`, `*Chains`, `*Term`, `*Total` and the other scripts (`SliderLoops`, `SliderFree`, `CurveStart`, `CurveLookup`, `PPFinal`, `PPMono`, `PPWide`) | Proof scripts, no new model content |
| `Spec*` | Small independent specifications used in theorem statements |
| `Prop*` | The property theorems `C01_...`; each is followed by a concrete instance showing that its hypotheses can be met, and by `Print Assumptions` |

`properties.jsonl` lists the properties, `MANIFEST.json` maps each to theorems,
`seeded/LOG.jsonl` records the mutation experiments, `validation/` contains an
extraction of the model that was run on the maps in `/repo/test` (not part of
the proof build; see section 5).

## 2. How Go is represented

* **Outcomes.** `res A = Ok a | Panic | Hang`. `Panic` is a Go run-time panic
  (index out of range, nil dereference, bad `make`). A loop that is not
  structurally bounded takes a `fuel`; `Hang` means the fuel ran out. "Never
  terminates" is stated as `forall fuel, ... = Hang`, "terminates" as
  `exists fuel, ... <> Hang`, and the result does not depend on the fuel once
  it is sufficient (fuel monotonicity theorems).
* **float64/float32.** Exact IEEE-754 binary64/binary32 from Flocq
  (`BinarySingleNaN`), round to nearest even, one NaN, no fused multiply-add
  (this is what the Go compiler emits on amd64; on arm64/ppc64/s390x it may
  fuse). Constants are folded exactly and rounded once, as the Go spec says.
  `int(x)` out of range gives the amd64 result `MinInt64`.
* **Transcendental functions** (`math.Pow, Log10, Cbrt, Sin, Cos, Acos, Atan2`)
  are not specified by IEEE; the whole model is parametric in a record `libm` of
  these functions. A theorem that needs a fact about them has it as a visible
  hypothesis, and next to the theorem an instance satisfying it is exhibited.
* **int/int64** are `Z`; wrap-around (`wrap64`) is written where the code could
  overflow for API inputs (pp hit counts). Counters bounded by the length of the
  input are plain `Z`.
* **Strings** are byte lists. `strings.*`, `strconv.*`, `bufio.ScanLines`,
  UTF-8 decoding and `sort.*` are modelled from their documentation
  (`GoString`, `GoSort`). `ParseFloat` is the exact decimal/hex value rounded
  once. `sort.SliceStable` is insertion sort (the stable result is unique for a
  strict weak order). `sort.Slice` is taken to be stable too; the code only
  uses it on floats, where ties are equal numbers.
* **Objects and pointers.** Hit objects are records in a list; a pointer is a
  list index. The objects of a map are assumed distinct pointers (the parser
  allocates each one). The Bezier approximator's scratch buffers *are* modelled
  as a mutable heap with addresses, because sharing matters there.
* **Memory.** `make` panics for negative or absurd sizes; running out of memory
  is not modelled.
* **golang.org/x/text** (`BOMOverride`, UTF-16 decoding) is not in `/repo`; it is
  modelled from its documentation in `Parser.decode_text`. Theorems about
  parsing quantify over the decoded text and hence do not depend on it, unless
  they mention bytes.

## 3. What is modelled and what is not

Modelled completely: `beatmap/difficulty`, `beatmap/timing`,
`beatmap/objects` (parsing, slider timing, positions; getters/setters inlined),
`beatmap/{beatmap,parser,pause,stackleniency}.go`, `beatmap/audio` (the sample fields it
carries are not observable in any property; see the comment in `Objects`),
`math/{curves,math32,mutils,vector}` (what nothing in the library calls is in `Helpers` and `CurveAngles`),
`performance/osu` (all of `preprocessing`, `skills`, `difficulty.go`, `pp.go`),
`files/utf.go`.

Not modelled: the wrappers of `math32` nothing calls (Asin, Atan, Tan, Inf, NaN, IsNaN),
`Vector2f.{X64,Y64,String,Copy}`, the getters of `Pause`;
reader errors (the reader is taken to deliver the whole text);
concurrency (the library has none); memory exhaustion.

## 4. Per-property plan

Conventions: "structural" = induction over lists/fuel, no float reasoning;
"float" = Flocq reasoning (rounding is monotone, bounds via `B2R`).
A property that is false as a universal statement is turned into an exact
characterisation plus a witness (`_refuted` in the theorem name).

| Id | Modelled by | Plan |
|---|---|---|
| C01 | `mods_string`, `parse_mods` | bit-vector induction over the 32 table entries; formatting is a concatenation of distinct two-byte names, chunking recovers them |
| C02 | `parse_mods`, `decode_rune` | invariant of the rune loop: index stays below length; panic iff a rune starts at the last byte of an odd-length text |
| C03 | `parse_mods` | fold of `lor` is commutative and idempotent; every chunk contributes a bit below 32 |
| C04 | `compatible` | boolean algebra on bits, `Z.land` monotone |
| C05 | `score_multiplier` | the value is a function of 11 booleans; enumerate all 2^11 (exhaustive, not bounded) |
| C06 | `set_*`, `calculate` | each setter = recalculation from base fields; induction over the call sequence |
| C07-C09 | `difficulty_rate`, `calculate` | float: monotonicity of rounding, endpoints by computation |
| C10 | `calculate` | computation for speed; float error analysis for ARReal/ODReal |
| C11 | `search`, `point_at` | binary-search invariant |
| C12, C13, C15 | `finalize_points` | stable insertion sort lemmas; induction over the loop |
| C14 | `get_ratio` | float: clamp range and rounding monotonicity |
| C16-C24 | `parse_lines`, `finish_parse` | fold invariants over the list of lines |
| C25-C29 | `Stacking` | loop invariants over index arrays |
| C30-C31 | `new_multicurve`, `mc_point_at` | float: sums of non-negative lengths; binary-search invariant |
| C32-C33 | `slider_set_timing` | tick loop: monotone float counter; non-termination by fuel induction |
| C34-C36 | heap `create_bezier` | simulation against recursive de Casteljau; fixpoint of the subdivision |
| C37 | `binomial` | induction; computation for the counterexample |
| C38-C42, C44, C46 | `Skills`, `DiffCalc` | structural: prefix lemma for the two loops, sections depend on start times only |
| C43 | `new_dobj` | float: `fmax` |
| C45 | `stars_from_raw`, `compute_*` | case analysis |
| C47, C48 | `ppv2x` | unfolding; all receiver fields overwritten |
| C49, C50 | `pp_acc`, `effective_miss_count` | float: bounds through `B2R` |
| C51, C52 | `compute_*` | float + explicit hypotheses on `math.Pow`/`Log10` (range and monotonicity) |
| C53 | `calculate` | float: error analysis against the published piecewise formulas |
| C54-C56, C60, C61 | `Parser`, `GoString` | fold invariants over lines; scanner and decoder by induction on bytes |
| C57 | `mc_point_at` | binary-search invariant over the section lengths |
| C62, C64 | `Curves` | float: bounds on coordinates and lengths; flattening terminates by halving |
| C58 | `arc_*` | float: bound on the number of steps; hypotheses on the range of `Atan2` and on the radius |
| C59 | all fuelled functions | a result other than `Hang` stays the same with more fuel |
| C63 | `parse_lines` | combination of the safety (C23) and termination (C33, C58, C62) results; hypotheses on the rows |
| C65, C66 | `Skills`, `DiffCalc` | structural: the strain loop against the list of sections |
| C67-C69 | `Skills`, `DiffCalc`, `PP` | float: a chain of upper bounds through every formula, hypotheses on `libm` ranges |
| C70, C71 | `Preprocessing` | float: error analysis against the real plane |
| C72 | `GoString` | exact decimal value, correct rounding |
| C73 | `create_object`, `slider_set_timing` | structural: rows followed through sorting, timing and stacking |
| C74 | `Curves` | structural; type C by a float32 absolute-error calculus (`NearLemmas`) |
| C75 | `slider_progress` | float: `math.Mod` by 2 is exact |
| C76 | `new_cirarc`, `approximate_arc` | error analysis against the arc in the real plane; hypotheses on the accuracy of Sin, Cos, Atan2 |
| C77 | `arc_centre_of` | error analysis against the circumcentre |
| C78 | parser, difficulty calculation and pp together | sizes of velocities, end times, ticks, positions and stack offsets of every object of an ordinary file, then C63, C41, C67 and C68; `low_stacks` (no stack index above 2^20) stays a hypothesis on the parsed map; C83 discharges it for maps with nothing near slider tails |
| C79 | `Timing`, `slider_set_timing` | float: relative-error calculus (`RelLemmas`) against real formulas; the base beat structurally, from the position of the governing point |
| C80 | `PP` | float: the same calculus extended to powers and logarithms (`RelPow`), one lemma per factor; hypotheses: `pow_close`, `log_close` (2^-40), no play at a jump of the guessed breaks, no vanishing miss penalty |
| C81 | `Stacking` | loop invariants over the index of each object, for a list that differs from the input in stack data only (`like`) |
| C82 | `Stacking` | structural: every pass on a concatenation, when the loops stop at the gap |
| C83 | `Stacking`, parser | invariant: index at most the number of later objects |
| C84 | `aim_value` | float: absolute errors in units of 2^-40 (`UnitLemmas`), one lemma per bonus; `rhythm_clear` excludes gaps a rounding error from 4:5 |
| C85 | `speed_value`, `speed_bonus` | the same, relative errors of 2^-50 for window and ratios; for the rhythm a simulation between the float state and the real state (`in_step`), with `step_clear` for the comparisons |
| C86 | `flash_value` | relative errors through the sum of C69 |
| C87 | `difficulty_value_of` | two sorts of close lists are close pointwise (`SortReal`), then errors through the weighted sum |
| C88 | `Skills`, sections | relative error per decay, summed as a geometric series; the carried share per section |
| C89 | `calculate_single` | C84-C88 composed for `plain` maps |
| C90 | `stars_from_raw` | relative errors; the joint value is a norm with exponent 3.3, so Lipschitz (convexity of powers from `1 + x <= exp x`) |
| C91 | `ppv2x` | two-state chains of the monotonicity lemmas behind C52; the refutations through the real formulas of C80 |
| C92 | `Helpers` (`vmid`, `vnor`, `vrotate`, `vdstsq`, `angle_between`, `ground`, `lerpF32`) | relative errors of float32 sums and square roots; overflow of the square for the refutations |
| C93 | `Helpers` (`new_bezier`, `new_catmull`, `cm_start_angle`), `bezier_point_at` | weights of up to four points against de Casteljau's construction; signs of sums of distances; a computed Catmull curve for the refutation |
| C94 | `ppv2x`, `built` | the two-state chains of C91 with two difficulties; the refutations through the real formulas of C80 |
| C95 | `all_results` (the five `Calculate*` functions) | a simulation between two runs parametrised by relations on times, section ends and positions; sign-free f32 arithmetic (`mir`), exact arithmetic on whole times |
| C96 | the rest of `Helpers`, `Mods`, `Timing`, `Difficulty.clampI` | exactness of the remainder (Flocq's `format_REM_ZR`), angle errors, `filter` over the mods table |
| C97 | `Helpers` (`calculate_length`), `Curves` (`catmull_length`, `gceil`) | error of a sum of distances, tail sums of the Bernstein polynomials, triangle inequality |
| C98 | `Parser` (`parse_lines`, all section parsers) | commuting settings, uniqueness of a stable sort, order-free folds |
| C99 | `Skills` (`process`, `difficulty_value_of`), `DiffCalc` (`get_stars`, `calculate_step`, `calculate_strain_peaks`) | counting the peaks above a bound, monotone rounding |
| C100 | `Curves` (`is_straight`, `arc_centre_of`, `new_cirarc`, `approximate_arc`, `process_perfect`) | C76 and C77 put together, exact whole-number arithmetic, the order of angles on a circle |
| C101 | `Curves` (`create_bezier`, `subdivide`, `is_flat`, `bz_approximate`, `process_bezier`) | Blossoms of real Bezier curves for the halves, second differences for the distance from chord and control polygon, rounding of every midpoint over at most 14 halvings |
| C102 | `Curves` (`new_multicurve_t`, `trim_lines`, `mc_point_at`), `Objects` (`slider_position_at`, `slider_progress`) | Where the cut line ends in real numbers, errors of the section sums, the looked-up section and the interpolation; C75 for the time, C101 for the Bezier curve |
| C103 | `Parser` (slider rows), `Timing` (`get_velocity`), `Objects` (`slider_set_timing`, `slider_position_at`), `Curves` | C73 for the row, C79 for the tempo and C102 for the ball; the number of spans gone by computed from the rounded span and end time is near the one of the formula |
| C104 | `Curves` (`process_catmull`, `approximate_arc`, `mc_point_at`) | Chord error of a cubic and of a circle in closed form; C74, C76, C100 for the ends of the lines, C102 for the ball |
| C105 | `Objects` (`slider_set_timing`), `Timing`, `Parser` | Relative errors of C79; the accumulated tick distance after j steps is off by at most j^2 T 2^-52; the two exits of the loop bound the count from both sides; C73 for the shape of the point list |
| C106 | `PP` (`ppv2x`), `DiffCalc` (`calculate_step`) | C80 for the values, monotone real formulas of a faultless play, C99 and C40 for ratings and counts along the steps; a spinner more under Spun Out as the counterexample |
| C107 | `Curves` (`create_bezier`, `process_*`, `new_multicurve_t`), `Parser` | Second differences shrink fourfold per halving (as in C62), so the subdivision tree has depth n; the loop runs once per node and adds one piece per leaf |
| C108 | `DiffCalc` (strains, peaks, `difficulty_value_of`, `calculate_single`), formulas of C88–C90 | Strains are geometric sums over gaps of at least g ms, the weights of the peaks add up to 10, and every term of the aim, speed and rhythm formulas is bounded on its own; C89 and C90 carry the bound to the floats |
| C109 | `PP` (`ppv2x` and its four values), `Difficulty` (the rates as played) | C80 for the values; each real formula is a core times one factor of AR and one of OD, whose order is known; equality outright where the AR factor is 0 |
| C110 | `CurveAngles` (`mc_start_angle`, `mc_end_angle`), `Curves` (`mc_line_at`, `mc_*_angle_at`) | The binary-search invariant of C57 for the line, C96 for its angles; a last line too short to add to the length as the counterexample |
| C111 | `GoString` (`trim_space`), `Parser` (`tokenize`, `tokenize2`, `get_section`) | White space is the 25 code points of Unicode's White_Space, written out and encoded as UTF-8 in `SpecSpace`; TrimSpace is shown to leave the one string without any at its ends that is surrounded by nothing else. First bytes of white space are no continuation bytes, so none straddles the cut. |
| C112 | `GoString` (`parse_f64`, `parse_f32`) | The grammar of `strconv.ParseFloat` in `SpecLiterals` (decimal and hexadecimal, underscores between figures), shown equivalent to the scanner both ways; values as in C72, exponents below 100000. |
| C113 | the whole reader, `parse_bytes` | `SpecSheet` writes a map (version, names, settings, tempos, circles, spinners) as a file; the proof shows reading cannot fail on it and composes C16-C24, C54-C56, C61, C72 and C111. |
| C114 | the whole reader with `parse_slider` and `new_multicurve_t` | the same sheets with sliders; composes C63 (termination), C64 (length of straight sliders) and C73 (slider rows) with C113's reading lemma. |
| C115 | `set_timing` (Slider) through the whole reader | end times over the decimals of the sheet: C55 (the point looked up), C64 (length), C72 (decimals) and C79 (slide time) composed, with an error bound in real numbers. |
| C116 | everything from `parse_bytes` to `ppv2x` | C78 instantiated with the sheets of C115: its conditions on rows are derived from bounds on the numbers written; the height of stacks is left as a condition where there are sliders. |
| C117 | `new_slider`, `slider_set_timing`, `calculate_single` on written maps | C105 and C40 instantiated with the sheets of C115; counts too close to call on paper are left open. |
| C118 | `slider_set_timing` on written maps | C105 with the numbers on paper put for those read; the error is the one of the length of the curve, once a span. |
| C119 | `parse_lines`, `finish_parse` | Two accepted files that agree on what is played; `same_play` in `PropRetitled.v` lists what that is and leaves the rest of the lines free. |

## 5. Validation of the model

`validation/` extracts the model to OCaml (floats mapped to hardware doubles)
and runs it on the three maps in `/repo/test`. All values asserted by
`/repo/test/osu_sr_test.go` (star ratings, pp for no-mod, DT, HR) are reproduced
within the test's tolerance 1e-4, the two values given with 18 digits to all
printed digits, and the UTF-16 file gives the same result as the UTF-8 one.

## 6. Trusted base

Coq's kernel (8.16.1, including `vm_compute`), Flocq's and the standard
library's definitions used in the statements, and the model itself: section 2
and 3 say how it was written from the Go text and what it leaves out. Nothing
checks mechanically that the model and the Go text agree.

`Print Assumptions` lists only axioms of Coq's standard library, measured over
all theorems named in `MANIFEST.json` at C119:

| Axioms listed | Theorems |
|---|---|
| none (closed under the global context) | `C113_order`, `C115_tempo`, `C111_trim`, `C111_unique`, `C111_fields`, `C111_setting`, `C111_section`, `C111_padding`, `C01_mod_string_round_trip`, `C03_parse_mods_closed`, `C03_acronyms_denote_union`, `C03_order_and_repetition`, `C04_compatible_iff`, `C04_compatible_downward`, `C11_empty_panics`, `C13_base_beat_length`, `C96_has_points`, `C96_full_names`, `C96_numbers`, `C96_names_differ`, `C96_clamp`, `C37_outside`, `C37_edges`, `C37_two`, `C37_refuted`, `C40_kinds`, `C61_encodable`, `C72_int`, `C72_not_int` |
| `Classical_Prop.classic` | `C02_parse_mods_panics_iff`, `C02_ascii_odd_panics`, `C61_decoded`, `C61_repaired`, `C61_well_formed` |
| `ClassicalDedekindReals.sig_forall_dec`, `FunctionalExtensionality.functional_extensionality_dep` | `C74_through`, `C87_sorted`, `C93_casteljau`, `C101_casteljau`, `C101_covers`, `C101_covered`, `C112_unique` |
| these two and `ClassicalDedekindReals.sig_not_dec` | `C76_side`, `C97_inscribed` |
| all four of these | all others (they mention floats, whose Flocq definitions use the real numbers) |

Hypotheses on `libm` in a theorem are not axioms, but they are assumptions about
Go's `math` package that nobody has proved of it. The instances beside the
theorems show that they can be met, by simple functions that are often far from
the real ones (for example `zero_libm`). `ideal_libm` (C76) gives Sin, Cos and
Atan2 of the real numbers with an error below 2^-48; `exact_libm` (C80) rounds
the real functions correctly.

## 7. Reading `seeded/LOG.jsonl`

Each entry is one wrong model. The scratch build admits every proof that no
longer goes through and continues; `lemmas_failed` are the proofs that broke,
`theorems_failed` the theorems that depend on one of them. A broken proof is
not a proof that the theorem became false, so `theorems_failed` says too much:
usually one or two of the listed theorems are really false of the wrong model
and the others only share a lemma with them. A proof stopped after 240 seconds
counts as broken; entries made since C75 name those in `timed_out`. An empty list
is reliable: everything still proves. `earlier_attempt` is the result before
the theorems in `theorems_tightened` existed. The entry `ctl1`, when present, is
a control without any edit.
