{"id": "C01", "title": "Mod string round trip", "statement": "Formatting a mod combination with Modifier.String and parsing the text back with ParseMods gives the same Modifier value, for every combination of the 32 defined mods in which Nightcore comes with DoubleTime, Daycore with HalfTime and Perfect with SuddenDeath; ParseMods does not panic on that text.", "quantifier": "every Modifier value in [0, 2^32) that is closed under NC->DT, DC->HT, PF->SD", "why_tests_cant": "there are 2^32 combinations and the implication rules interact with the masking String performs", "anchors": ["beatmap/difficulty/mods.go: Modifier.String, ParseMods, modsString"]}
{"id": "C02", "title": "ParseMods panics exactly on odd-ended text", "statement": "ParseMods returns a value for every text except those whose byte length is odd and whose last byte starts a rune of its own (in particular every ASCII text of odd length); on those it panics with an index out of range.", "quantifier": "every byte string given to ParseMods", "why_tests_cant": "the input space is all strings; the panic set must be characterised in both directions", "anchors": ["beatmap/difficulty/mods.go: ParseMods"]}
{"id": "C03", "title": "ParseMods output is closed and order-insensitive", "statement": "Every value ParseMods returns uses only the 32 defined bits, contains DoubleTime whenever it contains Nightcore, SuddenDeath whenever Perfect, HalfTime whenever Daycore; and reordering the two-letter acronyms of the text, or repeating them, does not change the result.", "quantifier": "every text made of two-letter chunks and every permutation of it", "why_tests_cant": "permutations and lengths are unbounded", "anchors": ["beatmap/difficulty/mods.go: ParseMods"]}
{"id": "C04", "title": "Mod compatibility is downward closed", "statement": "If a mod combination is reported Compatible then every combination obtained by removing mods from it is also Compatible; and Compatible is false exactly when Target is present or one of the documented conflicting pairs is present.", "quantifier": "every pair of non-negative Modifier values, one a subset of the other", "why_tests_cant": "2^63 values, quadratic number of pairs", "anchors": ["beatmap/difficulty/mods.go: Modifier.Compatible, Modifier.Active"]}
{"id": "C05", "title": "Score multiplier depends only on scoring mods and is bounded", "statement": "GetScoreMultiplier depends only on NoFail, Easy, HalfTime, Hidden, HardRock, DoubleTime, Flashlight, Relax, Autopilot, SpunOut and ScoreV2; it is always a number between 0 and 1.6, and it is 0 exactly when Relax or Autopilot is active.", "quantifier": "every int64 Modifier value, in IEEE binary64 arithmetic", "why_tests_cant": "2^64 inputs; floating point products", "anchors": ["beatmap/difficulty/mods.go: Modifier.GetScoreMultiplier"]}
{"id": "C06", "title": "Difficulty values are never stale", "statement": "After any sequence of SetHP, SetCS, SetOD, SetAR, SetMods and SetCustomSpeed calls on a Difficulty, every derived attribute (hit windows, preempt, radius, speed, ARReal, ODReal, HPMod, SpinnerRatio) equals that of a Difficulty freshly built with the final base values, mods and speed; the order of the calls does not matter beyond the last value of each setting.", "quantifier": "every finite sequence of setter calls from every starting Difficulty", "why_tests_cant": "histories are unbounded", "anchors": ["beatmap/difficulty/difficulty.go: NewDifficulty, calculate, Set*"]}
{"id": "C07", "title": "Difficulty attributes stay in their documented ranges", "statement": "With base values in [0,10] and any mods, CircleRadius is in [9.6, 54.4], Preempt in [450,1800], Hit300 in [20,80], Hit100 in [60,140], Hit50 in [100,200], SpinnerRatio in [3,7.5], and Hit300 < Hit100 < Hit50; in particular CircleRadius is never zero so scaling factors are finite.", "quantifier": "every quadruple of binary64 base values in [0,10] and every mod combination", "why_tests_cant": "uncountably many (2^62-ish) float inputs; rounding could push a value past the bound", "anchors": ["beatmap/difficulty/difficulty.go: DifficultyRate, calculate"]}
{"id": "C08", "title": "Difficulty attributes are monotone in the base values", "statement": "Raising CS never enlarges the circle radius, raising AR never lengthens preempt, raising OD never widens a hit window and never lowers the spinner ratio, for any fixed mods, including the effect of floating point rounding.", "quantifier": "every pair of ordered binary64 base values in [0,10], every mod combination", "why_tests_cant": "rounding is not visibly monotone in the formula; pairs of floats cannot be enumerated", "anchors": ["beatmap/difficulty/difficulty.go: DifficultyRate, calculate"]}
{"id": "C09", "title": "HardRock never makes a stat easier, Easy never harder", "statement": "For the same base values in [0,10], HardRock gives a Preempt, radius and hit windows no larger than no-mod, and Easy gives them no smaller than no-mod.", "quantifier": "every binary64 base value in [0,10]", "why_tests_cant": "all floats; HardRock multiplies and clamps", "anchors": ["beatmap/difficulty/difficulty.go: calculate"]}
{"id": "C10", "title": "Clock rate and real AR/OD", "statement": "With custom speed 1 the Speed attribute is exactly 1.5 with DoubleTime, 0.75 with HalfTime and not DoubleTime, and 1 otherwise; without speed mods ARReal and ODReal equal the modded AR and OD up to a rounding error below 1e-12.", "quantifier": "every Modifier value and every binary64 AR/OD in [0,10]", "why_tests_cant": "all floats, all mods; the two conversions are written independently", "anchors": ["beatmap/difficulty/difficulty.go: GetModifiedTime, DiffFromRate, DifficultyRate"]}
{"id": "C11", "title": "Timing lookup returns the active point", "statement": "After FinalizePoints, GetPointAt(t) returns the last timing point (in file order among equal times) whose time is <= t, or the first point if there is none, for every finite or infinite t; it panics exactly when there are no points. GetOriginalPointAt does the same among the stored uninherited points.", "quantifier": "every list of points added with non-NaN times and every query time that is not NaN", "why_tests_cant": "binary search correctness for every list length and query", "anchors": ["beatmap/timing/timing.go: AddPoint, FinalizePoints, GetPointAt, GetOriginalPointAt"]}
{"id": "C12", "title": "FinalizePoints is a stable sort that keeps every point", "statement": "After FinalizePoints the stored points are a permutation of the added ones, ordered by time, with points of equal time kept in the order added, and nothing but the base beat length of inherited points changed.", "quantifier": "every sequence of AddPoint calls with non-NaN times", "why_tests_cant": "unbounded lists", "anchors": ["beatmap/timing/timing.go: FinalizePoints"]}
{"id": "C13", "title": "Inherited points take the beat length of the governing uninherited point", "statement": "After FinalizePoints every point's base beat length is the raw beat length of the nearest point at or before it that is either not inherited or the first in the list.", "quantifier": "every sequence of AddPoint calls", "why_tests_cant": "unbounded chains of inherited points", "anchors": ["beatmap/timing/timing.go: FinalizePoints, GetBaseBeatLength"]}
{"id": "C14", "title": "Slider velocity ratio is clamped", "statement": "GetRatio is exactly 1 for non-negative or NaN beat lengths and otherwise a number in [0.1, 10], so it is never 0, infinite or NaN; GetBeatLength is the base beat length times it.", "quantifier": "every binary64 beat length including infinities and NaN", "why_tests_cant": "all floats; a float32 round trip happens inside", "anchors": ["beatmap/timing/timing.go: ControlPoint.GetRatio"]}
{"id": "C15", "title": "FinalizePoints twice", "statement": "Calling FinalizePoints again leaves the points used by GetPointAt unchanged, but the list behind GetOriginalPointAt receives every uninherited point a second time, so FinalizePoints is not idempotent.", "quantifier": "every timing list with at least one point and non-NaN times", "why_tests_cant": "statement over all lists", "anchors": ["beatmap/timing/timing.go: FinalizePoints", "beatmap/beatmap.go: BeatMap.FinalizePoints"]}
{"id": "C16", "title": "Parse succeeds exactly when the file has an identity and a timing point", "statement": "When ParseFromByte/ParseFromReader returns (does not panic or hang), it returns an error if and only if title, artist and creator are all empty or no timing point line was read; on success the map has at least one timing point and every slider refers to one of them.", "quantifier": "every input text", "why_tests_cant": "all files", "anchors": ["beatmap/parser.go: ParseFromReader, ParseFromByte"]}
{"id": "C17", "title": "Parsed objects are sorted and numbered", "statement": "On success HitObjects are ordered by start time (equal times in file order), and the object at position i has ID i.", "quantifier": "every input text whose start times are not NaN", "why_tests_cant": "all files, stable sort", "anchors": ["beatmap/parser.go: ParseFromReader"]}
{"id": "C18", "title": "Combo numbering", "statement": "On success the combo fields of the objects are those of the documented rule: the first circle/slider after a spinner and every object flagged new combo starts at number 1 and increments the combo set by 1 and the colour-skip set by 1 + its colour offset; every other object gets the previous number plus 1 and the same sets.", "quantifier": "every parsed object list", "why_tests_cant": "arbitrary interleavings of spinners and new-combo flags", "anchors": ["beatmap/parser.go: ParseFromReader"]}
{"id": "C19", "title": "Object counters agree with the object list", "statement": "On success Circles, Sliders and Spinners equal the number of hit-object lines of each type (mania hold notes counted as sliders); if there are no mania hold notes their sum is the length of HitObjects, and each equals the number of objects of that kind.", "quantifier": "every input text", "why_tests_cant": "all files", "anchors": ["beatmap/parser.go: ParseFromReader, parseHitObjects", "beatmap/objects/util.go: CreateObject"]}
{"id": "C20", "title": "Parsed HP/CS/OD/AR lie in [0,10] unless the text says NaN", "statement": "On success each of HP, CS, OD, AR is either a number in [0,10] or NaN, and it can be NaN only if a Difficulty line carried a NaN literal; a file with 'CircleSize:NaN' really produces NaN, so the clamp does not guarantee a number.", "quantifier": "every input text", "why_tests_cant": "all files and all float literals", "anchors": ["beatmap/parser.go: parseDifficulty", "math/mutils/utils.go: ClampF64"]}
{"id": "C21", "title": "AR defaults to OD only when absent", "statement": "On success, if the Difficulty section has an ApproachRate line the map's AR is the clamped value of the last such line regardless of where OverallDifficulty appears; if it has none, AR equals the final OD (5 if OD is absent too).", "quantifier": "every sequence of Difficulty lines in any order", "why_tests_cant": "orders and repetitions are unbounded", "anchors": ["beatmap/parser.go: parseDifficulty"]}
{"id": "C22", "title": "Comment lines and unknown content are inert", "statement": "Inserting, anywhere in the input, a line that starts with // does not change the result of parsing; nor does a line in a section the parser does not know (or before the first section), unless it is a section header or starts with 'osu file format v', which is honoured anywhere; nor does inserting a whole unknown section before a header or at the end.", "quantifier": "every input text, every insertion point, every comment text", "why_tests_cant": "all files", "anchors": ["beatmap/parser.go: ParseFromReader, tokenizeN, getSection"]}
{"id": "C23", "title": "Well-formed files never panic the parser; some malformed ones do", "statement": "Call a file well formed when every hit object row has the fields its type needs, slider control points have colons, 0 <= repeats+1 <= 2^45, edge-sound lists are not longer than repeats+1, and background/break events have three fields. If in addition no circular-arc slider has a (computed) radius above 2^22, parsing does not panic, provided Atan2 returns angles in [-Pi,Pi]. Conversely any file that is parsed (successfully or with the corrupted-file error) is well formed and its arcs have finite radius; a row that lacks a field or a colon panics as soon as it is reached. In particular a three-point arc slider with ordinary coordinates (307.8:31.8, 314.7:58.4, 335.4:138.2) is never accepted.", "quantifier": "every list of lines, every fuel, every math library with Atan2 in [-Pi,Pi]", "why_tests_cant": "all files", "anchors": ["beatmap/parser.go", "beatmap/objects/*.go", "beatmap/pause.go"]}
{"id": "C24", "title": "Metadata fields hold the last value given; Version is not among them", "statement": "On success Title, Artist, Creator etc. hold the trimmed text after the first colon of the last Metadata line with that key; a 'Version:' line has no effect, so the difficulty name is always empty unless a line uses the key 'FileVersion'.", "quantifier": "every input text", "why_tests_cant": "all files", "anchors": ["beatmap/parser.go: parseMetadata"]}
{"id": "C25", "title": "Spinners are never stacked", "statement": "After parsing, every spinner has stack index 0 and stack offset 0 for no-mod, Easy and HardRock.", "quantifier": "every object list, file version, difficulty and stack leniency", "why_tests_cant": "arbitrary object lists", "anchors": ["beatmap/stackleniency.go: processStacking"]}
{"id": "C26", "title": "Stacking passes are isolated per mod group", "statement": "Computing stacking for Easy or HardRock does not change the no-mod indices or offsets of circles and sliders (and likewise for each other group), and never changes times, raw positions, order or anything else about the objects. Each group ends with what its own pass alone computes, whatever stack data the objects held before, so recomputing changes nothing.", "quantifier": "every object list and parameters", "why_tests_cant": "frame condition over all inputs", "anchors": ["beatmap/stackleniency.go", "beatmap/objects/hitobject.go: SetStackIndex, SetStackOffset"]}
{"id": "C27", "title": "Objects far apart are not stacked", "statement": "If every two circles or sliders are at least 3 pixels apart (heads, and slider tails from later heads), all stack indices are 0 under the new algorithm; under the old algorithm (file version < 6), which also counts spinners, the same holds when spinner positions are included. The 3-pixel test is exact on integer coordinates. Under the new algorithm indices are also 0 if objects are farther apart in time than the stack threshold.", "quantifier": "every object list", "why_tests_cant": "unbounded object lists, nested loops with carried state", "anchors": ["beatmap/stackleniency.go: applyNewStacking, applyOldStacking"]}
{"id": "C28", "title": "A pile of circles is stacked 0,1,2,... from the last", "statement": "For a map made of n circles at one position, each within the stack threshold of the next, the new algorithm (file version >= 6) gives the circles stack indices n-1, n-2, ..., 0 in time order.", "quantifier": "every n and every such pile", "why_tests_cant": "induction over n needed", "anchors": ["beatmap/stackleniency.go: applyNewStacking"]}
{"id": "C29", "title": "Stack offset follows the stack index", "statement": "After parsing, for each mod group the stack offset of every circle and slider is (-index*radius/10) in both coordinates with that group's circle radius, and GetStackedStartPositionMod adds exactly that offset (after mirroring y as 384-y for HardRock).", "quantifier": "every parsed map", "why_tests_cant": "all object lists", "anchors": ["beatmap/stackleniency.go: processStacking", "beatmap/objects/hitobject.go: modifyPosition"]}
{"id": "C30", "title": "Curve sections are monotone and lookups are in range", "statement": "For every curve built by NewMultiCurve/NewMultiCurveT, PointAt, getLineAt and the angle queries never index out of range for any t, including NaN and infinities; there is one section more than lines, the first is 0 and the last equals GetLength; section lengths never decrease when all line ends are finite, which is so for non-arc curves with coordinates up to 2^100 (untrimmed) or up to 2^21 with a desired length up to 2^40 and no line shorter than the float spacing unless its ends are equal (trimmed); without the last condition trimming can give NaN sections.", "quantifier": "every curve type, point list, desired length and t", "why_tests_cant": "all floats and lengths", "anchors": ["math/curves/multicurve.go"]}
{"id": "C31", "title": "Curve positions are clamped to the curve ends", "statement": "PointAt(t) for t <= 0 equals PointAt(0) and for t >= 1 equals PointAt(1); PointAt(0) is the first control point (as Go compares points) for every non-arc curve of finite length; a slider's position before its start and after its end equals the position at its start and end.", "quantifier": "every curve, every t; every slider, every time", "why_tests_cant": "all floats", "anchors": ["math/curves/multicurve.go: PointAt", "beatmap/objects/slider.go: PositionAt"]}
{"id": "C32", "title": "Slider score points: number and order", "statement": "When SetTiming returns, a slider with repeat count r >= 1 has exactly r*(k+1) score points for some k that is the same for every span, exactly r-1 of them reverse points, at the times the tick distances give, in non-decreasing time order if no time is NaN; calling SetTiming a second time adds the points again instead of replacing them.", "quantifier": "every slider and timing data, whenever timing computation returns", "why_tests_cant": "loop count is data dependent; sort over all inputs", "anchors": ["beatmap/objects/slider.go: SetTiming"]}
{"id": "C33", "title": "Slider tick generation: when it terminates", "statement": "SetTiming terminates for every slider whose tick distance is positive and at least 2^-50 of the curve length; with SliderMultiplier 0 or negative, a positive tick rate and a slider of positive length it never terminates, so parsing such a file hangs.", "quantifier": "every slider with tick distance bounded below; every fuel for the divergence", "why_tests_cant": "non-termination cannot be observed by a test", "anchors": ["beatmap/objects/slider.go: SetTiming"]}
{"id": "C34", "title": "Bezier flattening endpoints and connectedness", "statement": "Whenever BezierApproximator.CreateBezier returns on n >= 1 control points, the resulting polyline starts at the first control point and ends at the last, and ApproximateBezier gives consecutive segments that share endpoints.", "quantifier": "every control point list", "why_tests_cant": "subdivision depth is data dependent", "anchors": ["math/curves/bezierapproximator.go", "math/curves/approximation.go"]}
{"id": "C35", "title": "Bezier buffer reuse is harmless", "statement": "CreateBezier, which recycles two scratch buffers and a free list, computes exactly what the plain recursive de Casteljau subdivision computes.", "quantifier": "every control point list and every subdivision tree", "why_tests_cant": "aliasing across an unbounded worklist", "anchors": ["math/curves/bezierapproximator.go: CreateBezier, Subdivide, Approximate"]}
{"id": "C36", "title": "Bezier flattening can diverge", "statement": "There are finite control points (coordinates of the order of 2^23) on which CreateBezier never returns, because midpoint rounding reproduces the parent; so parsing a file with such a slider hangs.", "quantifier": "every number of loop iterations, on the witness", "why_tests_cant": "non-termination cannot be observed by a test", "anchors": ["math/curves/bezierapproximator.go: CreateBezier"]}
{"id": "C37", "title": "Binomial coefficient", "statement": "BinomialCoefficient(n,k) is the binomial coefficient for k <= 1 or n-k <= 1 (and 0 outside 0<=k<=n) for every n in int64 range; for k = 2 it is right exactly for odd n (4 <= n < 2^31), for instance it returns 4 for (4,2); hence Bezier.PointAt of five equal control points at t=1/2 is another point.", "quantifier": "every n, k", "why_tests_cant": "all integers", "anchors": ["math/curves/bezier.go: BinomialCoefficient, Bezier.PointAt"]}
{"id": "C38", "title": "Step results equal single results of prefixes", "statement": "CalculateStep returns one entry per object, and entry i (i >= 1) equals CalculateSingle of the first i+1 objects; in particular the last entry equals CalculateSingle of the whole map. For entry 0 they differ: it carries only the counts.", "quantifier": "every object list, difficulty, and every behaviour of the math library", "why_tests_cant": "all lists, incremental state", "anchors": ["performance/osu/difficulty.go: CalculateStep, CalculateSingle", "performance/osu/preprocessing/objects.go", "performance/osu/skills/skill.go: Process"]}
{"id": "C39", "title": "Strain peaks agree between entry points and have equal lengths", "statement": "CalculateStrainPeaks, CalculateSingleWithPeaks and CalculateStepWithPeaks return the same peaks; Aim, Speed, Total (and Flashlight when the mod is on) have the same length, so building them never indexes out of range.", "quantifier": "every object list and difficulty", "why_tests_cant": "all lists", "anchors": ["performance/osu/difficulty.go: getPeaks, Calculate*WithPeaks, CalculateStrainPeaks"]}
{"id": "C40", "title": "Object counts and max combo", "statement": "In the result of CalculateSingle, ObjectCount is the number of objects, Circles+Sliders+Spinners equals it, each is the number of objects of that kind, and MaxCombo is ObjectCount plus the total number of slider score points; along CalculateStep these never decrease.", "quantifier": "every object list", "why_tests_cant": "all lists", "anchors": ["performance/osu/difficulty.go: addObjectToAttribs"]}
{"id": "C41", "title": "When difficulty calculation panics", "statement": "CalculateSingle/CalculateStep panic on an empty object list (CalculateStrainPeaks does not), and any of them panics if some slider has no score points (repeat count 0); otherwise they return, provided the start times divided by the clock rate are at most 2^53 in size and either 0 or at least 2^-1000 in size - in particular for start times that are 0 or between 1 and 2^48 ms at clock rates between 1/16 and 16. The size condition is needed: with a second object at 1e-322 ms they panic.", "quantifier": "every object list", "why_tests_cant": "all lists", "anchors": ["performance/osu/difficulty.go", "performance/osu/preprocessing/lazyslider.go", "performance/osu/skills/*.go"]}
{"id": "C42", "title": "One strain peak per 400 ms section", "statement": "For start times (divided by the clock rate) at most 2^53 in size, and 0 or at least 2^-1000 in size, the section loop of a skill terminates and the number of peaks is determined by the start times alone: one more than the number of multiples of 400 ms between the first and the latest section. If after a first object in that range some object starts after 2^62 ms, where adding 400 has no effect in binary64, the loop never ends.", "quantifier": "every sequence of difficulty objects", "why_tests_cant": "float accumulation of section ends; non-termination", "anchors": ["performance/osu/skills/skill.go: processInternal"]}
{"id": "C43", "title": "Minimum strain time", "statement": "Every difficulty object has StrainTime >= 25 ms whenever its delta time is not NaN (which holds for finite start times and a finite non-zero clock rate), including for objects at equal or decreasing times, and StrainTime is the delta time itself when that is at least 25; TravelTime and MovementTime are 0, at least 25, or NaN.", "quantifier": "every pair of objects and clock rate", "why_tests_cant": "all floats", "anchors": ["performance/osu/preprocessing/object.go: NewDifficultyObject"]}
{"id": "C44", "title": "Without sliders the slider factor is exactly 1", "statement": "If a map has no sliders, aim with sliders and aim without sliders are the same computation and CalculateSingle reports SliderFactor = 1 (whenever the aim rating is finite).", "quantifier": "every slider-free object list, difficulty and math library", "why_tests_cant": "all lists; float division", "anchors": ["performance/osu/difficulty.go: getStarsFromRawValues", "performance/osu/skills/aim.go"]}
{"id": "C45", "title": "Relax and Flashlight gates", "statement": "With Relax the Speed rating is 0 and the accuracy pp is 0; without Flashlight the Flashlight rating and flashlight pp are 0 and the total does not depend on flashlight.", "quantifier": "every map, score and mod combination", "why_tests_cant": "all inputs", "anchors": ["performance/osu/difficulty.go: getStarsFromRawValues", "performance/osu/pp.go"]}
{"id": "C46", "title": "Star rating weighting ignores the order of peaks", "statement": "The difficulty value computed from strain peaks depends only on the multiset of peaks (for peaks that are numbers), whatever the math library; if log10 maps [1,10] into [0,1] it is also the same for every sorting algorithm, and it is 0 when all peaks are 0.", "quantifier": "every list of peaks and every permutation", "why_tests_cant": "factorially many orders", "anchors": ["performance/osu/skills/skill.go: DifficultyValue, reverseSortFloat64s"]}
{"id": "C47", "title": "PP default arguments", "statement": "PPv2x with a negative combo behaves as with the map's max combo, and with a negative 300 count as with ObjectCount minus the other counts.", "quantifier": "every attribute set and score counts", "why_tests_cant": "all integers", "anchors": ["performance/osu/pp.go: PPv2x"]}
{"id": "C48", "title": "PP does not depend on the receiver's past", "statement": "The value returned by PPv2x is a function of its arguments only: reusing a PPv2 struct after any history of calls gives the same result as a fresh one.", "quantifier": "every previous PPv2 state", "why_tests_cant": "all histories", "anchors": ["performance/osu/pp.go: PPv2x"]}
{"id": "C49", "title": "Accuracy is a number in [0,1]", "statement": "The accuracy used by PPv2x is never NaN and lies in [0,1] for all hit counts in int64, it is 1 for all-300 scores and 0 when there are no hits.", "quantifier": "every hit count quadruple", "why_tests_cant": "all integers, float division", "anchors": ["performance/osu/pp.go: PPv2x"]}
{"id": "C50", "title": "Effective miss count bounds", "statement": "For non-negative counts up to 2^31 the effective miss count is at least the number of misses, at most the number of hits, equals the number of misses (plus 100s and 50s under Relax) on maps without sliders or at full combo, and never increases with the combo.", "quantifier": "every attribute set and score", "why_tests_cant": "all integers and float rounding", "anchors": ["performance/osu/pp.go: calculateEffectiveMissCount"]}
{"id": "C51", "title": "PP values of valid scores are non-negative numbers", "statement": "For attributes and scores in the ranges a real play can have (ratings up to 2^20, slider factor in [0,1], counts up to 2^31, and with SpunOut at least as many hits as spinners), aim, speed, accuracy, flashlight and total pp are finite and >= 0, for every difficulty built from base values in [0,10], any mods and a clock rate in [1/8,8]; for a miss count larger than the number of objects the speed and total values can be NaN.", "quantifier": "every valid attribute set, score and mods, any math library satisfying the documented range facts of pow and log10", "why_tests_cant": "all floats", "anchors": ["performance/osu/pp.go: compute*Value, PPv2x"]}
{"id": "C52", "title": "A longer combo is never worse", "statement": "On maps without sliders, with everything else equal, aim, speed, accuracy and flashlight pp for any combo are at most those for the full combo; on every map, when math.Pow is monotone, each of them and the total are monotone in the combo.", "quantifier": "every score and every combo", "why_tests_cant": "all integers; float rounding must be monotone along the product chain", "anchors": ["performance/osu/pp.go: computeAimValue, computeSpeedValue, computeFlashlightValue"]}
{"id": "C53", "title": "Difficulty attributes are the published formulas", "statement": "With base values in [0,10] and any mods, Preempt, CircleRadius, the three hit windows, SpinnerRatio and HPMod differ by at most 1e-9 from osu!'s published piecewise linear formulas applied to the HardRock/Easy-adjusted base values in exact arithmetic.", "quantifier": "every quadruple of binary64 base values in [0,10] and every mod combination", "why_tests_cant": "all floats; the formula is evaluated in rounded arithmetic", "anchors": ["beatmap/difficulty/difficulty.go: DifficultyRate, calculate"]}
{"id": "C54", "title": "File version and General settings", "statement": "On success the file version is the number on the last 'osu file format v' line of the file (0 without one); Mode, PreviewTime and StackLeniency are the last values given in General (defaults 0, 0, 0.7; a NaN leniency becomes 0), and the audio name is all AudioFilename values run together.", "quantifier": "every input text", "why_tests_cant": "all files", "anchors": ["beatmap/parser.go: ParseFromReader, parseGeneral"]}
{"id": "C55", "title": "Timing data of a parsed map is that of its timing rows", "statement": "On success the map's timing points are exactly the timing rows in file order after FinalizePoints, missing fields having the documented defaults; GetPointAt at any time returns the row governing that time; SliderMultiplier and SliderTickRate are the last values given, and 0 when absent.", "quantifier": "every input text and time", "why_tests_cant": "all files", "anchors": ["beatmap/beatmap.go: ParsePoint", "beatmap/parser.go: ParseFromReader", "beatmap/timing/timing.go"]}
{"id": "C56", "title": "Lines of text", "statement": "Text made of lines ended by LF or CRLF is read as exactly those lines; a line that does not fit the 10 MiB buffer silently ends the file: it and everything after it is ignored without an error.", "quantifier": "every list of lines and endings", "why_tests_cant": "all texts, including lines of more than 10 MiB", "anchors": ["beatmap/parser.go: ParseFromReader"]}
{"id": "C57", "title": "PointAt walks the polyline by distance", "statement": "For every curve of finite non-zero length and every t that is not NaN, PointAt(t) lies on the line of the curve whose section contains length*clamp(t,0,1), at the fraction of that section which the distance gives; a curve without lines or of length 0 gives its first point.", "quantifier": "every curve built and every t", "why_tests_cant": "binary search over every section list, all floats", "anchors": ["math/curves/multicurve.go: PointAt"]}
{"id": "C58", "title": "Circular arc construction terminates", "statement": "For control points whose circumcircle, as computed, has radius at most 2^22, and an Atan2 with values in [-Pi,Pi], NewCirArc's angle loop turns at most once and ApproximateCircularArc returns a list of segments.", "quantifier": "all float32 points with computed radius up to 2^22", "why_tests_cant": "all float32 coordinates, including rounding of every intermediate value", "anchors": ["math/curves/cirarc.go", "math/curves/approximation.go"]}
{"id": "C59", "title": "Results do not depend on the loop bound", "statement": "Every loop of the model is run with a fuel bound. Once a parse, a difficulty calculation, a peak list or a curve returns or panics with some bound, every larger bound gives the same outcome, so each call has at most one outcome other than non-termination.", "quantifier": "all inputs and all loop bounds", "why_tests_cant": "ranges over every input and every number of loop turns", "anchors": ["beatmap/parser.go", "performance/osu/difficulty.go", "math/curves/bezierapproximator.go"]}
{"id": "C60", "title": "Events, length and tempo range follow the rows", "statement": "In every parsed map the background is the name in the last background row without quotation marks, the breaks are those of the break rows in order, the length is the latest whole-number time of a hit object row (a spinner or hold note counts by its end, a circle or slider by its start) and at least 0, and MinBPM and MaxBPM are the least and greatest 60000/beat over the rows with a non-negative beat length, +Inf and 0 when there is none.", "quantifier": "all texts that parse", "why_tests_cant": "all row lists, all float beat lengths including -0, NaN and Inf", "anchors": ["beatmap/parser.go: parseEvents", "beatmap/parser.go: ParsePoint", "beatmap/parser.go: ParseObjects", "beatmap/pause.go"]}
{"id": "C61", "title": "A map reads the same in UTF-8 and UTF-16", "statement": "For every Unicode text, its UTF-8 form, that form after a UTF-8 mark, and its UTF-16 forms of both byte orders after their marks decode to the same UTF-8 text and so parse to the same result (a text starting with U+FEFF loses that character). Without a mark every byte which starts no well-formed character becomes U+FFFD and the rest is kept; the decoded text is well-formed UTF-8 unless the file starts with a UTF-8 mark, after which nothing is repaired.", "quantifier": "all byte strings, all lists of Unicode scalar values", "why_tests_cant": "all byte strings", "anchors": ["files/utf.go", "beatmap/parser.go: ParseFromByte"]}
{"id": "C62", "title": "Curve flattening terminates", "statement": "Flattening a Bezier curve whose n control points have coordinates of magnitude at most 2^k ends whenever (n+8)*2^k is at most 2^22, and yields the points of the recursive subdivision; so building a slider curve of any type ends for such points (three-point arcs: radius at most 2^22).", "quantifier": "all control point lists within the size bound, all curve types, all desired lengths", "why_tests_cant": "all control points; termination depends on float32 rounding at every subdivision depth, and fails for larger coordinates (C36)", "anchors": ["math/curves/bezierapproximator.go: CreateBezier", "math/curves/multicurve.go: NewMultiCurveT"]}
{"id": "C63", "title": "Parsing returns", "statement": "A file with well-formed rows, slider multiplier and tick rate between 1/16 and 16, and sliders whose Bezier control points and arcs are of moderate size, whose pixel length is not under 1/16 and whose curve is not longer than 2^40 is parsed in finitely many steps without a panic, and every sufficient step budget gives the same outcome.", "quantifier": "all files meeting the conditions", "why_tests_cant": "termination over all files; each excluded case is known to hang or panic for some file", "anchors": ["beatmap/parser.go: ParseFromReader", "beatmap/objects/slider.go: NewSlider, SetTiming"]}
{"id": "C64", "title": "A slider curve has the pixel length asked for", "statement": "NewMultiCurveT gives the curve the requested length, by cutting whole lines and part of one or by stretching the last line: both the length it reports and the plane (Euclidean) length of the lines it keeps differ from the request by at most (n+16)*2^(m-22)+2^-13 for n lines inside a square of half-size 2^m (below 0.005 px for a two-line slider on the 1024 px square). For type L sliders with whole coordinates no condition on the lines is needed. When the last line has equal ends a request for more length is silently ignored.", "quantifier": "for all curve types, control points, requested lengths between 0 and 2^m, and all m from 0 to 30 bounding coordinates and path length, up to 2^20 lines", "why_tests_cant": "single precision rounding accumulates over the lines and in the cut parameter; tests sample a few curves and cannot bound the error for all of them", "anchors": ["math/curves/multicurve.go:52-91", "math/curves/linear.go"]}
{"id": "C65", "title": "Strain peaks are the maxima of 400 ms sections", "statement": "For every skill the peaks CalculateStrainPeaks lists are, one per 400 ms section from the section of the first counted object to that of the last one, the largest of the strains shown by the objects of that section and of what is left, at the start of the section, of the strain of the last object before it (0 for the first section). The strain of an object is the previous strain times 0.15 (speed 0.3) per second of its delta time plus its own value times the skill weight, judged with at most 2 / 32 / 10 earlier objects in sight; speed shows it times the rhythm bonus.", "quantifier": "for all maps, difficulties and mods whose start times over the clock rate are in range, any mathematical library", "why_tests_cant": "tests compare final star ratings of a few maps; they do not show that no object is attributed to the wrong section for any sequence of times, including equal times, gaps of many sections and times going back", "anchors": ["performance/osu/skills/skill.go:77-129", "performance/osu/skills/speed.go:160-162", "performance/osu/difficulty.go:118-141", "performance/osu/difficulty.go:249-270"]}
{"id": "C66", "title": "Ratings are the weighted sums of the peaks", "statement": "A skill value is 1.06 (speed 1.04) times the sum of its peaks sorted highest first, the i-th of weight 0.9^i (flashlight 1), after the 10 (speed 5) highest peaks have been scaled by 0.75 + 0.25 log10(1 + 9 i / n) and sorted again. Aim, speed and flashlight ratings of CalculateSingle are 0.0675 times the square root of the value of that skill; the slider factor divides the rating of a separate aim run without sliders by the rating with them.", "quantifier": "for all lists of peaks that are numbers (all maps for the ratings), any mathematical library with log10 between 0 and 1 on [1,10]", "why_tests_cant": "the result depends on the order of all peaks of a map twice over; sampled maps exercise only few orders and lengths and do not separate the weights", "anchors": ["performance/osu/skills/skill.go:131-153", "performance/osu/difficulty.go:55-115", "performance/osu/difficulty.go:157-188"]}
{"id": "C67", "title": "Ratings and strain peaks are finite and not negative", "statement": "For objects sorted by time, within 2^32 px of the origin and 2^38 ms of time 0, with sliders of 1 to 2^16 spans and at most 2^16 score points, every rating that CalculateSingle and CalculateStep return (aim, speed, flashlight, slider factor, total) and every strain peak is a finite number that is not negative, even for objects at the same place or time. Base values from 0 to 10 with any mods and clock rates from 1/4 to 4 satisfy what is assumed of the difficulty.", "quantifier": "for all lists of up to 2^31 objects, all mods, any mathematical library with math.Pow, math.Sin, math.Cbrt and math.Log10 in their ranges", "why_tests_cant": "divisions by distances and times that can be zero, and sums over arbitrarily long histories, could give NaN or infinities for unsampled maps", "anchors": ["performance/osu/difficulty.go:35-141", "performance/osu/skills/skill.go:77-157", "performance/osu/skills/aim.go:34-148", "performance/osu/skills/speed.go:42-158", "performance/osu/skills/flashlight.go:25-59", "performance/osu/preprocessing/object.go:47-126", "performance/osu/preprocessing/lazyslider.go:37-90"]}
{"id": "C68", "title": "Every play of a map is worth a finite, non-negative pp", "statement": "For a map whose objects lie within 2^32 px and 2^38 ms and are in order of time, with the attributes CalculateSingle (or an entry of CalculateStep) gives for it, PPv2x yields finite, non-negative aim, speed, accuracy, flashlight and total pp for every combination of 300s, 100s, 50s, misses and combo the map allows, with any mods, and for the default arguments meaning the best play.", "quantifier": "all object lists, difficulties, mods, hit counts, combos and step indices", "why_tests_cant": "The star calculation feeds the pp formula through chains of powers, quotients and roots; a NaN or infinity anywhere, or a negative base for a fractional power, appears only for particular maps and scores, and no sample of scores excludes it.", "anchors": ["performance/osu/difficulty.go:35-141", "performance/osu/pp.go:50-313"]}
{"id": "C69", "title": "What the strain of a single object depends on", "statement": "A spinner has no strain in any skill and no rhythm bonus. Aim strain is 0 for the first two difficulty objects and directly after a spinner, depends on the last two objects only, and without sliders does not depend on slider travel time or the movement after a slider; speed strain depends on the previous object only. Flashlight strain is the square of a near-object factor times a sum over the remembered objects that are not spinners: each adds 0.8 to its age, its capped jump, and its screen distance from the object over the strain time passed since the latest counting object. The near-object factor comes from the immediately preceding object only. On maps of tidy objects in time order aim strain is never below the velocity of the jump.", "quantifier": "for all objects, histories, difficulties and mathematical libraries (the last part: with math.Pow, math.Sin and math.Cbrt in their ranges)", "why_tests_cant": "a check that is skipped for spinners or an index that is not advanced only changes values on particular object sequences, and no reference values exist for them", "anchors": ["performance/osu/skills/aim.go:34-148", "performance/osu/skills/speed.go:42-158", "performance/osu/skills/flashlight.go:25-59"]}
{"id": "C70", "title": "Distances, times and angles between objects", "statement": "Next to a spinner an object has no jump, movement, travel or angle. Otherwise its jump is the plane distance from where the last object leaves the cursor to its stacked start, times 50 over the circle radius (up to a tenth more for circles under 30 px), within 2^(p-13) for coordinates up to 2^p. After a circle the movement is the jump and there is no travel. After a slider the travel time is the time to its last score point and the movement time the rest of the strain time, both at least 25 ms, and the movement is the smaller of the jump less 30 and the distance from the real slider end less 120, but never negative, within 2^(p-12). The angle is a number from 0 to pi exactly if there are three objects without a spinner among them.", "quantifier": "for all object lists, mods and circle radii from 8 to 100 px; numbers for coordinates up to 2^32 px and any math.Pow and math.Atan2 in their ranges", "why_tests_cant": "rounding errors and special cases of neighbouring spinners and sliders cannot be enumerated", "anchors": ["performance/osu/preprocessing/object.go:47-126", "performance/osu/preprocessing/objects.go:9-36"]}
{"id": "C71", "title": "The lazy cursor of a slider", "statement": "From the stacked head the cursor follows the score points. At each it ends within 90 normalised px of where the slider is (50 at a repeat; at the last point within 90 of the nearer of the position at the end time and the position at the last score point), and it does not move when it is within reach already. The lazy end position is where it is after the last point. The travel distance is the length of its way in normalised px, times the bonus for repeats, so it is at least the straight line from the head to the lazy end position. A slider all of whose score points are within reach of its head leaves the cursor there and has travel distance 0. Tolerances are 2^(p-14) px for coordinates up to 2^p, and relative 2^-22 plus 2^(p-11) px per score point for lengths.", "quantifier": "for all sliders with coordinates up to 2^40 px, up to 2^16 spans and score points, all mods and circle radii from 8 to 100 px, and any math.Pow in its ranges", "why_tests_cant": "paths, score points and the accumulation of rounding errors cannot be enumerated", "anchors": ["performance/osu/preprocessing/lazyslider.go:37-90"]}
{"id": "C72", "title": "How numbers in a file are read", "statement": "An optionally signed run of digits reads as that integer, or as the nearest 64 bit integer when it is out of range; any other text reads as the integer 0, unless its leading digits already exceed 64 bits. An optionally signed decimal with optional fraction and exponent (below 100000) reads as the double (or single) nearest to its exact value, ties to even, with its sign also on zero, or as an infinity when that is out of range. inf, infinity (with a sign) and nan in any case read as these. A text with any byte besides letters, digits, signs, dots and underscores, such as a blank, reads as the float 0.", "quantifier": "for all texts", "why_tests_cant": "correct rounding of arbitrarily long decimals and the handling of every malformed text cannot be sampled", "anchors": ["beatmap/objects/baseobject.go:10-17", "beatmap/objects/slider.go:46-75", "beatmap/objects/spinner.go:19", "beatmap/parser.go:18-91", "beatmap/beatmap.go:72-115", "beatmap/pause.go:14-15"]}
{"id": "C73", "title": "A slider is what its row says", "statement": "In a parsed map every slider row becomes a slider whose curve is built from the object position and the listed x:y points, with the listed type letter and length; it has one sound for the head, each repeat and the tail, those listed first and the object sound for the rest; its span, end time and score points are those of its repeats and of the timing point in force at its start, and its end position is where it is at its end time.", "quantifier": "for all files that parse, all slider rows", "why_tests_cant": "ties the text of any row, through sorting, timing and stacking, to the final object", "anchors": ["beatmap/objects/slider.go:39-81", "beatmap/objects/slider.go:100-160", "beatmap/parser.go:192-260"]}
{"id": "C74", "title": "The shape of a slider curve by its type letter", "statement": "Type L gives the lines joining consecutive distinct points. Type B is cut after a doubled point, each piece being a line (two points) or a flattened Bezier curve. Type P is type L with fewer than three points or three on a line, and type B with more than three. Type C joins each pair of neighbouring points by fifty connected lines whose ends are on the Catmull-Rom spline, up to 2^(k-16) for coordinates up to 2^k, which passes through both points. Any other letter gives a slider that never moves.", "quantifier": "for all point lists; type C: coordinates up to 2^100", "why_tests_cant": "all point lists, and a rounding bound for every coordinate", "anchors": ["math/curves/multicurve.go:18-50", "math/curves/multicurve.go:171-245", "math/curves/catmull.go:13-42"]}
{"id": "C75", "title": "How far along its curve a slider is", "statement": "The progress of a slider at a time is the distance of the number of spans gone by from the nearest even number, the spans being counted from the start at the time clamped to the slider, up to a relative 2^-51 and an absolute 2^-39.", "quantifier": "for all times up to 2^38 ms, spans of at least 2^-100 ms", "why_tests_cant": "rounding of the division and remainder for every time and span", "anchors": ["beatmap/objects/slider.go:83-98"]}
{"id": "C76", "title": "Circular sliders follow the circle, the short or the long way round as their second point says", "statement": "A slider of type P with three points not on a line is made of whole lines of about eight pixels of arc between consecutive points of one arc: the arc around the computed centre that starts at the first point, ends in the direction of the third, turns at most once around, and turns to the side of the line between them that the second point is on. An arc of at most a turn stays on the side it turns to. An arc of a circle of radius at most one pixel has no lines.", "quantifier": "for all points up to 2^12 whose centre is up to 2^12, for every math library with errors up to 2^-40", "why_tests_cant": "float rounding through two Atan2 calls, the angle loop, Sin and Cos for every triple of points", "anchors": ["math/curves/cirarc.go:17-61", "math/curves/approximation.go:7-23"]}
{"id": "C77", "title": "The centre of a circular slider", "statement": "For three points of whole coordinates up to 512 not on a line, the computed centre is that of the circle through them, and the three points are equally far from it, up to an error inversely proportional to the area of their triangle plus a relative 2^-22.", "quantifier": "for all triples of whole points up to 512", "why_tests_cant": "float32 cancellation for every triangle, however flat", "anchors": ["math/curves/cirarc.go:17-32"]}
{"id": "C78", "title": "From an ordinary file to numbers", "statement": "For a file whose rows, curves, timing points and settings are of ordinary size, the parser settles on a result. If that is a map with objects and no stack is higher than 2^20, then for every mod set and every speed from 1/4 to 4, all three difficulty calculations settle on finite, non-negative ratings, and every finished or unfinished play is worth a finite, non-negative number of pp.", "quantifier": "for all such files, all mods, all speeds and all hit counts", "why_tests_cant": "spans parser, curves, timing, stacking, strain and pp over unboundedly many files and plays", "anchors": ["beatmap/parser.go: ParseFromReader", "beatmap/objects/slider.go:100-160", "beatmap/stackleniency.go", "performance/osu/difficulty.go:35-141", "performance/osu/pp.go:50-313"]}
{"id": "C79", "title": "Slider speed in real numbers", "statement": "With slider multiplier and tick rate from 1/16 to 16 and a base beat from 1/1024 ms to 65536 ms, GetVelocity is 100 times the multiplier in pixels per beat, the beat being the base beat stretched by the inherited point (from a tenth to ten times); GetTickDistance and GetSliderTimeP agree with the same formula; all but for one part in a million. With a negative or NaN base beat the beat is left out, with a zero one the velocity is infinite. The base beat of the point in force is the beat of the uninherited point in force. Every slider of a parsed map ends, up to that error and the rounding of the sum, that many beats after its start.", "quantifier": "for all timing data and points within the ranges, all files, all slider rows", "why_tests_cant": "float32 and float64 arithmetic over all values of multiplier, tick rate, beats and lengths, compared with real formulas", "anchors": ["beatmap/timing/timing.go:27-45", "beatmap/timing/timing.go:91-154", "beatmap/objects/slider.go:100-160"]}
{"id": "C80", "title": "The pp values are the published formulas", "statement": "Take Pow and Log10 accurate to 2^-40 on the range used, ratings of 0 or from 2^-100 to 2^20 stars, AR from -100 to 13, OD from -40 to 14 and up to 2^20 hits. Then the aim, speed, accuracy, flashlight and total pp of a play differ by at most one part in a million from the published formulas evaluated in real numbers: base value, length, combo, miss, AR, hidden, slider and accuracy factors, and the final multiplier with NF, SO and RX. The number of effective misses is exactly the one of the formula (misses, or the guess from the combo; with Relax also the 100s and 50s). Plays are left out where the guessed number of breaks is within a billionth of an integer, where more than half of the hits count as missed, where the miss penalty is below 2^-200, with more than 900 50s, and Spun Out plays where more than half of the hits are spinners.", "quantifier": "for all attributes, difficulties, combos and hit counts in those ranges, all mods, and every math package with accurate Pow and Log10", "why_tests_cant": "every wrong constant or exponent and every wrong branch moves the value only for some plays; rounding must be bounded over all of them", "anchors": ["performance/osu/pp.go:42-313"]}
{"id": "C81", "title": "Stacks on sliders", "statement": "Take circles at a point p, then a slider from p to a point q that is not near p, then circles at q, each object starting at most the stack threshold after the end of the one before. With both the new algorithm (file version 6 and later) and the old one, object k gets index (number of circles before the slider) - k, under every group of mods: circles before the slider rise from its head, circles after it sink from its tail. A pile of circles at one point gets falling indices down to 0 under the old algorithm too.", "quantifier": "for all numbers of circles before and after, all times and points, all difficulties, all versions", "why_tests_cant": "stacks of unbounded height; both algorithms must agree on all of them", "anchors": ["beatmap/stackleniency.go:61-191"]}
{"id": "C82", "title": "Stacking does not reach across a pause", "statement": "If every object of the second part of a map starts more than a millisecond later than the stack threshold after the start and the end of every object of the first part, then stacking the map is the same as stacking the two parts separately.", "quantifier": "for all lists of objects, all file versions, all difficulties and stack leniencies", "why_tests_cant": "the passes run over the whole list, backwards and forwards, and carry state between objects", "anchors": ["beatmap/stackleniency.go:23-191"]}
{"id": "C83", "title": "Heights of stacks", "statement": "If no object starts near the tail of an earlier slider, every stack index is between 0 and the number of later objects; so the parsed map of such a file with at most 2^20 objects has no index above 2^20, as C78 asks.", "quantifier": "for all lists of objects and all files with this property, all versions, difficulties and leniencies", "why_tests_cant": "a bound over all maps; near slider tails indices can be negative and grow without it", "anchors": ["beatmap/stackleniency.go:61-191"]}
{"id": "C84", "title": "Aim strain of an object", "statement": "The aim strain of an object is within 2^-21 of the published formula in real numbers: the jump velocity, or the velocity along and after a slider, plus the larger of the wide-angle, sharp-angle and velocity-change bonuses and the slider bonus, each with its own weights and thresholds.", "quantifier": "for all objects with distances up to 2^16 and strain times from 25 to 2^42 ms, all angles, with and without sliders; every libm with Sin and small powers within 2^-40; gaps not a rounding error from the ratio 4:5", "why_tests_cant": "the tests compare a few star ratings to 1e-4, which hardly moves when a bonus is wrong for rare patterns; nothing compares single strains", "anchors": ["performance/osu/skills/aim.go:34-148"]}
{"id": "C85", "title": "Speed strain and rhythm multiplier of an object", "statement": "The speed strain of an object is within 2^-31 of its formula in real numbers (doubles, hit window cap, bonus under 75 ms, distance to the power 3.5); the rhythm multiplier is within 2^-12 of the formula over the remembered objects of the last five seconds: islands, their sizes and repetition, sliders, age.", "quantifier": "for all difficulties with ordinary hit windows and clock rates, all sane objects, up to 32 remembered ones; no comparison of the rhythm loop within a rounding error of turning", "why_tests_cant": "the loop is a state machine over up to 32 objects; the number of patterns is unbounded", "anchors": ["performance/osu/skills/speed.go:42-158"]}
{"id": "C86", "title": "Flashlight strain of an object", "statement": "The flashlight strain of an object is within a 2^-30th of the square of the sum over the earlier objects that are no spinners of 0.8^age * min(1, jump/scale/25) * scale * distance / time since, times min(1, distance/75) for the object right before.", "quantifier": "for all difficulties with ordinary circles, all sane objects, up to 32 remembered ones; every libm with accurate powers", "why_tests_cant": "no test covers flashlight values", "anchors": ["performance/osu/skills/flashlight.go:25-59"]}
{"id": "C87", "title": "Rating from the peaks, in real numbers", "statement": "The difficulty value of a list of strain peaks is within a 2^-26th of: sort the peaks, lessen the 10 (speed 5) highest, the i-th to 75 % and 25 % of log10 (1 + 9 i / n), sort again, sum with weights 0.9^i (1 for flashlight) and scale by 1.06 (speed 1.04); the star rating is 0.0675 times the root of it. The order of the peaks does not matter.", "quantifier": "for all lists of up to 2^20 finite peaks between 0 and 2^100, all skills; every libm with an accurate log10", "why_tests_cant": "three maps are tested, and the two sorts are only distinguishable when the lessened peaks change places", "anchors": ["performance/osu/skills/skill.go:131-153", "performance/osu/difficulty.go:55-116"]}
{"id": "C88", "title": "Strains and strain peaks in real numbers", "statement": "The strain at an object is the sum, over all objects so far, of weight * own difficulty * base^(seconds since), times the rhythm multiplier for speed; the peaks are, per 400 ms section from the first to the last object, the highest strain shown in it, or what is left of the last strain before it at its start. The code is within a share rel_slack and an amount abs_slack of these, and the slack does not grow with the length of the map except by 2^-37 per object.", "quantifier": "for all difficulties and plain lists of difficulty objects; every libm with accurate powers", "why_tests_cant": "the tests compare final ratings of three maps, errors could build up over a long map", "anchors": ["performance/osu/skills/skill.go:77-129", "performance/osu/skills/skill.go:155-165", "performance/osu/skills/speed.go:25-40"]}
{"id": "C89", "title": "Star ratings in real numbers", "statement": "The aim, speed and flashlight ratings CalculateSingle returns are within stated slacks of the published formulas evaluated in real numbers over the whole map, from the distances, times and angles of its difficulty objects.", "quantifier": "for all maps whose difficulty objects are plain (distances up to 65536, pauses up to five minutes, no gap a hair from a comparison), all mods; every libm with accurate functions", "why_tests_cant": "rounding could in principle make ratings drift on long maps; three test maps cannot exclude it", "anchors": ["performance/osu/difficulty.go:55-116", "performance/osu/difficulty.go:157-195", "performance/osu/skills/skill.go:77-165"]}
{"id": "C90", "title": "Star rating in real numbers", "statement": "The total star rating is within a 2^-32th of cbrt(1.12) * 0.027 * (cbrt(100000 / 2^(1/1.1) * P) + 4), where P joins the values of the aim, speed and flashlight ratings with exponent 1.1; it is never below 0.14 stars, grows with the ratings and at most 1.7 times as fast; the same holds of the totals of the sections. For whole maps total and slider factor are within stated bounds of the formulas in real numbers.", "quantifier": "for all maps CalculateSingle returns ratings up to 2^60 for, all mods; whole maps: those of C89; every libm with accurate functions", "why_tests_cant": "three maps are tested; that the test basePerformance > 0.00001 never fails is no matter of examples", "anchors": ["performance/osu/difficulty.go:55-141", "performance/osu/pp.go:13-16"]}
{"id": "C91", "title": "A better play is never worth less", "statement": "Of two plays of equally built maps, the one with no fewer 300s, no more 50s, no more misses and no shorter combo, on the map with no lower ratings, gets no less aim, speed, accuracy, flashlight and total pp; so nothing beats a full combo of 300s. The wider claim that a 50 is never worse than a miss is false: once the combo alone accounts for the misses, turning a 50 into a miss raises the speed value by over 1%; and under Relax turning a miss into a 100 can raise the effective misses.", "quantifier": "for all attributes with ratings up to 2^20 stars, all difficulties with AR and OD in range, all mods, all hit counts up to 2^31; every libm with monotone powers (the refutations: accurate powers)", "why_tests_cant": "the tests compare single scores to recorded numbers; order between any two plays is a statement about pairs", "anchors": ["performance/osu/pp.go:36-313"]}
{"id": "C92", "title": "Vector and rounding helpers", "statement": "Mid is between its points and half-way up to rounding; Nor has length 1 within 2^-21 and the same direction unless the vector is shorter than about 0.00316 (then unchanged) or longer than 2^64 (then the null vector); Rotate turns by its angle; Dst and DstSq are symmetric to the last bit, and DstSq is the square of the distance within 2^-21 of it; math32.Round keeps whole numbers up to 2^22; LerpF32 starts at its first argument. Refuted: Mid is finite for all finite points, distance 0 means equal, AngleBetween32 is a number for points in line or at the centre, Round keeps all whole numbers and rounds to nearest, LerpF32 ends at its second argument.", "quantifier": "all float32 vectors in the stated ranges, all angles up to 12", "why_tests_cant": "error bounds over all pairs of float32 coordinates; the failures sit at isolated or extreme inputs", "anchors": ["math/vector/vector2f.go", "math/math32/math.go", "math/mutils/utils.go"]}
{"id": "C93", "title": "Bezier and Catmull objects", "statement": "NewBezier panics exactly for no points, its length is never negative and 0 for one point; for up to four control points with coordinates up to 2^k PointAt is de Casteljau s point up to 2^(k-16), hence starts at the first, ends at the last and stays among the control points. NewCatmull panics unless given four points, its length is never negative and its points lie on the Catmull-Rom spline through the second and third point. Refuted: a curve of length 0 ends where it starts (finite points far apart have length 0); the start angle of a Catmull curve is the direction it starts in (it is taken from the first control point, where the curve does not start).", "quantifier": "all lists of points, all t in [0,1], any math.Pow accurate to 2^-40 on small powers", "why_tests_cant": "error bounds for all float32 points and parameters; the angle error is hidden when the first two points coincide", "anchors": ["math/curves/bezier.go", "math/curves/catmull.go"]}
{"id": "C94", "title": "What a mod does to the pp of the same play", "statement": "For the same ratings, play, effective AR and OD, each of the four pp values and the total is no lower after adding Hidden (AR at most 12) or Flashlight, or after removing NoFail, SpunOut, Relax or (ratings of at least one star) TouchDevice; combined with C91 the same holds for better plays on harder maps. Two everyday claims are false: Hidden lowers aim and speed by over 1% from AR 12.5 on, and TouchDevice raises aim by over 1% for aim ratings between 0.1 and 0.9 stars.", "quantifier": "all attributes with ratings up to 2^20 stars and counts up to 2^31, all plays with up to 2^31 hits, all difficulties with AR up to 13 and OD up to 14, all pairs of mod sets ordered as stated", "why_tests_cant": "It compares pairs of float computations over all ratings, plays and mod sets; a sign or branch mistake may show only for some combination, and the two refuted claims hold for all common inputs.", "anchors": ["performance/osu/pp.go:42-296", "beatmap/difficulty/difficulty.go:35-67"]}
{"id": "C95", "title": "The ratings do not depend on when, how fast or from which side the same map is played", "statement": "(1) All results of Calculate* depend only on kind, positions, times and stack offsets of the objects and on the mods, circle radius, clock rate and 300 window. (2) A map of circles and spinners reached at whole milliseconds of real time gets bit for bit the same attributes and peaks after moving it by whole 400 ms sections or writing it for another clock rate with the same real-time window. (3) It also does when mirrored or turned by right angles about the origin (left-right with HardRock), unless a circle sits exactly on the object before it. False: the same for 200 ms, for one pixel, for the 512-x mirror image, and for repeated positions.", "quantifier": "all object lists and settings meeting the stated relations, all numbers of loop iterations, every libm (for 3: every Atan2 that is even in y apart from zero signs)", "why_tests_cant": "It compares two complete runs of the calculator over all maps; equality to the last bit fails only for inputs where a rounding or the sign of a zero differs, as the refuted variants show.", "anchors": ["performance/osu/preprocessing/object.go:47-126", "performance/osu/skills/skill.go:77-165", "performance/osu/skills/speed.go:42-158", "performance/osu/skills/flashlight.go:25-59", "performance/osu/difficulty.go:157-270"]}
{"id": "C96", "title": "The remaining functions of the vector, curve, timing and mods API compute what they are named after", "statement": "AddS, SubS, Mult and Abs act by component with at most one rounding; Mod is the exact remainder of the truncated division; AngleR and Angle are the angle of the vector; the start and end angles of lines, Bezier, Catmull-Rom and arc curves are where the end points are seen from one pixel along the curve; looking up a timing point panics exactly when HasPoints is false; the default point is 60 BPM in 4/4 with velocity 1; StringFull lists exactly the names of the shown mods and tells any two combinations apart; ClampI returns the nearest number of the interval.", "quantifier": "all vectors and control points in the stated ranges, all finite numbers (Mod), all mods, all timing points, every libm with the stated accuracy", "why_tests_cant": "The statements bound the rounding over whole ranges of floats, give exactness of the remainder for all pairs, and hold for every accurate implementation of Atan2, Sin, Cos and Pow.", "anchors": ["math/vector/vector2f.go:38-52", "math/vector/vector2f.go:76-82", "math/vector/vector2f.go:129-131", "math/math32/math.go:67-69", "math/curves/bezier.go:71-77", "math/curves/catmull.go:48-54", "math/curves/cirarc.go:59-69", "math/curves/linear.go:19-25", "beatmap/timing/timing.go:57-72", "beatmap/timing/timing.go:112-120", "beatmap/timing/timing.go:156-158", "beatmap/difficulty/mods.go:187-210", "math/mutils/utils.go:32-34"]}
{"id": "C97", "title": "The approximate lengths of Bezier and Catmull-Rom curve objects are those of inscribed polylines", "statement": "CalculateLength cuts a Bezier curve of up to four points into as many sections as its control polygon is long, rounded up; the ends of the sections are on the curve at the n-ths, in order, the first is the first control point, and ApproxLength is the sum of their distances up to rounding. Any such polyline is between the chord and the control polygon in length, hence so is ApproxLength up to rounding. NewCatmull does the same with the distance of the second and third point. A curve made by NewBezierNA has the length of its control polygon, 0 without points. ApproxLength is not always within two decimals of the curve's length.", "quantifier": "all control points within 2^16 (2^10 for the numeric bounds), every libm whose Pow is accurate to 2^-40, all increasing parameters", "why_tests_cant": "The error of a sum of up to a million rounded distances and the comparison with the control polygon are bounds over all curves, which samples cannot establish.", "anchors": ["math/curves/bezier.go:15-53", "math/curves/catmull.go:13-30", "math/math32/math.go:27-29"]}
{"id": "C98", "title": "The order of sections, settings and rows in the file does not matter", "statement": "Two files with the same last version line, the same values in the same order for each key of General, Metadata and Difficulty, the same backgrounds and the same breaks in the same order, and the same timing and object rows, those of one time in the same order, parse to the same map or are both refused: sections may be moved, split or joined, settings and rows reordered, other lines and sections added or left out.", "quantifier": "all pairs of files related in this way, all object rows with start times other than NaN, any libm, any fuel", "why_tests_cant": "It relates every file to every rearrangement of it, with any number of sections, rows and interleaved lines.", "anchors": ["beatmap/parser.go:146-263", "beatmap/parser.go:115-140", "beatmap/beatmap.go:70-121", "beatmap/timing/timing.go:74-110"]}
{"id": "C99", "title": "Ratings never fall as a map goes on", "statement": "Of the attributes CalculateStep gives, the aim, speed and flashlight rating after any object are at least those after any earlier object, and so is the star rating if pow and cbrt preserve the order. The strain peaks of a beginning of a map are those of the whole map, except that the last one is no larger. More generally a list of peaks that has for each peak of another list, in any order, one at least as large has at least its difficulty value. All orders hold for the rounded floats.", "quantifier": "all maps of up to 2^31 objects in order of time within 2^32 px and 2^38 ms, all pairs of objects, all clocked difficulties and mods, all lists of up to 2^37 peaks, any libm with the stated ranges, any fuel", "why_tests_cant": "It compares every beginning of every map with every longer one, through two sorts, a rounded weighted sum and rounded square roots.", "anchors": ["performance/osu/skills/skill.go:77-153", "performance/osu/difficulty.go:54-116", "performance/osu/difficulty.go:202-240"]}
{"id": "C100", "title": "A slider of type P follows the circle through its three points", "statement": "Three points of whole coordinates count as straight exactly if they are on a line, and then the slider consists of the lines between them. Otherwise all ends of its lines are, up to a stated error, on the circle through the three points; the first line starts at the first point and the last one ends at the third; and, if the triangle is not too flat, some end is at most eight pixels and the error from the second point.", "quantifier": "all points of whole coordinates up to 1024 (straight) or 512 (circle) with a circumcentre within 2^12 px, any sin, cos and atan2 within 2^-40 of the real ones", "why_tests_cant": "It covers 2^60 triangles and compares the rounded construction with the exact circle.", "anchors": ["math/vector/vector2f.go:137-139", "math/curves/cirarc.go:17-61", "math/curves/multicurve.go:171-186", "math/curves/approximation.go:7-23"]}
{"id": "C101", "title": "A slider of type B follows the Bezier curves of its points", "statement": "The points CreateBezier returns are, one after the other, near points of the Bezier curve (Bernstein polynomial) of the control points at growing parameters from 0 to 1, and going evenly along each line between them keeps within a stated distance of the curve: ((n-1)^2+2)/32 of a pixel for n control points plus rounding, below 0.2 px for three points with coordinates up to 512. So every point of the curve is near the lines and every point of the lines near the curve. A slider of type B does this for each of the pieces its doubled points cut it into.", "quantifier": "all lists of n control points of magnitude at most 2^k with (n+8)*2^k <= 2^22", "why_tests_cant": "It compares a data-dependent recursive subdivision in float32 with the exact curve for every list of control points.", "anchors": ["math/curves/bezierapproximator.go:51-156", "math/curves/multicurve.go:188-222", "math/curves/approximation.go:37-47"]}
{"id": "C102", "title": "Where the ball of a slider is", "statement": "PointAt(t) on a slider curve that was given a length lies within 2^-12 + 2^(m-18) px of a point of one of the lines the curve had before (m bounding coordinates and lengths by 2^m), and the way to that point along those lines is the fraction t (cut to 0..1) of the length asked for, up to four times the error of C64. Only the last line is prolonged, and only if more length is asked for than there is. So at every time the ball of a slider has gone along its curve the pixel length times the distance of the number of spans gone by from the nearest even number; and the ball of a type B slider that is not prolonged is beside the Bezier curve of one of its pieces.", "quantifier": "all control points and type letters whose curve has at most 2^19 lines that are not tiny, coordinates, curve length and pixel length up to 2^28; all finite t; all times up to 2^38 ms and spans of at least 2^-100 ms", "why_tests_cant": "It relates binary search over rounded section sums, cutting in single precision and interpolation to distances along the real curve, for every curve, length and time.", "anchors": ["math/curves/multicurve.go:52-91", "math/curves/multicurve.go:93-112", "beatmap/objects/slider.go:83-98"]}
{"id": "C103", "title": "In a parsed map the ball of a slider moves as its row and the tempo say", "statement": "For every slider row of a parsed file and every time T: with D the time one span takes by the formula of C79 (pixel length over 100 * SliderMultiplier, times the stretched beat in force at the row's start) and x = (T - start) / D cut to 0..n, PositionAt(T) is within 2^-12 + 2^(m-18) px of a point of a line of the curve made of the row's position, points and type letter, and the way there along the curve is the row's pixel length times the distance of x from the nearest even number. The error is (3n + 4) length errors of C64, five parts in a million per span, and what the rounding of the start time moves the ball.", "quantifier": "all files with SliderMultiplier and SliderTickRate from 1/16 to 16; all slider rows with 1 to 100000 spans of 1 ms or more, 2^36 ms in all, starting within 2^37 ms of 0, in a tempo of 1/1024 to 65536 ms per beat, whose curve is of ordinary size (C102) and whose length is at least four length errors; all times up to 2^38 ms", "why_tests_cant": "It ties text, tempo, cutting of the curve and interpolation together for every file and every time; a test sees one slider at a few times.", "anchors": ["beatmap/objects/slider.go:39-81", "beatmap/objects/slider.go:83-98", "beatmap/objects/slider.go:100-159", "math/curves/multicurve.go:52-112"]}
{"id": "C104", "title": "Sliders of types C and P stay along their spline and circle, and so does the ball", "statement": "Going evenly along the j-th of the fifty lines between two points of a slider of type C keeps within B/20000 + 2^(k-16) px of the Catmull-Rom polynomial at (j + s)/50, B being its greatest second derivative. The lines of a slider of type P through three points on no line are at most 20 px long, and every point of them is at most e outside the circle through the three points and inside it by no more than e and a 20 px chord: the square of its distance from the centre is between (r - e)^2 - 100 and (r + e)^2. If the slider is not prolonged, PointAt is beside (C102) such a point of the spline or the circle, for every fraction t.", "quantifier": "type C: all points of coordinates up to 2^100 (for the ball: curves of ordinary size, C102); type P: all triples of whole points up to 512 whose circumcentre is within 2^k - 151, k from 9 to 12, e = 600/area2 + 2^(k-12) not above the radius r; Sin, Cos and Atan2 with an error of at most 2^-40", "why_tests_cant": "Tests look at line ends; the claim is about every point in between, for all control points.", "anchors": ["math/curves/multicurve.go:221-249", "math/curves/approximation.go:7-35", "math/curves/catmull.go:36-42", "math/curves/cirarc.go:17-57", "math/curves/multicurve.go:93-112"]}
{"id": "C105", "title": "When the score points of a slider are due, and how many ticks there are, in real numbers", "statement": "Every slider of a parsed map has, in each of its n spans of D ms, N ticks, T = min(100 SliderMultiplier / (SliderTickRate m), pixel length) px of the curve apart counted from the start of the curve also on the way back, then a repeat at the end of the span, or after the last span a tail 36 ms before the end but not before the middle. Each score point is due at the time of the real formula up to n D / 500000 ms and rounding of the start time. N is the greatest number of gaps T that fit up to 10 ms before the end of a span, up to a millionth of the length and of the distance gone in 10 ms; it is 0 if the beat length of the timing point is no number.", "quantifier": "all parsed files with SliderMultiplier and SliderTickRate in [1/16, 16]; all sliders of 1 to 100000 spans with base beat in [1/1024, 65536] ms, start within 2^40 ms, curve length in [10^-6, 10^6] px and finite pixel length of at least 1/100 px", "why_tests_cant": "The tick distance is accumulated in floating point and the loop has two exits; a unit test fixes one map, the claim bounds count and times for all tempos, lengths and repeat counts.", "anchors": ["beatmap/objects/slider.go:100-159", "beatmap/timing/timing.go:132-158"]}
{"id": "C106", "title": "Playing on without a fault never costs pp", "statement": "Along the entries of CalculateStep, PPv2x of a perfect play (all objects hit for 300, full combo) never falls: aim, speed, accuracy, flashlight and total of entry i are at most 1 + 3/1000000 times those of entry j for i <= j. The same holds for any two attribute sets of which the second rates no lower and has no fewer objects and circles. Spun Out is excluded, and rightly: with it, one spinner more costs at least 0.5 % of the total of a map of up to 100 objects whose ratings stay.", "quantifier": "all ordered object lists with values of ordinary size (C67), all entries with ratings 0 or in [2^-100, 2^20], slider factor in [1/16, 1] and up to 2^20 objects, all mods but Spun Out, AR in [-100, 13], OD in [-40, 14]; Pow and Log10 accurate to 2^-40 and in the ranges of C67", "why_tests_cant": "A relation between all pairs of prefixes of all maps; a test compares a few prefixes of one map.", "anchors": ["performance/osu/pp.go:42-125", "performance/osu/difficulty.go:237-270"]}
{"id": "C107", "title": "How large slider curves get and how long building them takes", "statement": "Flattening control points of magnitude at most 2^k takes at most 2^(n+1)-1 rounds of the loop in CreateBezier and gives at most 2^n points per gap between control points plus one, for any n of at least k/2+4. The curve of a slider has at most one line per gap (L), 50 lines per gap (C), 2^n lines per point (B, and P with more than three points), and one line per pixel of the radius of its circle or two (P); a type letter that is none of these gives no line. So it is for every slider row of a parsed file.", "quantifier": "all types, all lists of up to 2^(22-k)-8 points, all desired lengths, all files that parse; Atan2 between -Pi and Pi for circles", "why_tests_cant": "A bound on running time and memory over all slider curves; a test times a few of them.", "anchors": ["math/curves/bezierapproximator.go:98-156", "math/curves/approximation.go:7-47", "math/curves/multicurve.go:18-91", "math/curves/multicurve.go:171-249"]}
{"id": "C108", "title": "Length alone does not raise the aim, speed and star ratings", "statement": "However many objects a map has: if its gaps are at least g ms and the cursor nowhere has to be faster than w px/ms (of a circle with radius 50, along sliders and from their ends included), the aim rating is at most a number that depends on g and w only, the speed rating at most one that depends on g only (no distance, rhythm or hit window makes up for the gaps), and without the flashlight the star rating is at most the total of these two. The value of the flashlight, in contrast, is between 0.79 and 1.07 times the sum of its peaks, so it grows with every further section.", "quantifier": "all maps of up to 2^20 objects that are plain (distances up to 65536 px, no gap a hair from a comparison), all g > 0 and w >= 0, all mods but Relax (speed) and Flashlight (total)", "why_tests_cant": "A bound over maps of every length and pattern; tests rate a handful of fixed maps.", "anchors": ["performance/osu/skills/skill.go:77-165", "performance/osu/skills/aim.go:1-148", "performance/osu/skills/speed.go:1-162", "performance/osu/skills/flashlight.go:1-59", "performance/osu/difficulty.go:55-141"]}
{"id": "C109", "title": "How the pp of the same play depend on OD and AR", "statement": "For the same hits on a map with the same ratings and the same mods: a higher OD as played, from 0 on, never lowers any of the four values or the total (but for three parts in a million of rounding). Below 0 this fails, because the OD enters by its square: with Relax an OD of at most -3 is worth at least 0.3% more than one between -1 and 1, though the latter is stricter (refuted with a Half Time witness, total above 0). A higher AR never raises the pp as long as it stays up to 10.33, Hidden or not; from 8 on and without Hidden it never lowers them; between 8 and 10.33 without Hidden the results are the same to the bit. HP, CS and every other field of the difficulty do not enter at all. The total is above 0 as soon as anything was hit and the combo is not 0.", "quantifier": "all attributes of maps, hits and combos as in C80, all pairs of difficulties with the stated rates, all mods; the equalities for all attributes, hits, difficulties and any libm", "why_tests_cant": "Comparisons between two runs over a continuum of rates; a table of expected pp values fixes single points and shows no order.", "anchors": ["performance/osu/pp.go:116-170", "performance/osu/pp.go:173-216", "performance/osu/pp.go:219-296", "performance/osu/pp.go:42-113"]}
{"id": "C110", "title": "The angles of a curve are those of its lines", "statement": "On a curve of finite length the start and end angle at t are those of the line whose sections enclose t times the length (t clamped to 0..1): the direction in which one end of that line is seen from the other, to 2^-20. The start angle of the curve is that of its first line and equals the one at t <= 0; the end angle is that of the last line and equals the one at t >= 1 if the last line adds to the length. If it does not (a last line too short for float32 to measure), the two end angles can be a right angle apart (refuted with a witness). A curve without lines has the angle 0 everywhere.", "quantifier": "all curves either constructor makes, all t but NaN, any libm whose Atan2 is good to 2^-40 for the directions", "why_tests_cant": "Holds for every curve and every t; the case of the vanishing last line is not one a test would think of.", "anchors": ["math/curves/multicurve.go:118-165", "math/curves/linear.go:19-25", "math/vector/vector2f.go:96-98"]}
{"id": "C111", "title": "White space around names and values never matters, and nothing else is removed", "statement": "strings.TrimSpace, as used on every field, key, value and section header, removes exactly the Unicode white space (25 code points, in UTF-8) at both ends of a string: what remains neither starts nor ends with a white-space character, what was removed consists of white-space characters only, and these two facts determine the result. Hence a comma-separated line yields exactly the stripped pieces between its commas, a setting the stripped text before and after its first colon, and a section header is a line that is brackets around a name once stripped; padding a string with white space never changes what is read.", "quantifier": "for all byte strings (valid UTF-8 or not), all lines, all paddings", "why_tests_cant": "The claim covers all byte strings, including ones where a multi-byte space is cut in two or follows other non-ASCII text; tests try a few ASCII blanks.", "anchors": ["beatmap/parser.go:115-131", "beatmap/parser.go:133-140"]}
{"id": "C112", "title": "Exactly which texts are read as numbers", "statement": "A text is read as a non-trivial float exactly if it is an optionally signed decimal (figures with an optional fraction and exponent) or a hexadecimal number (0x, hexadecimal figures with an optional fraction, and a mandatory binary exponent), in which underscores may stand between two figures or after 0x, or one of the words inf, infinity and nan. A number is read as the double or single nearest to the value its figures denote (exponents below 100000), a text spells at most one value, and every other text, such as 1__0, 1e, 0x1 or 1,5, is read as +0.", "quantifier": "for all byte strings", "why_tests_cant": "The claim is a two-sided grammar: no finite set of texts shows that nothing else is accepted, nor that every underscore placement and every length of figures is read correctly.", "anchors": ["beatmap/objects/baseobject.go:10-17", "beatmap/objects/slider.go:46-75", "beatmap/objects/spinner.go:19", "beatmap/parser.go:18-91", "beatmap/beatmap.go:72-115", "beatmap/pause.go:14-15"]}
{"id": "C113", "title": "A map written down as a file is read back as it was", "statement": "Take any map on paper: a version, a stack leniency, title, artist and creator, the four difficulty settings between 0 and 10, slider speed and tick rate, tempos and changes of slider speed, circles and spinners. Written as a .osu file it is always read without error, and what is read is that map: the texts to the byte, times and positions exactly, the other numbers as the nearest doubles, the tempos in force at every time, the notes by time (those of equal time as written) with their combo numbers, and the right counts. A byte order mark and Windows line ends change nothing.", "quantifier": "for all maps of circles and spinners, of any length and in any order, and all names", "why_tests_cant": "The claim is about every printable map, with names that may contain colons, brackets or any Unicode, any number of notes and every spelling of the numbers; example files cover a handful.", "anchors": ["beatmap/parser.go:16-263", "beatmap/beatmap.go:70-121", "beatmap/objects/baseobject.go:8-31", "beatmap/objects/circle.go:13-17", "beatmap/objects/spinner.go:14-22", "files/utf.go:10-12"]}
{"id": "C114", "title": "A map with sliders, written down as a file, is read back as it was", "statement": "Take any map on paper as in C113, with sliders too: a curve letter, further points, spans and a length. If reading its file gives a result at all, the result is that map: each slider with its spans, the double nearest to its length, and the curve through exactly the points written, ending where it is at its end time. Reading does end, with that map, if the sliders are tame (bounded points, radius and length) and slider speed and tick rate lie between 1/16 and 16; sliders of straight lines in a field of 4096 by 4096 pixels are always tame.", "quantifier": "for all maps of circles, sliders and spinners, of any length and in any order, with any letter and any points", "why_tests_cant": "Whether a slider row's points, letter, spans and length end up in the right places, for every number of points and every spelling of the numbers, and whether reading always ends, is a claim about unboundedly many files.", "anchors": ["beatmap/parser.go:16-263", "beatmap/objects/slider.go:39-159", "math/curves/multicurve.go:52-91", "beatmap/objects/baseobject.go:8-31"]}
{"id": "C115", "title": "Sliders of a map on paper end when the paper says", "statement": "Take any map on paper as in C114 whose sliders are straight and of a usual size (length 1 to 2048 pixels, coordinates and path within 2048, up to 100000 spans), with beats of 1/512 ms to one minute and a slider speed between 1/16 and 16. Its file is read to the end, and each slider then ends at start + spans * pixels * (beat * factor / (100 * speed)), taken over the decimals as written, where the beat is that of the tempo in force at the start, and the factor that of the timing row in force, 1 for a tempo and minus its number in percent, from 10 to 1000, for a change of slider speed. In force is the latest begun, of several at the same time the one written last, and before all of them the earliest; the earliest row of all has to be a tempo. The error is at most spans * (pixels/100000 + (points + 17)/2048) * beat * factor / (100 * speed) plus 1e-15 of the start time plus 1e-12. At each time exactly one row is in force.", "quantifier": "for all such maps, with any number of tempos and changes of slider speed in any order and any number of notes", "why_tests_cant": "The end time depends on parsing four decimals, choosing a tempo among any number of them in any order, the single-precision length of a polyline of any number of points and the order of rounded operations; no set of examples bounds the error for all of them.", "anchors": ["beatmap/parser.go:16-263", "beatmap/objects/slider.go:100-159", "beatmap/timing/timing.go:74-138", "math/curves/multicurve.go:52-91"]}
{"id": "C116", "title": "From a map on paper to ratings and pp", "statement": "Take any map on paper as in C115, of fewer than 2^15 notes within 2048 pixels and 2^36 ms, with sliders of at most 1000 spans, 80000 pixels and 1000 tick distances. Its file is read back as that map; star ratings of the whole map, after each object, and strain peaks are then all computed without a panic, for every set of mods and every speed between 1/4 and 4, and are numbers, none negative; and every play of the map, by its counts and combo, is worth a finite, non-negative pp. The one condition not on paper is that no stack is higher than 2^20, and it holds whenever there are no sliders.", "quantifier": "for all such maps, mods, speeds and plays", "why_tests_cant": "It is a claim about every file of this kind and the whole path from its bytes to pp, including that every loop on the way ends and no intermediate result overflows or is not a number.", "anchors": ["beatmap/parser.go:16-263", "performance/osu/difficulty.go:35-270", "performance/osu/pp.go:50-313", "beatmap/objects/slider.go:39-159"]}
{"id": "C117", "title": "The full combo of a map on paper", "statement": "Take any map on paper as in C115, its tempos changing speeds too. Ticks are 100 * speed * velocity / tick rate pixels apart along a span (or as far as the span is long) and none comes in its last 10 ms. Whenever a number of ticks clearly fits by that rule, a slider read back has, for each of its spans, that many score points and one more for the repeat or the tail, and circles and spinners have none. So the max combo computed for the map, under any difficulty, is the sum over its notes of one plus, for sliders, spans times (ticks + 1).", "quantifier": "for all such maps, tempos, sliders and difficulties", "why_tests_cant": "The number of ticks comes out of float32 lengths of curves, float64 tempos and a loop that adds rounded distances; that it is the number the arithmetic on paper gives, for every file of this kind, is not seen from any list of maps.", "anchors": ["beatmap/objects/slider.go:39-159", "beatmap/parser.go:16-263", "performance/osu/difficulty.go:35-270"]}
{"id": "C118", "title": "When the score points of a map on paper are due", "statement": "Take any map on paper as in C117. The score points of each slider read back are, in some order, those of the formula on paper: along every span the ticks at equal distances from the start of the curve, so that odd spans have them backwards in time, then the repeat at the end of the span or, after the last span, the tail 36 ms early but not before the middle; a ball that takes beat * velocity / (100 * speed) ms a pixel. Each is off by no more than that pace times (pixels / 100000 + (points + 17) / 2048) for each span, and the rounding of the start.", "quantifier": "for all such maps, tempos and sliders", "why_tests_cant": "The times are sums and quotients of rounded numbers, in loops over ticks and spans; that none drifts further from the times on paper is a claim on every file of this kind.", "anchors": ["beatmap/objects/slider.go:39-159", "beatmap/parser.go:16-263", "beatmap/timing/timing.go:1-100"]}
{"id": "C119", "title": "What of a file its objects, timing, difficulty and ratings depend on", "statement": "If two files agree on the version, the stack leniency, the settings under [Difficulty] and the rows under [TimingPoints] and [HitObjects] (in any order that keeps the order of one key and of one time), and both are accepted, then their maps have the same objects with the same stacking, the same timing, difficulty, length, counts and tempo range, and so the same star ratings, ratings after each object and strain peaks for all mods and speeds. Titles, artists, creators and other metadata, the background, the breaks, the audio file, the mode, the preview time, comments and unknown sections have no influence.", "quantifier": "for all pairs of such files, mods and speeds", "why_tests_cant": "That something has no influence is a claim about all its values and all files around it.", "anchors": ["beatmap/parser.go:16-263", "beatmap/stackleniency.go:1-60", "performance/osu/difficulty.go:35-270"]}
