{"claims": [
{"property": "C01", "status": "proved", "theorems": ["C01_mod_string_round_trip"], "note": ""},
{"property": "C02", "status": "proved", "theorems": ["C02_parse_mods_panics_iff", "C02_ascii_odd_panics"], "note": ""},
{"property": "C03", "status": "proved", "theorems": ["C03_parse_mods_closed", "C03_acronyms_denote_union", "C03_order_and_repetition"], "note": ""},
{"property": "C04", "status": "proved", "theorems": ["C04_compatible_iff", "C04_compatible_downward"], "note": ""},
{"property": "C05", "status": "proved", "theorems": ["C05_depends_on_scoring_mods_only", "C05_range"], "note": ""},
{"property": "C06", "status": "proved", "theorems": ["C06_never_stale", "C06_from_new", "C06_order_irrelevant"], "note": "any starting record, any setter history"},
{"property": "C07", "status": "proved", "theorems": ["C07_ranges", "C07_windows_ordered"], "note": ""},
{"property": "C08", "status": "proved", "theorems": ["C08_monotone"], "note": ""},
{"property": "C09", "status": "proved", "theorems": ["C09_hardrock", "C09_easy"], "note": "any other mods"},
{"property": "C10", "status": "proved", "theorems": ["C10_speed", "C10_real_ar_od"], "note": ""},
{"property": "C11", "status": "proved", "theorems": ["C11_lookup", "C11_lookup_original", "C11_empty_panics"], "note": ""},
{"property": "C12", "status": "proved", "theorems": ["C12_stable_sort", "C12_uninherited_unchanged"], "note": ""},
{"property": "C13", "status": "proved", "theorems": ["C13_base_beat_length"], "note": ""},
{"property": "C14", "status": "proved", "theorems": ["C14_ratio", "C14_ratio_value"], "note": ""},
{"property": "C15", "status": "proved", "theorems": ["C15_finalize_twice"], "note": ""},
{"property": "C16", "status": "proved", "theorems": ["C16_error_iff", "C16_points"], "note": ""},
{"property": "C17", "status": "proved", "theorems": ["C17_sorted_numbered"], "note": ""},
{"property": "C18", "status": "proved", "theorems": ["C18_combos"], "note": ""},
{"property": "C19", "status": "proved", "theorems": ["C19_counters"], "note": ""},
{"property": "C20", "status": "proved", "theorems": ["C20_range", "C20_nan_possible"], "note": ""},
{"property": "C21", "status": "proved", "theorems": ["C21_difficulty"], "note": ""},
{"property": "C22", "status": "proved", "theorems": ["C22_comment", "C22_text", "C22_unknown_line", "C22_unknown_section", "C22_version_not_inert"], "note": ""},
{"property": "C23", "status": "proved", "theorems": ["C23_no_panic", "C23_accepted", "C23_short_row", "C23_short_event"], "note": "Well-formed rows and arc radii up to 2^22 exclude panics; accepted files are well formed; short rows panic."},
{"property": "C24", "status": "proved", "theorems": ["C24_metadata", "C24_version_unread", "C24_version_inert"], "note": ""},
{"property": "C25", "status": "proved", "theorems": ["C25_spinners", "C25_parsed"], "note": "Objects are created with zero offsets (common_parse), which is the hypothesis."},
{"property": "C26", "status": "proved", "theorems": ["C26_frame", "C26_all_passes_frame", "C26_isolated", "C26_history_irrelevant", "C26_idempotent"], "note": ""},
{"property": "C27", "status": "proved", "theorems": ["C27_far_new", "C27_far_old", "C27_slow_new", "C27_close_exact"], "note": "The old algorithm counts spinners, shown by C25_old_counts_spinners; the statement says so."},
{"property": "C28", "status": "proved", "theorems": ["C28_pile"], "note": ""},
{"property": "C29", "status": "proved", "theorems": ["C29_offset", "C29_offset_real", "C29_stacked_position", "C29_parsed"], "note": ""},
{"property": "C30", "status": "proved", "theorems": ["C30_lookups", "C30_last", "C30_sections", "C30_untrimmed", "C30_trimmed", "C30_trimmed_refuted"], "note": "finite line ends are proved for all curve types but arcs; C30_trimmed_refuted is the NaN witness"},
{"property": "C31", "status": "proved", "theorems": ["C31_clamped", "C31_start", "C31_slider"], "note": ""},
{"property": "C32", "status": "proved", "theorems": ["C32_points", "C32_again"], "note": ""},
{"property": "C33", "status": "proved", "theorems": ["C33_returns", "C33_hangs", "C33_file_hangs"], "note": ""},
{"property": "C34", "status": "proved", "theorems": ["C34_ends", "C34_connected"], "note": ""},
{"property": "C35", "status": "proved", "theorems": ["C35_sound", "C35_complete", "C35_unique"], "note": "the recursive subdivision is the relation flattens of SpecCurves.v"},
{"property": "C36", "status": "proved", "theorems": ["C36_diverges", "C36_file"], "note": ""},
{"property": "C37", "status": "proved", "theorems": ["C37_outside", "C37_edges", "C37_two", "C37_refuted", "C37_curve"], "note": "C37_curve assumes exact powers of one half"},
{"property": "C38", "status": "proved", "theorems": ["C38_entries", "C38_last", "C38_outcome", "C38_first"], "note": ""},
{"property": "C39", "status": "proved", "theorems": ["C39_single", "C39_step", "C39_outcome", "C39_lengths"], "note": ""},
{"property": "C40", "status": "proved", "theorems": ["C40_counts", "C40_kinds", "C40_grow"], "note": ""},
{"property": "C41", "status": "proved", "theorems": ["C41_empty", "C41_pointless", "C41_returns", "C41_ordinary", "C41_tiny_refuted"], "note": "The first version of the claim had no lower bound on the size of start times; C41_tiny_refuted is the witness against it."},
{"property": "C42", "status": "proved", "theorems": ["C42_count", "C42_hangs"], "note": ""},
{"property": "C43", "status": "proved", "theorems": ["C43_strain", "C43_delta", "C43_others"], "note": ""},
{"property": "C44", "status": "proved", "theorems": ["C44_factor"], "note": ""},
{"property": "C45", "status": "proved", "theorems": ["C45_relax", "C45_flashlight", "C45_total", "C45_total_relax", "C45_pp_relax", "C45_pp_flashlight"], "note": "Ratings and pp."},
{"property": "C46", "status": "proved", "theorems": ["C46_order", "C46_any_sort", "C46_zero"], "note": "log10 assumptions are visible hypotheses, with an instance."},
{"property": "C47", "status": "proved", "theorems": ["C47_combo", "C47_greats"], "note": "C47_greats asks that the leftover count is an int of at least 0, otherwise the default itself would be negative."},
{"property": "C48", "status": "proved", "theorems": ["C48_no_memory", "C48_history"], "note": ""},
{"property": "C49", "status": "proved", "theorems": ["C49_unit", "C49_perfect", "C49_none", "C49_value"], "note": "All int64 counts, overflow included; C49_value gives the exact rounded quotient for counts up to 2^40."},
{"property": "C50", "status": "proved", "theorems": ["C50_bounds", "C50_exact", "C50_combo"], "note": ""},
{"property": "C51", "status": "proved", "theorems": ["C51_valid", "C51_defaults", "C51_difficulty", "C51_nan"], "note": "Range facts of math.Pow and math.Log10 are visible hypotheses (pow_ranges, log_above), satisfied by abs_libm."},
{"property": "C52", "status": "proved", "theorems": ["C52_full", "C52_monotone"], "note": "C52_full needs no monotonicity of math.Pow; C52_monotone takes it as the hypothesis pow_orders, satisfied by abs_libm."},
{"property": "C53", "status": "proved", "theorems": ["C53_formulas"], "note": ""},
{"property": "C54", "status": "proved", "theorems": ["C54_file_version", "C54_general"], "note": ""},
{"property": "C55", "status": "proved", "theorems": ["C55_timing", "C55_lookup"], "note": ""},
{"property": "C56", "status": "proved", "theorems": ["C56_lines", "C56_long_line"], "note": ""},
{"property": "C57", "status": "proved", "theorems": ["C57_lookup", "C57_empty", "C57_clamp"], "note": ""},
{"property": "C58", "status": "proved", "theorems": ["C58_arc_terminates"], "note": "Under the stated Atan2 range."},
{"property": "C59", "status": "proved", "theorems": ["C59_parse", "C59_single", "C59_step", "C59_peaks", "C59_curve", "C59_unique"], "note": "Fuel monotonicity of every modelled entry point."},
{"property": "C60", "status": "proved", "theorems": ["C60_background", "C60_breaks", "C60_length", "C60_tempo"], "note": "For all texts that parse; rows are those of the section as the tokenizer splits them."},
{"property": "C61", "status": "proved", "theorems": ["C61_encodable", "C61_decoded", "C61_same_map", "C61_repaired", "C61_well_formed"], "note": "The decoder is golang.org/x/text, modelled from its documentation; see DESIGN.md."},
{"property": "C62", "status": "proved", "theorems": ["C62_bezier", "C62_curve"], "note": "Second differences shrink by 4 with each halving up to rounding; the depth is at most 14."},
{"property": "C63", "status": "proved", "theorems": ["C63_lines", "C63_bytes"], "note": "Needs |atan2| <= pi. The conditions exclude the files of C33 and C36, which hang."},
{"property": "C64", "status": "proved", "theorems": ["C64_length", "C64_linear", "C64_not_extended"], "note": "error bound is explicit; extension needs a last line with distinct ends, C64_not_extended is the witness that this is needed"},
{"property": "C65", "status": "proved", "theorems": ["C65_peaks", "C65_max"], "note": "peaks_of in SpecStrain.v; concrete case C65_instance"},
{"property": "C66", "status": "proved", "theorems": ["C66_value", "C66_ratings"], "note": "rating in SpecStrain.v; concrete case C66_instance"},
{"property": "C67", "status": "proved", "theorems": ["C67_difficulty", "C67_single", "C67_step", "C67_peaks"], "note": "trig_ranges, pow_ranges and log_unit are hypotheses on the mathematical library, met by calm_libm"},
{"property": "C68", "status": "proved", "theorems": ["C68_valid", "C68_step", "C68_best", "C68_difficulty"], "note": "For all maps within the stated ranges; the ranges assumed of math.Pow, Log10, Sin and Cbrt are hypotheses (satisfied in C68_instance)."},
{"property": "C69", "status": "proved", "theorems": ["C69_spinner", "C69_aim_start", "C69_aim_spinner", "C69_memory", "C69_sliderless", "C69_flash", "C69_velocity"], "note": "velocity bound for tidy objects in time order (SpecSane.tidy), under pow_ranges and trig_ranges"},
{"property": "C70", "status": "proved", "theorems": ["C70_spinner", "C70_after_circle", "C70_slider_times", "C70_jump", "C70_movement", "C70_angle"], "note": "accuracy for tidy objects (SpecSane.tidy) under pow_ranges; angle range under atan2_range"},
{"property": "C71", "status": "proved", "theorems": ["C71_step", "C71_path", "C71_end", "C71_travel", "C71_still"], "note": "Real-number error bounds on the exact float model; math.Pow only through pow_ranges (C71_travel, C71_still)."},
{"property": "C72", "status": "proved", "theorems": ["C72_int", "C72_not_int", "C72_f64", "C72_f32", "C72_special", "C72_foreign"], "note": "About the model of Go's strconv (standard library, modelled from its documentation), which every number in a file goes through. Hexadecimal floats and underscores are modelled but not specified."},
{"property": "C73", "status": "proved", "theorems": ["C73_rows"], "note": "Relates the rows to the final objects, in play order when start times are not NaN."},
{"property": "C74", "status": "proved", "theorems": ["C74_linear", "C74_bezier", "C74_perfect", "C74_perfect_many", "C74_other", "C74_catmull", "C74_through"], "note": "Circular arcs (type P, three points not on a line) are the subject of C76 and C77."},
{"property": "C75", "status": "proved", "theorems": ["C75_progress"], "note": "Up to the stated rounding."},
{"property": "C76", "status": "proved", "theorems": ["C76_arc", "C76_side", "C76_small"], "note": "Accuracy of Sin, Cos and Atan2 is a hypothesis, met by the instance."},
{"property": "C77", "status": "proved", "theorems": ["C77_centre", "C77_equidistant"], "note": "Up to the stated rounding."},
{"property": "C78", "status": "proved", "theorems": ["C78_ratings", "C78_pp", "C78_pp_step"], "note": "Hypotheses on libm ranges (atan2_range, pow_ranges, trig_ranges, log_unit, log_above, pow_total), on the file (rows_ok, sliders_tame, rates_ok, ordinary) and on the parsed map (low_stacks: stack indices at most 2^20). C78_instance shows a file with sliders of every type that meets all of them."},
{"property": "C79", "status": "proved", "theorems": ["C79_velocity", "C79_velocity_no_beat", "C79_velocity_zero", "C79_tick_distance", "C79_slider_time", "C79_base", "C79_sliders"], "note": "real formulas with relative error 1e-6; curve length and timing points as found in the parsed map (C64, C55 and C12 describe those)"},
{"property": "C80", "status": "proved", "theorems": ["C80_breaks", "C80_values", "C80_perfect"], "note": "real formulas with relative error 1e-6; accuracy of Pow and Log10 (2^-40) is a hypothesis, met by exact_libm; ranges and excluded plays as in the statement"},
{"property": "C81", "status": "proved", "theorems": ["C81_tower", "C81_pile_old"], "note": "positions exactly equal within a stack; times finite and below 2^50 ms"},
{"property": "C82", "status": "proved", "theorems": ["C82_pause"], "note": "equality of the complete object lists"},
{"property": "C83", "status": "proved", "theorems": ["C83_heights", "C83_file"], "note": "C83_file discharges the low_stacks hypothesis of C78"},
{"property": "C84", "status": "proved", "theorems": ["C84_aim"], "note": "Real formula in SpecSkill.aim_formula; libm accuracy (skill_maths) is a hypothesis met by exact_libm."},
{"property": "C85", "status": "proved", "theorems": ["C85_speed", "C85_rhythm"], "note": "Real formulas in SpecSkill; step_clear excludes comparisons that rounding decides (for example objects exactly 5 s apart under DT)."},
{"property": "C86", "status": "proved", "theorems": ["C86_flashlight"], "note": "Real formula in SpecSkill.flash_formula."},
{"property": "C87", "status": "proved", "theorems": ["C87_value", "C87_stars", "C87_sorted", "C87_order"], "note": "peaks up to 2^100, at most 2^20 of them; log10 accurate to 2^-40"},
{"property": "C88", "status": "proved", "theorems": ["C88_strain", "C88_peaks"], "note": "plain maps; slacks scale with max_load, the most objects that count at once"},
{"property": "C89", "status": "proved", "theorems": ["C89_stars", "C89_ratings"], "note": "CalculateSingle; slack for small ratings is larger because of the square root; instance pattern map with blend_libm"},
{"property": "C90", "status": "proved", "theorems": ["C90_total", "C90_peaks", "C90_grows", "C90_steady", "C90_map", "C90_factor"], "note": "a flashlight rating that counts must be zero or at least 2^-100; cube roots accurate to 2^-40"},
{"property": "C91", "status": "proved", "theorems": ["C91_better", "C91_best", "C91_fifty_refuted", "C91_relax_refuted"], "note": "better: some 100s, 50s, misses become 300s, or 50s and misses 100s (under Relax no more 100s and 50s together), more combo, higher ratings; that a 50 is better than a miss is refuted, with a witness for accurate powers, as is that under Relax a 100 is better than a miss"},
{"property": "C92", "status": "proved", "theorems": ["C92_mid", "C92_mid_refuted", "C92_nor", "C92_nor_length", "C92_nor_huge_refuted", "C92_rotate", "C92_distance", "C92_distance_squared", "C92_distance_refuted", "C92_angle_refuted", "C92_round", "C92_round_refuted", "C92_lerp", "C92_lerp_refuted"], "note": "The positive claims hold within the stated ranges; the refuted ones show with witnesses where they stop (overflow, points in line, Round above 2^23, LerpF32 at 1)."},
{"property": "C93", "status": "proved", "theorems": ["C93_bezier_builds", "C93_length_refuted", "C93_bezier_point", "C93_casteljau", "C93_catmull", "C93_start_angle_refuted"], "note": "Bezier points are proved for up to four control points; five are refuted by C37. C93_casteljau is about the reference construction only."},
{"property": "C94", "status": "proved", "theorems": ["C94_mods", "C94_better", "C94_built", "C94_hidden_refuted", "C94_touch_refuted"], "note": "Assumes of math.Pow and math.Log10 only ranges and monotony (visible hypotheses, met by exact_libm); the refutations use the closeness hypotheses of C80. SpunOut needs at most as many spinners as hits."},
{"property": "C95", "status": "proved", "theorems": ["C95_reads", "C95_later", "C95_mirror", "C95_drawn", "C95_half_refuted", "C95_translated_refuted", "C95_repeated_refuted"], "note": "reads covers sliders; later and mirror are for maps without sliders. Clock rates are multiples of 1/1024 up to 4, times whole ms up to 2^40, coordinates multiples of 2^-30 up to 2^20."},
{"property": "C96", "status": "proved", "theorems": ["C96_components", "C96_abs", "C96_mod", "C96_mod_nan", "C96_angle", "C96_line_angles", "C96_bezier_angles", "C96_catmull_angles", "C96_arc_angles", "C96_has_points", "C96_default", "C96_full_names", "C96_numbers", "C96_names_differ", "C96_clamp"], "note": "Bezier curves of up to four control points; the angles assume Atan2 (and Sin, Cos, Pow where used) accurate to 2^-40."},
{"property": "C97", "status": "proved", "theorems": ["C97_bezier_length", "C97_inscribed", "C97_bezier_bounds", "C97_catmull_length", "C97_accuracy_refuted", "C97_bezier_na"], "note": "Bezier curves of up to four control points; Pow accurate to 2^-40 up to the third power."},
{"property": "C98", "status": "proved", "theorems": ["C98_rearranged"], "note": "The map is equal in every field, including the tempo range, the stacked objects and the timing points."},
{"property": "C99", "status": "proved", "theorems": ["C99_value", "C99_step", "C99_total", "C99_peaks"], "note": "C99_total has pow_orders and cbrt_order as further hypotheses on libm; calm_libm meets all of them."},
{"property": "C100", "status": "proved", "theorems": ["C100_straight", "C100_line", "C100_circle"], "note": "The hypotheses on sin, cos and atan2 are those of C76, met by ideal_libm."},
{"property": "C101", "status": "proved", "theorems": ["C101_casteljau", "C101_covers", "C101_covered", "C101_flatten", "C101_slider"], "note": "C101_covers and C101_covered say what the relation follows of SpecBezier.v means; C101_casteljau that its polynomial is de Casteljau's."},
{"property": "C102", "status": "proved", "theorems": ["C102_walk", "C102_ball", "C102_bezier"], "note": "The case of a curve of length 0 after cutting is stated apart: PointAt is then the first point."},
{"property": "C103", "status": "proved", "theorems": ["C103_ball"], "note": "Combines C73, C79 and C102 into one statement from the text of a row to the position at a time."},
{"property": "C104", "status": "proved", "theorems": ["C104_catmull", "C104_catmull_ball", "C104_steps", "C104_circle", "C104_circle_ball"], "note": "Lines: all points between the ends, not only the ends (C74, C100). The case of a curve cut to length 0 is stated apart."},
{"property": "C105", "status": "proved", "theorems": ["C105_ticks"], "note": "Times and counts against real formulas; the point list itself is C73/C32."},
{"property": "C106", "status": "proved", "theorems": ["C106_longer", "C106_step", "C106_spun_out_refuted"], "note": "Up to the error of the pp formulas (C80), three parts in a million. Entry 0 of CalculateStep has slider factor 0 (C38) and is not covered by the hypothesis on the slider factor."},
{"property": "C107", "status": "proved", "theorems": ["C107_bezier", "C107_curve", "C107_budget", "C107_parsed"], "note": "Explicit worst-case bounds: rounds of the flattening loop, points of a flattened curve, lines of a slider curve by type letter, for curve objects and for the sliders of a parsed file; a step budget that suffices."},
{"property": "C108", "status": "proved", "theorems": ["C108_bounded", "C108_aim", "C108_speed", "C108_stars", "C108_flashlight"], "note": "Bounds through the real formulas of C88-C90; libm accuracy as hypotheses, met by blend_libm."},
{"property": "C109", "status": "proved", "theorems": ["C109_od", "C109_od_refuted", "C109_od_witness", "C109_positive", "C109_ar", "C109_ar_between", "C109_only"], "note": "A stricter OD or another AR against the same play; the monotonicity in OD is refuted below 0 with a witness."},
{"property": "C110", "status": "proved", "theorems": ["C110_none", "C110_at", "C110_ends", "C110_sighted", "C110_start", "C110_end", "C110_end_refuted"], "note": "The end angle and the angle at 1 differ when the last line is too short to count: C110_end_refuted."},
{"property": "C111", "status": "proved", "theorems": ["C111_trim", "C111_unique", "C111_fields", "C111_setting", "C111_section", "C111_padding"], "note": "White space defined independently as Unicode White_Space in UTF-8; every trimmed piece of a line characterised by it."},
{"property": "C112", "status": "proved", "theorems": ["C112_f64", "C112_f32", "C112_else", "C112_unique"], "note": "Full grammar of ParseFloat, both directions; values for exponents below 100000 (beyond that Go itself stops counting)."},
{"property": "C113", "status": "proved", "theorems": ["C113_round_trip", "C113_order", "C113_windows"], "note": "Sheets of circles and spinners; C114 adds sliders. Positions below 2^24, times below 2^53, lines shorter than the scanner's buffer."},
{"property": "C114", "status": "proved", "theorems": ["C114_round_trip", "C114_result", "C114_straight"], "note": "C114_result needs no assumption on the sliders. C114_round_trip assumes of math.Atan2 only that it returns an angle of at most Pi in magnitude, and takes the tameness condition of C63, which C114_straight derives from the numbers written. Sliders without edge sounds."},
{"property": "C115", "status": "proved", "theorems": ["C115_times", "C115_read", "C115_tempo"], "note": "C115_read assumes of math.Atan2 only that it returns an angle of at most Pi in magnitude; the other two assume nothing of math. Changes of slider speed are numbers from -100000 to -1/512."},
{"property": "C116", "status": "proved", "theorems": ["C116_ratings", "C116_pp", "C116_low"], "note": "C116_ratings and C116_pp assume of math's Pow, Log10, Cbrt, Sin, Cos, Acos and Atan2 the ranges of C67 and C68 and take low_stacks of the map read, which C116_low derives for maps without sliders."},
{"property": "C117", "status": "proved", "theorems": ["C117_points", "C117_combo"], "note": "Counts within pixels / 100000 + (points + 17) / 2048 pixels of the edge are left open: there the rounded length of the curve decides."},
{"property": "C118", "status": "proved", "theorems": ["C118_due"], "note": "For tick counts that are clear on paper, as in C117."},
{"property": "C119", "status": "proved", "theorems": ["C119_same_play", "C119_same_ratings"], "note": "As in C98, no object may start at a time that is not a number."}
]}
