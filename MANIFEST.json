{
 "claims": [
  {
   "property": "C01",
   "status": "proved",
   "theorems": [
    "C01_reduce_canonical",
    "C01_terms_are_wf"
   ],
   "note": "For every list of terms; every object built by the term constructor satisfies the hypothesis."
  },
  {
   "property": "C02",
   "status": "proved",
   "theorems": [
    "C02_reduce_same_monomial",
    "C02_reduce_value",
    "C02_reduce_value_in"
   ],
   "note": "As rational functions, and as values in any commutative monoid with powers."
  },
  {
   "property": "C03",
   "status": "partial",
   "theorems": [
    "C03_equality_partial",
    "C03_equality_refuted",
    "C228_identical_are_equal",
    "C228_equality_equivalence",
    "C228_order_irrelevant"
   ],
   "note": "Proved for expressions whose numbers are distinguished by conversion to float; equivalence and the direction identity -> equality hold without condition. The full statement is refuted: 1/3 and float(1/3) compare equal. Fully proved parts: C228."
  },
  {
   "property": "C04",
   "status": "partial",
   "theorems": [
    "C04_product_partial",
    "C04_quotient_partial",
    "C04_power_partial",
    "C04_product_assoc_partial",
    "C04_identity_partial",
    "C04_cancel_partial",
    "C04_product_refuted",
    "C229_product_comm",
    "C229_self_quotient",
    "C229_power_algebra"
   ],
   "note": "Commutativity and x/x = 1 hold without condition; the other laws hold whenever the exact result survives being written as text and re-read (printable). Refuted otherwise: the coefficient of Expression(\"a / 5\") * \"b\" is not 1/5. Fully proved parts: C229."
  },
  {
   "property": "C05",
   "status": "partial",
   "theorems": [
    "C05_term_power_partial",
    "C05_fractional_power_partial",
    "C05_zeroth_power_refuted"
   ],
   "note": "Proved for every non-zero integer power and for fractional powers of unit-coefficient terms. Refuted at power 0: (a^2)**0 is a."
  },
  {
   "property": "C06",
   "status": "partial",
   "theorems": [
    "C06_round_trip_partial",
    "C06_terms_partial",
    "C06_round_trip_refuted"
   ],
   "note": "Proved for canonical expressions with one-digit denominators, float-exact coefficients and legal bases not starting with sqrt. Refuted for a^1/12, which reads back as 2 a."
  },
  {
   "property": "C07",
   "status": "partial",
   "theorems": [
    "C07_find_bounds_none",
    "C07_find_bounds_partial",
    "C07_find_bounds_refuted"
   ],
   "note": "Exact for every string in which no closing bracket precedes the first opening one; refuted on \")(a)\"."
  },
  {
   "property": "C08",
   "status": "proved",
   "theorems": [
    "C08_default_accepts",
    "C08_strict_accepts",
    "C08_strict_rejects",
    "C08_strict_first_error"
   ],
   "note": "For every written expression, with nested groups, in both modes; the first offending operator decides the error."
  },
  {
   "property": "C09",
   "status": "partial",
   "theorems": [
    "C09_getitem_partial",
    "C09_getitem_wraps_refuted"
   ],
   "note": "Exact for every index in range and beyond; refuted below -len, where indices wrap a second time."
  },
  {
   "property": "C10",
   "status": "partial",
   "theorems": [
    "C10_hash_partial",
    "C10_hash_refuted"
   ],
   "note": "Proved for float-distinguishable numbers; refuted for \"a / 3\" and \"1/3 a\", which are equal with different hashed data."
  },
  {
   "property": "C11",
   "status": "proved",
   "theorems": [
    "C11_aliases_read_same"
   ],
   "note": "For every iteration order of Python sets, every list of disjoint keys."
  },
  {
   "property": "C12",
   "status": "proved",
   "theorems": [
    "C12_set_frame",
    "C12_del_frame",
    "C12_del_absent",
    "C12_reachable"
   ],
   "note": "For every consistent mapping; every mapping reachable by any history is consistent (C12_reachable)."
  },
  {
   "property": "C13",
   "status": "proved",
   "theorems": [
    "C13_refinement"
   ],
   "note": "Outcome of every call and all observations agree with the abstract map after every history."
  },
  {
   "property": "C14",
   "status": "partial",
   "theorems": [
    "C14_failure_leaves_prefix_partial",
    "C14_one_alias_atomic_partial",
    "C14_fresh_aliases_succeed",
    "C14_all_or_nothing_refuted"
   ],
   "note": "Refuted: a failing call keeps the aliases before the first taken one. Proved: exactly that prefix stays; one alias is atomic; fresh aliases succeed."
  },
  {
   "property": "C15",
   "status": "partial",
   "theorems": [
    "C15_merge_partial",
    "C15_merge_overlap_refuted",
    "C15_merge_fails_refuted",
    "C230_add_exact",
    "C230_add_disjoint",
    "C230_discard"
   ],
   "note": "add and discard are exact. merge is proved when each new group meets at most one existing group and vice versa; refuted otherwise (overlapping result, or ValueError). Fully proved parts: C230."
  },
  {
   "property": "C16",
   "status": "proved",
   "theorems": [
    "C16_lookup",
    "C16_unknown",
    "C16_idempotent",
    "C16_total",
    "C16_lookup_groups"
   ],
   "note": "Exact lookup for maps from names to aliases and for groups with reference names; construction always succeeds without repeated names."
  },
  {
   "property": "C17",
   "status": "proved",
   "theorems": [
    "C17_strict",
    "C17_strict_errors",
    "C17_no_rows"
   ],
   "note": "Exact, for every table of dictionaries and every request; on an empty table every key raises IndexError."
  },
  {
   "property": "C18",
   "status": "partial",
   "theorems": [
    "C18_nonstrict_partial",
    "C18_nonstrict_refuted"
   ],
   "note": "The exact condition for success is proved. Refuted: a request that determines one row raises AmbiguousRequestError when its last value is held by more rows than there are pairs."
  },
  {
   "property": "C19",
   "status": "partial",
   "theorems": [
    "C19_reciprocal_partial",
    "C19_reciprocal_refuted",
    "C231_first_wins",
    "C231_never_overwritten"
   ],
   "note": "First-wins is exact. Reciprocity is proved for distinct nodes and non-zero weights; refuted for a node connected to itself. Fully proved parts: C231."
  },
  {
   "property": "C20",
   "status": "proved",
   "theorems": [
    "C20_accepts",
    "C20_inverts"
   ],
   "note": ""
  },
  {
   "property": "C21",
   "status": "partial",
   "theorems": [
    "C21_register_partial",
    "C21_register_frame",
    "C21_register_named",
    "C21_register_own",
    "C21_register_refuted"
   ],
   "note": "Proved when no name ends in _<number>. Refuted: f_1, f, f overwrites f_1; two objects without a name share the key None."
  },
  {
   "property": "C22",
   "status": "proved",
   "theorems": [
    "C22_first_occurrence",
    "C22_unique",
    "C22_same_set"
   ],
   "note": ""
  },
  {
   "property": "C23",
   "status": "proved",
   "theorems": [
    "C23_unwrap",
    "C23_unwrap_idempotent",
    "C23_unwrap_layers",
    "C23_unwrap_as"
   ],
   "note": ""
  },
  {
   "property": "C24",
   "status": "partial",
   "theorems": [
    "C24_slice_partial",
    "C24_slice_refuted",
    "C24_no_length"
   ],
   "note": "Proved for stop None or 0 < stop <= length and positive step; refuted for stop 0 (treated as missing) and stop beyond the length."
  },
  {
   "property": "C25",
   "status": "partial",
   "theorems": [
    "C25_guard_partial",
    "C25_others_pass",
    "C25_guard_refuted"
   ],
   "note": "Proved for the declared type itself and for undeclared exceptions; refuted for every proper subtype: the guard raises KeyError."
  },
  {
   "property": "C26",
   "status": "proved",
   "theorems": [
    "C26_nearest",
    "C26_total",
    "C26_empty"
   ],
   "note": ""
  },
  {
   "property": "C27",
   "status": "proved",
   "theorems": [
    "C27_lower",
    "C27_upper"
   ],
   "note": ""
  },
  {
   "property": "C28",
   "status": "proved",
   "theorems": [
    "C28_bounding"
   ],
   "note": ""
  },
  {
   "property": "C29",
   "status": "proved",
   "theorems": [
    "C29_exact",
    "C29_between",
    "C29_targets"
   ],
   "note": "Exact rational arithmetic; scipy interp1d modelled from its documentation. Coordinates strictly increasing."
  },
  {
   "property": "C30",
   "status": "partial",
   "theorems": [
    "C30_suggestions_partial",
    "C30_end_insertion_refuted",
    "C30_empty_refuted",
    "C232_known",
    "C232_suggestions_are_known",
    "C232_never_silent"
   ],
   "note": "Exact for edits other than an insertion at the end of the word. Refuted in general: such insertions are never tried, so a word one edit away can be left out, and the empty word gets no suggestion. Fully proved parts: C232."
  },
  {
   "property": "C31",
   "status": "proved",
   "theorems": [
    "C31_ratio_is_quotient",
    "C31_ratio_self",
    "C31_ratio_reciprocal",
    "C31_ratio_chain",
    "C31_ratio_rejects",
    "C31_floordiv"
   ],
   "note": "Proved for all prefixes and base units. A prefix with scale 0 exists in the table (' '): dividing by such a unit raises ZeroDivisionError, which is why nonzero scales are assumed."
  },
  {
   "property": "C32",
   "status": "partial",
   "theorems": [
    "C32_products_partial",
    "C32_different_quantities_refuted",
    "C32_prefix_lost_refuted",
    "C32_coefficient_lost_refuted",
    "C32_intermediate_refuted",
    "C233_factor_derives",
    "C233_factor_is_quotient",
    "C233_there_and_back",
    "C233_module_table_consistent"
   ],
   "note": "The factor found by the search follows from the declared conversions and is the quotient of the sizes; the module's own table has one size for every unit. Refuted: au->min is 1, prefixes and coefficients are lost in the conversion by dimensions (J -> kg km^2 s^-2 is 1; 2 m -> cm is 100), deg/s -> 1/min -> rad/s differs from deg/s -> rad/s. Products of integral powers without coefficients: proved (partial). Fully proved parts: C233."
  },
  {
   "property": "C33",
   "status": "proved",
   "theorems": [
    "C33_search_terminates",
    "C33_conversion_terminates"
   ],
   "note": "Any declared table, including cyclic ones; every name is visited at most once; the whole conversion never exhausts its bound."
  },
  {
   "property": "C34",
   "status": "partial",
   "theorems": [
    "C34_amount_partial",
    "C34_same_unit_unchanged",
    "C34_there_and_back_partial",
    "C34_chain_partial",
    "C34_refuses",
    "C34_amount_refuted"
   ],
   "note": "Proved for units with one name each: the amount is kept, converting back restores the quantity, and chains agree. Refuted for products: 3 J in kg km^2 s^-2 and 3 au in minutes are returned unchanged."
  },
  {
   "property": "C35",
   "status": "partial",
   "theorems": [
    "C35_module_names_partial",
    "C35_candela_refuted",
    "C234_name_denotes",
    "C234_only_defined_names"
   ],
   "note": "General theorem for disjoint tables; the module's tables satisfy it for every name but 'cd', which denotes the centiday (refuted). Fully proved parts: C234."
  },
  {
   "property": "C36",
   "status": "partial",
   "theorems": [
    "C36_supports_partial",
    "C36_length_refuted",
    "C36_suppress_nothing_refuted",
    "C36_groups_refuted"
   ],
   "note": "Proved for histories whose suppressed rules are ungrouped and as long as the operand types; refuted otherwise (a shorter rule suppresses by prefix, suppress() rejects everything, groups are read as unions)."
  },
  {
   "property": "C37",
   "status": "partial",
   "theorems": [
    "C37_product_partial",
    "C37_quotient_partial",
    "C37_power_partial",
    "C37_square_partial",
    "C37_product_refuted",
    "C37_sum_refuted",
    "C235_sum_needs_equal_units",
    "C235_sum_of_equal_units",
    "C235_sum_of_different_units",
    "C235_sum_of_base_units",
    "C235_sum_with_number",
    "C236_scaling",
    "C236_no_quotient_or_power",
    "C236_power_of_data",
    "C236_power_of_zero",
    "C236_same_quotient"
   ],
   "note": "Sums need equal units and keep the unit; numbers keep the unit. Products, quotients, powers proved for units whose decomposition has the right size and whose result survives printing. Refuted: V A and ohm A get the same unit; degrees may be added to plain numbers. Fully proved parts: C235, C236."
  },
  {
   "property": "C38",
   "status": "proved",
   "theorems": [
    "C38_ordered",
    "C38_members",
    "C38_associative",
    "C38_idempotent",
    "C38_several",
    "C38_scalars"
   ],
   "note": ""
  },
  {
   "property": "C39",
   "status": "partial",
   "theorems": [
    "C39_axes_partial",
    "C39_symmetric_partial",
    "C39_order_refuted",
    "C39_symmetry_refuted",
    "C39_string_refuted"
   ],
   "note": "Axis order is not distinguished; equality is a permutation test for distinct axes, not symmetric with repeats."
  },
  {
   "property": "C40",
   "status": "partial",
   "theorems": [
    "C40_names_partial",
    "C40_numbers_partial",
    "C40_strings_partial",
    "C40_sums_need_names",
    "C40_reflected_names",
    "C40_same_partial",
    "C40_unary",
    "C40_reciprocal_refuted",
    "C40_reflected_refuted",
    "C40_empty_refuted"
   ],
   "note": "Proved for different names, numbers and strings on either side; same names pair diagonally; 1/name is name; reflected lists swap."
  },
  {
   "property": "C41",
   "status": "partial",
   "theorems": [
    "C41_measure_partial",
    "C41_unit",
    "C41_measure_refuted",
    "C237_conflict_rejected",
    "C237_two_units_rejected"
   ],
   "note": "Proved for every nesting the documentation lists, and conflicting units are rejected. Refuted: measure(1, [2, 3]) loses 2 and 3; 90 deg is measured as 90. Fully proved parts: C237."
  },
  {
   "property": "C42",
   "status": "partial",
   "theorems": [
    "C42_unchanged_partial",
    "C42_unchanged_refuted"
   ],
   "note": "Refuted: every in-place operation that can be evaluated replaces the data and then raises ValueError. Proved: an operation whose evaluation raises changes nothing."
  },
  {
   "property": "C43",
   "status": "proved",
   "theorems": [
    "C43_lazy",
    "C43_read"
   ],
   "note": ""
  },
  {
   "property": "C44",
   "status": "partial",
   "theorems": [
    "C44_copies_partial",
    "C44_copy_equal",
    "C44_copies_refuted"
   ],
   "note": "Refuted: 1 km converted to m, copied and converted back to km is 0.001 km. Proved: every history in which no copy of a converted quantity is converted again shows the same as uncached values."
  },
  {
   "property": "C45",
   "status": "proved",
   "theorems": [
    "C45_product"
   ],
   "note": ""
  },
  {
   "property": "C46",
   "status": "partial",
   "theorems": [
    "C46_lists_partial",
    "C46_ellipsis_refuted",
    "C238_slices",
    "C238_expansion"
   ],
   "note": "Refuted: with three axes, v[..., [0, 1]] returns everything and v[..., 0] raises ValueError. Proved: an ellipsis between slices; an ellipsis with lists that is last or stands for one axis. Fully proved parts: C238."
  },
  {
   "property": "C47",
   "status": "proved",
   "theorems": [
    "C47_observation_follows_constraints",
    "C47_same_as_in_a_new_context"
   ],
   "note": "For every history of constrain calls, observations (also failing ones), inspections and name queries. Arrays, axis indices and scalars are arbitrary types; changes of unit made in place on shared computed quantities are outside these histories."
  },
  {
   "property": "C48",
   "status": "proved",
   "theorems": [
    "C48_constraints"
   ],
   "note": ""
  },
  {
   "property": "C49",
   "status": "partial",
   "theorems": [
    "C49_available_at_first_partial",
    "C49_available_names_frozen_refuted"
   ],
   "note": "Refuted: available names are computed once, at the first query, and constrain does not reset them. Proved: they are right at the first query."
  },
  {
   "property": "C50",
   "status": "partial",
   "theorems": [
    "C50_file_read_partial",
    "C50_rejected_files",
    "C50_bad_line_refuted"
   ],
   "note": "Refuted: a line with two equals signs (such as in a comment at its end), a line of blanks or an indented comment makes the whole file unreadable. Proved: all files of well-formed lines are read exactly, and exactly the files with such a bad line are rejected."
  },
  {
   "property": "C51",
   "status": "partial",
   "theorems": [
    "C51_blanks_around_value_partial",
    "C51_blank_before_equals_refuted"
   ],
   "note": "Refuted: blanks before the equals sign become part of the key, so the line does not define the parameter. Proved: blanks around the value are insignificant."
  },
  {
   "property": "C52",
   "status": "partial",
   "theorems": [
    "C52_evaluation_partial",
    "C52_definitions_refuted"
   ],
   "note": "Refuted: a sum that is zero raises TypeError, sums of three terms lose the third, 0.0 for an integer parameter raises TypeError, and the minus sign of 1e-3 is read as a difference. Proved: evaluation terminates with the arithmetic value for acyclic definitions made of numerals, names, members, products and at most one sum of differences, without zeros, negative exponents or fractional exponents."
  },
  {
   "property": "C53",
   "status": "partial",
   "theorems": [
    "C53_all_partial",
    "C53_slice_partial",
    "C53_slice_refuted",
    "C53_reals_refuted",
    "C239_within",
    "C239_explicit"
   ],
   "note": "Refuted: slices with negative numbers are rejected, empty selections raise IndexError, and numbers between -1 and 0 are accepted as 0. Proved: no arguments, explicit integers, non-negative slices, and that the result is always within the axis. Fully proved parts: C239."
  },
  {
   "property": "C54",
   "status": "partial",
   "theorems": [
    "C54_arguments_partial",
    "C54_variadic_partial",
    "C54_refuted",
    "C54_missing_refuted",
    "C240_count",
    "C240_unknown"
   ],
   "note": "Refuted: all arrays are passed before all numbers, so a function with a number before an array gets them swapped, and values of other kinds are dropped so that later ones take their place. Proved when arrays come first, also with a variable number of last arguments. Fully proved parts: C240."
  },
  {
   "property": "C55",
   "status": "partial",
   "theorems": [
    "C55_decomposition_partial",
    "C55_no_field",
    "C55_refuted"
   ],
   "note": "Proved in exact arithmetic; refuted in binary64, where flow along the field (0, 1, 5) has a perpendicular component that is not a number. Missing: a bound on the rounding error."
  },
  {
   "property": "C56",
   "status": "partial",
   "theorems": [
    "C56_angle_partial",
    "C56_refuted",
    "C241_angle_actual",
    "C241_side",
    "C241_undefined"
   ],
   "note": "Refuted: the arguments of the parallel velocity are swapped, so the cosine is divided by the speed once more. Proved for unit speed and perpendicular vectors, with what is computed in general. Fully proved parts: C241."
  },
  {
   "property": "C57",
   "status": "partial",
   "theorems": [
    "C57_identified_partial",
    "C57_identified_refuted",
    "C258_cases",
    "C258_elements"
   ],
   "note": "Refuted: an element is taken for an earlier one of the same rounded mass (calcium for argon, cobalt for nickel, polonium for bismuth, curium for berkelium, dubnium for bohrium). Proved for all masses and integral charges with the first element of that rounded mass. Fully proved parts: C258."
  },
  {
   "property": "C58",
   "status": "partial",
   "theorems": [
    "C58_composed_partial",
    "C58_composed_refuted",
    "C242_members",
    "C242_unknown",
    "C242_terminates"
   ],
   "note": "Refuted: what any nested function removes is removed from the result even if another dependency has it. Proved: the exact set for all registries, dataset order, termination, and composition when removed dimensions belong to no other dependency. Fully proved parts: C242."
  },
  {
   "property": "C59",
   "status": "proved",
   "theorems": [
    "C59_standardize",
    "C59_substitutions"
   ],
   "note": ""
  },
  {
   "property": "C60",
   "status": "partial",
   "theorems": [
    "C60_written_partial",
    "C60_powers_refuted",
    "C60_brackets_refuted",
    "C243_accepts",
    "C243_decides"
   ],
   "note": "Refuted for powers and products without an operator, which are refused, and for names with brackets in expressions. Proved in general for what is accepted, and for written expressions with a quotient or a product. Fully proved parts: C243."
  },
  {
   "property": "C61",
   "status": "proved",
   "theorems": [
    "C61_parse_terminates",
    "C61_create_terminates"
   ],
   "note": "The recursion of the modelled parser is bounded by the text length on every string."
  },
  {
   "property": "C62",
   "status": "proved",
   "theorems": [
    "C62_copy",
    "C62_rebuild"
   ],
   "note": ""
  },
  {
   "property": "C63",
   "status": "proved",
   "theorems": [
    "C63_or_lookup"
   ],
   "note": ""
  },
  {
   "property": "C64",
   "status": "proved",
   "theorems": [
    "C64_interior_aliases"
   ],
   "note": ""
  },
  {
   "property": "C65",
   "status": "proved",
   "theorems": [
    "C65_squeeze"
   ],
   "note": ""
  },
  {
   "property": "C66",
   "status": "proved",
   "theorems": [
    "C66_invert"
   ],
   "note": ""
  },
  {
   "property": "C67",
   "status": "proved",
   "theorems": [
    "C67_with_groups"
   ],
   "note": ""
  },
  {
   "property": "C68",
   "status": "partial",
   "theorems": [
    "C68_tuple_assignment_partial",
    "C68_tuple_assignment_refuted"
   ],
   "note": "Proved when no name of the tuple is present; refuted otherwise: the tuple is stored as a second group containing the same name."
  },
  {
   "property": "C69",
   "status": "partial",
   "theorems": [
    "C69_show_partial",
    "C69_show_refuted",
    "C69_below_one"
   ],
   "note": "Proved for n >= 1; refuted for n = 0, where everything is shown."
  },
  {
   "property": "C70",
   "status": "proved",
   "theorems": [
    "C70_transpose",
    "C70_transpose_twice",
    "C70_transpose_errors"
   ],
   "note": ""
  },
  {
   "property": "C71",
   "status": "proved",
   "theorems": [
    "C71_distribute",
    "C71_distribute_error"
   ],
   "note": ""
  },
  {
   "property": "C72",
   "status": "proved",
   "theorems": [
    "C72_instances"
   ],
   "note": ""
  },
  {
   "property": "C73",
   "status": "proved",
   "theorems": [
    "C73_find"
   ],
   "note": ""
  },
  {
   "property": "C74",
   "status": "proved",
   "theorems": [
    "C74_adjacencies"
   ],
   "note": ""
  },
  {
   "property": "C75",
   "status": "partial",
   "theorems": [
    "C75_between",
    "C75_hit",
    "C75_repeated_refuted"
   ],
   "note": "Exact for strictly increasing coordinates; refuted for a repeated coordinate, which leaves an empty restriction."
  },
  {
   "property": "C76",
   "status": "proved",
   "theorems": [
    "C76_axis",
    "C76_no_axis"
   ],
   "note": ""
  },
  {
   "property": "C77",
   "status": "partial",
   "theorems": [
    "C77_rows_partial",
    "C77_hit",
    "C77_rows_refuted"
   ],
   "note": "Proved when the target lies strictly between coordinates of every row; refuted when it equals a coordinate of some row: one cell of the array is returned instead of one per row."
  },
  {
   "property": "C78",
   "status": "proved",
   "theorems": [
    "C78_nearest"
   ],
   "note": ""
  },
  {
   "property": "C79",
   "status": "partial",
   "theorems": [
    "C79_second_axis_refuted"
   ],
   "note": "Refuted in general: with axis 1 and a one-dimensional reference, as the eprem interface passes for mu, every target that is not a coordinate raises."
  },
  {
   "property": "C80",
   "status": "partial",
   "theorems": [
    "C80_truth_partial",
    "C80_truth_refuted",
    "C244_raises",
    "C244_raises_iff",
    "C244_truth_resembles_none",
    "C244_unknown_mode"
   ],
   "note": "Raising is exact; truth mode is refuted: it is true for every word that resembles no known word. Fully proved parts: C244."
  },
  {
   "property": "C81",
   "status": "proved",
   "theorems": [
    "C81_known"
   ],
   "note": ""
  },
  {
   "property": "C82",
   "status": "proved",
   "theorems": [
    "C82_linked_units_convert",
    "C82_module_linked_units_convert"
   ],
   "note": "General theorem for any table of nonzero factors, and instance for the module's table."
  },
  {
   "property": "C83",
   "status": "partial",
   "theorems": [
    "C83_history_partial",
    "C83_candela_refuted"
   ],
   "note": "Proved for tables in which every unit's own name and symbol denote it; refuted for the module's table by 'cd' (candela)."
  },
  {
   "property": "C84",
   "status": "partial",
   "theorems": [
    "C84_same_size_partial",
    "C84_reflexive_partial",
    "C84_spelling_partial",
    "C84_unity_partial",
    "C84_transitive_refuted",
    "C84_length_equals_time_refuted",
    "C84_prefix_ignored_refuted",
    "C84_volt_equals_ohm_refuted",
    "C84_raises_refuted"
   ],
   "note": "Proved: a unit is equal to itself, to every other spelling of the same product of powers, and to units that differ by the terms # and 1 only. Refuted: equality of size (au == min, J == kg km^2 s^-2, V == ohm), transitivity, and kJ == N m raises."
  },
  {
   "property": "C85",
   "status": "partial",
   "theorems": [
    "C85_unknown_names_refuted",
    "C85_no_conversion_error_partial"
   ],
   "note": "Refuted for unknown names, which raise UnitParsingError; None is returned exactly when the strict conversion raises UnitConversionError."
  },
  {
   "property": "C86",
   "status": "proved",
   "theorems": [
    "C86_decomposition_order"
   ],
   "note": "Checked by the kernel for every unit of the tables."
  },
  {
   "property": "C87",
   "status": "partial",
   "theorems": [
    "C87_dimension_partial",
    "C87_lux_refuted"
   ],
   "note": "Every unit but the lux (any prefix), whose quantity is misspelled; for the lux the KeyError is proved."
  },
  {
   "property": "C88",
   "status": "partial",
   "theorems": [
    "C88_copy_partial",
    "C88_copy_refuted",
    "C88_suppressed_again_refuted"
   ],
   "note": "The type and parameters are kept; refuted for the rules, which the copy loses."
  },
  {
   "property": "C89",
   "status": "partial",
   "theorems": [
    "C89_check",
    "C89_agree_partial",
    "C89_agree_refuted",
    "C89_agree_all_partial",
    "C89_agree_strict"
   ],
   "note": "check proved in full; agree raises IndexError if no operand has the attribute."
  },
  {
   "property": "C90",
   "status": "partial",
   "theorems": [
    "C90_operands_partial",
    "C90_symmetry_refuted"
   ],
   "note": "Proved without repeats; refuted with repeats ([1,1] == [1,2] but not conversely)."
  },
  {
   "property": "C91",
   "status": "proved",
   "theorems": [
    "C91_sum"
   ],
   "note": ""
  },
  {
   "property": "C92",
   "status": "partial",
   "theorems": [
    "C92_injective_partial",
    "C92_parentheses_refuted"
   ],
   "note": "One operation is readable from the name; (a+b)*c and a+(b*c) have the same name."
  },
  {
   "property": "C93",
   "status": "partial",
   "theorems": [
    "C93_measurable_partial",
    "C93_not_measurable",
    "C93_measurable_refuted"
   ],
   "note": "Proved for every documented nesting; refuted for the empty list and two others."
  },
  {
   "property": "C94",
   "status": "partial",
   "theorems": [
    "C94_index_partial",
    "C94_index_refuted"
   ],
   "note": "Proved for -n <= i; refuted at i = -n-1, which gives the last value."
  },
  {
   "property": "C95",
   "status": "proved",
   "theorems": [
    "C95_comparison_needs_equal_units",
    "C95_comparison",
    "C95_with_number",
    "C95_equality"
   ],
   "note": ""
  },
  {
   "property": "C96",
   "status": "partial",
   "theorems": [
    "C96_history_partial",
    "C96_history_refuted"
   ],
   "note": "Refuted: after metric.Unit(\"m\"), 3 m times 2 has the unit \"2 m\" and sums raise. Proved: if only units of quantities were created, every unit supports their arithmetic."
  },
  {
   "property": "C97",
   "status": "partial",
   "theorems": [
    "C97_subset_partial",
    "C97_subset_refuted"
   ],
   "note": "Refuted: a step, a negative bound or a bound beyond the axis beside a position, or fewer subscripts than axes, raises ValueError. Proved: one position or plain range per axis."
  },
  {
   "property": "C98",
   "status": "partial",
   "theorems": [
    "C98_lists_partial",
    "C98_lists_refuted"
   ],
   "note": "Refuted: a range beside a list is read as the whole axis; a single list raises ValueError or, if empty, gives everything. Proved: lists and full ranges, one per axis, two axes or more."
  },
  {
   "property": "C99",
   "status": "partial",
   "theorems": [
    "C99_sum_partial",
    "C99_other_axes",
    "C99_sum_refuted"
   ],
   "note": "Refuted: axes in opposite order are added without aligning them. Proved: equal axes in the same order; other axes are refused."
  },
  {
   "property": "C100",
   "status": "proved",
   "theorems": [
    "C100_squeeze"
   ],
   "note": ""
  },
  {
   "property": "C101",
   "status": "partial",
   "theorems": [
    "C101_mean_partial",
    "C101_mean_refuted"
   ],
   "note": "Refuted: negative axes raise ValueError. Proved: all other axes."
  },
  {
   "property": "C102",
   "status": "partial",
   "theorems": [
    "C102_sizes_refuted"
   ],
   "note": "Refuted: with sizes 3 and 2 the product silently drops an element."
  },
  {
   "property": "C103",
   "status": "proved",
   "theorems": [
    "C103_unsupported"
   ],
   "note": ""
  },
  {
   "property": "C104",
   "status": "partial",
   "theorems": [
    "C104_reported_parameters_partial",
    "C104_hidden_parameter_refuted"
   ],
   "note": "Refuted: only the constants among the direct parameters of the named functions are reported; those of nested dependencies are not (as lambda0 for the acceleration rate). Proved: exactly the direct ones are reported, with the values used."
  },
  {
   "property": "C105",
   "status": "partial",
   "theorems": [
    "C105_interpolated_axes_kept_partial",
    "C105_every_axis_interpolated_refuted"
   ],
   "note": "Refuted: if every axis is interpolated (such as an off-grid time and radius of a quantity over time and shell), the result is subscripted again with the indices of the original axes. Proved when at least one axis is not interpolated."
  },
  {
   "property": "C106",
   "status": "proved",
   "theorems": [
    "C106_irrelevant_constraints"
   ],
   "note": ""
  },
  {
   "property": "C107",
   "status": "partial",
   "theorems": [
    "C107_alias_ignored_refuted",
    "C107_radius_aliases_partial"
   ],
   "note": "Refuted: constraints are kept in a plain dictionary, so a constraint under an alias of an axis or parameter is silently ignored. Proved for the radius."
  },
  {
   "property": "C108",
   "status": "proved",
   "theorems": [
    "C108_comparison"
   ],
   "note": ""
  },
  {
   "property": "C109",
   "status": "partial",
   "theorems": [
    "C109_constants_partial",
    "C109_factors_refuted"
   ],
   "note": "Refuted: factors that are not known constants are silently left out and factors that are zero count as one. Proved for products of known non-zero constants with integral exponents."
  },
  {
   "property": "C110",
   "status": "proved",
   "theorems": [
    "C110_relevant_pairs"
   ],
   "note": ""
  },
  {
   "property": "C111",
   "status": "proved",
   "theorems": [
    "C111_cycles"
   ],
   "note": ""
  },
  {
   "property": "C112",
   "status": "partial",
   "theorems": [
    "C112_interface_values_partial",
    "C112_comment_signs_refuted"
   ],
   "note": "Refuted: the values come from a runtime object that is not given the comment signs. Proved for the default sign."
  },
  {
   "property": "C113",
   "status": "partial",
   "theorems": [
    "C113_one_bad_parameter_refuted",
    "C113_all_parameters_partial"
   ],
   "note": "Refuted: all parameters are evaluated when the interface is created, so one bad definition makes all unavailable. Proved: the interface is created exactly when every parameter can be evaluated."
  },
  {
   "property": "C114",
   "status": "proved",
   "theorems": [
    "C114_nearest"
   ],
   "note": ""
  },
  {
   "property": "C115",
   "status": "partial",
   "theorems": [
    "C115_inconsistent_refuted",
    "C115_axis_partial"
   ],
   "note": "Refuted: values in an inconsistent unit are used as if they were in the unit of the axis. Proved for the unit of the axis itself."
  },
  {
   "property": "C116",
   "status": "partial",
   "theorems": [
    "C116_range_refuted",
    "C116_within_partial"
   ],
   "note": "Refuted: shell, coordinate and species axes accept every integer. Proved for whole axes and selections by value."
  },
  {
   "property": "C117",
   "status": "partial",
   "theorems": [
    "C117_whole_partial",
    "C117_values_refuted"
   ],
   "note": "Refuted: integers select points but the values are those of the whole axis; selections by value carry the given values. Proved for the whole axis."
  },
  {
   "property": "C118",
   "status": "partial",
   "theorems": [
    "C118_empty_refuted"
   ],
   "note": "Refuted: an empty range selects the whole of a coordinate axis and raises IndexError on others."
  },
  {
   "property": "C119",
   "status": "proved",
   "theorems": [
    "C119_points",
    "C119_reference"
   ],
   "note": ""
  },
  {
   "property": "C120",
   "status": "proved",
   "theorems": [
    "C120_species",
    "C120_energies"
   ],
   "note": ""
  },
  {
   "property": "C121",
   "status": "partial",
   "theorems": [
    "C121_plain_partial",
    "C121_idempotent_refuted"
   ],
   "note": "Refuted: a second set of brackets is added each time. Proved for units without a slash."
  },
  {
   "property": "C122",
   "status": "partial",
   "theorems": [
    "C122_unit_refuted",
    "C122_others_partial"
   ],
   "note": "Refuted: the unit is replaced in the shared, cached object and the numbers are not converted. Proved: other names are not affected."
  },
  {
   "property": "C123",
   "status": "proved",
   "theorems": [
    "C123_resolve"
   ],
   "note": ""
  },
  {
   "property": "C124",
   "status": "partial",
   "theorems": [
    "C124_radius",
    "C124_back_partial",
    "C124_refuted"
   ],
   "note": "Refuted at azimuth 3 pi / 2, which comes back as -pi / 2. Proved for all other positions off the poles."
  },
  {
   "property": "C125",
   "status": "partial",
   "theorems": [
    "C125_round_trip_partial",
    "C125_refuted",
    "C125_short"
   ],
   "note": "Refuted: components below the machine epsilon are set to zero. Proved for all others."
  },
  {
   "property": "C126",
   "status": "partial",
   "theorems": [
    "C126_ranges_partial",
    "C126_refuted"
   ],
   "note": "Refuted: the azimuth is -pi / 2 for x = 0, y < 0. Proved otherwise."
  },
  {
   "property": "C127",
   "status": "proved",
   "theorems": [
    "C127_rigidity",
    "C127_monotone",
    "C127_rest"
   ],
   "note": ""
  },
  {
   "property": "C128",
   "status": "proved",
   "theorems": [
    "C128_reference",
    "C128_radius",
    "C128_charge"
   ],
   "note": ""
  },
  {
   "property": "C129",
   "status": "proved",
   "theorems": [
    "C129_ratio",
    "C129_scale"
   ],
   "note": ""
  },
  {
   "property": "C130",
   "status": "proved",
   "theorems": [
    "C130_exponential",
    "C130_scale",
    "C130_short"
   ],
   "note": ""
  },
  {
   "property": "C131",
   "status": "proved",
   "theorems": [
    "C131_mean",
    "C131_isotropic",
    "C131_additive"
   ],
   "note": ""
  },
  {
   "property": "C132",
   "status": "partial",
   "theorems": [
    "C132_average_partial",
    "C132_scale",
    "C132_refuted",
    "C132_single"
   ],
   "note": "Refuted: the mass of the proton is used for all species. Proved for protons."
  },
  {
   "property": "C133",
   "status": "partial",
   "theorems": [
    "C133_flux_partial",
    "C133_refuted"
   ],
   "note": "Refuted: the mass of the proton is used for all species. Proved for protons."
  },
  {
   "property": "C134",
   "status": "partial",
   "theorems": [
    "C134_quadratic_partial",
    "C134_refuted",
    "C245_linear",
    "C245_additive"
   ],
   "note": "Refuted for polynomials of degree two at an even number of times. Proved for degree one, and degree two at an odd number of times. Fully proved parts: C245."
  },
  {
   "property": "C135",
   "status": "partial",
   "theorems": [
    "C135_nonnegative_partial",
    "C135_refuted"
   ],
   "note": "Refuted: weights are negative when a time step is more than twice its neighbour. Proved when steps differ by at most a factor of two."
  },
  {
   "property": "C136",
   "status": "proved",
   "theorems": [
    "C136_interpolation",
    "C136_power_law",
    "C136_unchanged",
    "C136_beyond"
   ],
   "note": ""
  },
  {
   "property": "C137",
   "status": "partial",
   "theorems": [
    "C137_uniform_partial",
    "C137_refuted",
    "C137_species_refuted",
    "C137_floor",
    "C137_no_energies"
   ],
   "note": "Refuted: bounds at or above the greatest energy raise IndexError, and with several species spectra are continued below their least energy. Proved for one species and bounds below the greatest energy."
  },
  {
   "property": "C138",
   "status": "partial",
   "theorems": [
    "C138_nonnegative_partial",
    "C138_refuted"
   ],
   "note": "Refuted: the spectrum E^-2 at 1, 4, 16 has a negative integral above 2. Proved for bounds below the spectrum or in it and gentle steps."
  },
  {
   "property": "C139",
   "status": "proved",
   "theorems": [
    "C139_rate",
    "C139_nonnegative",
    "C139_uniform"
   ],
   "note": ""
  },
  {
   "property": "C140",
   "status": "partial",
   "theorems": [
    "C140_first_partial",
    "C140_again_refuted",
    "C140_suggestions_refuted"
   ],
   "note": "Refuted: the words of the spell checker are tuples, so nothing is suggested, and the second unknown name raises TypeError. Proved for the first unknown name."
  },
  {
   "property": "C141",
   "status": "partial",
   "theorems": [
    "C141_access_partial",
    "C141_alias_refuted"
   ],
   "note": "Refuted: another name of a constraint gives None. Proved for all names of quantities and the keys of constraints."
  },
  {
   "property": "C142",
   "status": "proved",
   "theorems": [
    "C142_evaluates"
   ],
   "note": ""
  },
  {
   "property": "C143",
   "status": "partial",
   "theorems": [
    "C143_units_partial",
    "C143_first_exponent_refuted"
   ],
   "note": "Refuted: the exponent of the first term is ignored. Proved when that exponent is 1."
  },
  {
   "property": "C144",
   "status": "partial",
   "theorems": [
    "C144_latest_partial",
    "C144_no_data_refuted",
    "C144_configuration_refuted"
   ],
   "note": "Refuted: sources without data are silently ignored and configuration files stay in the old directory. Proved when the source has data, for the data and for a configuration given in the same update."
  },
  {
   "property": "C145",
   "status": "partial",
   "theorems": [
    "C145_system_refuted",
    "C145_system_partial"
   ],
   "note": "Refuted: every successful update sets the system to mks. Proved for the first context."
  },
  {
   "property": "C146",
   "status": "partial",
   "theorems": [
    "C146_failure_partial",
    "C146_source_refuted"
   ],
   "note": "Refuted: the observer keeps the failing source. Proved: its observing context does not change."
  },
  {
   "property": "C147",
   "status": "partial",
   "theorems": [
    "C147_before_first_sign_partial",
    "C147_order_partial",
    "C147_overlap_refuted",
    "C261_clean",
    "C261_empty_sign"
   ],
   "note": "Refuted for signs of which one ends with the beginning of another: the order matters. Proved for all other lists of signs; that no sign is left is proved for all lists. Fully proved parts: C261."
  },
  {
   "property": "C148",
   "status": "partial",
   "theorems": [
    "C148_first_partial",
    "C148_missing_refuted"
   ],
   "note": "Refuted: a path that does not exist raises. Proved when all paths exist."
  },
  {
   "property": "C149",
   "status": "proved",
   "theorems": [
    "C149_first_template"
   ],
   "note": ""
  },
  {
   "property": "C150",
   "status": "proved",
   "theorems": [
    "C150_last_line",
    "C150_bad_line"
   ],
   "note": ""
  },
  {
   "property": "C151",
   "status": "partial",
   "theorems": [
    "C151_class_partial",
    "C151_class_refuted",
    "C151_two_forms_refuted",
    "C246_same",
    "C246_distinct"
   ],
   "note": "Refuted: strings and path objects give two objects, and another class gets the object of the first. Proved for equal arguments and for one class. Fully proved parts: C246."
  },
  {
   "property": "C152",
   "status": "partial",
   "theorems": [
    "C152_effect_partial",
    "C152_late_refuted",
    "C152_isolated_partial",
    "C152_isolated_refuted"
   ],
   "note": "Refuted: the viewers belong to the class, so other datasets change as well, and a dataset that was read keeps its viewer. Proved for datasets of other types or already read, and for unread datasets."
  },
  {
   "property": "C153",
   "status": "partial",
   "theorems": [
    "C153_known",
    "C153_unknown_refuted"
   ],
   "note": "Refuted: the error is created and not raised; every later use raises TypeError."
  },
  {
   "property": "C154",
   "status": "partial",
   "theorems": [
    "C154_names_partial",
    "C154_groups_partial",
    "C154_units_partial",
    "C154_hidden_refuted"
   ],
   "note": "Refuted when two variables have names of one quantity: the later hides the other. Proved for all other datasets."
  },
  {
   "property": "C155",
   "status": "partial",
   "theorems": [
    "C155_exists",
    "C155_methods",
    "C155_writes_refuted"
   ],
   "note": "Refuted: the object that is returned is an ordinary path. Proved that it exists."
  },
  {
   "property": "C156",
   "status": "partial",
   "theorems": [
    "C156_read_partial",
    "C156_names_refuted",
    "C156_comment_refuted",
    "C260_only",
    "C260_file"
   ],
   "note": "Refuted for names with digits or small letters (skipped) and for comments after the value (which become part of it). Proved for other definitions and for the choice of the last one. Fully proved parts: C260."
  },
  {
   "property": "C157",
   "status": "partial",
   "theorems": [
    "C157_read_partial",
    "C157_comma_refuted"
   ],
   "note": "Refuted for text with a comma, which is cut. Proved for all other calls."
  },
  {
   "property": "C158",
   "status": "partial",
   "theorems": [
    "C158_arrays_partial",
    "C158_arrays_refuted",
    "C158_arrays_only",
    "C158_defaults",
    "C158_alias_refuted",
    "C158_total_partial",
    "C158_total_refuted"
   ],
   "note": "Refuted: arrays of several values or with signs are not read, the alias of a parameter with an array default is lost, and one call without a default makes the whole file fail. The rest is proved."
  },
  {
   "property": "C159",
   "status": "proved",
   "theorems": [
    "C159_types",
    "C159_round_trip"
   ],
   "note": "Proved for every file that can be read."
  },
  {
   "property": "C160",
   "status": "partial",
   "theorems": [
    "C160_given_partial",
    "C160_package",
    "C160_missing",
    "C160_without_refuted"
   ],
   "note": "Refuted: a directory without the file silently gives the package's definitions. The other cases are proved."
  },
  {
   "property": "C161",
   "status": "partial",
   "theorems": [
    "C161_option_partial",
    "C161_text_refuted",
    "C161_alone_partial",
    "C161_alone_refuted",
    "C247_values",
    "C247_physical",
    "C247_integers",
    "C247_other"
   ],
   "note": "Refuted for a single text, which is taken for the sequence of its characters, and for sequences of options without a unit, which are refused although documented. The rest is proved. Fully proved parts: C247."
  },
  {
   "property": "C162",
   "status": "partial",
   "theorems": [
    "C162_float_refuted",
    "C162_text_partial",
    "C162_text_refuted",
    "C247_values",
    "C247_physical",
    "C247_integers",
    "C247_other"
   ],
   "note": "Refuted for text of two or more characters, which int() refuses, and for float() of a number without a unit; one-character texts and all other arguments are proved. Fully proved parts: C247."
  },
  {
   "property": "C163",
   "status": "partial",
   "theorems": [
    "C163_array_refuted",
    "C248_numbers",
    "C248_options"
   ],
   "note": "Refuted for several values with a unit, whose truth raises ValueError; the rest is proved. Fully proved parts: C248."
  },
  {
   "property": "C164",
   "status": "partial",
   "theorems": [
    "C164_elements_partial",
    "C164_single_refuted",
    "C164_below_refuted"
   ],
   "note": "Refuted for arguments with one value, which have no elements, and for indices from -2n to -n-1, which give elements. The rest is proved."
  },
  {
   "property": "C165",
   "status": "partial",
   "theorems": [
    "C165_single_partial",
    "C165_options_partial",
    "C165_mixed_partial",
    "C165_mixed_refuted",
    "C165_symmetric_refuted",
    "C165_array_refuted"
   ],
   "note": "Refuted: equality is not symmetric between arguments with and without unit, and raises ValueError for several values with units and when an option is compared with as many. Proved for single values with units, for options, and for arguments of different kinds that cannot be equal."
  },
  {
   "property": "C166",
   "status": "proved",
   "theorems": [
    "C166_names",
    "C166_unknown"
   ],
   "note": ""
  },
  {
   "property": "C167",
   "status": "partial",
   "theorems": [
    "C167_values_partial",
    "C167_back_partial",
    "C167_name_refuted",
    "C249_same",
    "C249_refused",
    "C249_elements",
    "C249_cast"
   ],
   "note": "Refuted: a converted quantity has no name. Values, units, elements and casts are proved. Fully proved parts: C249."
  },
  {
   "property": "C168",
   "status": "partial",
   "theorems": [
    "C168_systems_partial",
    "C168_c1_refuted",
    "C259_lookup"
   ],
   "note": "Refuted for the first radiation constant, whose cgs value is too small by the factor 10^11. Proved for the other constants; the electric constants are different quantities in the two systems and are excluded. Fully proved parts: C259."
  },
  {
   "property": "C169",
   "status": "partial",
   "theorems": [
    "C169_opened_partial",
    "C169_opened_refuted",
    "C169_single_refuted"
   ],
   "note": "Refuted unless the current directory is the common ancestor of the given files; a single file is sought as the current directory."
  },
  {
   "property": "C170",
   "status": "partial",
   "theorems": [
    "C170_diff_partial",
    "C170_same_refuted",
    "C170_append_refuted",
    "C250_show",
    "C250_write"
   ],
   "note": "Refuted: files without differences make the command raise StopIteration, and generating into an existing file keeps its old values. The rest is proved. Fully proved parts: C250."
  },
  {
   "property": "C171",
   "status": "partial",
   "theorems": [
    "C171_values_partial",
    "C171_comparison_refuted",
    "C171_equal_refuted"
   ],
   "note": "Proved for every history if comparing units always gives an answer and equal units are the same unit. Refuted otherwise: whether N m can be requested of a quantity in J, and which of two equal units it then shows, depends on whether its unit was looked at before."
  },
  {
   "property": "C172",
   "status": "proved",
   "theorems": [
    "C172_values",
    "C172_same_unit",
    "C172_inconsistent"
   ],
   "note": ""
  },
  {
   "property": "C173",
   "status": "partial",
   "theorems": [
    "C173_systems_partial",
    "C173_capitals_refuted"
   ],
   "note": "Refuted for capital letters: 'MKS' is recognized as a system but raises KeyError. Proved for the names as the table of units spells them."
  },
  {
   "property": "C174",
   "status": "partial",
   "theorems": [
    "C174_default_unit_refuted",
    "C174_default_unit_partial"
   ],
   "note": "Refuted: an observable whose reported unit is inconsistent with its data, such as an expression whose first exponent is not 1 (C143), raises ValueError. Proved for consistent units."
  },
  {
   "property": "C175",
   "status": "partial",
   "theorems": [
    "C175_aliases_refuted",
    "C175_no_assumptions_refuted",
    "C175_no_parameters_refuted",
    "C251_axes",
    "C251_assumptions"
   ],
   "note": "Refuted for the other names of an axis, which are read as units, and for observations made without assumptions, which raise TypeError. Proved for the names under which axes and assumptions are stored. Fully proved parts: C251."
  },
  {
   "property": "C176",
   "status": "partial",
   "theorems": [
    "C176_equal_partial",
    "C176_names_refuted"
   ],
   "note": "Refuted: the names are not compared, so different quantities are equal. Proved for units, axes and parameters."
  },
  {
   "property": "C177",
   "status": "proved",
   "theorems": [
    "C177_array"
   ],
   "note": ""
  },
  {
   "property": "C178",
   "status": "partial",
   "theorems": [
    "C178_charge_partial",
    "C178_elements",
    "C178_inner_refuted"
   ],
   "note": "Proved for symbols without signs before the end, which includes all elements. Refuted for signs inside the symbol, which hide those at its end."
  },
  {
   "property": "C179",
   "status": "proved",
   "theorems": [
    "C179_mass",
    "C179_unknown"
   ],
   "note": ""
  },
  {
   "property": "C180",
   "status": "partial",
   "theorems": [
    "C180_symbols_partial",
    "C180_symbols_refuted"
   ],
   "note": "Proved for every element that is not after one of the same rounded mass in the table and every integral charge. Refuted otherwise: the mass and charge of Ca++ give Ar++."
  },
  {
   "property": "C181",
   "status": "proved",
   "theorems": [
    "C181_order",
    "C181_given"
   ],
   "note": ""
  },
  {
   "property": "C182",
   "status": "partial",
   "theorems": [
    "C182_defined",
    "C182_mass_alone_refuted",
    "C182_charge_alone_refuted",
    "C182_unit_refuted"
   ],
   "note": "Refuted: a mass or a charge alone is accepted, but asking for the rest raises AttributeError or TypeError; a given mass has no unit. The ValueError is proved."
  },
  {
   "property": "C183",
   "status": "partial",
   "theorems": [
    "C183_mechanics_partial",
    "C183_mechanics_refuted"
   ],
   "note": "Every mechanical row except power density and thermal conductivity, whose units cannot be converted, and radioactivity (Bq to Ci)."
  },
  {
   "property": "C184",
   "status": "partial",
   "theorems": [
    "C184_electric_partial",
    "C184_capacitance_refuted",
    "C184_displacement_refuted"
   ],
   "note": "Charge, current, potential, conductance, impedance, inductance and energy are coherent; capacitance and displacement are not (refuted)."
  },
  {
   "property": "C185",
   "status": "partial",
   "theorems": [
    "C185_dimension_partial",
    "C185_dimension_refuted"
   ],
   "note": "Every row except the three luminous ones, whose unit cd reads as centiday, and permittivity, whose declared dimension has one power of current too few (refuted for each)."
  },
  {
   "property": "C186",
   "status": "partial",
   "theorems": [
    "C186_unknown_refuted",
    "C252_quantity",
    "C252_system",
    "C252_names"
   ],
   "note": "Look-ups succeed for every spelling; an unknown word never raises KeyError but recurses without end, for every word of letters (refuted). Fully proved parts: C252."
  },
  {
   "property": "C187",
   "status": "partial",
   "theorems": [
    "C187_dimension_partial",
    "C187_text_refuted",
    "C187_dimension_refuted",
    "C253_unit",
    "C253_quantity",
    "C253_fallback",
    "C253_nothing",
    "C253_empty"
   ],
   "note": "A dimension given as text is found only when written as in the table, and J finds a unit of time (refuted). Fully proved parts: C253."
  },
  {
   "property": "C188",
   "status": "partial",
   "theorems": [
    "C188_norm_partial",
    "C188_cancelling_refuted",
    "C188_norm_refuted"
   ],
   "note": "For products of non-photometric units with integral powers of total size at most 2^40 whose quantities do not all cancel; otherwise the norm recurses for ever (refuted); numbers are dropped and mixed systems lose their dimension (refuted)."
  },
  {
   "property": "C189",
   "status": "partial",
   "theorems": [
    "C189_equivalence_partial",
    "C189_equivalence_refuted",
    "C254_equality"
   ],
   "note": "Equality in full; equivalence outside the four mismatched rows, where luminous intensity is equivalent to time (refuted). Fully proved parts: C254."
  },
  {
   "property": "C190",
   "status": "partial",
   "theorems": [
    "C190_name_refuted",
    "C255_quantities"
   ],
   "note": "In full for the names 'mks' and 'cgs'; 'MKS' is refused although System('MKS') is accepted (refuted). Fully proved parts: C255."
  },
  {
   "property": "C191",
   "status": "partial",
   "theorems": [
    "C191_units_partial",
    "C191_mass_partial",
    "C191_attribute_refuted",
    "C191_charge_refuted"
   ],
   "note": "In full if the file states the unit in an attribute called 'units' and for masses in nucleons. Refuted if the attribute is called 'unit': values are converted but the unit shown is that of the file, because the attribute of the data object replaces the given unit; and refuted for charges in cgs, which are 100 times too large."
  },
  {
   "property": "C192",
   "status": "partial",
   "theorems": [
    "C192_no_unit_refuted",
    "C192_no_system_refuted",
    "C192_readable_partial"
   ],
   "note": "Variables with a known unit can be read in both systems exactly if the axes fit. Refuted without a unit (TypeError) and without a system ('None' is taken for a unit)."
  },
  {
   "property": "C193",
   "status": "proved",
   "theorems": [
    "C193_history"
   ],
   "note": "Full."
  },
  {
   "property": "C194",
   "status": "partial",
   "theorems": [
    "C194_known_refuted"
   ],
   "note": "Refuted: the general interface asks for an attribute 'axes' that dataset variables do not have, so every known name raises AttributeError in every history."
  },
  {
   "property": "C195",
   "status": "proved",
   "theorems": [
    "C195_mappings",
    "C195_dictionary"
   ],
   "note": "Exact for all consistent mappings (every reachable one is, C12). Aliases are not compared, see C196."
  },
  {
   "property": "C196",
   "status": "partial",
   "theorems": [
    "C196_same_aliases_partial",
    "C196_refuted"
   ],
   "note": "Proved for mappings with the same aliases. Refuted otherwise, because equality ignores aliases."
  },
  {
   "property": "C197",
   "status": "partial",
   "theorems": [
    "C197_assignments_partial",
    "C197_refuted",
    "C256_now",
    "C256_groups"
   ],
   "note": "A new view is exact; a view of groups (aliased=True) follows every history; a view of names follows assignments to existing names. Refuted: new names are missing from an older view, and after a deletion reading its values raises KeyError. Fully proved parts: C256."
  },
  {
   "property": "C198",
   "status": "partial",
   "theorems": [
    "C198_interior_partial",
    "C198_refuted",
    "C257_groups",
    "C257_mapping"
   ],
   "note": "Proved for groups, tuples, aliased mappings and interior mappings with disjoint names. Refuted for dictionaries with plain values: AttributeError. Fully proved parts: C257."
  },
  {
   "property": "C199",
   "status": "partial",
   "theorems": [
    "C199_new_partial",
    "C199_inverted",
    "C199_refuted"
   ],
   "note": "Proved for new name maps. Refuted after inversion: iteration gives names that raise KeyError, a copy is not inverted, a second inversion raises TypeError."
  },
  {
   "property": "C200",
   "status": "proved",
   "theorems": [
    "C200_unnamed",
    "C200_named",
    "C200_name",
    "C200_array"
   ],
   "note": "Proved for every text of the attributes; names are quoted twice in the text (once by the name, once by the display), which the theorems show."
  },
  {
   "property": "C201",
   "status": "partial",
   "theorems": [
    "C201_named_partial",
    "C201_refuted"
   ],
   "note": "Proved for named options (two blanks follow the colon). Refuted for options without a name: they show an empty name in quotes."
  },
  {
   "property": "C202",
   "status": "partial",
   "theorems": [
    "C202_parts_partial",
    "C202_positions_partial",
    "C202_insert_partial",
    "C202_insert_end_partial",
    "C202_append_partial",
    "C202_separators",
    "C202_refuted"
   ],
   "note": "Proved for separators that cannot overlap themselves and new parts that do not contain the separator. Refuted otherwise: appending to an empty display leaves a leading separator; a part that contains the separator becomes two."
  },
  {
   "property": "C203",
   "status": "proved",
   "theorems": [
    "C203_equality",
    "C203_single"
   ],
   "note": ""
  },
  {
   "property": "C204",
   "status": "partial",
   "theorems": [
    "C204_disjoint_partial",
    "C204_refuted"
   ],
   "note": "Proved if no replacement contains a replaced character. Refuted otherwise: exchanging a and b in 'ab' gives 'aa'."
  },
  {
   "property": "C205",
   "status": "partial",
   "theorems": [
    "C205_all_define_partial",
    "C205_refuted"
   ],
   "note": "Proved if a class that does not define the attribute does not inherit it either. Refuted otherwise: inherited values are repeated."
  },
  {
   "property": "C206",
   "status": "proved",
   "theorems": [
    "C206_product",
    "C206_quotient"
   ],
   "note": ""
  },
  {
   "property": "C207",
   "status": "proved",
   "theorems": [
    "C207_sum",
    "C207_units",
    "C207_numbers"
   ],
   "note": ""
  },
  {
   "property": "C208",
   "status": "proved",
   "theorems": [
    "C208_unary",
    "C208_power",
    "C208_root"
   ],
   "note": "Numbers are rational, so the square root is stated for arrays whose elements have rational roots."
  },
  {
   "property": "C209",
   "status": "partial",
   "theorems": [
    "C209_two",
    "C209_square_refuted"
   ],
   "note": "Proved: every function of two quantities without a rule raises MetadataError. Refuted for functions of one quantity: numpy.square (and reciprocal, sin, exp, ...) keeps the unit, so the amounts are wrong unless the unit has size 1."
  },
  {
   "property": "C210",
   "status": "partial",
   "theorems": [
    "C210_less_partial",
    "C210_less_refuted"
   ],
   "note": "Proved for equal units. Refuted otherwise: comparisons ignore units, 1 km < 2 m is true."
  },
  {
   "property": "C211",
   "status": "partial",
   "theorems": [
    "C211_equal_partial",
    "C211_equal_refuted"
   ],
   "note": "Proved unless the axes are the same in a different order. Refuted then: such arrays compare equal although their values differ at named coordinates."
  },
  {
   "property": "C212",
   "status": "partial",
   "theorems": [
    "C212_unequal_refuted"
   ],
   "note": "Refuted for all arrays of the same shape: != always raises MetadataError."
  },
  {
   "property": "C213",
   "status": "partial",
   "theorems": [
    "C213_scale_partial",
    "C213_left_refuted"
   ],
   "note": "Proved for numbers on the right and Python numbers on the left. Refuted: a numpy number or array on the left raises TypeError."
  },
  {
   "property": "C214",
   "status": "partial",
   "theorems": [
    "C214_kept_partial",
    "C214_scalar_refuted"
   ],
   "note": "Proved for results with an axis. Refuted for arrays without axes: the result is a plain number."
  },
  {
   "property": "C215",
   "status": "proved",
   "theorems": [
    "C215_refused",
    "C215_types"
   ],
   "note": ""
  },
  {
   "property": "C216",
   "status": "partial",
   "theorems": [
    "C216_contains_partial",
    "C216_empty_refuted",
    "C216_contains_refuted"
   ],
   "note": "Proved: found iff it is an element, or lies between two elements and is near one. Refuted otherwise: a value that rounding moved just beyond the highest or lowest element is not found, and looking into an empty array raises ValueError."
  },
  {
   "property": "C217",
   "status": "proved",
   "theorems": [
    "C217_shared",
    "C217_rules",
    "C217_identity",
    "C217_variables"
   ],
   "note": "Proved for every table without ambiguous names; the table of the module is shown unambiguous, and the rules set up for variables are shown to be those used for numpy's functions."
  },
  {
   "property": "C218",
   "status": "proved",
   "theorems": [
    "C218_names",
    "C218_unknown"
   ],
   "note": "Proved."
  },
  {
   "property": "C219",
   "status": "proved",
   "theorems": [
    "C219_evaluate",
    "C219_determined",
    "C219_register"
   ],
   "note": "Proved."
  },
  {
   "property": "C220",
   "status": "partial",
   "theorems": [
    "C220_refused_partial",
    "C220_comparison_partial",
    "C220_refuted"
   ],
   "note": "Proved for operations with a callable. Refuted for casts and comparisons, whose rules are never consulted."
  },
  {
   "property": "C221",
   "status": "partial",
   "theorems": [
    "C221_members_partial",
    "C221_once_refuted"
   ],
   "note": "Proved: membership. Refuted: an attribute registered twice is listed twice."
  },
  {
   "property": "C222",
   "status": "proved",
   "theorems": [
    "C222_implement"
   ],
   "note": "Proved."
  },
  {
   "property": "C223",
   "status": "proved",
   "theorems": [
    "C223_strict",
    "C223_force",
    "C223_next",
    "C223_default"
   ],
   "note": "Proved."
  },
  {
   "property": "C224",
   "status": "proved",
   "theorems": [
    "C224_getany",
    "C224_find",
    "C224_allhave"
   ],
   "note": "Proved."
  },
  {
   "property": "C225",
   "status": "partial",
   "theorems": [
    "C225_slice_partial",
    "C225_slice_refuted"
   ],
   "note": "Proved for slices in which all operands have the attribute. Refuted otherwise: a slice forgets the reference and uses its own first operand."
  },
  {
   "property": "C226",
   "status": "proved",
   "theorems": [
    "C226_alias",
    "C226_history"
   ],
   "note": "Proved."
  },
  {
   "property": "C227",
   "status": "partial",
   "theorems": [
    "C227_reset_partial",
    "C227_empty_refuted"
   ],
   "note": "Proved with reset. Refuted without: the empty name stays."
  },
  {
   "property": "C228",
   "status": "proved",
   "theorems": [
    "C228_identical_are_equal",
    "C228_equality_equivalence",
    "C228_order_irrelevant"
   ],
   "note": "Proved for every float formatting."
  },
  {
   "property": "C229",
   "status": "proved",
   "theorems": [
    "C229_product_comm",
    "C229_self_quotient",
    "C229_power_algebra"
   ],
   "note": "Proved."
  },
  {
   "property": "C230",
   "status": "proved",
   "theorems": [
    "C230_add_exact",
    "C230_add_disjoint",
    "C230_discard"
   ],
   "note": "Proved for every iteration order of sets."
  },
  {
   "property": "C231",
   "status": "proved",
   "theorems": [
    "C231_first_wins",
    "C231_never_overwritten"
   ],
   "note": "Proved."
  },
  {
   "property": "C232",
   "status": "proved",
   "theorems": [
    "C232_known",
    "C232_suggestions_are_known",
    "C232_never_silent"
   ],
   "note": "Proved."
  },
  {
   "property": "C233",
   "status": "proved",
   "theorems": [
    "C233_factor_derives",
    "C233_factor_is_quotient",
    "C233_there_and_back",
    "C233_module_table_consistent"
   ],
   "note": "Proved."
  },
  {
   "property": "C234",
   "status": "proved",
   "theorems": [
    "C234_name_denotes",
    "C234_only_defined_names"
   ],
   "note": "Proved."
  },
  {
   "property": "C235",
   "status": "proved",
   "theorems": [
    "C235_sum_needs_equal_units",
    "C235_sum_of_equal_units",
    "C235_sum_of_different_units",
    "C235_sum_of_base_units",
    "C235_sum_with_number"
   ],
   "note": "Proved for every table of units."
  },
  {
   "property": "C236",
   "status": "proved",
   "theorems": [
    "C236_scaling",
    "C236_no_quotient_or_power",
    "C236_power_of_data",
    "C236_power_of_zero",
    "C236_same_quotient"
   ],
   "note": "Proved for every table of units."
  },
  {
   "property": "C237",
   "status": "proved",
   "theorems": [
    "C237_conflict_rejected",
    "C237_two_units_rejected"
   ],
   "note": "Proved."
  },
  {
   "property": "C238",
   "status": "proved",
   "theorems": [
    "C238_slices",
    "C238_expansion"
   ],
   "note": "Proved for slices; integers and lists after an ellipsis are in C46."
  },
  {
   "property": "C239",
   "status": "proved",
   "theorems": [
    "C239_within",
    "C239_explicit"
   ],
   "note": "Proved."
  },
  {
   "property": "C240",
   "status": "proved",
   "theorems": [
    "C240_count",
    "C240_unknown"
   ],
   "note": "Proved."
  },
  {
   "property": "C241",
   "status": "proved",
   "theorems": [
    "C241_angle_actual",
    "C241_side",
    "C241_undefined"
   ],
   "note": "Proved over the reals, with the exact cosine that is computed."
  },
  {
   "property": "C242",
   "status": "proved",
   "theorems": [
    "C242_members",
    "C242_unknown",
    "C242_terminates"
   ],
   "note": "Proved."
  },
  {
   "property": "C243",
   "status": "proved",
   "theorems": [
    "C243_accepts",
    "C243_decides"
   ],
   "note": "Proved."
  },
  {
   "property": "C244",
   "status": "proved",
   "theorems": [
    "C244_raises",
    "C244_raises_iff",
    "C244_truth_resembles_none",
    "C244_unknown_mode"
   ],
   "note": "Proved."
  },
  {
   "property": "C245",
   "status": "proved",
   "theorems": [
    "C245_linear",
    "C245_additive"
   ],
   "note": "Proved over the reals."
  },
  {
   "property": "C246",
   "status": "proved",
   "theorems": [
    "C246_same",
    "C246_distinct"
   ],
   "note": "Proved."
  },
  {
   "property": "C247",
   "status": "proved",
   "theorems": [
    "C247_values",
    "C247_physical",
    "C247_integers",
    "C247_other"
   ],
   "note": "Proved."
  },
  {
   "property": "C248",
   "status": "proved",
   "theorems": [
    "C248_numbers",
    "C248_options"
   ],
   "note": "Proved."
  },
  {
   "property": "C249",
   "status": "proved",
   "theorems": [
    "C249_same",
    "C249_refused",
    "C249_elements",
    "C249_cast"
   ],
   "note": "Proved."
  },
  {
   "property": "C250",
   "status": "proved",
   "theorems": [
    "C250_show",
    "C250_write"
   ],
   "note": "Proved."
  },
  {
   "property": "C251",
   "status": "proved",
   "theorems": [
    "C251_axes",
    "C251_assumptions"
   ],
   "note": "Proved."
  },
  {
   "property": "C252",
   "status": "proved",
   "theorems": [
    "C252_quantity",
    "C252_system",
    "C252_names"
   ],
   "note": "Proved."
  },
  {
   "property": "C253",
   "status": "proved",
   "theorems": [
    "C253_unit",
    "C253_quantity",
    "C253_fallback",
    "C253_nothing",
    "C253_empty"
   ],
   "note": "Proved."
  },
  {
   "property": "C254",
   "status": "proved",
   "theorems": [
    "C254_equality"
   ],
   "note": "Proved."
  },
  {
   "property": "C255",
   "status": "proved",
   "theorems": [
    "C255_quantities"
   ],
   "note": "Proved for the names mks and cgs as the package writes them."
  },
  {
   "property": "C256",
   "status": "proved",
   "theorems": [
    "C256_now",
    "C256_groups"
   ],
   "note": "Proved."
  },
  {
   "property": "C257",
   "status": "proved",
   "theorems": [
    "C257_groups",
    "C257_mapping"
   ],
   "note": "Proved."
  },
  {
   "property": "C258",
   "status": "proved",
   "theorems": [
    "C258_cases",
    "C258_elements"
   ],
   "note": "Proved."
  },
  {
   "property": "C259",
   "status": "proved",
   "theorems": [
    "C259_lookup"
   ],
   "note": "Proved."
  },
  {
   "property": "C260",
   "status": "proved",
   "theorems": [
    "C260_only",
    "C260_file"
   ],
   "note": "Proved."
  },
  {
   "property": "C261",
   "status": "proved",
   "theorems": [
    "C261_clean",
    "C261_empty_sign"
   ],
   "note": "Proved."
  },
  {
   "property": "C262",
   "status": "proved",
   "theorems": [
    "C262_vector_arithmetic",
    "C262_scalar_arithmetic",
    "C262_refused"
   ],
   "note": "Proved as an equivalence. Division by zero is outside the model (numpy gives infinities)."
  },
  {
   "property": "C263",
   "status": "partial",
   "theorems": [
    "C263_order_partial",
    "C263_scalar_first",
    "C263_order_refuted"
   ],
   "note": "Refuted for a scalar before a vector with other than one value: Scalar(data) raises TypeError, while the vector before the scalar works. Proved for all other pairs."
  },
  {
   "property": "C264",
   "status": "partial",
   "theorems": [
    "C264_made_partial",
    "C264_made_refuted"
   ],
   "note": "Refuted for vectors (unit and name are lost) and for names given with measurements. Proved for numbers, scalars and unnamed measurements."
  },
  {
   "property": "C265",
   "status": "partial",
   "theorems": [
    "C265_element_partial",
    "C265_element_refuted"
   ],
   "note": "Refuted: the length is added to a negative position before numpy adds it again, so that v[-n-1] is the last value. Proved for all other positions."
  },
  {
   "property": "C266",
   "status": "proved",
   "theorems": [
    "C266_slices"
   ],
   "note": "Proved."
  },
  {
   "property": "C267",
   "status": "proved",
   "theorems": [
    "C267_equality"
   ],
   "note": "Proved."
  },
  {
   "property": "C268",
   "status": "proved",
   "theorems": [
    "C268_scalar"
   ],
   "note": "Proved for the modelled kinds of argument; names are treated in C269."
  },
  {
   "property": "C269",
   "status": "partial",
   "theorems": [
    "C269_names_partial",
    "C269_names_refuted"
   ],
   "note": "Refuted for one-valued vectors, elements of vectors and conversions. Proved for scalars."
  },
  {
   "property": "C270",
   "status": "proved",
   "theorems": [
    "C270_amounts",
    "C270_refuses"
   ],
   "note": "Proved. Names of metric systems as units are left out."
  },
  {
   "property": "C271",
   "status": "proved",
   "theorems": [
    "C271_arrays"
   ],
   "note": "Proved by refinement between the caching objects and plain values."
  },
  {
   "property": "C272",
   "status": "partial",
   "theorems": [
    "C272_copies_partial",
    "C272_copies_refuted"
   ],
   "note": "Refuted: the copy of a converted array keeps the unconverted data with the new unit, which a later conversion uses. Proved for histories in which copies come after all conversions."
  },
  {
   "property": "C273",
   "status": "proved",
   "theorems": [
    "C273_subscript"
   ],
   "note": "Proved with respect to the model of numpy's basic indexing."
  },
  {
   "property": "C274",
   "status": "partial",
   "theorems": [
    "C274_lists_partial",
    "C274_lists_refuted"
   ],
   "note": "Refuted: ranges beside a list are read as the whole axis, a single list raises ValueError, None alone is ignored. Proved for lists and whole axes."
  },
  {
   "property": "C275",
   "status": "proved",
   "theorems": [
    "C275_equality"
   ],
   "note": "Proved."
  },
  {
   "property": "C276",
   "status": "proved",
   "theorems": [
    "C276_functions"
   ],
   "note": "Proved. Functions registered with `implements` are left out."
  },
  {
   "property": "C277",
   "status": "partial",
   "theorems": [
    "C277_units_refuted"
   ],
   "note": "Refuted: the result is always a plain numpy object."
  },
  {
   "property": "C278",
   "status": "proved",
   "theorems": [
    "C278_factor",
    "C278_same_object",
    "C278_inverse",
    "C278_function"
   ],
   "note": "Proved for every table of conversions."
  },
  {
   "property": "C279",
   "status": "partial",
   "theorems": [
    "C279_converts",
    "C279_quantity_refuted",
    "C279_case_refuted"
   ],
   "note": "Refuted: the quantity of the units is not checked (Quantity('energy').convert('m').to('cm') is 100), and names of systems are recognised in small letters only. Proved: the factor for names in small letters and units."
  },
  {
   "property": "C280",
   "status": "proved",
   "theorems": [
    "C280_quotient",
    "C280_laws",
    "C280_others"
   ],
   "note": "Proved."
  },
  {
   "property": "C281",
   "status": "partial",
   "theorems": [
    "C281_lookup_partial",
    "C281_unknown",
    "C281_created",
    "C281_common_refuted",
    "C281_capital_refuted"
   ],
   "note": "Refuted: the common dimension cannot stand alone and is not given to systems that are left out; a system given under a capitalized name is never found. Proved: the given dimension, the common one for systems passed as None or '', None for systems left out, KeyError for other names, and when it can be created."
  },
  {
   "property": "C282",
   "status": "partial",
   "theorems": [
    "C282_systems_partial",
    "C282_lux_refuted"
   ],
   "note": "Refuted for the lux, whose quantity is misspelled in the table; proved for every other unit."
  },
  {
   "property": "C283",
   "status": "partial",
   "theorems": [
    "C283_scale_partial",
    "C283_units_refuted"
   ],
   "note": "Refuted: the base units of all terms but the first reduced one are lost. Proved: the scale."
  },
  {
   "property": "C284",
   "status": "partial",
   "theorems": [
    "C284_meaning_partial",
    "C284_reflexive",
    "C284_symmetric_partial",
    "C284_convertible_refuted"
   ],
   "note": "Refuted: Hz | Bq is true without a conversion. Proved: equal dimensions in some systems suffice, inconsistent units have neither equal dimensions nor a conversion; reflexive; symmetric unless there is a conversion in one direction only (not known to happen in the tables)."
  },
  {
   "property": "C285",
   "status": "proved",
   "theorems": [
    "C285_follows_paths"
   ],
   "note": "Full. File contents, the evaluation of a parameter (any program that asks for reference, definitions and constants) are universally quantified."
  },
  {
   "property": "C286",
   "status": "proved",
   "theorems": [
    "C286_last_path"
   ],
   "note": "Full."
  },
  {
   "property": "C287",
   "status": "proved",
   "theorems": [
    "C287_keeps_value",
    "C287_keeps_files"
   ],
   "note": "Full."
  },
  {
   "property": "C288",
   "status": "proved",
   "theorems": [
    "C288_constants",
    "C288_format",
    "C288_modes"
   ],
   "note": "Full."
  },
  {
   "property": "C289",
   "status": "partial",
   "theorems": [
    "C289_names_partial",
    "C289_names_refuted"
   ],
   "note": "Refuted: the names stay those of the first source path; iteration then gives names whose lookup raises KeyError. Proved: they are right as long as the source path is not set."
  },
  {
   "property": "C290",
   "status": "proved",
   "theorems": [
    "C290_always_canonical"
   ],
   "note": "Full."
  },
  {
   "property": "C291",
   "status": "proved",
   "theorems": [
    "C291_either_side",
    "C291_functions",
    "C291_unreadable"
   ],
   "note": "Full; ratio(a, a) = 1 for floating-point operations in which 1 is exact."
  },
  {
   "property": "C292",
   "status": "proved",
   "theorems": [
    "C292_difference",
    "C292_no_difference"
   ],
   "note": "Full."
  },
  {
   "property": "C293",
   "status": "partial",
   "theorems": [
    "C293_evaluate_partial",
    "C293_expression_partial",
    "C293_errors",
    "C293_zero_refuted"
   ],
   "note": "Proved for numbers other than 0 and integer exponents. Missing: fractional exponents, which go through floats. Refuted at 0: a variable with a positive exponent evaluates to 1, because a vanishing coefficient is replaced by 1."
  },
  {
   "property": "C294",
   "status": "partial",
   "theorems": [
    "C294_number_partial",
    "C294_number_refuted"
   ],
   "note": "Proved for constants. Refuted for variables: the comparison raises TypeError."
  },
  {
   "property": "C295",
   "status": "proved",
   "theorems": [
    "C295_styles"
   ],
   "note": "Full."
  },
  {
   "property": "C296",
   "status": "partial",
   "theorems": [
    "C296_apply_partial",
    "C296_coefficient_refuted"
   ],
   "note": "Proved without coefficients, when the product survives being written as text (C04). Refuted with coefficients: they are dropped."
  },
  {
   "property": "C297",
   "status": "proved",
   "theorems": [
    "C297_same_object"
   ],
   "note": "Full."
  },
  {
   "property": "C298",
   "status": "partial",
   "theorems": [
    "C298_instance_partial",
    "C298_parent_refuted",
    "C298_multiple_refuted"
   ],
   "note": "Proved: the object is of the class or of an ancestor that had been called before. Refuted: a class called after its parent gives the parent's object; with several parents the object may change."
  },
  {
   "property": "C299",
   "status": "partial",
   "theorems": [
    "C299_uniform_partial",
    "C299_missing_refuted",
    "C299_no_init_refuted"
   ],
   "note": "Proved when the entries include all parameters. Refuted: missing entries are passed as None instead of using the default or raising; classes without their own __init__ always raise TypeError."
  },
  {
   "property": "C300",
   "status": "proved",
   "theorems": [
    "C300_independent",
    "C300_copy",
    "C300_reset"
   ],
   "note": "Full, without changes of entries in place (copies are documented as shallow)."
  },
  {
   "property": "C301",
   "status": "partial",
   "theorems": [
    "C301_registered_partial",
    "C301_keeps",
    "C301_in_place",
    "C301_metadata_refuted",
    "C301_copy_refuted",
    "C301_reset_refuted"
   ],
   "note": "Proved when the name or the defined name is free (or may be overwritten). Refuted: metadata may replace the object; a registration in a copy may overwrite an entry; changes in place survive reset."
  },
  {
   "property": "C302",
   "status": "proved",
   "theorems": [
    "C302_live"
   ],
   "note": "Full."
  },
  {
   "property": "C303",
   "status": "partial",
   "theorems": [
    "C303_current_partial",
    "C303_stale_refuted",
    "C303_no_entries"
   ],
   "note": "Proved as long as changes keep the set of common keys. Refuted otherwise: get raises KeyError, new common keys are not found."
  },
  {
   "property": "C304",
   "status": "proved",
   "theorems": [
    "C304_nested",
    "C304_lost",
    "C304_pop",
    "C304_required",
    "C304_oftype"
   ],
   "note": "Full."
  },
  {
   "property": "C305",
   "status": "proved",
   "theorems": [
    "C305_numerals"
   ],
   "note": "Full."
  },
  {
   "property": "C306",
   "status": "partial",
   "theorems": [
    "C306_values_partial",
    "C306_meanings_partial",
    "C306_stop_time_refuted",
    "C306_whole_refuted"
   ],
   "note": "Proved for texts that can be read. Refuted: when simStartTime and tDel cancel and simStopTime is not given no parameter can be read; a whole number given as 0.0 cannot be read."
  },
  {
   "property": "C307",
   "status": "proved",
   "theorems": [
    "C307_interface"
   ],
   "note": "Full."
  },
  {
   "property": "C308",
   "status": "partial",
   "theorems": [
    "C308_arguments_partial",
    "C308_float_refuted",
    "C308_unknown"
   ],
   "note": "Proved except for numbers without a unit, whose conversion to float raises TypeError."
  },
  {
   "property": "C309",
   "status": "partial",
   "theorems": [
    "C309_speeds_refuted"
   ],
   "note": "Refuted: flowMag and idealShockSpeed have defaults in cm/s but the unit km/s."
  },
  {
   "property": "C310",
   "status": "proved",
   "theorems": [
    "C310_contains",
    "C310_find",
    "C310_without",
    "C310_taken"
   ],
   "note": "Proved."
  },
  {
   "property": "C311",
   "status": "proved",
   "theorems": [
    "C311_names"
   ],
   "note": "Proved, with the TypeError for unknown keys (finding)."
  },
  {
   "property": "C312",
   "status": "proved",
   "theorems": [
    "C312_group_lookup"
   ],
   "note": "Proved."
  },
  {
   "property": "C313",
   "status": "proved",
   "theorems": [
    "C313_elements",
    "C313_determined"
   ],
   "note": "Proved. Subscripts with lists are C274 and C98."
  },
  {
   "property": "C314",
   "status": "proved",
   "theorems": [
    "C314_ranges"
   ],
   "note": "Proved."
  },
  {
   "property": "C315",
   "status": "proved",
   "theorems": [
    "C315_errors",
    "C315_kinds"
   ],
   "note": "Proved."
  },
  {
   "property": "C316",
   "status": "proved",
   "theorems": [
    "C316_axes"
   ],
   "note": "Proved."
  },
  {
   "property": "C317",
   "status": "proved",
   "theorems": [
    "C317_sum"
   ],
   "note": "Proved."
  },
  {
   "property": "C318",
   "status": "proved",
   "theorems": [
    "C318_default",
    "C318_shells",
    "C318_coordinates",
    "C318_species",
    "C318_units"
   ],
   "note": "C318_default: the default axis, for all lists that do not begin with a slice or range; index_of says which objects stand for which indices. C318_shells, C318_coordinates, C318_species: the axes of EPREM datasets. C318_units: conversions."
  },
  {
   "property": "C319",
   "status": "proved",
   "theorems": [
    "C319_text",
    "C319_errors"
   ],
   "note": "C319_text: every template that consists of characters, doubled braces and known names. C319_errors: a malformed end after any well-formed beginning."
  },
  {
   "property": "C320",
   "status": "proved",
   "theorems": [
    "C320_true",
    "C320_error"
   ],
   "note": "C320_true and C320_error determine the result for all objects."
  },
  {
   "property": "C321",
   "status": "proved",
   "theorems": [
    "C321_first"
   ],
   "note": "C321_first: equivalences for a result, an exception and no result."
  },
  {
   "property": "C322",
   "status": "proved",
   "theorems": [
    "C322_column",
    "C322_default",
    "C322_no_rows"
   ],
   "note": "C322_column, C322_default, C322_no_rows."
  },
  {
   "property": "C323",
   "status": "proved",
   "theorems": [
    "C323_distributed",
    "C323_agrees",
    "C323_errors",
    "C323_letter"
   ],
   "note": "C323_distributed: spread lists the forms of objects that the documentation lists, with units that may differ. C323_agrees: both modes. C323_errors."
  },
  {
   "property": "C324",
   "status": "proved",
   "theorems": [
    "C324_meaning",
    "C324_quantity",
    "C324_units",
    "C324_same_quantity"
   ],
   "note": "Exact part of C284: it says precisely when unit_or is true."
  },
  {
   "property": "C325",
   "status": "proved",
   "theorems": [
    "C325_names",
    "C325_error"
   ],
   "note": ""
  },
  {
   "property": "C326",
   "status": "proved",
   "theorems": [
    "C326_slices",
    "C326_index",
    "C326_axis"
   ],
   "note": ""
  },
  {
   "property": "C327",
   "status": "proved",
   "theorems": [
    "C327_between",
    "C327_hit"
   ],
   "note": "One-dimensional coordinates, as in C75."
  },
  {
   "property": "C328",
   "status": "proved",
   "theorems": [
    "C328_array",
    "C328_parameters"
   ],
   "note": ""
  },
  {
   "property": "C329",
   "status": "proved",
   "theorems": [
    "C329_indices",
    "C329_assumptions",
    "C329_other"
   ],
   "note": "Keys that are groups of names or units are not modelled."
  },
  {
   "property": "C330",
   "status": "partial",
   "theorems": [
    "C330_unit_refuted",
    "C330_no_assumptions_refuted"
   ],
   "note": "Refuted: the new quantity always has the unit and the values of the old one, whatever the text is; without assumptions the subscript is a TypeError."
  },
  {
   "property": "C331",
   "status": "partial",
   "theorems": [
    "C331_equal_refuted",
    "C331_never_refuted",
    "C331_different_partial"
   ],
   "note": "Refuted: the comparison reads attributes that do not exist, so that it never gives True: it raises AttributeError as soon as the data are equal. Proved: quantities with different data are different."
  },
  {
   "property": "C332",
   "status": "partial",
   "theorems": [
    "C332_all_partial",
    "C332_first_refuted"
   ],
   "note": "Refuted: only the first name is looked at. Proved: the answer is yes if all names are names of observable quantities, and no if none is a name of an observable quantity or an expression."
  },
  {
   "property": "C333",
   "status": "proved",
   "theorems": [
    "C333_histories",
    "C333_convert"
   ],
   "note": "Joins the model of arrays with the model of the units: C43 (histories) with C280 (quotients of units) and C324 (consistent units). Sizes of units are those of MetricSpec.sizes, which exist for the package's table (C233). Copies are left out: C44 shows that they break the scaling."
  },
  {
   "property": "C334",
   "status": "partial",
   "theorems": [
    "C334_config_partial",
    "C334_names_refuted"
   ],
   "note": "Refuted for the other names of a parameter: a value that the file assigns is not found under them, and a value assigned to them is ignored in favour of the parameter's default. Proved for the parameters' own names, for names that the file does not assign and for names of no parameter."
  },
  {
   "property": "C335",
   "status": "proved",
   "theorems": [
    "C335_lists",
    "C335_parameter"
   ],
   "note": "Proved as an equivalence. Numerals with underscores, infinities and complex numbers, which Python also reads, are outside the model."
  },
  {
   "property": "C336",
   "status": "proved",
   "theorems": [
    "C336_rounding",
    "C336_kept",
    "C336_equality",
    "C336_hash",
    "C336_round_trip"
   ],
   "note": "Proved with the binary64 instance of the numbers, whose exponents are not limited: infinities and subnormal numbers are outside the model."
  },
  {
   "property": "C337",
   "status": "proved",
   "theorems": [
    "C337_chain",
    "C337_order",
    "C337_number"
   ],
   "note": "Floats are arbitrary here; with binary64 rounding the rounded value is that of C336."
  },
  {
   "property": "C338",
   "status": "partial",
   "theorems": [
    "C338_attached_partial",
    "C338_alone_refuted"
   ],
   "note": "True of a number written directly before a base (C338_attached_partial). False of every such number alone: `2e-3` is read as 2 times the unknown `e` times -3, that is -6 e (C338_alone_refuted says what each one becomes)."
  },
  {
   "property": "C339",
   "status": "proved",
   "theorems": [
    "C339_reads",
    "C339_order"
   ],
   "note": "Extends C06 and C337 to all spacings, to brackets directly after a factor and to decimal exponents of brackets."
  },
  {
   "property": "C340",
   "status": "partial",
   "theorems": [
    "C340_coefficient_partial",
    "C340_quotient",
    "C340_quotient_refuted"
   ],
   "note": "True without a stroke before the factor (C340_coefficient_partial). False after a stroke: `a / 2(b c)` is a b c / 2 (C340_quotient_refuted; C340_quotient gives the value in every case)."
  },
  {
   "property": "C341",
   "status": "proved",
   "theorems": [
    "C341_blanks",
    "C341_order"
   ],
   "note": "Blanks are spaces; other white space is not in the grammar of the model's texts."
  },
  {
   "property": "C342",
   "status": "proved",
   "theorems": [
    "C342_exponents"
   ],
   "note": "The only fact about floats it uses is that every power of 1.0 is 1.0."
  },
  {
   "property": "C343",
   "status": "partial",
   "theorems": [
    "C343_root_partial",
    "C343_order",
    "C343_sign_refuted",
    "C343_exact_refuted"
   ],
   "note": "Proved for 'sqrt' at the start of the expression and after a blank, when the exponent written at the end of the phrase and its half are floats. Refuted: after '*' or '/' the word is read as the name of a base; sqrt(a)^1/3 is not a^1/6."
  },
  {
   "property": "C344",
   "status": "partial",
   "theorems": [
    "C344_enclosed_partial",
    "C344_other_partial",
    "C344_pairs_refuted"
   ],
   "note": "Proved for texts enclosed in one matching pair, and for texts that do not both start with an opening and end with a closing bracket. Refuted: '(a)(b)' becomes 'a)(b', for all a without brackets and all b; the empty text raises IndexError."
  },
  {
   "property": "C345",
   "status": "proved",
   "theorems": [
    "C345_dimension",
    "C345_dimensionless"
   ],
   "note": ""
  },
  {
   "property": "C346",
   "status": "partial",
   "theorems": [
    "C346_dimensionless_partial",
    "C346_alien_refuted"
   ],
   "note": "Proved for products with a unit of each system. Refuted: F V C^-1 has the dimension 1 in mks and no dimension in cgs, and is not dimensionless; F V C^-1 rad is."
  },
  {
   "property": "C347",
   "status": "proved",
   "theorems": [
    "C347_product",
    "C347_power"
   ],
   "note": ""
  }
 ]
}