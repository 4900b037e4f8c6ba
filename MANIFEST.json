{
 "claims": [
  {
   "property": "C01",
   "status": "partial",
   "theorems": [
    "C01_geometric_product_partial",
    "C01_point_mul_point",
    "C01_line_mul_line_refuted",
    "C01_line_mul_line_exact"
   ],
   "note": "False as stated: line*line exchanges e12 and e23 (refuted, with the exact condition under which it is right). All other overloads proved for both builds and all real coefficients."
  },
  {
   "property": "C02",
   "status": "proved",
   "theorems": [
    "C02_meet"
   ],
   "note": "All overloads, both builds, all reals."
  },
  {
   "property": "C03",
   "status": "proved",
   "theorems": [
    "C03_inner_product"
   ],
   "note": "All overloads, both builds, all reals."
  },
  {
   "property": "C04",
   "status": "proved",
   "theorems": [
    "C04_dual",
    "C04_dual_spec",
    "C04_join"
   ],
   "note": "All overloads; J is characterised in the spec."
  },
  {
   "property": "C05",
   "status": "proved",
   "theorems": [
    "C05_sandwich",
    "C05_translator_on_plane"
   ],
   "note": "Non-normalized operands included; translator on plane assumes the ideal reciprocal of 1."
  },
  {
   "property": "C06",
   "status": "proved",
   "theorems": [
    "C06_reflection_sandwich",
    "C06_reflection"
   ],
   "note": "Algebraic form for all operands; mirror image, involution and fixed points for unit planes (points, planes, lines)."
  },
  {
   "property": "C07",
   "status": "proved",
   "theorems": [
    "C07_composition"
   ],
   "note": "Chains of any length, any bracketing, any mixture of rotors, translators and motors; points, planes, lines, directions."
  },
  {
   "property": "C08",
   "status": "proved",
   "theorems": [
    "C08_rigid_motion"
   ],
   "note": "For all motors with m*~m=1 over the reals."
  },
  {
   "property": "C09",
   "status": "proved",
   "theorems": [
    "C09_translator"
   ],
   "note": "All non-zero axes, real arithmetic with the ideal reciprocal."
  },
  {
   "property": "C10",
   "status": "proved",
   "theorems": [
    "C10_rotor"
   ],
   "note": "Handedness is fixed: clockwise, i.e. Rodrigues with -ang (see C47)."
  },
  {
   "property": "C11",
   "status": "proved",
   "theorems": [
    "C11_euler_constructor"
   ],
   "note": "Real arithmetic."
  },
  {
   "property": "C12",
   "status": "partial",
   "theorems": [
    "C12_euler_round_trip_partial",
    "C12_wrong_gimbal_test_refuted",
    "C12_true_gimbal_lock_refuted"
   ],
   "note": "False as stated: the gimbal test looks at the wrong product (witness 120 degrees about (1,1,1)), and roll/yaw are lost at the true singularity. Proved for every other unit rotor."
  },
  {
   "property": "C13",
   "status": "proved",
   "theorems": [
    "C13_screw"
   ],
   "note": "All angles, displacements and unit lines; real arithmetic."
  },
  {
   "property": "C14",
   "status": "partial",
   "theorems": [
    "C14_inverse_partial",
    "C14_quotient_partial",
    "C14_rotor_inverse_exact",
    "C14_rotor_inverse_refuted",
    "C14_rotor_quotient_refuted",
    "C14_point_inverse_exact",
    "C14_point_inverse_refuted",
    "C14_line_quotient_refuted"
   ],
   "note": "False as stated for rotors (inverse ignores the scalar part), points (product is -1) and the line quotient; exact values proved. All other types proved."
  },
  {
   "property": "C15",
   "status": "partial",
   "theorems": [
    "C15_normalize_unit",
    "C15_normalize_idempotent_partial",
    "C15_plane_normalize_idempotent_refuted"
   ],
   "note": "False as stated: plane::normalize in the SSE3 build is not idempotent (refuted). Everything else proved under ideal estimates."
  },
  {
   "property": "C16",
   "status": "partial",
   "theorems": [
    "C16_normalize_same_object_partial",
    "C16_plane_normalize_exact",
    "C16_plane_normalize_moves_refuted"
   ],
   "note": "False as stated for planes (the e0 component is not scaled with the normal; refuted). Proved for the other types."
  },
  {
   "property": "C17",
   "status": "proved",
   "theorems": [
    "C17_reverse",
    "C17_reverse_spec",
    "C17_reverse_antiautomorphism",
    "C17_reverse_undoes"
   ],
   "note": "All real coefficients."
  },
  {
   "property": "C18",
   "status": "proved",
   "theorems": [
    "C18_sqrt",
    "C18_sqrt_half_motion"
   ],
   "note": "Real arithmetic, ideal estimates."
  },
  {
   "property": "C25",
   "status": "proved",
   "theorems": [
    "C25_origin"
   ],
   "note": "All unit motors."
  },
  {
   "property": "C32",
   "status": "partial",
   "theorems": [
    "C32_conversion_partial",
    "C32_assign_translator_refuted"
   ],
   "note": "False as stated: motor::operator=(translator) zeroes the scalar part, so every point is sent to zero (refuted). Constructors and assignment from a rotor proved."
  },
  {
   "property": "C36",
   "status": "proved",
   "theorems": [
    "C36_motions_commute",
    "C36_motions_commute_dot"
   ],
   "note": "Every motor with m*~m scalar; meet, join and inner product."
  },
  {
   "property": "C43",
   "status": "proved",
   "theorems": [
    "C43_direction"
   ],
   "note": "Real arithmetic."
  },
  {
   "property": "C47",
   "status": "partial",
   "theorems": [
    "C47_opposite_handedness",
    "C47_handedness_refuted"
   ],
   "note": "False as stated: the two constructors turn in opposite senses (refuted); the exact relation is proved."
  },
  {
   "property": "C33",
   "status": "proved",
   "theorems": [
    "C33_join_points",
    "C33_join_three_points",
    "C33_join_norms"
   ],
   "note": "All points of non-zero weight; norms for unit weight; real arithmetic."
  },
  {
   "property": "C34",
   "status": "proved",
   "theorems": [
    "C34_meet"
   ],
   "note": "All planes and proper lines; real arithmetic."
  },
  {
   "property": "C35",
   "status": "proved",
   "theorems": [
    "C35_project_point",
    "C35_project_line_plane",
    "C35_project_onto"
   ],
   "note": "All overloads; real arithmetic."
  },
  {
   "property": "C37",
   "status": "partial",
   "theorems": [
    "C37_metric",
    "C37_parallel_lines",
    "C37_point_on_line_refuted"
   ],
   "note": "Proved over the reals for all normalized operands; the norm of point & line for points off the line. False as stated for a point on the line: the norm of the zero plane is not a number in binary32 (refuted for all small integer operands)."
  },
  {
   "property": "C19",
   "status": "partial",
   "theorems": [
    "C19_exp_series_partial",
    "C46_exp_branch_refuted"
   ],
   "note": "Proved for every line (any bivector), every ideal line and every non-zero branch: the code's result is the limit of the power series. False as stated for the zero branch, whose exp is NaN (C46_exp_branch_refuted)."
  },
  {
   "property": "C20",
   "status": "partial",
   "theorems": [
    "C20_exp_log_partial",
    "C20_exp_log_rotor",
    "C20_exp_log_translator",
    "C20_half_turn_refuted",
    "C20_negative_translation_refuted"
   ],
   "note": "False as stated: a half-turn without slide comes back as the identity whatever atan2(0,0) returns, and a translation written with scalar -1 comes back reversed (both refuted). Every other unit motor proved; rotors with |scalar| < 1."
  },
  {
   "property": "C21",
   "status": "partial",
   "theorems": [
    "C21_log_exp_partial",
    "C21_log_exp_branch",
    "C21_log_exp_ideal",
    "C21_log_exp_no_rotation",
    "C21_quarter_refuted"
   ],
   "note": "False as stated next to the quarter turn (refuted). Proved for lines with |cos s| >= 1e-6 or a.b < 0, all branches with 0 < s < pi, all ideal lines."
  },
  {
   "property": "C22",
   "status": "partial",
   "theorems": [
    "C22_group_law",
    "C22_steps",
    "C22_nth_root",
    "C46_exp_branch_refuted"
   ],
   "note": "Lines and ideal lines: complete. Branches: when none of the three exponents is the zero branch. False as stated for the zero branch, whose exp is NaN (C46_exp_branch_refuted)."
  },
  {
   "property": "C23",
   "status": "partial",
   "theorems": [
    "C23_planes",
    "C23_points",
    "C23_branches_partial",
    "C23_branches_image_reversed",
    "C23_lines_partial",
    "C23_neg_line_same_points",
    "C23_branches_refuted",
    "C23_lines_refuted"
   ],
   "note": "False as stated for branches (the documented reverse of the square root does not reach the axis of a unless a and b are perpendicular) and for lines (the product operator exchanges two components, C01). Planes and points proved; branches: sqrt(a*b) takes b to -a, so reversing the image (the form used in the repository's test) gives a; lines: the same whenever the product operator is right."
  },
  {
   "property": "C24",
   "status": "partial",
   "theorems": [
    "C24_motor_mat4x4",
    "C24_motor_mat3x4",
    "C24_rotor_matrix_refuted",
    "C24_rotor_matrix_zeroed"
   ],
   "note": "False as stated for rotors: as_mat3x4/as_mat4x4 read an uninitialised column (refuted as undefined behaviour). Motors proved."
  },
  {
   "property": "C26",
   "status": "proved",
   "theorems": [
    "C26_batch",
    "C26_input_kept"
   ],
   "note": "Any arithmetic, any count, both builds; memory modelled as an array of registers."
  },
  {
   "property": "C27",
   "status": "partial",
   "theorems": [
    "C27_inplace_erases_refuted",
    "C27_inplace_lines_refuted",
    "C27_documented_animation_refuted"
   ],
   "note": "False as stated: under sequential execution the identity applied in place sets planes, points and directions to zero and gives wrong lines (refuted for every count); the documented skeletal animation does exactly this and collapses every joint."
  },
  {
   "property": "C28",
   "status": "partial",
   "theorems": [
    "C28_products",
    "C28_actions_partial",
    "C28_norms_partial",
    "C28_quotients",
    "C28_plane_normalize_refuted",
    "C28_ill_formed"
   ],
   "note": "False as stated for plane::normalize (refuted). All other Build-dependent operations proved equal in exact arithmetic for well-formed operands."
  },
  {
   "property": "C29",
   "status": "proved",
   "theorems": [
    "C29_sandwich",
    "C29_batch",
    "C29_matrix"
   ],
   "note": "Any arithmetic."
  },
  {
   "property": "C30",
   "status": "proved",
   "theorems": [
    "C30_glsl",
    "C30_glsl_spec"
   ],
   "note": "Every kln_mul and kln_apply overload; exact arithmetic."
  },
  {
   "property": "C31",
   "status": "partial",
   "theorems": [
    "C31_c_api_partial",
    "C31_line_init",
    "C31_line_init_refuted",
    "C31_point_init",
    "C31_point_init_refuted",
    "C31_compose_translator_rotor_refuted",
    "C31_translate_plane",
    "C31_exp_log"
   ],
   "note": "False as stated: the header comments of kln_line_init, kln_point_init and kln_compose_translator_rotor describe something else (refuted, exact values proved). All other functions proved to be the documented products and sandwiches."
  },
  {
   "property": "C39",
   "status": "proved",
   "theorems": [
    "C39_constrain",
    "C39_idempotent"
   ],
   "note": "Real arithmetic with either sign for a zero scalar; idempotence for any arithmetic whose negation flips the sign bit."
  },
  {
   "property": "C44",
   "status": "proved",
   "theorems": [
    "C44_linear",
    "C44_negation",
    "C44_plane_minus_moves_refuted",
    "C44_accessors",
    "C44_constructors"
   ],
   "note": "Every overload, accessor and constructor. The documented 'changes orientation only' of unary minus on planes is refuted."
  },
  {
   "property": "C45",
   "status": "proved",
   "theorems": [
    "C45_well_formed",
    "C45_log_needs_unit"
   ],
   "note": "Any finite sequence of the 117 operations returning such objects; log requires a unit motor (necessary, shown)."
  },
  {
   "property": "C61",
   "status": "partial",
   "theorems": [
    "C61_store",
    "C61_round_trip",
    "C61_load",
    "C61_accessor",
    "C61_plane_layout",
    "C61_store_unaligned_refuted"
   ],
   "note": "False as stated: store is undefined unless the buffer is 16-byte aligned (refuted). Everything else proved for aligned buffers; loads at any alignment."
  },
  {
   "property": "C48",
   "status": "partial",
   "theorems": [
    "C48_associative_partial",
    "C48_unit_partial",
    "C48_squares_partial",
    "C48_anticommute_partial",
    "C48_ascending_partial",
    "C48_large_dimension_refuted",
    "C48_dimension_31_refuted"
   ],
   "note": "False as stated: the constructor accepts dimensions up to 31 but from dimension 9 on a truncated mask makes generators square and commute wrongly (refuted). Proved for every signature of dimension at most 8, with every blade the ascending product of its generators."
  },
  {
   "property": "C49",
   "status": "proved",
   "theorems": [
    "C49_ext_associative",
    "C49_ext_generators",
    "C49_ext_unit",
    "C49_ext_is_product",
    "C49_ext_zero_iff",
    "C49_dual",
    "C49_rev_sign",
    "C49_exterior",
    "C49_regressive",
    "C49_reverse",
    "C49_inner_no_scalars",
    "C49_inner",
    "C49_inner_with_scalars"
   ],
   "note": "Exterior product laws in every signature up to dimension 30, the rest in P(R*_{3,0,1}); scalar operands of | give zero, as documented (C49_inner_with_scalars shows the two conventions differ)."
  },
  {
   "property": "C50",
   "status": "partial",
   "theorems": [
    "C50_evaluation",
    "C50_normal",
    "C50_push",
    "C50_unique",
    "C50_ring",
    "C50_push_zero_refuted"
   ],
   "note": "Proved for +, -, * and push of non-zero coefficients in exact arithmetic. push of a zero coefficient stores it (refuted)."
  },
  {
   "property": "C51",
   "status": "proved",
   "theorems": [
    "C51_strict_total_order",
    "C51_product",
    "C51_push",
    "C51_blade_order"
   ],
   "note": "All monomials; degrees as unbounded integers."
  },
  {
   "property": "C52",
   "status": "partial",
   "theorems": [
    "C52_product",
    "C52_sum",
    "C52_normal",
    "C52_unique",
    "C52_laws",
    "C52_push_zero_refuted"
   ],
   "note": "Proved for all sums and products in exact arithmetic. push of an empty polynomial under a new blade stores it (refuted)."
  },
  {
   "property": "C53",
   "status": "partial",
   "theorems": [
    "C53_bound",
    "C53_terminates_partial",
    "C53_trailing_space_partial",
    "C53_refuted",
    "C53_single_letter_hangs",
    "C53_foreign_character_hangs"
   ],
   "note": "False as stated: a one-letter input, or an unknown character, makes the tokenizer loop for ever (refuted, with families of witnesses). Proved to return for inputs of known characters that do not end in a letter."
  },
  {
   "property": "C54",
   "status": "partial",
   "theorems": [
    "C54_exact",
    "C54_defined_partial",
    "C54_overflow_refuted",
    "C54_no_exception"
   ],
   "note": "False as stated: a run of 32 or more digits/dots writes past the buffer and the exception is unreachable (refuted). The exact condition is proved."
  },
  {
   "property": "C55",
   "status": "partial",
   "theorems": [
    "C55_element_partial",
    "C55_product_partial",
    "C55_duplicate_partial",
    "C55_high_digits_refuted",
    "C55_out_of_range_refuted"
   ],
   "note": "False as stated for digits 8 and 9 (lost in a byte) and for indices outside the algebra (accepted); both refuted. Proved for all digit strings over 0-7."
  },
  {
   "property": "C56",
   "status": "proved",
   "theorems": [
    "C56_parse",
    "C56_sound",
    "C56_unambiguous",
    "C56_precedence",
    "C56_unary",
    "C56_meaning",
    "C56_operators",
    "C56_text"
   ],
   "note": "All trees and all renderings with any redundant parentheses; meaning connected to the geometric-algebra specification."
  },
  {
   "property": "C57",
   "status": "proved",
   "theorems": [
    "C57_safe",
    "C57_after_tokenizer",
    "C57_bounds"
   ],
   "note": "All token lists ending in end-of-input."
  },
  {
   "property": "C58",
   "status": "partial",
   "theorems": [
    "C58_exact",
    "C58_no_parentheses_partial",
    "C58_dropped",
    "C58_refuted"
   ],
   "note": "False as stated: text after an unmatched ) or a juxtaposed ( is dropped (refuted). The exact condition is proved."
  },
  {
   "property": "C60",
   "status": "partial",
   "theorems": [
    "C60_blade_name",
    "C60_blade_name_injective",
    "C60_names_distinct",
    "C60_round_trip_partial",
    "C60_injective_partial",
    "C60_integers_shown",
    "C60_integers_round_trip_partial",
    "C60_unit_coefficient_refuted",
    "C60_unreadable_refuted"
   ],
   "note": "False as stated: constant coefficients 1 and -1 are printed without their digit (refuted). Reading back what is printed gives the same multivector whenever each coefficient is a faithfully shown number (with a blade if it is 1 or -1) or plus or minus one variable; other coefficients are refused or misread (refuted)."
  },
  {
   "property": "C63",
   "status": "partial",
   "theorems": [
    "C63_exact",
    "C63_comment",
    "C63_expression_partial",
    "C63_decimal_refuted",
    "C63_decimal_dropped",
    "C63_hang_refuted"
   ],
   "note": "False as stated: lines with a decimal point are dropped and some lines hang (refuted). Proved for the other lines."
  },
  {
   "property": "C59",
   "status": "partial",
   "theorems": [
    "C59_products",
    "C59_exterior",
    "C59_regressive",
    "C59_inner",
    "C59_sandwich",
    "C59_projection",
    "C59_translate_plane",
    "C59_script_runs",
    "C59_line_line_refuted"
   ],
   "note": "False as stated for line * line (refuted: the kernel exchanges two lanes). Every other line of the script with a counterpart in the library is proved, for all coefficients and both builds."
  },
  {
   "property": "C41",
   "status": "partial",
   "theorems": [
    "C41_geometric_product_partial",
    "C41_line_mul_line",
    "C41_point_mul_point",
    "C41_translator_on_plane",
    "C41_inverse",
    "C41_line_normalize",
    "C41_line_inverse",
    "C41_motor_normalize",
    "C41_motor_inverse",
    "C41_targets",
    "C41_meet",
    "C41_inner_product",
    "C41_join",
    "C41_sandwich",
    "C41_any_geometric_product_partial",
    "C41_any_meet",
    "C41_any_inner_product",
    "C41_any_join",
    "C41_any_sandwich",
    "C41_any_sandwich_20",
    "C41_relative_error_refuted"
   ],
   "note": "68 overloads, both builds, binary32 with every rounding, coefficients zero or within 2^-51..2^60 (2^-26..2^40 for sandwiches, 2^-31..2^31 and narrower where the code divides by an estimate). line*line is accurate up to the exchange of e12 and e23 that makes it wrong in exact arithmetic. Also inverses and the normalization of lines and motors. The polynomial overloads also for coefficients of any size up to 2^60 (2^39 for sandwiches), subnormal ones included, with an added absolute term of 2^-144 (2^-103; 2^-67 for reflected lines and points). A bound relative to the result is refuted."
  },
  {
   "property": "C42",
   "status": "partial",
   "theorems": [
    "C42_geometric_product_partial",
    "C42_line_mul_line",
    "C42_meet",
    "C42_inner_product",
    "C42_join",
    "C42_sandwich",
    "C42_point_mul_point",
    "C42_translator_on_plane",
    "C42_divide_refuted",
    "C42_weights_refuted"
   ],
   "note": "Integers up to 1448 (77 for sandwiches), 66 overloads, both builds. False as stated for line*line, which is exact only up to the exchange of e12 and e23, and for point*point and translator on plane, which divide by an estimate: refuted on conforming hardware, and for points of weight 3 on any; they are exact on hardware whose Newton step gives 1 for 1 and -1 for -1 (proved, points of weight 1 up to 2^23, planes up to 1448)."
  },
  {
   "property": "C38",
   "status": "partial",
   "theorems": [
    "C38_equality",
    "C38_symmetric",
    "C38_approx_partial",
    "C38_approx_refuted",
    "C38_bitwise_refuted"
   ],
   "note": "== proved for all floats; bitwise equality refuted. approx_eq never accepts a difference of eps or more and accepts every difference bounded by a float below eps; the exact iff is refuted (a difference below eps can round up to eps)."
  },
  {
   "property": "C40",
   "status": "proved",
   "theorems": [
    "C40_reciprocal",
    "C40_reciprocal_sqrt",
    "C40_normalize",
    "C40_plane_normalize",
    "C40_divide"
   ],
   "note": "All estimates within 1.5*2^-12, every binary32 rounding. The factor is within 2^-21 for arguments in 2^-125..2^125; normalizations within 10*2^-24 and divisions within 7*2^-24 of the exact quotient, per coefficient, for coefficients zero or within 2^-51..2^60. An ideal machine shows the hypotheses can be met."
  },
  {
   "property": "C46",
   "status": "partial",
   "theorems": [
    "C46_motors_partial",
    "C46_log_rotor_refuted",
    "C46_exp_branch_refuted",
    "C46_exp_line_refuted",
    "C46_log_motor_refuted",
    "C46_tiny_norms_refuted"
   ],
   "note": "False as stated in binary32: log of every rotor with scalar part 1 and exp of every branch with coefficients up to 2^-65 is NaN (refuted for all of them); lines, motors and norms fail likewise for nonzero coefficients up to 2^-65. The zero bivector of a motor or line is handled (proved)."
  },
  {
   "property": "C62",
   "status": "proved",
   "theorems": [
    "C62_constants"
   ],
   "note": "Rounding decided by bounds on pi, e and sqrt 2; the literals give the same float for any long double of 50 bits or more."
  },
  {
   "property": "C64",
   "status": "partial",
   "theorems": [
    "C64_blend",
    "C64_constant_speed",
    "C64_blend_end_partial",
    "C64_short_way",
    "C64_blend_end_refuted"
   ],
   "note": "False as stated at t=1 for half-turns without slide (refuted, from C20). Normalized, starting point, constant speed proved for all; reaching b proved whenever b ~a is not such a half-turn nor a translation with scalar part -1; shorter way when the scalar part is positive."
  },
  {
   "property": "C65",
   "status": "partial",
   "theorems": [
    "C65_nlerp_partial",
    "C65_lerp_norm",
    "C65_doc_condition_refuted",
    "C65_opposite_refuted"
   ],
   "note": "False as stated: the documented condition is neither necessary nor sufficient (the right-hand side must be 2, proved), and the midpoint of a motor and its negative cannot be normalized (refuted). Everything else proved."
  },
  {
   "property": "C67",
   "status": "partial",
   "theorems": [
    "C67_gp_comments",
    "C67_ext_dot_comments",
    "C67_sandwich_comments",
    "C67_swMM_comment",
    "C67_remarks",
    "C67_line_comments",
    "C67_low_lanes",
    "C67_swo12_comment",
    "C67_sw02_comment",
    "C67_gp33_comment",
    "C67_matrix_comments",
    "C67_case_study_formula",
    "C67_exp_derivation",
    "C67_axes",
    "C67_newton_rcp",
    "C67_newton_rsqrt",
    "C67_gpLL_comment_refuted",
    "C67_case_study_sign_refuted",
    "C67_newton_derivative_refuted"
   ],
   "note": "False as stated for the line*line kernel, one sign in a case study and a derivative in the Newton comment (refuted). Every other formula is proved lane by lane for all operands, both builds."
  },
  {
   "property": "C66",
   "status": "partial",
   "theorems": [
    "C66_demo",
    "C66_demo_translate_plane",
    "C66_demo_commutes",
    "C66_test",
    "C66_scripts_run",
    "C66_break_no_effect",
    "C66_line_by_line",
    "C66_comment_echoed",
    "C66_shell_session",
    "C66_shell_session_refuted",
    "C66_whitespace_refuted"
   ],
   "note": "False as stated for the session of docs/shell.md (refuted; the actual output is proved) and for lines of spaces, which are not echoed. Every script line with a counterpart in the library is proved."
  },
  {
   "property": "C68",
   "status": "partial",
   "theorems": [
    "C68_equations",
    "C68_vector_product",
    "C68_projections",
    "C68_printed_projection_refuted",
    "C68_snippets_refuted"
   ],
   "note": "False as stated for the projection formulas (p.P)P and (p|l)*p, two snippets with wrong coordinates and one plane equation (refuted). All other equations and the corrected formulas are proved."
  },
  {
   "property": "C69",
   "status": "partial",
   "theorems": [
    "C69_products",
    "C69_meet_join",
    "C69_sandwiches",
    "C69_unary",
    "C69_linear",
    "C69_sse41",
    "C69_refuted",
    "C69_sse3_refuted"
   ],
   "note": "False as stated for eleven operations (conversion to motor, branch products, exp, sqrt, translating a line, comparison of lines) and four more in the SSE3 build (refuted). Proved for the other 143 operations in both builds, any hardware estimates."
  },
  {
   "property": "C70",
   "status": "partial",
   "theorems": [
    "C70_plane_fixed_points",
    "C70_motor_fixed_points",
    "C70_rotor_fixed_points",
    "C70_translator_fixed_points",
    "C70_point_fixed_point",
    "C70_product_of_planes",
    "C70_rotor_from_planes",
    "C70_translator_from_planes",
    "C70_translator_data",
    "C70_factorizable",
    "C70_motor_is_screw",
    "C70_exp_axis",
    "C70_dual_line_screw",
    "C70_dual_line_half_refuted",
    "C70_common_normal_partial",
    "C70_common_normal_refuted",
    "C70_scaling_keeps_motion",
    "C70_powers_partial"
   ],
   "note": "False as stated: the exponential of (p + q e0123) l turns by -2p and slides by 2q, not by halves (refuted), and line * line is not about the common normal (refuted; true once the exchanged coefficients e12, e23 are put back). Powers hold on the domain where exp(log A) = A (C20). The rest proved."
  },
  {
   "property": "C72",
   "status": "proved",
   "theorems": [
    "C72_normalize",
    "C72_direction",
    "C72_rotor_product",
    "C72_rotor_chain",
    "C72_distance"
   ],
   "note": "Every rounding, every conforming estimate, both builds; no lower bound on individual coefficients."
  },
  {
   "property": "C71",
   "status": "partial",
   "theorems": [
    "C71_exact_refuted",
    "C71_point_w",
    "C71_divide_by_one",
    "C71_divide_by_one_only"
   ],
   "note": "False as stated (refuted by a conforming estimate). Proved: w is within 7*2^-24 of 1 on every conforming machine, and dividing by 1 is the identity on all operands iff one Newton step from the estimate of 1 gives exactly 1."
  },
  {
   "property": "C73",
   "status": "proved",
   "theorems": [
    "C73_rotor",
    "C73_euler",
    "C73_translator",
    "C73_exp",
    "C73_sqrt"
   ],
   "note": "Assumes of the library functions only that sin and cos are finite and within 2 * 2^-24 for arguments up to 2^20 (libm, FloatLibm.v; met by libm_exists), and of rsqrtps its documented error."
  },
  {
   "property": "C74",
   "status": "partial",
   "theorems": [
    "C74_rotor_composition",
    "C74_motor_application",
    "C74_rtm",
    "C74_glm",
    "C74_glm_same_order_refuted",
    "C74_glm_dual",
    "C74_glm_dual_refuted"
   ],
   "note": "False as stated for the GLM listings (refuted; what they do compute is proved). Klein's two listings agree with the sources bit for bit on all inputs; RTM's with the rotor product, given the sign masks the page does not print."
  },
  {
   "property": "C75",
   "status": "proved",
   "theorems": [
    "C75_rotate",
    "C75_translate",
    "C75_motor",
    "C75_quickstart"
   ],
   "note": "The position is that of the computed coefficients e032, e013, e021; the weight is bounded beside it. Assumes of sin and cos what C73 does."
  },
  {
   "property": "C76",
   "status": "proved",
   "theorems": [
    "C76_log",
    "C76_roundtrip",
    "C76_fraction"
   ],
   "note": "Assumes of the library functions libm_fine (Props27.v; met by libm_fine_exists). Scalar part in [0,1): the short way round, not yet so close to 1 that it rounds to 1, where log gives NaN (C46)."
  },
  {
   "property": "C77",
   "status": "proved",
   "theorems": [
    "C77_exp",
    "C77_ideal",
    "C77_screw",
    "C77_place",
    "C77_quarter"
   ],
   "note": "Assumes libm_fine of sin and cos and the error bound of rcpps and rsqrtps that the source states. Real parts shorter than 2^-40 (2^-32 for the screw) but not zero are left out; shorter than about 2^-65 the code really gives NaN (C46)."
  },
  {
   "property": "C78",
   "status": "proved",
   "theorems": [
    "C78_log",
    "C78_roundtrip",
    "C78_back",
    "C78_fraction",
    "C78_place"
   ],
   "note": "Assumes libm_log (libm_fine, and atan2 within one unit in the last place for positive first arguments; met by libm_log_exists) and the stated error of rcpps and rsqrtps. Scalar parts below 2^-19, where the kernel switches formula, and rotations below 2^-40 are left out; exp(log) needs r at most 2^39."
  },
  {
   "property": "C79",
   "status": "proved",
   "theorems": [
    "C79_product",
    "C79_multiply",
    "C79_chain",
    "C79_place",
    "C79_normalize",
    "C79_renormalize",
    "C79_sources",
    "C79_back"
   ],
   "note": "normalize assumes the stated error of rcpps and rsqrtps; C79_sources and C79_back also the libm bounds of C77 and C78."
  },
  {
   "property": "C80",
   "status": "proved",
   "theorems": [
    "C80_path",
    "C80_blend",
    "C80_ends",
    "C80_place"
   ],
   "note": "Assumes libm_log and the stated error of rcpps and rsqrtps, as C78. Steps whose rotation is below 2^-38 or within 2^-18 of a half turn are left out, as are factors f that make the rotation smaller than 2^-39 without making it zero."
  },
  {
   "property": "C81",
   "status": "proved",
   "theorems": [
    "C81_path",
    "C81_nlerp",
    "C81_short",
    "C81_place"
   ],
   "note": "Assumes the stated error of rcpps and rsqrtps; no library function is called. The documentation calls normalize as if it returned its argument; the text is read as normalizing the sum and returning it. Blends shorter than 2^-19 (nearly opposite motors) are left out, as the amplification is unbounded there."
  },
  {
   "property": "C82",
   "status": "proved",
   "theorems": [
    "C82_sqrt",
    "C82_square",
    "C82_place",
    "C82_rotor",
    "C82_translator"
   ],
   "note": "Assumes the stated error of rcpps and rsqrtps. Motions within about 2^-17 of a full turn (scalar part -1) are left out: there the amplification is unbounded. sqrt(branch) is the rotor code on a branch and is not restated."
  },
  {
   "property": "C83",
   "status": "proved",
   "theorems": [
    "C83_matrix",
    "C83_orthogonal",
    "C83_accurate",
    "C83_integers",
    "C83_apply",
    "C83_routes"
   ],
   "note": "The rotor conversions are not covered: they read an uninitialised column (C24). C83_apply and C83_routes are for points stored with weight 1; C83_accurate has any weight. Coordinates and coefficients up to 2^20."
  },
  {
   "property": "C84",
   "status": "proved",
   "theorems": [
    "C84_point_plane",
    "C84_point_line",
    "C84_line_plane",
    "C84_plane_point",
    "C84_line_point",
    "C84_plane_line",
    "C84_foot_plane",
    "C84_foot_line",
    "C84_line_plane_geometry",
    "C84_plane_line_geometry",
    "C84_through_point",
    "C84_hidden"
   ],
   "note": "A stored line whose moment has a part along its direction is read as the line without that part. The real lane of a line's register is 0, as every constructor leaves it."
  },
  {
   "property": "C85",
   "status": "proved",
   "theorems": [
    "C85_plane",
    "C85_line",
    "C85_direction",
    "C85_hidden",
    "C85_exact",
    "C85_on_plane",
    "C85_on_line"
   ],
   "note": "C85_exact says that R n, d - R n . c, R s and R k + c x R s are the images of the plane and the line under the motion of the points."
  },
  {
   "property": "C86",
   "status": "proved",
   "theorems": [
    "C86_two_points",
    "C86_segment",
    "C86_two_planes",
    "C86_meet_line",
    "C86_point_line",
    "C86_contains",
    "C86_plane_line",
    "C86_meet_point",
    "C86_three_points",
    "C86_triangle",
    "C86_three_planes",
    "C86_corner",
    "C86_readings"
   ],
   "note": "The constants 3.1, 7.6 and 10.6 stand for 3/2 unit_err 2, 3/2 unit_err 5 and 3/2 unit_err 7, unit_err d being d * 2^-24 * 1.00001; 2^-122 is added for underflow."
  },
  {
   "property": "C87",
   "status": "partial",
   "theorems": [
    "C87_partial",
    "C87_refuted",
    "C87_near"
   ],
   "note": "False as stated: the corners of a right-angled triangle with legs of length 2 at distance 17370 from the origin are joined to a null plane, refuted. Proved: the normal is right to a fraction k when 23 * 2^-24 r^2 is at most k times the length of the vector area, r bounding the distances from the origin; and, wherever the triangle is, when it is moved so that the first vertex is the origin before joining."
  },
  {
   "property": "C88",
   "status": "proved",
   "theorems": [
    "C88_point",
    "C88_plane",
    "C88_line",
    "C88_exact",
    "C88_mirror",
    "C88_twice",
    "C88_on_plane",
    "C88_on_line"
   ],
   "note": "2^-104 (2^-122 for planes) is added for underflow in the lane-wise part and in the last two theorems."
  },
  {
   "property": "C89",
   "status": "proved",
   "theorems": [
    "C89_product",
    "C89_exact",
    "C89_near",
    "C89_planes",
    "C89_planes_acute",
    "C89_points"
   ],
   "note": "Planes more than 90 degrees apart are covered by C89_planes, whose bound contains one over the cosine of half the angle and asks that it be at least 2^-18 and that the resulting bound T stay small."
  },
  {
   "property": "C90",
   "status": "proved",
   "theorems": [
    "C90_exact",
    "C90_rotor",
    "C90_rotor_on",
    "C90_near_unit",
    "C90_translator",
    "C90_translator_on"
   ],
   "note": ""
  },
  {
   "property": "C91",
   "status": "proved",
   "theorems": [
    "C91_product",
    "C91_exact",
    "C91_near",
    "C91_branches",
    "C91_branches_acute"
   ],
   "note": "The documented sentence (the reverse of sqrt(a * b) takes b to a) is refuted in C23; this is the true statement, with its rounding error."
  },
  {
   "property": "C92",
   "status": "proved",
   "theorems": [
    "C92_point",
    "C92_origin",
    "C92_back"
   ],
   "note": ""
  },
  {
   "property": "C93",
   "status": "proved",
   "theorems": [
    "C93_plane",
    "C93_line",
    "C93_point",
    "C93_direction",
    "C93_exact",
    "C93_reach",
    "C93_distance"
   ],
   "note": ""
  },
  {
   "property": "C94",
   "status": "proved",
   "theorems": [
    "C94_product",
    "C94_multiply",
    "C94_chain",
    "C94_apply",
    "C94_walk"
   ],
   "note": ""
  },
  {
   "property": "C95",
   "status": "proved",
   "theorems": [
    "C95_mixed",
    "C95_moves",
    "C95_point",
    "C95_translators",
    "C95_translator_chain",
    "C95_carried"
   ],
   "note": ""
  },
  {
   "property": "C96",
   "status": "proved",
   "theorems": [
    "C96_built",
    "C96_point",
    "C96_on"
   ],
   "note": ""
  }
 ]
}