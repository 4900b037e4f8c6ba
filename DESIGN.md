# Design: machine-checked model of Klein

Target: `/repo` (jeremyong/Klein, a header-only SSE library for 3-D projective
geometric algebra, with its GLSL port, its C bindings and its symbolic
calculator `sym/`).  The code was read as text and never built or run.

Contents: 1 model, 2 specification, 3 per property, 4 trusted base, 5 findings,
6 mutation testing.

## 1. Model

### 1.1 Scalars
Every SIMD kernel and class method is written once, polymorphically, over the
classes of `Scalar.v`: `Arith F` (add, subtract, multiply, flip the sign bit,
integer literals), which is all the polynomial kernels use, and `Flo F`, which
adds division, square root, the hardware estimates `rcpps`/`rsqrtps`, libm,
comparisons, the sign bit and the literals that occur.  The same text is
instantiated at

* `Z` (`Scalar.v`): executable;
* `R` (`Scalar.v`, `FloR.v`): exact arithmetic; algebraic and geometric
  properties.  `rcpps`, `rsqrtps` and the sign of a zero are *parameters*
  (oracles).  Theorems that use an estimate assume the ideal one
  (`rcp x = 1/x`, `rsqrt x = 1/sqrt x`); the effect of real estimates is
  treated in binary32.  Division by zero is totalised by Coq's `R`; every
  theorem that divides carries the non-zero premise, and the zero cases are
  treated in binary32 (C46);
* `expr` (`ExprSyntax.v`): free syntax trees, used to transfer generic
  rounding-error and exactness theorems to all polynomial kernels at once;
* `f32` (`Float32.v`): IEEE binary32 on Flocq's `binary_float 24 128`, round to
  nearest even, with infinities, signed zeros, subnormals and NaN.  Estimates
  and libm are fields of a record `machine`; theorems state what they assume of
  it (for `rcpps`/`rsqrtps` Intel's bound 1.5*2^-12), and `FloatIdeal.v` gives
  a machine that meets the assumptions.

### 1.2 Vectors
`__m128` is a record of four lanes, lane 0 lowest (`SSE.v`).  The intrinsics are
transcribed lane by lane, `KLN_SWIZZLE` with its argument order.  `xor` with a
constant sign mask is a lane-wise flip selected by booleans.  `KLEIN_SSE_4_1`
is a parameter (`Build`).  The C++11 `.inl` specialisations are transcribed
separately (`KernelSW11.v`, `KernelMat.v`) and proved equal to the templates.

### 1.3 Memory and undefined behaviour
Batch application runs over a store `nat -> __m128` with input and output base
addresses, one read or write per C++ expression, in program order
(`KernelSW.v`, `Batch.v`).  Loads and stores of `float` arrays run over float
cells with the alignment requirement of `_mm_store_ps` (`MemIO.v`).
Misaligned stores, out-of-range buffer writes and non-termination are distinct
outcomes (`UB`, `Undef`, no result at any fuel), never default values; an
uninitialised register is an argument on which the result must not depend.

### 1.4 sym
Machine integers (`uint8_t`, `uint32_t`, `int32_t`) are `Z`/`N` with explicit
wrap-around.  `std::map` is a list kept sorted by the code's own comparison
(`SymMap.v`).  The tokenizer and the line loop are fuelled functions on the
remaining characters; "terminates" means "some fuel gives a result".  `float`
coefficients of the symbolic tool are exact (the reals; integers in examples),
degrees of monomials are unbounded integers.  `std::strtof` consumes the
longest decimal prefix, its value is a parameter.  Characters are 7-bit
(the `<cctype>` functions are undefined on a negative `char`).

### 1.5 Files
| files | content |
|---|---|
| `Scalar SSE` | scalars, registers, intrinsics, the helpers of `x86_sse.hpp` |
| `KernelGP KernelEI KernelSW KernelSW11 KernelMat KernelExpLog` | `public/klein/detail/x86/*.hpp`, `.inl` |
| `ApiTypes ApiLin Api` | the classes and operators of `public/klein/*.hpp` |
| `Glsl CApi MemIO DocCode Asm` | `glsl/klein.glsl`, `c_src/klein_c.cpp`, loads and stores, code and assembly in the documentation |
| `SymMap SymPoly SymGA SymParse SymSession` | `sym/*.hpp`, `sym/*.cpp` |
| `Float32` | binary32 instance |
| `SpecPGA SpecGeom SpecMass Embed` | specification (section 2) |
| `Props01 .. Props48` | the property theorems with examples and `Print Assumptions` |
| `Replay ReplaySym` | the repository's unit tests, run on the model (in binary32; symbolic tool) |
| the others | lemmas |

### 1.6 Validation of the transcription
`Replay.v` runs the repository's own unit tests (`test_gp`, `test_ep`,
`test_ip`, `test_rp`, `test_metric`, `test_sse`, `test_sw`, `test_exp_log`,
`main.cpp`, the GLSL tests) on the model in binary32, for both builds, by
computation inside Coq.  All pass.  One check is relaxed: the exact `e01 == 0`
of the motor quotient depends on the last bits of the hardware estimate and is
compared approximately.  `ReplaySym.v` does the same for `sym/test.cpp`.

### 1.7 Simplifications
* One NaN, without sign and payload.
* No contraction into fused multiply-add, no reordering: the intrinsics round
  as written.
* The low lane of classes that do not use it is kept as the code computes it;
  theorems that need it to be zero say so (`wf_...`), and C45 proves the
  operations keep it so.
* `rcpps`/`rsqrtps` are functions of the lane value (same input, same output).
* Not modelled: `operator<<` of the library classes, CMake files, Python and
  JavaScript glue, `sym` plotting of `.klein` files beyond the line loop, the
  exact decimal text of a printed `float`.

## 2. Specification (independent of the model)
* `SpecPGA.v`: multivectors are functions from the 16 blades (four booleans) to
  the reals; the geometric product is defined from the metric and the parity of
  inversions, the exterior and inner products as its grade parts, the
  regressive product through the Poincare dual.  Associativity, the squares and
  anticommutation of the generators are proved of the specification itself.
  `Embed.v` says which multivector an object of each class denotes.
* `SpecGeom.v`: points, planes, lines, distances and rotations of R^3 in
  coordinates, without reference to the algebra.
* `SpecMass.v`: the sum of absolute values of the monomials of a product, the
  natural scale of a forward error bound.
* `SymGAFacts.v`, `SymParseFacts.v`, `SymDen.v` state the specifications of the
  symbolic tool: Clifford signs as a parity of inversions for any signature,
  evaluation of polynomials, expression trees with their renderings.

## 3. Per property

For each property: what is modelled and how it is proved, then the theorems and
what they leave open.  "partial" also covers properties the code violates; then
the violation is itself a theorem (`..._refuted`) and the true part is proved.

### C01 Geometric product is the Clifford product (partial)
Modelled: all `gp*` kernels and `operator*` overloads. Proof: sixteen polynomial identities per overload against `SpecPGA.gp`, by `ring`.  
Theorems (`Props01.v`): `C01_geometric_product_partial`, `C01_point_mul_point`, `C01_line_mul_line_refuted`, `C01_line_mul_line_exact`.  
False as stated: line*line exchanges e12 and e23 (refuted, with the exact condition under which it is right). All other overloads proved for both builds and all real coefficients.

### C02 Meet is the exterior product (proved)
Modelled: `ext*` kernels and `operator^`. Proof: polynomial identities against `SpecPGA.ext`.  
Theorems (`Props01.v`): `C02_meet`.  
All overloads, both builds, all reals.

### C03 `operator|` is the symmetric inner product (proved)
Modelled: `dot*` kernels and `operator|`. Proof: polynomial identities against `SpecPGA.dot`.  
Theorems (`Props01.v`): `C03_inner_product`.  
All overloads, both builds, all reals.

### C04 Join is the dual of the meet of duals and dualisation is an involution (proved)
Modelled: `operator!`, `operator&`. Proof: polynomial identities; the dual is characterised in the specification by x ^ J x.  
Theorems (`Props01.v`): `C04_dual`, `C04_dual_spec`, `C04_join`.  
All overloads; J is characterised in the spec.

### C05 Applying a rotor, translator or motor is the sandwich product (proved)
Modelled: all call operators. Proof: polynomial identities against m x ~m; none assumes a normalized operand.  
Theorems (`Props01.v`): `C05_sandwich`, `C05_translator_on_plane`.  
Non-normalized operands included; translator on plane assumes the ideal reciprocal of 1.

### C06 Plane reflection is p x p and is an involution (proved)
Modelled: `plane::operator()`. Proof: algebraic identity, then mirror images in coordinates (`Motion.v`).  
Theorems (`Props01.v`, `Props03.v`): `C06_reflection_sandwich`, `C06_reflection`.  
Algebraic form for all operands; mirror image, involution and fixed points for unit planes (points, planes, lines).

### C07 Composition law: (a * b)(x) == a(b(x)) for chains of any length (proved)
Modelled: products and call operators of rotors, translators, motors. Proof: from C01/C05 and associativity of the specification; chains by induction.  
Theorems (`Props03.v`): `C07_composition`.  
Chains of any length, any bracketing, any mixture of rotors, translators and motors; points, planes, lines, directions.

### C08 Normalized motors act as orientation-preserving rigid motions (proved)
Modelled: motor on points. Proof: identities using the two normalization equations; distance and orientation in coordinates.  
Theorems (`Props03.v`): `C08_rigid_motion`.  
For all motors with m*~m=1 over the reals.

### C09 translator(delta, x, y, z) displaces by delta along the axis (proved)
Modelled: translator constructor and application, real arithmetic. Proof: field identities.  
Theorems (`Props03.v`): `C09_translator`.  
All non-zero axes, real arithmetic with the ideal reciprocal.

### C10 rotor(ang, x, y, z) rotates by the documented angle about the axis (proved)
Modelled: rotor constructor and application. Proof: half-angle identities against Rodrigues' formula.  
Theorems (`Props03.v`): `C10_rotor`.  
Handedness is fixed: clockwise, i.e. Rodrigues with -ang (see C47).

### C11 The Euler-angle constructor is the product of the three axis rotors (proved)
Modelled: Euler constructor. Proof: trigonometric identities.  
Theorems (`Props03.v`): `C11_euler_constructor`.  
Real arithmetic.

### C12 Euler angles round-trip (partial)
Modelled: `as_euler_angles` with its two branches. Proof: properties of asin and atan2; refutations by explicit rotors.  
Theorems (`Props03.v`): `C12_euler_round_trip_partial`, `C12_wrong_gimbal_test_refuted`, `C12_true_gimbal_lock_refuted`.  
False as stated: the gimbal test looks at the wrong product (witness 120 degrees about (1,1,1)), and roll/yaw are lost at the true singularity. Proved for every other unit rotor.

### C13 Screw-motion constructor rotates about and translates along the line (proved)
Modelled: screw constructor (through exp). Proof: closed form of exp.  
Theorems (`Props03.v`): `C13_screw`.  
All angles, displacements and unit lines; real arithmetic.

### C14 Inverses and quotients (partial)
Modelled: `inverse`, `operator/` of every class. Proof: field identities with ideal estimates; refutations by witnesses.  
Theorems (`Props02.v`): `C14_inverse_partial`, `C14_quotient_partial`, `C14_rotor_inverse_exact`, `C14_rotor_inverse_refuted`, `C14_rotor_quotient_refuted`, `C14_point_inverse_exact`, `C14_point_inverse_refuted`, `C14_line_quotient_refuted`.  
False as stated for rotors (inverse ignores the scalar part), points (product is -1) and the line quotient; exact values proved. All other types proved.

### C15 normalize() yields the documented unit norm and is idempotent (partial)
Modelled: `normalize` of every class. Proof: closed forms (`Closed.v`), field identities.  
Theorems (`Props02.v`): `C15_normalize_unit`, `C15_normalize_idempotent_partial`, `C15_plane_normalize_idempotent_refuted`.  
False as stated: plane::normalize in the SSE3 build is not idempotent (refuted). Everything else proved under ideal estimates.

### C16 normalize() does not change the geometric object (partial)
Modelled: the same; object compared up to a scale. Proof: closed forms.  
Theorems (`Props02.v`): `C16_normalize_same_object_partial`, `C16_plane_normalize_exact`, `C16_plane_normalize_moves_refuted`.  
False as stated for planes (the e0 component is not scaled with the normal; refuted). Proved for the other types.

### C17 Reversal (proved)
Modelled: `operator~`. Proof: polynomial identities.  
Theorems (`Props02.v`): `C17_reverse`, `C17_reverse_spec`, `C17_reverse_antiautomorphism`, `C17_reverse_undoes`.  
All real coefficients.

### C18 sqrt() squares back (proved)
Modelled: `sqrt` of rotor, translator, motor. Proof: closed forms and identities.  
Theorems (`Props02.v`): `C18_sqrt`, `C18_sqrt_half_motion`.  
Real arithmetic, ideal estimates.

### C19 exp() is the exponential series (partial)
Modelled: `exp` kernel and wrappers. Proof: the partial sums of the power series in `SpecPGA` are shown to converge to the code's result, coefficient by coefficient (`ExpSeries.v`).  
Theorems (`Props05.v`, `Props11.v`): `C19_exp_series_partial`, `C46_exp_branch_refuted`.  
Proved for every line (any bivector), every ideal line and every non-zero branch: the code's result is the limit of the power series. False as stated for the zero branch, whose exp is NaN (C46_exp_branch_refuted).

### C20 exp(log(m)) recovers m (partial)
Modelled: `log` then `exp`. Proof: closed forms with atan2 specified by its polar equation (`LogExp.v`, `LogExp2.v`).  
Theorems (`Props05.v`): `C20_exp_log_partial`, `C20_exp_log_rotor`, `C20_exp_log_translator`, `C20_half_turn_refuted`, `C20_negative_translation_refuted`.  
False as stated: a half-turn without slide comes back as the identity whatever atan2(0,0) returns, and a translation written with scalar -1 comes back reversed (both refuted). Every other unit motor proved; rotors with |scalar| < 1.

### C21 log(exp(B)) recovers B on the principal branch (partial)
Modelled: `exp` then `log`. Proof: as C20.  
Theorems (`Props05.v`): `C21_log_exp_partial`, `C21_log_exp_branch`, `C21_log_exp_ideal`, `C21_log_exp_no_rotation`, `C21_quarter_refuted`.  
False as stated next to the quarter turn (refuted). Proved for lines with |cos s| >= 1e-6 or a.b < 0, all branches with 0 < s < pi, all ideal lines.

### C22 Interpolation by logarithm: exp(l/n) applied n times is exp(l) (partial)
Modelled: `exp` of multiples. Proof: closed forms; induction for n steps.  
Theorems (`Props05.v`, `Props11.v`): `C22_group_law`, `C22_steps`, `C22_nth_root`, `C46_exp_branch_refuted`.  
Lines and ideal lines: complete. Branches: when none of the three exponents is the zero branch. False as stated for the zero branch, whose exp is NaN (C46_exp_branch_refuted).

### C23 Documented meaning of quotients: the square root takes b to a (partial)
Modelled: `sqrt` of products. Proof: identities (`Quot.v`).  
Theorems (`Props06.v`): `C23_planes`, `C23_points`, `C23_branches_partial`, `C23_branches_image_reversed`, `C23_lines_partial`, `C23_neg_line_same_points`, `C23_branches_refuted`, `C23_lines_refuted`.  
False as stated for branches (the documented reverse of the square root does not reach the axis of a unless a and b are perpendicular) and for lines (the product operator exchanges two components, C01). Planes and points proved; branches: sqrt(a*b) takes b to -a, so reversing the image (the form used in the repository's test) gives a; lines: the same whenever the product operator is right.

### C24 Matrix conversion agrees with direct application (partial)
Modelled: `as_mat3x4/4x4`, with the uninitialised column as an argument. Proof: ring; the result depends on the uninitialised value.  
Theorems (`Props06.v`): `C24_motor_mat4x4`, `C24_motor_mat3x4`, `C24_rotor_matrix_refuted`, `C24_rotor_matrix_zeroed`.  
False as stated for rotors: as_mat3x4/as_mat4x4 read an uninitialised column (refuted as undefined behaviour). Motors proved.

### C25 Motor applied to the origin (proved)
Modelled: `motor(origin)`. Proof: ring.  
Theorems (`Props03.v`): `C25_origin`.  
All unit motors.

### C26 Batch application is elementwise application (proved)
Modelled: batch loops over a register store. Proof: induction on the count, for any arithmetic (`Batch.v`).  
Theorems (`Props06.v`): `C26_batch`, `C26_input_kept`.  
Any arithmetic, any count, both builds; memory modelled as an array of registers.

### C27 In-place batch application (partial)
Modelled: the same with equal input and output; the documentation's `animate_keyframe` (`DocCode.v`). Proof: induction, refutation for every count.  
Theorems (`Props06.v`, `Props13.v`): `C27_inplace_erases_refuted`, `C27_inplace_lines_refuted`, `C27_documented_animation_refuted`.  
False as stated: under sequential execution the identity applied in place sets planes, points and directions to zero and gives wrong lines (refuted for every count); the documented skeletal animation does exactly this and collapses every joint.

### C28 SSE3 and SSE4.1 builds agree (partial)
Modelled: both builds. Proof: closed forms compared.  
Theorems (`Props06.v`): `C28_products`, `C28_actions_partial`, `C28_norms_partial`, `C28_quotients`, `C28_plane_normalize_refuted`, `C28_ill_formed`.  
False as stated for plane::normalize (refuted). All other Build-dependent operations proved equal in exact arithmetic for well-formed operands.

### C29 C++11 and C++17 builds agree (proved)
Modelled: C++11 `.inl` bodies. Proof: both sides unfolded, any arithmetic.  
Theorems (`Props06.v`): `C29_sandwich`, `C29_batch`, `C29_matrix`.  
Any arithmetic.

### C30 The GLSL port agrees with the C++ library (proved)
Modelled: every function of `klein.glsl`. Proof: ring, against the C++ model and against the specification.  
Theorems (`Props07.v`): `C30_glsl`, `C30_glsl_spec`.  
Every kln_mul and kln_apply overload; exact arithmetic.

### C31 The C bindings agree with their documentation and with the C++ library (partial)
Modelled: every function of `klein_c.cpp`. Proof: unfolding to the class operators, then C01/C05.  
Theorems (`Props07.v`): `C31_c_api_partial`, `C31_line_init`, `C31_line_init_refuted`, `C31_point_init`, `C31_point_init_refuted`, `C31_compose_translator_rotor_refuted`, `C31_translate_plane`, `C31_exp_log`.  
False as stated: the header comments of kln_line_init, kln_point_init and kln_compose_translator_rotor describe something else (refuted, exact values proved). All other functions proved to be the documented products and sandwiches.

### C32 Converting a rotor or translator to a motor preserves its action (partial)
Modelled: conversions and assignments. Proof: action on points compared.  
Theorems (`Props03.v`): `C32_conversion_partial`, `C32_assign_translator_refuted`.  
False as stated: motor::operator=(translator) zeroes the scalar part, so every point is sent to zero (refuted). Constructors and assignment from a rotor proved.

### C33 Join geometry (proved)
Modelled: `&` of points. Proof: incidence in coordinates.  
Theorems (`Props04.v`): `C33_join_points`, `C33_join_three_points`, `C33_join_norms`.  
All points of non-zero weight; norms for unit weight; real arithmetic.

### C34 Meet geometry (proved)
Modelled: `^` of planes and lines. Proof: incidence in coordinates.  
Theorems (`Props04.v`): `C34_meet`.  
All planes and proper lines; real arithmetic.

### C35 Projection (proved)
Modelled: `project`. Proof: foot points in coordinates.  
Theorems (`Props04.v`): `C35_project_point`, `C35_project_line_plane`, `C35_project_onto`.  
All overloads; real arithmetic.

### C36 Motions commute with meet and join (proved)
Modelled: motors, meet, join. Proof: identities up to the squared norm.  
Theorems (`Props03.v`): `C36_motions_commute`, `C36_motions_commute_dot`.  
Every motor with m*~m scalar; meet, join and inner product.

### C37 Metric readings (partial)
Modelled: norms and inner products. Proof: distances and angles in coordinates; for a point on the line, exactness on integers (C42) and the zero plane of C46.  
Theorems (`Props04.v`, `Props21.v`): `C37_metric`, `C37_parallel_lines`, `C37_point_on_line_refuted`.  
Proved over the reals for all normalized operands; the norm of point & line for points off the line. False as stated for a point on the line: the norm of the zero plane is not a number in binary32 (refuted for all small integer operands).

### C38 Equality and approximate equality (partial)
Modelled: comparisons in binary32, all IEEE classes. Proof: case analysis on Flocq floats.  
Theorems (`Props11.v`): `C38_equality`, `C38_symmetric`, `C38_approx_partial`, `C38_approx_refuted`, `C38_bitwise_refuted`.  
== proved for all floats; bitwise equality refuted. approx_eq never accepts a difference of eps or more and accepts every difference bounded by a float below eps; the exact iff is refuted (a difference below eps can round up to eps).

### C39 constrain() picks the short-path representative (proved)
Modelled: `constrain`. Proof: over R with any sign for zero; idempotence over any arithmetic.  
Theorems (`Props07.v`): `C39_constrain`, `C39_idempotent`.  
Real arithmetic with either sign for a zero scalar; idempotence for any arithmetic whose negation flips the sign bit.

### C40 Accuracy of the refined reciprocal and reciprocal square root (proved)
Modelled: Newton steps, normalizations, divisions in binary32. Proof: relative error of each rounding (`FloatNR.v`, `FloatNorm.v`).  
Theorems (`Props11.v`): `C40_reciprocal`, `C40_reciprocal_sqrt`, `C40_normalize`, `C40_plane_normalize`, `C40_divide`.  
All estimates within 1.5*2^-12, every binary32 rounding. The factor is within 2^-21 for arguments in 2^-125..2^125; normalizations within 10*2^-24 and divisions within 7*2^-24 of the exact quotient, per coefficient, for coefficients zero or within 2^-51..2^60. An ideal machine shows the hypotheses can be met.

### C41 Binary32 forward error of products and sandwiches (partial)
Modelled: the polynomial kernels in binary32, and the operations that divide by an estimate. Proof: a generic theorem on syntax trees (rounding errors against the mass of monomials), transferred to each overload by running it on variables (`FloatErr.v`, `FloatMass.v`); for the divisions, inverses and line and motor normalization, rules that carry value, mass, range and number of roundings through each operation (`FloatApx.v`, `Props21.v`). `FloatAbs.v` and `Props22.v` drop the lower bound on the coefficients: each rounding errs by a relative 2^-24 plus 2^-150, and the second parts are summed over the syntax tree.  
Theorems (`Props12.v`, `Props21.v`, `Props22.v`): `C41_geometric_product_partial`, `C41_line_mul_line`, `C41_point_mul_point`, `C41_translator_on_plane`, `C41_inverse`, `C41_line_normalize`, `C41_line_inverse`, `C41_motor_normalize`, `C41_motor_inverse`, `C41_targets`, `C41_meet`, `C41_inner_product`, `C41_join`, `C41_sandwich`, `C41_any_geometric_product_partial`, `C41_any_meet`, `C41_any_inner_product`, `C41_any_join`, `C41_any_sandwich`, `C41_any_sandwich_20`, `C41_relative_error_refuted`.  
68 overloads, both builds, binary32 with every rounding, coefficients zero or within 2^-51..2^60 (2^-26..2^40 for sandwiches, 2^-31..2^31 and narrower where the code divides by an estimate). line*line is accurate up to the exchange of e12 and e23 that makes it wrong in exact arithmetic. Also inverses and the normalization of lines and motors. The polynomial overloads also for coefficients of any size up to 2^60 (2^39 for sandwiches), subnormal ones included, with an added absolute term of 2^-144 (2^-103; 2^-67 for reflected lines and points). A bound relative to the result is refuted.

### C42 Exactness on small integers (partial)
Modelled: the same. Proof: generic exactness theorem on integers below 2^24 (Props12). Props35.v: the two operations that divide, by following the integers through each instruction (is_int); low_both is conforming hardware that gives 1 - 2^-12 for 1.  
Theorems (`Props12.v`, `Props21.v`, `Props35.v`): `C42_geometric_product_partial`, `C42_line_mul_line`, `C42_meet`, `C42_inner_product`, `C42_join`, `C42_sandwich`, `C42_point_mul_point`, `C42_translator_on_plane`, `C42_divide_refuted`, `C42_weights_refuted`.  
Integers up to 1448 (77 for sandwiches), 66 overloads, both builds. False as stated for line*line, which is exact only up to the exchange of e12 and e23, and for point*point and translator on plane, which divide by an estimate: refuted on conforming hardware, and for points of weight 3 on any; they are exact on hardware whose Newton step gives 1 for 1 and -1 for -1 (proved, points of weight 1 up to 2^23, planes up to 1448).

### C43 Directions are translation invariant (proved)
Modelled: `direction`. Proof: coordinates.  
Theorems (`Props03.v`): `C43_direction`.  
Real arithmetic.

### C44 Linear structure and accessors (proved)
Modelled: every linear operator, constructor and accessor. Proof: unfolding.  
Theorems (`Props07.v`): `C44_linear`, `C44_negation`, `C44_plane_minus_moves_refuted`, `C44_accessors`, `C44_constructors`.  
Every overload, accessor and constructor. The documented 'changes orientation only' of unary minus on planes is refuted.

### C45 Well-formedness of lines and translators is preserved (proved)
Modelled: every operation that returns a line, branch, ideal line, translator or direction. Proof: a closure predicate, induction over sequences (`Wf.v`).  
Theorems (`Props07.v`): `C45_well_formed`, `C45_log_needs_unit`.  
Any finite sequence of the 117 operations returning such objects; log requires a unit motor (necessary, shown).

### C46 Degenerate inputs (partial)
Modelled: exp, log, norms in binary32 for degenerate inputs. Proof: IEEE case analysis with the documented special values of the estimates (`FloatDegenerate.v`).  
Theorems (`Props11.v`): `C46_motors_partial`, `C46_log_rotor_refuted`, `C46_exp_branch_refuted`, `C46_exp_line_refuted`, `C46_log_motor_refuted`, `C46_tiny_norms_refuted`.  
False as stated in binary32: log of every rotor with scalar part 1 and exp of every branch with coefficients up to 2^-65 is NaN (refuted for all of them); lines, motors and norms fail likewise for nonzero coefficients up to 2^-65. The zero bivector of a motor or line is handled (proved).

### C47 One handedness for rotations (partial)
Modelled: both rotation constructors. Proof: actions compared.  
Theorems (`Props03.v`): `C47_opposite_handedness`, `C47_handedness_refuted`.  
False as stated: the two constructors turn in opposite senses (refuted); the exact relation is proved.

### C48 Symbolic geometric product is a Clifford product (partial)
Modelled: `algebra::mul` with its integer widths. Proof: parity of inversions is bilinear over xor; the loop is shown to compute it (`SymGAFacts.v`).  
Theorems (`Props08.v`): `C48_associative_partial`, `C48_unit_partial`, `C48_squares_partial`, `C48_anticommute_partial`, `C48_ascending_partial`, `C48_large_dimension_refuted`, `C48_dimension_31_refuted`.  
False as stated: the constructor accepts dimensions up to 31 but from dimension 9 on a truncated mask makes generators square and commute wrongly (refuted). Proved for every signature of dimension at most 8, with every blade the ascending product of its generators.

### C49 Symbolic exterior, inner, dual, regressive and reverse (proved)
Modelled: `ext`, `dual`, `reg`, `dot`, `rev` of the algebra. Proof: as C48; at (3,0,1) by enumeration of the blades against `SpecPGA`.  
Theorems (`Props08.v`): `C49_ext_associative`, `C49_ext_generators`, `C49_ext_unit`, `C49_ext_is_product`, `C49_ext_zero_iff`, `C49_dual`, `C49_rev_sign`, `C49_exterior`, `C49_regressive`, `C49_reverse`, `C49_inner_no_scalars`, `C49_inner`, `C49_inner_with_scalars`.  
Exterior product laws in every signature up to dimension 30, the rest in P(R*_{3,0,1}); scalar operands of | give zero, as documented (C49_inner_with_scalars shows the two conventions differ).

### C50 Symbolic polynomials form a commutative ring with unique normal form (partial)
Modelled: `poly` on sorted lists. Proof: evaluation homomorphism, normal form invariant, uniqueness.  
Theorems (`Props08.v`): `C50_evaluation`, `C50_normal`, `C50_push`, `C50_unique`, `C50_ring`, `C50_push_zero_refuted`.  
Proved for +, -, * and push of non-zero coefficients in exact arithmetic. push of a zero coefficient stores it (refuted).

### C51 Monomial order is a strict total order (proved)
Modelled: `mon` and its comparison. Proof: strict total order by induction.  
Theorems (`Props08.v`): `C51_strict_total_order`, `C51_product`, `C51_push`, `C51_blade_order`.  
All monomials; degrees as unbounded integers.

### C52 Symbolic multivector arithmetic (partial)
Modelled: `mv`. Proof: as C50.  
Theorems (`Props08.v`): `C52_product`, `C52_sum`, `C52_normal`, `C52_unique`, `C52_laws`, `C52_push_zero_refuted`.  
Proved for all sums and products in exact arithmetic. push of an empty polynomial under a new blade stores it (refuted).

### C53 The tokenizer terminates (partial)
Modelled: `tokenize`. Proof: a measure on the remaining input; refutation by an invariant "cursor does not move".  
Theorems (`Props09.v`): `C53_bound`, `C53_terminates_partial`, `C53_trailing_space_partial`, `C53_refuted`, `C53_single_letter_hangs`, `C53_foreign_character_hangs`.  
False as stated: a one-letter input, or an unknown character, makes the tokenizer loop for ever (refuted, with families of witnesses). Proved to return for inputs of known characters that do not end in a letter.

### C54 The tokenizer stays inside its number buffer (partial)
Modelled: `tokenize_number` with its buffer. Proof: exact characterisation of the overflowing inputs.  
Theorems (`Props09.v`): `C54_exact`, `C54_defined_partial`, `C54_overflow_refuted`, `C54_no_exception`.  
False as stated: a run of 32 or more digits/dots writes past the buffer and the exception is unreachable (refuted). The exact condition is proved.

### C55 Basis element tokens (partial)
Modelled: `tokenize_element`. Proof: inversion counting.  
Theorems (`Props09.v`): `C55_element_partial`, `C55_product_partial`, `C55_duplicate_partial`, `C55_high_digits_refuted`, `C55_out_of_range_refuted`.  
False as stated for digits 8 and 9 (lost in a byte) and for indices outside the algebra (accepted); both refuted. Proved for all digit strings over 0-7.

### C56 Parser precedence and meaning (proved)
Modelled: the recursive-descent parser. Proof: soundness and completeness against expression trees with all redundant parentheses; denotation in `SpecPGA`.  
Theorems (`Props09.v`): `C56_parse`, `C56_sound`, `C56_unambiguous`, `C56_precedence`, `C56_unary`, `C56_meaning`, `C56_operators`, `C56_text`.  
All trees and all renderings with any redundant parentheses; meaning connected to the geometric-algebra specification.

### C57 Parser safety (proved)
Modelled: the token cursor. Proof: every read happens before the end token.  
Theorems (`Props09.v`): `C57_safe`, `C57_after_tokenizer`, `C57_bounds`.  
All token lists ending in end-of-input.

### C58 Parser consumes its whole input (partial)
Modelled: the same. Proof: exact condition for full consumption.  
Theorems (`Props09.v`): `C58_exact`, `C58_no_parentheses_partial`, `C58_dropped`, `C58_refuted`.  
False as stated: text after an unmatched ) or a juxtaposed ( is dropped (refuted). The exact condition is proved.

### C59 The symbolic algebra validates the SIMD kernels (partial)
Modelled: `scripts/validation.klein` run through the parser model. Proof: composition of C56 with C01-C05.  
Theorems (`Props10.v`): `C59_products`, `C59_exterior`, `C59_regressive`, `C59_inner`, `C59_sandwich`, `C59_projection`, `C59_translate_plane`, `C59_script_runs`, `C59_line_line_refuted`.  
False as stated for line * line (refuted: the kernel exchanges two lanes). Every other line of the script with a counterpart in the library is proved, for all coefficients and both builds.

### C60 Printed monomials and multivectors (partial)
Modelled: printing. Proof: injectivity of blade names; the printed text is shown to be a rendering (C56) of a sum whose value is the multivector, by uniqueness of normal forms (C52); refutations by example.  
Theorems (`Props09.v`, `Props18.v`): `C60_blade_name`, `C60_blade_name_injective`, `C60_names_distinct`, `C60_round_trip_partial`, `C60_injective_partial`, `C60_integers_shown`, `C60_integers_round_trip_partial`, `C60_unit_coefficient_refuted`, `C60_unreadable_refuted`.  
False as stated: constant coefficients 1 and -1 are printed without their digit (refuted). Reading back what is printed gives the same multivector whenever each coefficient is a faithfully shown number (with a blade if it is 1 or -1) or plus or minus one variable; other coefficients are refused or misread (refuted).

### C61 Loads and stores (partial)
Modelled: loads, stores, array layout. Proof: read-over-write.  
Theorems (`Props07.v`): `C61_store`, `C61_round_trip`, `C61_load`, `C61_accessor`, `C61_plane_layout`, `C61_store_unaligned_refuted`.  
False as stated: store is undefined unless the buffer is 16-byte aligned (refuted). Everything else proved for aligned buffers; loads at any alignment.

### C62 Constants (proved)
Modelled: the constants of `util.hpp` as decimal literals. Proof: bounds on pi, e, sqrt 2 and rounding.  
Theorems (`Props11.v`): `C62_constants`.  
Rounding decided by bounds on pi, e and sqrt 2; the literals give the same float for any long double of 50 bits or more.

### C63 Lines read by the tool (partial)
Modelled: the line loop of `sym/repl.cpp`. Proof: exact case analysis of a line.  
Theorems (`Props09.v`): `C63_exact`, `C63_comment`, `C63_expression_partial`, `C63_decimal_refuted`, `C63_decimal_dropped`, `C63_hang_refuted`.  
False as stated: lines with a decimal point are dropped and some lines hang (refuted). Proved for the other lines.

### C64 Documented motor interpolation (slerp) (partial)
Modelled: `blend_motors` of the documentation (`DocCode.v`) over `motor_log`, `line_exp`. Proof: from C20, C22 and the unit group of motors; distances by C13.  
Theorems (`Props13.v`): `C64_blend`, `C64_constant_speed`, `C64_blend_end_partial`, `C64_short_way`, `C64_blend_end_refuted`.  
False as stated at t=1 for half-turns without slide (refuted, from C20). Normalized, starting point, constant speed proved for all; reaching b proved whenever b ~a is not such a half-turn nor a translation with scalar part -1; shorter way when the scalar part is positive.

### C65 Documented linear interpolation (nlerp) (partial)
Modelled: `lerp`, `nlerp` of the documentation. Proof: the norm of a convex combination of unit motors is computed in `SpecPGA`; normalization by C15.  
Theorems (`Props13.v`): `C65_nlerp_partial`, `C65_lerp_norm`, `C65_doc_condition_refuted`, `C65_opposite_refuted`.  
False as stated: the documented condition is neither necessary nor sufficient (the right-hand side must be 2, proved), and the midpoint of a motor and its negative cannot be normalized (refuted). Everything else proved.

### C66 Scripts and sessions of the symbolic tool (partial)
Modelled: `repl::run` with its output (`SymSession.v`). Proof: the scripts' lines are evaluated by `vm_compute` and compared with the SIMD operations by `ring`; sessions by induction.  
Theorems (`Props15.v`, `Props16.v`): `C66_demo`, `C66_demo_translate_plane`, `C66_demo_commutes`, `C66_test`, `C66_scripts_run`, `C66_break_no_effect`, `C66_line_by_line`, `C66_comment_echoed`, `C66_shell_session`, `C66_shell_session_refuted`, `C66_whitespace_refuted`.  
False as stated for the session of docs/shell.md (refuted; the actual output is proved) and for lines of spaces, which are not echoed. Every script line with a counterpart in the library is proved.

### C67 Formulas in the code comments (partial)
Modelled: each comment block's expansion, read by a script and written as lane expressions beside the kernel. Proof: `ring` per lane; Newton steps by derivatives over R.  
Theorems (`Props14.v`): `C67_gp_comments`, `C67_ext_dot_comments`, `C67_sandwich_comments`, `C67_swMM_comment`, `C67_remarks`, `C67_line_comments`, `C67_low_lanes`, `C67_swo12_comment`, `C67_sw02_comment`, `C67_gp33_comment`, `C67_matrix_comments`, `C67_case_study_formula`, `C67_exp_derivation`, `C67_axes`, `C67_newton_rcp`, `C67_newton_rsqrt`, `C67_gpLL_comment_refuted`, `C67_case_study_sign_refuted`, `C67_newton_derivative_refuted`.  
False as stated for the line*line kernel, one sign in a case study and a derivative in the Newton comment (refuted). Every other formula is proved lane by lane for all operands, both builds.

### C68 The geometry primer (partial)
Modelled: nothing new; the equations are read by the symbolic tool's model, the formulas stated in `SpecPGA` and for the API. Proof: computation, `ring`, `nsatz`.  
Theorems (`Props16.v`): `C68_equations`, `C68_vector_product`, `C68_projections`, `C68_printed_projection_refuted`, `C68_snippets_refuted`.  
False as stated for the projection formulas (p.P)P and (p|l)*p, two snippets with wrong coordinates and one plane equation (refuted). All other equations and the corrected formulas are proved.

### C69 Only documented coefficients are read (partial)
Modelled: nothing new; the list of operations is read off `Api.v` and `ApiLin.v`, `same_X` is agreement of the accessors. Proof: `ring` per coefficient with the hidden lanes left free.  
Theorems (`Props17.v`): `C69_products`, `C69_meet_join`, `C69_sandwiches`, `C69_unary`, `C69_linear`, `C69_sse41`, `C69_refuted`, `C69_sse3_refuted`.  
False as stated for eleven operations (conversion to motor, branch products, exp, sqrt, translating a line, comparison of lines) and four more in the SSE3 build (refuted). Proved for the other 143 operations in both builds, any hardware estimates.

### C70 Entities are the motions they stand for (partial)
Modelled: nothing new; fixed points, lines and screws are stated with `pos`, `plane_has`, `on_line` of `SpecGeom.v`/`Geom.v`. Proof: a motion fixes x iff its displacement there vanishes, a linear condition on the Pluecker coordinates; Chasles by explicit axis and pitch.  
Theorems (`Props19.v`): `C70_plane_fixed_points`, `C70_motor_fixed_points`, `C70_rotor_fixed_points`, `C70_translator_fixed_points`, `C70_point_fixed_point`, `C70_product_of_planes`, `C70_rotor_from_planes`, `C70_translator_from_planes`, `C70_translator_data`, `C70_factorizable`, `C70_motor_is_screw`, `C70_exp_axis`, `C70_dual_line_screw`, `C70_dual_line_half_refuted`, `C70_common_normal_partial`, `C70_common_normal_refuted`, `C70_scaling_keeps_motion`, `C70_powers_partial`.  
False as stated: the exponential of (p + q e0123) l turns by -2p and slides by 2q, not by halves (refuted), and line * line is not about the common normal (refuted; true once the exchanged coefficients e12, e23 are put back). Powers hold on the domain where exp(log A) = A (C20). The rest proved.

### C71 Normalized means exactly normalized (partial)
Modelled: nothing new. Proof: `vm_compute` on a conforming machine for the refutation; Flocq's `Bmult_correct` for multiplication by 1; C40's bound for w.  
Theorems (`Props20.v`): `C71_exact_refuted`, `C71_point_w`, `C71_divide_by_one`, `C71_divide_by_one_only`.  
False as stated (refuted by a conforming estimate). Proved: w is within 7*2^-24 of 1 on every conforming machine, and dividing by 1 is the identity on all operands iff one Newton step from the estimate of 1 gives exactly 1.

### C72 Rotors stay rotors in binary32 (proved)
Modelled: nothing new; the position of a point is read off its coefficients. Proof: the quaternion norm is multiplicative, so the relative error of a chain is a product of factors 1 + 7 * 2^-24 (`Props23.v`, induction over the list); the exact sandwich multiplies distances by the squared norm (by `ring`), and the mass of each coordinate is at most the squared norm times the sum of the coordinates plus twice the product of the norms of the two parts.  
Theorems (`Props23.v`): `C72_normalize`, `C72_direction`, `C72_rotor_product`, `C72_rotor_chain`, `C72_distance`.  
Every rounding, every conforming estimate, both builds; no lower bound on individual coefficients.

### C73 Constructors, exp and sqrt of rotors in binary32 (proved)
Modelled: nothing new; `libm` (`FloatLibm.v`) states what is assumed of `std::sin` and `std::cos`. Proof: relative errors are carried through the sum of squares, `sqrt` and the division (`rel_sqrt`, `rel_inv`); sin and cos are 1-Lipschitz; for the Euler angles the three products in each coefficient are bounded by Cauchy's inequality, and dividing by the length does not increase the distance to a unit vector (`normalize_near`); for the square root (1 + e)/|1 + e| squares to e for a unit e exactly, and directions of nearby vectors are near (`dir_near`). The constants are sums of the individual errors, not fitted.  
Theorems (`Props24.v`): `C73_rotor`, `C73_euler`, `C73_translator`, `C73_exp`, `C73_sqrt`.  
Assumes of the library functions only that sin and cos are finite and within 2 * 2^-24 for arguments up to 2^20 (libm, FloatLibm.v; met by libm_exists), and of rsqrtps its documented error.

### C74 The published assembly computes the published functions (partial)
Modelled: `Asm.v` keeps the five listings as text with an AT&T parser and an interpreter for the mnemonics that occur (registers, red zone, alignment, sign masks; anything else stops the machine). Proof: symbolic execution by `cbv`, then equality up to the order of the operands of + and * (commutative in binary32 as in any arithmetic used), or `ring`/`field` over the reals for the competitors.  
Theorems (`Props25.v`): `C74_rotor_composition`, `C74_motor_application`, `C74_rtm`, `C74_glm`, `C74_glm_same_order_refuted`, `C74_glm_dual`, `C74_glm_dual_refuted`.  
False as stated for the GLM listings (refuted; what they do compute is proved). Klein's two listings agree with the sources bit for bit on all inputs; RTM's with the rotor product, given the sign masks the page does not print.

### C75 Where a point ends up: constructors, product and application together in binary32 (proved)
The exact motions are written as quaternion products (`turn`, `qm`), so differences of motors become differences of coefficient vectors: |turn p x - turn e x| <= |p - e| (|p| + |e|) |x|. The constructor bounds of C73, the product bounds of C41 and the sandwich bounds of C72 are then added up; the target of each bound is Rodrigues' formula and a vector sum (SpecGeom.v), not a model function.  
Theorems (`Props26.v`): `C75_rotate`, `C75_translate`, `C75_motor`, `C75_quickstart`.  
The position is that of the computed coefficients e032, e013, e021; the weight is bounded beside it. Assumes of sin and cos what C73 does.

### C76 The logarithm of a rotor in binary32, and the way back (proved)
Props27.v. x / sin x as a function of cos x has slope at most 11/10 on the short way round (mean value theorem), so that the angle computed from the rounded scalar part and its sine err together; the rest is rounding of two products. The exponential of branches is 1-Lipschitz into the unit rotors (exact_rotor_lip), which with C73_exp gives the way back and the fractions. exact_log is defined from acos, independently of the model, and exact_log_exp shows that it is a logarithm. Not in view: scalar part below 0 (the bound grows without limit near -1) and scalar part 1 (NaN, C46).  
Theorems (`Props27.v`): `C76_log`, `C76_roundtrip`, `C76_fraction`.  
Assumes of the library functions libm_fine (Props27.v; met by libm_fine_exists). Scalar part in [0,1): the short way round, not yet so close to 1 that it rounds to 1, where log gives NaN (C46).

### C77 The exponential of a line and the screw constructor in binary32 (proved)
Props28.v. A small calculus of errors in units of 2^-24 of a magnitude (ap for scalars, vap for lanes 1 to 3 of a register) follows the kernel step by step. exact_exp is the closed form, shown to be the sum of the exponential series (exact_exp_series). The screw constructor rounds its logarithm first; exact_exp_p1_lip, exact_exp_p2_lip and exact_exp_p2_linear carry that error through the exponential. exact_screw_motion turns the exact motor into Rodrigues' formula about the axis of the stored line. C77_quarter is the whole path on one example, C77_tiny a rotation of 2^-30 within the stated range. The absolute terms 2^-60 and 2^-50 absorb underflow.  
Theorems (`Props28.v`): `C77_exp`, `C77_ideal`, `C77_screw`, `C77_place`, `C77_quarter`.  
Assumes libm_fine of sin and cos and the error bound of rcpps and rsqrtps that the source states. Real parts shorter than 2^-40 (2^-32 for the screw) but not zero are left out; shorter than about 2^-65 the code really gives NaN (C46).

### C78 The logarithm of a motor in binary32, its exponential and its fractions (proved)
Props29.v, with the error calculus of Props28.v. exact_mlog is the closed form (exact_log of C76 for the real part); exact_mlog_exp shows that exact_exp of it is `repaired`, the motor scaled to unit length with q = a.b/p; is_exp of it is part of C78_log. atan_gap and atan2_rel bound how the angle moves with the rounded sine. exp_near is C77_exp for a line known up to an error. C78_place goes through motor_near. C78_hypotheses gives a stored screw meeting every hypothesis.  
Theorems (`Props29.v`): `C78_log`, `C78_roundtrip`, `C78_back`, `C78_fraction`, `C78_place`.  
Assumes libm_log (libm_fine, and atan2 within one unit in the last place for positive first arguments; met by libm_log_exists) and the stated error of rcpps and rsqrtps. Scalar parts below 2^-19, where the kernel switches formula, and rotations below 2^-40 are left out; exp(log) needs r at most 2^39.

### C79 Products, chains of products and normalization of motors in binary32 (proved)
Props30.v. proper is |p1| = 1 with the Study condition, near_motor the relation of the statement; mmul is the product of two motors as pairs of quaternion products and mmul_gp says it is the geometric product of the specification; mmul_image says that it composes the motions. C79_product (from C41's per-lane bound and a mass argument) gives C79_multiply, and C79_chain follows by induction on the chain. exact_norm is the dual-number normalization; exact_norm_spec proves that it is proper and that the motor is (N + study/N e0123) times it. C79_normalize follows the kernel through the ap4 calculus (vectors of relative error k*2^-24). C79_hypotheses is a chain of a thousand screws, C79_loose a motor of norm 5 with a Study violation of -3.  
Theorems (`Props30.v`): `C79_product`, `C79_multiply`, `C79_chain`, `C79_place`, `C79_normalize`, `C79_renormalize`, `C79_sources`, `C79_back`.  
normalize assumes the stated error of rcpps and rsqrtps; C79_sources and C79_back also the libm bounds of C77 and C78.

### C80 The documented interpolation between motors in binary32 (proved)
Props31.v. mone, mrev, mmul_assoc and mrev_inv make proper motors a group; flow l s is exact_exp of s l, flow_closed its closed form and flow_add (by nsatz) the one-parameter group law. blend_line is the exact logarithm (C78) of the stored step, and the path is flow of it after ea; the distance of its end from eb is the violation of |p1| = 1 and p q = a.b by the stored step (repaired_gap), bounded through C79_multiply. C80_blend is C78_fraction and C79_multiply; f = 0 takes the branch of exp without real part (exp_ideal). near_place is the general passage from near_motor to the place of a point. C80_hypotheses gives two exact screws meeting every hypothesis, in both builds.  
Theorems (`Props31.v`): `C80_path`, `C80_blend`, `C80_ends`, `C80_place`.  
Assumes libm_log and the stated error of rcpps and rsqrtps, as C78. Steps whose rotation is below 2^-38 or within 2^-18 of a half turn are left out, as are factors f that make the rotation smaller than 2^-39 without making it zero.

### C81 The documented linear blend of motors (nlerp) in binary32 (proved)
Props32.v. exact_norm_proj writes the ideal part of the exact normalization as a projection divided by the length, which makes it Lipschitz (norm_lip, with the constants 2 and 6.1 over the length w). lerp_reg bounds the stored linear blend lane by lane (ap4_scale, ap4_add); C81_nlerp adds C79_normalize. C81_path: exact_norm commutes with right multiplication by a proper motor (exact_norm_mul, from the multiplicativity of the Study form, study_mul), and halfway between the rest position and g it is the square root of g (mid_square). C81_half is the blend of two screws in the middle.  
Theorems (`Props32.v`): `C81_path`, `C81_nlerp`, `C81_short`, `C81_place`.  
Assumes the stated error of rcpps and rsqrtps; no library function is called. The documentation calls normalize as if it returned its argument; the text is read as normalizing the sum and returning it. Blends shorter than 2^-19 (nearly opposite motors) are left out, as the amplification is unbounded there.

### C82 Square roots of motors, rotors and translators in binary32 (proved)
Props33.v. mroot e is the exact blend of C81 halfway from the rest position to e; mid_square makes it a root. C82_sqrt is norm_lip (C81) on half of 1 + m, using that exact_norm does not see a positive factor (exact_norm_scale), plus the rounding of the one addition and C79_normalize; C82_square then is C79_multiply; C82_rotor is C82_sqrt for a motor with a zero ideal register, whose real register is computed by the same instructions. C82_translator: multiplication by one half is exact above 2^-125 (shift_format) and so is the sum of the halves.  
Theorems (`Props33.v`): `C82_sqrt`, `C82_square`, `C82_place`, `C82_rotor`, `C82_translator`.  
Assumes the stated error of rcpps and rsqrtps. Motions within about 2^-17 of a full turn (scalar part -1) are left out: there the amplification is unbounded. sqrt(branch) is the rotor code on a branch and is not restated.

### C83 Matrices made from motors in binary32 (proved)
Props34.v. columns: each entry is an expression in the eight coefficients (mcode, tied to the code by mcode_ok); rounding_any bounds its error by depth times the sum of magnitudes, which is at most |p1|^2 in the block and 2|p1||p2| in the last column (masses); the last row is an expression that is 0 whatever the variables hold (nil_expr). exact_lin and exact_shift identify the exact matrix with the quaternion action used in C74-C82. Application is the op machinery of C41 with the matrix route as the operation (o_mat, depth 8, correct by C24_motor_mat4x4). swung e x is moved e x minus moved e 0.  
Theorems (`Props34.v`): `C83_matrix`, `C83_orthogonal`, `C83_accurate`, `C83_integers`, `C83_apply`, `C83_routes`.  
The rotor conversions are not covered: they read an uninitialised column (C24). C83_apply and C83_routes are for points stored with weight 1; C83_accurate has any weight. Coordinates and coefficients up to 2^20.

### C84 Projections in binary32 (proved)
Props36.v. Each lane is an expression in up to twelve coefficients (lanes12); the *_gen lemmas tie it to the code for every arithmetic, the *_exact lemmas give its value over the reals and its sum of magnitudes, both by computation on the expression. vmass is a cross product without signs, of length at most sqrt 2 |a||b|; term3 turns three bounds per lane into one bound on the vector. divide_place passes to positions. on_plane and on_line are those of SpecGeom.  
Theorems (`Props36.v`): `C84_point_plane`, `C84_point_line`, `C84_line_plane`, `C84_plane_point`, `C84_line_point`, `C84_plane_line`, `C84_foot_plane`, `C84_foot_line`, `C84_line_plane_geometry`, `C84_plane_line_geometry`, `C84_through_point`, `C84_hidden`.  
A stored line whose moment has a part along its direction is read as the line without that part. The real lane of a line's register is 0, as every constructor leaves it.

### C85 Planes, lines and directions carried by motors in binary32 (proved)
Props37.v, on the expressions of C84 with sixteen coefficients. mp_exact, ml_exact and md_exact give the polynomials the kernels compute (turn, and twist for what the direction adds to the moment), *_mass their sums of magnitudes: every coefficient of the turning block is at most |p1|^2, every other at most 2|p1||p2|. off_exact and mom_exact identify the polynomials with the moved plane and line for a proper motor, where the Study condition is needed. null finds lanes that are sums of products with a zero. sum_up adds the errors of two carried operands.  
Theorems (`Props37.v`): `C85_plane`, `C85_line`, `C85_direction`, `C85_hidden`, `C85_exact`, `C85_on_plane`, `C85_on_line`.  
C85_exact says that R n, d - R n . c, R s and R k + c x R s are the images of the plane and the line under the motion of the points.

### C86 Joins, meets and metric readings in binary32 (proved)
Props38.v, on the expressions of C84: j*_gen relate the code to expressions in up to sixteen coefficients, j*_exact give the polynomials and their sums of magnitudes, dead the lanes that are exact zeros. C86_segment uses that multiplication by 1 is exact and that a difference of floats is rounded once (diff_lane). The statements about incidence follow from segment_gen, incident_gen and spot_gen, which are about real vectors only.  
Theorems (`Props38.v`): `C86_two_points`, `C86_segment`, `C86_two_planes`, `C86_meet_line`, `C86_point_line`, `C86_contains`, `C86_plane_line`, `C86_meet_point`, `C86_three_points`, `C86_triangle`, `C86_three_planes`, `C86_corner`, `C86_readings`.  
The constants 3.1, 7.6 and 10.6 stand for 3/2 unit_err 2, 3/2 unit_err 5 and 3/2 unit_err 7, unit_err d being d * 2^-24 * 1.00001; 2^-122 is added for underflow.

### C87 The plane through three points that are not on a line (partial)
Props38.v. The refutation runs the model on three integer points in both builds. The true parts specialise C86_triangle.  
Theorems (`Props38.v`): `C87_partial`, `C87_refuted`, `C87_near`.  
False as stated: the corners of a right-angled triangle with legs of length 2 at distance 17370 from the origin are joined to a null plane, refuted. Proved: the normal is right to a fraction k when 23 * 2^-24 r^2 is at most k times the length of the vector area, r bounding the distances from the origin; and, wherever the triangle is, when it is moved so that the first vertex is the origin before joining.

### C88 Reflections in planes in binary32 (proved)
Props39.v, on the expressions of C84 (e_rp, e_rl, e_rx); rp_exact, rl_exact, rx_exact give the polynomials and the sums of magnitudes, whose largest, refl, is 2|n.v| componentwise. mirrored is the specification; C88_exact says why it deserves the name. C88_mirror divides by the weight; on_plane_image and on_line_image are about real vectors only.  
Theorems (`Props39.v`): `C88_point`, `C88_plane`, `C88_line`, `C88_exact`, `C88_mirror`, `C88_twice`, `C88_on_plane`, `C88_on_line`.  
2^-104 (2^-122 for planes) is added for underflow in the lane-wise part and in the last two theorems.

### C89 The documented meaning of products of planes and of points in binary32 (proved)
Props40.v and Props41.v. gp_exact gives the polynomials of gp00 on the expression of the code; pair_motor is the exact product of two planes given by normals and offsets, C89_exact its meaning (mroot, swung and moved_off are those of C82 and C85). C89_near puts the stored product within near_motor of the pair_motor of the normalized planes; C82_sqrt and C85_plane do the rest, joined by lemmas about real vectors (land_gen, side_gen). Points: C41_point_mul_point, half_near (halving a float is exact above 2^-125), translator_moves.  
Theorems (`Props40.v`, `Props41.v`): `C89_product`, `C89_exact`, `C89_near`, `C89_planes`, `C89_planes_acute`, `C89_points`.  
Planes more than 90 degrees apart are covered by C89_planes, whose bound contains one over the cosine of half the angle and asks that it be at least 2^-18 and that the resulting bound T stay small.

### C90 Rotors and translators carry planes, lines, branches, directions and points in binary32 (proved)
Props42.v. turn e is the rotation by a unit rotor, written with quaternion products only; C90_exact: it is an isometry, keeps cross products, composes, and agrees with the motor image of C73. e_turn, e_tline, e_tbranch and e_sline are the expressions the code evaluates (sw012 without translation, swMM without translation, swL2); turn_exact, tline_exact and sline_exact give their polynomials and the term lemmas of C85 their errors. keep_lane: the offset lane is the squared norm times the offset. The hidden lane of a moved line is x - x + x - x, an exact zero. Incidence comes from the generic lemmas on_plane_gen and on_line_gen of C85.  
Theorems (`Props42.v`): `C90_exact`, `C90_rotor`, `C90_rotor_on`, `C90_near_unit`, `C90_translator`, `C90_translator_on`.  


### C91 Products of branches and their square roots in binary32 (proved)
Props43.v. pair_rotor is the product of two branches given by vectors; C91_exact follows from C89_exact with the first vector reversed. C91_product from the term lemmas on the expression of gp11, C91_near by scaling, then C82_rotor and the branch part of C90_rotor (root_near, branch_lands).  
Theorems (`Props43.v`): `C91_product`, `C91_exact`, `C91_near`, `C91_branches`, `C91_branches_acute`.  
The documented sentence (the reverse of sqrt(a * b) takes b to a) is refuted in C23; this is the true statement, with its rounding error.

### C92 Points of any weight, the image of the origin, and the way back, in binary32 (proved)
Props44.v. C92_point: the any-weight form of the point bound (motor_moves_any, from the mass bound of the sandwich) plus image_near_any. C92_origin: term lemmas on the expression of swo12; its weight lane is 0 * finite + 1, exactly 1 (null_ok). C92_back: the first error carried through the exact inverse motion (swung_back, off_back, mom_back, brought_back) plus the second error, added up by the purely real lemma two_steps.  
Theorems (`Props44.v`): `C92_point`, `C92_origin`, `C92_back`.  


### C93 Many motors applied one after the other to a plane, line, point or direction, in binary32 (proved)
Props45.v. A generic induction over the list (many) from a one-step hypothesis (one_step), with the arithmetic in the purely real lemmas step_up (bounds D1, D2 go from j to j + 1) and in_range (they keep every component below 2^20, so that the one-step theorems C85_plane, C85_line, C85_hidden and C92_point apply). plane_step, line_step and point_step carry the old error through the exact isometry and add the new one.  
Theorems (`Props45.v`): `C93_plane`, `C93_line`, `C93_point`, `C93_direction`, `C93_exact`, `C93_reach`, `C93_distance`.  


### C94 Products of many rotors, and what they do to every kind of entity, in binary32 (proved)
Props46.v. One product by the expression method (rr_code, rr_exact, C94_product), carried to unit rotors by the multiplicative norm of quaternions (C94_multiply), an induction with growing factor g (rchain_step) and pow_up for the closed form; C94_apply feeds the result to C90_rotor.  
Theorems (`Props46.v`): `C94_product`, `C94_multiply`, `C94_chain`, `C94_apply`, `C94_walk`.  


### C95 Products of rotors, translators and motors with one another, in binary32 (proved)
Props47.v. The accuracy theorem C41_any_geometric_product_partial bounds each lane of a mixed product by its mass; rotors and translators are read as real motors (plain, gliding), so that one lemma (product_near) turns the lane bounds into distances from the exact product for all six. Translators: rounding on the grid of the subnormals has relative error u (rnd_rel), then an induction over the list.  
Theorems (`Props47.v`): `C95_mixed`, `C95_moves`, `C95_point`, `C95_translators`, `C95_translator_chain`, `C95_carried`.  


### C96 A motor built up from any mixture of rotors, translators and motors, multiplied on either side, in binary32 (proved)
Props48.v. Steps are an inductive type over the three kinds; one_more gives both sides of each kind from C95_mixed and C79_multiply with a common growth factor (1 + th)(1 + 11 u); built_step is the induction, built_moves the same over the exact motions with mmul_image, C92_point gives the point, and C85_on_plane and C85_on_line the incidences (the point, plane and line of C90_ex meet the hypotheses).  
Theorems (`Props48.v`): `C96_built`, `C96_point`, `C96_on`.  


## 4. Trusted base
* Coq 8.16.1 kernel; no own axioms.
* The axioms of the standard library's reals
  (`ClassicalDedekindReals.sig_forall_dec`, `.sig_not_dec`,
  `FunctionalExtensionality.functional_extensionality_dep`) and
  `Classical_Prop.classic`, as `Print Assumptions` lists them beside each
  theorem in `Props*.v`:
* **no axioms** (67): `C20_exp_log_translator`, `C21_log_exp_ideal`, `C26_batch`, `C26_input_kept`, `C29_batch`, `C29_matrix`, `C29_sandwich`, `C39_idempotent`, `C48_anticommute_partial`, `C48_ascending_partial`, `C48_associative_partial`, `C48_dimension_31_refuted`, `C48_large_dimension_refuted`, `C48_squares_partial`, `C48_unit_partial`, `C49_dual`, `C49_ext_associative`, `C49_ext_generators`, `C49_ext_is_product`, `C49_ext_unit`, `C49_ext_zero_iff`, `C49_rev_sign`, `C51_blade_order`, `C51_product`, `C51_push`, `C51_strict_total_order`, `C53_bound`, `C53_foreign_character_hangs`, `C53_refuted`, `C53_single_letter_hangs`, `C53_terminates_partial`, `C53_trailing_space_partial`, `C54_defined_partial`, `C54_exact`, `C54_no_exception`, `C54_overflow_refuted`, `C55_duplicate_partial`, `C55_element_partial`, `C55_high_digits_refuted`, `C55_out_of_range_refuted`, `C55_product_partial`, `C56_operators`, `C57_after_tokenizer`, `C57_bounds`, `C57_safe`, `C59_script_runs`, `C60_blade_name`, `C60_blade_name_injective`, `C61_accessor`, `C61_load`, `C61_plane_layout`, `C61_round_trip`, `C61_store`, `C61_store_unaligned_refuted`, `C63_comment`, `C63_decimal_dropped`, `C63_decimal_refuted`, `C63_exact`, `C63_expression_partial`, `C63_hang_refuted`, `C66_break_no_effect`, `C66_comment_echoed`, `C66_line_by_line`, `C66_scripts_run`, `C66_shell_session`, `C66_shell_session_refuted`, `C66_whitespace_refuted`
* **sig_forall_dec** (1): `C60_names_distinct`
* **funext, sig_forall_dec** (115): `C01_geometric_product_partial`, `C01_line_mul_line_exact`, `C01_line_mul_line_refuted`, `C02_meet`, `C03_inner_product`, `C04_dual`, `C04_dual_spec`, `C04_join`, `C05_sandwich`, `C06_reflection`, `C06_reflection_sandwich`, `C17_reverse`, `C17_reverse_antiautomorphism`, `C17_reverse_spec`, `C17_reverse_undoes`, `C23_neg_line_same_points`, `C24_motor_mat3x4`, `C24_motor_mat4x4`, `C24_rotor_matrix_refuted`, `C24_rotor_matrix_zeroed`, `C25_origin`, `C27_documented_animation_refuted`, `C27_inplace_erases_refuted`, `C27_inplace_lines_refuted`, `C30_glsl`, `C30_glsl_spec`, `C32_assign_translator_refuted`, `C33_join_three_points`, `C34_meet`, `C35_project_line_plane`, `C36_motions_commute`, `C36_motions_commute_dot`, `C44_accessors`, `C44_constructors`, `C44_negation`, `C44_plane_minus_moves_refuted`, `C49_exterior`, `C49_inner`, `C49_inner_no_scalars`, `C49_inner_with_scalars`, `C49_regressive`, `C49_reverse`, `C50_evaluation`, `C50_normal`, `C50_push`, `C50_push_zero_refuted`, `C50_ring`, `C50_unique`, `C52_laws`, `C52_normal`, `C52_product`, `C52_push_zero_refuted`, `C52_sum`, `C52_unique`, `C56_meaning`, `C56_parse`, `C56_precedence`, `C56_sound`, `C56_text`, `C56_unambiguous`, `C56_unary`, `C58_dropped`, `C58_exact`, `C58_no_parentheses_partial`, `C58_refuted`, `C59_exterior`, `C59_inner`, `C59_line_line_refuted`, `C59_products`, `C59_projection`, `C59_regressive`, `C59_sandwich`, `C60_injective_partial`, `C60_integers_round_trip_partial`, `C60_integers_shown`, `C60_round_trip_partial`, `C60_unit_coefficient_refuted`, `C60_unreadable_refuted`, `C66_demo`, `C66_demo_commutes`, `C66_test`, `C67_axes`, `C67_case_study_formula`, `C67_case_study_sign_refuted`, `C67_ext_dot_comments`, `C67_gpLL_comment_refuted`, `C67_gp_comments`, `C67_line_comments`, `C67_low_lanes`, `C67_matrix_comments`, `C67_newton_rcp`, `C67_newton_rsqrt`, `C67_remarks`, `C67_sandwich_comments`, `C67_swMM_comment`, `C67_swo12_comment`, `C68_equations`, `C68_printed_projection_refuted`, `C68_projections`, `C68_snippets_refuted`, `C68_vector_product`, `C69_meet_join`, `C69_sandwiches`, `C70_common_normal_refuted`, `C70_factorizable`, `C70_motor_fixed_points`, `C70_plane_fixed_points`, `C70_point_fixed_point`, `C70_product_of_planes`, `C70_rotor_fixed_points`, `C70_scaling_keeps_motion`, `C70_translator_fixed_points`, `C84_line_plane_geometry`, `C84_plane_line_geometry`, `C95_carried`
* **funext, sig_forall_dec, sig_not_dec** (20): `C08_rigid_motion`, `C33_join_points`, `C35_project_onto`, `C35_project_point`, `C67_exp_derivation`, `C67_newton_derivative_refuted`, `C70_rotor_from_planes`, `C70_translator_data`, `C70_translator_from_planes`, `C81_path`, `C85_exact`, `C88_exact`, `C89_exact`, `C90_exact`, `C90_near_unit`, `C91_exact`, `C93_exact`, `C93_reach`, `C94_walk`, `C95_moves`
* **classic, funext, sig_forall_dec, sig_not_dec** (281): `C01_point_mul_point`, `C05_translator_on_plane`, `C07_composition`, `C09_translator`, `C10_rotor`, `C11_euler_constructor`, `C12_euler_round_trip_partial`, `C12_true_gimbal_lock_refuted`, `C12_wrong_gimbal_test_refuted`, `C13_screw`, `C14_inverse_partial`, `C14_line_quotient_refuted`, `C14_point_inverse_exact`, `C14_point_inverse_refuted`, `C14_quotient_partial`, `C14_rotor_inverse_exact`, `C14_rotor_inverse_refuted`, `C14_rotor_quotient_refuted`, `C15_normalize_idempotent_partial`, `C15_normalize_unit`, `C15_plane_normalize_idempotent_refuted`, `C16_normalize_same_object_partial`, `C16_plane_normalize_exact`, `C16_plane_normalize_moves_refuted`, `C18_sqrt`, `C18_sqrt_half_motion`, `C19_exp_series_partial`, `C20_exp_log_partial`, `C20_exp_log_rotor`, `C20_half_turn_refuted`, `C20_negative_translation_refuted`, `C21_log_exp_branch`, `C21_log_exp_no_rotation`, `C21_log_exp_partial`, `C21_quarter_refuted`, `C22_group_law`, `C22_nth_root`, `C22_steps`, `C23_branches_image_reversed`, `C23_branches_partial`, `C23_branches_refuted`, `C23_lines_partial`, `C23_lines_refuted`, `C23_planes`, `C23_points`, `C28_actions_partial`, `C28_ill_formed`, `C28_norms_partial`, `C28_plane_normalize_refuted`, `C28_products`, `C28_quotients`, `C31_c_api_partial`, `C31_compose_translator_rotor_refuted`, `C31_exp_log`, `C31_line_init`, `C31_line_init_refuted`, `C31_point_init`, `C31_point_init_refuted`, `C31_translate_plane`, `C32_conversion_partial`, `C33_join_norms`, `C37_metric`, `C37_parallel_lines`, `C37_point_on_line_refuted`, `C38_approx_partial`, `C38_approx_refuted`, `C38_bitwise_refuted`, `C38_equality`, `C38_symmetric`, `C39_constrain`, `C40_divide`, `C40_normalize`, `C40_plane_normalize`, `C40_reciprocal`, `C40_reciprocal_sqrt`, `C41_any_geometric_product_partial`, `C41_any_inner_product`, `C41_any_join`, `C41_any_meet`, `C41_any_sandwich`, `C41_any_sandwich_20`, `C41_geometric_product_partial`, `C41_inner_product`, `C41_inverse`, `C41_join`, `C41_line_inverse`, `C41_line_mul_line`, `C41_line_normalize`, `C41_meet`, `C41_motor_inverse`, `C41_motor_normalize`, `C41_point_mul_point`, `C41_relative_error_refuted`, `C41_sandwich`, `C41_targets`, `C41_translator_on_plane`, `C42_divide_refuted`, `C42_geometric_product_partial`, `C42_inner_product`, `C42_join`, `C42_line_mul_line`, `C42_meet`, `C42_point_mul_point`, `C42_sandwich`, `C42_translator_on_plane`, `C42_weights_refuted`, `C43_direction`, `C44_linear`, `C45_log_needs_unit`, `C45_well_formed`, `C46_exp_branch_refuted`, `C46_exp_branch_refuted`, `C46_exp_branch_refuted`, `C46_exp_line_refuted`, `C46_log_motor_refuted`, `C46_log_rotor_refuted`, `C46_motors_partial`, `C46_tiny_norms_refuted`, `C47_handedness_refuted`, `C47_opposite_handedness`, `C59_translate_plane`, `C62_constants`, `C64_blend`, `C64_blend_end_partial`, `C64_blend_end_refuted`, `C64_constant_speed`, `C64_short_way`, `C65_doc_condition_refuted`, `C65_lerp_norm`, `C65_nlerp_partial`, `C65_opposite_refuted`, `C66_demo_translate_plane`, `C67_gp33_comment`, `C67_sw02_comment`, `C69_linear`, `C69_products`, `C69_refuted`, `C69_sse3_refuted`, `C69_sse41`, `C69_unary`, `C70_common_normal_partial`, `C70_dual_line_half_refuted`, `C70_dual_line_screw`, `C70_exp_axis`, `C70_motor_is_screw`, `C70_powers_partial`, `C71_divide_by_one`, `C71_divide_by_one_only`, `C71_exact_refuted`, `C71_point_w`, `C72_direction`, `C72_distance`, `C72_normalize`, `C72_rotor_chain`, `C72_rotor_product`, `C73_euler`, `C73_exp`, `C73_rotor`, `C73_sqrt`, `C73_translator`, `C74_glm`, `C74_glm_dual`, `C74_glm_dual_refuted`, `C74_glm_same_order_refuted`, `C74_motor_application`, `C74_rotor_composition`, `C74_rtm`, `C75_motor`, `C75_quickstart`, `C75_rotate`, `C75_translate`, `C76_fraction`, `C76_log`, `C76_roundtrip`, `C77_exp`, `C77_ideal`, `C77_place`, `C77_quarter`, `C77_screw`, `C78_back`, `C78_fraction`, `C78_log`, `C78_place`, `C78_roundtrip`, `C79_back`, `C79_chain`, `C79_multiply`, `C79_normalize`, `C79_place`, `C79_product`, `C79_renormalize`, `C79_sources`, `C80_blend`, `C80_ends`, `C80_path`, `C80_place`, `C81_nlerp`, `C81_place`, `C81_short`, `C82_place`, `C82_rotor`, `C82_sqrt`, `C82_square`, `C82_translator`, `C83_accurate`, `C83_apply`, `C83_integers`, `C83_matrix`, `C83_orthogonal`, `C83_routes`, `C84_foot_line`, `C84_foot_plane`, `C84_hidden`, `C84_line_plane`, `C84_line_point`, `C84_plane_line`, `C84_plane_point`, `C84_point_line`, `C84_point_plane`, `C84_through_point`, `C85_direction`, `C85_hidden`, `C85_line`, `C85_on_line`, `C85_on_plane`, `C85_plane`, `C86_contains`, `C86_corner`, `C86_meet_line`, `C86_meet_point`, `C86_plane_line`, `C86_point_line`, `C86_readings`, `C86_segment`, `C86_three_planes`, `C86_three_points`, `C86_triangle`, `C86_two_planes`, `C86_two_points`, `C87_near`, `C87_partial`, `C87_refuted`, `C88_line`, `C88_mirror`, `C88_on_line`, `C88_on_plane`, `C88_plane`, `C88_point`, `C88_twice`, `C89_near`, `C89_planes`, `C89_planes_acute`, `C89_points`, `C89_product`, `C90_rotor`, `C90_rotor_on`, `C90_translator`, `C90_translator_on`, `C91_branches`, `C91_branches_acute`, `C91_near`, `C91_product`, `C92_back`, `C92_origin`, `C92_point`, `C93_direction`, `C93_distance`, `C93_line`, `C93_plane`, `C93_point`, `C94_apply`, `C94_chain`, `C94_multiply`, `C94_product`, `C95_mixed`, `C95_point`, `C95_translator_chain`, `C95_translators`, `C96_built`, `C96_on`, `C96_point`

* Flocq and Coquelicot are used as libraries; they add no axioms.
* The transcription from C++ to Gallina: by hand, each definition citing file
  and lines, validated by `Replay.v` (1.6).
* What section 1.7 lists as simplified.
* Documentation claims about hardware (error bound and special values of
  `rcpps`/`rsqrtps`) appear only as explicit hypotheses.

## 5. Findings and model/code disagreements
The model agrees with the code everywhere known to us; the following are
disagreements between the code and its documentation, its other builds or
common expectation.  Those marked with a property are theorems.

Wrong results
1. `line * line` exchanges the e12 and e23 components (`gpLL`).  The test in
   `test_gp.cpp` misses it because both expected values are 5.  Square roots
   and quotients of lines inherit it. [C01, C14, C23, C59]
2. `rotor::inverse` ignores the scalar part, so neither inverse nor quotient of
   rotors is right unless it is zero. [C14]
3. `point::inverse` gives p * p^-1 = -1. [C14]
4. `motor::operator=(translator)` sets the scalar part to 0; the motor then
   sends every point to zero. [C32]
5. `plane::normalize` scales the e0 component differently from the normal, so
   it moves the plane, and the SSE3 and SSE4.1 builds disagree. [C15, C16, C28]
6. Unary minus of a plane negates the normal only and moves planes off the
   origin, though it is documented to change the orientation only. [C44]
7. `rotor::as_mat3x4`/`as_mat4x4` read an uninitialised column. [C24]
8. `as_euler_angles` tests the wrong product for gimbal lock (fails at 120
   degrees about (1,1,1)) and loses the angle at the true singularity. [C12]
9. In-place batch application (`in == out`) overwrites its input before
   reading it: the identity sets planes and points to zero.  A comment in
   x86_sandwich.hpp (line 253) permits it, and the `animate_keyframe` of
   ga_skeletal_animation.md does it: the rest pose collapses every joint. [C27]
10. `log` of a half-turn without slide gives zero; a translation written with
    scalar part -1 comes back reversed; `log(exp(l))` is wrong near a quarter
    turn. [C20, C21]
11. In binary32, `log` of a rotor whose scalar part is exactly 1 (the identity,
    and rotations below about 4.9e-4 rad) is NaN; `exp` of a branch with
    coefficients up to 2^-65 (also zero) is NaN; `exp(line)`, `log(motor)`,
    norms and normalizations of non-zero but tiny objects are not finite. [C46]
12. The rotor constructor and the screw constructor turn in opposite senses.
    [C47]
13. `sqrt(a*b)` takes branch b to -a; the documented reverse of the square root
    is wrong unless a and b are perpendicular. [C23]

Comparisons and layout
14. `==` is IEEE equality per lane, not the documented bitwise equality;
    `approx_eq` can reject a difference below epsilon and accepts nothing for
    epsilon <= 0. [C38]
15. `store` needs a 16-byte aligned buffer, which the documentation does not
    say. [C61]
16. C header comments of `kln_line_init`, `kln_point_init` and
    `kln_compose_translator_rotor` describe something else. [C31]
17. Kernels rely on zero low lanes, an invariant no type states: eleven
    operations read the hidden lane of a line, branch or translator (loaded
    translators and lines made from registers may have one), and four more in
    the SSE3 build only. [C45, C69]
18. `*(&a.p1_ + 1)` relies on member layout; the C bindings may violate strict
    aliasing.  Not modelled.
19. No relative error bound holds: cancellation can lose every digit. [C41]

Documentation
30. `blend_motors` (slerp) does not reach its target for half-turns without
    slide. [C64]
31. The condition under which `lerp` needs no normalization must say 2, not 1;
    antipodal motors have no midpoint; `.normalize()` returns void, so the
    snippet does not compile. [C65]
32. The comment of `gpLL` is right and the kernel wrong (finding 1); the case
    study writes e023 for e032; the derivative in the Newton comment of
    x86_sse.hpp line 98 is that of another function; the comment of `gp33`
    omits a sign the code has. [C67]
33. Low lanes leak into `gpDL` and, in the SSE3 build, `dotPTL`. [C67, C45]
34. The output in docs/shell.md is not what the tool prints; blank lines are not
    echoed; the command `.break` has no effect. [C66]
35. geometry-potpourri.md: the projection (p.P)P must read (p.P)p; the snippet
    `(p | l) * p` must read `(p | l) * l`; the intersection snippet builds plane
    e2+e3 for e1+e2; the projection snippet builds (2,0,1) for (2,1,0);
    3e0+e1+e3 is x+z+3=0. [C68]
36. geometric_product.hpp 140-144: the screw made by exponentiating `dual * line`
    turns by -2p and slides by 2q, not by "half" of p and q; line * line, because
    of finding 1, is not about the common normal. [C70]
37. point.hpp 123: w is not exactly 1 after normalizing, nor does `x / 1` equal
    x, when `rcpps` is inexact at 1, as its specification allows. [C71]
38. docs/perf.md: `glm::mat3x4_cast(a) * b`, offered as the equivalent of
    `m(p)`, multiplies by the transposed matrix: it turns the point by the
    inverse rotation and never translates it. GLM's quaternion product is the
    rotor product with its operands exchanged. [C74]
39. quickstart.md lists `project.hpp` for `projection.hpp`, and `m * p1 * ~m`
    does not compile, as there is no `motor * point`. Not modelled.
40. `a & b & c` multiplies positions, not edges: three points that are not on a
    line but far from the origin for their size can be joined to a null plane,
    e.g. (9870, 10198, 10004), (9870, 10200, 10004), (9872, 10198, 10004). [C87]

Symbolic tool
20. `algebra::mul` truncates a mask to `uint8_t`: generators from the ninth on
    square and commute wrongly; at dimension 31 signed overflow. [C48]
21. `|` gives 0 when an operand is a scalar, as geometry-potpourri.md says; other
    texts take the grade |r-s| part there too. [C49]
22. `poly::push` and `mv::push` store zero coefficients. [C50, C52]
23. The tokenizer loops for ever on a single letter, on unknown characters and
    on a trailing letter. [C53]
24. A run of 32 or more digits or dots writes past `buf[32]`; the exception
    meant to prevent it is unreachable. [C54]
25. `e8`, `e9` are lost in a byte; indices outside the algebra are accepted.
    [C55]
26. Text after an unmatched `)` or a juxtaposed `(` is silently dropped. [C58]
27. Constant coefficients 1 and -1 print as nothing and "-"; printed output
    such as `(a + b) e0` or `2x e0` cannot be read back, `x^2 e0` is read back
    as 2 x e0 and 1 + 2 e0, printed ` + 2 e0`, as 2 e0. [C60]
28. A line with a decimal point before `#` is silently ignored; `1 # one` and
    `, ,` hang. [C63]
29. `mv -= mv` on the same object would erase while iterating (not reached by
    the parser, not modelled).

## 6. Mutation testing
Wrong programs are made by editing one definition of the model in a scratch
copy outside `/verif`; every proof that no longer goes through is recorded, and
the theorem is counted as failing only if it, or a lemma it depends on, breaks.
`seeded/LOG.jsonl` has one line per attempt.  Attempts that no theorem noticed
are kept in the log with what was done about them.
