{"id": "C01", "title": "Geometric product is the Clifford product", "statement": "For every pair of Klein types that `operator*` accepts (plane*plane, plane*point, point*plane, line*line, branch*branch, dual*line, line*dual, rotor*rotor, rotor*translator, translator*rotor, translator*translator, motor*rotor, rotor*motor, motor*translator, translator*motor, motor*motor), every basis coefficient of the returned object equals the coefficient of the product of the two multivectors in the Clifford algebra with e0^2=0, e1^2=e2^2=e3^2=1; no coefficient of the true product that the return type cannot store is non-zero. point*point returns the true product divided by its scalar part.", "quantifier": "all coefficient values of both operands, in exact arithmetic, in both SSE builds", "why_tests_cant": "The tests multiply a handful of fixed operands; a wrong sign on a term that is zero or cancels in those operands is invisible, and the claim is about every coefficient as a polynomial identity.", "anchors": ["public/klein/geometric_product.hpp: operator*", "public/klein/detail/x86/x86_geometric_product.hpp: gp00, gp03, gp11, gp33, gpDL, gpRT, gp12, gpLL, gpMM"]}
{"id": "C02", "title": "Meet is the exterior product", "statement": "For every pair accepted by `operator^` (plane/plane, plane/line, plane/ideal_line, plane/branch, plane/point, line/line, line/ideal_line, ideal_line/branch and the mirrored orders) the result holds exactly the coefficients of the exterior product in the Grassmann algebra on e0..e3, and no component is lost.", "quantifier": "all coefficient values, exact arithmetic, both SSE builds", "why_tests_cant": "Only a few operand pairs are tested; the product is a polynomial identity over all reals and several overloads are not tested at all.", "anchors": ["public/klein/meet.hpp: operator^", "public/klein/detail/x86/x86_exterior_product.hpp: ext00, extPB, ext02, ext03"]}
{"id": "C03", "title": "`operator|` is the symmetric inner product", "statement": "For every pair accepted by `operator|` the result equals the grade-|r-s| part of the geometric product.", "quantifier": "all coefficient values, exact arithmetic, both SSE builds", "why_tests_cant": "Tests use single operands, mostly with zeros; several lanes of several overloads are never observed.", "anchors": ["public/klein/inner_product.hpp: operator|", "public/klein/detail/x86/x86_inner_product.hpp: dot00, dot03, dot11, dot33, dotPTL, dotPIL, dotPL"]}
{"id": "C04", "title": "Join is the dual of the meet of duals and dualisation is an involution", "statement": "`!` maps each element to the complementary element, `!!x == x`, x ^ !x is the pseudoscalar up to the documented orientation, and `a & b` equals `!(!a ^ !b)` computed in the algebra, for every overload of `&`.", "quantifier": "all coefficient values", "why_tests_cant": "Sign conventions of the dual on bivectors and trivectors are easy to get consistently wrong on the few tested inputs.", "anchors": ["public/klein/join.hpp: operator!, operator&", "public/klein/meet.hpp"]}
{"id": "C05", "title": "Applying a rotor, translator or motor is the sandwich product", "statement": "For every entity x supported by the call operators of rotor, translator and motor (plane, line, point, direction, branch), the returned entity holds the coefficients of m x ~m in the algebra; no other component arises. For a translator applied to a plane the result is divided through exactly as for the normalized translator.", "quantifier": "all coefficient values of m and x, including non-normalized m, exact arithmetic, both SSE builds", "why_tests_cant": "A sandwich kernel is a cubic polynomial in up to 16 variables; the tests evaluate each at one or two points.", "anchors": ["public/klein/rotor.hpp: operator()", "public/klein/translator.hpp: operator()", "public/klein/motor.hpp: operator()", "public/klein/detail/x86/x86_sandwich.hpp: sw012, sw312, swMM, sw02, swL2, sw32"]}
{"id": "C06", "title": "Plane reflection is p x p and is an involution", "statement": "plane::operator() applied to a plane, line or point computes p x p in the algebra (up to the documented overall sign); for a normalized plane, reflecting twice gives back the operand, and points of the mirror plane are fixed.", "quantifier": "all planes and operands, exact arithmetic", "why_tests_cant": "Quantifies over all mirrors and operands; the tests check one each.", "anchors": ["public/klein/plane.hpp: operator()", "public/klein/detail/x86/x86_sandwich.hpp: sw00, sw10, sw20, sw30"]}
{"id": "C07", "title": "Composition law: (a * b)(x) == a(b(x)) for chains of any length", "statement": "For rotors, translators and motors in any mixture, applying the product of a chain equals applying the factors one after the other, right to left, for points, planes, lines and directions.", "quantifier": "all chains of any length, all coefficients (normalized or not), exact arithmetic", "why_tests_cant": "Chains are unbounded and the identity is a polynomial identity of degree 5 per factor; the tests do not compose and apply.", "anchors": ["public/klein/geometric_product.hpp: operator*", "public/klein/motor.hpp: operator()", "public/klein/rotor.hpp: operator()", "public/klein/translator.hpp: operator()"]}
{"id": "C08", "title": "Normalized motors act as orientation-preserving rigid motions", "statement": "A normalized motor maps points to points with the same homogeneous weight, preserves the Euclidean distance of every pair of points, preserves signed volumes, and maps normalized planes to normalized planes and normalized lines to normalized lines.", "quantifier": "all normalized motors and all pairs/quadruples of points", "why_tests_cant": "Isometry is a universally quantified identity modulo the normalization constraints.", "anchors": ["public/klein/motor.hpp: operator()", "public/klein/detail/x86/x86_sandwich.hpp"]}
{"id": "C09", "title": "translator(delta, x, y, z) displaces by delta along the axis", "statement": "Applying the translator to any point moves it by exactly delta*(x,y,z)/|(x,y,z)|; planes and lines move with their points; t.inverse() undoes t.", "quantifier": "all delta, all non-zero axes, all points/planes/lines, exact arithmetic", "why_tests_cant": "Tests use one axis-aligned unit translation.", "anchors": ["public/klein/translator.hpp: translator, operator(), inverse"]}
{"id": "C10", "title": "rotor(ang, x, y, z) rotates by the documented angle about the axis", "statement": "Applying the rotor to any point is the rotation (Rodrigues formula) about the axis through the origin, by an angle of magnitude ang with one fixed handedness, for every non-zero axis; the axis is fixed pointwise; the rotor is normalized.", "quantifier": "all angles, all non-zero axes, all points, exact arithmetic", "why_tests_cant": "Infinite families of angles/axes; tests check a quarter turn about z.", "anchors": ["public/klein/rotor.hpp: rotor(float,float,float,float), operator()"]}
{"id": "C11", "title": "The Euler-angle constructor is the product of the three axis rotors", "statement": "rotor(euler_angles{roll,pitch,yaw}) equals rotor(roll,x)*rotor(pitch,y)*rotor(yaw,z).", "quantifier": "all triples of angles", "why_tests_cant": "One triple is tested.", "anchors": ["public/klein/rotor.hpp: rotor(euler_angles)"]}
{"id": "C12", "title": "Euler angles round-trip", "statement": "For a normalized rotor r, rotor(r.as_euler_angles()) is +r or -r (the same rotation).", "quantifier": "all normalized rotors", "why_tests_cant": "The conversion has special-case branches for a singular region; the tests sample one regular rotor. (The code violates this: its singularity test looks at the wrong quantity.)", "anchors": ["public/klein/rotor.hpp: as_euler_angles, rotor(euler_angles)"]}
{"id": "C13", "title": "Screw-motion constructor rotates about and translates along the line", "statement": "motor(ang, d, l) for a normalized line l fixes l as a set, translates points of l by d along its direction, and rotates all other points about l by ang.", "quantifier": "all angles, distances, normalized lines and points", "why_tests_cant": "Tests apply one screw about the z axis to two points.", "anchors": ["public/klein/motor.hpp: motor(float,float,line)", "public/klein/detail/x86/x86_exp_log.hpp: exp"]}
{"id": "C14", "title": "Inverses and quotients", "statement": "For every invertible plane, point, branch, line, rotor, translator and motor x: x * x.inverse() is the scalar 1, and (a / b) * b == a for the overloads of `/`.", "quantifier": "all operands with non-vanishing Euclidean norm, exact arithmetic (hardware reciprocals ideal or with bounded relative error)", "why_tests_cant": "Tests divide one pair; sharing of the norm helper between 3- and 4-component types is not visible on inputs with zero scalar part. (The code violates this for rotors.)", "anchors": ["public/klein/geometric_product.hpp: operator/", "public/klein/rotor.hpp: invert", "public/klein/motor.hpp: invert", "public/klein/line.hpp: invert", "public/klein/plane.hpp: invert", "public/klein/point.hpp: invert"]}
{"id": "C15", "title": "normalize() yields the documented unit norm and is idempotent", "statement": "After normalize(): p|p==1 for planes, e123==1 for points, unit norm for directions and branches, l*~l==1 for lines, r*~r==1 for rotors, m*~m==1 (scalar and pseudoscalar part) for motors; normalizing again changes nothing.", "quantifier": "all operands of non-zero norm; exact arithmetic, and with any hardware estimate of relative error at most 1.5*2^-12 the error stays below the documented accuracy", "why_tests_cant": "Depends on a Newton-Raphson step on a hardware estimate; tests check single values with a tolerance of 1e-5.", "anchors": ["public/klein/plane.hpp: normalize", "public/klein/point.hpp: normalize", "public/klein/direction.hpp: normalize", "public/klein/line.hpp: normalize", "public/klein/rotor.hpp: normalize", "public/klein/motor.hpp: normalize"]}
{"id": "C16", "title": "normalize() does not change the geometric object", "statement": "Normalizing a plane, point, line, branch, rotor or motor leaves the set of points it describes (for entities) or its action on points (for rotors and motors) unchanged.", "quantifier": "all operands of non-zero norm", "why_tests_cant": "The plane test only checks p|p, which ignores the distance coefficient. (The code violates this for planes.)", "anchors": ["public/klein/plane.hpp: normalize", "public/klein/line.hpp: normalize", "public/klein/motor.hpp: normalize", "public/klein/rotor.hpp: normalize", "public/klein/point.hpp: normalize"]}
{"id": "C17", "title": "Reversal", "statement": "`~` on lines, branches, rotors and motors is the reverse anti-automorphism: ~(a*b) == ~b * ~a, ~~a == a, and ~m undoes m for normalized m.", "quantifier": "all operands", "why_tests_cant": "Universal identity; not tested directly.", "anchors": ["public/klein/motor.hpp: operator~", "public/klein/rotor.hpp: operator~", "public/klein/line.hpp: operator~"]}
{"id": "C18", "title": "sqrt() squares back", "statement": "sqrt(r)*sqrt(r)==r for normalized rotors, motors, translators and branches (scalar part different from -1), and sqrt(m) performs half of m's motion.", "quantifier": "all normalized operands off the antipode", "why_tests_cant": "The test checks one motor within tolerance.", "anchors": ["public/klein/exp_log.hpp: sqrt"]}
{"id": "C19", "title": "exp() is the exponential series", "statement": "exp of a branch, an ideal line and a line equals the sum of the power series B^k/k! computed with the geometric product.", "quantifier": "all bivectors (including ideal ones and, for lines, non-simple bivectors with a pseudoscalar-producing square)", "why_tests_cant": "A statement about an infinite series over all bivectors.", "anchors": ["public/klein/exp_log.hpp: exp", "public/klein/detail/x86/x86_exp_log.hpp: exp"]}
{"id": "C20", "title": "exp(log(m)) recovers m", "statement": "For every normalized motor or rotor m, exp(log(m)) performs the same motion as m.", "quantifier": "all normalized motors and rotors, including half-turns and pure translations", "why_tests_cant": "Special branches (no rotation; near-zero scalar part) partition the input space; the tests take one generic motor. (The code violates this on half-turns and for scalar part -1.)", "anchors": ["public/klein/detail/x86/x86_exp_log.hpp: log, exp", "public/klein/exp_log.hpp: log, exp"]}
{"id": "C21", "title": "log(exp(B)) recovers B on the principal branch", "statement": "For each line B whose rotation amount lies strictly between 0 and pi, log(exp(B)) == B.", "quantifier": "all such bivectors", "why_tests_cant": "Involves inverse trigonometric branch choices over a continuum.", "anchors": ["public/klein/detail/x86/x86_exp_log.hpp: log, exp"]}
{"id": "C22", "title": "Interpolation by logarithm: exp(l/n) applied n times is exp(l)", "statement": "For each bivector l and each n >= 1, composing exp(l/n) with itself n times equals exp(l); exp(s*l)*exp(t*l)==exp((s+t)*l).", "quantifier": "all bivectors, all n", "why_tests_cant": "Unbounded in n; the library documents this as the interpolation recipe.", "anchors": ["public/klein/exp_log.hpp: exp", "public/klein/detail/x86/x86_exp_log.hpp: exp"]}
{"id": "C23", "title": "Documented meaning of quotients: the square root takes b to a", "statement": "sqrt(a*b) (or its documented reverse) maps b to a for points, planes, branches and lines, as the documentation of the `*` overloads states.", "quantifier": "all normalized operands for which the square root exists", "why_tests_cant": "Tests try one example per type; for branches and lines the test reverses the image (`~sqrt(a*b)(b)`) rather than the square root as the documentation says, and its line example cannot tell the two exchanged components apart.", "anchors": ["public/klein/geometric_product.hpp: operator*(point,point), operator*(plane,plane), operator*(line,line), operator*(branch,branch)", "public/klein/exp_log.hpp: sqrt"]}
{"id": "C24", "title": "Matrix conversion agrees with direct application", "statement": "Multiplying the homogeneous coordinates of a point by motor::as_mat4x4/as_mat3x4 (rotor::as_mat...) gives the same point as applying the motor (rotor); every element of the returned matrix is determined by the operand.", "quantifier": "all motors/rotors (normalized for mat3x4) and all points", "why_tests_cant": "Tests compare one matrix with one point; uninitialised columns for rotors are not covered. (The code violates this for rotors.)", "anchors": ["public/klein/motor.hpp: as_mat3x4, as_mat4x4", "public/klein/rotor.hpp: as_mat3x4, as_mat4x4", "public/klein/detail/x86/x86_matrix.hpp: mat4x4_12", "public/klein/mat4x4.hpp"]}
{"id": "C25", "title": "Motor applied to the origin", "statement": "motor::operator()(origin) returns the same point as applying the motor to the point (0,0,0), for each normalized motor.", "quantifier": "all normalized motors", "why_tests_cant": "Universal identity.", "anchors": ["public/klein/motor.hpp: operator()(origin)", "public/klein/detail/x86/x86_sandwich.hpp: swo12"]}
{"id": "C26", "title": "Batch application is elementwise application", "statement": "operator()(in, out, count) with non-overlapping arrays writes to out[i] exactly what the single-element call returns for in[i], for every i < count, bit for bit, writes nothing outside out[0..count), and leaves in unchanged.", "quantifier": "all counts, all array contents, all rotors/motors, any arithmetic", "why_tests_cant": "Unbounded array lengths and arbitrary contents; tests use two elements.", "anchors": ["public/klein/motor.hpp: operator()(T*,T*,size_t)", "public/klein/rotor.hpp: operator()(T*,T*,size_t)", "public/klein/detail/x86/x86_sandwich.hpp: sw012, sw312, swMM"]}
{"id": "C27", "title": "In-place batch application", "statement": "operator()(in, out, count) with in == out (which the documentation permits) leaves in every slot the same result as the single-element call on the slot's original value.", "quantifier": "all counts and contents", "why_tests_cant": "Not tested; the outcome depends on re-reading an element after it was overwritten. (The code violates this under sequential semantics and violates the restrict qualifier.)", "anchors": ["public/klein/motor.hpp: operator()(T*,T*,size_t)", "public/klein/rotor.hpp: operator()(T*,T*,size_t)", "public/klein/detail/x86/x86_sandwich.hpp: sw012, sw312, swMM"]}
{"id": "C28", "title": "SSE3 and SSE4.1 builds agree", "statement": "Each public operation returns the same value in the default (SSE3) build and in the KLEIN_SSE_4_1 build.", "quantifier": "all well-formed operands, exact arithmetic", "why_tests_cant": "A test binary exercises one build at a time, on few values. (The code violates this for plane::normalize.)", "anchors": ["public/klein/detail/x86/x86_sse.hpp: dp, dp_bc, hi_dp, hi_dp_bc", "public/klein/plane.hpp: normalize", "public/klein/translator.hpp", "public/klein/detail/x86/x86_exterior_product.hpp", "public/klein/detail/x86/x86_inner_product.hpp"]}
{"id": "C29", "title": "C++11 and C++17 builds agree", "statement": "The hand-expanded C++11 specialisations of the sandwich and matrix kernels compute the same function as the C++17 templates for every combination of template parameters.", "quantifier": "all template parameter combinations, all operands, any arithmetic", "why_tests_cant": "About 850 lines of duplicated code selected at compile time; one test binary sees only one of the two.", "anchors": ["public/klein/detail/x86/x86_sandwich_cxx11.inl", "public/klein/detail/x86/x86_matrix_cxx11.inl", "public/klein/detail/x86/x86_sandwich.hpp", "public/klein/detail/x86/x86_matrix.hpp"]}
{"id": "C30", "title": "The GLSL port agrees with the C++ library", "statement": "kln_mul and kln_apply in klein.glsl return the same coefficients as operator* and operator() of the C++ types.", "quantifier": "all coefficient values, exact arithmetic", "why_tests_cant": "Two independent implementations are compared on single inputs only.", "anchors": ["glsl/klein.glsl: kln_mul, kln_apply", "test/glsl_shim.hpp"]}
{"id": "C31", "title": "The C bindings agree with their documentation and with the C++ library", "statement": "Each kln_* function of the C API returns what the corresponding C++ operation returns and builds the element its header comment documents.", "quantifier": "all arguments", "why_tests_cant": "There are no tests of the C bindings' argument order. (The header comments of kln_line_init and kln_compose_translator_rotor disagree with the code.)", "anchors": ["c_src/klein_c.cpp", "c_src/klein.h"]}
{"id": "C32", "title": "Converting a rotor or translator to a motor preserves its action", "statement": "Constructing a motor from a rotor or translator, or assigning one to a motor, gives a motor with the same action on every entity.", "quantifier": "all rotors/translators and entities", "why_tests_cant": "Assignment operators are untested. (The code violates this for assignment from a translator.)", "anchors": ["public/klein/motor.hpp: motor(rotor), motor(translator), operator=(rotor), operator=(translator)"]}
{"id": "C33", "title": "Join geometry", "statement": "The line a & b of two points contains both; its norm is the distance of normalized points; a & b & c contains the three points and its norm is twice the triangle's area; the join vanishes iff the points coincide (are collinear).", "quantifier": "all points", "why_tests_cant": "Geometric statements over all configurations including degenerate ones.", "anchors": ["public/klein/join.hpp: operator&"]}
{"id": "C34", "title": "Meet geometry", "statement": "The meet of two planes contains exactly the points on both planes; the meet of a plane and a line lies on both, and is a proper point unless they are parallel; the meet of two lines vanishes iff they are coplanar.", "quantifier": "all planes, lines and points", "why_tests_cant": "Quantifies over all configurations.", "anchors": ["public/klein/meet.hpp: operator^"]}
{"id": "C35", "title": "Projection", "statement": "project(point, plane), project(point, line) return the point of the target closest to the operand; project(line, plane) lies in the plane and project(plane, point), project(line, point), project(plane, line) pass through the point/line and are parallel to the operand.", "quantifier": "all operands with non-degenerate target", "why_tests_cant": "Minimality is a statement about every point of the target.", "anchors": ["public/klein/projection.hpp: project"]}
{"id": "C36", "title": "Motions commute with meet and join", "statement": "For each motor m, m(a ^ b) equals m(a) ^ m(b) and m(a & b) equals m(a) & m(b) up to the motor's norm, hence incidence is preserved.", "quantifier": "all motors and operands", "why_tests_cant": "Universal covariance identity of degree up to 5.", "anchors": ["public/klein/motor.hpp: operator()", "public/klein/meet.hpp", "public/klein/join.hpp"]}
{"id": "C37", "title": "Metric readings", "statement": "For normalized operands: point & plane gives the signed distance up to orientation, plane | plane the cosine of the angle, the norm of point & line the distance of the point to the line, and the e0123 part of line ^ line is distance times sine of the angle between lines.", "quantifier": "all normalized operands", "why_tests_cant": "Tests sample single distances.", "anchors": ["public/klein/join.hpp: operator&", "public/klein/inner_product.hpp: operator|", "public/klein/line.hpp: norm, squared_norm", "public/klein/plane.hpp: norm"]}
{"id": "C38", "title": "Equality and approximate equality", "statement": "operator== is true iff every coefficient compares equal under IEEE rules (so NaN makes it false and -0 equals +0); approx_eq(b, eps) is true iff each coefficient differs by less than eps; both are symmetric.", "quantifier": "all float values including NaN, infinities and signed zeros", "why_tests_cant": "The documentation says 'bitwise comparison'; special values are not tested. (Bitwise equality is refuted.)", "anchors": ["public/klein/plane.hpp: operator==, approx_eq", "public/klein/line.hpp: operator==, approx_eq", "public/klein/rotor.hpp: operator==, approx_eq", "public/klein/motor.hpp: operator==, approx_eq"]}
{"id": "C39", "title": "constrain() picks the short-path representative", "statement": "constrained() returns r or -r with non-negative scalar part and the same action on every entity; constraining twice changes nothing.", "quantifier": "all rotors and motors, including signed zero scalar parts", "why_tests_cant": "Tests check two rotors; signed zeros are not covered.", "anchors": ["public/klein/rotor.hpp: constrain", "public/klein/motor.hpp: constrain"]}
{"id": "C40", "title": "Accuracy of the refined reciprocal and reciprocal square root", "statement": "With a hardware estimate of relative error at most 1.5*2^-12 (the documented rcpps/rsqrtps bound), the division by a scalar and the normalizations use factors whose relative error, including all binary32 roundings, is at most 2^-21 (the code comments claim about 22 bits).", "quantifier": "all inputs in the normal range and all conforming hardware estimates", "why_tests_cant": "The estimate differs between CPUs; a test sees one CPU and a few inputs.", "anchors": ["public/klein/detail/x86/x86_sse.hpp: rcp_nr1, rsqrt_nr1"]}
{"id": "C41", "title": "Binary32 forward error of products and sandwiches", "statement": "For operands within a safe exponent range, each coefficient returned in binary32 differs from the exact value by at most a small multiple of 2^-24 times the sum of absolute values of the monomials (no catastrophic blow-up beyond cancellation), and all results are finite.", "quantifier": "all finite operands within the range", "why_tests_cant": "Floating-point error is a worst case over 2^256 inputs.", "anchors": ["public/klein/detail/x86/x86_geometric_product.hpp", "public/klein/detail/x86/x86_sandwich.hpp", "public/klein/detail/x86/x86_exterior_product.hpp", "public/klein/detail/x86/x86_inner_product.hpp"]}
{"id": "C42", "title": "Exactness on small integers", "statement": "When all operand coefficients are integers of small magnitude, products, meets, inner products and sandwiches computed in binary32 are exact.", "quantifier": "all integer operands up to the bound", "why_tests_cant": "2^40 and more combinations; the test-suite silently relies on this (it compares with ==).", "anchors": ["public/klein/detail/x86/x86_geometric_product.hpp", "public/klein/detail/x86/x86_sandwich.hpp"]}
{"id": "C43", "title": "Directions are translation invariant", "statement": "Constructing a direction gives a unit direction along (x,y,z); a motor acts on directions through its rotation part only, with homogeneous coordinate exactly zero.", "quantifier": "all motors and directions", "why_tests_cant": "Universal identity.", "anchors": ["public/klein/direction.hpp", "public/klein/motor.hpp: operator()(direction)", "public/klein/rotor.hpp: operator()(direction)"]}
{"id": "C44", "title": "Linear structure and accessors", "statement": "Addition, subtraction, scaling by float/int, division by float/int and unary minus act coefficientwise as read through the accessors; reversed-index accessors (e21 etc.) are the negatives; constructors and load/store round-trip.", "quantifier": "all coefficient values", "why_tests_cant": "Dozens of overloads and accessors, mostly untested.", "anchors": ["public/klein/plane.hpp", "public/klein/point.hpp", "public/klein/line.hpp", "public/klein/rotor.hpp", "public/klein/motor.hpp", "public/klein/translator.hpp", "public/klein/direction.hpp", "public/klein/dual.hpp"]}
{"id": "C45", "title": "Well-formedness of lines and translators is preserved", "statement": "Lines, branches, ideal lines and translators carry a hidden unused component that must be zero; each operation that returns such an object from well-formed operands returns a well-formed one.", "quantifier": "all well-formed operands and all operations, any sequence of operations", "why_tests_cant": "An invariant over arbitrary sequences of operations; the component is not observable directly except through later wrong results.", "anchors": ["public/klein/line.hpp", "public/klein/translator.hpp", "public/klein/geometric_product.hpp", "public/klein/exp_log.hpp", "public/klein/meet.hpp", "public/klein/join.hpp"]}
{"id": "C46", "title": "Degenerate inputs", "statement": "log of the identity rotor is the zero branch and exp of the zero branch is the identity rotor (as it is for motors and lines).", "quantifier": "the degenerate inputs and a neighbourhood", "why_tests_cant": "Not tested. (In binary32 the code yields NaN.)", "anchors": ["public/klein/exp_log.hpp: log(rotor), exp(branch)"]}
{"id": "C47", "title": "One handedness for rotations", "statement": "rotor(ang, axis) and the screw motor motor(ang, 0, line through the origin along the axis) describe the same rotation.", "quantifier": "all angles and axes", "why_tests_cant": "Each is tested alone with its own expected value. (The code violates this.)", "anchors": ["public/klein/rotor.hpp: rotor(float,float,float,float)", "public/klein/motor.hpp: motor(float,float,line)"]}
{"id": "C48", "title": "Symbolic geometric product is a Clifford product", "statement": "For the symbolic algebra with p positive, q negative and r null generators, the product of basis blades is associative, generators square to +1/-1/0 as documented, distinct generators anticommute, and 1 is neutral.", "quantifier": "all signatures accepted by the constructor, all blades", "why_tests_cant": "2^(3n) triples per signature, unbounded signatures. (Fails for dimension above 8.)", "anchors": ["sym/ga.cpp: algebra::mul", "sym/ga.hpp: algebra"]}
{"id": "C49", "title": "Symbolic exterior, inner, dual, regressive and reverse", "statement": "In the symbolic PGA, `^` is the exterior product (associative, anticommuting on generators), `|` is the grade-|r-s| part of the product and zero when an operand is a scalar (the documented convention), the dual is an involution agreeing with the library's `!`, `&` is the dual of the meet of duals, `~` is the reverse anti-automorphism.", "quantifier": "all blades / multivectors", "why_tests_cant": "Only a few printed results are inspected.", "anchors": ["sym/ga.cpp: algebra::ext, dot, dual, reg, rev", "docs/geometry-potpourri.md"]}
{"id": "C50", "title": "Symbolic polynomials form a commutative ring with unique normal form", "statement": "+,-,* of symbolic polynomials evaluate like the ring operations under each assignment of the variables; results contain no zero coefficients; two results denoting the same polynomial are structurally equal.", "quantifier": "all polynomials, all assignments", "why_tests_cant": "Unbounded data; map-based merge/cancellation code with iterator subtleties.", "anchors": ["sym/poly.cpp: poly::operator+=, operator-=, operator*, push", "sym/poly.hpp"]}
{"id": "C51", "title": "Monomial order is a strict total order", "statement": "The comparison used as std::map key order is irreflexive, transitive, total, and equivalent exactly when the monomials are equal; multiplication of monomials is commutative and associative.", "quantifier": "all monomials", "why_tests_cant": "std::map has undefined behaviour if the order is not strict-weak; this is a universal statement.", "anchors": ["sym/poly.cpp: operator<(mon,mon), operator==(mon,mon), operator*(mon,mon)"]}
{"id": "C52", "title": "Symbolic multivector arithmetic", "statement": "Products of symbolic multivectors distribute over sums and their evaluation equals the algebra product of the evaluations; results hold no zero terms after cancellation.", "quantifier": "all multivectors and assignments", "why_tests_cant": "Unbounded data.", "anchors": ["sym/ga.cpp: mv operators"]}
{"id": "C53", "title": "The tokenizer terminates", "statement": "tokenize(input) returns for every input string.", "quantifier": "all strings", "why_tests_cant": "A hanging input cannot be found by finitely many examples in general. (The code violates this: e.g. the input \"a\".)", "anchors": ["sym/parser.cpp: tokenize, tokenize_identifier"]}
{"id": "C54", "title": "The tokenizer stays inside its number buffer", "statement": "Scanning a number never writes outside the 32-byte scratch buffer and rejects longer numbers with an exception.", "quantifier": "all strings", "why_tests_cant": "Memory safety over all lengths. (The code violates this from 32 digits on.)", "anchors": ["sym/parser.cpp: tokenize_number"]}
{"id": "C55", "title": "Basis element tokens", "statement": "The token e<digits> denotes the signed blade obtained by permuting the digits into ascending order (sign of the permutation), repeated digits are rejected, and indices outside the algebra are rejected.", "quantifier": "all digit strings", "why_tests_cant": "Unbounded. (Digits 8 and 9 and out-of-range indices are accepted silently.)", "anchors": ["sym/parser.cpp: tokenize_element", "sym/parser.hpp: element"]}
{"id": "C56", "title": "Parser precedence and meaning", "statement": "For each expression tree, parsing its token rendering yields the value of the tree; operators bind | tighter than & tighter than ^ tighter than * tighter than binary +/-; all are left-associative.", "quantifier": "all expression trees of any size", "why_tests_cant": "Unbounded; a recursive-descent parser with five levels.", "anchors": ["sym/parser.cpp: parse_expr, parse_term, parse_ext_factor, parse_reg_factor, parse_dot_factor, parse_factor"]}
{"id": "C57", "title": "Parser safety", "statement": "On every token list produced by the tokenizer the parser terminates with a value or an exception and never reads past the end-of-input token.", "quantifier": "all token lists ending in end-of-input", "why_tests_cant": "Memory safety over unbounded inputs.", "anchors": ["sym/parser.cpp: parse, parse_factor"]}
{"id": "C58", "title": "Parser consumes its whole input", "statement": "parse(input) either accounts for every token of the input or throws.", "quantifier": "all inputs", "why_tests_cant": "(The code violates this: text after an unmatched ')' or a juxtaposed '(' is dropped silently.)", "anchors": ["sym/parser.cpp: parse, parse_expr"]}
{"id": "C59", "title": "The symbolic algebra validates the SIMD kernels", "statement": "The coefficients the symbolic algebra (3,0,1) computes for the product/sandwich expressions in scripts/validation.klein are the coefficients the SIMD operations return.", "quantifier": "all coefficient values and all products", "why_tests_cant": "The script output is compared by eye.", "anchors": ["scripts/validation.klein", "sym/ga.cpp", "public/klein/detail/x86/x86_geometric_product.hpp", "public/klein/detail/x86/x86_sandwich.hpp"]}
{"id": "C60", "title": "Printed monomials and multivectors", "statement": "Printing a symbolic multivector shows each non-zero term exactly once with its blade name and coefficient, so that reading the text back gives the same multivector.", "quantifier": "all multivectors", "why_tests_cant": "Unbounded data.", "anchors": ["sym/ga.cpp: operator<<", "sym/poly.cpp: operator<<"]}
{"id": "C61", "title": "Loads and stores", "statement": "load reads exactly the documented floats at any alignment; store writes exactly four floats, store followed by load gives the entity back, and both are defined for any float array of the documented length.", "quantifier": "all memories, addresses and entities", "why_tests_cant": "Alignment of a buffer is chosen by the compiler or allocator; a test that happens to use aligned buffers sees nothing. (store uses an aligned instruction and is undefined for buffers that are only float-aligned.)", "anchors": ["public/klein/point.hpp: load, store", "public/klein/rotor.hpp: load_normalized, store", "public/klein/motor.hpp: load", "public/klein/plane.hpp: load", "public/klein/line.hpp: store", "public/klein/translator.hpp: load_normalized"]}
{"id": "C62", "title": "Constants", "statement": "The constants of the library (pi, pi/2, pi/4, 2 pi, e, sqrt 2, sqrt 2 / 2) are the correctly rounded single-precision values of the numbers they are named after.", "quantifier": "the seven constants", "why_tests_cant": "A test compares a constant with another decimal literal; only an interval proof about the real number decides the rounding.", "anchors": ["public/klein/util.hpp"]}
{"id": "C63", "title": "Lines read by the tool", "statement": "The line loop of the symbolic tool skips blank and comment lines, prints the value of every other line that is an expression, and never fails to return.", "quantifier": "all lines", "why_tests_cant": "Unbounded input. (Lines containing a decimal point are dropped silently and some lines hang.)", "anchors": ["sym/repl.cpp", "sym/parser.cpp"]}
{"id": "C64", "title": "Documented motor interpolation (slerp)", "statement": "blend_motors(a,b,t) = exp(t log(b ~a)) a, the interpolation the documentation recommends, is a normalized motor for every t, equals a at t=0 and b at t=1, and moves every point with constant speed along the shorter way.", "quantifier": "all normalized motors a, b; all real t; all points", "why_tests_cant": "A claim about a curve; no test evaluates it. (It does not reach b for half-turns without slide.)", "anchors": ["docs/case_studies/ga_skeletal_animation.md", "public/klein/motor.hpp", "public/klein/exp_log.hpp: log, exp"]}
{"id": "C65", "title": "Documented linear interpolation (nlerp)", "statement": "nlerp(a,b,t) is a normalized motor with nlerp(a,b,0)=a and nlerp(a,b,1)=b, and lerp needs no normalization exactly under the condition the documentation gives.", "quantifier": "all normalized motors a, b and t in [0,1]", "why_tests_cant": "A claim about a curve; no test evaluates it. (The documented condition is wrong by a factor of 2, and antipodal motors cannot be blended.)", "anchors": ["docs/case_studies/ga_skeletal_animation.md", "public/klein/motor.hpp: normalize"]}
{"id": "C66", "title": "Scripts and sessions of the symbolic tool", "statement": "Run through the tool, every line of scripts/demo.klein and scripts/test.klein gives the multivector the SIMD operation it stands for returns; a session's output is the concatenation of its lines' outputs with comments echoed; the session documented in docs/shell.md produces the documented output.", "quantifier": "all values of the script variables, all sessions, both builds", "why_tests_cant": "The scripts' output is compared by eye and the documented session is never run. (The documented output is wrong.)", "anchors": ["scripts/demo.klein", "scripts/test.klein", "docs/shell.md", "sym/repl.cpp"]}
{"id": "C67", "title": "Formulas in the code comments", "statement": "The expansion written in the comment above each product and sandwich kernel (and the remarks, Newton steps, matrix and exponential derivations) is what the kernel computes.", "quantifier": "all operands, both builds", "why_tests_cant": "Comments are not executed. (Some are wrong: a derivative in the Newton comment, one sign in the case study, and the line*line kernel does not follow its own comment.)", "anchors": ["public/klein/detail/x86/x86_geometric_product.hpp", "public/klein/detail/x86/x86_exterior_product.hpp", "public/klein/detail/x86/x86_inner_product.hpp", "public/klein/detail/x86/x86_sandwich.hpp", "public/klein/detail/x86/x86_matrix.hpp", "public/klein/detail/x86/x86_sse.hpp", "public/klein/detail/x86/x86_exp_log.hpp", "docs/case_studies"]}
{"id": "C68", "title": "The geometry primer", "statement": "The equations, projection and measurement formulas and code snippets of docs/geometry-potpourri.md hold in the algebra and for the library's operations.", "quantifier": "all points, lines and planes for the formulas; each printed equation", "why_tests_cant": "Documentation is not executed. (Two projection formulas, two snippets and one plane equation are wrong.)", "anchors": ["docs/geometry-potpourri.md", "public/klein/projection.hpp"]}
{"id": "C69", "title": "Only documented coefficients are read", "statement": "Directions, lines, branches, ideal lines and translators have a register lane that no accessor shows; every operation gives results that agree in every accessor whenever its arguments do.", "quantifier": "all operations on those types, all contents of the hidden lane, both builds", "why_tests_cant": "Tests build objects from coefficients, which leaves the lane zero. (False for eleven operations, and four more in the SSE3 build.)", "anchors": ["public/klein/line.hpp", "public/klein/translator.hpp", "public/klein/direction.hpp", "public/klein/detail/x86/x86_sandwich.hpp", "public/klein/detail/x86/x86_exp_log.hpp", "public/klein/detail/x86/x86_inner_product.hpp"]}
{"id": "C70", "title": "Entities are the motions they stand for", "statement": "overview.md and the comments on points, lines, planes, rotors, translators and motors: a plane is the set of fixed points of its reflection, the axis of a normalized motor without slide the set of fixed points of its rotation, a point the single fixed point of a reflection in three planes; products of two planes are rotations or translations and all of these arise so; every normalized motor is a screw about some line; exp(l) has axis l; exp((p+q e0123) l) is the screw about l by half of p and q; line * line is a screw about the common normal; scaling a motor does not change the motion and scaling its logarithm takes powers.", "quantifier": "all planes, points, lines, rotors, translators and normalized motors; all dual numbers; both builds", "why_tests_cant": "Fixed-point sets and existence of factorizations quantify over all points and all factors; tests move single points. (False: the dual factor is 2, not one half, with the angle's sign reversed; line * line is not about the common normal.)", "anchors": ["docs/overview.md", "docs/api/point.md", "public/klein/geometric_product.hpp", "public/klein/exp_log.hpp", "public/klein/line.hpp", "public/klein/translator.hpp", "public/klein/motor.hpp"]}
{"id": "C71", "title": "Normalized means exactly normalized", "statement": "In binary32 the w of a normalized point is exactly 1 (point.hpp 123), normalizing something normalized changes nothing, and dividing by 1 changes nothing.", "quantifier": "all points, planes, directions, branches, rotors; every reciprocal estimate within the documented error", "why_tests_cant": "Depends on bits of the estimate that differ between processors; the tests compare with a tolerance. (False: an estimate of 1 - 2^-12 for 1/1 gives w = 1 - 2^-24.)", "anchors": ["public/klein/point.hpp", "public/klein/detail/x86/x86_sse.hpp", "public/klein/plane.hpp", "public/klein/rotor.hpp"]}
{"id": "C72", "title": "Rotors stay rotors in binary32", "statement": "Normalizing a rotor or motor of any reasonable length leaves its scalar and bivector part within 24 * 2^-24 of unit length; composing n normalized rotors one after another drifts at most 26 n * 2^-24 from unit length and 10 n * 2^-24 from the exact product per coefficient; applying a normalized rotor, translator or motor, or such a composition, to two points changes their distance by at most a stated multiple of 2^-24.", "quantifier": "all rotors and motors with finite coefficients and length between 2^-20 and 2^20; all lists of at most 2^18 normalized rotors; all points with coordinates up to 2^20 in magnitude, subnormal ones included; every reciprocal square root estimate within the documented error; both builds", "why_tests_cant": "The tests compare a few products with a tolerance; drift over a long chain of compositions and the distances between moved points are never measured, and the bound has to hold for every estimate the hardware may return.", "anchors": ["public/klein/rotor.hpp", "public/klein/motor.hpp", "public/klein/translator.hpp", "public/klein/detail/x86/x86_geometric_product.hpp", "public/klein/detail/x86/x86_sandwich.hpp", "public/klein/detail/x86/x86_sse.hpp"]}
{"id": "C73", "title": "Constructors, exp and sqrt of rotors in binary32", "statement": "A rotor built from an angle and an axis is within 10 * 2^-24 of the exact one, and one built from Euler angles within 30 * 2^-24 of the product of the three rotations; a translator built from a distance and an axis is within 7 * 2^-24 of the exact one, relative to the distance; the exponential of a branch of length t is within (16 + 10 t) * 2^-24 of the exact rotor and within 32 * 2^-24 of unit length whatever t is; the square of the computed square root of a rotor, branch or motor is the argument up to 125 * 2^-24 divided by the length of 1 + r.", "quantifier": "all finite angles up to 2^20, all finite axes of length between 2^-20 and 2^20 (normalized or not, with subnormal coordinates), all distances up to 2^40, all branches of length between 2^-20 and 2^19, all rotors of nearly unit length with |1 + r| at least 2^-10; every sin and cos within 2 * 2^-24 and every reciprocal square root estimate within the documented error; both builds", "why_tests_cant": "The tests compare a handful of angles to a few decimals; the bounds must hold for all angles, all axes and all conforming library functions and estimates, and the accuracy of the square root degrades near a full turn, which no test approaches.", "anchors": ["public/klein/rotor.hpp:72", "public/klein/rotor.hpp:86", "public/klein/translator.hpp:56", "public/klein/exp_log.hpp:108", "public/klein/exp_log.hpp:123", "public/klein/detail/x86/x86_sse.hpp"]}
{"id": "C74", "title": "The published assembly computes the published functions", "statement": "docs/perf.md prints the machine code of rotor composition and of applying a motor to a point: executed instruction by instruction it returns bit for bit what the sources compute, and the code it is compared with (RTM, GLM) is semantically identical.", "quantifier": "all rotors, motors and points in binary32 (infinities and NaN included) for Klein's listings; all real quaternions, dual quaternions and vectors for the others", "why_tests_cant": "Listings in documentation are never run, and a listing from an older version of the source would look the same. (False for GLM: its rotor product has the operands in the other order, and its dual quaternion application turns the wrong way round and ignores the translation.)", "anchors": ["docs/perf.md:48", "docs/perf.md:152", "docs/perf.md:254", "docs/perf.md:423", "docs/perf.md:594", "perf/klein_perf.cpp", "public/klein/detail/x86/x86_geometric_product.hpp:138", "public/klein/detail/x86/x86_sandwich.hpp:515"]}
{"id": "C75", "title": "Where a point ends up: constructors, product and application together in binary32", "statement": "A point turned by a rotor built from an angle and an axis lands within 76 * 2^-24 of its distance from the origin of where the rotation takes it; a translator built from a distance and an axis moves it to within 2^-24 * (10 |p| + 13 |d|); the motor r * t to within 2^-24 * (43 |p| + 46 |d|) of shifting then turning, t * r to within 2^-24 * (43 |p| + 50 |d|) of turning then shifting; the weight stays 1 up to 43 * 2^-24; the snippet of docs/quickstart.md yields (1/sqrt 2, -1, 1/sqrt 2) up to 10^-5.", "quantifier": "all finite angles and distances up to 2^20, all finite axes of length between 2^-20 and 2^20 (normalized or not), all points with coordinates up to 2^20 (subnormal ones included); every sin and cos within 2 * 2^-24; both builds", "why_tests_cant": "Errors of library functions, constructors, the product and the application add up; tests compare single examples to a few decimals and cannot bound the sum for all arguments.", "anchors": ["docs/quickstart.md:50", "public/klein/rotor.hpp:72", "public/klein/translator.hpp:56", "public/klein/geometric_product.hpp:158", "public/klein/motor.hpp:325", "public/klein/rotor.hpp:300", "public/klein/translator.hpp:118"]}
{"id": "C76", "title": "The logarithm of a rotor in binary32, and the way back", "statement": "For a rotor of length one up to 12 * 2^-24 (that is, |r|^2 within 24 * 2^-24 of 1) with scalar part in [0, 1) and bivector part v of length at least 2^-20, log(r) is finite, has no scalar part, and is within 54 * 2^-24 * |v| of (half the angle) * (unit axis) of r / |r|; exp(log(r)) is within 100 * 2^-24 of r; exp(f * log(r)) is within (17 + 75 f) * 2^-24 of the rotor turning f times the angle about the same axis, for factors f up to 2^10.", "quantifier": "all such rotors and all finite factors f in (0, 2^10] with f |v| >= 2^-19; every acos within 2 * 2^-24 on [0, 1] and every sin with relative error 2 * 2^-24; every conforming rcpps and rsqrtps; both builds", "why_tests_cant": "The angle is recovered from the rounded cosine alone, which loses half of the digits for small angles; that the error cancels in angle / sin(angle) is an analytic fact no sample of rotors establishes.", "anchors": ["public/klein/exp_log.hpp:89", "public/klein/exp_log.hpp:108", "public/klein/exp_log.hpp:26"]}
{"id": "C77", "title": "The exponential of a line and the screw constructor in binary32", "statement": "For a bivector a + b (a of length t between 2^-40 and 2^10) exp is finite and within (15 + 19 t) * 2^-24 of the exponential series in the rotor part and within (90 + 19 t) * 2^-24 * (|b| + 2^-60) in the ideal part; without a real part it is exact. motor(ang, d, line) is within (16 + 21 t) * 2^-24 and (111 + 22 t) * 2^-24 * r of the exponential of (-ang/2 + d/2 e0123) * line, and carries a point p to within 2^-24 * ((55 + 43 t)|p| + (280 + 87 t) r) of the turn about the line followed by the slide along it, where t = |ang|/2 |a|, at least 2^-32, and r = |ang|/2 |b| + |d|/2 |a| + 2^-50; the line need not be normalized or satisfy the Pluecker condition (the turn is then by ang |a|).", "quantifier": "all finite stored lines with lengths in the stated ranges, all finite angles and distances; every sin and cos within the stated error; every conforming rcpps and rsqrtps; both builds", "why_tests_cant": "The kernel divides by the length of the real part, subtracts nearly equal ideal parts and goes through two estimates and two library calls; the error of all that together, relative to the infinite series, is not visible in a few decimals of a few examples.", "anchors": ["public/klein/detail/x86/x86_exp_log.hpp:27", "public/klein/exp_log.hpp:50", "public/klein/motor.hpp:98", "public/klein/detail/x86/x86_geometric_product.hpp:195"]}
{"id": "C78", "title": "The logarithm of a motor in binary32, its exponential and its fractions", "statement": "For a motor p1 + p2 with a scalar part of at least 2^-19 and a bivector part of at least 2^-40 in length, log is finite, within 22 * 2^-24 * h in the real part (h half the angle of rotation, between 0 and pi) and within 48 * 2^-24 * (|b| + 2^-60)(h/s + 1/|p|) in the ideal part of a line whose exponential series is the motor p1 + p2 divided by |p1|, with the ideal scalar q replaced by the one that p q = a.b asks for. exp(log(m)) is within (15 + 42 h) * 2^-24 and (448 + 64 h) * 2^-24 * r of that motor, and of m itself when m is normalized to rounding and up to its violation of p q = a.b; exp(f log(m)) is within (15 + 43 T) * 2^-24 and (465 + 66 T) * 2^-24 * (|f| r + 2^-40) of the exact fraction of the motion (T = |f| h), and carries a point p to within 2^-24 * ((53 + 87 T)|p| + (987 + 219 T)(|f| r + 2^-40)) of where that takes it; r = (|b| + 2^-40)(h/s + 1/|p|).", "quantifier": "all finite stored motors and factors in the stated ranges, normalized or not, either sign of the scalar part; every sin, cos and atan2 within the stated error; every conforming rcpps and rsqrtps; both builds", "why_tests_cant": "Two estimates, three library calls, a cancellation and a division by a scalar that may be small, followed by the same again in exp; tests compare a few decimals of single round trips, and interpolation (scaling the logarithm) is never compared with the exact motion.", "anchors": ["public/klein/detail/x86/x86_exp_log.hpp:139", "public/klein/exp_log.hpp:38", "public/klein/exp_log.hpp:50", "public/klein/line.hpp:759"]}
{"id": "C79", "title": "Products, chains of products and normalization of motors in binary32", "statement": "Call a stored motor near an exact motion e of reach r to within t when its real register is within t and its ideal register within t r of a motor e with |p1| = 1, p q = a.b and |p2| <= r. The product of motors near e and f to within t and t' is near e f, of reach r + r', to within (1+t)(1+t')(1+11*2^-24) - 1; a chain of n motors each near its motion to within t is near the composed motion (the last one applied first) to within 1.1 n (t + 12*2^-24), and carries a point p to within (2.3 n t + (28n + 23) 2^-24)|p| + (4.6 n t + (56n + 26) 2^-24) r of where the motions one after another take it. normalize of any finite motor with |p1| between 2^-20 and 2^20 is near, to within 38 * 2^-24, the only proper motor that differs from it by a dual factor, whatever its violation of p q = a.b was, and leaves a violation of at most 49 * 2^-24 r; of a motor near e to within t it is near e to within 5 t + 40 * 2^-24. exp and the screw constructor give motors near the exact motion, and exp(log(normalize(m))) is within stated bounds of normalize(m).", "quantifier": "all stored motors in the stated ranges; chains of any length n with n (t + 12 * 2^-24) at most 1/12 (1/1100 for the place of the point); every conforming rcpps and rsqrtps; both builds", "why_tests_cant": "How error grows along a chain of products, and whether normalize repairs a drifted motor, are statements about every history of operations; tests multiply two motors with small integer entries and compare exactly.", "anchors": ["public/klein/detail/x86/x86_geometric_product.hpp:311", "public/klein/motor.hpp:146", "public/klein/geometric_product.hpp:222", "public/klein/detail/x86/x86_exp_log.hpp:27"]}
{"id": "C80", "title": "The documented interpolation between motors in binary32", "statement": "For stored motors a and b within t of motions ea and eb of reach r (t at most 1/2500), whose step b * ~a has a bivector part of at least 2^-38 and a scalar part of at least 2^-19, there is one line l, the same for all f, such that blend_motors(a, b, f) is near exp(f l) ea to within 1.01 t + (480 + 66 T) 2^-24 with T = |f| |l|, for all finite f with T between 2^-39 and 2^9. The path exp(s l) ea is a rigid motion for every s, is ea at s = 0, moves at constant speed (exp((s+s') l) ea = exp(s l) exp(s' l) ea), and at s = 1 is within 4.3 t + 25 * 2^-24 of eb in the real part and (13 t + 73 * 2^-24) r (1 + 1/|p|) in the ideal part, p the scalar of the step. At f = 0 (either zero) the result is near ea to within t + 12 * 2^-24, at f = 1 near eb to within 5.4 t + 770 * 2^-24. A point x lands within (2.1 t + (984 + 133 T) 2^-24)|x| + (4.1 t + (1948 + 265 T) 2^-24) R of where the path takes it, R = |f| rad + 2^-40 + r.", "quantifier": "all pairs of stored motors in the stated ranges and all finite f, extrapolation included; every sin, cos and atan2 within the stated error; every conforming rcpps and rsqrtps; both builds", "why_tests_cant": "That the sequence of computed poses follows a single exact screw motion through both ends, for every pair of poses and every f at once, is not a property of any finite set of sampled frames; the repository does not test this code at all.", "anchors": ["docs/quickstart.md:91", "docs/case_studies/ga_skeletal_animation.md:408", "public/klein/detail/x86/x86_exp_log.hpp:139", "public/klein/detail/x86/x86_exp_log.hpp:27"]}
{"id": "C81", "title": "The documented linear blend of motors (nlerp) in binary32", "statement": "For motions a and b whose real parts have the inner product c > -1, the motor (1-s) a + s b made proper is a rigid motion for every s in [0,1], is a at s = 0 and b at s = 1, and at s = 1/2 its step from a, done twice, is the step from a to b. For stored motors within t of a and b, of reach r, and every f in [0,1], nlerp(m1, m2, f) is near that motion, of reach r / w, to within 6.1 (t + 5 * 2^-24) / w + 39 * 2^-24, where w = sqrt(1 - 2 f (1-f)(1-c)) is the length of the blend before normalization, as long as t + 5 * 2^-24 <= w / 1000; for c >= 0 that is 9 t + 83 * 2^-24, and a point x lands within (18.1 t + 189 * 2^-24)|x| + (51.5 t + 511 * 2^-24) r of where the exact motion takes it.", "quantifier": "all pairs of stored motors in the stated ranges and all finite f between 0 and 1; every conforming rcpps and rsqrtps; both builds", "why_tests_cant": "The blend is not a motor before normalize and may be arbitrarily short; how much the rounding and the input errors are amplified by normalizing it is a bound over all pairs of poses. The repository has the code only in its documentation and never runs it.", "anchors": ["docs/case_studies/ga_skeletal_animation.md:267", "public/klein/motor.hpp:146", "public/klein/motor.hpp:529", "public/klein/motor.hpp:563"]}
{"id": "C82", "title": "Square roots of motors, rotors and translators in binary32", "statement": "For a stored motor within t of a motion e of reach r with scalar part c > -1, sqrt is near, of reach r / (2 w), to within 6.1 (t + 2 * 2^-24) / w + 39 * 2^-24, a rigid motion whose square is exactly e, where w = sqrt((1 + c) / 2) is the cosine of a quarter of the angle, as long as w >= 2^-18 and t + 2 * 2^-24 <= w / 1000. For c >= 0 (turns up to 180 degrees) that is 9 t + 57 * 2^-24, sqrt(m) * sqrt(m) is near e to within 18.2 t + 127 * 2^-24, and sqrt(m) carries a point x to within (18.1 t + 137 * 2^-24)|x| + (25.8 t + 182 * 2^-24) r of where half of the motion takes it. sqrt of a rotor within t of e is within 2 (t + 2 * 2^-24)/w + 10 * 2^-24 of the unit root of e. sqrt of a translator is exactly half of it, and its square is the translator again bit for bit in value, unless a coefficient is below 2^-125 or above 2^127.", "quantifier": "all stored motors, rotors and translators in the stated ranges; every conforming rcpps and rsqrtps; both builds", "why_tests_cant": "Adding one and normalizing amplifies the error of the argument by the inverse of w, without bound near a full turn; tests check one or two roots to a few decimals.", "anchors": ["public/klein/exp_log.hpp:123", "public/klein/exp_log.hpp:139", "public/klein/exp_log.hpp:146", "public/klein/motor.hpp:146"]}
{"id": "C83", "title": "Matrices made from motors in binary32", "statement": "For a stored motor within t of a motion e of reach r (2^-60 <= r <= 2^19, t <= 1/1000), as_mat3x4 and as_mat4x4 return a matrix whose 16 entries are finite, whose last row is (0, 0, 0, 1) -- exactly for mat3x4, and with the corner within 2.01 t + 6.1 * 2^-24 of 1 for mat4x4 -- and which, applied in exact arithmetic, turns every vector x to within (2.01 t + 12.2 * 2^-24)|x| of where e turns it and moves every point x to within that plus (4.01 t + 21.2 * 2^-24) r of where e moves it; so the 3x3 block keeps scalar products up to (4.03 t + 24.6 * 2^-24)|x||y|. mat::operator() in binary32 on a point of weight 1 is within (2.01 t + 24.2 * 2^-24)|x| + (4.01 t + 28.2 * 2^-24) r of e(x), keeps the weight (exactly for mat3x4), agrees with motor::operator() to 46.1 * 2^-24 |p1|^2 |x| + 53.1 * 2^-24 |p1||p2| + 2^-120 for every stored motor, normalized or not, and is exact on integers up to 77.", "quantifier": "all stored motors and points in the stated ranges; both builds; no assumption on the hardware estimates", "why_tests_cant": "The matrix is computed from squares and differences that cancel, and tests compare a few sums to a few decimals. A bound uniform over all vectors says that the matrix handed to a GPU is a rigid motion.", "anchors": ["public/klein/motor.hpp:261", "public/klein/motor.hpp:270", "public/klein/mat4x4.hpp:19", "public/klein/mat3x4.hpp:20", "public/klein/detail/x86/x86_matrix.hpp:52"]}
{"id": "C84", "title": "Projections in binary32", "statement": "For all stored operands with coefficients up to 2^20 (underflow included), the six project overloads return finite coefficients within a few roundings of the exact projection, measured as vectors. With a point of weight 1, a normal or direction with squared length within 1/1000 of 1 and coordinates, offset or moment up to r: a point projected on a plane, divided by its weight, lies within 34 * 2^-24 r of the foot of its perpendicular on the stored plane; projected on a line, within 33 * 2^-24 r of the foot on the stored line. Without normalization: point on plane has weight |n|^2 w to 6.1 * 2^-24 and position |n|^2 x - (n.x + d w) n to 5.1 * 2^-24 (2|n|^2|x| + |d w||n|); line on plane has direction (n x s) x n to 8.1 * 2^-24 |n|^2|s| and the moment of the line through the feet of its points to 6.1 * 2^-24 (|n|^2|m| + 1.5|d||n||s|); plane on line has normal s x (s x n) to 8.1 * 2^-24 |n||s|^2 and the offset that makes it contain the line to 10.6 * 2^-24 |n||s||m|; the plane, or line, through a point parallel to a given one passes through the point to 9 (7) * 2^-24 |n||x|.", "quantifier": "all stored points, planes and lines up to 2^20; both builds; no assumption on the hardware estimates", "why_tests_cant": "The projections compose two kernels whose results cancel; the tests project a handful of integer points. The hidden lanes of a line register must cancel as well.", "anchors": ["public/klein/projection.hpp", "public/klein/detail/x86/x86_inner_product.hpp", "public/klein/detail/x86/x86_exterior_product.hpp"]}
{"id": "C85", "title": "Planes, lines and directions carried by motors in binary32", "statement": "For a stored motor within t of a motion e of reach r (t <= 1/1000, r <= 2^19; C79), with turn R and shift c, and stored operands up to 2^20: the image of the plane n.x + d = 0 has its normal within (2.01 t + 22 * 2^-24)|n| of R n and its offset within (2.01 t + 28 * 2^-24)|d| + (4.01 t + 32 * 2^-24) r|n| of d - R n . c; the image of the line with direction s and moment k has its direction within (2.01 t + 19 * 2^-24)|s| of R s, its moment within (2.01 t + 28 * 2^-24)|k| + (4.01 t + 56 * 2^-24) r|s| of R k + c x R s, and exact zeros in the two lanes a line does not use; a direction is turned to within (2.01 t + 22 * 2^-24)|v|. Incidence survives: a point of weight 1 and a plane (line) carried along by the same stored motor keep n.x + d w (x x s - w k, turned) to within (4.02 t + 45 * 2^-24)|n||x| + (16.1 t + 118 * 2^-24) r|n| + (4.02 t + 37 * 2^-24)|d| (with 42, 136 and 37 for lines).", "quantifier": "all stored motors near a motion, all stored planes, lines, directions and points in the stated ranges; both builds; no assumption on the hardware estimates", "why_tests_cant": "Three different kernels carry points, planes and lines; tests check each alone on one or two operands. That they describe one and the same motion, whatever the operands, is what keeps a point on its plane.", "anchors": ["public/klein/motor.hpp:279", "public/klein/motor.hpp:302", "public/klein/motor.hpp:360", "public/klein/detail/x86/x86_sandwich.hpp:255", "public/klein/detail/x86/x86_sandwich.hpp:408", "public/klein/detail/x86/x86_sandwich.hpp:515"]}
{"id": "C86", "title": "Joins, meets and metric readings in binary32", "statement": "For stored operands up to 2^20 (u = 2^-24): the line through two points of weight 1 has as direction their correctly rounded difference (so its length is their distance up to one rounding), exact zeros in the lanes a line does not use, and passes through both points y to within u|y||x'-x| + 3.1 u|x||x'|; the plane through three points a, b, c of weight 1 has the normal -(b-a)x(c-a) to within 7.6 u(|a||b| + |b||c| + |c||a|) and contains the three points to within that times |y| plus 10.6 u|a||b||c|; the plane through a point and a line contains both, two planes meet in a line through all their common points, and a plane and a line (three planes) meet in a point whose position, times its weight, is that of their common point y, each within an explicit small multiple of u times the products of magnitudes that enter; divided by its weight the point is within that error over |n.s| (the determinant of the normals) of y. The readings point & plane, plane & point, plane | plane and line ^ line are within 3, 3, 3 and 4 roundings of the sums of magnitudes of the exact values.", "quantifier": "all stored points, planes and lines with coordinates up to 2^20; both builds; no assumption on the hardware estimates", "why_tests_cant": "Tests compare a handful of small integer operands, for which everything is exact. That nothing but rounding happens, and how much, for all operands cannot be sampled.", "anchors": ["public/klein/join.hpp: operator&", "public/klein/meet.hpp: operator^", "public/klein/inner_product.hpp: operator|", "public/klein/detail/x86/x86_exterior_product.hpp: ext00, extPB, ext02, ext03"]}
{"id": "C87", "title": "The plane through three points that are not on a line", "statement": "The plane a & b & c of three stored points of weight 1 that are not on a line has a normal close to -(b-a)x(c-a), relative to the size of that vector, wherever the points are.", "quantifier": "all triples of stored points of weight 1 with coordinates up to 2^20; both builds", "why_tests_cant": "Triangles near the origin, as tests use them, come out right; whether distance from the origin destroys the result depends on products of coordinates being inexact, which small integers never show.", "anchors": ["public/klein/join.hpp: operator&", "public/klein/meet.hpp: operator^"]}
{"id": "C88", "title": "Reflections in planes in binary32", "statement": "For stored operands up to 2^20 (u = 2^-24), p(q), p(l) and p(x) are, lane by lane, within five or six roundings of the exact polynomials, and the polynomials are the images under the reflection in p: a map that keeps distances, is its own inverse, leaves the points of p where they are and moves every other point along the normal so that p halves the way. The two lanes a line does not use are exact zeros. If moreover p is normalized to 1/1000, the point has weight 1 and |x| and the offset of p are at most r (r >= 2^-60), the reflected point, divided by its weight, is within 49 u r of the mirror image of x; reflecting twice returns to within 198 u r of x; a point on a plane (line) is reflected to within 113 u |m| r (131 u |s| r) of the reflected plane (line).", "quantifier": "all stored planes, points and lines with coordinates up to 2^20; p not necessarily normalized in the lane-wise part, and not exactly in the rest; both builds; no assumption on the hardware estimates", "why_tests_cant": "Tests reflect one or two integer operands, for which everything is exact. That the three kernels stay one and the same reflection under rounding cannot be sampled.", "anchors": ["public/klein/plane.hpp:127", "public/klein/plane.hpp:137", "public/klein/plane.hpp:150", "public/klein/detail/x86/x86_sandwich.hpp:32", "public/klein/detail/x86/x86_sandwich.hpp:61", "public/klein/detail/x86/x86_sandwich.hpp:100", "public/klein/detail/x86/x86_sandwich.hpp:124"]}
{"id": "C89", "title": "The documented meaning of products of planes and of points in binary32", "statement": "The documentation says that sqrt(p1 * p2) takes p2 to p1, and that sqrt(a * b) takes the point b to the point a. In exact arithmetic (planes normalized, not opposite) it does, and the square of the root is the product. In binary32, with u = 2^-24: the lanes of the product of two planes are within six roundings (the rotational part) and two (the translational part) of the exact product and the lane of e0123 is an exact zero; if the normals are normalized to t <= 1/20000, the angle between the planes is at most 90 degrees and the offsets add up to at most r <= 2^19, then sqrt(p1 * p2) applied to p2 has a normal within 38 t + 246 u of that of p1 and an offset within (88 t + 591 u) r of that of p1 (for larger angles the bound grows with one over the cosine of half the angle); for points of weight one with coordinates between 2^-31 and 2^19 or zero, sqrt(a * b) applied to b is within u (19 |a| + 29 |b|) + 2^-117 of a, with weight within 5 u of one.", "quantifier": "all stored planes with components up to 2^20 and all stored points with coordinates zero or between 2^-31 and 2^19, under the hypotheses stated; both builds; every hardware within the documented accuracy of rcpps and rsqrtps", "why_tests_cant": "The sentence is a claim about a composition of three operations on all pairs; the tests check one pair of integer planes and one pair of integer points.", "anchors": ["public/klein/geometric_product.hpp:70", "public/klein/geometric_product.hpp:122", "public/klein/exp_log.hpp:146", "public/klein/detail/x86/x86_geometric_product.hpp:27", "public/klein/detail/x86/x86_geometric_product.hpp:170"]}
{"id": "C90", "title": "Rotors and translators carry planes, lines, branches, directions and points in binary32", "statement": "With u = 2^-24. A stored rotor within t <= 1/1000 of a unit rotor e moves the normal of a plane, the position of a point and a direction to within (2.001 t + 22 u) of their length of the vector rotated by e, keeps the offset of the plane and the weight of the point to within a relative 2.001 t + 5.1 u, and moves the two parts of a line and a branch to within (2.001 t + 19 u) of their length, hidden zero lanes staying exact zeros (plus 2^-121 for underflow). A rotor that normalize returned is within 12.1 u of a unit rotor. A stored translator by v leaves the normal of a plane and the direction of a line exactly as they were and moves the offset to within 14 u (|d| + |n| |v|), the moment to within u (5.1 |k| + 7.6 |v| |s|), a point to within u (10 |x| + 5.5 |v|). Hence the planes and lines through a point still pass through it, moved by the same rotor or translator, to within the stated multiple of u (and of t).", "quantifier": "all stored rotors within 1/1000 of a unit rotor; all stored translators with coefficients zero or between 2^-31 and 2^20 and an empty e0123 lane; all stored entities with components up to 2^20 (planes under translators: zero or at least 2^-31); both builds; every hardware within the documented accuracy of rcpps", "why_tests_cant": "The tests move a few entities with small integer coefficients and compare with a tolerance; they say nothing about the error of other inputs or about incidence after the move.", "anchors": ["public/klein/rotor.hpp:247", "public/klein/rotor.hpp:268", "public/klein/rotor.hpp:277", "public/klein/rotor.hpp:300", "public/klein/rotor.hpp:325", "public/klein/translator.hpp:95", "public/klein/translator.hpp:109", "public/klein/translator.hpp:118", "public/klein/detail/x86/x86_sandwich.hpp:197"]}
{"id": "C91", "title": "Products of branches and their square roots in binary32", "statement": "The product of two branches with unit vectors a and b is the rotor with scalar -a.b and vector b x a; it takes b to 2 (a.b) a - b, and its square root takes b to -a (the documentation says that the reverse of the root takes b to a, which C23 refutes). In binary32, with u = 2^-24: the product is within 8.1 u |a| |b| of that rotor; if a and b are normalized to t <= 1/10000, sqrt(a * b) is within T = 2 (2.001 t + 10.1 u) / w + 10 u of the exact root (w the cosine of half the angle between b and -a) and the image of b is within 2.002 T + 20 u + 2 t of -a, with an exact zero in the hidden lane; if the angle between a and b is at least 90 degrees the image is within 14 t + 98 u of -a.", "quantifier": "all stored branches with components up to 2^20 and an empty hidden lane, under the hypotheses stated; both builds; every hardware within the documented accuracy of rcpps and rsqrtps", "why_tests_cant": "A claim about a composition of three operations on all pairs of directions; the tests check one pair and only the product.", "anchors": ["public/klein/geometric_product.hpp:104", "public/klein/exp_log.hpp:123", "public/klein/rotor.hpp:268", "public/klein/detail/x86/x86_geometric_product.hpp:138"]}
{"id": "C92", "title": "Points of any weight, the image of the origin, and the way back, in binary32", "statement": "Let m be a stored motor within relative error th of an exact rigid motion e with offset part at most r (near_motor; th <= 1/1000, r <= 2^19), u = 2^-24. (1) A point of any weight w and position part x (also the weights 0 and below 0) is moved to weight w within (2.001 th + 7.1 u) |w| and to position part swung x + w (moved 0), which for w <> 0 is w times the image of the place x / w, within (2.001 th + 22.1 u) |x| + (4.002 th + 25.1 u) r |w| plus 2^-121. (2) The dedicated conjugation of the origin returns weight exactly 1 and the image of the origin within (4.002 th + 21.1 u) r + 2^-121. (3) Moving a plane, a line, a point or a direction by m and the result by ~m returns to the start: normal, direction and weight within (4.03 th + 45 u) of themselves, offset, moment and position within (4.03 th + 57 u) of themselves plus (16.1 th + 207 u) r times the length of the normal, direction or weight, plus 2^-97 (each entity with its own, smaller, constants).", "quantifier": "all stored motors and entities with components up to 2^20 whose intermediate image also stays below 2^20; both builds", "why_tests_cant": "Each is a bound over all motors and entities; the tests move one entity and never apply the reverse afterwards, and move no point of weight other than 1.", "anchors": ["public/klein/motor.hpp:348", "public/klein/motor.hpp:598", "public/klein/detail/x86/x86_sandwich.hpp:607", "public/klein/detail/x86/x86_sandwich.hpp:515"]}
{"id": "C93", "title": "Many motors applied one after the other to a plane, line, point or direction, in binary32", "statement": "Let j motors, each within relative error th of an exact rigid motion with offset part at most r, be applied one after the other (x = m(x) in a loop, no renormalisation). With u = 2^-24, A the length of the normal or direction or the weight at the start, and Y a bound on the offset, moment or position along the exact path: as long as j (4.01 th + 56 u) <= 1/100 and j r A <= 2^18, every intermediate value is finite; the normal, direction or weight drifts by at most 1.02 j a A (a = 2.01 th + 22 u, 19 u, or 2.001 th + 7.1 u) and the offset, moment or position is within 1.03 j (b Y + c r A) + 1.03 j^2 a r A of the exact one (b = 2.01 th + 28 u, c = 4.01 th + 32 u for planes, 56 u for lines; 2.001 th + 22.1 u and 4.002 th + 25.1 u for points), plus 4 j 2^-122 (1 + j r). The hidden lanes of the line stay exactly zero. The exact paths keep incidence and distances and go at most 2 r A per step, so Y = start + 2 j r A always serves. Directions drift like normals, with an exact zero weight. Two points of weight 1 carried along by the same motors keep their distance within twice the position bound.", "quantifier": "all lists of motors of any length and all planes, lines, points and directions under the hypotheses stated; both builds", "why_tests_cant": "An error bound for arbitrarily many successive applications; the tests apply one motor to one entity.", "anchors": ["public/klein/motor.hpp:279", "public/klein/motor.hpp:302", "public/klein/motor.hpp:325", "public/klein/detail/x86/x86_sandwich.hpp:515"]}
{"id": "C94", "title": "Products of many rotors, and what they do to every kind of entity, in binary32", "statement": "Let n rotors, each within th of an exact unit rotor (Euclidean distance of the four coefficients), be multiplied together by rotor * rotor in binary32 without renormalising. With u = 2^-24 and n (th + 6.2 u) <= 1/1100, the product is finite and within T = 1.001 n (th + 6.2 u) of the exact product of the unit rotors, whose turn is the composition of the n turns (the last of the list first). Applied to a plane, line, branch, direction or point it gives the composed turn of the normal, direction, moment or position to within relative error 2.001 T + 22 u, and keeps the offset or weight to within 2.001 T + 5.1 u. The composed turn keeps dot and cross products.", "quantifier": "all lists of rotors of any length and all entities with coefficients up to 2^20", "why_tests_cant": "An error bound for arbitrarily long products against the exact rotation; the tests multiply two rotors at most and compare loosely.", "anchors": ["public/klein/geometric_product.hpp:133", "public/klein/rotor.hpp:247", "public/klein/rotor.hpp:277", "public/klein/rotor.hpp:300"]}
{"id": "C95", "title": "Products of rotors, translators and motors with one another, in binary32", "statement": "Let a be a rotor within th of a unit rotor, m a motor within th2 of an exact rigid motion with offset part at most r2, and t a finite translator (hidden lane zero) with offset part at most r, 2^-60 <= r, r2 <= 2^50, u = 2^-24. Then a * t and t * a are motors within (1 + th)(1 + 6.3 u) - 1 of the exact products, a * m and m * a within (1 + th)(1 + th2)(1 + 8.4 u) - 1, t * m and m * t within (1 + th2)(1 + 8.4 u) - 1, and the exact products turn and carry points in the order written, the right factor first. Points of weight 1 under a * t and t * a land within (2.005 th + 35 u) |x| + (4.007 th + 51 u) r of the exact image. A product of translators is their sum to within relative error u, never underflowing, and a product of n + 1 of them is within 1.02 n u times the sum of their lengths of the exact sum.", "quantifier": "all rotors, translators, motors and lists of translators under the hypotheses stated; both builds", "why_tests_cant": "Error bounds for every mixed product and for arbitrarily many translators; the tests check a few products by value.", "anchors": ["public/klein/geometric_product.hpp:161", "public/klein/geometric_product.hpp:169", "public/klein/geometric_product.hpp:184", "public/klein/geometric_product.hpp:202", "public/klein/detail/x86/x86_geometric_product.hpp:233"]}
{"id": "C96", "title": "A motor built up from any mixture of rotors, translators and motors, multiplied on either side, in binary32", "statement": "Start from a motor within th of an exact rigid motion and multiply onto it any list of steps, each a rotor or motor within th of an exact one or a finite translator (hidden lane zero), each on the left or on the right as the list says, never renormalising. With u = 2^-24, n one more than the number of steps, and r the sum of the bounds on the offset parts: if n (th + 12 u) <= 1/1100 and r <= 2^50, the stored motor is finite and within 1.001 n (th + 12 u) of the exact product, which moves points as the steps do in turn, those on the right before and those on the left after what is already there. A point of weight 1 at x moved by it lands within (2.004 n (th + 12 u) + 22.1 u) |x| + (4.007 n (th + 12 u) + 25.1 u) r of the exact place, for r <= 2^19; and a point on a plane or line of coefficients up to 2^20 stays on its image to within 4.03 n (th + 12 u) + 45 u of the lengths involved (16.2 and 136 for the part carried with r).", "quantifier": "all lists of steps of any length, kind and side, and all points with coordinates up to 2^20; both builds", "why_tests_cant": "An error bound for arbitrary sequences of six different operators; the tests use each operator once or twice.", "anchors": ["public/klein/geometric_product.hpp:184", "public/klein/geometric_product.hpp:193", "public/klein/geometric_product.hpp:202", "public/klein/geometric_product.hpp:212", "public/klein/geometric_product.hpp:222"]}
