# A machine-checked model of marzer/muu

## 1. Layout

Everything is under `rocq/theories`, logical name `Verif`.  Each area has

* `<Area>Model.v`  - Gallina transcription of the C++ code, function by function. Every
  definition cites file and lines in `/repo` and says where it simplifies. No proofs.
* `<Area>Spec.v`   - small independent specifications (when they need more than a line).
* `<Area>Proofs*.v` - lemmas.
* `<Area>Props*.v`  - the final theorems, each followed by `Print Assumptions`, with
  `Example`s showing that the hypotheses are met by non-trivial values.
* `<Area>Tables.v`, `UniData.v` - tables generated from the source (or from Unicode data) by the
  scripts in `tools/`, committed as they were generated.

Conventions

* Unsigned machine integers are `N` with an explicit `mod 2^w`; signed ones are `Z`. The width is a
  parameter wherever the code is a template.
* Undefined behaviour is a separate outcome (`None`, or a `Bad`/`UB` constructor), never a normal value.
  Failed `MUU_ASSERT`/`MUU_ASSUME` and reaching `MUU_UNREACHABLE` count as undefined behaviour.
* A theorem name starts with the id of the property. `_partial` means that the property as stated is
  not proved in full (the comment says what is missing).
* Where muu's code violates the property a user relies on, the violation is proved as a theorem
  `..._refuted` with a concrete witness, next to the strongest true statement
  (`..._partial` or an exact characterisation of the inputs on which the property holds).

## 2. Trusted base

* The Coq 8.16.1 kernel (including `vm_compute`; coqchk re-checks everything without it).
* The transcription of C++ into Gallina. The citations are there to audit it.
* The scripts in `tools/`: `unicode_translate.py` turns the generated predicate functions of
  `impl/unicode_char*.h` into statement lists (it stops on any statement it does not know);
  `unicode_ranges.pl` writes the Unicode property ranges known to perl (Unicode 15.0) that the predicates are
  compared with; `constants_translate.py` copies the decimal literals and bit patterns of the named constants.
* Axioms: those printed by `Print Assumptions` under every theorem. Everything outside the
  real-number parts is "Closed under the global context". The real-number parts use the
  standard library's reals (`ClassicalDedekindReals.sig_forall_dec`, `sig_not_dec`,
  `functional_extensionality_dep`); the floating-point part also `Classical_Prop.classic`
  (through Flocq and Coquelicot, which add no axioms of their own). No axiom is added by this development.
* Contracts of what muu calls, taken from the C++ standard or the compiler's documentation: the `clz`/`ctz`/`popcount`
  builtins (`BitsModel`), `std::gcd`, `std::lcm`, `std::abs` (`MathModel`), `memcpy`/`memmove`, `std::string` and
  `std::basic_string_view` (`SparamModel`; a moved-from string is empty), `std::uncaught_exceptions` (`GuardModel`),
  `std::mutex`, `std::condition_variable` and `std::thread` (`PoolModel`), stream formatting flags (`PrintModel`),
  the real functions `sin`, `cos`, `acos`, `asin`, `atan2` (`QuatModel`), IEEE 754 arithmetic as formalised by Flocq
  (`FpModel`, `SqrtModel`, `ConstModel`). Allocation is assumed to succeed.

## 3. What is modelled

| area | source | properties | how |
|------|--------|------------|-----|
| Bits | `core_utils.h`, `bits.h` and the `impl` they use: counting, floor/ceil, byte reversal, fills, packs, alignment | C01-C10 | loops, SWAR and builtin paths over `N`, width parameter; induction, bit extensionality |
| Core | `core_utils.h` min/max/clamp/between, `chars.h` hex digits, `integral_range.h` | C11-C15, C69 | C++ integer conversions explicit, all built-in types |
| Uni | `impl/unicode_char8_t.h`, `char16_t.h`, `char32_t.h` | C16-C19, C89, C90 | statement lists with an interpreter; interval analysis over all 2^32 values |
| Utf | `impl/unicode.h` decoders and encoders, `utf_decode`, `strings.h` trim and transcode | C20-C27, C70 | automata against the grammar of well-formed text |
| Hash | `hashing.h`, `src/hashing.cpp`: fnv1a, sha1, hash_combiner | C28-C32, C71-C74 | refinement to FIPS 180-4; fold laws |
| Uuid | `uuid.h`, `src/uuid.cpp` | C33-C36 | both byte orders; parser as an automaton |
| Tptr | `tagged_ptr.h` | C37 | bit layout for every platform parameter; histories |
| Half | `half.h` (emulated half) | C38, C39, C75, C76, C105 | bit patterns; all 65536 halves, all 2^32 floats |
| Span, Earr, Blob, Accum | `span.h`, `static_array.h`, `emplacement_array.h`, `blob.h`, `aligned_alloc.h`, `accumulator.h` | C40-C44, C100 | heap with object lifetimes, simulation of lists |
| Guard | `scope_guard.h` | C45 | programs with scopes, throws and handlers |
| Fview | `function_view.h` | C117, C118 | programs over views, objects and functions; simulation of remembered targets |
| Fstr, Sparam | `fixed_string.h`, `string_param.h`, `src/string_param.cpp` | C46, C47 | list laws; refinement of a value-level specification |
| Tlist | `type_list.h`, parts of `meta.h` | C48 | template instantiation as evaluation |
| Spin | `spin_mutex.h` | C49 | release/acquire memory of one atomic location, invariants over all executions |
| Batch, Pool | `thread_pool.h`, `src/thread_pool.cpp` | C50-C52, C77, C120 | transition system of workers and clients, invariants over all interleavings |
| Trim | `strings.h` trim with the library's `is_not_whitespace` | C121 | every storage form reduced to one list of items placed one after the other |
| Pcast | `pointer_cast.h` | C122, C123 | the choice of casts as a function on types; the rules of the C++ casts; an object model with virtual bases |
| Tname | `type_name.h` | C124, C125 | types as syntax trees; names as lists of characters; the compiler's text for a type and for template arguments as parameters; C++ declarators as the specification |
| Stype | `strong_typedef.h` | C126, C127 | C++'s operators on plain values (promotion, conversions, overflow, pointers, classes with any overloads) below the traits; a language of expressions and statements over both; narrowing inside braces is an error or a warning, by parameter |
| Meta | `meta.h`: qualifiers, references, enums, sign, pointers, lists of types, functions, parameters | C128-C132 | types as syntax trees; the template specialisations as functions on them; the calling conventions of the platform and the call operators of classes as parameters |
| Seq | `for_sequence.h`, `integer_literals.h`, `size_t_literals.h`, `file_name_tail` of `source_location.h` | C133-C135 | calls that return, throw or end the program; loops as the specification |
| Cpair | `compressed_pair.h` | C136, C137 | types as size, alignment, padding, subobjects and bases; the layout rules of the Itanium ABI, with and without `[[no_unique_address]]`; initialisation with parentheses and braces as given |
| Vcon | `impl/vector_base.h`, constructors and component access of `vector.h` | C138 | overload resolution between the constructors as given; lists over any scalar type |
| Vint | `vector.h` with an integer scalar type | C139-C143 | integers of mathematics below the built-in operators; overflow, zero divisors and bad shift counts are undefined behaviour |
| Vflt | `vector.h` with a floating-point scalar type: division by a scalar, dot products, lengths, distances, normalizing | C144-C146 | IEEE numbers of any precision (Flocq), with rounding and every choice of fused operations |
| Ctr | `matrix.h` with a floating-point scalar type: products, determinants and inverses (the definitions of Mat, run on expressions) | C147-C150 | IEEE numbers of any precision (Flocq); a relation between an expression and all the results that some choice of fused operations gives |
| Xflt | `quaternion.h` (products, rotations) and `matrix.h` (`from_quaternion`, `transform_position`, `transform_without_translating`) with floating-point scalars | C151-C153 | as Ctr; values used several times are computed anew at each use, which allows more results; scalars of two bytes, which compute in float, are left out |
| Bflt | `bounding_box.h` with a floating-point scalar type: `from_min_max`, `from_points`, `append`, corners, `contains`, `intersects` of points and boxes (`impl/geometry_common.h`), `vector::min`/`max` | C154-C155 | IEEE numbers of any precision (Flocq), round to nearest; the product with 0.5 is not fused; two-byte floats left out |
| Line | `line_segment.h`: `colinear` and `coplanar` of two segments, `contains` of segments and ranges, `extend`, `reverse`, `length` | C156 | real scalars; NaN directions are `None` or false |
| Move | `transform`, `translate` and `scale` of `plane.h`, `bounding_box.h`, `oriented_bounding_box.h`, `bounding_sphere.h`; the collision testers | C157-C158 | real scalars; NaN axes and directions are `None` |
| Hop | operators, comparisons and functions of the emulated half in `half.h` | C159-C161 | bit patterns of halves, IEEE floats (Flocq); run-time square root; F16C not modelled |
| Vol | volume, mass, density, extents, sides, emptiness and equality of `bounding_box.h`, `oriented_bounding_box.h`, `bounding_sphere.h` | C162-C164 | real scalars; volumes as iterated Riemann integrals (Coquelicot) |
| Sat (no model of its own: Geom and Move) | box and triangle tests of `impl/geometry_common.h` | C166 | real scalars; Helly's theorem in the plane |
| Task | `thread_pool_task`, its traits (`thread_pool.h`), and the life of tasks in `src/thread_pool.cpp` | C167 | transition system; soundness told from the events alone; type traits of callables as given |
| Iter | `iterators.h`, `for_each` over iterators and arrays (`thread_pool.h`) | C168 | iterator types by what they offer, places in a row; built on Batch |
| Wrap | the wrappers of `for_each` for its batches (`thread_pool.h`) | C169 | sizes on a 64-bit platform, alignments up to eight, captures only of what is used |
| Planar | 2D rotations, axes, scale, shear and `orthonormalized` (`matrix.h`) | C170 | real scalars; built on Xform |
| Macro | `impl/preprocessor_for_each.h` | C171 | arguments as lists; the repetitive tables of names as a countdown |
| Vacc | `vector.h` (`vector_accumulator`), `accumulator.h` | C172 | one scalar accumulator per component and a shared count; integer components; the deduced type of `vector{...}` in `min`/`max`/`sum` taken as the declared one |
| Uchar | `impl/unicode_unsigned_char.h`, `impl/unicode_char.h`, `impl/unicode_wchar_t.h` | C173 | the statement lists of Uni; `wchar_t` of two and four bytes (not of one) |
| Fin | `infinity_or_nan` in `math.h`, `vector.h`, `matrix.h`, `quaternion.h`, `axis_angle.h`, `euler_angles.h` and the geometry headers | C174 | bit patterns of float and double scalars; objects as lists of scalars |
| Seg | `extend`, `reverse` and `degenerate` of `line_segment.h`, `bounce` of `ray.h` | C175 | reals; the direction of a segment of length zero is an absent value |
| Oeq | `operator==` and `zero` of `vector.h`, `matrix.h`, `quaternion.h` and the geometry headers | C176 | float and double, also mixed, and 32-bit integers against float; objects as lists of scalars |
| Aeq | `approx_equal` and `approx_zero` of `vector.h`, `matrix.h`, `quaternion.h` and the geometry headers | C177 | float and double, also mixed; goes through the members as in Oeq; calls that are not well-formed are absent values |
| Ocv | the constructors of `vector.h`, `matrix.h`, `quaternion.h` and the geometry headers from an object of another scalar type | C178 | float and double; same dimensions; rounding to nearest, doubles out of range become infinities |
| Vmm | `min`, `max`, `clamp` of `vector.h` and `impl/core_utils.h` for floating-point scalars | C179 | every binary format, infinities and NaN included |
| Tco | `triangle.h`: `contains` of segments and of collections; `barycentric_generator` of `impl/geometry_common.h` | C180 | real scalars |
| Hul | `contains` of collections in `bounding_box.h`, `oriented_bounding_box.h`, `bounding_sphere.h`; of segments and triangles in oriented boxes | C181 | real scalars; convex hulls |
| Ptr | `plane.h` and `triangle.h`: the plane of a triangle | C182 | real scalars; NaN normals are `None` |
| Mon, MonAtom | `src/thread_pool.cpp` (`thread_pool_monitor`, both versions) | C119 | mutex, sleeping and waking explicit; who will notify, ranking of settled states |
| Print | `src/stream_printer.h`, `src/vector_types_common.cpp` | C53 | token lists |
| Mat, Vec, Quat, Xform | `matrix.h`, `vector.h`, `quaternion.h`, `impl/quaternion_x_matrix.h` | C54-C60, C78-C84, C102 | exact arithmetic: any commutative ring or field, or the reals |
| Geom | `plane.h`, `line_segment.h`, `ray.h`, `triangle.h`, `bounding_*.h`, `oriented_bounding_box.h`, `sat_tester.h`, `impl/*_x_*.h` | C61-C68, C85-C88, C106 | the reals |
| Math | `math.h`: integer abs, gcd, lcm, evenly_distribute, approx_equal | C91-C95 | all built-in integer types |
| Fp | `math.h`: infinity_or_nan, floor, ceil, approx_equal, lerp, normalize_angle; `accumulator.h` Kahan sum | C96-C101 | IEEE numbers of any precision (Flocq), with rounding |
| Sqrt | `math.h`: compile-time sqrt | C103 | IEEE numbers; convergence of the rounded Newton iteration |
| Const | `impl/core_constants.h`, `half.h` constants | C104, C105 | interval arithmetic with proved bounds on pi, e and roots |
| Trig | `math.h`: compile-time sin, cos, tan | C107, C108 | IEEE numbers; rounding analysis of the Taylor loops against the real functions |
| Puv | `packed_unit_vector.h` | C109-C111 | one model over any arithmetic, used with the reals and with IEEE numbers |
| Arc | `math.h`: compile-time atan, asin, acos | C114–C116 | IEEE numbers; the series, the reductions and where the recursion ends |
| Quad | `math.h`: compile-time atan2 (1976-2046) | C165 | IEEE numbers; exceptions enabled; built on Arc |
| Tri | `impl/tri_tri_intersection.h` | C112, C113 | over the reals; a read of variables never written and a division by zero are outcomes of their own |

## 4. What is not modelled

* Code generation, ABI, SIMD and other intrinsics (only where stated), Windows- and MSVC/ICC-only branches (UUID generation by the
  operating system, F16C conversion of halves, `__declspec` details), thread naming, huge pages, compiler detection headers.
* Rounding, overflow and NaN in linear algebra and geometry (Mat, Vec, Quat, Xform, Geom, Tri; apart from Vflt, Ctr, Xflt and Bflt): the scalars there are exact. Only the
  areas Fp, Sqrt, Const, Trig, Arc, Puv (C111), Vflt, Ctr, Xflt, Bflt, Hop and Half have IEEE semantics. NaN payloads are not modelled anywhere.
* Allocation failure; `std::bad_alloc` paths; overflow of sizes multiplied by `sizeof(T)`.
* The C++ memory model except for the one atomic location of `spin_mutex`; the thread pool is modelled with sequentially consistent steps
  (its data is protected by mutexes).
* member pointers and member functions in `type_name.h` (no specialisation exists), and the list of names of standard types,
  the `callable` trait of `strong_typedef.h`, the choice between member and free functions in `iterators.h`, and the pieces of `meta.h` outside C48 and
  C128-C132 (operator and conversion detectors, `is_tuple_like`, bit widths of integers as types).
* MSVC's layout of compressed_pair (`__declspec(empty_bases)`); the layout is that of the Itanium ABI.

## 5. Disagreements found between the code and what its documentation or interface promises

Proved as theorems (ids in brackets):

* `byte_select(value, index)` with `index == sizeof(T)` shifts by the full width [C09].
* `between` with an unsigned value and a negative signed bound [C13]; `approx_equal(-1, 4294967295u)` is true [C95].
* `is_whitespace`, `is_hyphen`, `is_uppercase` are undefined for many characters (they reach `MUU_UNREACHABLE`); case predicates are false for all characters
  beyond U+FFFF; `is_code_point(char32_t)` accepts surrogates [C16-C19].
* U+0000 encodes to nothing [C21]. UTF-16 surrogate pairs never decode, because the decoder never enters its second state [C22]. Native
  UTF-16/32 text may be taken for byte-swapped [C25, C26, C32, C74]. `trim` is not idempotent before U+FEFF [C27].
* uuid: broken-off UTF-8 at the end is accepted; on big-endian machines the field constructor, `node()` and the packed integer are wrong [C33, C34, C36].
* tagged_ptr: negative tags overwrite the pointer; `can_store_tag` and the alignment check miss bad inputs [C37].
* half: float to half truncates, and is wrong for subnormals and for three binades [C39]; 39 named constants are not the nearest number [C105].
* The 128-bit `hash_combiner` constant has wrong low bits [C71].
* emplacement_array: `begin()` of an array without storage [C40]. static_array: `empty()` is inverted, `<` cannot be evaluated [C41]. blob:
  self-assignment after growth reads freed memory [C42]. span: `subspan(size(), 0)` asserts, dynamic to static conversion is unchecked [C43].
  accumulator: merging has its branches swapped [C44].
* fixed_string: comparing an object with itself, lowest and over-wide indices [C46]. string_param: moving from or trimming an
  empty one, dangling views [C47].
* thread_pool: descending ranges from the highest value lose a batch [C50]; after 2^64 tasks a queue whose capacity does not divide 2^64 overwrites a task [C51].
* quaternion `from_rotation` for different lengths [C58]; Euler angles turn about fixed axes, not local ones [C81]. `perspective_projection`
  for left-handed systems and the screen-size overload [C59].
* plane/segment and plane/plane tests are inverted [C62, C88]. Ray tests at their corner cases [C65]. Box against collinear triangle [C66].
  `triangle::contains` accepts a whole line [C67], and so a segment whose middle it does not contain [C180], `degenerate()` misses collinear triangles [C87]. Segment `closest_point` with equal ends [C68].
  Sphere against sphere, sphere `closest_point` [C85]. One-dimensional `length` and `normalize` [C78]; `normalized()` of integer vectors [C79].
* integral_range: `size()` and iterator differences overflow [C69]. lcm overflows before it has to [C93].
* lerp(x, x, a) need not be x [C99]; normalize_angle leaves its range in float [C101]; compile-time sqrt beyond 2^160 and of infinity [C103];
  compile-time floor and ceil outside intmax_t [C97].
* The constants made from e are wrong from the seventeenth digit on; `constants<double>::e` is not the double nearest to e;
  `constants<float128_t>::degrees_to_radians` is not the nearest [C104].
* Compile-time sin loses its relative accuracy for small negative arguments, and tan gives +0 there; the tangent of
  `constants<long double>::pi_over_two` is not a constant expression [C107, C108].
* Compile-time atan of an x87 long double calls itself for ever at twelve arguments, among them 1 - 2^-64 [C114].
* Compile-time atan2 of doubles calls itself for ever for some points, e.g. y = 2642885282, x = 9863382151 with x87 long double; never for floats and halves [C165].
* Compile-time atan2 throws at the origin, gives pi instead of -pi for y = -0 and negative x, and NaN for two infinities, unlike std::atan2 which is called at run time [C165].
* Compile-time asin near plus or minus one goes by way of the rounded 1 - x^2 and can be off by the three quarters power of the unit of rounding:
  more than 3 ulp for a double computed in x87 long double, more than 1000 ulp where long double is a double [C115].
* Compile-time acos near one cancels: acos(1 - 2^-52) as a double has a relative error of more than 20000 (x87) or 30 million (long double = double)
  units of 2^-53 [C116].
* function_view: a copy of a view that is not const views the original instead of its target, so that it changes with the original and dangles after it
  [C118]; a const object of an empty class is called as if it were neither const nor named; a view of a null pointer is not null [C117].
* packed_unit_vector: packing scales by one less than unpacking divides by, so the first axis does not unpack to itself and repeated packing drifts
  half-way to the next axis [C109, C110]; some vectors with z = 0 come back with x and y exchanged [C109]; packing the first axis of a float vector
  into the default integer type violates a MUU_ASSUME [C111].
* trim is undefined when the first or last character that is no white space is one of the code points of C27; trimming marked text in the other byte order
  drops its mark [C121].
* pointer_cast from a class to a virtual base and back is null if two objects of the class share the base [C123].
* type_name gives arrays of arrays their bounds in reverse, so that the name is that of another type; `int[3]*` for pointers to arrays; a parenthesis too many for pointers to functions with parameters and `...`; a null character for the template argument 0; `foo<bar<bar<int>>` for `foo<bar<int>>`; `foo<int, >` for an empty list of numbers; and does not compile for the lowest `int` [C124].
* type_name is the same for `foo<1>` and `foo<1u>`, which are different types if `foo` takes `auto` [C125].
* meta.h: `any_cv` and `all_cv` are false for references to qualified types [C128]; the Unicode character types have no signed version, and a reference
  to one becomes void; `rebase_pointer` drops the pointee's qualifiers if the pointer is qualified [C129]; `highest_ranked` depends on the order for
  small integers and does not compile for two voids [C130]; functions with an ellipsis: `arity` does not compile or is 0, noexcept stays [C131];
  `pass_readonly_by_reference` is always true, and trivially copyable classes that cannot be copied go by value [C132].
* Integer and size literals that do not fit their type are silently another number [C134].
* Triangle against triangle: the tolerance is compared with distances multiplied by twice the area, so small triangles are said to
  intersect at any distance, and some that meet are said not to [C112]; the version with the segment then reads uninitialised variables [C113].

Seen while reading, outside the model:

* `apply_alignment<Alignment>(enum)` does not compile. `axis_angle.h:167` calls a printing function that does not exist. 128-bit integers are cut to 64 bits when printed.
* sha1's `operator<<` prints upper case where the documentation shows lower case.
* Kahan `add(other)` uses a member that does not exist. `bounding_box::contains(begin, end)` is false for an empty range.
  `corner_min_max(which)` lacks returns. `ray::infinity_or_nan` uses `&&` for `||`. `bounding_sphere::approx_zero` calls the vector version on a scalar.
  `plane::transform` applies the matrix to the normal as to a direction.
* thread_pool: the exception path of the constructor joins workers that were never told to stop; moving an assigned pool leaks the old one;
  `calc_thread_pool_worker_queue_size` may convert a double of 2^64 to `size_t`.
* `triangle::intersects(tri, seg)` and `compute_intervals_isectline` are declared `pure` in release builds but write through references; a
  compiler may drop the second call of the latter, whose result is not used.
* `strong_typedef_traits::addable` and `subtractable` are documented to work whenever the value type has the operators. For value types
  narrower than `int` (and `bool`) the sum is an `int`, and `T{ lhs.value + rhs.value }` is a narrowing conversion: an error for Clang and
  MSVC, a warning for GCC, where the sum is silently brought back into the value type and compares differently from the plain sum
  (C126_narrow_refuted). Unscoped enumerations and differences of pointers are declared and never compile.
* Sums, signs and postfix increments of a strong typedef of a `const` or rvalue reference compile and return an object that refers to a
  dead temporary (C126_dangling_refuted).
* The `boolean` trait on a strong `bool`: a const object cannot be used as a condition, because the trait's conversion and the one to
  `const bool&` are equally good (C126_const_bool_refuted).
* `compressed_pair<E, E>` of one empty class that is not final does not compile (C136_same_empty_refuted); `compressed_pair<E, compressed_pair<E, E2>>`
  compiles, but its `first()` is an ambiguous cast (C137_accessors_refuted). The constructor asks whether `T(arg)` is possible and then
  writes `T{ arg }`: `compressed_pair<int, X>{ 3.0, x }` is an error inside the library, and a vector built from 5 has one element
  (C137_braces_refuted). With an empty second element and a first that is not empty, the second is constructed first (C137_construct).
* `vector<float, 2> xy = { xyz };`, given as an example in the documentation (vector.h:521-522), does not compile: the constructor is explicit.
  `vector<int, 3> r = v;` for a smaller vector `v` of floats does compile, through the constructor that appends values, with no values
  to append (C138_implicit_refuted). Empty arrays and tuples initialise every vector but those of one dimension (C138_empty_refuted).
* Products of vectors of 16-bit unsigned components are computed in `int`, which overflows from 46341 * 46341 on (C139_times_refuted).
* `>>` on vectors of unsigned components of 32 bits and more shifts them as signed numbers: 0x80000000 >> 1 is 0xC0000000
  (C140_right_refuted). In C++17 `<<` of such a component is undefined behaviour (C140_left17).
* Dot and cross products of unsigned 32-bit components and wider treat them as signed: the dot product of (4294967295) and (1) is -1
  (C141_dot_refuted). `vector<uint8_t, 4>::product` overflows `int` (C141_product_refuted).
* `vector<int, N>` and `vector<unsigned, N>` compare equal when one holds -1 and the other 4294967295 (C142_mixed_refuted).
* Dividing a vector by a scalar multiplies by the rounded reciprocal: a component 41.0f divided by 41.0f is not 1, a number below
  2^-128 divided by itself is infinite and zero divided by it NaN (C144_refuted).
* `length` of a vector with one component is the component with its sign, `normalize` of it always gives 1, also for -3, zero and NaN
  (C145_refuted, C146_refuted). Squares that overflow or get lost make `length` infinite or zero and `normalize` a zero vector or NaN.
* `matrix::invert` divides by the determinant: if that overflows, the inverse is all zeros, e.g. of the 2x2 float matrix with 2^64 on the
  diagonal (C150_overflow_refuted), and if it underflows, infinities and NaNs, e.g. with 2^-80 (C150_underflow_refuted).
* A float `bounding_box` fitted to two points need not contain them (1 and 1 + 3 * 2^-23, C155_fitted_contains_refuted), a box need not contain
  a point just added nor what it contained before (C155_append_point_refuted, C155_append_contains_refuted), and the box of points beyond half
  the greatest float contains nothing (C155_fitted_overflow). The tests err to the inclusive side only (C154).
* `thread_pool::wait` may return while the last callable (and what it captured) is still alive: a worker tells the monitor before it destroys the
  task (C167_wait_refuted). A callable whose move constructor is deleted cannot be enqueued even as an lvalue (C167_copy_only_refuted).
* `thread_pool::for_each` over a range the wrong way round does nothing, except for iterators like those of lists (C168_list_backwards_refuted).
* `thread_pool::for_each` does not compile for iterators of more than 24 bytes, such as those of `std::deque`, whatever the task, and never for temporaries with state that can only be moved (C169_large_iterators_refuted, C169_closure_refuted, C169_move_only_refuted). The second test for the arity over iterators repeats the first one; this has no effect (C169_arguments).
* `MUU_COUNT_VA_ARGS()` is one, and with 125 arguments or more it is one of them (C171_none_refuted, C171_many_refuted).
* accumulators of vectors have the swapped merge branches of C44 too (C172_merge_refuted, C172_merge_into_empty_refuted).
* whether a surrogate in a `wchar_t` is a code point or a boundary depends on the size of `wchar_t` (C173_wide_portable_refuted).
* `ray::infinity_or_nan` joins its two tests with `&&`: a ray with a NaN origin and a finite direction passes for finite (C174_ray_refuted).
* A `vector` of integers can equal a `vector` of floats that differs from it: both are converted to float, so 16777216 and 16777217 equal the same float (C176_int_float_refuted).
* `vector::min` of arguments goes from the right, of a list from the left, and `muu::min(a, b)` is `b` when one is NaN (unlike `std::min`, which it is said to be a variadic version of): with a NaN among them min(1, NaN, 2) is 1, min({1, NaN, 2}) is 2 (C179_nan_refuted).
* Read, and built into the model of C177: `approx_equal` of a plane or sphere of floats and one of doubles is ambiguous, since a float, a double and a double fit neither the overload for floats nor that for doubles better (plane.h:247, bounding_sphere.h:318).
* Read, not modelled: `line_segment<half>::midpoint` calls the two-argument `midpoint` of the promoted type, of which only a one-argument overload exists (line_segment.h:239-247), so it could not be instantiated.
* `line_segment::coplanar` is false for any two segments that start at the same point, or where the second starts on the line of the first; turning the second
  around may help (C156_coplanar_shared_start_refuted). `colinear` of two segments depends on their order (C156_colinear_symmetric_refuted), and a
  segment of length zero is neither colinear with itself nor contains itself (C156_colinear_degenerate_refuted, C156_contains_degenerate_refuted).
* `plane::transform` is wrong for uneven scaling (C157_plane_stretched_refuted) and for planes that are not normalized, which move even under the
  identity (C157_plane_unnormalized_refuted). `oriented_bounding_box::transform` promises a box that contains the transformed points; after a shear
  `contains` denies them (C157_obb_sheared_refuted), and a flat box becomes NaN (C157_obb_flat_refuted).
* The collision tester of spheres adds the squares of the radii, like `intersects` (C158_spheres_refuted).
* half: products of magnitude in [131072, 262144) become zero or tiny negative numbers, small ones minus infinity or NaN (C159_product_overflow_refuted,
  C159_product_underflow_refuted); `h + 0` and `h * 1` change subnormal halves (C159_subnormal_refuted); `floor` and `ceil` of an infinite half are undefined
  (C161_floor_infinite_refuted); `atan2(y, x)` exchanges its arguments (C161_atan2_refuted).
* `bounding_sphere::volume` multiplies by `four_over_three_pi`, which is 4 / (3 pi): it returns less than a ninth of the volume (C162_sphere_refuted,
  C162_sphere_cause), less than half of that of a box the sphere contains (C162_contained_refuted); `mass` and `density` follow it.
* `empty` of boxes is documented as "exactly zero volume" but asks for all three extents to be zero: flat boxes are not empty (C163_flat_refuted).
  `bounding_sphere::approx_zero` hands its radius to `vector::approx_zero`, which is not well-formed when it is used.
* The form of `aabbs_common::corner_min_max` that takes the corner as an argument (geometry_common.h:696-720, used nowhere) has no `return` in six cases and
  returns the wrong corner for `max`.
* The comments of `three_over_phi` to `eight_over_phi` all say "2 / phi".

## 6. Checking the theorems

`seeded/LOG.jsonl` has one line per deliberate bug put into a scratch copy of the model: the definition, the edit, the claim it breaks, the theorems that failed
and what was tightened when none did. Lines whose claim starts with "control" are edits that break no claim.
Edits shown with square brackets, `[old -> new]`, were made and run by a script; their claim is the title of the properties whose theorems failed.
