{"id": "C01", "title": "countl_zero/countl_one count leading bits", "statement": "countl_zero(x) returns the number of consecutive zero bits from the most significant bit of x (the full width when x is 0), countl_one(x) the number of leading one bits; the 128-bit version, which is split over two halves, agrees with the same definition, and bit_width(x) is width - countl_zero(x).", "quantifier": "every unsigned value of every width (8/16/32/64/128 bits)", "why_tests_cant": "2^64 and 2^128 inputs cannot be enumerated; a wrong carry between the two 64-bit halves only shows for particular splits.", "anchors": ["include/muu/countl.h: countl_zero, countl_one, impl::countl_zero_naive", "include/muu/bit.h: bit_width"]}
{"id": "C02", "title": "countr_zero/countr_one count trailing bits", "statement": "countr_zero(x) returns the largest k not above the width such that 2^k divides x (full width for 0), countr_one(x) the number of trailing one bits; again across the 128-bit split.", "quantifier": "every unsigned value of every width", "why_tests_cant": "input space too large to enumerate at 64/128 bits", "anchors": ["include/muu/countr.h: countr_zero, countr_one, impl::countr_zero_naive"]}
{"id": "C03", "title": "popcount returns the number of set bits", "statement": "popcount(x), computed by the SWAR constants, equals the number of set bits of x; has_single_bit(x) holds exactly for powers of two.", "quantifier": "every 32-, 64- and 128-bit value", "why_tests_cant": "SWAR arithmetic with magic constants; a wrong mask bit affects only a sparse set of the 2^64 inputs", "anchors": ["include/muu/popcount.h: popcount, impl::popcount_naive", "include/muu/bit.h: has_single_bit"]}
{"id": "C04", "title": "bit_floor is the greatest power of two not above x", "statement": "bit_floor(0)=0 and for x>0 bit_floor(x) is a power of two p with p <= x < 2p.", "quantifier": "every unsigned value of every width", "why_tests_cant": "property over the whole 2^N input space", "anchors": ["include/muu/bit_floor.h: bit_floor"]}
{"id": "C05", "title": "bit_ceil is the least power of two not below x", "statement": "for every x not above 2^(N-1) bit_ceil(x) is the least power of two >= x (1 for x=0); for x above 2^(N-1) no N-bit result exists: 8- and 16-bit calls return 0, and from 32 bits on the call performs a shift by the full width, which C++ leaves undefined.", "quantifier": "every unsigned value of every width", "why_tests_cant": "boundary between defined and undefined behaviour cannot be seen by running the code", "anchors": ["include/muu/bit_ceil.h: bit_ceil"]}
{"id": "C06", "title": "byte_reverse is an endianness swap", "statement": "byte_reverse(x) has the bytes of x in the opposite order: its little-endian byte string is the reverse of that of x; applying it twice gives x back.", "quantifier": "every value of every width 8..128", "why_tests_cant": "mask/shift typos corrupt single byte lanes of 64/128-bit values only", "anchors": ["include/muu/byte_reverse.h: byte_reverse, impl::byte_reverse_naive"]}
{"id": "C07", "title": "bit_fill_left/right produce exactly the requested mask", "statement": "bit_fill_right<T>(k) is 2^min(k,N)-1, bit_fill_left<T>(k) has exactly the min(k,N) most significant bits set, for every requested k, including k=0 and k>=N, without any out-of-range shift.", "quantifier": "every count and every width", "why_tests_cant": "shift-by-width is undefined and cannot be observed by a passing test", "anchors": ["include/muu/bit_fill.h: bit_fill_right, bit_fill_left"]}
{"id": "C08", "title": "bit_pack concatenates its arguments losslessly", "statement": "bit_pack<T>(a,b,...) places the first argument in the most significant position; every argument can be recovered by shifting and masking, so packing is injective.", "quantifier": "every list of unsigned values whose widths fit in the output type", "why_tests_cant": "universally quantified over values and argument lists", "anchors": ["include/muu/bit_pack.h: bit_pack"]}
{"id": "C09", "title": "byte_select/swizzle address bytes by significance", "statement": "byte_select(x, i) returns byte i of x (0 = least significant) for i below sizeof(x) and 0 for every larger index; swizzling by constant indices builds the value with those bytes.", "quantifier": "every value, every index, every width", "why_tests_cant": "index == sizeof(T) performs an out-of-range shift: undefined, hence invisible to a passing test", "anchors": ["include/muu/bit.h: byte_select, swizzle"]}
{"id": "C10", "title": "apply_alignment rounds up to the alignment", "statement": "apply_alignment<A>(v) is the least multiple of A not below v whenever that number is representable; the result is a fixed point of a second application.", "quantifier": "every value and every power-of-two alignment, for each width", "why_tests_cant": "unbounded families of (value, alignment) pairs and wrap-around near the top of the range", "anchors": ["include/muu/apply_alignment.h: apply_alignment"]}
{"id": "C11", "title": "clamp returns the nearest value of the interval", "statement": "for lo <= hi, clamp(v,lo,hi) lies in [lo,hi], equals v when v is inside, and no other member of the interval is nearer to v; clamp is monotone and idempotent.", "quantifier": "all values of a totally ordered type", "why_tests_cant": "universally quantified over values", "anchors": ["include/muu/impl/core_utils.h: clamp"]}
{"id": "C12", "title": "min/max of an argument list are its bounds", "statement": "min(a,b,...) and max(a,b,...) return an element of the argument list that bounds every other argument.", "quantifier": "every non-empty argument list of a totally ordered type", "why_tests_cant": "argument lists of arbitrary length", "anchors": ["include/muu/impl/core_utils.h: min, max"]}
{"id": "C13", "title": "between() is interval membership, also for mixed signedness", "statement": "between(val, low, high) returns true exactly when low <= val <= high as integers, whatever the signedness of the three argument types.", "quantifier": "all integer values of all fixed-width argument types", "why_tests_cant": "mixed signed/unsigned comparison goes wrong only on negative bounds", "anchors": ["include/muu/impl/core_utils.h: between"]}
{"id": "C14", "title": "hex digits round-trip", "statement": "dec_to_hex(n) is the hexadecimal digit of n, hex_to_dec inverts it for upper and lower case, and byte_to_hex(b) yields the two digits whose value is b.", "quantifier": "every hexadecimal digit character and every byte", "why_tests_cant": "stated over whole domain; also excludes characters outside the documented domain", "anchors": ["include/muu/chars.h: hex_to_dec, dec_to_hex, byte_to_hex"]}
{"id": "C15", "title": "integral_range set operations agree with sets of integers", "statement": "contains, intersects, adjacent, intersects_or_adjacent and union_with answer as the half-open interval [start,end) does as a set of integers (for non-empty ranges), and union_with of intersecting-or-adjacent ranges is exactly the union.", "quantifier": "all pairs of ranges over an integer type", "why_tests_cant": "quantifies over all pairs of endpoints and members", "anchors": ["include/muu/integral_range.h: integral_range"]}
{"id": "C16", "title": "is_whitespace is the Unicode White_Space property and is defined for every character", "statement": "for every char32_t/char16_t value, is_whitespace(c) has defined behaviour and returns true exactly for the Unicode White_Space code points.", "quantifier": "every 32-bit and every 16-bit code unit value", "why_tests_cant": "undefined behaviour on unlisted code points may appear to work in a test; the value space is 2^32", "anchors": ["include/muu/impl/unicode_char32_t.h: is_non_ascii_whitespace, is_whitespace", "include/muu/impl/unicode_char16_t.h"]}
{"id": "C17", "title": "is_hyphen is the Unicode Hyphen property and is defined for every character", "statement": "for every char32_t/char16_t value, is_hyphen(c) has defined behaviour and returns true exactly for '-' and the Unicode Hyphen code points.", "quantifier": "every 32-bit and every 16-bit code unit value", "why_tests_cant": "as for is_whitespace", "anchors": ["include/muu/impl/unicode_char32_t.h: is_non_ascii_hyphen, is_hyphen", "include/muu/impl/unicode_char16_t.h"]}
{"id": "C18", "title": "letter/number/combining-mark predicates match Unicode categories", "statement": "is_letter, is_number, is_decimal_digit, is_combining_mark, is_uppercase and is_lowercase have defined behaviour for every char32_t value and agree with the Unicode general categories.", "quantifier": "every 32-bit value", "why_tests_cant": "large generated bit tables and switches; single table bits are not covered by tests", "anchors": ["include/muu/impl/unicode_char32_t.h", "tools/generate_unicode_functions.py"]}
{"id": "C19", "title": "16-bit and 32-bit predicates agree on the BMP", "statement": "each character predicate gives the same answer for a char16_t value and for the char32_t of the same value.", "quantifier": "every 16-bit value, every predicate", "why_tests_cant": "65536 x predicates of generated code, plus undefined outcomes", "anchors": ["include/muu/impl/unicode_char16_t.h", "include/muu/impl/unicode_char32_t.h"]}
{"id": "C20", "title": "the UTF-8 decoder accepts exactly well-formed UTF-8", "statement": "feeding any byte string to utf8_decoder reaches no error and ends with a complete code point exactly when the string is well-formed UTF-8 as defined by RFC 3629 / Unicode Table 3-7 (no overlongs, surrogates or values above U+10FFFF).", "quantifier": "every finite byte string", "why_tests_cant": "infinite set of strings; the automaton is a 364-entry table", "anchors": ["include/muu/utf8_decoder.h: utf8_decoder"]}
{"id": "C21", "title": "UTF-8 encode then decode is the identity", "statement": "for every Unicode scalar value the bytes produced by the library's UTF-8 encoder are well-formed and decode back to the same code point with no error, and the decoder needs exactly those bytes; this extends to every sequence of scalar values.", "quantifier": "every Unicode scalar value; every finite sequence of them", "why_tests_cant": "1.1 million scalars and unbounded sequences, including decoder state carry-over between code points", "anchors": ["include/muu/strings.h: impl::utf8_code_point", "include/muu/utf8_decoder.h: utf8_decoder"]}
{"id": "C22", "title": "the UTF-16 decoder decodes every well-formed UTF-16 string", "statement": "feeding the UTF-16 encoding of any sequence of scalar values to utf16_decoder yields exactly that sequence, with no error.", "quantifier": "every finite sequence of scalar values", "why_tests_cant": "unbounded sequences with mixed planes", "anchors": ["include/muu/utf16_decoder.h: utf16_decoder"]}
{"id": "C23", "title": "utf_decode visits exactly the code points of valid text, in order", "statement": "utf_decode over a string that is the UTF-8 encoding of a sequence of scalar values (not starting with a BOM) calls the callback once per code point, in order, with that code point, its start offset and its length in code units; stopping early visits a prefix.", "quantifier": "every finite sequence of scalar values", "why_tests_cant": "unbounded strings", "anchors": ["include/muu/utf_decode.h: utf_decode"]}
{"id": "C24", "title": "reverse utf_decode visits the same code points backwards", "statement": "utf_decode with reverse=true over valid UTF-8 visits exactly the forward code points in reverse order.", "quantifier": "every finite sequence of scalar values", "why_tests_cant": "unbounded strings", "anchors": ["include/muu/utf_decode.h: utf_decode, is_code_point_boundary"]}
{"id": "C25", "title": "a byte order mark is consumed and byte-swapped text is decoded", "statement": "UTF-16/UTF-32 text preceded by a BOM decodes to the text without the BOM in either byte order; BOM-less text in native byte order is decoded as-is.", "quantifier": "every finite sequence of scalar values, both byte orders", "why_tests_cant": "endianness is guessed from the first sixteen code units, so failure depends on text content", "anchors": ["include/muu/utf_decode.h: utf_decode, utf_detect_platform_endian"]}
{"id": "C26", "title": "transcoding valid text preserves its code points", "statement": "utf_transcode between UTF-8, UTF-16 and UTF-32 maps the encoding of a sequence of scalar values to the other encoding of the same sequence; converting there and back is the identity.", "quantifier": "every finite sequence of scalar values (not starting with a BOM)", "why_tests_cant": "unbounded strings over 1.1 million code points", "anchors": ["include/muu/strings.h: impl::utf_transcode, utf8_code_point, utf16_code_point"]}
{"id": "C27", "title": "trim removes exactly the leading and trailing whitespace", "statement": "trim/trim_left/trim_right of valid UTF-8 text return the substring obtained by removing the maximal whitespace prefix/suffix; the result is a contiguous view into the input, and trimming twice changes nothing.", "quantifier": "every finite sequence of scalar values", "why_tests_cant": "unbounded strings; depends on whitespace predicate and on reverse decoding", "anchors": ["include/muu/strings.h: trim, trim_left, trim_right, impl::predicated_trim"]}
{"id": "C28", "title": "sha1 computes FIPS 180-4 SHA-1", "statement": "for every byte string below 2^38 bytes (the block counter is 32 bits) the digest after finish() is the SHA-1 digest defined by FIPS 180-4.", "quantifier": "every byte string below the stated length", "why_tests_cant": "unbounded inputs; padding boundary cases; unrolled rounds with a 16-word circular schedule", "anchors": ["include/muu/hashing.h: sha1", "src/hashing.cpp: sha1"]}
{"id": "C29", "title": "sha1 digests do not depend on how the input is split", "statement": "adding data in any sequence of chunks, bytes or blobs gives the same digest as adding the concatenation at once.", "quantifier": "every partition of every byte string", "why_tests_cant": "exponentially many partitions", "anchors": ["src/hashing.cpp: sha1::add, sha1::process_block"]}
{"id": "C30", "title": "sha1 is frozen after finish", "statement": "finish() may be called again and data may be added afterwards without changing the reported digest, and finished() stays true.", "quantifier": "every history of add/finish calls", "why_tests_cant": "all histories", "anchors": ["src/hashing.cpp: sha1::finish, sha1::add"]}
{"id": "C31", "title": "fnv1a is the FNV-1a function and is incremental", "statement": "fnv1a<32|64|128> over a byte string equals the FNV-1a definition hash = (hash xor byte) * prime mod 2^N from the offset basis, hashing is independent of chunking, and constants are those of the FNV specification.", "quantifier": "every byte string and every way of splitting it", "why_tests_cant": "unbounded inputs; 128-bit multiplication is done on two halves", "anchors": ["include/muu/hashing.h: fnv1a"]}
{"id": "C32", "title": "fnv1a of wide text equals fnv1a of its UTF-8 bytes", "statement": "hashing a char16_t/char32_t string equals hashing the UTF-8 encoding of the same text.", "quantifier": "every finite sequence of scalar values", "why_tests_cant": "unbounded strings", "anchors": ["include/muu/hashing.h: fnv1a::operator()(u16/u32 string)", "src/hashing.cpp"]}
{"id": "C33", "title": "uuid printing and parsing round-trip", "statement": "parsing the printed form of any uuid returns that uuid; parse is insensitive to letter case and to surrounding braces.", "quantifier": "every 128-bit uuid", "why_tests_cant": "2^128 values", "anchors": ["include/muu/uuid.h: uuid, operator<<", "src/uuid.cpp: uuid_parser, uuid::parse"]}
{"id": "C34", "title": "uuid::parse accepts only complete uuids", "statement": "if parse returns a value then the input contains exactly 32 hexadecimal digits forming its octets in order; malformed input yields no value.", "quantifier": "every character string", "why_tests_cant": "unbounded, adversarial inputs", "anchors": ["src/uuid.cpp: uuid_parser"]}
{"id": "C35", "title": "generated and name-based uuids carry RFC 4122 version and variant", "statement": "uuid::generate() yields version 4 / variant 1 for every value of the random source; name-based uuids yield version 5 / variant 1 and depend only on namespace and name bytes.", "quantifier": "every random source outcome; every namespace and name", "why_tests_cant": "random and unbounded inputs", "anchors": ["src/uuid.cpp: uuid::generate, uuid::uuid(name)", "include/muu/uuid.h: version, variant"]}
{"id": "C36", "title": "uuid ordering is a total order compatible with its bytes", "statement": "compare/operators order uuids lexicographically by bytes: total, antisymmetric, transitive, equality exactly byte equality; the uint128 and byte-array and field (time_low...) views describe the same value.", "quantifier": "all pairs/triples of uuids", "why_tests_cant": "universally quantified over 2^128 values", "anchors": ["include/muu/uuid.h: uuid::compare, uint128 conversion, accessors"]}
{"id": "C37", "title": "tagged_ptr keeps pointer and tag separate", "statement": "for a pointer aligned to Align within the platform's pointer range and a storable tag, ptr() and tag() return what was stored; setting one leaves the other unchanged; over any sequence of set operations.", "quantifier": "every aligned pointer, every storable tag, every operation history", "why_tests_cant": "all pointer values x all tags x all histories", "anchors": ["include/muu/tagged_ptr.h: tagged_ptr, impl::tptr"]}
{"id": "C38", "title": "half to float conversion is exact", "statement": "the software conversion of a binary16 value to float has exactly the same real value (and sign, infinity, NaN class).", "quantifier": "all 65536 half bit patterns", "why_tests_cant": "quantifies over real values, not printed decimals", "anchors": ["include/muu/half.h: impl::half conversions"]}
{"id": "C39", "title": "float to half conversion preserves representable values", "statement": "software-converting a float that is exactly representable as a binary16 gives that value; every half survives half->float->half; finite values out of half range become infinity with the same sign.", "quantifier": "all float bit patterns", "why_tests_cant": "2^32 patterns; subnormals and overflow are rarely tested", "anchors": ["include/muu/half.h: impl::f32_to_u16_naive"]}
{"id": "C40", "title": "emplacement_array behaves as a bounded sequence", "statement": "any sequence of constructions, emplace_back calls (including ones whose element constructor throws), clears, move constructions, move assignments and destructions leaves every array equal to the abstract list, in construction order, never constructs over a live element, destroys every element exactly once, never frees storage twice or leaks it, and never exceeds the capacity fixed at construction.", "quantifier": "every history of operations", "why_tests_cant": "all histories, including moves between arrays and failing constructors", "anchors": ["include/muu/emplacement_array.h: emplacement_array"]}
{"id": "C41", "title": "static_array comparisons and queries agree with the element list", "statement": "size/empty/operator==/operator< and friends of static_array agree with the corresponding list and lexicographic order.", "quantifier": "all arrays of all sizes", "why_tests_cant": "universally quantified", "anchors": ["include/muu/static_array.h: static_array"]}
{"id": "C42", "title": "blob preserves its bytes across resizes, copies and moves", "statement": "after any sequence of assign/resize/copy/move the contents are those of the abstract byte string; resize keeps the common prefix; the data pointer satisfies the promised alignment; no freed memory is read.", "quantifier": "every history of operations", "why_tests_cant": "all histories; use-after-free when the source aliases the blob is not observable in a passing test", "anchors": ["include/muu/blob.h: blob"]}
{"id": "C43", "title": "span views address exactly the requested elements", "statement": "first(n), last(n), subspan(o,n) denote exactly the elements at those positions of the viewed sequence and compose as list operations.", "quantifier": "every sequence, offset and count within bounds", "why_tests_cant": "universally quantified over offsets and lengths", "anchors": ["include/muu/span.h: span"]}
{"id": "C44", "title": "accumulator statistics describe the samples added", "statement": "after any sequence of add calls min/max/sum/average/sample_count describe the multiset of samples; adding one accumulator to another is as if all of its samples had been added.", "quantifier": "every finite sequence of samples and merges", "why_tests_cant": "all histories", "anchors": ["include/muu/accumulator.h: accumulator"]}
{"id": "C45", "title": "scope guards run exactly once or not at all", "statement": "a scope_guard runs its callable exactly once, when its scope is left, unless dismissed; scope_fail only when the scope is left by an exception thrown during its lifetime; scope_success only otherwise; guards of one scope run in reverse order, also when scopes nest and when guards run during unwinding.", "quantifier": "every program of nested scopes, guards, dismissals, throws and handlers, and every exception count at construction and destruction", "why_tests_cant": "exception-path histories", "anchors": ["include/muu/scope_guard.h: scope_guard, scope_fail, scope_success"]}
{"id": "C46", "title": "fixed_string slicing and comparison follow the character sequence", "statement": "substr/slice/concatenate/compare of fixed_string agree with list slicing (negative indices counting from the end), and compare is a total order equal to lexicographic order.", "quantifier": "all strings, all signed indices", "why_tests_cant": "universally quantified over strings and indices", "anchors": ["include/muu/fixed_string.h: fixed_string"]}
{"id": "C47", "title": "string_param always denotes one live string", "statement": "any sequence of constructions, moves, assignments and conversions leaves each string_param either empty or viewing/owning exactly one live string; conversion to a view of another encoding returns the transcoded text.", "quantifier": "every history of operations", "why_tests_cant": "all histories; lifetime errors are invisible to passing tests", "anchors": ["include/muu/string_param.h: string_param", "src/string_param.cpp"]}
{"id": "C48", "title": "type_list slicing selects the requested sublist on every implementation path", "statement": "type_list::slice<Start,Length> is the sublist of that position, whatever page size and compiler builtin is used; select, concatenate, prepend, append, remove, index_of and flatten agree with list operations.", "quantifier": "all lists, all in-range positions, all page configurations", "why_tests_cant": "each configuration recursion is a different algorithm; lists of any length", "anchors": ["include/muu/type_list.h: impl::type_list_slicer, type_list"]}
{"id": "C49", "title": "spin_mutex provides mutual exclusion", "statement": "in every interleaving at most one thread is between a successful lock/try_lock and its unlock; a free mutex can always be taken.", "quantifier": "every number of threads and every interleaving", "why_tests_cant": "schedules cannot be enumerated by tests", "anchors": ["include/muu/spin_mutex.h: spin_mutex"]}
{"id": "C50", "title": "thread_pool::for_each visits every index exactly once", "statement": "for every range and worker count the batches handed to workers partition the range: each index in [start,end) (or the reversed range) is processed exactly once, batch sizes differ by at most one.", "quantifier": "every range, every number of workers", "why_tests_cant": "all ranges x worker counts, including wrap-around at the type limits", "anchors": ["include/muu/thread_pool.h: impl::batch_size_generator, thread_pool::for_each"]}
{"id": "C51", "title": "thread_pool queues deliver each task exactly once in order", "statement": "in every interleaving of producers and workers each enqueued task is invoked at most once, in FIFO order per queue, and none is lost or overwritten before shutdown.", "quantifier": "every interleaving of enqueues, pops, and termination", "why_tests_cant": "schedules", "anchors": ["src/thread_pool.cpp: queue, worker"]}
{"id": "C52", "title": "thread_pool::wait returns only when idle", "statement": "wait() returns only in a state where every task enqueued before the call has finished executing, in every interleaving in which no task has been overwritten (see C51: always if the capacity of a queue divides 2^w, else while fewer than 2^w tasks have been put in one queue); the busy counter never becomes negative.", "quantifier": "every interleaving", "why_tests_cant": "schedules", "anchors": ["src/thread_pool.cpp: thread_pool_monitor, thread_pool::wait"]}
{"id": "C53", "title": "matrices and vectors print every element in reading order", "statement": "streaming a matrix writes its elements in row-major order although storage is column-major, each exactly once, one line per row; vectors and compound objects (planes, boxes, ...) write theirs in order; numbers are written in decimal, right-adjusted, in the caller's width and fill; afterwards the stream's format state is as before, except for the width, which is used up (0) as after any formatted output.", "quantifier": "all matrix dimensions and element values", "why_tests_cant": "all dimensions", "anchors": ["src/vector_types_common.cpp: print_matrix, print_vector", "src/stream_printer.h"]}
{"id": "C54", "title": "matrix multiplication is associative and unital, transpose reverses it", "statement": "over exact scalars: (A*B)*C = A*(B*C), A*identity = A, (A*B)^T = B^T*A^T, (A*B)*v = A*(B*v), on both the unrolled and the general code path, which agree.", "quantifier": "all matrices of all conforming dimensions over a commutative ring", "why_tests_cant": "dimension-generic loops and hand-unrolled 2x2/3x3/4x4 cases; identities over all entries", "anchors": ["include/muu/matrix.h: operator*, transpose, identity"]}
{"id": "C55", "title": "determinant is multiplicative and invert gives the two-sided inverse", "statement": "over an exact field, determinant equals the Leibniz determinant, det(A*B)=det(A)det(B), and for det != 0 invert(A)*A = A*invert(A) = identity for 1x1..4x4.", "quantifier": "all matrices over a field", "why_tests_cant": "polynomial identities in up to 32 variables", "anchors": ["include/muu/matrix.h: determinant, invert, impl::raw_determinant_*"]}
{"id": "C56", "title": "cross and dot products satisfy their defining identities", "statement": "cross(a,b) is orthogonal to a and b, anticommutative, satisfies Lagrange's identity; the axis-tagged overloads agree with the general ones; orthogonal(v) is orthogonal to v and non-zero for non-zero v.", "quantifier": "all vectors over an ordered field", "why_tests_cant": "identities over all vectors", "anchors": ["include/muu/vector.h: cross, dot, orthogonal"]}
{"id": "C57", "title": "quaternion product, rotation and matrix conversion agree", "statement": "quaternion multiplication is associative with multiplicative norm; rotating a vector by a unit quaternion equals q v q*, equals multiplication by matrix from_quaternion(q), preserves length and composes; from_rotation(from_quaternion(q)) is q or -q.", "quantifier": "all (unit) quaternions and vectors over the reals", "why_tests_cant": "identities over all values, four branch cases in the matrix conversion", "anchors": ["include/muu/quaternion.h: operator*, rotate_vector", "include/muu/matrix.h: from_quaternion", "include/muu/impl/quaternion_x_matrix.h"]}
{"id": "C58", "title": "quaternion from_rotation(from,to) rotates from onto to", "statement": "for non-zero, not opposite vectors, the quaternion built by from_rotation(from,to) rotates the direction of from onto the direction of to.", "quantifier": "all pairs of non-zero vectors over the reals", "why_tests_cant": "tests tend to use unit vectors only", "anchors": ["include/muu/quaternion.h: from_rotation"]}
{"id": "C59", "title": "perspective_projection maps the view frustum to the clip volume of the chosen API", "statement": "near and far plane points map to the depth limits of the selected API (0..1 for DirectX, -1..1 for OpenGL) for both handednesses, and both overloads honour the selected mode.", "quantifier": "all fields of view, aspect ratios and clip distances", "why_tests_cant": "all parameter values; sign conventions", "anchors": ["include/muu/matrix.h: perspective_projection"]}
{"id": "C60", "title": "transform_position composes", "statement": "transform_position(A*B,p) = transform_position(A, transform_position(B,p)) for affine matrices; translation/scale/rotation constructors act as documented.", "quantifier": "all affine matrices and points over a field", "why_tests_cant": "identities over all entries", "anchors": ["include/muu/matrix.h: transform_position, from_3d_translation, from_3d_scale"]}
{"id": "C61", "title": "plane projection and distance are geometrically correct", "statement": "for a unit normal, project(p) lies in the plane, the displacement is along the normal, and no point of the plane is nearer than distance(p).", "quantifier": "all planes with unit normal and all points over the reals", "why_tests_cant": "universally quantified geometry", "anchors": ["include/muu/plane.h: project, signed_distance, distance", "include/muu/impl/geometry_common.h: planes_common"]}
{"id": "C62", "title": "plane/segment intersection is exact", "statement": "plane::intersects(segment) returns true exactly when some point of the segment lies on the plane.", "quantifier": "all planes and segments", "why_tests_cant": "universally quantified geometry", "anchors": ["include/muu/impl/plane_x_line_segment.h", "include/muu/impl/geometry_common.h: intersects_line_segment"]}
{"id": "C63", "title": "axis-aligned box queries are exact", "statement": "contains(point), intersects(box), contains(box), intersects(sphere), intersects(plane) and intersects(segment) answer exactly as the closed box does as a set of points; closest_point is the nearest point of the box.", "quantifier": "all boxes with non-negative extents and all query objects over the reals", "why_tests_cant": "universally quantified geometry", "anchors": ["include/muu/bounding_box.h", "include/muu/impl/geometry_common.h: aabbs_common", "include/muu/impl/bounding_box_x_*.h"]}
{"id": "C64", "title": "bounding boxes built from points are the least boxes containing them", "statement": "from_points/append yield a box that contains all the points and is contained in every box that contains them; transform of a box contains the transforms of its points.", "quantifier": "all non-empty point lists, all affine transforms", "why_tests_cant": "unbounded point lists", "anchors": ["include/muu/bounding_box.h: from_points, append, transform"]}
{"id": "C65", "title": "ray hits report a true intersection at the reported distance, and nothing is missed", "statement": "if ray::hits(shape) returns t then t >= 0 and origin + t*direction lies on the shape's boundary; if it returns nothing the ray misses the shape (plane, triangle, sphere, box).", "quantifier": "all rays and shapes over the reals", "why_tests_cant": "universally quantified geometry", "anchors": ["include/muu/impl/geometry_common.h: rays_common", "include/muu/ray.h: hits"]}
{"id": "C66", "title": "separating-axis tests never miss an intersection", "statement": "if a triangle and a box (or two boxes) share a point then intersects() returns true.", "quantifier": "all boxes and triangles over the reals", "why_tests_cant": "universally quantified geometry", "anchors": ["include/muu/sat_tester.h: sat_tester", "include/muu/impl/geometry_common.h: intersects_tri*", "include/muu/impl/bounding_box_x_oriented_bounding_box.h"]}
{"id": "C67", "title": "triangle barycentric coordinates and containment are correct", "statement": "for a non-degenerate triangle and a coplanar point, barycentric() gives coordinates that sum to one and reproduce the point, and contains() for coplanar points holds exactly when all coordinates are non-negative.", "quantifier": "all non-degenerate triangles and coplanar points over the reals", "why_tests_cant": "universally quantified geometry", "anchors": ["include/muu/impl/geometry_common.h: triangles_common::barycentric, contains_coplanar_point"]}
{"id": "C68", "title": "closest point on a segment is the nearest one", "statement": "line_segment::closest_point(p) lies on the segment and no point of the segment is nearer to p.", "quantifier": "all segments and points over the reals", "why_tests_cant": "universally quantified geometry", "anchors": ["include/muu/line_segment.h: closest_point", "include/muu/impl/geometry_common.h: line_segments_common"]}
{"id": "C69", "title": "integral_range iteration, size and iterator arithmetic", "statement": "iterating a range visits exactly its members, once each and in increasing order; size() is their number; first() and last() are the least and greatest member; and iterator addition and subtraction are integer addition and subtraction whenever the result is representable.", "quantifier": "all ranges over every fixed-width integer type", "why_tests_cant": "the intermediate conversions overflow only for ranges near the limits of the type", "anchors": ["include/muu/integral_range.h: integral_range::size, integral_range_iterator"]}
{"id": "C70", "title": "utf_decode is defined on every string", "statement": "utf_decode over any string of 8-, 16- or 32-bit code units, valid or not, forwards or backwards, reads only within the string, never feeds a decoder in its error state, and makes one fixed sequence of callback calls, of which a callback that stops early sees a prefix; forwards over UTF-8 the reported slices tile the string in order, except for an incomplete sequence of at most three bytes at the end.", "quantifier": "every finite string of code units of each size, both directions, every callback", "why_tests_cant": "the number of malformed inputs is unbounded and each mistake is one out-of-bounds read away", "anchors": ["include/muu/utf_decode.h: utf_decode"]}
{"id": "C71", "title": "hash_combiner loses no information from the hash being added", "statement": "for a given accumulated value, hash_combiner::operator() maps the added hash bijectively: every call succeeds, two different hashes give two different results, and every result is reachable; for 16-, 32-, 64- and 128-bit combiners.", "quantifier": "every accumulated value and every added hash", "why_tests_cant": "2^256 pairs", "anchors": ["include/muu/hashing.h: hash_combiner"]}
{"id": "C72", "title": "fnv1a distinguishes inputs that differ in one byte", "statement": "two byte strings of the same length that differ in exactly one position have different fnv1a hashes, for 32, 64 and 128 bits.", "quantifier": "every prefix, suffix and pair of bytes", "why_tests_cant": "unbounded inputs", "anchors": ["include/muu/hashing.h: fnv1a"]}
{"id": "C73", "title": "Printing an fnv1a hash writes its value in big-endian order", "statement": "operator<< writes exactly sizeof(value) bytes as hexadecimal pairs, most significant first, so the text read as one hexadecimal number is value().", "quantifier": "every hash value of 32, 64 and 128 bits", "why_tests_cant": "2^128 values", "anchors": ["include/muu/hashing.h: fnv1a operator<<"]}
{"id": "C74", "title": "sha1 of wide text equals sha1 of its UTF-8 bytes", "statement": "adding a char16_t/char32_t string to a sha1, between any other additions, has the effect of adding the UTF-8 encoding of the same text.", "quantifier": "every finite sequence of scalar values, every surrounding history", "why_tests_cant": "unbounded strings and histories", "anchors": ["include/muu/hashing.h: sha1::operator()(u16/u32 string), add_to_hasher_as_utf8"]}
{"id": "C75", "title": "half sign operations and classification", "statement": "for the emulated half, unary minus flips the sign and nothing else, abs gives the magnitude, infinity_or_nan is true exactly of infinities and NaNs, conversion to bool is false exactly for the two zeros, and converting a bool gives 0 or 1.", "quantifier": "all 65536 half bit patterns", "why_tests_cant": "statement about the real value of every pattern, including NaN payloads and signed zeros", "anchors": ["include/muu/half.h: operator-, abs, infinity_or_nan, operator bool"]}
{"id": "C76", "title": "half limits and integer constants", "statement": "numeric_limits<half> max/lowest bound every finite half, denorm_min and min are the least positive and least positive normal halves, epsilon is the gap between 1 and the next half, round_error is half of it, and the integer constants have their exact values.", "quantifier": "all 65536 half bit patterns", "why_tests_cant": "extremality is over every finite half", "anchors": ["include/muu/half.h: numeric_limits<half>, integer constants"]}
{"id": "C77", "title": "thread_pool never deadlocks", "statement": "In every reachable state of a pool that is not being destroyed, with any number of threads in enqueue, for_each or wait, the threads can run on without any new call until every enqueued task has finished, no enqueue or for_each call is left unfinished, and every wait may return.", "quantifier": "every reachable state of every interleaving", "why_tests_cant": "schedules", "anchors": ["src/thread_pool.cpp: queue, worker, thread_pool_monitor"]}
{"id": "C78", "title": "length and distance are Euclidean, normalize gives the unit vector of the direction, angle and lerp are what they say", "statement": "over exact scalars: length is the Euclidean norm (never negative, zero only for the zero vector, homogeneous), distance is a metric, dot obeys Cauchy-Schwarz, normalize of a non-zero vector has length one and the direction of the vector, direction(p,q) leads from p to q over distance(p,q), angle lies in [0,pi] and has the right cosine, lerp(p,q,t) lies at |t| of the distance from p.", "quantifier": "all vectors of all dimensions over the reals", "why_tests_cant": "inequalities over all vectors of all dimensions, one-dimensional special cases", "anchors": ["include/muu/vector.h: length, distance, normalize, direction, angle, lerp"]}
{"id": "C79", "title": "normalized() of an integer vector holds exactly for vectors of length one", "statement": "vector::normalized() with integral scalars returns true exactly when the vector has length one.", "quantifier": "all integer vectors of all dimensions", "why_tests_cant": "all vectors; the loop's condition", "anchors": ["include/muu/vector.h: normalized"]}
{"id": "C80", "title": "axis-angle rotations round-trip and quaternion * scalar takes a part of the rotation", "statement": "from_axis_angle(axis, angle) with a unit axis rotates by Rodrigues' formula; to_axis_angle gives a unit axis and an angle in [0, 2pi] ([0, pi] on the shortest path) describing the same rotation, and the very same quaternion when shortest_path is false; q * t rotates about the same axis by t times the angle, so q * 1 is the rotation of q, q * 0 the identity, and q * (t + u) = (q * t) * (q * u).", "quantifier": "all unit quaternions, unit axes, angles and factors over the reals", "why_tests_cant": "continuum of inputs, sign and zero-length branches", "anchors": ["include/muu/quaternion.h: from_axis_angle, to_axis_angle, operator*(quaternion, scalar)"]}
{"id": "C81", "title": "Euler angles describe the documented rotation and round-trip", "statement": "from_euler(yaw, pitch, roll) applies yaw first, then pitch about the local right axis, then roll about the local forward axis; to_euler(from_euler(...)) gives back angles in the principal ranges, and from_euler(to_euler(q)) is the rotation of q.", "quantifier": "all angles and unit quaternions over the reals", "why_tests_cant": "continuum of inputs; pole branches", "anchors": ["include/muu/quaternion.h: from_euler, to_euler", "include/muu/euler_angles.h"]}
{"id": "C82", "title": "slerp follows the shortest great arc at constant speed", "statement": "slerp of two unit quaternions is a unit quaternion, starts at the first, ends at the rotation of the second, lies in the plane of both, and makes the angle alpha*t with the start and (1-alpha)*t with the nearer of finish and -finish, where t is the angle between them; nearly equal quaternions are blended linearly and normalised, never dividing by zero.", "quantifier": "all unit quaternions and blend factors over the reals", "why_tests_cant": "continuum of inputs, three branches", "anchors": ["include/muu/quaternion.h: slerp"]}
{"id": "C83", "title": "orthonormalize gives an orthonormal frame with the same flag and orientation", "statement": "orthonormalize of a matrix with independent axes gives three orthogonal unit axes; the first has the direction of the first axis, the first two span the same half-plane, the orientation is kept, everything outside the rotation part is unchanged, and orthonormal matrices are left alone.", "quantifier": "all 3x3, 3x4 and 4x4 matrices over the reals with independent axes", "why_tests_cant": "continuum of inputs", "anchors": ["include/muu/matrix.h: orthonormalize, has_3d_shear"]}
{"id": "C84", "title": "from_3d_direction builds a right-handed frame looking along the direction", "statement": "for a unit direction the matrix is a rotation (orthonormal, determinant 1) that takes the forward axis -z to the direction; unless the direction is nearly vertical its x axis is horizontal and its y axis points upwards; it never divides by zero, not even straight up or down.", "quantifier": "all unit directions over the reals, all tolerances up to one half", "why_tests_cant": "continuum of inputs, pole branches", "anchors": ["include/muu/matrix.h: from_3d_direction, from_axes"]}
{"id": "C85", "title": "bounding sphere queries are exact", "statement": "contains(point), contains(segment), contains(triangle), contains(box), contains(sphere), intersects(triangle) and intersects(sphere) answer exactly as the closed ball does as a set of points; closest_point is the nearest point of the ball.", "quantifier": "all spheres of non-negative radius and all query objects over the reals", "why_tests_cant": "universally quantified geometry", "anchors": ["include/muu/bounding_sphere.h: contains, closest_point, intersects", "include/muu/impl/geometry_common.h: bounding_spheres_common"]}
{"id": "C86", "title": "oriented box queries are exact", "statement": "for orthonormal axes and non-negative extents, contains(point), closest_point and intersects(sphere) of an oriented bounding box answer exactly as the rotated box does as a set of points.", "quantifier": "all oriented boxes, points and spheres over the reals", "why_tests_cant": "universally quantified geometry", "anchors": ["include/muu/oriented_bounding_box.h: contains, closest_point", "include/muu/impl/bounding_sphere_x_oriented_bounding_box.h"]}
{"id": "C87", "title": "triangle measures agree with each other", "statement": "area() is half the length of the cross product of two edges, normal() is the unit vector along that cross product, the centroid lies in the triangle and balances its corners, and degenerate() holds exactly when the area is zero.", "quantifier": "all triangles over the reals", "why_tests_cant": "universally quantified geometry", "anchors": ["include/muu/triangle.h: area, normal, center, degenerate", "include/muu/impl/geometry_common.h: triangles_common"]}
{"id": "C88", "title": "two planes intersect unless they are parallel", "statement": "plane::intersects(plane) holds exactly when the planes share a point, up to the tolerance used for parallel normals.", "quantifier": "all planes with unit normals and all tolerances", "why_tests_cant": "universally quantified geometry", "anchors": ["include/muu/plane.h: intersects", "include/muu/impl/geometry_common.h: planes_common::intersects_plane"]}
{"id": "C89", "title": "8-bit predicates are the ASCII part of the wide ones", "statement": "for char, unsigned char and char8_t, each predicate is defined for every value, agrees with the char32_t predicate on ASCII and is false above it; is_code_point_boundary is false exactly for UTF-8 continuation bytes.", "quantifier": "every 8-bit value, every predicate", "why_tests_cant": "undefined behaviour in the wide counterpart may appear to work; the claim relates whole families of functions", "anchors": ["include/muu/impl/unicode_char8_t.h", "include/muu/impl/unicode_unsigned_char.h", "include/muu/impl/unicode_char.h"]}
{"id": "C90", "title": "is_not_x negates is_x, and is_x splits into an ASCII and a non-ASCII half", "statement": "is_not_x(c) is the opposite of is_x(c); is_x(c) is is_ascii_x(c) for ASCII characters and is_non_ascii_x(c) for others, and the other half is false.", "quantifier": "every code unit of 8, 16 and 32 bits, every family of predicates", "why_tests_cant": "2^32 values times seven families of generated code", "anchors": ["include/muu/impl/unicode_char32_t.h", "include/muu/impl/unicode_char16_t.h", "include/muu/impl/unicode_char8_t.h"]}
{"id": "C91", "title": "evenly_distribute shares out everything, evenly", "statement": "The sizes evenly_distribute returns for buckets 0..n-1 add up to exactly the total, no two differ by more than one, and they do not increase with the index; zero buckets divide by zero.", "quantifier": "every total, every non-zero bucket count and every index of every unsigned type", "why_tests_cant": "three free parameters of up to 128 bits, and the sum ranges over all buckets", "anchors": ["include/muu/math.h:2382-2388 evenly_distribute"]}
{"id": "C92", "title": "Variadic gcd is the greatest common divisor", "statement": "gcd of two or more integers of any mix of built-in types returns the number whose divisors are exactly the common divisors of the arguments, in the common type, provided no argument is the lowest value of a signed type.", "quantifier": "every number of arguments, every mix of types and values", "why_tests_cant": "unbounded argument lists, 10 types per position; the recursion treats two further arguments differently from any other number", "anchors": ["include/muu/math.h:2359-2376 gcd"]}
{"id": "C93", "title": "Variadic lcm is the least common multiple whenever that fits the result type", "statement": "lcm of two or more integers returns their least common multiple whenever it is representable in the returned common type.", "quantifier": "every number of arguments, every mix of types and values", "why_tests_cant": "the intermediate products overflow only for particular combinations", "anchors": ["include/muu/math.h:2335-2352 lcm"]}
{"id": "C94", "title": "abs of integers", "statement": "abs(x) is the absolute value of x for every integer type and every value except the lowest of a signed type; that one is returned unchanged (negative) for types narrower than int and is undefined from int upwards.", "quantifier": "every value of every built-in integer type", "why_tests_cant": "64- and 128-bit inputs cannot be enumerated; the failing value is a single point per type", "anchors": ["include/muu/math.h:289-301, 312-331, 394-440 abs"]}
{"id": "C95", "title": "approx_equal of integers is equality of the numbers", "statement": "approx_equal(a, b) of two integers is true exactly when a and b are the same number.", "quantifier": "every pair of integer types and values", "why_tests_cant": "100 type pairs of up to 2^256 value pairs", "anchors": ["include/muu/math.h:509-523 approx_equal"]}
{"id": "C96", "title": "infinity_or_nan agrees with the IEEE encoding", "statement": "infinity_or_nan(x) is true exactly when the bit pattern of x encodes an infinity or a NaN, for the 16-, 32-, 64- and 128-bit IEEE formats and for valid x87 extended numbers.", "quantifier": "every bit pattern of each format", "why_tests_cant": "2^64, 2^80 and 2^128 patterns", "anchors": ["include/muu/math.h:65-160 infinity_or_nan_"]}
{"id": "C97", "title": "Compile-time floor and ceil are exact", "statement": "floor_naive(x) and ceil_naive(x) (the constexpr paths of floor and ceil) return exactly the floor and ceiling of x, NaN for NaN and the same zero for a zero; they are undefined exactly where the number, or its ceiling, is outside the range of intmax_t.", "quantifier": "every number of every binary floating-point format, including long double and float128", "why_tests_cant": "all 2^64 (2^80, 2^128) inputs; the boundary at 2^63 differs between formats", "anchors": ["include/muu/math.h:607-616 floor_naive", "include/muu/math.h:741-750 ceil_naive"]}
{"id": "C98", "title": "Floating-point approx_equal and approx_zero", "statement": "approx_equal(a, b, eps) implies that a and b are finite and differ by less than eps exactly; numbers differing by at most a representable number below eps are accepted; the relation is symmetric for all operands (also NaN and infinities) and reflexive on finite numbers exactly when eps is positive; approx_zero(x, eps) is |x| < eps.", "quantifier": "all operands of every binary floating-point format", "why_tests_cant": "2^192 operand triples; rounding of the difference", "anchors": ["include/muu/math.h:451-507 approx_equal", "include/muu/math.h:533-563 approx_zero"]}
{"id": "C99", "title": "lerp passes through its end points and stays between them", "statement": "lerp(a, b, 0) is a, lerp(a, b, 1) is b, and for alpha in between the result lies between a and b.", "quantifier": "all finite operands of every binary floating-point format, and every way the compiler may fuse a product into the sum", "why_tests_cant": "2^192 operand triples; fused and unfused code differ in rounding", "anchors": ["include/muu/math.h:2115-2146 lerp"]}
{"id": "C100", "title": "The compensated accumulator sum has a second-order error", "statement": "When the sum reported by a floating-point accumulator is finite, all samples were finite and it differs from the exact sum S by at most u|S| + n^2 u^2 (1+u)^(n+1) * (sum of magnitudes), u being half a unit in the last place of 1.", "quantifier": "every non-empty list of samples, every binary floating-point format", "why_tests_cant": "all histories of all real-valued samples; rounding errors are invisible to example tests", "anchors": ["include/muu/accumulator.h:255-327 impl::kahan_accumulator"]}
{"id": "C101", "title": "normalize_angle maps to [0, 2 pi) and normalize_angle_signed to [-pi, pi)", "statement": "normalize_angle(x) is in [0, 2 pi) and differs from x by a whole number of turns; normalize_angle_signed(x) likewise in [-pi, pi).", "quantifier": "every angle", "why_tests_cant": "the failing inputs are isolated floats near multiples of 2 pi", "anchors": ["include/muu/math.h:2189-2197 normalize_angle_", "include/muu/math.h:2265-2276 normalize_angle_signed_"]}
{"id": "C102", "title": "Matrix constructors place the scalars row by row", "statement": "matrix(v0, v1, ...) with at most Rows*Columns scalars gives a matrix whose elements, read row after row, are the scalars in order followed by zeros; matrix(x) has x everywhere.", "quantifier": "every number of rows and columns, every list of scalars, any element type", "why_tests_cant": "all sizes; storage is column-major, so a transposed index is invisible on square symmetric examples", "anchors": ["include/muu/matrix.h:1395-1411, 1453-1463 matrix::matrix", "include/muu/impl/matrix_base.h:74-120 storage_base"]}
{"id": "C103", "title": "The compile-time square root is accurate", "statement": "consteval_sqrt (and sqrt in a constant expression) of a positive finite number is the correctly rounded root for float and _Float16, within one rounding and a little more of the root for double, within one unit in the last place for long double and float128; the root of a number that has one is exact, also for integers that double cannot represent; zeros and NaN are returned unchanged and negative numbers are refused.", "quantifier": "every number of each type, for every width of long double", "why_tests_cant": "2^64 and more inputs; an iteration with rounding errors and two ways to stop", "anchors": ["include/muu/math.h:873-958 consteval_sqrt", "include/muu/math.h:966-1060 sqrt"]}
{"id": "C104", "title": "The named constants are the numbers they are named after", "statement": "constants<T>::pi, two_pi, one_over_sqrt_three, e, phi_over_two, degrees_to_radians and all the other named floating-point constants are, for float, double, long double and float128_t, the number of the type nearest to the mathematical value their name states (the conversion of the long double literal to T included).", "quantifier": "all 106 named constants, each of the four types, against exact real numbers", "why_tests_cant": "a test compares with another approximation; that a literal is the nearest number to an irrational value needs proved bounds on pi, e and square roots", "anchors": ["include/muu/impl/core_constants.h:171-292", "include/muu/impl/core_constants.h:296-406"]}
{"id": "C105", "title": "The half constants are the nearest half numbers", "statement": "each named constant of constants<half>, where half is emulated, is the half-precision number nearest to the mathematical value its name states.", "quantifier": "all 106 named constants of half", "why_tests_cant": "a test compares with another approximation; nearest to an irrational value needs proved bounds", "anchors": ["include/muu/half.h:797-907"]}
{"id": "C106", "title": "plane::same_side agrees with the geometry", "statement": "plane::same_side(p, q, ...) is true exactly when all the points are in the closed half-space in front of the plane or all are strictly behind it; when it is false the plane meets a segment from the first point to another, when it is true the plane meets no segment between two of the points except through an end.", "quantifier": "all planes, any number of points, over the reals", "why_tests_cant": "universally quantified geometry, variadic", "anchors": ["include/muu/plane.h:402-434 same_side"]}
{"id": "C107", "title": "Compile-time sine and cosine are accurate", "statement": "muu::sin and muu::cos of a floating-point number, evaluated in a constant expression, end after at most four nested calls and give the sine and cosine up to a small multiple of the type's precision: within one turn the absolute error is at most 47 * 2^-p in long double (p bits) and 0.53 * 2^-p in double and float; outside it grows with the argument only as fast as the rounding of 2 pi makes unavoidable; small arguments of the sine keep their relative accuracy and sin(-x) = -sin(x); zeros and NaN are preserved, infinity is refused.", "quantifier": "all finite arguments of every format from 53 to 113 bits, and of all narrower formats by way of long double", "why_tests_cant": "the error bound is a statement about every floating-point number and about real functions; tests compare a few points, usually with a loose tolerance, and compile-time values are hardly ever compared with the run-time library", "anchors": ["include/muu/math.h:1098-1137 cos_naive", "include/muu/math.h:1246-1288 sin_naive", "include/muu/math.h:1157-1178 cos_", "include/muu/math.h:1308-1329 sin_"]}
{"id": "C108", "title": "Compile-time tangent is accurate", "statement": "muu::tan of a floating-point number, evaluated in a constant expression, ends and gives the tangent up to a small relative error and a small shift of the angle; every finite argument has a result, since no floating-point number is an odd multiple of pi/2; zeros and NaN are preserved.", "quantifier": "all finite arguments of every format from 53 to 113 bits, and of double by way of long double", "why_tests_cant": "as for C107; moreover the arguments that fail are single floating-point numbers", "anchors": ["include/muu/math.h:1396-1430 tan_naive", "include/muu/math.h:1450-1471 tan_"]}
{"id": "C109", "title": "A packed unit vector unpacks to nearly the same direction", "statement": "With exact scalars, packing any non-zero vector of two or three components into a packed_unit_vector of any unsigned integer type is defined, the queries x_negative, y_negative and z_negative tell the signs of its components, and unpacking gives a vector of length one whose distance from the original direction is at most 3/R (two components) or 5.1/R (three), R being the largest stored level; no component changes its sign, and the axes unpack to themselves.", "quantifier": "all integer widths and all real vectors", "why_tests_cant": "the unit tests pack random vectors and compare with a loose tolerance; the exchanged components occur only for vectors half-way between two levels, and the worst case over all directions is never sampled", "anchors": ["include/muu/packed_unit_vector.h:21-170 packed_unit_vector_traits", "include/muu/packed_unit_vector.h:247-300 packed_unit_vector"]}
{"id": "C110", "title": "Packing an unpacked vector gives the packed value back", "statement": "pack(unpack(p)) == p for every packed value p, so that repeated unpacking and packing does not change a direction.", "quantifier": "all integer widths, all packed values, any number of cycles", "why_tests_cant": "the error of one cycle is below any tolerance of a test; only many cycles show the drift, and stability is a claim about all stored values", "anchors": ["include/muu/packed_unit_vector.h:58-168 pack and unpack"]}
{"id": "C111", "title": "Packing floating-point unit vectors is defined and accurate", "statement": "For float, double and long double vectors of about unit length packing into any integer type is defined, and unpacking gives finite components within 3/R + 31 * 2^-p (two components) or 5.1/R + 62 * 2^-p (three) of the direction, p being the precision of the scalar type.", "quantifier": "all precisions from 24 to 113 bits, all integer widths, all finite vectors whose absolute values add up to between 1/2 and 4", "why_tests_cant": "the unit tests leave out two components and small integers, and never pack an axis exactly; the undefined behaviour is invisible to them because the assumption is only a hint to the optimiser", "anchors": ["include/muu/packed_unit_vector.h:58-168 pack and unpack", "include/muu/vector.h:1074-1115 normalize"]}
{"id": "C112", "title": "triangle::intersects decides whether two triangles have a common point", "statement": "For two triangles of nonzero area such that each corner lies on the plane of the other triangle or is further from it than the tolerance allows (distance times twice the area at least default_epsilon), triangle::intersects(a, b) is true exactly when some point belongs to both (closed) triangles: crossing, touching, containing, in one plane or not. The order of the two triangles then does not matter.", "quantifier": "all pairs of triangles with real coordinates, all tolerances", "why_tests_cant": "The answer must be right for every position of two triangles in space, including the measure-zero cases of touching corners and parallel overlapping edges that no random test hits.", "anchors": ["include/muu/impl/tri_tri_intersection.h:60-316", "include/muu/impl/tri_tri_intersection.h:576-590", "include/muu/triangle.h:559-580"]}
{"id": "C113", "title": "The segment returned by triangle::intersects is the intersection", "statement": "Under the conditions of C112, the overload of triangle::intersects with a line segment never reads an uninitialised variable and never divides by zero, returns the same answer as the overload without it, and sets the segment exactly when the triangles meet and do not lie in one plane; the points of the segment are exactly the common points of the triangles.", "quantifier": "all pairs of triangles with real coordinates, all tolerances", "why_tests_cant": "The segment has to be right for every position of the triangles; the eight ways of choosing its ends and the uninitialised reads depend on orderings that tests sample only sparsely.", "anchors": ["include/muu/impl/tri_tri_intersection.h:318-572", "include/muu/triangle.h:559-570"]}
{"id": "C114", "title": "The compile-time arc tangent ends and is accurate", "statement": "muu::atan in a constant expression has a result for every finite argument, with a relative error of at most 64 * 2^-p where p is the precision of the widest type (long double or float128_t); for half, float and double the relative error is at most 2^-p + 136 * 2^-P, with p the precision of the type and P that of long double, subnormal arguments and results included. Zeros keep their sign, NaN stays NaN, the infinities give the rounded +-pi/2, and the function is odd.", "quantifier": "all arguments of every floating-point type; the long double formats of 53, 64 and 113 bits", "why_tests_cant": "The recursion has to end for each of 2^80 long doubles; at a handful of numbers next to the reduction bounds rounding decides whether it does.", "anchors": ["include/muu/math.h:1827-1868", "include/muu/math.h:1887-1906"]}
{"id": "C115", "title": "The compile-time arc sine ends and is accurate", "statement": "muu::asin in a constant expression has a result for every argument from -1 to 1, after at most two nested calls. For |x| <= 1/sqrt(2) its relative error is at most 122 units of rounding of the widest type, and little more than half a unit in the last place for half, float and double (subnormals included). For |x| up to 1 it is accurate to a few units in the last place as well. Zeros keep their sign, NaN stays NaN, +-1 give the rounded +-pi/2, and every other argument, the infinities included, is rejected.", "quantifier": "all arguments of every floating-point type; the long double formats of 53, 64 and 113 bits", "why_tests_cant": "The error near one grows with the three quarters power of the unit of rounding and depends on the last bits of the argument; that the recursion ends for the numbers next to 1/sqrt(2) is a matter of rounding.", "anchors": ["include/muu/math.h:1677-1718", "include/muu/math.h:1738-1757"]}
{"id": "C116", "title": "The compile-time arc cosine ends and is accurate", "statement": "muu::acos in a constant expression has a result for every argument from -1 to 1, after at most two nested calls of the arc sine; the result is close to the arc cosine, absolutely and relative to its size. acos(1) is +0, acos(-1) is the rounded pi, NaN stays NaN, and every other argument, the infinities included, is rejected.", "quantifier": "all arguments of every floating-point type; the long double formats of 53, 64 and 113 bits", "why_tests_cant": "The subtraction pi/2 - asin(x) cancels near one: the error depends on how many bits cancel and on the rounding of every step of the series.", "anchors": ["include/muu/math.h:1548-1568", "include/muu/math.h:1588-1607"]}
{"id": "C117", "title": "function_view calls what it views", "statement": "Calling a function_view made from a function, a lambda or an object with a call operator is calling that function, lambda or object as it was given (const or not, lvalue or rvalue), with its current state, for as long as it exists; assignment makes a view of the other's target; operator bool is true exactly for views of something.", "quantifier": "all programs that create, destroy, assign, copy and call views and callables in any order", "why_tests_cant": "The binding has four different implementations chosen by properties of the type, and what a call does depends on everything assigned and destroyed before.", "anchors": ["include/muu/function_view.h:75-169", "include/muu/meta.h:2507-2515"]}
{"id": "C118", "title": "Copies of a function_view view the same thing", "statement": "A function_view made by copying another one views the same target, whatever happens to the original afterwards, and is null exactly if the original is.", "quantifier": "all views, all later changes of the original", "why_tests_cant": "The template constructor is preferred over the copy constructor for originals that are not const; as long as the original exists and is not changed nobody can tell.", "anchors": ["include/muu/function_view.h:213-229"]}
{"id": "C119", "title": "A thread that waits for a pool is never forgotten", "statement": "Let any number of threads call wait, increment and decrement of the counter behind thread_pool::wait, with steps mixed in any way and with spurious wake-ups. Once the calls made balance and all their changes have been made, the calls still running end: each thread takes at most three more steps, and the only state in which no thread can go on is the one in which all calls have returned. Whenever the count is zero and a thread sleeps, another thread wakes it within two steps that nothing can hold up. wait returns only when the calls balance, apart from calls that have yet to change the count.", "quantifier": "all numbers of threads, all sequences of calls, all interleavings, all spurious wake-ups; both versions of the counter", "why_tests_cant": "A lost wake-up needs one particular order of a few instructions in two threads; a test sees a few of the orders and cannot tell a sleeping thread from a slow one.", "anchors": ["src/thread_pool.cpp:48-118"]}
{"id": "C120", "title": "Destroying a thread pool ends and leaves nothing behind", "statement": "In every state that a pool can be in after its destructor has begun: each worker told to end can be run to its end by steps of the workers alone, so each join returns; destroying a queue after that is possible at once and drops the tasks left in it, oldest first; the whole destruction can be carried to its end. When all queues are destroyed, however that came about, every task ever put in has either finished or been dropped unrun, and the busy count is zero. Once all queues have been told to end, no worker takes another task.", "quantifier": "all numbers of workers, queues, clients and tasks, all interleavings, as long as no position counter has gone round (see C51)", "why_tests_cant": "Destruction races with workers in every stage of taking and running a task; tests see a few of the orders.", "anchors": ["src/thread_pool.cpp:176-204", "src/thread_pool.cpp:352-371", "src/thread_pool.cpp:502-513"]}
{"id": "C121", "title": "trim() removes exactly the white space at the ends of a string of any character type", "statement": "For text in UTF-8, UTF-16 or UTF-32, without or with a byte order mark, that the library reads correctly (C23, C25), trim, trim_left and trim_right leave exactly the text without its leading and/or trailing run of White_Space characters, supplementary characters in UTF-16 included.", "quantifier": "all texts of Unicode scalar values, storage forms, platforms (byte order, sign of char)", "why_tests_cant": "universally quantified over texts; the predicate is undefined on 374 code points that no test uses", "anchors": ["include/muu/strings.h: trim, trim_left, trim_right, impl::utf_find", "include/muu/impl/unicode_char32_t.h: is_not_whitespace"]}
{"id": "C122", "title": "pointer_cast compiles for exactly the pairs of types between which a cast is possible", "statement": "For all pointer, integer, enumeration and nullptr types: pointer_cast<To>(From) ends its choice of casts, and compiles if and only if both are pointers to functions with the same signature; or one is and the other points to void; or both point to other types, pointers to pointers with any qualifiers included, where a class must be an unambiguous base of the other and a class that is not polymorphic must be no virtual base; or one is an integer or enumeration at least as large as a pointer and the other a pointer or (as the source) nullptr. The result has the type To, and const and volatile never change its value.", "quantifier": "for all pairs of types of any depth and qualification, all acyclic class hierarchies", "why_tests_cant": "the types are infinitely many; whether a program is rejected is not something a unit test can run", "anchors": ["include/muu/pointer_cast.h:55-289", "include/muu/meta.h:163-194", "include/muu/meta.h:1374-1392"]}
{"id": "C123", "title": "pointer_cast gives the address of the right object, and casting back returns it", "statement": "For all hierarchies with virtual, repeated and polymorphic bases and all live objects: a cast to a base gives the address of that base; from a base that is not polymorphic the object around it, and is undefined exactly if there is none; from a polymorphic base the one object around it, else the only one of the class in the complete object, else null. To a base and back, to void* and back, to any unrelated type and back, and to any large enough integer or enumeration and back give the same pointer. Null stays null. An integer is the address as a signed or unsigned number.", "quantifier": "for all class hierarchies and memories obeying the rules of C++, all objects, addresses, pointer sizes and integer types", "why_tests_cant": "hierarchies, object layouts and addresses are unbounded, and an undefined cast can look right when tested", "anchors": ["include/muu/pointer_cast.h:55-289"]}
{"id": "C124", "title": "type_name is the C++ spelling of the type", "statement": "The name of a type is its C++ type-id: the name of a class, enumeration or fundamental type without class key, whichever compiler describes it; const and volatile before it or after the asterisk of a pointer; pointers, references, arrays, references to arrays, functions, pointers and references to functions, with noexcept; instances of templates with their types and decimal numbers. Not so, and shown exactly: arrays of arrays, pointers to arrays, pointers to functions with parameters and '...', the number 0, the lowest value of a type, an empty list of numbers and, unless they have names of their own, templates as arguments of templates.", "quantifier": "for all types built from these constructions to any depth, all numbers, all texts of template arguments and the three compilers", "why_tests_cant": "types are unbounded trees; tests name a handful, none of them with nested arrays, zeros or nested templates", "anchors": ["include/muu/type_name.h:82-776"]}
{"id": "C125", "title": "Different types have different names", "statement": "Every lawful type has a name, and two types with the same name are the same type, however pointers, references, arrays, functions, qualifiers and template arguments are nested; provided templates fix the types of their numbers, and templates are arguments of templates only if these have names of their own. Instances that differ only in the type of a number share their name.", "quantifier": "for all pairs of lawful types of any depth and size", "why_tests_cant": "needs all pairs of an infinite set of types", "anchors": ["include/muu/type_name.h:82-776"]}
{"id": "C126", "title": "A strong typedef computes what the plain type computes", "statement": "If a program that uses strong typedefs with any traits compiles, then it also compiles when every strong typedef is replaced by its value type, and every expression and every variable has the same value; undefined behaviour is the same too if no strong typedef holds a reference. Sums and differences of strong values compile exactly when those of the value type have that type again. So the traits do not work for value types narrower than int, const strong bools cannot be tested, and sums of strong references dangle.", "quantifier": "for all programs of expressions, assignments and increments over any plain and strong variables, all value types including classes with any choice of operators, all memories", "why_tests_cant": "there are unboundedly many programs and value types, and the header is not even tested with one; a missing or failing operator shows only when someone uses it", "anchors": ["include/muu/strong_typedef.h:14-766", "include/muu/strong_typedef.h:884-930"]}
{"id": "C127", "title": "Strong typedefs never mix", "statement": "In a program that compiles, an expression of a strong type is built from variables of exactly that strong type, operators never take operands of two different strong types, and what the program leaves in the variables of one strong type depends only on the variables of that type. A strong typedef without traits has no operators, except that a strong bool can be tested and negated.", "quantifier": "for all programs, all strong typedefs with any tags, traits and value types, all pairs of memories that agree on the variables of the type", "why_tests_cant": "a unit test can show that one mixture does not compile, not that no expression of any size mixes two tags", "anchors": ["include/muu/strong_typedef.h:14-766", "include/muu/strong_typedef.h:824-930"]}
{"id": "C128", "title": "Qualifier and reference traits change exactly what they name", "statement": "Every C++ type is in exactly one way a bare type, qualified by const and volatile or not, and behind a reference or not. add_, remove_, set_ and conditionally_add_ const, volatile and cv change just the named qualifiers of that decomposition, also behind a reference, and leave functions alone; copy_const, copy_volatile, copy_cv, copy_ref and copy_cvref take exactly the named parts from the second type; remove_cvref gives the bare type, from which copy_cvref restores the original; make_cref and remove_lvalue/rvalue_reference likewise; is_const and is_volatile look behind references, is_cvref is any of the three. any_cv and all_cv are documented to look behind references as well.", "quantifier": "for all types built from arithmetic types, enums, classes, pointers, arrays, functions, member functions and references, to any depth", "why_tests_cant": "there are infinitely many types and the traits recurse through references, arrays and abominable functions; a static_assert settles one type", "anchors": ["include/muu/meta.h:24-38", "include/muu/meta.h:133-163", "include/muu/meta.h:1250-1380"]}
{"id": "C129", "title": "Enum, sign and pointer traits", "statement": "remove_enum turns enums into their integer and keeps qualifiers and reference, changes nothing else and is idempotent. make_signed and make_unsigned give the integer type of the same number of bits with the other sign, keep qualifiers and reference, are idempotent, and follow the scalars of vectors and matrices; what has no equivalent becomes void. is_signed, is_unsigned, copy_signed and copy_unsigned agree with the sign of the integer or of the enum's integer. pointer_rank counts the stars and remove_all_pointers removes them all. rebase_pointer exchanges the pointee and keeps its qualifiers and the reference.", "quantifier": "for all types, platforms with wchar_t signed or not and long of 32 or 64 bits", "why_tests_cant": "the claim covers all qualified and referenced versions of all types on several platforms at once", "anchors": ["include/muu/meta.h:165-195", "include/muu/meta.h:297-586", "include/muu/meta.h:670-813", "include/muu/meta.h:1065-1119", "include/muu/meta.h:1390-1448"]}
{"id": "C130", "title": "Choosing a type from a list", "statement": "largest, smallest, most_aligned and least_aligned return the first extreme member of the list; total_size is the sum of the sizes in size_t; index_of_type is the first index of the type and exists exactly if it is there; type_at_index is that member. highest_ranked does not depend on the order of its arguments, is a floating-point member if there is one, and otherwise an integer type that holds all values of all members unless it is unsigned and the member signed.", "quantifier": "for all lists of types of any length, any sizes and alignments, both widths of long", "why_tests_cant": "lists of types have any length and order", "anchors": ["include/muu/meta.h:199-294", "include/muu/meta.h:588-663", "include/muu/meta.h:825-918"]}
{"id": "C131", "title": "Function type traits", "statement": "add_noexcept and remove_noexcept change the exception specification of a function, pointer, reference or member function type and nothing else; remove_callconv resets the calling convention and nothing else; every other type is returned unchanged. arity is the number of parameters of the function, of what the pointer points to, of the member function, of the class's call operator or of the function the object turns into.", "quantifier": "for all function types with any parameters, qualifiers, conventions the header knows, classes with one call operator", "why_tests_cant": "parameter lists and the layers of pointers and references around functions are unbounded", "anchors": ["include/muu/meta.h:1516-1658", "include/muu/meta.h:2521-2565"]}
{"id": "C132", "title": "How read-only parameters are passed", "statement": "readonly_param<T> is the bare type or a reference to it as const, whatever qualifiers and reference T has. Arithmetic types, enums and pointers go by value, arrays and functions by reference, a class by value exactly if it asks to or fits two pointers, is destroyed without throwing and is trivially copyable or copied without throwing. An argument of the type can always be passed. pass_readonly_by_reference and pass_readonly_by_value tell which of the two the parameters are.", "quantifier": "for all types, all sizes of pointers and all properties of classes", "why_tests_cant": "the rule quantifies over all user classes", "anchors": ["include/muu/meta.h:2311-2370"]}
{"id": "C133", "title": "for_sequence and for_product are loops", "statement": "for_sequence<N>(f) calls f with the constants 0, 1, ..., N-1 in this order, every time in the value category f was passed in, and for_product<N1, N2>(f) calls it with all pairs, the second index running faster. An exception of a call leaves the function after exactly the calls before it, no further call is made and the program is not ended by the function itself. The functions are noexcept exactly if every one of the calls is. Negative lengths do not compile; length 0 makes no call.", "quantifier": "for all lengths, all callables with any state, any exceptions and any exception specification per constant", "why_tests_cant": "callables, lengths and points of failure are unbounded; that noexcept is neither too strong (termination) nor too weak quantifies over all of them", "anchors": ["include/muu/for_sequence.h:18-188"]}
{"id": "C134", "title": "Integer and size literals are the number written", "statement": "42_u8, 42_i16, ..., 42_u128 and 42_sz are the number written, 42_kb, 42_mb and 42_gb 2^10, 2^20 and 2^30 times it, exactly if the type holds that number; otherwise the result is the number modulo the type's range.", "quantifier": "for all literals the compiler accepts, all widths, size_t of up to 64 bits", "why_tests_cant": "2^64 literals per operator", "anchors": ["include/muu/integer_literals.h:19-130", "include/muu/size_t_literals.h:18-71"]}
{"id": "C135", "title": "file_name_tail is the file name", "statement": "source_location::file_name_tail() is the part of file_name() after its last slash or backslash, and all of it if there is none; it always points into the string.", "quantifier": "for all paths of any length", "why_tests_cant": "paths are unbounded strings", "anchors": ["include/muu/source_location.h:25-39"]}
{"id": "C136", "title": "compressed_pair elides empty elements and keeps the elements apart", "statement": "In a compressed_pair<First, Second> both elements lie inside the pair at offsets their alignment allows, the bytes that hold their data are disjoint (so assigning to one never changes the other, even where one lies in the other's padding), and no two subobjects of the same type have the same address. An empty element takes no space: the pair is as large as the other element, unless that one starts with a subobject of the empty element's type, or the element is final and the compiler has no [[no_unique_address]]. The pair is never larger than a struct with the two members. All of this holds for pairs of pairs.", "quantifier": "for all element types of any size, alignment, padding and subobject structure, with and without the attribute, nested to any depth", "why_tests_cant": "tests check sizeof for a handful of types; layouts of arbitrary types and nestings are unbounded", "anchors": ["include/muu/compressed_pair.h:46-151", "include/muu/compressed_pair.h:163-200"]}
{"id": "C137", "title": "compressed_pair's elements can be reached, built from two values and swapped", "statement": "first() and second() are available for every pair that exists. The constructor taking two values is there exactly if each element can be constructed from its argument, and gives the elements those values; the first element is constructed before the second. swap exchanges both elements.", "quantifier": "for all element types, base class structures, argument values and throwing constructors", "why_tests_cant": "which accessors compile depends on the bases of arbitrary classes, and the values on how arbitrary classes treat braces", "anchors": ["include/muu/compressed_pair.h:23-44", "include/muu/compressed_pair.h:64-74", "include/muu/compressed_pair.h:90-100", "include/muu/compressed_pair.h:116-127", "include/muu/compressed_pair.h:140-150", "include/muu/compressed_pair.h:293-299"]}
{"id": "C138", "title": "A vector holds the values it was constructed from, in their order, followed by zeros", "statement": "Constructing a vector from one value fills every component with it; from several values, an array, a tuple, a span, a pointer with a count, another vector or several vectors one after the other, it starts with those values, converted to its scalar type, and ends in zeros. More values than dimensions are refused. A vector of another scalar type or size is converted only when the conversion is written out. Reading by index, by iteration, by swizzle (get<...>, xy(), yx(), xz(), xyz()) gives the components read.", "quantifier": "for all scalar types, dimensions, numbers and kinds of arguments and indices", "why_tests_cant": "dimensions, argument counts and conversions are unbounded, and which constructor is chosen depends on the form of the initialisation", "anchors": ["include/muu/impl/vector_base.h", "include/muu/vector.h:310-790", "include/muu/vector.h:2282-2376", "include/muu/vector.h:2524-2649"]}
{"id": "C139", "title": "Arithmetic on integer vectors gives the exact result, wrapped into the scalar type", "statement": "For integer vectors, each component of a sum, difference, product, negation, quotient, remainder or absolute value is the exact result wrapped into the scalar type. It has a meaning exactly when the same operation on the scalars has one: unsigned and narrow types never overflow. Quotient and remainder belong together; subtracting what was added gives back the vector; the compound assignments give the same, also when a vector is combined with itself.", "quantifier": "for all integer types of 8 to 128 bits, dimensions and component values", "why_tests_cant": "all component values of all types are needed, and undefined behaviour does not show in a test", "anchors": ["include/muu/vector.h:111-207", "include/muu/vector.h:1422-1458", "include/muu/vector.h:1516-1658", "include/muu/vector.h:1709-1878", "include/muu/vector.h:2760-2775", "include/muu/math.h:353-436"]}
{"id": "C140", "title": "Shifting an integer vector multiplies or divides its components by a power of two", "statement": "v << k multiplies every component by 2^k, wrapping into the scalar type; v >> k divides by 2^k, rounding down; both have a meaning for every k from 0 to below the width of the type (or of int, for narrow types). What was shifted left without losing bits comes back. The compound forms give the same.", "quantifier": "for all integer types of 8 to 128 bits, dimensions, component values and shift counts, in C++17 and C++20", "why_tests_cant": "all component values and counts of all types are needed, and undefined behaviour does not show in a test", "anchors": ["include/muu/vector.h:1883-1988", "include/muu/vector.h:251-252"]}
{"id": "C141", "title": "Sums, products, dot and cross products of integer vectors are exact", "statement": "sum() and product() give the exact sum and product of the components, wrapped into the scalar type. dot() and cross() give the exact value in the (signed) product type, and the cross product is at right angles to both vectors. They have a meaning exactly when their partial results are in range; for narrow and unsigned types they always have one.", "quantifier": "for all integer types of 8 to 128 bits, dimensions and component values", "why_tests_cant": "overflow depends on all components together, and undefined behaviour does not show in a test", "anchors": ["include/muu/vector.h:1221-1308", "include/muu/vector.h:1469-1508", "include/muu/vector.h:1662-1700", "include/muu/vector.h:251-288"]}
{"id": "C142", "title": "Integer vectors compare equal exactly when their components are equal", "statement": "Two integer vectors, of the same or of different scalar types, are equal exactly if all their components are the same numbers; != is the opposite; the order of the operands does not matter. zero() holds exactly for the vector of zeros.", "quantifier": "for all integer types of 8 to 128 bits, dimensions and component values", "why_tests_cant": "all pairs of types and values are needed", "anchors": ["include/muu/vector.h:800-900", "include/muu/impl/vector_types_common.h:14-18", "include/muu/meta.h:588-663"]}
{"id": "C143", "title": "Minimum, maximum and clamp of integer vectors work in each component", "statement": "min and max of two or more vectors, of a range or of an initializer list give in each component the least and the greatest of the components; for an empty range or list zeros. clamp, in place or not, brings each component to the nearest value within the bounds.", "quantifier": "for all integer types, dimensions, component values and numbers of vectors", "why_tests_cant": "the number of vectors and of dimensions is unbounded", "anchors": ["include/muu/vector.h:2378-2520"]}
{"id": "C144", "title": "A vector divided by a scalar has the quotients as components, up to two roundings", "statement": "In v / s every component that comes out finite differs from the exact quotient by at most two roundings (relative (1+u)^2 - 1, with u half a unit in the last place of one; for s above a quarter of the overflow threshold (1+4u)(1+u) - 1) and half the smallest positive number. It is finite if s is at least the smallest normal number and the quotient is not next to the overflow. For a zero, infinite or NaN s, for components that are not finite, and for s a power of two the components are exactly the correctly rounded quotients. They are not the correctly rounded quotients in general: the library multiplies by the reciprocal.", "quantifier": "for all binary floating-point formats, dimensions, components and divisors", "why_tests_cant": "2^64 pairs of floats, and formats of any precision", "anchors": ["include/muu/vector.h:1748-1793"]}
{"id": "C145", "title": "Dot products, lengths and distances are accurate to a few roundings, however the compiler fuses operations", "statement": "If the dot product of two vectors of floating-point numbers is finite, so are all components, and it differs from the exact sum by at most (1+u)^n - 1 times the sum of the magnitudes of the products, plus an underflow term. The same holds for length_squared. For vectors with two or more components whose squared length is neither next to the overflow nor so small that squares are lost, length is finite and positive and its square is the exact squared length up to n + 2 roundings, distance up to n + 4.", "quantifier": "for all binary floating-point formats, dimensions, components and choices of fused multiply-add", "why_tests_cant": "the bound quantifies over all component values, dimensions and code the compiler may generate", "anchors": ["include/muu/vector.h:111-131", "include/muu/vector.h:1071-1186", "include/muu/vector.h:1218-1237"]}
{"id": "C146", "title": "A normalized vector passes the test for unit length", "statement": "For a vector with two or more components whose squared length is in range, normalize gives finite components that differ from those of the exact unit vector by at most n + 3 roundings, stores the same length that length returns, and the squared length of the result is one up to n + 6 roundings. direction from one point to another gives the unit vector of the exact difference up to n + 5 roundings, and stores the distance. normalized() of the result, and of direction between two points, is true, for floats with two to four components and squared length from 2^-114 to 2^127, for doubles and long doubles with up to a thousand components. A vector that passes normalized() has a squared length within the tolerance of one.", "quantifier": "for all component values, dimensions and choices of fused multiply-add", "why_tests_cant": "all 2^128 vectors of four floats, and all ways to compile the sums, are covered", "anchors": ["include/muu/vector.h:1987-2080", "include/muu/vector.h:2142-2240"]}
{"id": "C147", "title": "Products of floating-point matrices and vectors are accurate to as many roundings as there are terms, however the compiler fuses operations", "statement": "If an element of a matrix product, of a matrix times a vector or of a vector times a matrix comes out finite, all elements of its row and column are finite and it differs from the exact sum of n products by at most (1+u)^n - 1 times the sum of their magnitudes, plus n times the smallest positive number up to a factor (1+u)^n. It does come out finite unless that sum of magnitudes is next to the overflow. The written-out sizes and the loops obey the same bound. Which operations the compiler fuses can be seen in the result.", "quantifier": "for all binary floating-point formats, sizes, elements and choices of fused multiply-add", "why_tests_cant": "the bound quantifies over all elements, sizes, formats and the code the compiler may generate", "anchors": ["include/muu/matrix.h:2398-2480", "include/muu/matrix.h:2495-2544", "include/muu/matrix.h:2551-2599", "include/muu/preprocessor.h:1836-1838"]}
{"id": "C148", "title": "Determinants of floating-point matrices are accurate to 2, 5 or 9 roundings", "statement": "If the determinant of a matrix of two, three or four rows comes out finite, all its elements are finite, and it differs from the signed sum of the n! products by at most (1+u)^2 - 1, (1+u)^5 - 1 or (1+u)^9 - 1 times the sum of the magnitudes of those products, plus an underflow term; for one row it is exact. With elements of magnitude at most B, where B is at least one, it is finite if n! B^n is below half the overflow threshold.", "quantifier": "for all binary floating-point formats with at least 11 bits, elements and choices of fused multiply-add", "why_tests_cant": "sixteen elements of 32 bits each, and every way to compile the expression", "anchors": ["include/muu/matrix.h:1026-1076", "include/muu/matrix.h:2739-2751"]}
{"id": "C149", "title": "Multiplying by the identity and arithmetic on small whole numbers are exact for floating-point matrices", "statement": "A finite matrix or vector multiplied by the identity matrix from either side keeps all its values, with no rounding and whatever is fused. Products of matrices of whole numbers are exact if no sum of magnitudes exceeds 2^precision, and determinants are exact if n! B^n does not, with B the greatest magnitude of an element.", "quantifier": "for all binary floating-point formats, sizes, elements and choices of fused multiply-add", "why_tests_cant": "all finite matrices of all sizes and all ways to compile the product", "anchors": ["include/muu/matrix.h:2398-2480", "include/muu/matrix.h:2495-2599", "include/muu/matrix.h:1026-1076", "include/muu/matrix.h:2739-2751"]}
{"id": "C150", "title": "Inverting a floating-point matrix", "statement": "If every product in the determinant is far from overflow and the determinant is at least twice its own rounding error, every finite element of the inverse of a 2x2, 3x3 or 4x4 matrix is the element of the true inverse up to an explicit bound in the relative error of the determinant, however the compiler fuses; it is finite unless near the overflow. Matrices of whole numbers with determinant 1 or -1 (small enough) are inverted exactly and multiply with their inverse to exactly the identity on either side. A determinant that overflows gives an inverse of zeros with no infinity or NaN in it, and one that underflows infinities and NaNs, though the true inverse is representable.", "quantifier": "for all binary floating-point formats of precision 11 or more, elements and choices of fused multiply-add", "why_tests_cant": "all finite matrices and all ways to compile the inverse; tests compare a few inverses with a tolerance", "anchors": ["include/muu/matrix.h:2768-2864", "include/muu/matrix.h:1026-1076"]}
{"id": "C151", "title": "Quaternion products and rotations of floats are within a few roundings, and exact for whole numbers and for the identity", "statement": "However the compiler fuses, each component of a product of two quaternions is off by at most four roundings of the sum of the magnitudes of its four products (plus an underflow term), and each component of a rotated vector by at most six; neither overflows while the components are moderate; components that are whole numbers give exact results while these fit the mantissa; the identity quaternion leaves every finite quaternion and vector unchanged. The rotation that is approximated is q p q* plus p times (1 - |q|^2), and keeps lengths exactly when |q| is 1 or the vector lies along the axis.", "quantifier": "for all binary floating-point formats of precision 11 or more, finite quaternions, vectors and choices of fused multiply-add", "why_tests_cant": "all finite quaternions and all ways to compile the expressions; tests compare a few rotations with a tolerance", "anchors": ["include/muu/quaternion.h:851-884", "include/muu/vector.h:1218-1308"]}
{"id": "C152", "title": "The matrix of a float quaternion is within four roundings of the true rotation matrix", "statement": "Each element of matrix::from_quaternion inside the upper three by three is off by at most four roundings of the sum of the magnitudes of its terms (plus an underflow term) and finite for moderate quaternions; the elements outside are exactly those of the identity. The true matrix moves every point as the quaternion does, for every quaternion, and is orthonormal when the quaternion has length one.", "quantifier": "for all binary floating-point formats of precision 11 or more, quaternions, sizes 3x3, 3x4, 4x3, 4x4 and choices of fused multiply-add", "why_tests_cant": "all finite quaternions and all ways to compile the expressions", "anchors": ["include/muu/matrix.h:510-550"]}
{"id": "C153", "title": "Points transformed by float matrices: affine matrices lose nothing to the division by w", "statement": "However the compiler fuses, transforming a finite point by an affine matrix (three rows and four columns, or a bottom row 0 0 0 1) costs at most four roundings of the sum of the magnitudes of the four terms, and without translation three; translations give the correctly rounded sum and scales the correctly rounded product; whole numbers are exact. For any other bottom row the result is near the true quotient by an explicit bound as long as w is at least twice its own rounding error. A position with an infinite component becomes NaN in all three components under every 4x4 matrix with a zero in that place of the bottom row, as every affine matrix has.", "quantifier": "for all binary floating-point formats of precision 11 or more, matrices, points and choices of fused multiply-add", "why_tests_cant": "all finite matrices and points and all ways to compile the expressions", "anchors": ["include/muu/matrix.h:721-764", "include/muu/matrix.h:805-823"]}
{"id": "C154", "title": "Bounding box tests with floats err to the inclusive side only", "statement": "For finite boxes and points, contains is true for every point inside the box, intersects for every two boxes that meet and contains for every box within another, whatever rounding or overflow of the corners does. Conversely a point found inside is inside the box with extents enlarged by half a unit in the last place, and boxes found to meet or to be nested do so up to half a unit in the last place of the sum of their centers and extents (finite corners). intersects is symmetric and containing a box transitive for all floats, NaNs included; nothing is inside a box with a NaN and no point with a NaN is inside a box. Points and boxes just outside can be found inside.", "quantifier": "for all binary floating-point formats, boxes and points", "why_tests_cant": "The space of pairs of boxes of floats cannot be enumerated; tests use small whole numbers, for which all tests are exact.", "anchors": ["include/muu/bounding_box.h:863-867", "include/muu/bounding_box.h:1058-1084", "include/muu/impl/geometry_common.h:747-756", "include/muu/impl/geometry_common.h:886-912"]}
{"id": "C155", "title": "Float bounding boxes fitted to points, and grown by points and boxes", "statement": "The faces of a box fitted to any number of points are within half a unit in the last place of the greatest coordinate (plus one smallest subnormal) of the least and greatest coordinates; adding points or a box moves each face to the outermost of the old face and what is added, within about two such errors. If all coordinates are multiples of one power of two by whole numbers of at most prec - 2 bits, everything is exact: center, extents and both corners, contains agrees with comparing coordinates, and adding any number of points one by one or merging boxes gives the exact box of all points. In general a fitted box need not contain its points, and appending a point can lose that point or points contained before; if the sum of the least and the greatest coordinate overflows nothing is contained.", "quantifier": "for all binary floating-point formats of precision 11 or more, all lists of points, boxes and grids", "why_tests_cant": "A test checks some point sets, mostly of small whole numbers, which are exact; that the result is off by at most a rounding, and exactly when, needs all floats.", "anchors": ["include/muu/bounding_box.h:188-240", "include/muu/bounding_box.h:766-816", "include/muu/impl/geometry_common.h:492-502", "include/muu/impl/geometry_common.h:574-598", "include/muu/vector.h:2382-2467"]}
{"id": "C156", "title": "Line segments: colinear, coplanar, containment, extension and reversal", "statement": "For a segment with two different ends: a point or a segment is colinear with it exactly if the point, or both ends, have a squared distance below the tolerance from its infinite line, for every tolerance exactly if they are on it. Another segment is coplanar with it exactly if the far end of the other is nearer than the tolerance to the plane through its own ends and the near end of the other, for every tolerance exactly if the four points span no volume. It contains a segment exactly if every point of that segment has a squared distance below the tolerance from a point of it, whichever way either is turned, and a range of points if the range is not empty and each is that near. extend keeps the start, leaves the end on the line and makes the length the absolute value of the old length plus the argument; extending twice is extending by the sum as long as the first does not shrink it to nothing. reverse is its own inverse and keeps length and points. Colinearity within a tolerance is not symmetric; a segment of length zero is colinear with nothing and contains nothing, not even itself; segments that start at the same point are never coplanar unless one is turned around; extending by -s after s leads away if the segment was turned around.", "quantifier": "for all segments, points, ranges of points, tolerances and lengths over the real numbers", "why_tests_cant": "Equivalence with a statement about every point of the plane, the line or the inner segment quantifies over a continuum; tests check chosen segments, mostly along an axis.", "anchors": ["include/muu/line_segment.h:270-283", "include/muu/line_segment.h:492-559", "include/muu/line_segment.h:617-655", "include/muu/impl/geometry_common.h"]}
{"id": "C157", "title": "Moving, scaling and transforming planes, boxes and spheres", "statement": "Transforming a normalized plane by an affine matrix that scales all directions by the same factor k gives a normalized plane, multiplies the signed distance of every point by k and keeps the points of the plane on it; for uneven scaling, or a plane that is not normalized, points of the plane end up off it (for the latter even under the identity). Transforming an oriented box by any affine matrix gives a box whose center, axes and extents span exactly the image of the old one; if the matrix scales evenly the axes stay at right angles, the extents grow by k and contains() of an image is contains() of the point; under a shear contains() denies images of points of the box, and a box with an extent of zero becomes NaN under any transformation. Translating boxes, oriented boxes and spheres moves every point by the offset. Scaling by non-negative factors multiplies the offsets from the center, for spheres by any factor; scaling a box by -1 leaves a box without points.", "quantifier": "for all planes, boxes, spheres, points, offsets, factors and affine 4x4 matrices over the real numbers", "why_tests_cant": "The claims compare sets of infinitely many points before and after, for every matrix; tests transform a few shapes by a few matrices.", "anchors": ["include/muu/plane.h:497-527", "include/muu/oriented_bounding_box.h:570-677", "include/muu/bounding_box.h:644-699", "include/muu/bounding_sphere.h:366-421", "include/muu/matrix.h:837-863"]}
{"id": "C158", "title": "Collision testers agree with the shapes they were made from", "statement": "A collision tester made from a bounding box answers for points, boxes, spheres and triangles, given as such or as testers, what the box itself answers: for points, boxes and spheres exactly whether there is a common point, for proper triangles never false if there is one. A tester made from a sphere answers for boxes exactly whether there is a common point; for spheres true only if there is one, but spheres that overlap may be missed. The stored corners are exactly the eight corners of the box, and the stored extremes of a sphere those of its bounding box.", "quantifier": "for all boxes, spheres, triangles and points over the real numbers", "why_tests_cant": "Agreement with the existence of a common point quantifies over all points; tests compare testers and shapes on chosen pairs.", "anchors": ["include/muu/bounding_box.h:1193-1286", "include/muu/bounding_sphere.h:756-816", "include/muu/triangle.h:868-897", "include/muu/impl/bounding_box_x_bounding_sphere.h:49-67", "include/muu/impl/bounding_box_x_bounding_sphere.h:100-117", "include/muu/impl/bounding_box_x_triangle.h:36-69"]}
{"id": "C159", "title": "Arithmetic on halves is rounded to a neighbouring half", "statement": "For finite halves a and b whose exact sum, difference, product or quotient is zero or has a magnitude between 2^-14 and 65535, the result of the operator is one of the two halves next to the exact result, and the exact result itself if that is a half; products and quotients are rounded towards zero. The same holds for ++ and -- and for sums and products with integers below 2^24; construction from an integer up to 65535 gives a neighbouring half, conversion to an integer drops the fraction. Sums of magnitude 65536 and more are infinite with the right sign; NaN gives NaN. An infinite operand and a division by zero give infinities of the right sign, a finite half divided by an infinite one is zero. Outside that range results are wrong: products of magnitude in [131072, 262144) become zero or tiny negative numbers, products in [2^-16, 2^-15) become minus infinity or NaN, and adding zero to a subnormal half, or multiplying it by one, changes it.", "quantifier": "for all halves (2^16 bit patterns) and all pairs of them, and all integers in range", "why_tests_cant": "There are 2^32 pairs for each operator, and the claim compares each result with all other halves and the exact real result.", "anchors": ["include/muu/half.h:181-300", "include/muu/half.h:366-392", "include/muu/half.h:425-606", "include/muu/half.h:613-661"]}
{"id": "C160", "title": "Comparisons of halves agree with their values", "statement": "==, !=, <, <=, > and >= of two halves agree with the order of their values: NaN is unordered and different from everything, the two zeros are equal, infinities are beyond all finite halves. Comparing a half with an integer of magnitude up to 2^127 agrees with comparing the numbers, although the integer is first rounded to float.", "quantifier": "for all pairs of halves, and all halves and integers up to 2^127", "why_tests_cant": "2^32 pairs and, for integers, 2^16 times 2^128 cases.", "anchors": ["include/muu/half.h:302-364", "include/muu/half.h:381-424"]}
{"id": "C161", "title": "floor, ceil, sqrt, approx_equal and atan2 of halves", "statement": "floor and ceil of a finite half are exact. sqrt of a positive half is the half next to the exact root towards zero, of a zero it is zero, of a negative half NaN. approx_equal(a, b, epsilon) holds only if |a - b| < epsilon, and does if a half lies between. floor and ceil of an infinite half have undefined behaviour. atan2(y, x) exchanges its arguments: for points on the positive x axis it does not return zero but a quarter turn.", "quantifier": "for all halves and triples of halves, and every atan2 of floats that is right within 1/1000", "why_tests_cant": "approx_equal has 2^48 cases; the claims compare with exact real values.", "anchors": ["include/muu/half.h:1090-1147", "include/muu/half.h:1208-1217", "include/muu/math.h:604-675", "include/muu/math.h:738-800"]}
{"id": "C162", "title": "Volumes, masses and densities of boxes and spheres", "statement": "volume() of a bounding box is the volume of the set of points it contains: it adds up when a box is cut, and a box contained in another one is not greater. mass() and density() of boxes and spheres undo each other unless the volume is zero. volume() of a bounding sphere of radius r is 4 / (3 pi) r^3 instead of 4/3 pi r^3, less than a ninth of the volume of the points it contains: a sphere contains boxes that are more than twice as large as itself.", "quantifier": "for all boxes without negative extents and all spheres of positive radius, in exact arithmetic", "why_tests_cant": "The true volume is an integral over a continuum of points; tests that compare with the constant of the same name cannot see that it is the wrong one.", "anchors": ["include/muu/impl/geometry_common.h:472-475", "include/muu/impl/core_constants.h:238", "include/muu/bounding_sphere.h:179-201", "include/muu/bounding_box.h:397-414"]}
{"id": "C163", "title": "Empty, degenerate, zero and equal boxes and spheres", "statement": "Boxes without negative extents, and spheres, compare equal exactly if they contain the same points. A sphere is empty exactly if its volume is zero. An empty box consists of its centre only, and has no volume; the documentation says that empty() is whether the volume is zero, but flat boxes have no volume and are not empty, nor approximately empty. degenerate() is that question. Approximately empty boxes have less than 8 epsilon^3 of volume, and approximately equal boxes have every point within 2 epsilon of one of the other.", "quantifier": "for all boxes without negative extents, spheres and tolerances, in exact arithmetic", "why_tests_cant": "The comparisons are related to the sets of points contained, which are infinite.", "anchors": ["include/muu/bounding_box.h:424-486", "include/muu/bounding_box.h:502-515", "include/muu/bounding_box.h:525-572", "include/muu/bounding_sphere.h:213-360", "include/muu/oriented_bounding_box.h:386-400"]}
{"id": "C164", "title": "Shortest and longest extents and sides, diameter", "statement": "shortest_extent() and longest_extent() refer to the least and the greatest of the three extents, shortest_side() and longest_side() are the least and greatest of width(), height() and depth(). Writing through the references changes that extent of the box and nothing else. diameter() is the greatest distance of two points of a sphere.", "quantifier": "for all boxes and all values written, ties included; all spheres of radius not negative; in exact arithmetic", "why_tests_cant": "The orders of three numbers with ties combine with all values written; the diameter is a maximum over all pairs of points.", "anchors": ["include/muu/impl/geometry_common.h:529-562", "include/muu/bounding_box.h:355-393", "include/muu/bounding_sphere.h:171-174"]}
{"id": "C165", "title": "Compile-time atan2 is the angle of a point", "statement": "In a constant expression atan2(y, x) of finite numbers, not both zero, is within 112 units of 2^-precision of the angle t in (-pi, pi] with x = r cos t and y = r sin t for some r > 0, computed in long double, and for narrower types at most 2 * 2^-precision more; halves and floats always have a result. With x87 long double the call has no result where the quotient of two doubles or long doubles rounds to one of twelve numbers. One infinite coordinate gives the limits, NaN gives NaN. The origin is not a constant expression, negative zero for y counts as zero, and two infinities give NaN.", "quantifier": "for all pairs of numbers of the formats half, float, double, x87 long double and float128, zeros, infinities and NaN included", "why_tests_cant": "There are 2^64 pairs of floats and 2^128 of doubles; the error bound and the absence of endless recursions concern all of them, and the few lost quotients are not found by samples.", "anchors": ["include/muu/math.h:1976-2003", "include/muu/math.h:2025-2046"]}
{"id": "C166", "title": "The test of a box and a triangle is exact", "statement": "For a bounding box with non-negative extents and any triangle, intersects() is true exactly if the three points are not on one line and box and triangle have a common point. The same holds for an oriented box with orthonormal axes, for a box given by its smallest and largest corner, and for the collision testers of boxes and triangles. In particular the order of the three points makes no difference.", "quantifier": "for all boxes, oriented boxes and triangles over the real numbers", "why_tests_cant": "That thirteen directions suffice to separate whatever can be separated is a theorem about all convex positions (Helly's theorem in the plane of the triangle); tests try chosen positions.", "anchors": ["include/muu/impl/geometry_common.h:765-854", "include/muu/sat_tester.h:157-236", "include/muu/oriented_bounding_box.h:804-816", "include/muu/impl/bounding_box_x_triangle.h:36-69"]}
{"id": "C167", "title": "Tasks of a thread pool are kept safely, called once and destroyed once", "statement": "Whatever callers and workers do in whatever order: the objects a pool makes from callables are never used before they are made or after they were destroyed, never destroyed twice and never leaked; a call reaches the callable that was enqueued, never a temporary of the caller, and gets the index of its worker if it takes one. No task is called twice; when the pool is idle, so that wait() returns, every task enqueued was called exactly once, or thrown away uncalled by destroying the pool. A stored callable fits its buffer; a pointer to the caller's object is kept only for lvalues that cannot be stored. wait() may return before the last callable is destroyed.", "quantifier": "for all types of callables, numbers of workers and queues, and all interleavings of enqueuing, taking, calling, finishing and destroying", "why_tests_cant": "Lifetimes depend on the traits of the callable's type and on interleavings; tests run a few callables on a few schedules.", "anchors": ["include/muu/thread_pool.h:24-548", "include/muu/thread_pool.h:640-652", "src/thread_pool.cpp:146-195", "src/thread_pool.cpp:340-370"]}
{"id": "C168", "title": "Distances between iterators and for_each over iterators and arrays", "statement": "iterator_distance(b, e) is the number of steps from b to e, whether the iterator type offers a difference, random access or neither; if e comes before b it is minus the number of steps, and undefined if the type offers neither. thread_pool::for_each(b, e, task) passes every element of the range to the task exactly once; it does nothing for an empty range, and nothing for one the wrong way round if the type has <=, <, a difference or random access, while for others, such as those of lists, the behaviour is undefined. begin_iterator and end_iterator of an array enclose exactly its elements, so that for_each over an array of any number of dimensions passes each of its elements once.", "quantifier": "for all iterator types by what they offer, all ranges, numbers of workers and array types", "why_tests_cant": "The branch taken depends on the iterator type; tests use one array and one vector of fixed size.", "anchors": ["include/muu/iterators.h:38-115", "include/muu/thread_pool.h:1157-1183", "include/muu/thread_pool.h:1216-1248"]}
{"id": "C169", "title": "What for_each passes to tasks and which tasks it takes", "statement": "thread_pool::for_each calls a task that takes an element and a number with the element and the number of its batch, a task that takes only an element with the element, and any other with nothing, over ranges of values and over iterators alike. Its per-batch wrapper never points to a temporary task and stores tasks that move and copy without exceptions exactly if they have at most 32 bytes and no alignment above 64, using the caller's object otherwise. With values or iterators of up to eight bytes, every task that has such a wrapper, and can be copied if it is a temporary, is taken. With larger iterators the state of the task must share 56 bytes with two iterators and the number of the batch, so that with iterators of more than 24 bytes, such as those of std::deque, no call compiles; and no temporary that has state and can only be moved is taken, though enqueue takes it.", "quantifier": "for all task types by what the traits ask of them, all sizes of iterators and all elements and batches", "why_tests_cant": "Calls that do not compile cannot be tested at run time; tests use pointers and lambdas of one or two sizes.", "anchors": ["include/muu/thread_pool.h:644-728", "include/muu/thread_pool.h:855-867", "include/muu/thread_pool.h:1044-1056", "include/muu/thread_pool.h:1066-1089"]}
{"id": "C170", "title": "Transformations of the plane, and orthonormalized()", "statement": "For matrices of two rows and two or three columns and of three rows and columns: from_2d_rotation of a matrix of any of these shapes, applied to a point, applies exactly its upper left 2x2 part, without translation or projection; from_axes, from_2d_scale and from_2d_translation map a point to the combination of the axes, the scaled and the moved point. For a product translation * rotation * scale, extract_2d_scale gives the absolute factors, and has_2d_shear is false; has_2d_shear is true exactly if the cosine of the angle between the images of the axes is one thousandth or more in size. orthonormalized() is true exactly if the squared lengths of the axes and their products are within the tolerances, hence for every result of orthonormalize().", "quantifier": "for all real entries, points, shapes and tolerances", "why_tests_cant": "Tests check single angles and shapes; the claims are about all matrices and every pair of shapes.", "anchors": ["include/muu/matrix.h:167-185", "include/muu/matrix.h:278-300", "include/muu/matrix.h:390-429", "include/muu/matrix.h:650-666", "include/muu/matrix.h:870-886", "include/muu/matrix.h:1211-1247"]}
{"id": "C171", "title": "MUU_FOR_EACH and MUU_COUNT_VA_ARGS", "statement": "MUU_FOR_EACH(fn, args...) expands to fn(arg) for each of one to 125 arguments, once and in order; MUU_COUNT_VA_ARGS(args...) expands to the number of its arguments for one to 124 of them. Without arguments the count is one and fn is called with nothing; from 125 arguments on the count expands to the 125th argument itself, and from 126 on MUU_FOR_EACH finds no macro to expand to.", "quantifier": "for all lists of arguments", "why_tests_cant": "Macros are expanded for the fixed argument lists in the sources only.", "anchors": ["include/muu/impl/preprocessor_for_each.h:9-182", "include/muu/impl/preprocessor_for_each.h:185-211"]}
{"id": "C172", "title": "Accumulators of vectors", "statement": "Adding fewer than 2^sw vectors (sw: bits of size_t) of integers to an empty accumulator counts them, and its minimum, maximum and sum hold, for every component, the least, the greatest and the sum of that component over the samples (an unsigned sum modulo its type; a signed one as long as the running sums fit the sum type). Adding an accumulator without samples changes nothing. Merging does not keep the above otherwise: adding an accumulator with samples to another one with samples discards the samples of the latter, and adding it to an empty one takes a zero that was never a sample into every minimum and maximum.", "quantifier": "for all lists of sample vectors, dimensions and integer types", "why_tests_cant": "The samples, their number and the dimensions are unbounded.", "anchors": ["include/muu/vector.h:3302-3384", "include/muu/accumulator.h:117-169"]}
{"id": "C173", "title": "Character predicates of char, unsigned char and wchar_t", "statement": "For char (signed or not) and unsigned char every one of the 33 character predicates is defined and answers by the ASCII class of the character: letters, digits, hyphen, white space and so on; bytes from 0x80 on are in no class and are boundaries unless they are continuation bytes. A wchar_t of two or of four bytes below 128 is classed the same, a negative wchar_t of four bytes is in no class, and for values below 2^16 the size of wchar_t makes no difference to any predicate but those about code points, which differ on surrogates.", "quantifier": "for all predicates and all values of the character types", "why_tests_cant": "A wchar_t has 2^32 values and only one of its two sizes, and one of the two signs of char, exists on the machine of the test.", "anchors": ["include/muu/impl/unicode_unsigned_char.h:34-429", "include/muu/impl/unicode_char.h:33-428", "include/muu/impl/unicode_wchar_t.h:40-427", "include/muu/fwd.h:252-269"]}
{"id": "C174", "title": "infinity_or_nan of compound objects", "statement": "infinity_or_nan of a vector, matrix, quaternion, axis-angle or Euler rotation, plane, ray, line segment, triangle, bounding box, oriented box or sphere, of an array of these or of several of them is true exactly when one of their scalars is an infinity or NaN.", "quantifier": "for all objects of any dimensions with float or double scalars, of all bit patterns, and all arrays and argument lists", "why_tests_cant": "There are too many bit patterns and places for the one unusual scalar; tests try a few.", "anchors": ["include/muu/math.h:163-236", "include/muu/vector.h:900-918", "include/muu/matrix.h:2191-2205", "include/muu/ray.h:155-159", "include/muu/plane.h:220-223", "include/muu/quaternion.h:367-370", "include/muu/axis_angle.h:173-176", "include/muu/euler_angles.h:218-223", "include/muu/line_segment.h:339-343", "include/muu/triangle.h:351-356", "include/muu/bounding_box.h:489-492", "include/muu/oriented_bounding_box.h:408-413", "include/muu/bounding_sphere.h:276-279"]}
{"id": "C175", "title": "Extending and reversing line segments, and bouncing rays", "statement": "Extending a line segment of non-zero length by k >= 0 keeps its start, makes it longer by exactly k, keeps every point it had and adds a piece of length k beyond the old end. A negative amount shortens it towards the start, ends at the start when the amount is its length, and beyond that comes out on the other side of the start. Extending by j and then by k is extending by j + k as long as the first step leaves a positive length. A segment is degenerate exactly when its points are equal, and exactly then extending it has no direction to go. Reversing keeps the set of points, is its own inverse, and extending a reversed segment moves the former start. A ray that bounces starts at the point of the first ray at the given distance and goes in the given direction.", "quantifier": "for all points, directions, amounts and distances, over the real numbers", "why_tests_cant": "The points and amounts form a continuum; tests compare a few results within a tolerance.", "anchors": ["include/muu/line_segment.h:353-364", "include/muu/line_segment.h:619-654", "include/muu/ray.h:311-355"]}
{"id": "C176", "title": "== and zero of compound objects of floats and doubles", "statement": "Two vectors, matrices, quaternions, planes, rays, line segments, triangles, bounding boxes, oriented boxes or spheres, with float or double scalars and also one of each, compare equal exactly when each scalar of one stands for the same number as the corresponding one of the other (the two zeros stand for the same number, NaN for none). So the order does not matter, equality is transitive also across the types, and an object equals itself exactly when none of its scalars is NaN. zero() of any of these except a ray, which has none, is true exactly when every scalar is a zero of either sign. A vector of integers compared to one of floats is compared exactly for integers up to 2^24 in magnitude; beyond that different vectors of integers equal the same vector of floats.", "quantifier": "for all objects of any dimensions with float or double scalars, including infinities, NaN, subnormals and zeros of both signs", "why_tests_cant": "There are too many combinations of scalars, classes and types; tests compare a few objects of one type.", "anchors": ["include/muu/vector.h:64-87", "include/muu/vector.h:800-888", "include/muu/matrix.h:2120-2177", "include/muu/quaternion.h:283-353", "include/muu/plane.h:182-206", "include/muu/ray.h:136-140", "include/muu/line_segment.h:297-325", "include/muu/triangle.h:309-337", "include/muu/bounding_box.h:429-455", "include/muu/oriented_bounding_box.h:348-374", "include/muu/bounding_sphere.h:216-242", "include/muu/impl/vector_types_common.h:14-18"]}
{"id": "C177", "title": "approx_equal and approx_zero of compound objects of floats and doubles", "statement": "approx_equal of two vectors, matrices, quaternions, planes, rays, line segments, triangles, bounding boxes, oriented boxes or spheres with tolerance eps is true only if all scalars are finite and each differs from the corresponding one by less than eps exactly, and it is true if each differs by at most some number of the tolerance's type below eps. Objects may have float and double scalars, also one of each, where the comparison is done in double without loss; only for planes and spheres such a mixed call is not well-formed. The order of the arguments does not matter, and for positive eps an object is approximately equal to itself exactly when all its scalars are finite. approx_zero is true exactly when every scalar is finite and of magnitude less than eps; rays have no such function, and that of spheres is not well-formed.", "quantifier": "for all objects of any dimensions with float or double scalars, including infinities, NaN, subnormals and zeros, and all finite tolerances", "why_tests_cant": "There are too many combinations of scalars, classes, types and tolerances, and the difference is rounded before it is compared.", "anchors": ["include/muu/vector.h:946-1053", "include/muu/matrix.h:2232-2304", "include/muu/quaternion.h:389-460", "include/muu/plane.h:242-266", "include/muu/ray.h:178-185", "include/muu/line_segment.h:376-402", "include/muu/triangle.h:391-419", "include/muu/bounding_box.h:525-550", "include/muu/oriented_bounding_box.h:446-474", "include/muu/bounding_sphere.h:312-337", "include/muu/math.h:451-563"]}
{"id": "C178", "title": "Converting compound objects between float and double", "statement": "A vector, matrix, quaternion, plane, ray, line segment, triangle, bounding box, oriented box or sphere of floats converted to doubles stands for the same numbers and compares equal to the original unless it holds a NaN; converted back it is the same object, signs of zeros included. An object of doubles converted to floats compares equal to the original exactly when every scalar stands for a number that is also a float (and is no NaN); scalars in the range of float become a float nearest to them, in their places.", "quantifier": "for all objects of any dimensions, including infinities, NaN, subnormals and zeros of both signs", "why_tests_cant": "There are 2^32 floats and 2^64 doubles per scalar and as many roundings; tests convert a few.", "anchors": ["include/muu/vector.h:531-535", "include/muu/impl/vector_base.h:65-68", "include/muu/matrix.h:1580-1584", "include/muu/impl/matrix_base.h:71-78", "include/muu/quaternion.h:162-166", "include/muu/plane.h:128-132", "include/muu/ray.h:103-107", "include/muu/line_segment.h:116-120", "include/muu/triangle.h:115-119", "include/muu/bounding_box.h:167-171", "include/muu/oriented_bounding_box.h:196-200", "include/muu/bounding_sphere.h:122-126"]}
{"id": "C179", "title": "Minimum, maximum and clamp of floating-point vectors, with and without NaN", "statement": "min and max of vectors of floating-point numbers, whether given as arguments, a range or an initializer list, are in each component that has no NaN one of the values given, and the least or greatest of them; so all three ways stand for the same numbers. Of two values with a NaN among them min is the second and max the first. With a NaN among three vectors the arguments and the list of the same vectors can have different minima, and that of the list need not be the least of the other numbers. clamp gives in each component with low <= high the value itself if it is between the bounds, otherwise the bound it is beyond; NaN stays NaN.", "quantifier": "for all numbers of vectors, dimensions, binary floating-point formats and values, including infinities and NaN", "why_tests_cant": "The number of arguments and the places of NaN are unbounded; tests compare a few vectors of ordinary numbers.", "anchors": ["include/muu/vector.h:2383-2519", "include/muu/impl/core_utils.h:41-100"]}
{"id": "C180", "title": "Triangles containing segments and collections of points", "statement": "For a triangle whose corners are not on one line and a positive tolerance, contains() of a line segment in its plane is true exactly when every point of the segment is in the triangle, and contains() of a collection of points of its plane is true exactly when the collection is not empty and every point is in the triangle. The generator of barycentric coordinates gives the coordinates of every point of the plane, for any other point those of the nearest point of the plane, and agrees with barycentric() everywhere.", "quantifier": "for all triangles, segments, collections of any length, points and tolerances", "why_tests_cant": "A segment has infinitely many points and only its ends are looked at; tests take a few segments.", "anchors": ["include/muu/triangle.h:500-533", "include/muu/impl/triangle_x_line_segment.h:22-27", "include/muu/impl/geometry_common.h:370-437"]}
{"id": "C181", "title": "Boxes, oriented boxes and spheres containing collections, segments and triangles", "statement": "contains() of a collection of points is true for a bounding box, an oriented box with perpendicular axes of length one or a sphere exactly when the collection is not empty and everything between the points, that is their convex hull, is in the object. contains() of a line segment or a triangle for such an oriented box is true exactly when all of its points are in the box. Two collections that are not empty are contained in a box together exactly when each of them is.", "quantifier": "for all objects, collections of any length, segments and triangles", "why_tests_cant": "Collections are unbounded and their hulls have infinitely many points, of which only the corners are looked at; tests take a few.", "anchors": ["include/muu/bounding_box.h:878-892", "include/muu/oriented_bounding_box.h:714-801", "include/muu/bounding_sphere.h:458-488"]}
{"id": "C182", "title": "The plane of a triangle", "statement": "The plane made from a triangle whose corners are not on one line has a normal of length one and consists exactly of the points that are combinations of the three corners; its normal points to the side from which the corners go around counterclockwise. Starting with another corner gives the same plane, going around the other way gives the same plane turned over. When the corners are on one line, and only then, there is no such plane and the result is NaN. plane::from_triangle, the constructor and triangle::plane agree.", "quantifier": "for all triangles and points", "why_tests_cant": "A plane has infinitely many points and there are infinitely many triangles; tests try a few.", "anchors": ["include/muu/plane.h:97-125", "include/muu/triangle.h:276-296", "include/muu/impl/plane_x_triangle.h:22-41", "include/muu/impl/geometry_common.h:88-98"]}
