# Formal model of foodtiny/native in Rocq — design

`foodtiny/native` re-implements a part of the Java standard library in C++11
(`-std=gnu++11`, `/repo/CMakeLists.txt:38-44`). This directory holds a Gallina model of
its logic and machine-checked theorems about that model.

## 1. Ground rules of the model

* **Outcome, not value.** Every function of the code that can fail is modelled by a
  function into `outcome A` (`Base.v`): `Ok a` (returns normally), `Throw e` (a C++
  exception leaves the function), `UB u` (the C++ standard gives the execution no
  meaning: signed overflow, shift count out of range, read/write outside an allocation,
  use after free, missing return, violated library precondition), and `OutOfFuel` (the
  fuel of a modelled loop ran out; every theorem about a loop excludes this value
  for a fuel bound computed from the input, or proves that *no* fuel suffices when the loop
  really diverges).
* **Two arithmetic readings.** C++11 signed arithmetic is modelled with a mode parameter
  `cpp`: `ISO` (overflow, negative/oversized shift counts and left shift of a negative
  value are `UB`) and `HW` (what gcc emits for x86-64: two's-complement wrap-around and
  shift counts masked to the operand width). Functional theorems are proved for `HW` and, on the inputs
  where the ISO reading has no undefined behaviour, for both modes. Where an ordinary call reaches
  undefined behaviour in the ISO reading this is a theorem too.
* **Integers are `Z`** with explicit `wrap`/`mod 2^n`; a signed value is the integer itself,
  so `&`, `|`, `^`, `~` and arithmetic `>>` are `Z.land`, `Z.lor`, `Z.lxor`, `Z.lnot`, `Z.shiftr`.
* **`Array<E>`** (`library/Kernel/Java.hpp`) is a `list`; its `operator[]`/`get` call
  `std::vector::at`, so an index outside the range is `Throw OutOfRange`, never `UB`.
  `std::string::operator[]`, `std::vector::operator[]` and raw pointers are `UB` outside their range.
* **Strings** are lists of bytes (`Z` in 0..255, or signed chars -128..127 where the code looks at the sign).
* **External code** (libstdc++ containers, libcuckoo, glibc `mktime`, clocks, entropy) is represented by its
  documented contract, as an explicit argument or relation quantified in the theorem; never an axiom.
* **Threads** are modelled as interleavings of the atomic steps between lock operations/atomic
  instructions, with an arbitrary scheduler (inductive `step` relation, all reachable states).

## 2. Layout

`theories/Base.v`, `theories/Bits.v` shared vocabulary; for each topic `X`:
`XModel.v` (the code, every definition cites file and lines), `XSpec.v` when the specification is
more than a line (independent of the model), `XProofs.v` (lemmas), `XProps.v` (only the property theorems,
closed by `exact`, with non-vacuity examples and `Print Assumptions`).

Theorems named `…_refuted` exhibit a concrete input on which the code violates the property: they are
findings about the code. Each refuted property also gets the strongest positive companion found.
`…_partial` marks theorems proving only a part of a property.

## 3. Properties: what is modelled, how it is proved, what was found

Status as in MANIFEST.json. "partial" always means: at least one clause of the property is *false of the code* (a `_refuted` theorem exhibits the counterexample) or is proved only in part (`_partial`). The last column gives the finding or the limit.

| Id | Property | Status | Code | Files with the theorems | Method | Finding or limit |
|---|---|---|---|---|---|---|
| C01 | Integer bit queries are exact | proved | Integer.cpp | IntegerProps | Z.testbit specification; split on the highest or lowest set bit | Proved for every int in the gcc reading; numberOfLeadingZeros, bitCount, numberOfTrailingZeros, highestOneBit also in the ISO reading; lowestOneBit(MIN_VALUE) overflows in the ISO reading only (C01_lowestOneBit_iso). |
| C02 | Integer bit permutations | proved | Integer.cpp | IntegerProps | extensionality over the 32 bit positions | Proved for every int and distance in the gcc reading (wrapping shifts, masked counts); in the ISO reading every rotation by a non-zero distance is undefined (C02_rotate_iso) and reverse/reverseBytes shift negative values (C02_reverse_iso). |
| C03 | Integer unsigned arithmetic | proved | Integer.cpp | IntegerProps | numerals as canonical digit strings; induction on digits; arithmetic with explicit wrap | Proved; compareUnsigned relies on wrap-around for negative arguments (C03_compareUnsigned_iso). |
| C04 | Integer text round trip | proved | Integer.cpp | IntegerProps | numerals as canonical digit strings; induction on digits; arithmetic with explicit wrap | Proved for every int and radix 2..32; toString supports radix 2, 8, 10, 16 only and raises UnsupportedOperationException otherwise. |
| C05 | Integer.parseInt accepts exactly numerals in range | partial | Integer.cpp | IntegerProps | numerals as canonical digit strings; induction on digits; arithmetic with explicit wrap | Acceptance of legal numerals, rejection of out-of-range numerals except 2^63..2^64, and totality are proved; the 'exactly' part is refuted: trailing garbage, blanks, '+', 0x and wrapped numerals near 2^64 are accepted and "-" raises StringIndexOutOfBounds. |
| C06 | Integer operators | partial | Integer.cpp | IntegerProps | numerals as canonical digit strings; induction on digits; arithmetic with explicit wrap | Exact results, ArithmeticException on zero and text consistency proved; 'no operand pair is undefined' refuted by MIN_VALUE / -1 and MIN_VALUE % -1 (traps in both readings). |
| C07 | Long bit queries are exact | partial | Long.cpp | LongProps | as for Integer, with SWAR steps proved bit by bit (Swar.v) | bitCount, lowestOneBit, numberOfLeadingZeros, numberOfTrailingZeros proved for every long (ISO overflow cases stated exactly). Refuted: highestOneBit is 0 for every negative value; signum is -1 for every positive value. Exact behaviour proved for all longs. |
| C08 | Long bit permutations | partial | Long.cpp | LongProps | as for Integer, with SWAR steps proved bit by bit (Swar.v) | rotateLeft/rotateRight proved for non-negative values; exact wrong result proved for negative ones (arithmetic shift). reverse and reverseBytes return their argument (refuted). ISO: rotation by a non-zero distance is undefined. |
| C09 | Long decimal parsing | partial | Long.cpp | LongProps | as for Integer, with SWAR steps proved bit by bit (Swar.v) | parseLong proved exact for radix 10 and 16 (lower-case digits): the value, or -1 for everything else. Refuted: errors are indistinguishable from the legal -1; other radices never accept; radix 0/-1 undefined; decode(MIN_VALUE) is 1 and octal literals are rejected. |
| C10 | Long power-of-two formatting | partial | Long.cpp | LongProps | as for Integer, with SWAR steps proved bit by bit (Swar.v) | Binary and hexadecimal proved for every long, octal for non-negative ones; octal of every negative value is the numeral of its 66-bit value (refuted, exact). |
| C11 | Long.toString shows its argument | partial | Long.cpp | LongProps | as for Integer, with SWAR steps proved bit by bit (Swar.v) | Exact characterisation: the static toString repeats the text of its first argument forever, object text is not renewed by compound assignment. The property as stated is refuted; it holds for histories of plain assignments. |
| C12 | Math exact arithmetic | partial | Math.cpp | MathProps | case analysis on ranges; refutation where the check itself overflows | add/subtract/increment/decrement/negateExact proved (gcc reading for add/subtract; ISO overflow stated). multiplyExact and toIntExact exactly characterised and refuted: multiplyExact(int) and toIntExact miss negative overflow, toIntExact wraps near MAX_VALUE, multiplyExact(long) skips the test when bit 31 of both magnitudes is clear (2^32*2^32 = 0). |
| C13 | Math floor division | partial | Math.cpp | MathProps | case analysis on ranges; refutation where the check itself overflows | Proved for every pair except MIN_VALUE / -1, which is undefined (refuted); floorMod's ISO overflow stated exactly. |
| C14 | Math min/max/abs | proved | Math.cpp | MathProps | case analysis on ranges; refutation where the check itself overflows | Proved; abs(MIN_VALUE) behaviour stated. |
| C15 | BitSet is a set of naturals | proved | BitSet.cpp | BitSetProps | abstraction of the word array to a set of indices; representation invariant (words in use); every operation commutes with the abstraction | Proved for every history of API calls (inductive syntax of programs) with elements below 2^31-1 under gcc/x86-64 shift semantics; C15_iso shows ISO C++ leaves the unreduced shifts undefined. |
| C16 | BitSet range flip | partial | BitSet.cpp | BitSetProps | abstraction of the word array to a set of indices; representation invariant (words in use); every operation commutes with the abstraction | Refuted when the range ends at a multiple of 64: the next 64 bits are toggled too. Exact behaviour characterised for all arguments; correct for every other end. |
| C17 | BitSet queries | proved | BitSet.cpp | BitSetProps | abstraction of the word array to a set of indices; representation invariant (words in use); every operation commutes with the abstraction | All queries proved for every reachable BitSet; boundary element 2^31-1 overflows length() (C17_length_at_the_boundary). |
| C18 | BitSet boolean algebra | proved | BitSet.cpp | BitSetProps | abstraction of the word array to a set of indices; representation invariant (words in use); every operation commutes with the abstraction | Proved for all reachable bit sets. |
| C19 | BitSet intersects | partial | BitSet.cpp | BitSetProps | abstraction of the word array to a set of indices; representation invariant (words in use); every operation commutes with the abstraction | Refuted: disjoint sets whose word arrays are full make intersects throw std::out_of_range. Exact characterisation proved. |
| C20 | BitSet serialization | proved | BitSet.cpp | BitSetProps | abstraction of the word array to a set of indices; representation invariant (words in use); every operation commutes with the abstraction | Proved for every reachable bit set; array sizes within int. |
| C21 | BitSet equality and hash | proved | BitSet.cpp | BitSetProps | abstraction of the word array to a set of indices; representation invariant (words in use); every operation commutes with the abstraction | HW mode; C21_hash_iso shows the ISO signed overflow. |
| C22 | Base64 round trip | proved | Base64.cpp | Base64Props | induction over 3-byte / 4-digit groups against an RFC 4648 specification | Sizes up to the int range (encoded length <= 2^31-4). HW mode, because ISO C++ leaves the encoder's expression unsequenced (C23_iso). |
| C23 | Base64 encoding is canonical | proved | Base64.cpp | Base64Props | induction over 3-byte / 4-digit groups against an RFC 4648 specification | HW mode; C23_iso shows the ISO C++ unsequenced-modification undefined behaviour for inputs of 3 or more bytes. |
| C24 | Base64 decoder totality | partial | Base64.cpp | Base64Props | induction over 3-byte / 4-digit groups against an RFC 4648 specification | Violated only by the exception message built with pointer arithmetic past a 46-character literal; exact outcome on every input is C24_decode_exact_partial. |
| C25 | Base64 MIME | partial | Base64.cpp | Base64Props | induction over 3-byte / 4-digit groups against an RFC 4648 specification | Encoder correct for line lengths >= 4; lengths 0..3 overflow the buffer (out_of_range). The MIME decoder reads the source instead of its table: exact outcome on all MIME encodings is C25_mime_decode_exact. |
| C26 | Arrays.sort sorts | proved | Arrays.hpp | ArraysProps | loop invariants of the explicit-stack quicksort (permutation, sortedness), measure for termination; exact sets of inputs where search is right | Arrays of up to 2^30 elements; C26_midpoint_overflow shows what happens for larger index sums. NaN (no total order) excluded. |
| C27 | Arrays.binarySearch finds elements | partial | Arrays.hpp | ArraysProps | loop invariants of the explicit-stack quicksort (permutation, sortedness), measure for termination; exact sets of inputs where search is right | Refuted: exactly the lengths 4, 8, 16, ... work; for every other length some present key is missed (C27_misses_present_key_refuted). Results are always sound. |
| C28 | Arrays copy, fill and equals | partial | Arrays.hpp | ArraysProps | loop invariants of the explicit-stack quicksort (permutation, sortedness), measure for termination; exact sets of inputs where search is right | copyOfRange refuted for ranges that end at the array length; everything else proved. |
| C29 | HashMap is a map | partial | HashMap.hpp | CollectionPiecesProps, HashMapProps | refinement to a partial function, histories of operations | put is insert-if-absent, so a put onto a present key is lost (refuted); every history is proved equal to Java's with put read as putIfAbsent, and exactly Java's when puts hit fresh keys; scalar value types read an indeterminate value for missing keys. |
| C30 | HashMap equality | partial | HashMap.hpp | HashMapProps | refinement to a partial function, histories of operations | missing key counts as the default value: maps with different keys can compare equal, equals is not symmetric (refuted); exact characterisation and correctness when no value is the default are proved. |
| C31 | ArrayList is a list | partial | ArrayList.hpp | ArrayListProps | refinement to list operations over a std::vector/linked node model with explicit UB | add(index) at the end or out of range is silently ignored (out-of-bounds insert on the empty list), set returns the new element, ArrayList(n) has n elements (refuted); the rest proved. |
| C32 | Vector is a list | partial | Vector.hpp | VectorProps | refinement to list operations over a std::vector/linked node model with explicit UB | addAll inserts in front, removeRange bounds, lastIndexOf on empty throws, self-assignment empties, uninitialised capacityIncrement, v.add(v[i]) dangling (refuted); every history of the other calls proved. |
| C33 | Stack is LIFO | partial | Stack.hpp | StackProps | refinement to list operations over a std::vector/linked node model with explicit UB | push/pop/peek/empty proved for every history; search reports the 0-based index from the bottom and throws on empty (refuted, with exact relation). |
| C34 | LinkedList is a deque | partial | LinkedList.hpp | LinkedListProps | refinement to list operations over a std::vector/linked node model with explicit UB | Every history that calls get/getFirst/getLast/poll* only on a non-empty list and remove(i) only in range is a deque, memory safe and leak free (C34_history_partial). Refuted: the empty-list calls are undefined, element() has no return, remove(i) out of range answers true, the implicit copy frees every node twice. offer and set are ill-formed when instantiated and not modelled. |
| C35 | PriorityQueue order | partial | PriorityQueue.hpp | PriorityQueueProps | heap algorithms by their standard contract; invariants over histories; refutations | For every strict weak ordering and all std heap algorithms meeting their contract. Refuted: remove(x) leaves the vector unheaped, so the next peek is wrong and poll violates the precondition of pop_heap; poll on an empty queue is undefined; peek on an empty queue of scalars is indeterminate. |
| C36 | String search | partial | String.cpp | StringProps | list searches, split/join inductions, cache history | contains/startsWith/endsWith/indexOf(non-NUL, non-empty)/lastIndexOf proved for all strings. Refuted: indexOf('\0') returns 0, indexOf("") returns -1, lastIndexOf(char,from) skips index from and reads out of bounds on the empty string, lastIndexOf(String,from) returns -1 when from+\|p\| exceeds the length; exact behaviour of those proved in the _partial theorems. |
| C37 | String bounds | partial | String.cpp | StringProps | list searches, split/join inductions, cache history | In-range and out-of-range behaviour proved exactly. Refuted: charAt on the empty string is an out-of-bounds read for index > 0; subString returns "" instead of raising the documented exception. |
| C38 | String hash code | partial | String.cpp | StringProps | list searches, split/join inductions, cache history | Holds while the object is not modified after the first hashCode(); refuted in general because the cached hash is never invalidated. ISO reading: overflow is undefined. |
| C39 | String replace and split | partial | String.cpp | StringProps | list searches, split/join inductions, cache history | Proved for non-empty targets. Refuted: an empty target never terminates; replaceFirst raises an exception when the match is at the end. |
| C40 | String comparison, case and trim | partial | String.cpp | StringProps | list searches, split/join inductions, cache history | Proved for NUL-free strings; compareTo and regionMatches refuted outside that domain / for invalid ranges. toLowerCase/toUpperCase only for ASCII. |
| C41 | StringBuilder editing | partial | StringBuilder.cpp | StringBuilderProps | block of bytes with capacity and uninitialised cells (CMem.v); representation invariant; refinement to byte strings | Full editing history refinement proved for conforming calls; refuted parts: toString/substring truncate at an embedded NUL, insert(array) offset+length overflow, missing operator= (double free), total length beyond int overflows the buffer. |
| C42 | StringBuilder search | partial | StringBuilder.cpp | StringBuilderSearchProps | block of bytes with capacity and uninitialised cells (CMem.v); representation invariant; refinement to byte strings | Totality/memory safety of indexOf proved; correctness proved for patterns of at most two characters; refuted for longer patterns (indexOf builds its failure table from the text instead of the pattern), lastIndexOf ignores its start index and reads outside the text for a start beyond the length. |
| C43 | StringBuffer editing | partial | StringBuffer.cpp | StringBufferProps | block of bytes with capacity and uninitialised cells (CMem.v); representation invariant; refinement to byte strings | Proved: every history of conforming edits whose buffer keeps room for the terminator ends with the specified text, and toString/indexOf agree with it; refuted: a full or just-grown buffer has no terminator so toString reads beyond, deleteCharAt/setLength/deletes touch memory beyond a full buffer, replace moves the wrong number of characters, insert(CharSequence) inserts the word true, subString(length) throws. |
| C44 | StringBuffer is thread safe | partial | StringBuffer.cpp, StringBuffer.hpp | StringBufferThreadsProps | interleavings; a critical section is an atomic step (Monitor.v); race and deadlock traces | Proved for the mutex-protected methods, any number of threads, programs, schedules and any access-level decomposition: linearizable, deadlock free, undefined behaviour only where a sequential order has it; appending threads lose nothing. Missing: ensureCapacity, length and getValue take no mutex - refuted by a schedule where ensureCapacity loses an append. Copying from another buffer without its lock is not modelled. |
| C45 | URL codec round trip | partial | URLDecoder.cpp, URLEncoder.cpp | UrlProps | induction on the string; sweep over the 256 bytes | Round trip, encoding, decoding and alphabet proved for every string without NUL (under the strict reading: ASCII, since isalnum of other bytes is undefined). Missing: strings with NUL are cut at the NUL (refuted). |
| C46 | MD5 digest | partial | MD5MessageDigest.cpp, md5.cpp | MessageDigestProps | separate transcription of RFC 1321 / FIPS 180-1; buffered state = fold over full blocks plus rest | The model computes the RFC 1321 digest for every list of chunks. Missing from the full property: one update may not exceed INT_MAX - (bytes buffered) bytes; C46_limit is exact and C46_huge_refuted shows the out-of-bounds write beyond it. |
| C47 | SHA-1 digest | proved | SHA1MessageDigest.cpp, sha1.cpp | MessageDigestProps | separate transcription of RFC 1321 / FIPS 180-1; buffered state = fold over full blocks plus rest | SHA-1 against an independent transcription of FIPS 180-4, any partition of the input. |
| C48 | MessageDigest life cycle | partial | MD5MessageDigest.cpp, MessageDigest.cpp, SHA1MessageDigest.cpp | MessageDigestProps | separate transcription of RFC 1321 / FIPS 180-1; buffered state = fold over full blocks plus rest | SHA-1 keeps the promise in every history. MD5: a second digest() without reset() hashes the padded message (isFinished is never set), refuted; proved for histories with a reset after each digest. Copying a MessageDigest double-frees its engine. |
| C49 | UUID text round trip | proved | UUID.cpp, pack.c, parse.c, unpack.c, unparse.c | UuidProps | bit fields and hex digits; clock state invariant over histories | toString/fromString and libuuid parse/unparse/pack/unpack, for every UUID; in ISO C++ isxdigit on a negative char is undefined (C49_parse_iso). |
| C50 | UUID generation | partial | gen_uuid.c | UuidProps | bit fields and hex digits; clock state invariant over histories | Version and variant proved for every input. Distinctness of time UUIDs is refuted in general (eleven equal clock readings collide with the next microsecond; 2^14 backward steps wrap the clock sequence) and proved when neither happens. State file and per-thread clock states are not modelled. |
| C51 | UUID ordering | partial | UUID.cpp | UuidProps | bit fields and hex digits; clock state invariant over histories | variant() is refuted for every IETF UUID (shift count 66); everything else proved. |
| C52 | Random sequence | proved | Random.cpp | RandomProps | linear congruential arithmetic, induction over draws | On gcc/x86-64. nextGaussian is in C118, the constructor without a seed in C117. In ISO C++ the product in next overflows (C52_overflow_iso) and the order of the two draws of nextLong and nextDouble is open (C52_order_iso). |
| C53 | Random under concurrency | proved | Random.cpp | RandomThreadsProps | compare-and-swap loop as interleaving; state is an iterate | Covers next and setSeed under every schedule, including spurious failures of compare_exchange_weak. Calls that draw twice (nextLong, nextDouble) are two calls of next. |
| C54 | Semaphore permit conservation | partial | Semaphore.cpp | SemaphoreProps | lock / condition variable steps; invariants over reachable states; traces | Conservation of permits (modulo 2^32) holds at every step of every interleaving, as does mutual exclusion; non-negativity is proved for tryAcquire/release programs and for one acquirer, and refuted for two acquirers (test and decrement are two critical sections), acquire against tryAcquire, and spurious wake-ups. |
| C55 | Semaphore wake-up | partial | Semaphore.cpp | SemaphoreProps | lock / condition variable steps; invariants over reachable states; traces | Proved: the mutexes never deadlock, only waits of acquire can block for ever, tryAcquire programs always finish. Refuted: a release between the test and the wait is lost; release(2) wakes one of two waiters. |
| C56 | Thread join and liveness flag | partial | Thread.cpp | ThreadProps | reachable-state invariants over thread, promise and semaphore steps; traces | Proved: without spurious wake-ups a join that gets its permit comes after the end of the function; the only join on a finished thread returns; timed joins return. Refuted: spurious wake-up, lost wake-up, second join, isAlive still true after join. |
| C57 | ConcurrentHashMap atomicity | partial | ConcurrentHashMap.hpp | ConcMapProps | linearisability against an atomic map; race traces | Linearizable (canonical atomic object, any number of threads): get, getOrDefault, containsKey, containsValue, put always; putIfAbsent and remove when each key has one writer. Refuted: concurrent putIfAbsent (both insert), concurrent remove (both return the value), remove(key, value) against put (lost update), size (counters read one by one), get on a map of scalars (indeterminate). clear() is not atomic in the program (C106) and is left out. libcuckoo is modelled by its contract, which C107 proves of the table; putIfAbsent as written does not compile and is modelled with a local copy. |
| C58 | MediaType compatibility and parsing | partial | MediaType.cpp | MediaTypeProps, TextPiecesProps | string lemmas; exact characterisation of the asymmetry | valueOf completely characterised; round trip for clean types and for everything valueOf returns; isCompatible reflexive, total, correct without '+', refuted with suffixes (asymmetric). |
| C59 | Date ordering | partial | Date.cpp | DateProps | order lemmas; parser as a state machine with progress measure; formats by induction over segments | Ordering proved for every state reachable by constructing, copying, assigning and setting dates; partial because getTime overflows beyond year 292 million, where its order no longer agrees. |
| C60 | Date.parse totality | partial | Date.cpp | DateParseProps, DateZoneProps | order lemmas; parser as a state machine with progress measure; formats by induction over segments | Totality for all strings; ISO C++ agrees with the wrapping semantics except for signed overflow on long digit runs; the usual formats (local, GMT, offsets, toString, m/d/y, am/pm) and comments proved for all dates from year 100. Refuted: nested comments rejected, toString output in a zone with numeric abbreviation rejected, years reduced modulo 2^32 (ISO: undefined). The words are searched as the code does, so one-letter prefixes are accepted (not specified by the property). |
| C61 | Character surrogates and digits | partial | Character.cpp | CharacterProps, TextPiecesProps | sweeps over bytes and arithmetic | Digits proved for radix 10 and lower-case radix 16; the surrogate constants are multi-character literals, so the surrogate functions fail on every UTF-16 unit (refuted for all inputs). |
| C62 | Byte and Boolean wrappers | partial | Boolean.cpp, Bytes.cpp | BytesProps, TextPiecesProps | sweeps over bytes and arithmetic | Text, arithmetic, order and parseBoolean proved; Bytes.valueOf(byte) may be called only once per process (use after free), Boolean(string) accepts only "True". |
| C63 | BitSet text | proved | BitSet.cpp | BitSetProps | text by induction on the bits; ownership states of the buffer | Proved for every reachable bit set. |
| C64 | BitSet text buffer is freed once | partial | BitSet.cpp | BitSetProps | text by induction on the bits; ownership states of the buffer | Refuted: assignment after toString frees the buffer without clearing the pointer; the next toString/assignment/destructor frees it again. Without assignment the buffer is freed once. |
| C65 | Arrays.hashCode | partial | Arrays.hpp | ArraysProps | fold equality | Refuted for the empty array (0 instead of 1). |
| C66 | Random bytes and strings | partial | Java.hpp, Random.cpp | RandomProps | loops unrolled by induction | Both parts are violated for every input: nextBytes appends the bytes drawn to the array (its length doubles), nextString stores its terminator one element past its local array. C66_string_partial covers what is stored before the terminator. |
| C67 | UUID.fromString input | partial | Long.cpp, UUID.cpp | UuidProps | sweeps over digits and 16-byte vectors | Upper-case digits and malformed texts give wrong UUIDs instead of a value or an exception. |
| C68 | libuuid accessors | proved | compare.c, isnull.c, uuid_time.c | UuidProps | sweeps over digits and 16-byte vectors | Every clause, for every UUID. |
| C69 | Thread start and detach | partial | Thread.cpp | ThreadProps | thread object states; traces | A second start terminates the process (move assignment to a joinable std::thread) unless alive is set; after detach start runs the function again; detach before start throws std::system_error. |
| C70 | Date fields | partial | Date.cpp | DateProps | calendar arithmetic against a day-count specification; shared buffer modelled | All dates share the static buffer of localtime: the getters and setters act on the date made (or compared) last. What holds right after a construction is proved; the sharing is refuted with concrete programs. |
| C71 | Date.UTC | partial | Date.cpp | DateProps | calendar arithmetic against a day-count specification; shared buffer modelled | Exact result proved; right only in a zone equal to UTC (milliseconds are passed where seconds are expected). |
| C72 | Integer.parseUnsignedInt and Integer.decode | partial | Integer.cpp | NumberProps | as C03-C06 and C36-C40 | Partial: garbage after or before the digits is accepted, '-0', the least int, '+0x..' and '#..' are mishandled by decode (refuted); numerals and literals in range, rejection of out-of-range numerals and of '-', and totality are proved. |
| C73 | Integer and Long elementary functions | partial | Integer.cpp, Long.cpp | NumberProps | as C03-C06 and C36-C40 | Partial: Long / and % by zero are not checked (refuted); everything else proved. |
| C74 | String small functions | partial | String.cpp, String.hpp | StringPiecesProps | as C03-C06 and C36-C40 | Partial: operator[] outside the string is undefined, contentEquals stops at NUL, valueOf('\0') is empty (refuted); everything else proved. |
| C75 | Remaining collection operations | proved | ArrayList.hpp, PriorityQueue.hpp, Vector.hpp | CollectionPiecesProps | functional specification with effectful actions; list inductions | forEach characterised for every effectful action (C75_visits_fun: the specification is functional); heap algorithms by contract as in C35. |
| C76 | Code points, backward search, append and assignment of text buffers | partial | StringBuffer.cpp, StringBuilder.cpp | TextPiecesProps | CMem block model | codePointCount of a StringBuffer reads one byte past the range (out of bounds when the block is full); appendCodePoint ignores NUL and truncates to bytes; lastIndexOf(p, from) throws when from + \|p\| exceeds the length; append(StringBuffer) reads past a full block; offsetByCodePoints always answers 0. |
| C77 | Bits of floating point numbers | partial | Double.cpp, Float.cpp | FloatBitsProps | IEEE 754 layout as integers (Ieee.v); digit loops of the code by invariant | Exact IEEE bits for the positive numbers below 2^30 whose digits the code keeps (faithful), +0 and +infinity; general law for the other positive numbers. Refuted with exact sets: negative numbers (only -2.0 right), -0.0, NaN, half digit from 1 on, numbers below 2^-(M+1), magnitude from 2^30 (undefined). |
| C78 | Numbers from bits, and round trips | partial | Double.cpp, Float.cpp | FloatBitsProps | IEEE 754 layout as integers (Ieee.v); digit loops of the code by invariant | Exact for positive normal patterns and +infinity; round trip for all faithful non-zero numbers of both signs and infinities. Refuted: zero and subnormal patterns (all of them), NaN patterns, negative patterns, LONG_MIN/INT_MIN (undefined); intBitsToFloat(floatToIntBits x) for negatives other than -2.0f. |
| C79 | Comparing Double and Float objects | partial | Double.cpp, Float.cpp | FloatBitsProps, FloatHashProps | IEEE 754 layout as integers (Ieee.v); digit loops of the code by invariant | Java's order on faithful values (all signs, infinities, NaN) except the two zeros; consistency of compare for all values; refuted at the zeros and where a digit is lost (1.5 equals 1.0). |
| C80 | Math.abs, copySign, signum, max, min | partial | Math.cpp | MathFloatProps | exact dyadic arithmetic (no reals, no axioms); case split by exponent | copySign and signum proved for every number; abs except -0.0; max/min right exactly outside two stated sets (refuted there). |
| C81 | Exponent, unit in the last place and neighbours | partial | Double.hpp, Float.hpp, Math.cpp | MathFloatProps | exact dyadic arithmetic (no reals, no axioms); case split by exponent | nextUp and nextAfter proved; nextDown except at zero (MIN_VALUE is the least normal number); getExponent except negative subnormals below half the least normal number; ulp refuted for every finite number but the largest. |
| C82 | Floating point numbers to integers | partial | Double.cpp, Float.cpp, Math.cpp | MathFloatProps | exact dyadic arithmetic (no reals, no axioms); case split by exponent | round refuted for negative halves, conversions out of range undefined, IEEERemainder refuted in ties and for infinite divisors; right elsewhere as stated. |
| C83 | Permits of the lightweight semaphore are conserved and no wake-up is lost | proved | lightweightsemaphore.hpp | LwSemProps | single atomic operations as steps; counting invariant; every interleaving and stale loads | Operational model at the level of single atomic operations; invariant by induction over runs. The kernel semaphore is modelled by its POSIX contract; loads may return any stale value. |
| C84 | Calls on the lightweight semaphore return what their contract says | proved | lightweightsemaphore.hpp | LwSemProps, LwSemTakeProps | single atomic operations as steps; counting invariant; every interleaving and stale loads | C84_waitMany_zero: waitMany(0) without timeout is accepted by the entry assertion but returns 0, which fails its own assertion result > 0. |
| C85 | The blocking queue neither loses nor duplicates items and never strands a consumer | proved | blockingconcurrentqueue.hpp | BlockingQueueProps | C83 plus a bag contract for the inner queue | The semaphore is modelled step by step (C83, C84); the inner ConcurrentQueue is replaced by its documented contract, a bag without order. |
| C86 | Short: decimal text, arithmetic, comparison and parsing | partial | Short.cpp, Short.hpp | ShortProps | digit inductions; list refinement; injectivity of joins | All but parsing of invalid texts and division by zero proved; parseShort (sscanf %hi) accepts blanks and trailing garbage, reads 0.. as octal and 0x.. as hexadecimal, wraps out-of-range numbers (undefined in ISO C++) and returns an indeterminate value when there is no number; division by zero is undefined instead of ArithmeticException. |
| C87 | Array behaves as a list with checked indices | partial | Java.hpp | ArrayProps | digit inductions; list refinement; injectivity of joins | Proved for fewer than 2^31 elements; refuted beyond: Array(long) accepts them, but the int field length is truncated (2^32 elements iterate as none). |
| C88 | Text of lists and maps | partial | ArrayList.hpp, HashMap.hpp | ToStringProps | digit inductions; list refinement; injectivity of joins | Exact texts proved; unambiguous for integers and for Strings without quotes that do not begin with [ or {; refuted in general: nothing is escaped. |
| C89 | The lock-free queue hands out every element at most once and in its producer's order | proved | concurrentqueue.hpp | SubQueueProps | single atomic operations as steps; ghost history; multi-part invariant over reachable states; measure for progress | Sub-queues of implicit producers; memory is sequentially consistent except that counter loads may be stale; the pool of blocks and the block index are modelled by contract; indices unbounded (wrap-around treated in C91). |
| C90 | The lock-free queue never touches memory wrongly | proved | concurrentqueue.hpp | SubQueueProps | single atomic operations as steps; ghost history; multi-part invariant over reachable states; measure for progress | Same model as C89. |
| C91 | Operations of the lock-free queue always finish, and an element that is there is found | proved | concurrentqueue.hpp | SubQueueProps | single atomic operations as steps; ghost history; multi-part invariant over reachable states; measure for progress | Same model as C89; the block pool and block index count as single steps (the real ones are lock-free, not wait-free). |
| C92 | The shared pool of spare nodes hands out each node once and loses none | proved | concurrentqueue.hpp | FreeListProps | reference count and flag words as steps; ownership invariant; cubic measure for progress | Every access to an atomic variable is a step; loads of the head and of the counters may be arbitrarily stale. Nodes are never freed while the list exists (the precondition the code states). |
| C93 | Calls on the pool of spare nodes always finish | proved | concurrentqueue.hpp | FreeListProps | reference count and flag words as steps; ownership invariant; cubic measure for progress | Bound 120 T^3 + 74 T^2 + 15 T on the steps of T threads without new calls; needs current values in loads (a load that is stale for ever can retry for ever). |
| C94 | String.format fills in its arguments | partial | String.cpp, String.hpp | FormatProps | regular expression of the format directives as a hand-written matcher, proved equal to the grammar; induction on the argument list | Proved for format strings without NUL and arguments that fit; wrong: exception class, number texts of 128 or more characters (out of bounds beyond), string texts of exactly 128, NUL in format or String argument, %b with a width, mismatched types undefined. regexec and snprintf by contract. |
| C95 | Case conversion of Unicode texts | partial | String.cpp | Utf8Props | decoder and encoder as list functions, round trip by induction over characters | Proved for every valid UTF-8 text without NUL, any towupper/towlower; refuted: a byte that cannot begin a character makes the whole result empty, NUL cuts the text, an incomplete last character is dropped. Conversions of libstdc++ by contract. |
| C96 | Exceptions carry their message and cause and reach the right handler | partial | AssertionError.cpp, Exception.cpp, Object.cpp, StringIndexOutOfBoundsException.cpp, Throwable.cpp | ExceptionsProps | class hierarchy as a table; case analysis over all classes | Refuted: getCause of an exception made without a cause reads an uninitialised pointer; NumberFormatException is no IllegalArgumentException, InterruptedException and CloneNotSupportedException are RuntimeExceptions. Everything else proved for all classes. |
| C97 | Object equality is an equivalence that identifies objects; enumeration constants are ordered by position | partial | Enum.hpp, Object.cpp | ObjectProps | arithmetic modulo 2^32; induction over sequences of settings | Equivalence and text proved for all objects. Identity holds only for objects less than 4 GB apart (C97_identity_partial): the hash code keeps 32 bits of the address (C97_identity_refuted), and objects of different classes with the same hash code are equal (C97_classes_refuted). Enum order proved for ordinals >= 0; refuted for negative ones, which the constructor accepts. |
| C98 | URL and URLConnection keep what they are given | partial | URL.cpp, URLConnection.cpp | NetProps | arithmetic modulo 2^32; induction over sequences of settings | Copy, text of a URL with parts, and settings proved. Refuted: the constructor from a text ignores the text and leaves the port uninitialised (C98_spec_refuted); five settings have no default (C98_defaults_refuted). |
| C99 | The texts of a Date show its instant and can be parsed back | partial | Date.cpp | DateTextProps | strftime directives against a relational specification; composition with the calendar proofs of C59 and the parser proofs of C60 | toString and toGMTString proved for every reachable date, with the weekday; toGMTString is parsed back in every zone (C99_round_trip); toString where the zone is GMT, UT or UTC (refuted for zones parse does not know). toLocaleString prints the shared buffer: its form is proved, but it shows the date made last (C99_toLocaleString_refuted). strftime by contract. |
| C100 | SimpleDateFormat prints the date in its zone and changes nothing else; System.getenv reads the environment | partial | SimpleDateFormat.cpp, System.cpp, TimeZone.cpp | DateTextProps | strftime directives against a relational specification; composition with the calendar proofs of C59 and the parser proofs of C60 | The text is proved to be the one the pattern stands for (which exists and is unique, C100_one_text) when it has less than 80 characters. Refuted: longer texts are lost, patterns in Java's notation are printed literally, TZ is removed from the environment, the getters of other dates change, zones held by reference change, getenv of an unset variable dereferences null. |
| C101 | Making a string from an array or part of an array | partial | String.cpp | StringMakeProps | The copy loops are shown equal to firstn/skipn by induction on the number of elements; the refutations are general in the arguments that overflow or contain a NUL. | Refuted: when offset + length exceeds int, the index in the message is computed with signed overflow; from a StringBuilder or StringBuffer the text is cut at the first NUL. |
| C102 | The concurrent map's table is a map when calls do not overlap | proved | ConcurrentHashMap.hpp | CuckooProps | `CuckooModel.v` follows `cuckoohash_map.hh` function by function for one thread: buckets of four slots, the two buckets of a key, breadth-first search of a displacement path, moving along it, doubling with lazy per-lock migration of the old array or at once below 65536 buckets, rebuilding for types whose moves may throw, iteration, copy. Types, hash function, equality and the two traits are arbitrary. Invariant `rep t m`: every entry lies in one of its key's two buckets (seen through the migration), no key twice, the counters sum to the number of mappings. Each function is proved to keep it; termination by the load-factor check (70 rounds suffice below 2^63 mappings). | The whole of libcuckoo used by one thread: breadth-first path search, displacement, lazy migration, doubling, rebuilding, iteration; every growth ends within 70 rounds. |
| C103 | A put of a new key is not refused | partial | ConcurrentHashMap.hpp | CuckooProps | `CuckooModel.v` follows `cuckoohash_map.hh` function by function for one thread: buckets of four slots, the two buckets of a key, breadth-first search of a displacement path, moving along it, doubling with lazy per-lock migration of the old array or at once below 65536 buckets, rebuilding for types whose moves may throw, iteration, copy. Types, hash function, equality and the two traits are arbitrary. Invariant `rep t m`: every entry lies in one of its key's two buckets (seen through the migration), no key twice, the counters sum to the number of mappings. Each function is proved to keep it; termination by the load-factor check (70 rounds suffice below 2^63 mappings). | Proved: in a table made for at least 2048 elements (the default is 262144) no put is refused while fewer than eight mappings are present, and a refusal leaves the content unchanged, at a load factor below 0.05 with both buckets full. Refuted: a ninth key with the hash value of eight present keys is always refused (load_factor_too_low), at every table size; nine String keys that start with NUL are such keys for every std::hash, because the hash stops at the first NUL. |
| C104 | Growth, displacement and lazy migration lose and duplicate nothing | proved |  | CuckooProps | `CuckooModel.v` follows `cuckoohash_map.hh` function by function for one thread: buckets of four slots, the two buckets of a key, breadth-first search of a displacement path, moving along it, doubling with lazy per-lock migration of the old array or at once below 65536 buckets, rebuilding for types whose moves may throw, iteration, copy. Types, hash function, equality and the two traits are arbitrary. Invariant `rep t m`: every entry lies in one of its key's two buckets (seen through the migration), no key twice, the counters sum to the number of mappings. Each function is proved to keep it; termination by the load-factor check (70 rounds suffice below 2^63 mappings). | Stated for every table a history can reach; fast_double, lock_one (which migrates) and run_cuckoo each keep the answers of every lookup. |
| C105 | Copying a concurrent map | partial | ConcurrentHashMap.hpp | CuckooProps | `CuckooModel.v` follows `cuckoohash_map.hh` function by function for one thread: buckets of four slots, the two buckets of a key, breadth-first search of a displacement path, moving along it, doubling with lazy per-lock migration of the old array or at once below 65536 buckets, rebuilding for types whose moves may throw, iteration, copy. Types, hash function, equality and the two traits are arbitrary. Invariant `rep t m`: every entry lies in one of its key's two buckets (seen through the migration), no key twice, the counters sum to the number of mappings. Each function is proved to keep it; termination by the load-factor check (70 rounds suffice below 2^63 mappings). | Refuted: after clear, after an enumeration, or after a growth that moved the entries at once, the old-buckets pointer is null and the copy constructor dereferences it. Proved: a copy holds the same mappings when the history so far had no clear, enumeration, refusal or growth. |
| C106 | clear() of a shared concurrent map | partial | ConcurrentHashMap.hpp | CuckooThreadsProps | `CuckooThreadsModel.v` cuts the functions of `cuckoohash_map.hh` at their critical sections: one step is what a thread does while it holds a set of locks, including the hashpower test and the migration done on locking; steps of any number of threads interleave. Invariant: the table represents a map (`rep`, from C102), every thread's local state (search queue, displacement path, hashpower read earlier) is harmless even when stale, and the history so far is that of the atomic object, for every choice of which threads that have seen their key absent already count as refused. The refutations run a concrete schedule by computation and show that no atomic object has its history. | As long as no other thread steps between the two loops of a clear() the map is linearizable (partial). Refuted: lock_all's manager is a temporary destroyed at the end of its statement, so clear() runs without locks; a put between the loop that empties the buckets and the loop that zeroes the counters leaves a mapping with size 0, and removing it brings size() to 2^64 - 1. A data race in C++ besides; only interleavings of whole loops are modelled. |
| C107 | The concurrent map's table is linearizable | partial | ConcurrentHashMap.hpp | CuckooThreadsProps | `CuckooThreadsModel.v` cuts the functions of `cuckoohash_map.hh` at their critical sections: one step is what a thread does while it holds a set of locks, including the hashpower test and the migration done on locking; steps of any number of threads interleave. Invariant: the table represents a map (`rep`, from C102), every thread's local state (search queue, displacement path, hashpower read earlier) is harmless even when stale, and the history so far is that of the atomic object, for every choice of which threads that have seen their key absent already count as refused. The refutations run a concrete schedule by computation and show that no atomic object has its history. | Proved for critical sections as indivisible steps (locks held: CuckooThreadsModel.v), any number of threads, fewer than 2^63 steps, calls other than clear (C106) and size. put may be refused (load factor below 5 percent when growing, see C103). Refuted for size(): it reads the counters one by one without locks. |
| C108 | The concurrent map's locks exclude and never deadlock | proved |  | CuckooLocksProps | `CuckooLocksModel.v` adds to each critical section the steps that take its locks one by one, test the hashpower after the first, and release them. Invariant: the owner map agrees with what the threads hold, held and wanted locks are in increasing order, and the hashpower a thread has tested stays while it has a lock (only a thread with all locks changes it). Deadlock: from a waiting thread follow owners to ever higher locks. `CuckooProofs14.v` proves of every section that it reads and writes only what lies under its locks; hence disjoint sections commute, which is what justifies one step per section. Dropping the lock steps gives a run of C107. | All schedules of lock steps for maps with 65536 locks (every default-constructed map). A section is one step once its locks are held; C108_footprint, C108_private and C108_commute justify that. Calls other than clear (no locks, C106) and size (no locks, C107). Progress is that of the system: a spinning thread may starve. Not covered: get_current_locks() reads the list of lock arrays without synchronisation, harmless when the array is never replaced. |
| C109 | A call that is left alone returns | proved | ConcurrentHashMap.hpp | CuckooAloneProps | solo (CuckooAloneSpec) repeats steps of one thread of CuckooThreadsModel. CuckooProofs16 runs the steps of an up-to-date insertion along the sequential model (search, follow, move_back), where one search suffices; an out-of-date one comes to its start, to an answer or to a growth by a measure on the queue, the slots and the records; the growths end because the load factor falls. | Steps of one thread on the model of CuckooThreadsModel while all others stand still, from any reachable state; clear() is excluded from the calls before, as in C107. |
| C110 | Each thread has its own sub-queue, found without waiting | proved | concurrentqueue.hpp | ProducerHashProps | Model each atomic step of get_or_add_implicit_producer (one program counter per access to shared memory); invariant over all runs; the bound on the steps of a known thread by a potential over the probe distance, termination alone by well-founded chains from the invariant. | Invariant over all interleavings of the atomic steps of get_or_add_implicit_producer with ghost state (who owns which sub-queue, who holds which ticket); room in every table follows from the tickets by counting. Sequentially consistent memory. The limit 2^61 on the length of a run stands for the 64-bit counter; with it the loop that doubles the capacity always ends. |
| C111 | ConcurrentLinkedQueue keeps the contract of java.util.Queue between calls | partial | ConcurrentLinkedQueue.hpp, concurrentqueue.hpp | LinkedQueueProps | Model every member function of ConcurrentLinkedQueue.hpp and the choice of the sub-queue in try_dequeue over a list of sub-queues; compare with a relation that is Java's queue (one thread) and with one queue per thread (many threads), by induction on the sequence of calls; witnesses for the violations. | Proved: with one thread add, isEmpty, poll of a non-empty queue and size up to 2^31-1 keep Java's contract; with many, each thread has a FIFO queue of its own, poll takes the head of one of them exactly when some element is there, isEmpty and size are exact (size modulo 2^32), polls alone return every element once, and nothing undefined happens but the poll of an empty queue of a primitive type. Refuted: offer, clear, contains, remove(x), removeAll, peek, element, remove, poll of an empty queue, size of 2^31 elements; add returns true for an element lost for lack of memory; first in first out across threads; an element may starve. Sub-queues are lists here (C89-C91 justify that). |
| C112 | ConcurrentLinkedQueue serves threads that call it at the same time | partial | ConcurrentLinkedQueue.hpp, concurrentqueue.hpp | QueueWholeProps | Machine above the one of C89-C91: each thread's program (scan of the list of sub-queues, dequeue of the best, then of the others, sum of the sizes) drives the atomic steps of the sub-queues; its runs project to runs of that machine, whose invariants carry over; phase invariant for a single consumer, interval invariant for size, ranking function for the number of steps, concrete schedules for the violations. | Proved for every interleaving: at most once, right element, order within a thread, no null dereference, a bound of 14n+15 own steps for n threads that added, never blocked; with one consumer a poll says 'none' only if everything added before it began had been polled; size lies between what was there throughout the call and what was there at some time. Refuted: with three polls one may say 'none' although an element was there before it began and nobody takes it; isEmpty may be true although the queue is never empty, and size 2 although there is never more than one element. Loads return the latest values here (the sub-queue theorems C89-C91, on which this rests, allow older ones). |
| C113 | Elements of a growing queue are always looked for in the right block | partial | concurrentqueue.hpp | BlockIndexProps | Machine with one writer and any number of readers; relaxed and acquire loads of the header, of its tail and of an entry may yield any value not older than the publication of the element read. Invariant: the window of block numbers held by a version of the table contains every block in use that was published through it, slots are block numbers modulo the capacity; ranking by explicit runs for the step bounds; explicit family of runs for the refuted bound on the size. | Proved for every interleaving and every value the memory order allows a load to yield: each look-up yields the block put for the element, no out-of-bounds, uninitialised or null access and no failing assertion, look-up in four own steps, put in at most eight, refusals only by failures, cleared at most once; the sub-queue machine of C89-C91 uses the index as the model assumes (C113_protocol). Refuted: the size is not bounded by the number of blocks in use (a delayed reader of one element makes it grow with every block that passes); it is bounded by twice the spread of the blocks in use if the writer's loads are up to date. Refuted/assumed parts: counters do not wrap in put/refusal theorems (fewer than 2^56 blocks). |
| C114 | Destroying a queue destroys each remaining element once and gives all memory back | proved | concurrentqueue.hpp | DestroyProps | Further invariants of the machine of C89-C91 (every block is in the pool, held by a thread or in exactly one index entry; the count of a block is the number of its elements handed out; taken elements are gone from their cells; which block is the last), then an invariant of the destructor's loop, and induction over the sub-queues. | Proved for every reachable quiet state of the machine of C89-C91: the destructor meets no null, uninitialised or double-free access, destroys exactly the elements that were not handed out, in order, and afterwards every block is in the pool and empty. The arrays of the block index and of the table of threads are not part of the model. |
| C115 | The pool of blocks of a concurrent queue hands out each block to one user and makes no more than needed | proved | concurrentqueue.hpp | BlockPoolProps | Machine of the atomic accesses of requisition_block (relaxed load of the counter with any value between the last seen and the newest, fetch_add, free list, allocation). Invariant in three parts: the free and used blocks are a partition of those taken from the array or made; the counter exceeds the array by at most the number of threads that overshot; the blocks plus the calls committed to allocating never exceed the greatest demand (or the array). | Each theorem holds for every run of the machine of atomic accesses; stale relaxed loads included. The free list is the atomic object that C92 and C93 prove the real one to be; blocks come back only from who holds them (C109, C114). |
| C116 | A loop over a ConcurrentHashMap with begin() and end() is weakly consistent | partial | ConcurrentHashMap.hpp | CuckooIterProps | The iterator's position, increment and dereference over the table model of C102, in a loop whose body performs arbitrary calls. A call that stores no new key leaves every slot as it was or frees it (the migration is complete, and a put of a present key finds it before anything moves); the loop invariant splits the slots at the position into visited and not yet visited keys. Two computed runs refute the rest. | Proved for every loop during which no call stores a new key (reads, removals, clear and overwriting are allowed), and unconditionally for bodies that only read and remove. Refuted when a new key is stored: the iterators hold no lock, so growth makes the loop run out of the table, and a displacement makes it miss a mapping that stays. Calls come between the steps of the loop, not during one. |
| C117 | Generators made without a seed do not repeat each other | partial | Random.cpp | RandomSeedProps | Threads that load and exchange the shared field, as an interleaving machine; an invariant gives the k-th success the k-th power. The order of the factor modulo 2^n is 2^(n-2) by induction on n (it is 5 modulo 8). That two numbers determine the seed is a bound on a lattice, closed by linear arithmetic in 13 cases. The failed exchanges are counted against the threads that hold a stale value. | Proved for the wrapping arithmetic of gcc/x86-64: the values of seedUniquifier() have the period 2^60, the seeds at one clock reading the period 2^44 (both bounds are shown sharp), and two nextInt() determine the seed. Refuted in ISO C++: the product of the first call overflows. The clock is arbitrary; at different readings equal seeds are possible. |
| C118 | nextGaussian() takes two numbers from each accepted candidate and setSeed() forgets the second | proved | Random.cpp, Random.hpp | RandomGaussProps | nextGaussian over the generator of C52 with binary64 arithmetic (Coq's SpecFloat). The loop ends because the states reached every four steps are all those with the same two low bits (from the full period of C52), and each of the four classes contains an accepted candidate. setSeed by a bisimulation that ignores the stale number. | One thread, gcc/x86-64 arithmetic, operands from left to right, binary64 of Coq's SpecFloat; sqrt and log are an arbitrary function. |
| C119 | A copy of a random generator continues as the original | partial | Random.cpp, Random.hpp | RandomCopyProps | Model the copy constructor on top of the generator of C118; the parity of the nextGaussian() calls since the seed was set decides whether a number is kept (induction over the history); without one, original and copy are related by the bisimulation of C118. The refutation is a witness computed for an arbitrary sqrt and log: it compares nextInt() answers. | Refuted in general: the copy constructor drops the kept second number of nextGaussian(), so after an odd number of nextGaussian() calls the copy draws a new pair and even its nextInt() differs from then on, whatever sqrt and log are. Proved when that number of calls is even (since the last setSeed), and always for sequences without nextGaussian(). One thread. |
| C120 | Integer and Long objects as map keys | partial | HashMap.hpp, Integer.cpp, Integer.hpp, Long.cpp, Long.hpp | KeysProps | Model std::unordered_map with the hash value kept in each node on top of the Integer and Long objects of C06 and C11, for an arbitrary hash of texts; a simulation relates the nodes to a function from numbers to values (induction over the history), using that the text of an object is the decimal text of its number; the refutations are histories computed for any hash that separates two texts. | Integer and Short proved for all keys. Long refuted: compound assignments leave the text, and the hash is taken from the text, so after x += 2 and put(x, v) containsKey(x) is false, and putIfAbsent() can add a number twice (for every hash that tells the two texts apart); proved for Long keys never changed by a compound assignment. The container is libstdc++'s: nodes keep their hash values. Float and Double keys: see C121. |
| C121 | Double and Float objects show their number; compound assignment | partial | Double.cpp, Double.hpp, Float.cpp, Float.hpp | FloatBoxProps | Model the objects as a number and a text, with printf and the arithmetic as arbitrary functions; induction over histories of assignments and compound assignments; equality is the one of C77-C79. Refutations are witnesses for every printf that tells the texts apart. | Proved: the text of a Double constructed from a number is its %.15f text after every history; the number is the one last assigned. Refuted: compound assignments of both classes leave the object unchanged (they are const and return the result); a Float shows %g after construction and %f after assignment, and a HashMap then does not find it as a key; Double() shows %lg and equals Double(0), which shows %.15f, and is not found as a key either; 1.0 == 1.5 with different texts (see C77). printf is an arbitrary function; the refutations assume that it (and the hash) tells the two texts apart. |
| C122 | Long.valueOf and Long.getLong give the number a text stands for, or the default | partial | Long.cpp | LongValueProps | Model the five functions on top of decode and parseLong of C09; the round trip follows from the correctness of decode and a bound on the length of a canonical text; the leading-zero refutation is for every numeral, by following decode to the unsupported radix 8. | Proved: valueOf(s) reads the decimal text of every long but MIN_VALUE (_partial), valueOf(s, 10) that of every long. Refuted: every numeral with a leading zero gives -1 (1 with a minus sign), the text of MIN_VALUE gives 1, "0x10" is taken for 16, getLong(nm, val) ignores val and getLong(nm) decodes the name itself. |
| C123 | Conversions and comparisons of Integer and Long | partial | Integer.cpp, Long.cpp | NarrowProps | Model conversions by wrap and the operators as written; the specification (range and congruence) determines the result, so each conversion is characterised by an equivalence; the operators are compared with the order of the integers by case analysis. | Proved for both classes, except Integer.byteValue, which is right exactly when bit 7 is clear (byte is unsigned char): Integer(-1).byteValue() is 255 while Long(-1).byteValue() is -1. Conversions to float and double are not part of this claim. |
| C124 | Code points of a StringBuilder | partial | Character.cpp, StringBuilder.cpp | SbCodePointProps | Model codePointCount on the blocks of C41; the invariant of C41, strengthened with the bytes of the text by induction over the history, makes the copied array the text, and C61 gives the answers of Character. | Proved for every conforming history (C41): a char is its own code point and the count is the number of chars. Code points of ASCII texts only (_partial); a byte above 127 is answered as a negative number (refuted), so a UTF-8 letter of two bytes counts as two. codePointBefore(MIN_VALUE) overflows in ISO C++ (refuted). |
| C125 | An HttpURLConnection keeps its request method and its response | partial | HttpURLConnection.cpp, HttpURLConnection.hpp | HttpProps | Model the three members with an unset response code; induction over the history for the members an event does not touch. | Proved for the method and, once a response has been stored, for the response. Refuted before that: responseCode has no initialiser, so reading it is undefined behaviour in every history without a response. |

## 4. Trusted base

* The Coq 8.16.1 kernel, including its `vm_compute` reduction. No `native_compute`, no plugins, no disabled checks, no functors or module types.
* `Print Assumptions` is executed under every property theorem. For **every** theorem the answer is
  "Closed under the global context": no axiom is used, neither own nor of the standard library. (The
  axiom list that `coqchk` prints for the whole build names declarations of `Coq.ssr.ssrunder`, which are in a library
  that is loaded but on which no theorem depends.)
* The reading of the C++ sources: the `*Model.v` files. Every definition cites the file and the lines it models and says
  where it simplifies.
* The reading of the C++11 standard and of library contracts (`Base.v`, `StdVector.v`, `CMem.v`, `Monitor.v`, comments at the definitions).
* The specifications: the `*Spec.v` files and the statements in the `*Props.v` files.

### Contracts standing for code outside the repository (or below the modelled level)

| Contract | Used by |
|---|---|
| `std::vector`, `std::string`, `std::unordered_map`, `std::list` semantics; `at` throws, `operator[]` and iterators unchecked | containers, String |
| `std::make_heap/push_heap/pop_heap`: any result that is a heap on the same multiset | C35, C75 |
| libcuckoo's `find/insert/erase/upsert/update_fn` are atomic (proved of the table: C102 for calls that do not overlap, C107 for calls that do) | C57 |
| what a thread does while it holds the locks of the buckets and counters it touches is one step (C108 proves that the locks exclude each other, that nothing else is touched and that such steps commute; test-and-set itself is trusted) | C106-C108 |
| `std::mutex`, `std::condition_variable` (spurious wake-ups allowed, `notify_one` wakes one waiter) | C44, C54-C56, C69 |
| POSIX semaphores (`sem_wait/post/timedwait`) | C83-C85 |
| `localtime/mktime` against an arbitrary time zone function, proleptic Gregorian calendar | C59, C60, C70, C71 |
| `sscanf("%hi")`, `strtol`, `strtoul`, `sprintf` per the C standard | C03, C07, C86 |
| `regexec` on the one pattern used, `snprintf` into a bounded buffer | C94 |
| `std::wstring_convert` with `codecvt_utf8`, `towlower/towupper` (an arbitrary function) | C95 |
| `strftime` in the C locale, `putenv/unsetenv/getenv` | C99, C100 |
| entropy, clocks: arbitrary values (universally quantified) | C49-C51, C52, C66 |
| concurrent queue: block pool and block index, when a theorem is about the sub-queues (the index is proved of its own machine in C113, the pool in C115, the free list in C92, C93) | C89-C91 |
| memory order: sequentially consistent interleavings, plus arbitrary stale values for the relaxed loads named in the model | C53, C83-C93, C110, C113, C115 |

## 5. What is not modelled

* Files with no executable logic: pure interfaces (`Collection.hpp`, `List.hpp`, `Map.hpp`, `Set.hpp`, `Queue.hpp`, `Deque.hpp`,
  `Iterator.hpp`, ...), empty files under `Java/Io`, `Java/Util`.
* Tests and benchmarks (`*Test.cpp`, `*Benchmark.cpp`, `Test.hpp`).
* The network (`HttpURLConnection` has only getters and setters: C125), real time (how long a sleep lasts), locale-dependent printing, decimal printing and
  parsing of floating point numbers (delegated to libstdc++), rounding of libm functions (`sin`, `pow`, ...).
* `concurrentqueue.hpp`: bulk operations, tokens, move and swap. Its sub-queues (C89-C91), its free list (C92, C93), the table in which a thread finds its sub-queue (C110), the index of a sub-queue's blocks (C113), the destructor (C114), the pool of blocks (C115) and the whole queue over its sub-queues (C111, C112) are modelled.
* libcuckoo: modelled for one thread (C102-C105) and, at the granularity of critical sections, for many (C106-C108; the number of locks is the 65536 of a default-constructed map), except `rehash`, `reserve`, `swap`, `locked_table`'s own insert and stream operators, which the wrapper never calls. libuuid's entropy source (`randutils.c`), `uuidd` daemon protocol.
* Compilation failures in templates that the test-suite never instantiates are recorded as findings in the notes (for example `LinkedList::set`,
  `ConcurrentHashMap::putIfAbsent`), not as theorems.

## 6. Testing the theorems

`seeded/LOG.jsonl` has one line for each wrong program tried: a definition of the model is edited as a realistic bug would change the program, the
build is repeated, and the theorems that fail are listed. A theorem counts as failed if its proof, or the proof of a lemma it uses, no longer
goes through within two minutes; this shows that the proof depends on the edited code, not that the statement became false (some listed theorems are
still true of the edited program, and their proofs could be repaired). Survivors led to new or stronger theorems (field `theorems_tightened`) or are marked as
edits that do not change behaviour. Edits that do not typecheck, or whose build was cut off, so that nothing was tested, are marked INCONCLUSIVE and list no failed theorem;
most were repeated with a well-typed edit.
