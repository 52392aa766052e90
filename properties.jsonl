{"id": "C01", "title": "Integer bit queries are exact", "statement": "Integer.bitCount, highestOneBit, lowestOneBit, numberOfLeadingZeros and numberOfTrailingZeros return, for every int including negatives, 0 and MIN_VALUE, the value determined by the 32 two's-complement bits of the argument.", "quantifier": "every 32-bit int", "why_tests_cant": "2^32 inputs per function and the sign-extension corner cases; tests sample a handful.", "anchors": ["library/Java/Lang/Integer/Integer.cpp: bitCount, highestOneBit, lowestOneBit, numberOfLeadingZeros, numberOfTrailingZeros"]}
{"id": "C02", "title": "Integer bit permutations", "statement": "Integer.reverse maps bit i to bit 31-i, reverseBytes maps byte k to byte 3-k, rotateLeft/rotateRight by any distance permute the bits cyclically by distance mod 32; reverse and reverseBytes are involutions and the two rotations are mutually inverse.", "quantifier": "every 32-bit int and every int distance", "why_tests_cant": "the input space is 2^64 pairs and the shifts are on signed values.", "anchors": ["library/Java/Lang/Integer/Integer.cpp: reverse, reverseBytes, rotateLeft, rotateRight"]}
{"id": "C03", "title": "Integer unsigned arithmetic", "statement": "compareUnsigned orders ints as their unsigned 32-bit values; divideUnsigned and remainderUnsigned return the unsigned quotient and remainder; a zero divisor is reported as ArithmeticException and never crashes.", "quantifier": "every pair of 32-bit ints", "why_tests_cant": "2^64 pairs, sign-boundary behaviour.", "anchors": ["library/Java/Lang/Integer/Integer.cpp: compareUnsigned, divideUnsigned, remainderUnsigned, toUnsignedLong"]}
{"id": "C04", "title": "Integer text round trip", "statement": "For every int x and every radix r in 2..32 for which toString(x, r) returns a text, parseInt of that text with radix r returns x; the text is the canonical numeral (optional minus, no leading zeros).", "quantifier": "every 32-bit int and every radix 2..32", "why_tests_cant": "unbounded combination of value and radix; MIN_VALUE boundary.", "anchors": ["library/Java/Lang/Integer/Integer.cpp: toString, toUnsignedString, parseInt, parseUnsignedInt"]}
{"id": "C05", "title": "Integer.parseInt accepts exactly numerals in range", "statement": "parseInt(s, r) returns a value iff s is an optional '-' followed by one or more base-r digits whose value fits in an int; every other string raises NumberFormatException.", "quantifier": "every string and every radix 2..32", "why_tests_cant": "unbounded string space.", "anchors": ["library/Java/Lang/Integer/Integer.cpp: parseInt, parseUnsignedInt, getStringWithoutOperator"]}
{"id": "C06", "title": "Integer operators", "statement": "+, -, *, /, % on Integer return the mathematical result whenever it is representable; division or remainder by zero raises ArithmeticException; no operand pair is undefined behaviour.", "quantifier": "every pair of ints", "why_tests_cant": "2^64 pairs; undefined behaviour is not observable by a passing test.", "anchors": ["library/Java/Lang/Integer/Integer.cpp: operator+, operator-, operator*, operator/, operator%"]}
{"id": "C07", "title": "Long bit queries are exact", "statement": "Long.bitCount, highestOneBit, lowestOneBit, numberOfLeadingZeros, numberOfTrailingZeros and signum return for every long the value determined by its 64 bits.", "quantifier": "every 64-bit long", "why_tests_cant": "2^64 inputs.", "anchors": ["library/Java/Lang/Long/Long.cpp: bitCount, highestOneBit, lowestOneBit, numberOfLeadingZeros, numberOfTrailingZeros, signum"]}
{"id": "C08", "title": "Long bit permutations", "statement": "Long.reverse maps bit i to bit 63-i, reverseBytes reverses the 8 bytes, rotateLeft/rotateRight permute the 64 bits cyclically.", "quantifier": "every 64-bit long and every int distance", "why_tests_cant": "2^64 inputs times distances.", "anchors": ["library/Java/Lang/Long/Long.cpp: reverse, reverseBytes, rotateLeft, rotateRight"]}
{"id": "C09", "title": "Long decimal parsing", "statement": "parseLong(s, r) returns the value of s when s is an optionally signed base-r numeral that fits in 64 bits, and a malformed or out-of-range text is distinguishable from every legal one.", "quantifier": "every string, every radix", "why_tests_cant": "unbounded strings; overflow boundary needs the multmin argument.", "anchors": ["library/Java/Lang/Long/Long.cpp: parseLong, decode, valueOf"]}
{"id": "C10", "title": "Long power-of-two formatting", "statement": "toBinaryString, toOctalString and toHexString of a long return the shortest base-2/8/16 numeral of its unsigned 64-bit value.", "quantifier": "every 64-bit long", "why_tests_cant": "2^64 inputs; the sign bit goes through an arithmetic shift.", "anchors": ["library/Java/Lang/Long/Long.cpp: toBinaryString, toOctalString, toHexString, toUnsignedString0, formatUnsignedLong"]}
{"id": "C11", "title": "Long.toString shows its argument", "statement": "Long.toString(i) returns the decimal text of i whatever calls were made before; toString() of a Long object shows its current value after any sequence of compound assignments.", "quantifier": "every long and every history of calls", "why_tests_cant": "the defect depends on the history of calls in the process.", "anchors": ["library/Java/Lang/Long/Long.cpp: toString, operator+=, operator-=, operator*=, operator/=, operator%="]}
{"id": "C12", "title": "Math exact arithmetic", "statement": "addExact, subtractExact, multiplyExact, incrementExact, decrementExact, negateExact and toIntExact return the exact mathematical result or raise ArithmeticException; they never return a wrapped value.", "quantifier": "every pair of ints / longs", "why_tests_cant": "2^64 .. 2^128 operand pairs.", "anchors": ["library/Java/Lang/Math/Math.cpp: addExact, subtractExact, multiplyExact, incrementExact, decrementExact, negateExact, toIntExact"]}
{"id": "C13", "title": "Math floor division", "statement": "floorDiv(a,b) is the floor of a/b and floorMod(a,b) = a - b*floorDiv(a,b) has the sign of b; b = 0 raises ArithmeticException.", "quantifier": "every pair of ints / longs", "why_tests_cant": "2^128 pairs and the MIN_VALUE / -1 corner.", "anchors": ["library/Java/Lang/Math/Math.cpp: floorDiv, floorMod"]}
{"id": "C14", "title": "Math min/max/abs", "statement": "min and max return the smaller/larger argument; abs(x) is the absolute value for every x except MIN_VALUE.", "quantifier": "every pair of ints / longs", "why_tests_cant": "2^128 pairs.", "anchors": ["library/Java/Lang/Math/Math.cpp: min, max, abs"]}
{"id": "C15", "title": "BitSet is a set of naturals", "statement": "After any history of constructors, conversions, set/clear/flip (single bit and range), boolean operations, copies, clones and sub-ranges, get(i) answers exactly membership in the mathematical set obtained by the same history, and a history with an invalid argument throws the documented exception; no operation reads outside the word array. (Range flips ending at a multiple of 64 are the subject of C16.)", "quantifier": "every history of any length with any int arguments, elements below 2^31 - 1", "why_tests_cant": "unbounded histories; word-boundary interactions.", "anchors": ["library/Java/Util/BitSet/BitSet.cpp: set, clear, flip, get, expandTo, recalculateWordsInUse"]}
{"id": "C16", "title": "BitSet range flip", "statement": "flip(from, to) toggles exactly the bits from..to-1 and leaves every other bit unchanged.", "quantifier": "every bit set and every 0 <= from <= to", "why_tests_cant": "depends on alignment of to with the 64-bit word size.", "anchors": ["library/Java/Util/BitSet/BitSet.cpp: flip(int,int)"]}
{"id": "C17", "title": "BitSet queries", "statement": "cardinality, length, isEmpty, size, nextSetBit, nextClearBit, previousSetBit and previousClearBit return exactly the count, the highest element plus one, emptiness, and the nearest set/clear index of the abstract set.", "quantifier": "every bit set with elements below 2^31 - 1 (so that the length is an int) and every index", "why_tests_cant": "unbounded sets.", "anchors": ["library/Java/Util/BitSet/BitSet.cpp: cardinality, length, isEmpty, nextSetBit, nextClearBit, previousSetBit, previousClearBit"]}
{"id": "C18", "title": "BitSet boolean algebra", "statement": "bitAnd, bitOr, bitXor and andNot compute intersection, union, symmetric difference and difference of the abstract sets, for any two sets of any sizes.", "quantifier": "every pair of bit sets", "why_tests_cant": "unbounded pairs with different lengths.", "anchors": ["library/Java/Util/BitSet/BitSet.cpp: bitAnd, bitOr, bitXor, andNot"]}
{"id": "C19", "title": "BitSet intersects", "statement": "intersects(s) returns true iff the two sets share an element, for every pair of sets, without failing.", "quantifier": "every pair of bit sets", "why_tests_cant": "depends on spare capacity left by earlier operations.", "anchors": ["library/Java/Util/BitSet/BitSet.cpp: intersects"]}
{"id": "C20", "title": "BitSet serialization", "statement": "valueOf(toByteArray(s)) and valueOf(toLongArray(s)) represent the same set as s; toByteArray has no trailing zero byte.", "quantifier": "every bit set", "why_tests_cant": "unbounded sets.", "anchors": ["library/Java/Util/BitSet/BitSet.cpp: toByteArray, toLongArray, valueOf"]}
{"id": "C21", "title": "BitSet equality and hash", "statement": "equals is true iff the two abstract sets are equal; equal sets have equal hash codes whatever their capacities.", "quantifier": "every pair of bit sets", "why_tests_cant": "representations with different capacity.", "anchors": ["library/Java/Util/BitSet/BitSet.cpp: equals, hashCode, clone"]}
{"id": "C22", "title": "Base64 round trip", "statement": "For the basic and the URL alphabets, with and without padding, decoding the encoding of any byte sequence returns that byte sequence.", "quantifier": "every byte sequence of any length", "why_tests_cant": "unbounded inputs.", "anchors": ["library/Java/Util/Base64/Base64.cpp: Encoder::encode, Decoder::decode"]}
{"id": "C23", "title": "Base64 encoding is canonical", "statement": "The encoder output is the RFC 4648 encoding of its input: the right length, alphabet, digits and padding.", "quantifier": "every byte sequence", "why_tests_cant": "unbounded inputs.", "anchors": ["library/Java/Util/Base64/Base64.cpp: Encoder::outLength, Encoder::encode"]}
{"id": "C24", "title": "Base64 decoder totality", "statement": "On every byte sequence the basic and URL decoders either return bytes or raise an exception; they never read outside the input, write outside the output buffer, or loop forever; inputs containing a byte outside the alphabet are rejected.", "quantifier": "every byte sequence", "why_tests_cant": "malformed inputs are unbounded.", "anchors": ["library/Java/Util/Base64/Base64.cpp: Decoder::decode, Decoder::outLength"]}
{"id": "C25", "title": "Base64 MIME", "statement": "The MIME encoder output, with the separators removed, is the basic encoding and no line is longer than the (rounded) maximum; the MIME decoder inverts the MIME encoder.", "quantifier": "every byte sequence, line length and separator", "why_tests_cant": "unbounded inputs and configuration.", "anchors": ["library/Java/Util/Base64/Base64.cpp: getMimeEncoder, getMimeDecoder, Encoder::encode, Decoder::outLength"]}
{"id": "C26", "title": "Arrays.sort sorts", "statement": "sort leaves the array a sorted permutation of its input, and sort(a, from, to) only reorders the closed range it is given; it terminates and never indexes outside the array.", "quantifier": "every array of any length over a totally ordered type", "why_tests_cant": "all permutations of all lengths; termination.", "anchors": ["library/Java/Util/Arrays/Arrays.hpp: sortOrigin, sort"]}
{"id": "C27", "title": "Arrays.binarySearch finds elements", "statement": "On a sorted array binarySearch returns an index holding the key iff the key occurs.", "quantifier": "every sorted array and key", "why_tests_cant": "unbounded arrays.", "anchors": ["library/Java/Util/Arrays/Arrays.hpp: BinarySearch, binarySearch"]}
{"id": "C28", "title": "Arrays copy, fill and equals", "statement": "copyOf returns the prefix padded with the default, copyOfRange the requested slice, fill overwrites exactly the requested range, equals decides element-wise equality.", "quantifier": "every array and index range", "why_tests_cant": "unbounded arrays and index pairs.", "anchors": ["library/Java/Util/Arrays/Arrays.hpp: copyOfOrigin, copyOfRangeOrigin, fileOrigin, equalsOrigin"]}
{"id": "C29", "title": "HashMap is a map", "statement": "After any sequence of operations get/containsKey/size reflect the map obtained by applying the same operations, where put associates the key with the new value.", "quantifier": "every sequence of operations, every key and value", "why_tests_cant": "unbounded histories.", "anchors": ["library/Java/Util/HashMap/HashMap.hpp: put, get, remove, replace, putIfAbsent, containsKey, size"]}
{"id": "C30", "title": "HashMap equality", "statement": "equals returns true iff the two maps have the same key set and the same value for each key.", "quantifier": "every pair of maps", "why_tests_cant": "pairs of unbounded maps, default values.", "anchors": ["library/Java/Util/HashMap/HashMap.hpp: equals"]}
{"id": "C31", "title": "ArrayList is a list", "statement": "add, add(index), get, set, remove, indexOf, lastIndexOf, contains, size behave as on a mathematical list; an index outside the documented bounds raises IndexOutOfBounds and never touches memory outside the list; set returns the element previously at the position.", "quantifier": "every sequence of operations and every index", "why_tests_cant": "unbounded histories and indices; memory errors invisible to tests.", "anchors": ["library/Java/Util/ArrayList/ArrayList.hpp: add, get, set, remove, indexOf, lastIndexOf"]}
{"id": "C32", "title": "Vector is a list", "statement": "add, add(index), addAll, get, set, remove, removeRange, indexOf, lastIndexOf, removeAll, retainAll, setSize and assignment behave as on a mathematical list, addAll appending at the end.", "quantifier": "every sequence of operations and every index", "why_tests_cant": "unbounded histories.", "anchors": ["library/Java/Util/Vector/Vector.hpp"]}
{"id": "C33", "title": "Stack is LIFO", "statement": "push/pop/peek behave as a mathematical stack for any sequence; on the empty stack pop and peek raise EmptyStackException; search(x) returns the 1-based distance from the top of the topmost occurrence or -1.", "quantifier": "every sequence of pushes and pops", "why_tests_cant": "unbounded histories.", "anchors": ["library/Java/Util/Stack/Stack.hpp"]}
{"id": "C34", "title": "LinkedList is a deque", "statement": "addFirst/addLast/pollFirst/pollLast/get/set/remove/size behave as on a mathematical list and are memory safe, including on the empty list.", "quantifier": "every sequence of operations", "why_tests_cant": "unbounded histories, empty-list undefined behaviour.", "anchors": ["library/Java/Util/LinkedList/LinkedList.hpp"]}
{"id": "C35", "title": "PriorityQueue order", "statement": "poll returns the head according to the priority order among the elements currently in the queue, after any sequence of offer, poll and remove; no element is lost or duplicated.", "quantifier": "every sequence of operations", "why_tests_cant": "heap-shape dependent.", "anchors": ["library/Java/Util/PriorityQueue/PriorityQueue.hpp: offer, poll, peek, remove"]}
{"id": "C36", "title": "String search", "statement": "indexOf/lastIndexOf (char and string, with and without start index), contains, startsWith, endsWith return the first/last position at which the pattern occurs in the admitted range, or -1/false.", "quantifier": "every string, pattern and start index", "why_tests_cant": "unbounded strings; empty pattern corner cases.", "anchors": ["library/Java/Lang/String/String.cpp: indexOf, lastIndexOf, contains, startsWith, endsWith"]}
{"id": "C37", "title": "String bounds", "statement": "charAt, getStringFromIndex and subString return the documented characters or raise StringIndexOutOfBounds; no index (including on the empty string) reads outside the buffer.", "quantifier": "every string and every int index", "why_tests_cant": "memory errors invisible to tests.", "anchors": ["library/Java/Lang/String/String.cpp: charAt, getStringFromIndex, subString"]}
{"id": "C38", "title": "String hash code", "statement": "hashCode() is the polynomial 31-hash of the current contents, so equal strings have equal hash codes, at any point of any history of mutations.", "quantifier": "every string and mutation history", "why_tests_cant": "depends on the history (the hash is cached).", "anchors": ["library/Java/Lang/String/String.cpp: hashCode, operator+=, operator="]}
{"id": "C39", "title": "String replace and split", "statement": "replace(target, replacement) rewrites every non-overlapping occurrence from the left and terminates; split followed by join with the separator restores the string; replace(char,char) maps every character.", "quantifier": "every string, target and replacement", "why_tests_cant": "unbounded strings; non-termination cannot be observed by a test.", "anchors": ["library/Java/Lang/String/String.cpp: replace, replaceAll, replaceFirst, split"]}
{"id": "C40", "title": "String comparison, case and trim", "statement": "compareTo is a total order consistent with equals; toLowerCase/toUpperCase/equalsIgnoreCase act per character; trim removes exactly the leading and trailing blanks.", "quantifier": "every pair of strings", "why_tests_cant": "unbounded strings.", "anchors": ["library/Java/Lang/String/String.cpp: compareTo, equals, equalsIgnoreCase, toLowerCase, toUpperCase, trim"]}
{"id": "C41", "title": "StringBuilder editing", "statement": "append, insert, deleteRange, deleteCharAt, replace, reverse, setCharAt, setLength refine the corresponding operation on a character sequence for any history, never reading or writing outside the allocated buffer; invalid indices raise StringIndexOutOfBounds.", "quantifier": "every sequence of edits", "why_tests_cant": "unbounded histories and buffer growth; memory errors invisible to tests.", "anchors": ["library/Java/Lang/StringBuilder/StringBuilder.cpp"]}
{"id": "C42", "title": "StringBuilder search", "statement": "indexOf and lastIndexOf return the first/last occurrence of the pattern at or after/before the given index, or -1.", "quantifier": "every content, pattern and start index", "why_tests_cant": "the KMP table is content dependent.", "anchors": ["library/Java/Lang/StringBuilder/StringBuilder.cpp: indexOf, lastIndexOf, stringMatches, stringMatchesReverse"]}
{"id": "C43", "title": "StringBuffer editing", "statement": "append, insert, deletes, deleteCharAt, replace, setLength, subString and toString of StringBuffer refine the corresponding operations on a character sequence and never access memory outside the allocated buffer.", "quantifier": "every sequence of edits", "why_tests_cant": "unbounded histories, buffer-exactly-full states.", "anchors": ["library/Java/Lang/StringBuffer/StringBuffer.cpp"]}
{"id": "C44", "title": "StringBuffer is thread safe", "statement": "Concurrent edits of a shared StringBuffer from any number of threads under any schedule leave a state that some sequential order of the same edits produces (each edit is atomic).", "quantifier": "every number of threads, every program of edits, every schedule", "why_tests_cant": "schedules cannot be enumerated by tests.", "anchors": ["library/Java/Lang/StringBuffer/StringBuffer.hpp", "library/Java/Lang/StringBuffer/StringBuffer.cpp"]}
{"id": "C45", "title": "URL codec round trip", "statement": "URLDecoder.decode(URLEncoder.encode(s)) = s for every string s; the encoded text contains only unreserved characters, '+', '%' and hex digits.", "quantifier": "every string", "why_tests_cant": "all byte sequences of all lengths.", "anchors": ["library/Java/Net/URLEncoder/URLEncoder.cpp: encode", "library/Java/Net/URLDecoder/URLDecoder.cpp: decode"]}
{"id": "C46", "title": "MD5 digest", "statement": "For every sequence of non-empty update calls, digest yields the RFC 1321 MD5 of the concatenation of the inputs (how the input is split is irrelevant).", "quantifier": "every list of byte chunks of any lengths", "why_tests_cant": "unbounded inputs and chunkings; length-counter carries.", "anchors": ["library/Java/Security/MessageDigest/md5.cpp: md5_init, md5_append, md5_finish, md5_process", "library/Java/Security/MessageDigest/MD5MessageDigest.cpp"]}
{"id": "C47", "title": "SHA-1 digest", "statement": "For every sequence of non-empty update calls, digest yields the FIPS 180 SHA-1 of the concatenation of the inputs.", "quantifier": "every list of byte chunks", "why_tests_cant": "unbounded inputs and chunkings.", "anchors": ["library/Java/Security/MessageDigest/sha1.cpp: SHA1_Init, SHA1_Update, SHA1_Final, shaHashBlock", "library/Java/Security/MessageDigest/SHA1MessageDigest.cpp"]}
{"id": "C48", "title": "MessageDigest life cycle", "statement": "reset restores the initial state; digest called again without further input returns the same digest as a fresh computation contract requires (either of the same data or of the empty message); bad buffers are rejected without changing the state.", "quantifier": "every history of update/digest/reset calls", "why_tests_cant": "history dependent.", "anchors": ["library/Java/Security/MessageDigest/MessageDigest.cpp", "library/Java/Security/MessageDigest/MD5MessageDigest.cpp", "library/Java/Security/MessageDigest/SHA1MessageDigest.cpp"]}
{"id": "C49", "title": "UUID text round trip", "statement": "fromString(toString(u)) equals u for every 128-bit value; the text is the canonical 8-4-4-4-12 lower-case form; libuuid parse inverts unparse in both letter cases and pack inverts unpack.", "quantifier": "every 128-bit UUID", "why_tests_cant": "2^128 values.", "anchors": ["library/Java/Util/UUID/UUID.cpp: toString, fromString, digits", "library/Java/Util/UUID/libuuid/parse.c, unparse.c, pack.c, unpack.c"]}
{"id": "C50", "title": "UUID generation", "statement": "randomUUID always carries version 4 and the IETF variant; timeUUID carries version 1 and the IETF variant; successive time UUIDs produced from one clock state are pairwise distinct.", "quantifier": "every random source output, every sequence of clock readings including backward steps", "why_tests_cant": "all clock histories.", "anchors": ["library/Java/Util/UUID/libuuid/gen_uuid.c: __uuid_generate_random, __uuid_generate_time, get_clock"]}
{"id": "C51", "title": "UUID ordering", "statement": "compareTo is a total order consistent with equals; equal UUIDs have equal hash codes; version/variant/node/clockSequence extract the RFC 4122 fields.", "quantifier": "every pair of UUIDs", "why_tests_cant": "2^256 pairs.", "anchors": ["library/Java/Util/UUID/UUID.cpp: compareTo, equals, hashCode, version, variant, node, clockSequence"]}
{"id": "C52", "title": "Random sequence", "statement": "Two generators with the same seed produce the same values for the same sequence of calls; the values are those of the documented 48-bit linear congruential generator; nextInt(bound) is always in [0, bound); nextInt(bound) with bound <= 0 raises an exception.", "quantifier": "every seed and every sequence of calls", "why_tests_cant": "2^48 states times all call sequences.", "anchors": ["library/Java/Util/Random/Random.cpp: Random(long), setSeed, next, nextInt, nextBoolean, nextLong"]}
{"id": "C53", "title": "Random under concurrency", "statement": "Under any interleaving of concurrent next() calls each generator state is consumed exactly once: the multiset of results equals that of a sequential run.", "quantifier": "every number of threads and every schedule", "why_tests_cant": "schedules cannot be enumerated.", "anchors": ["library/Java/Util/Random/Random.cpp: next (compare_exchange loop)"]}
{"id": "C54", "title": "Semaphore permit conservation", "statement": "At every moment the number of available permits equals initial + released - acquired, under every interleaving, and the number of permits never becomes negative through acquire.", "quantifier": "every number of threads, every program, every schedule", "why_tests_cant": "schedules cannot be enumerated.", "anchors": ["library/Java/Util/Concurrent/Semaphore/Semaphore.cpp: acquire, tryAcquire, release, availablePermits"]}
{"id": "C55", "title": "Semaphore wake-up", "statement": "A thread blocked in acquire eventually proceeds once enough permits have been released: no release is lost.", "quantifier": "every schedule", "why_tests_cant": "lost wake-ups need a particular interleaving.", "anchors": ["library/Java/Util/Concurrent/Semaphore/Semaphore.cpp: acquire(int), release(int)"]}
{"id": "C56", "title": "Thread join and liveness flag", "statement": "join returns only after the thread's function has finished; every call to join on a finished thread returns.", "quantifier": "every schedule and every number of join calls", "why_tests_cant": "schedules cannot be enumerated.", "anchors": ["library/Java/Lang/Thread/Thread.cpp: run, start, join, isAlive"]}
{"id": "C57", "title": "ConcurrentHashMap atomicity", "statement": "put, get, remove and putIfAbsent behave atomically: every concurrent history is equivalent to a sequential one; in particular of two concurrent putIfAbsent on an absent key exactly one takes effect.", "quantifier": "every number of threads and every schedule", "why_tests_cant": "schedules cannot be enumerated.", "anchors": ["library/Java/Util/Concurrent/ConcurrentHashMap/ConcurrentHashMap.hpp: put, putIfAbsent, remove"]}
{"id": "C58", "title": "MediaType compatibility and parsing", "statement": "isCompatible is symmetric and reflexive; valueOf(toString(m)) gives back the type and subtype of m.", "quantifier": "every pair of media types", "why_tests_cant": "unbounded strings.", "anchors": ["library/Javax/Ws/Rs/Core/MediaType.cpp: isCompatible, valueOf, toString"]}
{"id": "C59", "title": "Date ordering", "statement": "before, after, compareTo and equals on Date agree with the order of getTime(); setTime(t) followed by getTime returns t rounded to whole seconds.", "quantifier": "every pair of dates", "why_tests_cant": "2^128 pairs.", "anchors": ["library/Java/Util/Date/Date.cpp: before, after, compareTo, equals, getTime"]}
{"id": "C60", "title": "Date.parse totality", "statement": "Date.parse terminates on every string, either with a value or an exception, never reading outside the string; the order of hour/minute/second fields is respected.", "quantifier": "every string", "why_tests_cant": "unbounded strings.", "anchors": ["library/Java/Util/Date/Date.cpp: parse, getSequenceNumber, getSequenceChar, removeBracket"]}
{"id": "C61", "title": "Character surrogates and digits", "statement": "toCodePoint inverts the UTF-16 surrogate split for every supplementary code point; digit(c, 10) and digit(c, 16) return the digit value or -1; isHighSurrogate/isLowSurrogate/isSurrogate decide the Unicode ranges.", "quantifier": "every code point", "why_tests_cant": "1.1M code points times functions, char sign extension.", "anchors": ["library/Java/Lang/Character/Character.cpp: toCodePoint, digit, isHighSurrogate, isLowSurrogate, isSurrogate, codePointAt, codePointCount"]}
{"id": "C62", "title": "Byte and Boolean wrappers", "statement": "Bytes.toString/parseBytes round-trip every byte value; arithmetic on Bytes is modulo 256; Bytes.valueOf may be called any number of times; Boolean.parseBoolean accepts exactly the case variants of 'true'.", "quantifier": "every byte, every string, every number of calls", "why_tests_cant": "call-history dependent memory errors.", "anchors": ["library/Java/Lang/Bytes/Bytes.cpp", "library/Java/Lang/Boolean/Boolean.cpp"]}
{"id": "C63", "title": "BitSet text", "statement": "toString returns the elements in increasing order as canonical decimal numerals, separated by comma and space, in braces.", "quantifier": "every bit set", "why_tests_cant": "unbounded sets.", "anchors": ["library/Java/Util/BitSet/BitSet.cpp: toString"]}
{"id": "C64", "title": "BitSet text buffer is freed once", "statement": "In any history of toString, assignment and destruction, the buffer that backs the last returned text is freed exactly once.", "quantifier": "every sequence of toString, assignment and destruction on one object", "why_tests_cant": "memory errors depend on the order of calls and may not crash.", "anchors": ["library/Java/Util/BitSet/BitSet.cpp: toString, operator=, ~BitSet"]}
{"id": "C65", "title": "Arrays.hashCode", "statement": "hashCode is the 31-polynomial of the elements starting from 1, reduced to int; arrays with equal contents have equal hash codes.", "quantifier": "every array of integers", "why_tests_cant": "unbounded inputs; wrap-around.", "anchors": ["library/Java/Util/Arrays/Arrays.hpp: HASH_CODE"]}
{"id": "C66", "title": "Random bytes and strings", "statement": "nextBytes(array) overwrites exactly the elements of the array with random bytes and keeps its length; nextString(n) returns a string of n characters of the documented alphabet, without touching other memory.", "quantifier": "every seed, every array, every length n >= 0", "why_tests_cant": "Tests see a few arrays and lengths; the out-of-bounds store of one element usually goes unnoticed at run time.", "anchors": ["library/Java/Util/Random/Random.cpp nextBytes, nextString", "library/Kernel/Java.hpp Array::push"]}
{"id": "C67", "title": "UUID.fromString input", "statement": "UUID.fromString accepts the canonical text of every UUID with its hexadecimal digits in either letter case, and raises an exception for a text that is not of the canonical form instead of returning some UUID.", "quantifier": "every text given to fromString", "why_tests_cant": "Tests try a few lower-case UUIDs; the letter case of one digit in any of the five groups, or a malformed group, changes the result.", "anchors": ["library/Java/Util/UUID/UUID.cpp UUID::fromString", "library/Java/Lang/Long/Long.cpp Long::decode"]}
{"id": "C68", "title": "libuuid accessors", "statement": "For every 16-byte UUID: the type is the version field, the variant is the one coded in its bits, the time is its timestamp field as seconds and microseconds since 1970, compare orders UUIDs as 128-bit numbers, and is_null recognises exactly the zero UUID.", "quantifier": "every 16-byte UUID, every pair of them, every generator state and clock reading", "why_tests_cant": "The fields straddle bytes and have odd widths; a wrong mask shows only for particular bit patterns, and a wrong comparison only for particular pairs.", "anchors": ["library/Java/Util/UUID/libuuid/uuid_time.c uuid_time, uuid_type, uuid_variant", "library/Java/Util/UUID/libuuid/compare.c uuid_compare", "library/Java/Util/UUID/libuuid/isnull.c uuid_is_null"]}
{"id": "C69", "title": "Thread start and detach", "statement": "Starting a thread runs its function exactly once; starting it again, at any later moment, never runs it twice and never brings the process down (Java throws IllegalThreadStateException); detach succeeds at most once and is harmless on a thread that was not started.", "quantifier": "every history of start, detach and run on a Thread object", "why_tests_cant": "The outcome of a second start depends on how far the other thread has got.", "anchors": ["library/Java/Lang/Thread/Thread.cpp: Thread::start", "Thread::detach", "Thread::run"]}
{"id": "C70", "title": "Date fields", "statement": "The getters of a Date return the calendar fields of that date's own instant; a setter replaces one field of that date (carrying over values outside the range) and affects no other date; reading or comparing dates changes nothing; the text of a date shows its own instant.", "quantifier": "every history of constructing, copying, assigning, setting and comparing dates, every constant-offset time zone", "why_tests_cant": "Depends on the interleaving of operations on several objects; the unit tests only look at the date made last.", "anchors": ["library/Java/Util/Date/Date.cpp: getYear..getSeconds, setYear..setSeconds, initializeDate, updateDateStatus"]}
{"id": "C71", "title": "Date.UTC", "statement": "Date.UTC(fields) is the number of milliseconds of the fields read in UTC, whatever the local time zone.", "quantifier": "every broken-down time, every constant-offset time zone", "why_tests_cant": "Unit tests run in one time zone.", "anchors": ["library/Java/Util/Date/Date.cpp: UTC, getUTCTime"]}
{"id": "C72", "title": "Integer.parseUnsignedInt and Integer.decode", "statement": "parseUnsignedInt accepts exactly an optional '+' followed by base-r digits of value below 2^32 and returns the int with those 32 bits; decode returns the value of an optionally signed decimal, octal (0...) or hexadecimal (0x, 0X, #) literal that fits in an int; every other string raises NumberFormatException.", "quantifier": "every string and radix", "why_tests_cant": "unbounded strings; the edge values (2^32, MIN_VALUE, -0) are few among them.", "anchors": ["library/Java/Lang/Integer/Integer.cpp: parseUnsignedInt, decode"]}
{"id": "C73", "title": "Integer and Long elementary functions", "statement": "signum and compare return the sign (of the difference), sum is exact when representable, toHexString/toOctalString show the 32 bits, Long.hashCode is the exclusive or of the halves, and the Long operators return the mathematical result whenever it is representable, with an exception for a zero divisor.", "quantifier": "every pair of ints or longs", "why_tests_cant": "2^128 operand pairs.", "anchors": ["library/Java/Lang/Integer/Integer.cpp: signum, sum, compare, toHexString, toOctalString", "library/Java/Lang/Long/Long.cpp: compare, hashCode, operators"]}
{"id": "C74", "title": "String small functions", "statement": "subString(begin), operator[], contains(CharSequence), contentEquals, join and valueOf return, for every string and index, the slice, character, containment, equality, concatenation with delimiters and text they are named for, and never read outside the string.", "quantifier": "every string, index, list of strings and number", "why_tests_cant": "unbounded strings.", "anchors": ["library/Java/Lang/String/String.cpp: subString, contains, contentEquals, valueOf", "library/Java/Lang/String/String.hpp: operator[], join"]}
{"id": "C75", "title": "Remaining collection operations", "statement": "ArrayList.forEach calls the action for the elements in order and stops after the first refusal; Vector.trimToSize changes no element and the vector goes on behaving like the list it held; Vector's subscript reads exactly the valid positions and raises otherwise; a copied PriorityQueue answers every history like its original; a PriorityQueue created with a capacity starts empty and non-positive capacities are rejected.", "quantifier": "every list, every action with any effects, every vector state and continuation history, every queue content, order and history", "why_tests_cant": "unbounded contents and histories, arbitrary actions.", "anchors": ["library/Java/Util/ArrayList/ArrayList.hpp: forEach", "library/Java/Util/Vector/Vector.hpp: trimToSize, operator[]", "library/Java/Util/PriorityQueue/PriorityQueue.hpp: PriorityQueue(const PriorityQueue&), PriorityQueue(int)"]}
{"id": "C76", "title": "Code points, backward search, append and assignment of text buffers", "statement": "On a StringBuilder or StringBuffer reached by any sequence of calls, codePointAt and codePointBefore answer the character at or before the index, codePointCount the number of characters of the range (all throw outside the text); appendCodePoint appends the code point and rejects non-code-points; lastIndexOf answers the last occurrence at or before the start index; append(StringBuffer) appends the other buffer's text; an assigned buffer holds the other's text.", "quantifier": "all constructed buffers, all conforming call histories, all indices, code points, patterns and start indices", "why_tests_cant": "The results depend on the whole history of the block behind the text (terminator, spare capacity); tests use short fresh buffers, where the bytes read past the text happen to be zero.", "anchors": ["library/Java/Lang/StringBuilder/StringBuilder.cpp: codePointAt, codePointBefore, codePointCount", "library/Java/Lang/StringBuffer/StringBuffer.cpp: appendCodePoint, codePointAt, codePointBefore, codePointCount, lastIndexOf, offsetByCodePoints, append, operator="]}
{"id": "C77", "title": "Bits of floating point numbers", "statement": "Double.doubleToLongBits / doubleToRawLongBits and Float.floatToIntBits / floatToRawIntBits return, for every number, the integer whose bits are its IEEE 754 representation (sign, biased exponent, fraction), the infinities and both zeros included, and the canonical NaN bits for NaN.", "quantifier": "every double and every float", "why_tests_cant": "2^64 doubles; the code builds the bits through a binary text, and errors show only for some exponents, digits and signs", "anchors": ["library/Java/Lang/Double/Double.cpp: doubleToLongBits, doubleToRawLongBits, doubleToBinary64StringType", "library/Java/Lang/Float/Float.cpp: floatToIntBits, floatToRawIntBits, floatToBinary32StringType"]}
{"id": "C78", "title": "Numbers from bits, and round trips", "statement": "Double.longBitsToDouble and Float.intBitsToFloat return the number whose IEEE 754 bits are given, for every integer, and converting a number to bits and back gives the same number.", "quantifier": "every 64-bit long, every 32-bit int, every double and float", "why_tests_cant": "the domains are 2^64 and 2^32 bit patterns, with separate ranges for subnormal, normal, infinite and NaN patterns", "anchors": ["library/Java/Lang/Double/Double.cpp: longBitsToDouble, longBitsToBinary64StringType, binary64StringTypeToDouble", "library/Java/Lang/Float/Float.cpp: intBitsToFloat, intBitsToBinary32StringType, binary32StringTypeToFloat"]}
{"id": "C79", "title": "Comparing Double and Float objects", "statement": "Double/Float compare, compareTo and the comparison operators are the total order of Java (-0.0 below 0.0, NaN above everything, equal to itself); equals is equality of that order, equal objects have equal hash codes; isNaN, isInfinite and isFinite classify every value.", "quantifier": "every pair (and triple) of doubles and floats", "why_tests_cant": "ordering laws quantify over all pairs and triples of values", "anchors": ["library/Java/Lang/Double/Double.cpp: compare, compareTo, equals, hashCode, operator<, operator>, operator<=, operator>=, isFinite, isInfinite, isNaN", "library/Java/Lang/Float/Float.cpp: compare, compareTo, equals, hashCode, isFinite, isInfinite, isNaN"]}
{"id": "C80", "title": "Math.abs, copySign, signum, max, min", "statement": "Math.abs removes the sign of every floating point number (also -0.0); copySign and signum follow the sign of their argument; max and min return NaN when an argument is NaN, and otherwise the larger/smaller argument with -0.0 below 0.0.", "quantifier": "every double and float, every pair of them", "why_tests_cant": "signed zeros and NaN make the naive comparisons wrong only on a measure-zero part of 2^128 pairs", "anchors": ["library/Java/Lang/Math/Math.cpp: abs, copySign, signum, max, min"]}
{"id": "C81", "title": "Exponent, unit in the last place and neighbours", "statement": "Math.getExponent returns the unbiased exponent, Math.ulp the weight of the last digit, and nextUp, nextDown and nextAfter the adjacent floating point number, for every argument including zeros, subnormals, infinities and NaN.", "quantifier": "every double and float (and direction)", "why_tests_cant": "boundary behaviour at every power of two, in the subnormal range and at the largest number", "anchors": ["library/Java/Lang/Math/Math.cpp: getExponent, ulp, powerOfTwoD, powerOfTwoF, nextUp, nextDown, nextAfter", "library/Java/Lang/Double/Double.hpp: MIN_VALUE", "library/Java/Lang/Float/Float.hpp: MIN_VALUE"]}
{"id": "C82", "title": "Floating point numbers to integers", "statement": "Math.round returns the floor of the argument plus one half, and shortValue, intValue, longValue, byteValue of Double and Float truncate towards zero; NaN gives 0 and values out of range the nearest integer. Math.IEEERemainder returns the dividend minus the divisor times the nearest integer to the quotient, even in a tie.", "quantifier": "every double and float", "why_tests_cant": "ties, range ends and special values are a vanishing fraction of inputs", "anchors": ["library/Java/Lang/Math/Math.cpp: round, IEEERemainder", "library/Java/Lang/Double/Double.cpp: shortValue, intValue, longValue, byteValue", "library/Java/Lang/Float/Float.cpp: shortValue, intValue, longValue, byteValue"]}
{"id": "C83", "title": "Permits of the lightweight semaphore are conserved and no wake-up is lost", "statement": "With any number of threads calling tryWait, wait, tryWaitMany, waitMany (with and without timeouts) and signal on one lightweight semaphore, the permits handed out never exceed the initial count plus the permits signalled; when no call is in progress the count is exactly the permits not yet taken and availableApprox returns it; a thread that sleeps while permits are free can continue as soon as no signal call is half done; a timed wait that gives up is never left spinning; and the program can only come to rest with a thread waiting when every permit has been taken.", "quantifier": "every initial count, every number of threads below 2^31, every sequence of calls with fewer than 2^63 permits in all, and every interleaving of the atomic steps, including failing compare-and-swaps and stale relaxed loads", "why_tests_cant": "The races between the user-space counter and the kernel semaphore depend on interleavings of single atomic instructions that tests hit only by chance.", "anchors": ["library/Java/Util/Concurrent/LinkedBlockingQueue/lightweightsemaphore.hpp: LightweightSemaphore::waitWithPartialSpinning", "LightweightSemaphore::waitManyWithPartialSpinning", "LightweightSemaphore::signal", "LightweightSemaphore::availableApprox"]}
{"id": "C84", "title": "Calls on the lightweight semaphore return what their contract says", "statement": "tryWait and a timed wait return true or false and take one permit exactly when they return true; wait without a timeout returns only true; tryWaitMany(max) and a timed waitMany(max) return between 0 and max; waitMany(max) without timeout returns between 1 and max for max > 0; signal takes nothing. Calls without a timeout never give up, and tryWait, tryWaitMany and signal never sleep.", "quantifier": "every reachable state of every program of calls and every interleaving", "why_tests_cant": "A result outside the range would need a particular interleaving of the compare-and-swap loops.", "anchors": ["library/Java/Util/Concurrent/LinkedBlockingQueue/lightweightsemaphore.hpp: LightweightSemaphore::tryWait", "LightweightSemaphore::wait", "LightweightSemaphore::tryWaitMany", "LightweightSemaphore::waitMany"]}
{"id": "C85", "title": "The blocking queue neither loses nor duplicates items and never strands a consumer", "statement": "With any number of threads enqueueing (singly and in bulk) and dequeueing (trying, waiting, with timeouts, singly and in bulk), the items in the queue together with the items handed to consumers are exactly the items put in; a consumer that obtained its permits always finds an item; every dequeue returns as many items as its contract allows; a consumer that sleeps while unclaimed items are there can continue once no enqueue is half done; the program can come to rest with a waiting consumer only when the queue is empty and everything enqueued has been delivered; size_approx never exceeds the number of items in the queue and is exact when no call is under way.", "quantifier": "every number of threads below 2^31, every sequence of calls, every interleaving of the single atomic steps, every choice the inner queue makes of the item to hand out", "why_tests_cant": "Losing an item or a wake-up needs a particular interleaving between the inner queue and the semaphore.", "anchors": ["library/Java/Util/Concurrent/LinkedBlockingQueue/blockingconcurrentqueue.hpp: BlockingConcurrentQueue::enqueue", "BlockingConcurrentQueue::enqueue_bulk", "BlockingConcurrentQueue::try_dequeue", "BlockingConcurrentQueue::try_dequeue_bulk", "BlockingConcurrentQueue::wait_dequeue", "BlockingConcurrentQueue::wait_dequeue_bulk_timed", "BlockingConcurrentQueue::size_approx"]}
{"id": "C86", "title": "Short: decimal text, arithmetic, comparison and parsing", "statement": "A Short keeps its value and its decimal text in agreement through construction, copy and assignment; + - * / % give Java's result cast to short without undefined int overflow; the comparisons are those of the numbers; equal Shorts hash equally; parseShort of the decimal text of a short gives that short back, and of any other text throws NumberFormatException.", "quantifier": "all pairs of shorts, all texts", "why_tests_cant": "2^32 pairs of operands and unboundedly many texts", "anchors": ["library/Java/Lang/Short/Short.cpp Short, parseShort, toString, charValue, operators", "library/Java/Lang/Short/Short.hpp std::hash<Short>"]}
{"id": "C87", "title": "Array behaves as a list with checked indices", "statement": "Whatever is constructed, pushed, appended or assigned, an Array holds exactly the corresponding list of elements, its length is the number of elements, indexing outside throws, and iterating visits each element once in order.", "quantifier": "all element types, all programs of constructor, push, +=, [] and iteration; all sizes", "why_tests_cant": "arbitrary histories and sizes, including sizes a test cannot allocate", "anchors": ["library/Kernel/Java.hpp Array, ArrayIterator"]}
{"id": "C88", "title": "Text of lists and maps", "statement": "ArrayList.toString and HashMap.toString give the elements' (entries') texts in order, separated by comma and blank, in brackets (braces), Strings in quotes; different contents give different texts.", "quantifier": "all lists and maps, all element texts", "why_tests_cant": "unbounded contents; ambiguity shows only for special texts", "anchors": ["library/Java/Util/ArrayList/ArrayList.hpp toString", "library/Java/Util/HashMap/HashMap.hpp toString"]}
{"id": "C89", "title": "The lock-free queue hands out every element at most once and in its producer's order", "statement": "ConcurrentQueue without tokens (the queue inside ConcurrentLinkedQueue and the blocking queue): whatever the interleaving of enqueue and try_dequeue calls by any number of threads, no element is delivered twice, a delivered element is exactly the one its producer enqueued at that place, a dequeue that starts after another element of the same producer was delivered gets a later one, and when no call is in progress the delivered elements of a producer are a prefix of those it enqueued.", "quantifier": "every number of threads, every interleaving, every block size, element types whose constructors or assignments may throw, and stale relaxed loads of the counters", "why_tests_cant": "races show up only in rare interleavings and on weakly ordered hardware; tests cannot enumerate schedules", "anchors": ["library/Java/Util/Concurrent/ConcurrentLinkedQueue/concurrentqueue.hpp: ImplicitProducer::enqueue, ImplicitProducer::dequeue", "library/Java/Util/Concurrent/ConcurrentLinkedQueue/concurrentqueue.hpp: ProducerBase"]}
{"id": "C90", "title": "The lock-free queue never touches memory wrongly", "statement": "ConcurrentQueue without tokens: no operation follows a null block pointer, reads an element that is not there, constructs over a live element, gives a block back twice or violates an assertion; a block in the pool is empty and not in use by anyone; an enqueued element stays in place until it is taken.", "quantifier": "every number of threads, every interleaving, every block size, throwing constructors and assignments", "why_tests_cant": "use-after-recycle of a block needs a precise schedule that tests and sanitizers rarely produce", "anchors": ["library/Java/Util/Concurrent/ConcurrentLinkedQueue/concurrentqueue.hpp: ImplicitProducer::enqueue, ImplicitProducer::dequeue", "library/Java/Util/Concurrent/ConcurrentLinkedQueue/concurrentqueue.hpp: Block", "library/Java/Util/Concurrent/ConcurrentLinkedQueue/concurrentqueue.hpp: requisition_block, add_block_to_free_list"]}
{"id": "C91", "title": "Operations of the lock-free queue always finish, and an element that is there is found", "statement": "ConcurrentQueue without tokens: an operation is never blocked by other threads and returns after a bounded number of its own steps; enqueue fails only when memory runs out or a constructor throws; a try_dequeue with no other call in progress finds the first undelivered element of the sub-queue if there is one; size_approx is exact when no call is in progress; index comparisons survive wrap-around.", "quantifier": "every number of threads, every interleaving, every reachable state, all 64-bit index values less than 2^63 apart", "why_tests_cant": "liveness and bounded steps quantify over all schedules; wrap-around needs 2^64 operations", "anchors": ["library/Java/Util/Concurrent/ConcurrentLinkedQueue/concurrentqueue.hpp: ImplicitProducer::enqueue, ImplicitProducer::dequeue", "library/Java/Util/Concurrent/ConcurrentLinkedQueue/concurrentqueue.hpp: size_approx", "library/Java/Util/Concurrent/ConcurrentLinkedQueue/concurrentqueue.hpp: circular_less_than"]}
{"id": "C92", "title": "The shared pool of spare nodes hands out each node once and loses none", "statement": "However threads interleave calls that return nodes to the lock-free free list and calls that take nodes from it, a node taken was previously returned and is not in anybody's hands; no node is ever on the list twice or lost: when no call is under way the list holds exactly the returned nodes that have not been taken.", "quantifier": "any number of threads below 2^30-1, any nodes, any sequence of calls in which a thread returns only nodes that were handed out, any interleaving of the single atomic accesses, any stale value in the loads of the head pointer and of the reference counts", "why_tests_cant": "The ABA problem shows only in rare interleavings of three or more accesses by several threads; no test can try all schedules.", "anchors": ["library/Java/Util/Concurrent/ConcurrentLinkedQueue/concurrentqueue.hpp: FreeList::add", "FreeList::try_get", "FreeList::add_knowing_refcount_is_zero", "FreeListNode"]}
{"id": "C93", "title": "Calls on the pool of spare nodes always finish", "statement": "No schedule can keep the calls under way from finishing: they make a bounded number of steps in all, none can block, a call alone takes the first node or puts its node first, and taking answers 'none' only if the list was empty at some moment since the call.", "quantifier": "any number of threads below 2^30-1, any reachable state, any interleaving of the steps of the calls under way", "why_tests_cant": "Livelock and starvation depend on unbounded schedules; a test sees only finitely many.", "anchors": ["library/Java/Util/Concurrent/ConcurrentLinkedQueue/concurrentqueue.hpp: FreeList::add", "FreeList::try_get", "FreeList::add_knowing_refcount_is_zero", "FreeListNode"]}
{"id": "C94", "title": "String.format fills in its arguments", "statement": "String.format(fmt, args...) copies the text between the directives, replaces %% (with any flags or width) by a percent sign and each other directive, read from left to right, by the text of the next argument as C prints it, ignores surplus arguments, leaves percent signs that begin no directive alone, throws IllegalArgumentException when arguments are missing, and always ends.", "quantifier": "all format strings, all lists of arguments of the supported types, all texts the C library may print for them (of any length)", "why_tests_cant": "The texts, the widths (which decide the length of the output) and the places where directives may begin are unbounded; the defects sit at output lengths of 128 and more and behind NUL characters, which example-based tests do not reach.", "anchors": ["library/Java/Lang/String/String.hpp: String::format, printObject", "library/Java/Lang/String/String.cpp: String::format, String::print"]}
{"id": "C95", "title": "Case conversion of Unicode texts", "statement": "toUpperCase and toLowerCase convert every character of a UTF-8 text by itself and change nothing else; the result is again UTF-8; a text that is not valid UTF-8 or contains NUL is not destroyed.", "quantifier": "all sequences of Unicode scalar values, all conversions of single characters (any locale), all invalid continuations", "why_tests_cant": "The alphabet has 1,112,064 characters in four encoded lengths and texts have any length; tests use a few words.", "anchors": ["library/Java/Lang/String/String.cpp: toUpper, toLower, multiByteStringToWideString, wideStringToMultiByteString, String::toUpperCase, String::toLowerCase"]}
{"id": "C96", "title": "Exceptions carry their message and cause and reach the right handler", "statement": "An exception object reports the message and the cause it was constructed with (no message: the empty string; no cause: null), exceptions made from an index or a value contain its decimal text, a handler takes an exception exactly when the corresponding Java handler would, and Application returns 0 exactly when the program returns, printing the message of an exception.", "quantifier": "all throwable classes of the library and all their public constructors, all messages, causes, indices and values; all pairs of exception and handler classes; all programs", "why_tests_cant": "There are 26 classes and hundreds of class/handler pairs, messages are unbounded; tests look at one or two.", "anchors": ["library/Java/Lang/Throwable/Throwable.cpp", "library/Java/Lang/Exception/Exception.cpp", "library/Java/Lang/AssertionError/AssertionError.cpp", "library/Java/Lang/StringIndexOutOfBoundsException/StringIndexOutOfBoundsException.cpp", "library/Java/Lang/Object/Object.cpp: Application"]}
{"id": "C97", "title": "Object equality is an equivalence that identifies objects; enumeration constants are ordered by position", "statement": "equals (and == and !=, which agree with it) is an equivalence relation on all objects, equal objects have equal hash codes, and objects of a class that does not define its own hashCode are equal exactly when they are the same object; toString is class name, '@' and the hash code in unsigned hexadecimal. Enum.compareTo has the sign of the difference in declaration position, and equals agrees with it.", "quantifier": "all objects of all classes at all addresses; all enumeration constants; both the ISO and the gcc/x86-64 reading of C++", "why_tests_cant": "the code compares 32-bit truncations of addresses, and collisions depend on where the allocator puts objects; differences overflow only at extreme ordinals", "anchors": ["library/Java/Lang/Object/Object.cpp Object::equals, Object::hashCode, Object::toString", "library/Java/Lang/Enum/Enum.hpp Enum::compareTo, Enum::equals"]}
{"id": "C98", "title": "URL and URLConnection keep what they are given", "statement": "A URL built from a text has the parts of that text and prints it again; a copy equals the original; the text of a URL is protocol://host[:port][path][?query]. A connection's getters return the value set last (or the documented default) and setting one value changes no other.", "quantifier": "all texts, all part values, all sequences of settings", "why_tests_cant": "constructor paths leave members unset; each combination of parts and each sequence of settings is a separate case", "anchors": ["library/Java/Net/URL/URL.cpp URL::URL, URL::toString", "library/Java/Net/URLConnection/URLConnection.cpp"]}
{"id": "C99", "title": "The texts of a Date show its instant and can be parsed back", "statement": "For every date of every program: toString is 'weekday month day hh:mm:ss zone year' of the date's own instant in local time, toGMTString is 'day month year hh:mm:ss GMT' of it in UTC whatever the local zone, toLocaleString is its local time on the 12-hour clock; Date.parse of toString or toGMTString returns the date's time to the second.", "quantifier": "all dates reachable by any sequence of constructions, assignments and setters, all constant zone offsets, all current times, all years from 0 (100 for parsing)", "why_tests_cant": "weekdays, leap years, month ends, midnight/noon and zone offsets combine to unboundedly many cases, and another date may have used the shared buffer in between", "anchors": ["library/Java/Util/Date/Date.cpp Date::toString, Date::toGMTString, Date::toLocaleString, Date::timeToString, Date::parse"]}
{"id": "C100", "title": "SimpleDateFormat prints the date in its zone and changes nothing else; System.getenv reads the environment", "statement": "format returns what the pattern stands for at the date's instant in the formatter's time zone (UTC unless set), without blanks at the ends, for patterns of any length; it changes neither the environment nor any date. TimeZone objects keep the id they were made with. getenv returns the value of a variable, or reports that it is not set.", "quantifier": "all patterns of the directives %Y %m %d %H %M %S %y %F %T %I %p %a %b %Z %%, all dates, zones and environments", "why_tests_cant": "the process-wide TZ variable and the C library's static buffer are changed behind the caller's back; only histories show it", "anchors": ["library/Java/Text/SimpleDateFormat/SimpleDateFormat.cpp SimpleDateFormat::format", "library/Java/Util/TimeZone/TimeZone.cpp TimeZone::getTimeZone", "library/Java/Lang/System/System.cpp System::getenv"]}
{"id": "C101", "title": "Making a string from an array or part of an array", "statement": "A String made from a byte or char array holds exactly its elements, one made from (array, offset, length) exactly the elements of that range when it lies inside the array, and otherwise the constructor throws StringIndexOutOfBoundsException naming the wrong index, without reading outside the array; a String made from a StringBuilder or StringBuffer holds its whole text.", "quantifier": "all arrays of int-representable size, all int offsets and lengths, all buffer texts", "why_tests_cant": "The interesting inputs are sums of offset and length at the edge of int and texts with NUL characters; a test fixes a few arrays.", "anchors": ["library/Java/Lang/String/String.cpp: String::String(Array<byte>), String(Array<char>), String(Array<char>, int, int), String(Array<byte>, int, int), String(StringBuilder), String(StringBuffer)"]}
{"id": "C102", "title": "The concurrent map's table is a map when calls do not overlap", "statement": "On a new table of any size, every history of get, put, remove, clear, size and enumeration by one thread runs without undefined behaviour, ends, and answers as a mathematical map does: get returns the value last put and not removed since, put and remove report whether the key was present, size counts the keys, enumeration lists every mapping exactly once. This holds for every hash function, also while entries are displaced, while the table grows, and while old entries are still being moved lazily.", "quantifier": "all key and value types, hash functions, initial sizes, and histories of fewer than 2^63 calls", "why_tests_cant": "Displacement, growth and lazy migration depend on which keys collide; a test exercises one hash function and a few sizes.", "anchors": ["library/Java/Util/Concurrent/ConcurrentHashMap/libcuckoo/cuckoohash_map.hh: find, insert_or_assign, erase, clear, size, lock_table", "library/Java/Util/Concurrent/ConcurrentHashMap/ConcurrentHashMap.hpp: ConcurrentHashMap"]}
{"id": "C103", "title": "A put of a new key is not refused", "statement": "put stores the mapping whenever memory lasts; in particular, how many keys share a hash value does not matter.", "quantifier": "all hash functions, reachable tables, keys and values", "why_tests_cant": "A test with well-spread keys never meets nine keys of one hash value.", "anchors": ["library/Java/Util/Concurrent/ConcurrentHashMap/libcuckoo/cuckoohash_map.hh: insert_loop, run_cuckoo, cuckoo_fast_double, cuckoo_expand_simple, check_resize_validity", "library/Java/Util/Concurrent/ConcurrentHashMap/ConcurrentHashMap.hpp: put"]}
{"id": "C104", "title": "Growth, displacement and lazy migration lose and duplicate nothing", "statement": "When the table doubles, moves the entries of a lock out of the old array, or displaces entries to make room, every key keeps exactly its value, no key appears, and the size does not change; displacement reports a slot only if that slot is then free and in one of the two buckets asked for.", "quantifier": "all reachable tables, all buckets", "why_tests_cant": "Each of these runs only for particular collision patterns and sizes.", "anchors": ["library/Java/Util/Concurrent/ConcurrentHashMap/libcuckoo/cuckoohash_map.hh: cuckoo_fast_double, move_bucket, rehash_lock, lock_one, run_cuckoo, cuckoopath_search, cuckoopath_move"]}
{"id": "C105", "title": "Copying a concurrent map", "statement": "A copy of a map holds the same mappings, whatever happened to the map before.", "quantifier": "all histories before the copy", "why_tests_cant": "The failing copies need a clear, an enumeration or a growth before the copy.", "anchors": ["library/Java/Util/Concurrent/ConcurrentHashMap/libcuckoo/cuckoohash_map.hh: cuckoohash_map(const cuckoohash_map&), cuckoo_clear, rehash_all", "library/Java/Util/Concurrent/ConcurrentHashMap/ConcurrentHashMap.hpp: copy construction, clone"]}
{"id": "C106", "title": "clear() of a shared concurrent map", "statement": "clear() of a map other threads use takes effect at one moment: mappings put before it are gone, mappings put after it are there, and size() agrees with the mappings.", "quantifier": "all maps, numbers of threads, calls and schedules", "why_tests_cant": "The failing schedules need a put between the two loops of clear().", "anchors": ["library/Java/Util/Concurrent/ConcurrentHashMap/libcuckoo/cuckoohash_map.hh: clear, cuckoo_clear, lock_all", "library/Java/Util/Concurrent/ConcurrentHashMap/ConcurrentHashMap.hpp: clear"]}
{"id": "C107", "title": "The concurrent map's table is linearizable", "statement": "Calls of get, put, remove, entry enumeration and size that overlap in any way behave as if each took effect at one moment between its call and its return, and none of them reads an uninitialised slot or breaks a precondition, whatever displacements, migrations and growth happen at the same time.", "quantifier": "all key and value types, hash functions, capacities, numbers of threads, calls and schedules of their critical sections", "why_tests_cant": "The schedules of displacement paths, lazy migration and doubling among threads are unbounded.", "anchors": ["library/Java/Util/Concurrent/ConcurrentHashMap/libcuckoo/cuckoohash_map.hh: find, insert_or_assign, erase, cuckoo_insert_loop, run_cuckoo, slot_search, cuckoopath_search, cuckoopath_move, cuckoo_fast_double, cuckoo_expand_simple, locked_table, size", "library/Java/Util/Concurrent/ConcurrentHashMap/ConcurrentHashMap.hpp: get, put, remove, entrySet, size"]}
{"id": "C108", "title": "The concurrent map's locks exclude and never deadlock", "statement": "While several threads use a map, no lock has two owners, a thread works on the buckets it locked for the size the table really has, no other thread changes what lies under its locks, and the threads never block each other for ever: as long as a call is going on, some thread in a call can go on. The histories are still those of an atomic map.", "quantifier": "all key and value types, hash functions, numbers of threads, calls and schedules of the steps that take and release locks", "why_tests_cant": "Deadlocks and stale-size accesses depend on rare schedules among up to three bucket locks and the lock of all.", "anchors": ["library/Java/Util/Concurrent/ConcurrentHashMap/libcuckoo/cuckoohash_map.hh: spinlock, lock_one, lock_two, lock_three, lock_all, check_hashpower, rehash_lock, TwoBuckets, AllUnlocker, snapshot_and_lock_two"]}
{"id": "C109", "title": "A call that is left alone returns", "statement": "Whatever state of progress the other threads' calls on a ConcurrentHashMap were left in, a get, put, remove or traversal whose thread from now on runs undisturbed returns after finitely many of its own steps - also when the others have invalidated the path it had found or have grown the table in the meantime - and a size() that runs undisturbed returns exactly the number of mappings of the calls that have taken effect.", "quantifier": "every number of threads, every interleaving up to that point, every table size, hash function and key type, every point inside a call", "why_tests_cant": "An endless retry needs one particular interleaving: a path found, then invalidated, then found in the same way again. Tests that finish say nothing about the schedules that were not tried.", "anchors": ["library/Java/Util/Concurrent/ConcurrentHashMap/libcuckoo/cuckoohash_map.hh: run_cuckoo, cuckoopath_search, cuckoopath_move, cuckoo_insert_loop, snapshot_and_lock_two, size", "library/Java/Util/Concurrent/ConcurrentHashMap/ConcurrentHashMap.hpp: put, get, remove, size"]}
{"id": "C110", "title": "Each thread has its own sub-queue, found without waiting", "statement": "Every thread that adds to a ConcurrentLinkedQueue is given a sub-queue of its own: two threads are never given the same one and a thread is always given the same one again, however their calls interleave, however often the table in which they look it up is enlarged meanwhile and even if all their hashes are equal. A thread is refused a sub-queue only if it was refused memory, and no more sub-queues are made than threads have called. A thread that has its sub-queue finds it in a bounded number of its own steps whatever the others do; one that has none yet finishes if left alone while nobody is enlarging the table, and there is always somebody who can finish.", "quantifier": "all numbers of threads, injective thread numbers, hash functions, initial sizes that are powers of two, schedules of fewer than 2^61 steps and outcomes of the allocations", "why_tests_cant": "Tests exercise a few interleavings of a few threads; whether an entry is lost or duplicated while the table is being replaced depends on the exact order of the atomic steps, on the hashes and on which allocations fail", "anchors": ["library/Java/Util/Concurrent/ConcurrentLinkedQueue/concurrentqueue.hpp: get_or_add_implicit_producer, implicitProducerHash, implicitProducerHashCount, implicitProducerHashResizeInProgress"]}
{"id": "C111", "title": "ConcurrentLinkedQueue keeps the contract of java.util.Queue between calls", "statement": "For calls that do not overlap, a ConcurrentLinkedQueue is Java's: add and offer append and return true, poll removes and returns the oldest element or says that there is none, peek and element show it, remove takes it, contains, remove(x), removeAll and clear speak of and take the elements they name, isEmpty and size count; first in is first out whichever threads added the elements, every element is polled in the end, and nothing undefined happens.", "quantifier": "all element types, sequences of non-overlapping calls by any number of threads, and outcomes of the allocations", "why_tests_cant": "Tests try a few short sequences, mostly from one thread; the order across threads, the effect of a failed allocation, of an empty poll and of more than 2^31 elements depend on the whole history", "anchors": ["library/Java/Util/Concurrent/ConcurrentLinkedQueue/ConcurrentLinkedQueue.hpp: add, offer, poll, peek, element, remove, clear, contains, removeAll, isEmpty, size", "library/Java/Util/Concurrent/ConcurrentLinkedQueue/concurrentqueue.hpp: try_dequeue, size_approx, inner_enqueue"]}
{"id": "C112", "title": "ConcurrentLinkedQueue serves threads that call it at the same time", "statement": "However adds, polls and size calls of any number of threads interleave: no element is polled twice, every element polled was added, elements of one thread come in its order, nothing undefined happens, and every call returns after a number of its own steps that depends only on how many threads have added. A poll returns nothing only if the queue was empty at some moment during the call, and size and isEmpty report a number of elements that the queue had at some moment during the call.", "quantifier": "all numbers of threads, interleavings of the atomic steps, element types, block sizes, and outcomes of allocations and of throwing constructors", "why_tests_cant": "The failures need three or more threads stopped between particular atomic instructions; no test can enumerate the interleavings", "anchors": ["library/Java/Util/Concurrent/ConcurrentLinkedQueue/concurrentqueue.hpp: try_dequeue, size_approx, inner_enqueue, ImplicitProducer", "library/Java/Util/Concurrent/ConcurrentLinkedQueue/ConcurrentLinkedQueue.hpp: add, poll, isEmpty, size"]}
{"id": "C113", "title": "Elements of a growing queue are always looked for in the right block", "statement": "While one thread adds to its part of a ConcurrentLinkedQueue and any number of others poll, the table that says in which block of memory an element lies is reused and enlarged. Every look-up, also one that still reads an older version of the table, finds the block the element was put in; no memory is read that was never written or is not part of the table; looking up takes a constant number of steps and adding succeeds unless memory runs out or a constructor fails; and the table's size is bounded by the number of blocks that are in use.", "quantifier": "all interleavings of one adding thread and any number of polling threads, all values a relaxed or acquire load may yield, all numbers of blocks and growths, all failures of allocation", "why_tests_cant": "The table is only enlarged after 32 blocks of 32 elements are in use at once, and a reader sees an outdated version only if it is delayed between two instructions", "anchors": ["library/Java/Util/Concurrent/ConcurrentLinkedQueue/concurrentqueue.hpp: insert_block_index_entry, rewind_block_index_tail, get_block_index_entry_for_index, get_block_index_index_for_index, new_block_index"]}
{"id": "C114", "title": "Destroying a queue destroys each remaining element once and gives all memory back", "statement": "When a ConcurrentLinkedQueue is destroyed after all calls have returned, every element that was added and not polled is destroyed exactly once, in the order of the thread that added it; every element added was either handed out or is destroyed now; no element is destroyed that is not there; and every block of memory that held elements is given back exactly once.", "quantifier": "all histories of concurrent adds and polls, with any interleaving and any failures, after which all calls have returned; all numbers of threads and elements", "why_tests_cant": "Whether a block is lost or given back twice depends on where each thread's head and tail are relative to block boundaries and on which poll emptied a block", "anchors": ["library/Java/Util/Concurrent/ConcurrentLinkedQueue/concurrentqueue.hpp: ~ImplicitProducer, ~ConcurrentQueue, add_block_to_free_list"]}
{"id": "C115", "title": "The pool of blocks of a concurrent queue hands out each block to one user and makes no more than needed", "statement": "However threads interleave requests for a block and returns, a request never gets a block that somebody else holds; the blocks made in advance are used before new memory is asked for, and never indexed beyond their array, whatever stale value of its counter a thread reads; new memory is asked for, or a request refused, only if at some moment of that request every block was in use, and a request that may allocate is refused only if malloc fails; there are never more blocks than the array or the greatest demand so far; a request never blocks and needs at most four accesses; at the end every block that nobody holds is destroyed exactly once. An array made for n elements is just large enough.", "quantifier": "any array size, any number of threads whose sum with the size is below 2^64, every schedule, every value the relaxed loads may give, every failure of malloc, every history of requests and returns", "why_tests_cant": "The counter is read and advanced with relaxed accesses, so double hand-outs, overshoot and wrap-around depend on schedules and stale reads that tests do not produce at will.", "anchors": ["library/Java/Util/Concurrent/ConcurrentLinkedQueue/concurrentqueue.hpp: populate_initial_block_list, try_get_block_from_initial_pool, requisition_block, add_block_to_free_list, ~ConcurrentQueue, destroy_array"]}
{"id": "C116", "title": "A loop over a ConcurrentHashMap with begin() and end() is weakly consistent", "statement": "A loop from begin() to end() over a ConcurrentHashMap, with calls on the map (by the body of the loop or by other threads, between its steps) visits only mappings that are in the map when they are visited, visits no key twice, visits every key that is in the map until the loop ends, and ends without undefined behaviour.", "quantifier": "every hash function, every history before the loop, every body (its calls may depend on what was visited), every sequence of calls between the steps", "why_tests_cant": "Whether an entry is skipped or visited twice depends on the slots the hash function gives, on what the calls in between displace and on whether the table grows while the loop runs; a test tries a few small maps.", "anchors": ["library/Java/Util/Concurrent/ConcurrentHashMap/ConcurrentHashMap.hpp: begin, end", "library/Java/Util/Concurrent/ConcurrentHashMap/libcuckoo/cuckoohash_map.hh: locked_table::const_iterator, operator++, lock_table"]}
{"id": "C117", "title": "Generators made without a seed do not repeat each other", "statement": "Generators made with Random() at the same reading of the clock, by any threads, start from different seeds and differ in one of their first two numbers; making one never waits for another thread.", "quantifier": "every number of threads, every schedule, every reading of the clock, fewer than 2^44 generators", "why_tests_cant": "Whether two of 2^44 generators share a seed is a question of number theory and of schedules; a test makes a few generators in one thread.", "anchors": ["library/Java/Util/Random/Random.cpp: Random, seedUniquifier, nanoTime, initialScramble, next"]}
{"id": "C118", "title": "nextGaussian() takes two numbers from each accepted candidate and setSeed() forgets the second", "statement": "nextGaussian() always returns; its numbers come in pairs from the first candidate of the generator's sequence that lies inside the unit circle; it never reads the second number before it was written; after setSeed(s) a generator answers every sequence of calls as a new generator with the seed s.", "quantifier": "every seed, every state of the generator, every sequence of calls (nextGaussian and the calls of C52), every square root and logarithm", "why_tests_cant": "That the rejection loop ends for each of the 2^48 states follows from the period of the sequence, not from samples; that no call sequence leaks a number across setSeed needs all sequences.", "anchors": ["library/Java/Util/Random/Random.cpp: nextGaussian, setSeed, nextDouble", "library/Java/Util/Random/Random.hpp: haveNextGaussianNumber, nextGaussianNumber, DOUBLE_UNIT"]}
{"id": "C119", "title": "A copy of a random generator continues as the original", "statement": "A generator copied from another one answers every further sequence of calls as the original would.", "quantifier": "every seed, every history of calls before the copy, every sequence of calls after it, every square root and logarithm", "why_tests_cant": "The copy differs only after particular histories (an odd number of nextGaussian() calls since the seed was set); tests of copies made from new generators pass.", "anchors": ["library/Java/Util/Random/Random.cpp: Random(const Random &), nextGaussian", "library/Java/Util/Random/Random.hpp: haveNextGaussianNumber, nextGaussianNumber"]}
{"id": "C120", "title": "Integer and Long objects as map keys", "statement": "A HashMap whose keys are Integer or Long objects is a map from numbers: a key that was put is found by every object with the same number, and by no other, however these objects were made; equal objects have equal hash values.", "quantifier": "every history of put, putIfAbsent, remove, containsKey and getOrDefault, every way of making the keys by construction, assignment and compound assignment, every hash function of texts", "why_tests_cant": "The failing case needs a key object with a particular past (a compound assignment before the lookup) and depends on the hash values of two texts; for Integer the claim ranges over all histories.", "anchors": ["library/Java/Lang/Integer/Integer.hpp: operator(), hash<Integer>", "library/Java/Lang/Integer/Integer.cpp: operator==, copy constructor", "library/Java/Lang/Long/Long.hpp: operator(), hash<Long>", "library/Java/Lang/Long/Long.cpp: operator==, copy constructor, operator+=", "library/Java/Util/HashMap/HashMap.hpp: put, putIfAbsent, remove, containsKey, getOrDefault"]}
{"id": "C121", "title": "Double and Float objects show their number; compound assignment", "statement": "The text of a Double or Float object depends only on its number, objects that compare equal show the same text (from which map keys are hashed), and x op= y sets x to x op y.", "quantifier": "every number, every history of assignments and compound assignments, every behaviour of printf and of the arithmetic", "why_tests_cant": "The text depends on how an object got its number (constructor, default constructor, assignment), so all histories have to be considered; tests look at texts of newly constructed objects.", "anchors": ["library/Java/Lang/Double/Double.cpp: constructors, operator=, operator+=, toString", "library/Java/Lang/Float/Float.cpp: constructors, operator=, operator+=", "library/Java/Lang/Double/Double.hpp: operator()", "library/Java/Lang/Float/Float.hpp: operator()"]}
{"id": "C122", "title": "Long.valueOf and Long.getLong give the number a text stands for, or the default", "statement": "Long.valueOf(s) applied to the decimal text of any long gives an object with that number and that text, and so does valueOf(s, 10); a decimal numeral with leading zeros gives the number it denotes and a text that is no decimal numeral is not taken for a number; getLong(name, default) gives the default when there is no such property.", "quantifier": "every long, every decimal text with or without sign and leading zeros, every property name and every default", "why_tests_cant": "The longs and the numerals are too many to try, and the failures sit at one value (MIN_VALUE) and at one spelling (a leading zero).", "anchors": ["library/Java/Lang/Long/Long.cpp: Long::valueOf", "library/Java/Lang/Long/Long.cpp: Long::getLong", "library/Java/Lang/Long/Long.cpp: Long::decode"]}
{"id": "C123", "title": "Conversions and comparisons of Integer and Long", "statement": "byteValue, shortValue and intValue of an Integer or Long keep the low 8, 16 or 32 bits read in two's complement, widening to long and narrowing back changes nothing, the six comparison operators and compareTo are those of the numbers, and max and min return the larger and the smaller argument.", "quantifier": "every int and long, and every pair of them", "why_tests_cant": "2^64 values for each conversion and 2^128 pairs for each comparison; the byte conversion goes wrong only on one half of the values.", "anchors": ["library/Java/Lang/Integer/Integer.cpp: byteValue, shortValue, longValue, max, min, compareTo, comparison operators", "library/Java/Lang/Long/Long.cpp: byteValue, shortValue, intValue, compareTo, comparison operators"]}
{"id": "C124", "title": "Code points of a StringBuilder", "statement": "After any history of edits codePointAt(i) gives the code point of the character at i, codePointBefore(i) that of the character before i, codePointCount(i, j) the number of characters from i to j, and an index outside the text raises IndexOutOfBoundsException.", "quantifier": "every constructor and history of edits, every index and range, every text", "why_tests_cant": "The answers depend on the history that led to the text and on the block behind it, and the wrong ones on byte values above 127.", "anchors": ["library/Java/Lang/StringBuilder/StringBuilder.cpp: codePointAt, codePointBefore, codePointCount", "library/Java/Lang/Character/Character.cpp: codePointAt, codePointCount"]}
{"id": "C125", "title": "An HttpURLConnection keeps its request method and its response", "statement": "getMethod gives the method set last, GET before any was set; getResponseCode and getResponseMessage give the last response stored, and a defined value before there was one; setting a method changes no response and storing a response changes no method.", "quantifier": "every history of setMethod calls and stored responses", "why_tests_cant": "Histories are unbounded, and an uninitialised member may happen to hold the expected number in a test.", "anchors": ["library/Java/Net/HttpURLConnection/HttpURLConnection.cpp: getMethod, setMethod, getResponseCode, getResponseMessage", "library/Java/Net/HttpURLConnection/HttpURLConnection.hpp: members"]}
