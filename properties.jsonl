{"id": "C01", "title": "Behaves like std::optional over whole histories", "statement": "Any sequence of operations (construct, copy, move, assign, emplace, reset, swap, access, value_or, and_then, transform, or_else, compare, hash, destroy) on any number of tiny optionals gives exactly the results, exceptions and final contents that the C++ standard prescribes for std::optional, provided no payload equal to the optional's own sentinel is ever stored and a throwing callable is only given to transform when building its result may itself throw.", "quantifier": "for every payload type and every behaviour of its special members (including throwing at any point and arbitrary user side effects), every storage strategy with a lawful flag manipulator, every number of optionals, every finite history, debug and release builds", "why_tests_cant": "tests run a few fixed histories on a few types; the claim ranges over all histories, all types and all points at which user code may throw", "anchors": ["include/tiny/optional.h: StorageBase, MoveConstructionBase, CopyConstructionBase, MoveAssignmentBase, CopyAssignmentBase, TinyOptionalImpl, optional"]}
{"id": "C02", "title": "Default and nullopt construction give an empty optional", "statement": "A default constructed optional, an optional constructed from std::nullopt and an optional assigned std::nullopt report has_value()==false, whatever bytes were in the storage before.", "quantifier": "for every storage strategy with a lawful flag manipulator and every previous memory content", "why_tests_cant": "depends on all possible prior contents of uninitialised memory", "anchors": ["include/tiny/optional.h: StorageBase(), TinyOptionalImpl(std::nullopt_t), operator=(std::nullopt_t)"]}
{"id": "C03", "title": "Stored values are read back bit for bit", "statement": "After a value that is not the sentinel has been stored by construction, emplace or assignment, has_value() is true and *o, value() and operator-> give exactly the stored object representation; storing never alters the value in order to make room for the empty flag.", "quantifier": "for every storage strategy, every storable value, every prior state of the optional", "why_tests_cant": "the value space (e.g. 2^64 double patterns, arbitrary structs) cannot be enumerated", "anchors": ["include/tiny/optional.h: StorageBase::ConstructPayload, StorageBase::AssignValue, TinyOptionalImpl::emplace"]}
{"id": "C04", "title": "optional<double> distinguishes every double from empty", "statement": "optional<double> occupies 8 bytes, and for every 64 bit pattern other than one single quiet NaN pattern, storing that double gives an engaged optional with exactly that pattern; in particular all finite values, both zeros, both infinities, all signalling NaNs and the default NaNs of x86 are storable.", "quantifier": "for every one of the 2^64 bit patterns of a double", "why_tests_cant": "2^64 inputs; NaN payload bits are invisible to ==", "anchors": ["include/tiny/optional.h: SentinelForExploitingUnusedBits<double>, MemcpyAndCmpFlagManipulator"]}
{"id": "C05", "title": "optional<float> distinguishes every float from empty", "statement": "Same for float: 4 bytes, every 32 bit pattern except one quiet NaN pattern is storable and read back unchanged.", "quantifier": "for every one of the 2^32 bit patterns of a float", "why_tests_cant": "tests only try a handful of values and NaNs", "anchors": ["include/tiny/optional.h: SentinelForExploitingUnusedBits<float>, MemcpyAndCmpFlagManipulator"]}
{"id": "C06", "title": "optional<bool> has three distinguishable states in one byte", "statement": "optional<bool> is one byte, keeps empty, false and true apart, and never hands a byte other than 0 or 1 out as a bool.", "quantifier": "for both bool values and every history of operations", "why_tests_cant": "the invalid-byte hazard depends on every history of operations, not one run", "anchors": ["include/tiny/optional.h: SentinelForExploitingUnusedBits<bool>, MemcpyAndCmpFlagManipulator"]}
{"id": "C07", "title": "optional<T*> keeps nullptr, user addresses and special handles apart from empty", "statement": "For raw pointers (x64 and x86) nullptr, every even address, every user space address (48 or 57 bit paging on x64), every 48 bit canonical address, the Windows pseudo handles -1..-6 and the small ShellExecute error codes can be stored and are never confused with empty.", "quantifier": "for every pointer value in the named ranges", "why_tests_cant": "address space is too large to enumerate and machine dependent", "anchors": ["include/tiny/optional.h: SentinelForExploitingUnusedBits<T*>"]}
{"id": "C08", "title": "Swallowed sentinel: exactly the values equal to the sentinel are unstorable", "statement": "With a user supplied sentinel, the set of values that cannot be stored is exactly the set of values that compare equal (operator==) to the sentinel; for integers it is one value, for floating point 0.0 it also contains -0.0.", "quantifier": "for every integer width and signedness, every sentinel, every value; every floating point sentinel", "why_tests_cant": "quantifies over all sentinel/value pairs", "anchors": ["include/tiny/optional.h: AssignmentFlagManipulator"]}
{"id": "C09", "title": "Debug builds detect every attempt to store the sentinel", "statement": "If assertions are enabled, storing a value equal to the sentinel through construction, emplace or assignment always stops the program by a failed assertion instead of silently producing an empty optional.", "quantifier": "for every in-place strategy, every prior state and every storing operation", "why_tests_cant": "needs all states and all storing operations", "anchors": ["include/tiny/optional.h: StorageBase::ConstructPayload, StorageBase::AssignValue"]}
{"id": "C10", "title": "Release builds: storing the sentinel yields has_value()==false and leaks the payload", "statement": "Without assertions, storing the sentinel makes has_value() false without an error. The payload object just stored is then not destroyed by reset(), by assigning nullopt or by the destructor: the destructor only releases the storage (documented misuse, exact consequence).", "quantifier": "for every in-place strategy, every prior state and every storing operation", "why_tests_cant": "documents a precondition; needs all states", "anchors": ["include/tiny/optional.h: StorageBase::ConstructPayload, StorageBase::AssignValue, ~StorageBase"]}
{"id": "C11", "title": "A throwing construction leaves the optional empty and usable", "statement": "If the payload constructor throws during emplace, during assignment of a value to an empty optional, or during copy/move assignment to an empty optional, the exception reaches the caller, the optional is empty afterwards and all later operations work.", "quantifier": "for every payload type with throwing constructors, every storage strategy, every prior state, every exception", "why_tests_cant": "every point of failure in every history", "anchors": ["include/tiny/optional.h: StorageBase::InitializeIsEmptyFlagScope, StorageBase::ConstructPayload, TinyOptionalImpl::emplace"]}
{"id": "C12", "title": "A throwing payload assignment keeps the optional engaged", "statement": "If the payload's own assignment operator throws while a value is assigned to an engaged optional, the exception reaches the caller and the optional stays engaged with whatever state the payload's assignment left.", "quantifier": "for every payload type, storage strategy, value and exception", "why_tests_cant": "every failure point and every partially assigned payload state", "anchors": ["include/tiny/optional.h: StorageBase::AssignValue"]}
{"id": "C13", "title": "A throwing swap never changes which optionals are engaged", "statement": "If swap throws, both optionals are engaged exactly as before the call.", "quantifier": "for every payload type, storage strategy, prior state and exception", "why_tests_cant": "all failure points", "anchors": ["include/tiny/optional.h: TinyOptionalImpl::swap"]}
{"id": "C14", "title": "Copies are independent of their source", "statement": "Copy construction and copy assignment leave the source unchanged, and no later operation on one of the two optionals changes the other.", "quantifier": "for every history of operations after the copy", "why_tests_cant": "all later histories", "anchors": ["include/tiny/optional.h: CopyConstructionBase, CopyAssignmentBase"]}
{"id": "C15", "title": "Moved-from optionals stay engaged", "statement": "After move construction or move assignment from an engaged optional the source is still engaged and holds the moved-from payload; a moved-from empty optional stays empty.", "quantifier": "for every payload type whose moved-from state is not the sentinel, every prior state of the target", "why_tests_cant": "all payload types and target states", "anchors": ["include/tiny/optional.h: MoveConstructionBase, MoveAssignmentBase"]}
{"id": "C16", "title": "Every payload object is destroyed exactly once", "statement": "Over any history (with exceptions at arbitrary points) no payload is destroyed twice, no destroyed or never constructed payload is read, assigned or destroyed, and once all optionals are destroyed the number of payload constructions equals the number of destructions, storage by storage.", "quantifier": "for every history, payload type and storage strategy obeying the sentinel contract", "why_tests_cant": "lifetime balance must hold for every history and failure point", "anchors": ["include/tiny/optional.h: StorageBase, TinyOptionalImpl"]}
{"id": "C17", "title": "Flag objects of in-place optionals are destroyed", "statement": "Every 'empty flag' object that a flag manipulator creates inside the payload's memory is destroyed again by the flag manipulator, also when an empty optional is destroyed (README: destroying an empty optional calls invalidate_empty_flag).", "quantifier": "for every history and every in-place strategy", "why_tests_cant": "existing tests use flag objects whose leak is invisible (short strings)", "anchors": ["include/tiny/optional.h: ~StorageBase, StorageBase(std::in_place_t)", "README.md: custom flag manipulator section"]}
{"id": "C18", "title": "No operation reads indeterminate memory or a dead object", "statement": "No operation reads uninitialised bytes, in particular has_value() always reads an initialised flag, both while the payload exists and while only the flag exists inside the payload's memory.", "quantifier": "for every history, storage strategy and initial memory content", "why_tests_cant": "sanitizers see only executed paths", "anchors": ["include/tiny/optional.h: GetIsEmptyFlag, has_value, is_empty"]}
{"id": "C19", "title": "Self assignment, self swap and assigning an optional's own payload are safe", "statement": "o = o, o = std::move(o), swap(o,o), o = *o and o = std::move(*o) keep o engaged iff it was engaged, run no payload constructor or destructor, and only apply the payload's own self assignment or self swap.", "quantifier": "for every payload type, storage strategy and state", "why_tests_cant": "all types and states", "anchors": ["include/tiny/optional.h: MoveAssignmentBase, CopyAssignmentBase, TinyOptionalImpl::swap, StorageBase::AssignValue"]}
{"id": "C20", "title": "emplace from a reference into the same optional is a use of a destroyed object", "statement": "o.emplace(*o) on an engaged optional destroys the payload before its reference is read; like std::optional this is undefined behaviour for every engaged state and storage strategy, whereas o = *o is fine.", "quantifier": "for every engaged state and storage strategy", "why_tests_cant": "undefined behaviour cannot be asserted by a test", "anchors": ["include/tiny/optional.h: TinyOptionalImpl::emplace"]}
{"id": "C21", "title": "reset is idempotent and restores the fresh empty state", "statement": "reset() destroys the payload exactly once if there is one, does nothing otherwise, and a reset optional is indistinguishable from a freshly constructed empty one for every later history.", "quantifier": "for every state and every later history", "why_tests_cant": "all later histories", "anchors": ["include/tiny/optional.h: StorageBase::reset"]}
{"id": "C22", "title": "value() throws exactly on empty optionals", "statement": "value() throws std::bad_optional_access iff has_value() is false and then changes nothing; operator* and operator-> on an empty optional trigger an assertion in debug builds.", "quantifier": "for every state and storage strategy", "why_tests_cant": "all states", "anchors": ["include/tiny/optional.h: TinyOptionalImpl::value, operator*, operator->"]}
{"id": "C23", "title": "value_or", "statement": "value_or(d) returns a copy (lvalue) or the moved payload (rvalue) if engaged, otherwise d converted; it never changes whether the optional is engaged and evaluates only one of the two alternatives.", "quantifier": "for every state, default, payload type and exception behaviour", "why_tests_cant": "all states and types", "anchors": ["include/tiny/optional.h: TinyOptionalImpl::value_or"]}
{"id": "C24", "title": "swap exchanges the contents", "statement": "swap exchanges the contents of two optionals in all four engaged/empty combinations, touches no other optional, and swapping twice restores both for payloads whose move and swap are value preserving.", "quantifier": "for every pair of states, payload type, storage strategy", "why_tests_cant": "all states and types", "anchors": ["include/tiny/optional.h: TinyOptionalImpl::swap, swap"]}
{"id": "C25", "title": "Monadic operations call their function at most once and obey the monad laws", "statement": "and_then/transform call f exactly once with the payload if engaged and never if empty, or_else calls f exactly once iff empty; and_then satisfies the monad laws and transform the functor laws with respect to contents.", "quantifier": "for every function, state, payload type", "why_tests_cant": "quantifies over all functions", "anchors": ["include/tiny/optional.h: TinyOptionalImpl::and_then, transform, or_else"]}
{"id": "C26", "title": "Exceptions thrown by transform's callable reach the caller", "statement": "If the callable given to transform throws, the exception propagates to the caller as it does with std::optional, and the source stays engaged.", "quantifier": "for every callable and result type", "why_tests_cant": "depends on the result type's traits; the shipped tests never throw from transform's callable", "anchors": ["include/tiny/optional.h: StorageBase::ConstructPayloadFromFunction, TinyOptionalImpl::transform"]}
{"id": "C27", "title": "noexcept operations never terminate the program", "statement": "If the payload's nothrow traits are truthful, none of the operations declared noexcept (move construction/assignment, swap, reset, nullopt construction/assignment, has_value, destruction) ever calls std::terminate; and each is declared noexcept under exactly the condition the standard demands for std::optional.", "quantifier": "for every payload type, trait combination and history", "why_tests_cant": "all trait combinations and failure points", "anchors": ["include/tiny/optional.h: noexcept specifications"]}
{"id": "C28", "title": "Relational operators order empty first and agree with std::optional", "statement": "==, !=, <, <=, >, >= between tiny optionals (also with different payload types and sentinels), between tiny and std optionals, with std::nullopt and with plain values in both operand orders agree with the standard's definition for std::optional; no operand is modified and an empty operand's payload is never read.", "quantifier": "for every pair of operand kinds, every state, every user defined (possibly non-lawful, e.g. NaN) comparison of the payloads", "why_tests_cant": "all operand kinds, states and comparison functions", "anchors": ["include/tiny/optional.h: comparison operators 2398-2696"]}
{"id": "C29", "title": "The order on optionals is a total order whenever the payload's is", "statement": "If payload comparison is an equivalence / strict weak order / total order with consistent operators, so is the comparison of optionals, with the empty optional as least element, so optionals can be used as keys of ordered containers.", "quantifier": "for every payload order", "why_tests_cant": "order laws quantify over all triples of values", "anchors": ["include/tiny/optional.h: comparison operators"]}
{"id": "C30", "title": "Three-way comparison is consistent with the other operators", "statement": "Whenever payload <=> is consistent with the payload's relational operators, <=> on optionals (all operand kinds) is consistent with ==, <, <=, >, >= on optionals, including unordered payloads.", "quantifier": "for every operand kind, state and payload comparison", "why_tests_cant": "all operand combinations", "anchors": ["include/tiny/optional.h: operator<=> 2702-2766"]}
{"id": "C31", "title": "Hash agrees with equality and with the payload's hash", "statement": "std::hash of an engaged optional equals std::hash of its payload, of an empty one is a fixed constant; equal optionals have equal hashes if this holds for payloads, independent of sentinel and storage strategy.", "quantifier": "for every payload hash and state", "why_tests_cant": "all values", "anchors": ["include/tiny/optional.h: std::hash specializations"]}
{"id": "C32", "title": "Template arguments always select exactly one storage strategy", "statement": "For every payload type, sentinel argument, member pointer argument and configuration, the library either rejects the combination at compile time with a diagnostic or selects exactly one storage strategy; selection is never ambiguous. Payload types that std::optional excludes (nullopt_t, in_place_t, arrays, types without usable destructor) are always rejected.", "quantifier": "for every combination of template arguments and configuration macros", "why_tests_cant": "unbounded type space; ambiguity only shows at instantiation", "anchors": ["include/tiny/optional.h: SelectDecomposition, SelectSentinelValueAndMemPtrFromConstants"]}
{"id": "C33", "title": "is_compressed and sizeof", "statement": "is_compressed is true iff sizeof(optional<T,...>)==sizeof(T), which holds exactly when the flag is stored in place; otherwise the size equals that of a payload followed by a bool with the payload's alignment, i.e. std::optional's.", "quantifier": "for every payload size and alignment", "why_tests_cant": "all sizes and alignments", "anchors": ["include/tiny/optional.h: StorageBase::is_compressed, SeparateFlagStorage, InplaceStorage"]}
{"id": "C34", "title": "Integer range check for sentinels is exact", "statement": "A sentinel constant of any integer type is accepted for an integer flag of any type iff its mathematical value is representable in the flag's type, and then the stored flag has exactly that mathematical value.", "quantifier": "for every pair of integer types (any width, any signedness) and every value", "why_tests_cant": "all widths and values; wrap-around bugs hide at the boundaries", "anchors": ["include/tiny/optional.h: IsIntegralInRange, AssignmentFlagManipulator::ConvertSentinelToFlagType"]}
{"id": "C35", "title": "Sentinel conversion never changes a value silently", "statement": "bool/non-bool and floating point/other mixtures of sentinel and flag type are rejected at compile time; every accepted arithmetic sentinel keeps its value.", "quantifier": "for every pair of arithmetic types and every value", "why_tests_cant": "all type pairs", "anchors": ["include/tiny/optional.h: ConvertSentinelToFlagType"]}
{"id": "C36", "title": "optional_aip is always in place", "statement": "Every optional_aip<T> or optional_aip<T, s> that compiles has the size of T; the default sentinel is the maximum for unsigned and the minimum for signed integers, all other values are storable.", "quantifier": "for every payload type, sentinel and configuration", "why_tests_cant": "all types and configurations", "anchors": ["include/tiny/optional.h: optional_aip, SwallowingDefaultSentinel, SelectSentinelValueWithSwallowing"]}
{"id": "C37", "title": "Configuration macros never change observable behaviour", "statement": "A program that compiles and respects the contract under the default configuration also compiles with TINY_OPTIONAL_USE_SEPARATE_BOOL_INSTEAD_OF_UB_TRICKS and produces the same results; only sizes change.", "quantifier": "for every program history and every template argument combination", "why_tests_cant": "compares two builds for all programs", "anchors": ["include/tiny/optional.h: configuration macros, SelectDecomposition"]}
{"id": "C38", "title": "Debugger visualisation agrees with has_value()", "statement": "The emptiness test in the shipped natvis file gives the same answer as has_value() for every memory content of optionals with separate flag, bool, float, double, pointer and integral sentinel, directly or through a member.", "quantifier": "for every memory content", "why_tests_cant": "natvis expressions are not executed by tests", "anchors": ["include/tiny_optional.natvis", "include/tiny/optional.h: is_empty functions"]}
{"id": "C39", "title": "A default constructed optional with a user sentinel is empty for every accepted sentinel", "statement": "For every sentinel accepted by the compiler (value or type based) a default constructed optional is empty.", "quantifier": "for every sentinel, including NaN", "why_tests_cant": "all sentinel values", "anchors": ["include/tiny/optional.h: AssignmentFlagManipulator, sentinel_flag_manipulator"]}
{"id": "C40", "title": "Storing the flag in a member never touches other members", "statement": "When a member is used as flag, creating, querying and resetting an empty optional reads and writes only the bytes of that member; the other bytes of the payload's memory are neither read nor written.", "quantifier": "for every struct layout, member offset and size, every memory content", "why_tests_cant": "all layouts", "anchors": ["include/tiny/optional.h: InplaceDecompositionViaMemPtr"]}
{"id": "C41", "title": "Read-only operations never write", "statement": "has_value, operator bool, const access, value_or on a const optional, comparisons and hash leave the optional's storage bytes unchanged.", "quantifier": "for every state and storage strategy", "why_tests_cant": "all states", "anchors": ["include/tiny/optional.h: const member functions, comparison operators, std::hash"]}
{"id": "C42", "title": "Operations are local", "statement": "An operation changes only the storage of the optionals (and referenced objects) it is applied to; all other optionals keep their exact bytes.", "quantifier": "for every history and every other optional", "why_tests_cant": "all other objects in all histories", "anchors": ["include/tiny/optional.h: TinyOptionalImpl"]}
{"id": "C43", "title": "Special member functions are available exactly as for std::optional", "statement": "An optional is copy constructible / move constructible / copy assignable / move assignable exactly when the standard says so for the payload's traits, including the fallback from move to copy, and with the standard's noexcept conditions.", "quantifier": "for every combination of payload traits", "why_tests_cant": "all trait combinations, with the fall-back rules of defaulted-deleted members", "anchors": ["include/tiny/optional.h: MoveConstructionBase, CopyConstructionBase, MoveAssignmentBase, CopyAssignmentBase"]}
{"id": "C44", "title": "o = {} empties optionals of scalars", "statement": "For every cv-unqualified scalar payload type, o = {} empties the optional instead of assigning a value-initialised payload; converting construction and assignment are enabled under the standard's conditions.", "quantifier": "for every payload and argument type category", "why_tests_cant": "all type pairs", "anchors": ["include/tiny/optional.h: EnableConvertingConstructor, EnableConvertingAssignment"]}
{"id": "C45", "title": "An optional of another type is never silently converted into an engaged optional", "statement": "Constructing or assigning a tiny optional of a scalar type other than bool from a tiny optional with a different payload or sentinel does not compile (converting constructors are deliberately not provided). For other payload types an optional is accepted exactly if the payload itself can be constructed from the optional object; optional<bool> therefore accepts every other optional in explicit construction (storing whether it is engaged), contrary to the intention.", "quantifier": "for every pair of optional types", "why_tests_cant": "all type pairs", "anchors": ["include/tiny/optional.h: EnableConvertingConstructor"]}
{"id": "C46", "title": "Different configurations and versions live in different namespaces", "statement": "Object files compiled with different library versions or different configuration macros never share the library's symbols: the inline namespace names are pairwise different; the version number decodes uniquely into major, minor, patch.", "quantifier": "for all version numbers and configurations", "why_tests_cant": "all pairs", "anchors": ["include/tiny/optional.h: TINY_OPTIONAL_INLINE_NS_BEGIN, TINY_OPTIONAL_VERSION"]}
{"id": "C47", "title": "Nested optionals keep all nesting levels apart", "statement": "optional<optional<T>> distinguishes empty, engaged-with-empty and engaged-with-value, over every history, also when the inner optional stores its flag in place.", "quantifier": "for every inner state and history", "why_tests_cant": "all histories and inner representations", "anchors": ["include/tiny/optional.h: optional"]}
{"id": "C48", "title": "The third template argument only matters with a member pointer", "statement": "A sentinel given as third template argument takes effect iff the second one is a member pointer; otherwise it is ignored.", "quantifier": "for every template argument combination", "why_tests_cant": "all argument combinations", "anchors": ["include/tiny/optional.h: SelectSentinelValueAndMemPtrFromConstants"]}
{"id": "C49", "title": "Custom flag manipulators get their documented preconditions", "statement": "A user supplied flag manipulator is only ever called with arguments its documentation promises: init_empty_flag only on memory without a live flag or payload, invalidate_empty_flag only on a flag that currently says empty, is_empty only on a live flag or payload; calls to init and invalidate alternate.", "quantifier": "for every history, including exceptions", "why_tests_cant": "every call sequence in every history", "anchors": ["include/tiny/optional.h: StorageBase, README custom flag manipulator contract"]}
{"id": "C50", "title": "Enumerators as sentinel of an integer optional escape the range check", "statement": "An integral sentinel constant is checked at compile time to be representable in the payload type (C34), so the value that means empty is the one written. For an enumerator of an unscoped enumeration no such check happens: optional<unsigned char, A> with A == 300 compiles and the value that means empty is 44. Exactly the enumerators outside of the payload's range are changed; scoped enumerations are rejected.", "quantifier": "for all integer payload types, enumerations and enumerator values", "why_tests_cant": "needs all type/value combinations; no test uses an enumerator with an integer payload", "anchors": ["include/tiny/optional.h: OptionalFlagManipulator for sentinels (IsIntegralInRange only for integral constants)"]}
{"id": "C51", "title": "A payload that looks empty once it was moved from", "statement": "If the flag is stored inside the payload and moving the payload out leaves the sentinel in it, then with assertions the move constructor and the move assignment stop with a failed assertion. Without assertions, and for swap, value_or on an rvalue and moves through a reference even with assertions, the call succeeds, the source reports no value, reset() and assigning nullopt do nothing, and its destructor releases the storage without destroying the payload. With a separate flag this cannot happen.", "quantifier": "for every payload type, storage strategy, history of calls before, state of the user's program, and every way to move the payload out", "why_tests_cant": "the tests use payloads whose moved-from state differs from the sentinel; a leaked payload is not visible through the API", "anchors": ["include/tiny/optional.h: 1179-1194, 1293-1308, 1643-1653, 1656-1678, 978-983, 1136-1143"]}
{"id": "C52", "title": "The noexcept checks on the sentinel's type cover the operations used", "statement": "For a sentinel of class type the header accepts only classes for which querying and setting the empty state cannot throw, so that default construction, has_value() and reset() never end in std::terminate. This holds for the comparison; it fails for setting the empty state, because the assignment operator is checked but the copy constructor is called: with a class whose copy constructor throws, default construction and reset() terminate the program. If the copy constructor is noexcept too, nothing terminates.", "quantifier": "for every class used as sentinel with truthful noexcept specifications, every state and every state of the user's program", "why_tests_cant": "the tests' sentinel types have non-throwing copy constructors", "anchors": ["include/tiny/optional.h: 816-842, 929-943, 955-959, 1136-1143"]}
{"id": "C53", "title": "Comparison expressions resolve unambiguously to the operator meant for their operand kinds", "statement": "For every comparison operator and every pair of operand types with at least one tiny optional (tiny::optional, optional_aip, optional_inplace, optional_sentinel_via_type, against each other, std::optional, std::nullopt or another value) exactly one candidate of overload resolution is best, among the header's and the standard library's operators including the C++20 rewritten and reversed ones; it is the header's function for these kinds of operands, and the value of the expression is the standard's comparison of the contents.", "quantifier": "for every operator, operand kind, state, outcome of the constraints on the payload types, and compilation: C++17, C++20, gcc or not, with or without the later corrections of C++20's rules", "why_tests_cant": "the tests compile each expression with one compiler and one set of payload types; a wrong overload often gives the same result for the values tried", "anchors": ["include/tiny/optional.h: macros 88-98, comparison operators 2388-2766", "tests/ComparisonTests.cpp"]}
{"id": "C54", "title": "Swap expressions behave as the swap of std::optional", "statement": "For two optionals a and b of one type, `using std::swap; swap(a, b)` (and so std::is_swappable, std::is_nothrow_swappable and the swap of an optional of optionals) compiles and is noexcept exactly when it is for std::optional, and has the effect of std::optional's swap: it exchanges the contents, uses the payload's swap if both are engaged, and if it throws, both optionals are as engaged as before. False of the code as given for tiny::optional, optional_aip and classes derived from them: the library's swap needs a derived-to-base conversion there, so the generic std::swap is called, which never uses the payload's swap, has another noexcept specification, and empties both optionals if the first is engaged, the second empty and the second move construction throws. True of optional_inplace and optional_sentinel_via_type, if the call is not qualified with std::.", "quantifier": "for every combination of payload traits, number of derivations, form of the call, storage strategy, history of calls, state and behaviour of the payload's operations including exceptions", "why_tests_cant": "ConstructionTests.cpp swaps a payload whose first move already throws, so the two functions cannot be told apart; the other tests see the exchanged contents, which are the same", "anchors": ["include/tiny/optional.h: TinyOptionalImpl::swap 1656-1681, impl::swap 1842-1855, class optional 2195-2220", "tests/ConstructionTests.cpp: 191-207"]}
{"id": "C55", "title": "The repository's exercise suite passes for every type and every pair of values", "statement": "Every test of the suite in tests/Exercises.h (default, nullopt, copy, move, in-place and value construction; assignment of nullopt, braces, optionals and values; emplace, reset, conversion to bool, ->, *, value(), value_or, swap, and_then, transform, or_else) passes, that is, every call ends with the result its assertions demand, including that moved-from optionals are engaged and hold the moved-from payload; and the suite fails if a test value equals the sentinel.", "quantifier": "for every storage strategy, every payload type whose operations do not throw and transfer values (with any side effects and any moved-from value that the optional can store), every pair of storable test values, every value constructed from the constructor arguments, with and without assertions", "why_tests_cant": "the repository instantiates the suite with about a hundred combinations of types and two values each", "anchors": ["tests/Exercises.h: ExerciseOptional 87-785", "tests/ExerciseTinyOptionalPayload1.cpp"]}
{"id": "C56", "title": "Threads without conflicting calls do not influence each other", "statement": "If no two threads make conflicting calls (one may modify an object, a non-const operand, that the other one uses), then every interleaving of their calls gives each thread exactly the results it gets when it runs alone, the final contents do not depend on the schedule, and the results are those of threads using std::optional. In particular any number of threads may call const functions (has_value, *, ->, value, value_or, comparisons, hash, copying from it) on a shared optional, and a call never reads or writes an optional that it does not name.", "quantifier": "for all numbers of threads, all schedules of calls of any length, all storage strategies and payload types, all states and outcomes of user code that touches no state shared between threads", "why_tests_cant": "the repository has no multi-threaded tests, and the number of schedules is unbounded", "anchors": ["include/tiny/optional.h: class TinyOptionalImpl 1389-1790, StorageBase 900-1150, comparisons 1880-2180, std::hash 2775-2809"]}
{"id": "C57", "title": "The type that tiny::optional{x} and make_optional give", "statement": "tiny::optional{x} has the type of x if x is a tiny::optional (with its sentinel; it is copied, not wrapped), and otherwise it is the optional of the decayed type of x with the default storage, also for classes derived from an optional and for std::optional; with no argument, several arguments or a braced list nothing is deduced. This is the type std::optional's guides deduce in the same situation. make_optional(x) gives an optional of the decayed type; make_optional<T, constants>(args...) gives an optional of T with these constants, constructed in place, from the initializer list if the first argument is one, or from the value if it is an rvalue of type T; and it accepts the same calls with the same payload type and the same initialization as std::make_optional.", "quantifier": "for all types of arguments (const, arrays, functions, pointers, classes with any chain of base classes, optionals of optionals of any depth), all value categories, all numbers of arguments, all explicit template arguments and all conversion relations between unrelated types", "why_tests_cant": "the repository tests a dozen argument types; the space of types is infinite", "anchors": ["include/tiny/optional.h: class optional 2195-2217, deduction guide 2274-2275, make_optional 2278-2310"]}
{"id": "C58", "title": "std::hash is enabled for exactly the right optionals", "statement": "std::hash of an optional is enabled exactly if std::hash of its payload without const is, hence through any nesting of optionals exactly if that of the innermost payload is, whatever the storage and sentinels; these are the types for which it is enabled with std::optional. Otherwise it is disabled in a detectable way (not default constructible). Classes derived from an optional do not inherit it.", "quantifier": "for all types built from hashable and unhashable types with optionals of any kind in any nesting", "why_tests_cant": "whether a specialization exists is a property of infinitely many types", "anchors": ["include/tiny/optional.h: EnableHashHelper 305-322, std::hash 2775-2809"]}
{"id": "C59", "title": "No program can tell tiny::optional from std::optional; automatic optionals leave nothing behind", "statement": "A program with loops, conditionals, recursive functions, exceptions that propagate and are caught, automatic optionals and variables, and functions that return optionals by value, whose calls depend on anything it saw before, behaves with tiny optionals as with std::optional, as long as with std::optional it has no undefined behaviour and it stores no sentinel: it ends in the same way with the same local state or the same exception, or runs on, user code sees the same, and it never reads uninitialised memory or violates a lifetime. If it creates optionals only as automatic variables and function results, then at its end, also by an uncaught exception, all are gone and every payload constructed was destroyed exactly once.", "quantifier": "for all programs of that language (any size, any number of iterations and any recursion depth, also non-terminating ones), all storage strategies and payload types, all outcomes of user code", "why_tests_cant": "it quantifies over all programs using the library", "anchors": ["include/tiny/optional.h: class TinyOptionalImpl 1389-1790, StorageBase 900-1150"]}
{"id": "C60", "title": "Callables of and_then and or_else may use the library themselves, even the same optional", "statement": "and_then and or_else do exactly what their source says step by step (has_value, access, construction of the result), so the callable may be any code: it may reset or reassign the optional on which it was called, create and destroy optionals, loop, throw and call monadic operations again. With such callables o.and_then(f).and_then(g) and o.and_then([&](auto& x){ return f(x).and_then(g); }) are interchangeable anywhere in a program, also inside functions and other callables: the program ends in the same way, with the same local state, and leaves all optionals and the user's objects in the same state.", "quantifier": "for all programs, all callables (any client code), all states, all storage strategies and payload types, all outcomes of user code, any number of rewritten places", "why_tests_cant": "tests use a handful of callables that do not touch optionals; the rewriting claim ranges over all programs and callables", "anchors": ["include/tiny/optional.h: and_then 1680-1731, or_else 1817-1837, 2250-2270"]}
{"id": "C61", "title": "is_tiny_optional_v tells the library's optionals from all other types", "statement": "is_tiny_optional_v<T> is true if T is an optional defined by the library, with any arguments and also const or volatile, and false for any other type: references, std::optional, types that are no classes, incomplete classes, and the user's classes. A callable may be given to and_then exactly if it returns a std::optional or a type with the trait, by value or by reference.", "quantifier": "for all types, including all class hierarchies without virtual bases, with any access, hiding and ambiguity of members", "why_tests_cant": "the trait ranges over all types; tests use it on a few optionals and on no class hierarchies", "anchors": ["include/tiny/optional.h: IsTinyOptionalHelper and is_tiny_optional_v 250-269, IsStdOptional and IsSomeOptional 327-335, is_tiny_optional 1434, and_then 1680-1731", "README.md:264-265"]}
{"id": "C62", "title": "Threads whose calls do not conflict have no data race, at the granularity of single memory accesses", "statement": "Every API call reads only the objects that it names and writes only those that it may modify (const member functions, comparisons and the source of a copy are only read), one memory access after the other. If several threads make calls such that no object that one thread may modify is named by a call of another thread, there is no data race in any interleaving of the single accesses, every thread finishes after a fixed number of turns, and what it observes and leaves in its objects is what its calls do alone, one after the other, which is what std::optional does.", "quantifier": "for any number of threads, all lists of calls, all interleavings of the single memory accesses, all storage strategies and payload types, all starting states", "why_tests_cant": "the interleavings cannot be enumerated or provoked, and a data race has no defined outcome to test for", "anchors": ["include/tiny/optional.h: all member functions 354-2809"]}
{"id": "C63", "title": "has_value() is not disturbed while another thread modifies the contained value through a reference", "statement": "As with std::optional, one thread may call has_value() (or operator bool) while another thread modifies the contained value through a reference that it obtained before: has_value() returns true throughout, whatever part of the bytes of the value is already written.", "quantifier": "for all storage strategies, all reachable states, all old and new values, all mixes of their bytes", "why_tests_cant": "the states between two bytes of a write are not observable in a deterministic test", "anchors": ["include/tiny/optional.h: has_value 993-996, is_empty 599-607, 637-645, 727-735, 818-830"]}
{"id": "C64", "title": "Members for const, lvalue and rvalue objects are chosen, and copy and move, as those of std::optional", "statement": "For every kind of object expression (const or not, lvalue or rvalue) exactly one overload of operator*, operator->, value, value_or, and_then, transform and or_else is called; the returned reference, and the argument passed to a callable, is as const as the object and an rvalue exactly for rvalues; value_or moves out of non-const rvalues only; modifying functions cannot be called for const objects. and_then and transform compile exactly for the callables, and return the types, that the standard demands. or_else compiles for the same callables as that of std::optional and copies or moves its object and the callable's result where std::optional does, whatever the callable returns.", "quantifier": "for all kinds of object expressions, all callables (any result for any kind of argument), all payload types, all executions", "why_tests_cant": "callables range over all sets of overloads and result types; the tests use a few lambdas that return by value", "anchors": ["include/tiny/optional.h: observers 1554-1653, and_then 1680-1731, transform 1733-1812, or_else 1817-1837 and 2250-2270"]}
{"id": "C65", "title": "The flag manipulators shown in the documentation work as described", "statement": "For the README's IndexPair specialization (in every configuration of the library), its variant that uses only the memory of the second index, enumerations registered with sentinel_flag_manipulator or given an explicit sentinel, the Iterator with optional_inplace and the static constexpr sentinel with optional_sentinel_via_type: the optional has the size of the payload, every value that does not indicate emptiness (not both indices negative, second index not negative, not the sentinel, a valid iterator whatever its other members and paddings) is stored and read back, and storing a value that indicates emptiness is stopped by the assertion, or without assertions gives an empty optional. The two ways for enumerations are equivalent, the Iterator optional stores the same values as one with the member pointer would, the variant leaves the other member untouched when the optional becomes empty, and payload types with qualifiers do not use the specialization of the unqualified type.", "quantifier": "for all values of the index, enumeration, count and other members, all widths of the integral types, all layouts of the iterator, all configurations, all reachable states and all storing calls", "why_tests_cant": "the values range over all pairs of integers, all 64 bit counts and all byte patterns of the other members and paddings; the repository's tests use other types", "anchors": ["README.md 313-658", "include/tiny/optional.h: sentinel_flag_manipulator 230-247, optional_inplace 2317-2318, selection 1870-2203"]}
{"id": "C66", "title": "User code that asks the optional it was called from gets consistent answers", "statement": "Destructors, assignment operators, swap functions, comparisons and hashes of the payload, and callables of and_then, transform, or_else, may call has_value() or operator bool of the optionals that take part in the call: an optional whose value is used, assigned, compared, swapped, moved from, copied from or destroyed says that it has a value (in a destructor: still), the object of or_else and of value_or with the default says that it has none; this holds at every such call in every program. Code that only asks changes nothing. A constructor of the payload that asks the optional it is constructed in (and a callable of transform that asks the result) is told that there is a value if the flag is separate, although the value does not exist yet; with the flag in place the question is undefined behaviour.", "quantifier": "for all programs of any length, all user code and all questions it may ask (adaptively, any number, any optional, at every call), all payload types, all storage strategies", "why_tests_cant": "no test has user code that looks at the optional it is called from; the questions and their consequences are unbounded", "anchors": ["include/tiny/optional.h: ConstructPayload 1043-1080, ConstructPayloadFromFunction 1083-1114, AssignValue 1116-1133, reset 1136-1143, ~StorageBase 978-983, swap 1656-1678, monadic functions 1680-1837, comparisons 2437-2763, hash 2785-2809"]}
{"id": "C67", "title": "On one memory of bytes the library behaves the same, wherever the optionals are placed and whatever is left in memory", "statement": "Run on a single array of bytes without any record of object lifetimes - optionals and variables at arbitrary non-overlapping addresses (for example as neighbouring elements of an array), arbitrary bytes in memory at the beginning, and arbitrary bytes left wherever C++ says that a content is indeterminate - every program observes what it observes in the model with separate objects, within the contract what std::optional demands, throws the same exceptions, fails the same assertions and terminates in the same cases. At the end the bytes of every optional say whether it is empty, those of its payload are its value, and no byte outside of the variables that the program names has been changed - not even by a program that breaks the contract. Hence neither the placement nor the bytes left over matter.", "quantifier": "for all programs of any length, all user code, all payload types and storage strategies whose flag manipulators decide by determinate bytes (all of the library and of the README do), all placements, all initial memories, all contents left in indeterminate memory", "why_tests_cant": "a test runs with one placement and with whatever bytes happen to be in memory; a stale byte that looks like a sentinel occurs for one placement or history in 2^64", "anchors": ["include/tiny/optional.h: storage 516-544, decompositions 569-646, manipulators 680-850, StorageBase 925-1147, TinyOptionalImpl 1390-1842"]}
{"id": "C68", "title": "Whatever is stored, a release build behaves like a std::optional that forgets values that look empty", "statement": "Without assertions, a program that stores the sentinel - by construction, assignment, emplace, a reference, swap, or by moving from a payload that then looks empty - goes on exactly as if every optional were a std::optional that loses such a value at the moment it is stored: all later observations, exceptions, comparisons, hashes and the calls of user code are the ones of that optional, other optionals are not affected, the bytes of each optional say at the end whether it is empty, and no byte elsewhere changes. The lost value is never destroyed. With assertions the program does the same or stops at a failed assertion. Within the contract that optional is std::optional.", "quantifier": "for all programs of any length with any number of stored sentinels, all user code, payload types and storage strategies, placements and memory contents", "why_tests_cant": "the tests run with assertions enabled for misuse or look at a single misuse; what a program does after several misuses has to be followed through all later calls", "anchors": ["README.md:190", "include/tiny/optional.h: 1049-1134 (StorageBase), 1077-1079, 1130-1132, 1390-1842"]}
{"id": "C69", "title": "User code that itself uses optionals, to any depth, cannot tell tiny::optional from std::optional", "statement": "The constructors, assignments, swap functions, destructors, comparisons and hashes of a payload type, and the callables given to the library, may themselves use optionals (caches, registries, nodes on the heap), whose payload types again have user code that uses further optionals, and so on. A program with any number of such levels returns with tiny optionals on all levels what it returns with std::optional on all levels, and at the end all optionals of all levels show the same and the rest of the world is the same, as long as with std::optional no call on any level has undefined behaviour or stores a sentinel. No tiny call on any level has undefined behaviour, and on every level every payload that no longer exists was destroyed exactly once, also with exceptions that pass through several levels.", "quantifier": "for all depths, all programs on each level (of any size, with calls that depend on everything seen before), all storage strategies and payload types on each level, all outcomes of user code", "why_tests_cant": "payload types in tests do not use optionals in their own operations; depth and programs are unbounded", "anchors": ["include/tiny/optional.h: StorageBase 925-1147, TinyOptionalImpl 1390-1842, comparisons 2437-2763, hash 2785-2809"]}
{"id": "C70", "title": "User code that uses other optionals of the same program, recursively, cannot tell tiny::optional from std::optional", "statement": "The operations of a payload type and the callables given to the library are functions of one program with one memory. They may call each other recursively, without bound, and use any optionals of the program, of the same types as everybody else, except the operands of the calls in progress; for example, the constructor of a node of a tree may construct nodes of smaller trees in other optionals and note them in a registry optional. If such a program with std::optional ends without undefined behaviour and without storing a sentinel, then with tiny::optional it returns the same, no call has undefined behaviour, all optionals show the same, the rest of the world is the same, and every payload that no longer exists was destroyed exactly once, also when exceptions pass through nested calls.", "quantifier": "for all programs (all functions, all bodies of any size, calls that depend on everything seen before), all depths of recursion, all storage strategies and payload types, all outcomes of user code", "why_tests_cant": "payload types in tests do not use optionals in their own operations; the depth of recursion and the programs are unbounded", "anchors": ["include/tiny/optional.h: StorageBase 925-1147, TinyOptionalImpl 1390-1842, comparisons 2437-2763, hash 2785-2809"]}
{"id": "C71", "title": "Every function of the header, executed as it is written, does what std::optional does", "statement": "Take the text of the run-time functions of optional.h as syntax trees (every statement, expression, condition, initializer list, noexcept specification, reference and const qualifier) and execute it statement by statement with the rules of C++: overloads chosen by arguments, bases and members constructed and destroyed in order, local guards destroyed when a scope ends or an exception leaves it, std::move and std::forward as casts, noexcept functions that terminate when an exception leaves them. Every way to write a constructor, destructor, assignment, emplace, reset, swap, observer, access, value_or, monadic operation, comparison, make_optional or hash (TinyOptionalImpl or optional; const or not; lvalue or rvalue; which overload) then yields, in every state, the same result, exception, undefined behaviour and memory. A history within std::optional's contract written in any of these ways yields the observations of std::optional and leaves optionals with the same contents.", "quantifier": "for all histories of any length, all ways to write each call, all states, all storage strategies, all payload types with any behaviour, all exceptions, all depths of the interpreter above a constant", "why_tests_cant": "it is about the text itself for unboundedly many instantiations, states and histories; tests execute some instantiations on some states", "anchors": ["include/tiny/optional.h: StorageBase 925-1147, construct and assign bases 1160-1380, TinyOptionalImpl 1390-1842, optional 2166-2275, swap and make_optional 2262-2312, comparisons 2437-2763, hash 2785-2809"]}
{"id": "C72", "title": "The flag functions and storage layouts of the header, executed as they are written, do what the storage strategies promise", "statement": "Take the text of the functions that find the payload and the flag in the storage and of is_empty, init_empty_flag and invalidate_empty_flag of every flag manipulator of the header (separate bool, memcpy of a bit pattern, assignment of a sentinel, sentinel_flag_manipulator) and execute it on bytes with the rules of C++ (placement new, explicit destructor calls, memcpy, memcmp, comparison, reads of indeterminate values or of objects whose lifetime has not started are undefined). For every payload size, alignment, member offset and sentinel it reads and writes exactly the flag's bytes as the strategy says, and never leaves the storage. Every type a program can name gets its layout and manipulator from such text or from the user's own specialisation.", "quantifier": "for all sizes, alignments, offsets, sentinels, comparison functions and memory contents, all types and sentinels a program can name, all histories", "why_tests_cant": "the sizes, offsets, sentinels and memory contents are unbounded; undefined behaviour shows no symptom in a test", "anchors": ["include/tiny/optional.h: sentinel_flag_manipulator 222-260, decompositions 520-646, manipulators 655-850, 883-889"]}
{"id": "C73", "title": "Payload and flag types that overload the unary operator& can be used", "statement": "The library works with types that overload the unary operator& (as std::optional does): it takes addresses with std::addressof only, so that the result of no call depends on such an overload.", "quantifier": "for all functions of the header, all storage strategies, all sizes and memory contents", "why_tests_cant": "a test can only use some types with some strategies; the claim is about every address that any function takes", "anchors": ["include/tiny/optional.h: sentinel_flag_manipulator 222-260, manipulators 655-850, StorageBase 925-1147"]}
{"id": "C74", "title": "The compile time conversion of a sentinel, executed as it is written, accepts exactly the documented constants and keeps their values", "statement": "Take the text of IsIntegralInRange and of the conversion of a sentinel to the flag type and execute it as the compiler does (if constexpr, static_assert, type aliases, common_type_t, make_unsigned_t, usual arithmetic conversions, integral promotion, static_cast modulo). For all integer types of all widths and all values the range check compiles and is true exactly if the value can be held by the target type. For every flag type and constant the conversion compiles exactly for the constants that the documentation allows (same type for bool and floating point, values in range for integers, implicit conversions otherwise), and an integral sentinel keeps its numeric value. The bit patterns written in the header for bool, float, double and pointers have the size of their types and are the ones that the optionals use.", "quantifier": "for all integer types (any width, signed or not) and values, all flag types and constants of any program, both pointer sizes", "why_tests_cant": "the widths, values and types are unbounded; that a constant is rejected cannot be tested at run time", "anchors": ["include/tiny/optional.h: IsIntegralInRange 351-380, SentinelForExploitingUnusedBits 419-507, ConvertSentinelToFlagType 769-814"]}
{"id": "C75", "title": "The templates of the header, instantiated as they are written, choose the documented storage strategy", "statement": "Take the text of the class, alias and variable templates with which the header turns a public type name into a storage strategy (partial specializations, enable_if, conditional, default arguments, static_assert, #ifdef) and instantiate it as the compiler does. For every program (payload types with any cv qualification and size, specializations of optional_flag_manipulator by the user, both configuration macros), every payload and every combination of sentinel and member pointer, tiny::optional<P, a, b>, optional_sentinel_via_type<P, S, m>, optional_inplace<P, F>, optional_aip<P> and optional_aip<P, a> either do not compile or are the type whose flag lies at the documented place and has the documented values. They do not compile exactly in the documented cases: invalid payloads, sentinels that the flag variable cannot hold, members without a sentinel, members of another class, null member pointers, missing defaults of optional_aip. No instantiation is ambiguous, and the choice does not depend on the special member functions of the payload.", "quantifier": "for all programs, payload types, sentinels, member pointers, flag manipulators, configurations and properties of the special member functions", "why_tests_cant": "the set of payload types, constants and user specializations is infinite, and a test cannot show that a program does not compile or is ambiguous", "anchors": ["include/tiny/optional.h: 215-225, 330-350, 560-900, 940-960, 1165-1313, 1880-2385"]}
{"id": "C76", "title": "Copy and move operations and noexcept specifications, as the header declares them, are those of std::optional", "statement": "Read the declarations of the header as the compiler does: = default, = delete, noexcept specifications (also those with conditions and those that ask for another function's), base classes, and the conditions that choose between the two versions of each base class. For every combination of traits of the payload, a tiny optional (as optional_sentinel_via_type or optional_inplace, and as tiny::optional) can be copy and move constructed and assigned exactly when std::optional of the same payload can, and these operations are noexcept exactly when std::optional's are. Every other function of the API - constructors, destructor, assignments, emplace, reset, swap, observers, accesses, value_or, monadic functions, make_optional, hash, and all comparisons in both orders - is noexcept exactly when the standard says so for std::optional, whatever the category of the object, and exists.", "quantifier": "all combinations of the payload's traits, all categories of the object, all arguments, both kinds of classes, all functions that an expression may call", "why_tests_cant": "the declarations interact over a chain of six classes, four of which have two versions; tests check some payload types and rarely noexcept", "anchors": ["include/tiny/optional.h:943-991", "include/tiny/optional.h:1168-1382", "include/tiny/optional.h:1436-1460", "include/tiny/optional.h:1500-1530", "include/tiny/optional.h:1656-1660", "include/tiny/optional.h:1849-1855", "include/tiny/optional.h:2200-2230", "include/tiny/optional.h:2440-2760"]}
{"id": "C77", "title": "The constraints written in the header select the constructors, assignments, comparisons and other functions that the API promises", "statement": "Read which functions the header declares and under which conditions they take part in overload resolution from its text: parameter types, explicit, = default and = delete, template heads, enable_if, requires and type constraints, #if conditions, inherited constructors. For every payload type, class of optional and argument (any category and type, {} included) a constructor call or an assignment then compiles exactly when, and calls the function that, C44 and C45 describe: values only convert where the payload type allows it, implicitly only if the conversion is implicit, o = {} empties, optionals of other types are not swallowed. For all compilers and language versions and all pairs of operands the comparison operators that take part are exactly those of which C53 says that one is best, none is declared twice, comparisons with values reject tiny optionals, <=> asks for exactly the comparability of the two payload types and returns their common category. Every other function of the API is considered exactly when the function of std::optional with the same name and parameters is. Of the constructors and conversion functions only those with std::in_place, the one for values that do not convert implicitly and the conversion to bool are explicit, so that copy-initialisation and arithmetic with an optional compile where they do for std::optional.", "quantifier": "all payload types and their properties, all optional types, argument types and categories, all compilation modes, comparison operators and pairs of operands, all functions", "why_tests_cant": "that a function does not take part in overload resolution cannot be seen at run time, and types, arguments and compilers are unbounded", "anchors": ["include/tiny/optional.h:1405-1434", "include/tiny/optional.h:1441-1550", "include/tiny/optional.h:1817-1855", "include/tiny/optional.h:2211-2270", "include/tiny/optional.h:2398-2766"]}
{"id": "C78", "title": "The deduction guide, make_optional and the specialisations of std::hash, as written, deduce the documented types", "statement": "Take the constructors and the deduction guide of tiny::optional, the three functions make_optional with their template parameters, return types and bodies, and the partial specialisations of std::hash with their helpers from the text of the header. Then optional{x} for every argument has the type of x if x is a tiny::optional and otherwise is the optional of the decayed type with default storage, and nothing is deduced from any other argument list; make_optional compiles for the same calls as std::make_optional with the same payload type and the same initialization of the payload, also with one or two explicit constants, which are kept (and are UseDefaultValue if they are left out); std::hash is enabled for exactly the types for which it is with std::optional in the place of tiny::optional, for optionals in optionals of any depth. The call operator of each specialization of std::hash takes the very class that the specialization is for and uses the very hash of the payload that its condition requires.", "quantifier": "all argument types and categories, argument lists of any length, explicit template arguments, optionals nested to any depth", "why_tests_cant": "the types are unbounded, and that something is not deduced or not enabled is not visible at run time", "anchors": ["include/tiny/optional.h:308-323", "include/tiny/optional.h:2195-2217", "include/tiny/optional.h:2273-2310", "include/tiny/optional.h:2770-2806"]}
{"id": "C79", "title": "is_tiny_optional_v and the static_asserts, as written, accept exactly what is documented", "statement": "Taken from the text of the header: is_tiny_optional_v of any type is decided as C61 says (for a class exactly if the name is_tiny_optional means one declaration, publicly reachable, with the value true). value_or compiles only if the payload is copyable (for rvalues: movable) and the argument is convertible to it; swap only if the payload is movable and swappable; and_then only if the callable returns, for the constness and category of this payload, a std::optional or a tiny optional up to const and references; transform only if it returns an object that is no array, nullopt_t or in_place_t; or_else only if it returns the optional itself; and no other function is restricted by a static_assert. The storage refuses exactly flag manipulators whose three functions cannot be called with an lvalue of the flag type or are not noexcept, and the payloads that std::optional refuses; the manipulators of the header meet this. Default constructor and destructor exist for every payload.", "quantifier": "all types including all class hierarchies of users, all results of callables, all traits of payloads, all functions, all user-defined flag manipulators", "why_tests_cant": "programs that must not compile are not tests, and class hierarchies and types are unbounded", "anchors": ["include/tiny/optional.h:250-270", "include/tiny/optional.h:289-336", "include/tiny/optional.h:924-956", "include/tiny/optional.h:1434", "include/tiny/optional.h:1633-1836", "include/tiny/optional.h:2211-2270"]}
{"id": "C80", "title": "User code can name exactly the documented members of an optional, and every name in the header is found", "statement": "On an optional (of the class template and of the alias templates alike) user code can name exactly the members of std::optional (or_else if the macro for it is defined), is_compressed and is_tiny_optional; nothing else that any of the base classes declares is accessible, neither as a member nor by converting a pointer or reference to a base class; what is found is never ambiguous; constructors and destructors are public and there are no friends; in the traits, the default flag manipulators and the specializations of std::hash everything is public; flag manipulators offer exactly is_empty, init_empty_flag and invalidate_empty_flag. Every name used in a function of the header is found where it is used under the lookup rules for templates, every member so used is accessible there, and the functions that C71 executes are the ones that this lookup finds.", "quantifier": "all names, all payloads (all combinations of the specialised base classes), all combinations of macros, all functions of the header and all names in them", "why_tests_cant": "that a program does not compile is not a test, and members of templates are only checked when a test happens to instantiate them", "anchors": ["include/tiny/optional.h:231-247", "include/tiny/optional.h:517-850", "include/tiny/optional.h:916-1838", "include/tiny/optional.h:2199-2271"]}
{"id": "C81", "title": "Every type name in the header is declared, and every template parameter of a function can be deduced", "statement": "Every identifier in a type, template argument, return type, constraint or expression of a function of the header names a template parameter, a local name, a member found in the class (or the class around it) under the lookup rules for templates, or something declared at namespace scope. The template parameters of a function are distinct from each other and from those of its class. Every template parameter of a function has a default argument or is deduced from the arguments of a call, except the payload type of the versions of make_optional that construct the payload from arguments, which the caller has to state.", "quantifier": "all functions of the header, all identifiers in them, all combinations of the specialised base classes and of the macros", "why_tests_cant": "function templates that no test instantiates, or not with that payload, are not checked by a compiler beyond their non-dependent names", "anchors": ["include/tiny/optional.h:916-1838", "include/tiny/optional.h:2199-2271", "include/tiny/optional.h:2274-2814"]}
{"id": "C82", "title": "Size, alignment and member types of an optional follow from the data members that the header declares", "statement": "Take the data members, member types and constants that the classes of the header declare, and lay an optional out in memory. Whatever base classes it has (copyable or not, movable or not), it consists of its storage and nothing else: its size is that of the payload if the flag is in place, and otherwise larger by the payload's alignment; its alignment is the payload's. The payload is at the start of the storage, without const, a separate flag is a bool directly behind it. is_compressed is true exactly if the flag is in place, value_type is the payload type as it was given, const included, and no payload object is constructed or destroyed implicitly along with an optional.", "quantifier": "all payload sizes and alignments, const payloads or not, all three ways to store the flag, all combinations of the specialised base classes and of the macro for member flags", "why_tests_cant": "tests look at a few payload types on one platform", "anchors": ["include/tiny/optional.h:517-544", "include/tiny/optional.h:573-646", "include/tiny/optional.h:916-1148", "include/tiny/optional.h:1391-1437", "include/tiny/optional.h:2199-2212"]}
{"id": "C83", "title": "What the compiler evaluates is constexpr, and types and methods of the library are not", "statement": "Every function of the header that is needed for a constant (a sentinel, is_compressed, is_tiny_optional_v), a static_assert or an if constexpr, directly or through other functions, is declared constexpr, so that these constants and checks compile. As documented, optionals themselves are for run time: none of the optional types is a literal type, in any version of C++ and for any payload, and no call of a constructor, observer, modifier, comparison, swap, make_optional or hash can be part of a constant expression. and_then, transform and or_else are declared constexpr nevertheless, and only they, without being usable in a constant expression.", "quantifier": "all functions, constants, assertions and conditions of the header, all chains of calls, all optional classes, payloads and versions of C++", "why_tests_cant": "that an expression is not constant shows only as an error when it is used as one, and whether a function has to be constexpr only in the instantiations that a test happens to need", "anchors": ["include/tiny/optional.h:253-269", "include/tiny/optional.h:355-380", "include/tiny/optional.h:775-814", "include/tiny/optional.h:955-1013", "include/tiny/optional.h:1682-1836", "include/tiny/optional.h:2253-2269", "README.md:155"]}
