{"id": "C01", "title": "Type compatibility decides exactly the C++ binding rule", "statement": "For two registered types with the same fully decayed type, neither an array and neither volatile, MetaType::compatible(from,to) answers true exactly when C++ lets a value declared with type `from` initialise something declared with type `to` (value-category rule plus qualification conversion at every pointer level).", "quantifier": "every pair of types: any base type, any pointer depth below 16, any placement of const, any reference kind", "why_tests_cant": "there are infinitely many type pairs; the tests exercise a handful with one or two pointer levels", "anchors": ["src/metatype.cpp:162-220 MetaType::compatible", "include/rtti/misc_traits.h:63-77 pointer_arity", "include/rtti/misc_traits.h:181-215 const_bitset", "include/rtti/metatype.h:455-517 type_flags, meta_type"]}
{"id": "C02", "title": "Compatibility never drops const along a chain of conversions", "statement": "If a value is passed through any chain of types where each step is reported compatible, an object that was const at some pointer level below the top at the start is still const at that level at the end; and every non-const type is compatible with itself.", "quantifier": "every chain of compatible steps of any length over non-array, non-volatile types of pointer depth below 16", "why_tests_cant": "chains are unbounded and compatibility is not transitive, so pairwise samples do not compose", "anchors": ["src/metatype.cpp:162-220 MetaType::compatible", "include/rtti/variant.h:144-214 ref/rref/cref"]}
{"id": "C03", "title": "Compatibility for arrays is safe", "statement": "If an array type is reported compatible with a target, then reading the source through the target stays inside the source array and does not drop const from the elements.", "quantifier": "every source array type and every target type with the same decayed type", "why_tests_cant": "array length, element type and nesting are unbounded", "anchors": ["src/metatype.cpp:174-203 MetaType::compatible", "include/rtti/misc_traits.h:98-107 array_length", "include/rtti/metatype.h:455-487 type_flags"]}
{"id": "C04", "title": "Type identifiers and type names stay in one-to-one correspondence", "statement": "After any sequence of type registrations and look-ups, looking a type up by name returns the identifier given when it was registered, two registrations with one name give one identifier, two with different names give different identifiers, and an identifier once issued never changes the type it describes.", "quantifier": "every finite history of registrations (including repeated and empty names) and look-ups", "why_tests_cant": "a property of all histories, including re-registration in different orders from different modules", "anchors": ["src/metatype.cpp:55-102 CustomTypes", "src/metatype.cpp:222-232 MetaType::registerMetaType", "include/rtti/metatype.h:489-530 meta_type, metaTypeId"]}
{"id": "C05", "title": "The decayed type of every type is a registered type that is its own decayed type", "statement": "For every type registered through metaTypeId<T>(), the decayed identifier is valid, denotes full_decay of T and is a fixed point of decaying.", "quantifier": "every C++ type in the modelled grammar and every registration history", "why_tests_cant": "type grammar and histories are infinite", "anchors": ["include/rtti/metatype.h:489-530", "include/rtti/misc_traits.h:111-151 full_decay", "src/private/metatype_p.h:12-37 TypeInfo", "src/metatype.cpp:131-135 MetaType::decayId"]}
{"id": "C06", "title": "Converters behave as a map keyed by decayed source and target", "statement": "After any sequence of register/unregister operations, hasConverter and convert see exactly the converter most recently made current for the pair of decayed types; a second registration for an occupied pair is refused and changes nothing; unregistering frees the pair.", "quantifier": "every finite history of register, unregister, query and convert over any set of types", "why_tests_cant": "depends on histories, including register-unregister-register", "anchors": ["src/metatype.cpp:333-364 MetaTypeFunctionList", "src/metatype.cpp:399-455", "include/rtti/metatype.h:778-849 registerConverter"]}
{"id": "C07", "title": "A container lists its items in registration order with unique names", "statement": "For each category of a container, after any sequence of registrations: names are pairwise different, look-up by name and by index agree, indices never change once assigned, and a refused registration leaves the list unchanged.", "quantifier": "every finite sequence of add / get operations with any names, including the empty name", "why_tests_cant": "history property; tests define each item once", "anchors": ["src/metacontainer.cpp:21-71 MetaItemList", "src/private/metacontainer_p.h:36-45"]}
{"id": "C08", "title": "Method look-up by name or by signature finds the first match in registration order", "statement": "getMethod(q) on a container returns the first registered method whose full signature is q or whose bare name (text before the parenthesis) is q, and returns nothing only if there is none; the empty query finds nothing.", "quantifier": "every list of registered signatures and every query string", "why_tests_cant": "all strings and all lists of overloads", "anchors": ["src/metacontainer.cpp:88-126 findMethod", "src/metacontainer.cpp:321-326 getMethod"]}
{"id": "C09", "title": "Named value lists (attributes and enum elements) are insertion-ordered maps", "statement": "After any sequence of insertions, the value found under a name is the value inserted first/last as documented by the code, the index order is the order of first insertion, index and name look-up agree, and the empty variant is returned for anything absent. The same holds of the attributes and elements of items in a registry that any definition programs built: every question is answered from one list, setting one changes nothing else, and names keep their places through anything that runs later.", "quantifier": "every finite sequence of insertions with any names and values; every registry and program", "why_tests_cant": "history property with repeated names", "anchors": ["src/private/metaitem_p.h:52-81 NamedVariantList", "src/metaitem.cpp:13-39", "src/metaitem.cpp:77-137", "src/metaenum.cpp:25-70", "include/rtti/metadefine.h:841-848", "include/rtti/metadefine.h:919-931"]}
{"id": "C10", "title": "Qualified names are the path of names and identify the item", "statement": "The qualified name of an item is the '::'-joined path of names from below the global namespace; if no name on either path contains ':' or is empty, two items with the same qualified name have the same path; the answer never changes between calls.", "quantifier": "every depth of nesting and every set of names", "why_tests_cant": "unbounded nesting and arbitrary strings", "anchors": ["src/metaitem.cpp:47-58 makeQualifiedName, qualifiedName"]}
{"id": "C11", "title": "for_each visits items in order and stops at the first refusal", "statement": "Iteration calls the visitor on items in registration order, on exactly the shortest prefix whose last element is refused (or on all items if none is refused), each once.", "quantifier": "every list and every (stateful) visitor", "why_tests_cant": "all lists and all visitor behaviours", "anchors": ["src/private/metacontainer_p.h:36-45", "src/metacontainer.cpp:262-349 for_each_class/for_each_method", "src/private/metaitem_p.h:72-81"]}
{"id": "C12", "title": "Defining a namespace, enum, property, method or constructor twice yields the first one", "statement": "Defining an item under a non-empty name that the container already has (a property or method of a class: that the class or one above it has, see C18) returns the existing item and leaves all lists unchanged; otherwise exactly one new item is appended at the end of the matching list and nothing else about existing items changes. Lazy definitions that the look-up finds waiting are run first and count as having come before.", "quantifier": "every reachable registry state and every definition request", "why_tests_cant": "every reachable state", "anchors": ["src/metanamespace.cpp:25-38", "src/metaenum.cpp:10-23", "src/metaproperty.cpp:15-32", "src/metamethod.cpp:22-40", "src/metaconstructor.cpp:10-28"]}
{"id": "C13", "title": "A type has at most one meta class and a meta class found for a type describes that type", "statement": "In every reachable registry state, MetaClass::find(t) either finds nothing or a class whose type is t, and no two different classes claim one type; registering a type a second time under another place or name is reported as an error.", "quantifier": "every history of class registrations", "why_tests_cant": "history property", "anchors": ["src/metaclass.cpp:17-54 MetaClass::create, find", "src/metatype.cpp:234-238"]}
{"id": "C14", "title": "inheritedFrom is exactly reachability over declared bases", "statement": "For any acyclic set of base declarations, a.inheritedFrom(b) is true exactly if b is a or can be reached from a by following declared bases; it terminates.", "quantifier": "every acyclic class graph, any depth and width, any pair of classes", "why_tests_cant": "graphs are unbounded; diamond shapes multiply", "anchors": ["src/metaclass.cpp:123-145 inheritedFrom", "src/private/metaclass_p.h:49-106"]}
{"id": "C15", "title": "cast converts along a declared base path and is null only when there is none", "statement": "a.cast(b, p) is p adjusted by the base conversions along one chain of declared bases from a to b when inheritedFrom(a,b), the chain being the first in declaration order, and null otherwise; if all chains agree (virtual or single inheritance) the result does not depend on the choice.", "quantifier": "every acyclic class graph and every non-null instance", "why_tests_cant": "unbounded graphs", "anchors": ["src/metaclass.cpp:147-174 cast", "include/rtti/metadefine.h:25-32 metacast_to_base"]}
{"id": "C16", "title": "Base and derived lists mirror each other", "statement": "In every reachable registry state, c lists t as a base class exactly if the class of t lists the type of c as derived; no list holds a type twice; entries are never removed or reordered.", "quantifier": "every history of class and base definitions, including repeated ones and ones that throw", "why_tests_cant": "history property, exceptions included", "anchors": ["src/metaclass.cpp:62-121 addBaseClass, addDerivedClass", "src/private/metaclass_p.h:12-106"]}
{"id": "C17", "title": "Member look-up sees own members first and then bases depth-first", "statement": "getMethod/getProperty on a class returns the class's own member if it has one, otherwise the first found in depth-first declaration order of bases; a member of any ancestor is found.", "quantifier": "every acyclic class graph and every assignment of members", "why_tests_cant": "unbounded graphs", "anchors": ["src/metaclass.cpp:181-235 getMethodInternal, getPropertyInternal"]}
{"id": "C18", "title": "A derived class can override a property or method of its base", "statement": "Defining a property (or a method with the same signature) on a class registers it on that class even if a base class already has one of the same name, whatever the order of _base and _property calls.", "quantifier": "every order of definition calls and every base hierarchy", "why_tests_cant": "depends on definition order, tests use one order", "anchors": ["src/metaproperty.cpp:15-32", "src/metamethod.cpp:22-40", "src/metaclass.cpp:181-235"]}
{"id": "C19", "title": "A lazily defined container is defined exactly once, before its first use, on one thread", "statement": "On one thread, the deferred definition runs exactly once over any sequence of queries, it has completed when the first query (other than those it makes itself) answers, nested queries from inside it do not re-enter it, and look-ups always terminate.", "quantifier": "every definition program with arbitrarily nested lazy definitions and every sequence of queries", "why_tests_cant": "nested and mutually referring lazy definitions are unbounded", "anchors": ["src/metacontainer.cpp:144-191", "include/rtti/metadefine.h:34-56", "include/rtti/metadefine.h:889-898 _lazy"]}
{"id": "C20", "title": "A lazily defined container is safe to query from several threads", "statement": "Under every schedule of any number of threads querying one container, the deferred definition runs at most once, and no thread observes a partial definition or crashes.", "quantifier": "every number of threads and every interleaving", "why_tests_cant": "schedules cannot be enumerated by tests", "anchors": ["src/metacontainer.cpp:153-167 checkDeferredDefine"]}
{"id": "C21", "title": "variant copies, moves, assigns and swaps like a value", "statement": "For any program over variants, each variant holds what a plain value semantics predicts: copies are equal and independent, a moved-from variant is empty, swap exchanges, self-assignment changes nothing, clear empties, and a throwing copy leaves the target unchanged.", "quantifier": "every finite program of construct, copy, move, assign, swap, clear and destroy over any number of variants holding any mix of in-place, heap, array and reference contents, with copy failures at any point", "why_tests_cant": "unbounded programs and fault points", "anchors": ["src/variant.cpp:7-89", "include/rtti/detail/variant_impl.h:52-456"]}
{"id": "C22", "title": "Objects held by variants are destroyed exactly once and nothing leaks", "statement": "For any program over variants after which all variants are destroyed, every object constructed in variant storage has been destroyed exactly once, every allocated block was freed exactly once, and no object is used after its destruction.", "quantifier": "every finite variant program, including copies that throw", "why_tests_cant": "unbounded programs and fault points", "anchors": ["src/variant.cpp:42-77 swap", "include/rtti/detail/variant_impl.h:52-335"]}
{"id": "C23", "title": "variant accessors never hand out mutable access to const content", "statement": "A successful ref/data/rref on a variant that is const, or whose content is const or a reference to const, is only ever through a const-qualified type; access types succeed only if the stored type can bind to the requested one.", "quantifier": "every stored type, storage form, requested type and constness of the variant", "why_tests_cant": "all type pairs", "anchors": ["include/rtti/variant.h:144-248", "include/rtti/variant.h:354-506 metafunc_is, metafunc_cast"]}
{"id": "C24", "title": "If is<T>() answers true then to<T>() succeeds", "statement": "For every variant and T, is<T>() implies that to<T>() returns the stored value (adjusted to the requested base), and canConvert<T>() implies that to<T>() does not throw.", "quantifier": "every stored content, class graph, converter set and T", "why_tests_cant": "all types, graphs and converter histories", "anchors": ["include/rtti/variant.h:130-142 is", "include/rtti/variant.h:250-306 to, canConvert", "include/rtti/variant.h:508-600 metafunc_to"]}
{"id": "C25", "title": "variant equality is an equivalence that agrees with the content's operator==", "statement": "For contents whose own == is an equivalence, variant == is reflexive, symmetric and transitive, and equals the content's == when both hold one type.", "quantifier": "every pair/triple of variants", "why_tests_cant": "all contents and type pairs", "anchors": ["src/variant.cpp:91-114 operator==", "include/rtti/metatype.h:295-308 compare_eq", "include/rtti/detail/variant_impl.h:458-499"]}
{"id": "C26", "title": "Equal variants have equal hashes", "statement": "If two variants compare equal then std::hash gives the same value for both.", "quantifier": "every pair of variants", "why_tests_cant": "all contents", "anchors": ["include/rtti/detail/variant_impl.h:566-580 std::hash<variant>", "src/variant.cpp:91-114"]}
{"id": "C27", "title": "Argument binding follows the C++ parameter-passing rules", "statement": "A non-const lvalue-reference parameter binds only to a non-const lvalue of the same or derived type; an rvalue-reference parameter only to an argument passed as an rvalue; a const reference or by-value parameter accepts any convertible argument; an empty argument is rejected; an argument passed as an lvalue is never moved from.", "quantifier": "every argument type, value category, wrapping in a variant, and parameter type", "why_tests_cant": "all combinations of types", "anchors": ["include/rtti/detail/argument_impl.h:6-115", "include/rtti/variant.h:632-674 argument"]}
{"id": "C28", "title": "A call reaches the function exactly when the number of arguments matches, in order", "statement": "Invoking a method with up to ten arguments calls the target exactly once with the i-th argument bound to the i-th parameter iff the number of leading non-empty arguments equals the number of parameters; otherwise invoke_error and the target is not called.", "quantifier": "every arity and every argument list", "why_tests_cant": "all arities and placements of empty arguments", "anchors": ["include/rtti/metadefine.h:80-102 pack_arguments", "include/rtti/metadefine.h:104-596", "include/rtti/variant.h:680-708"]}
{"id": "C29", "title": "Member calls respect const of the instance", "statement": "A non-const member function or a field write is never carried out on a const instance, whichever way (value, pointer, reference, variant) the instance is passed; const members are callable on both.", "quantifier": "every form of instance and every member kind", "why_tests_cant": "all instance types and class graphs", "anchors": ["include/rtti/metadefine.h:222-436", "include/rtti/metadefine.h:634-832"]}
{"id": "C30", "title": "Read-only properties are never written and property guards are enforced", "statement": "Setting a read-only property always raises invoke_error and changes nothing; a static accessor on a member property and vice versa is refused; after a successful set, get returns the value set.", "quantifier": "every property kind, instance form and value", "why_tests_cant": "all combinations", "anchors": ["include/rtti/variant.h:788-834", "include/rtti/metadefine.h:634-832", "src/variant.cpp:116-133 get_property", "include/rtti/detail/variant_impl.h:542-560 set_property"]}
{"id": "C31", "title": "The definition builder nests like brackets", "statement": "For any well-nested sequence of _namespace/_class/_end calls the i-th definition lands in the container opened by the innermost unclosed opener, and after closing all the builder is back at the global namespace.", "quantifier": "every well-nested definition program of any depth", "why_tests_cant": "unbounded nesting", "anchors": ["include/rtti/metadefine.h:836-1067 meta_define"]}
{"id": "C32", "title": "Printed type flags name exactly the flags set", "statement": "Writing TypeFlags to a stream prints exactly the names of the set flags.", "quantifier": "every combination of flags", "why_tests_cant": "2^24 combinations", "anchors": ["src/metatype.cpp:457-557 flag_name, operator<<"]}
{"id": "C33", "title": "Compile-time type lists obey list algebra", "statement": "size, get, index_of, push/pop, concat, remove, remove_all, remove_duplicates, map, filter and folds on type lists compute what the same operations on sequences compute.", "quantifier": "every type list", "why_tests_cant": "all lists", "anchors": ["include/rtti/typelist.h:45-463"]}
{"id": "C34", "title": "Signatures identify overloads", "statement": "The signature text built from a name and parameter types is the same for two overloads only if names and parameter type names are the same, provided names contain no '(' and parameter type names contain no top-level comma; looking a method up by its name and parameter types finds it.", "quantifier": "every name and parameter list", "why_tests_cant": "all strings and lists", "anchors": ["include/rtti/signature.h:12-76", "include/rtti/metacontainer.h:56-70"]}
{"id": "C35", "title": "Type predicates partition types as C++ does", "statement": "For every type, isPointer/isArray/isClass/isClassPtr/isConst/reference predicates and pointerArity answer as the C++ type traits do, and typeFlags() carries exactly the flags of the traits that hold.", "quantifier": "every type in the modelled grammar", "why_tests_cant": "infinite grammar", "anchors": ["include/rtti/metatype.h:455-487 type_flags", "include/rtti/metatype.h:545-605 predicates"]}
{"id": "C36", "title": "Concurrent definitions of one name agree on one item", "statement": "When any number of threads define namespaces/enums under non-empty names in one container, under every schedule all threads defining one name obtain the same item and the container holds exactly one item for it.", "quantifier": "every number of threads, names and interleavings", "why_tests_cant": "schedules cannot be enumerated", "anchors": ["src/metacontainer.cpp:21-71", "src/metanamespace.cpp:25-38", "src/metaenum.cpp:10-23"]}
{"id": "C37", "title": "Concurrent registrations of one class agree on one class", "statement": "When several threads register one class, under every schedule they obtain one class and none fails.", "quantifier": "every number of threads and interleavings", "why_tests_cant": "schedules cannot be enumerated", "anchors": ["src/metaclass.cpp:17-42"]}
{"id": "C38", "title": "Type names are extracted exactly", "statement": "The type name recorded for a type is exactly the text the compiler prints for the type between 'T = ' and the closing bracket.", "quantifier": "every type text, including ones containing brackets, spaces and '='", "why_tests_cant": "all strings", "anchors": ["include/rtti/typename.h:15-24"]}
{"id": "C39", "title": "Scope guards run exactly once on every exit path", "statement": "Guards created with FINALLY run exactly once, in reverse order of creation, on normal exit, on return and on exception, and not for guards not yet created.", "quantifier": "every nesting of guards and every exit point", "why_tests_cant": "all exit points", "anchors": ["include/rtti/finally.h:11-39"]}
{"id": "C40", "title": "meta_cast finds the sub-object and round-trips", "statement": "meta_cast to a base gives the same pointer as the C++ conversion; casting down through classInfo to the dynamic type and up again returns the original; casting to an unrelated registered type gives null; const is never dropped.", "quantifier": "every object layout and class graph", "why_tests_cant": "all layouts", "anchors": ["include/rtti/metaclass.h:69-172"]}
{"id": "C41", "title": "Default, copy and move constructors are registered under their signatures", "statement": "Registering a class registers default/copy/move constructors exactly for the operations the type supports, and each is retrievable under its fixed signature name; user-defined ones do not displace each other.", "quantifier": "every class trait combination and definition history", "why_tests_cant": "histories", "anchors": ["include/rtti/metadefine.h:1024-1049", "src/metaconstructor.cpp:10-28", "include/rtti/metacontainer.h:13-16"]}
{"id": "C42", "title": "Array contents are copied and compared element by element without touching dead storage", "statement": "Copying, moving, destroying and comparing an array held in a variant treats each element once, in order, and never assigns to or reads from storage without a live element.", "quantifier": "every element type and array length", "why_tests_cant": "all lengths and element types", "anchors": ["include/rtti/metatype.h:311-417 type_function_table_impl<T[N]>"]}
{"id": "C43", "title": "Traversals do not deadlock on their own locks", "statement": "A visitor passed to for_each_* or a deferred definition triggered from a traversal may use the registry (query and define) without the calling thread blocking on a lock it already holds.", "quantifier": "every visitor program and every container tree", "why_tests_cant": "depends on all call nestings", "anchors": ["src/private/metacontainer_p.h:36-45", "src/metacontainer.cpp:169-191", "src/metacontainer.cpp:262-349", "src/metaitem.cpp:126-137", "src/metaenum.cpp:60-70"]}
{"id": "C44", "title": "Definitions are never lost: the registry only grows", "statement": "Along any execution of definition programs, including ones that throw part-way, every item once reachable by container, category and index stays reachable there with the same name, owner, kind and identity.", "quantifier": "every definition program and every prefix of it", "why_tests_cant": "all programs and failure points", "anchors": ["src/metacontainer.cpp:21-44", "src/metacontainer.cpp:197-222", "include/rtti/metadefine.h:836-1053"]}
{"id": "C45", "title": "Types used first by several threads at once get one identifier each", "statement": "When any number of threads call metaTypeId for any types and look types up by name at the same time, all calls for one type return the same identifier, different types get different ones, the identifier leads to the type's own name and traits and on to its decayed type, the outcome is one that some sequential order of first uses gives, a name look-up after a call that returned finds its identifier, and no thread waits for ever.", "quantifier": "every number of threads, every program of each, every schedule", "why_tests_cant": "schedules cannot be enumerated; the initialisation of a type waits inside for that of its decayed type", "anchors": ["include/rtti/metatype.h:489-530", "src/metatype.cpp:65-103", "include/rtti/typename.h:36-41"]}
{"id": "C46", "title": "Converters registered by several threads: exactly one registration of a pair succeeds and its function is used", "statement": "When several threads register converters for one pair of types, and nobody unregisters it, exactly one registration returns true, all conversions that find a converter use one and the same, that converter was given by the registration that returned true, and no thread waits for ever. With unregistrations, registrations succeed at most once more than the pair was unregistered.", "quantifier": "every number of threads, every program of each, every schedule", "why_tests_cant": "schedules cannot be enumerated; the wrong function is used only if two threads interleave between a static's initialisation and the insertion", "anchors": ["include/rtti/metatype.h:778-802", "src/metatype.cpp:333-364", "src/metatype.cpp:415-455"]}
{"id": "C47", "title": "The library can be used from the first static constructor to the last static destructor", "statement": "Whatever order the static objects of the library and of the program are constructed in, no call made by a constructor, by main or by a destructor touches an object of the library that does not exist yet or any more: types become invalid once the registry is destroyed, conversions use an existing converter of that pair or fail, a registered converter stays in use while it, the table and the registry exist, classes and the global namespace are either found alive or not found; and all static objects are destroyed in the end.", "quantifier": "every program text (any calls in main and in the destructors of its static objects), hence every order of construction, every point of the exit", "why_tests_cant": "the order of static initialisation differs by translation unit, linker and first use; faults show only in some order and after main", "anchors": ["src/metatype.cpp:47-53", "src/metatype.cpp:95-103", "src/metatype.cpp:326-331", "src/metatype.cpp:386-393", "src/metanamespace.cpp:13-17", "src/variant.cpp:5", "include/rtti/metatype.h:652-655", "include/rtti/metatype.h:778-802", "src/metaclass.cpp:44-54"]}
{"id": "C48", "title": "Class hierarchies declared and searched by several threads", "statement": "While threads declare bases and others ask inheritedFrom, cast, baseClass and derivedClass: what is affirmed holds when the call returns, what is denied did not hold when it began, a cast that succeeds went along declared bases and took no base before which the hierarchy at its beginning offered another; each list only grows, without duplicates; no list changes while it is walked; no list is locked twice by a thread; nobody waits for ever; in the end bases and derived classes mirror exactly the declarations.", "quantifier": "every number of threads, every program of each, every schedule, locks that prefer writers or not; hierarchies without cycles for the last three", "why_tests_cant": "walks hold several shared locks while writers wait: deadlocks and missed bases depend on the schedule and on the kind of lock", "anchors": ["src/metaclass.cpp:69-90", "src/metaclass.cpp:92-121", "src/metaclass.cpp:123-179", "src/private/metaclass_p.h:12-106"]}
{"id": "C49", "title": "Threads using the library do not race on its memory", "statement": "Whatever public functions several threads call, on whatever items, no two of them access one place of the library's memory at the same time with one of them writing. Where that fails, it fails only for cached qualified names not asked for before, for deferred definitions, and for the values of attributes and enumerators read through references; and not even there if names are known before, nothing is pending, and values are only read or only looked at inside their enumeration.", "quantifier": "every number of threads, every client program of each (callbacks and lazy definitions included), every memory at the start, every schedule", "why_tests_cant": "a race needs two accesses at the same instant and often has no visible effect where it happens", "anchors": ["src/metacontainer.cpp:144-222", "src/metaitem.cpp:47-58", "src/metaitem.cpp:92-149", "src/private/metaitem_p.h:20-118", "src/private/metacontainer_p.h:15-70", "src/private/metaclass_p.h:12-106", "src/metatype.cpp:36-93", "src/metatype.cpp:320-456", "src/metaclass.cpp:17-48"]}
{"id": "C50", "title": "What threads are told is true when they are told and stays true", "statement": "Every positive answer (an item found or created, a member, a type, a count, a position, a base, a name, a reference to a value) is true of the tables when it is given and for ever after; every negative answer (null, out of range, no more than so many) was true of the tables at the moment of the call, in particular nothing answered to anyone before the call is denied; entries keep their place and contents; no key is there twice; two threads asking for one name get one item and one type; a reference to a value designates the entry of its name for ever.", "quantifier": "every number of threads, every client program of each, every schedule and every continuation of it", "why_tests_cant": "needs every interleaving of look-ups with registrations of every other thread", "anchors": ["src/metacontainer.cpp:21-86", "src/metatype.cpp:60-93", "src/private/metaitem_p.h:20-118", "src/private/metaclass_p.h:12-106", "src/metanamespace.cpp:25-38", "src/metaclass.cpp:17-42"]}
{"id": "C51", "title": "Running out of memory in a registration harms nothing else", "statement": "When an allocation fails in a registration (item, attribute, type, base, converter) std::bad_alloc reaches the caller and nothing is changed: everything listed stays where it is and alive, everything found stays found, other lists are untouched, nothing leaks, no name is listed twice, bases and derived classes mirror each other, a class listed is the class of its type; with memory again the same call succeeds and does what it would have done; functions that register nothing themselves do not end the program.", "quantifier": "every sequence of calls, every choice of the allocations that fail in each", "why_tests_cant": "needs a failure injected at every allocation of every sequence of registrations", "anchors": ["src/metacontainer.cpp:21-86", "src/private/metaitem_p.h:16-70", "src/metaitem.cpp:13-40", "src/metatype.cpp:77-93", "src/metatype.cpp:335-346", "src/metaclass.cpp:17-42", "src/metaclass.cpp:92-122", "src/private/metaclass_p.h:12-62", "include/rtti/metatype.h:770-774"]}
{"id": "C52", "title": "A definition may be spread over statements by keeping builders in variables", "statement": "A builder returned by global_define() or by any member function may be kept in a variable and used later: continuing each statement with the builder the one before returned defines exactly what one chain of the same calls defines; statements that close what they open on any builder, exceptions caught around them included, never go wrong; what a balanced statement returns stands where the variable stood; calls that open nothing leave the variable where it is and define there; two statements on one variable that each open and close a namespace define siblings; closing is possible exactly as often as something was opened; a kept builder stays usable as long as it is in scope.", "quantifier": "every program of statements over any number of variables, every chain of calls in each, every registry it starts from", "why_tests_cant": "the number of statements, of copies sharing one stack and of points where a definition throws is unbounded", "anchors": ["include/rtti/metadefine.h:836-1070", "src/metadefine.cpp:5-9", "src/metanamespace.cpp:25-38", "src/metaclass.cpp:17-42"]}
{"id": "C53", "title": "What a call through the library gives back", "statement": "MetaMethod::invoke and MetaConstructor::invoke return what the function returned: for void an empty variant; for a value a variant that holds it and gives it back as the declared type by is, to and ref; for a reference or a std::reference_wrapper a variant that refers to that very object, as const if the reference was; a returned variant itself and not a variant in a variant; a constructed object. returnTypeId names, up to const and references, the type of the variant. A returned reference to a parameter refers to the caller's own object and a returned reference into the object of a member function to the object the instance leads to, and both outlive the call. If the function throws the exception comes through; an instance of no class is the one case in which invoke returns and nothing was called.", "quantifier": "every function of at most ten parameters whatever it does and returns, all arguments and instances, every world of types, bases and converters", "why_tests_cant": "the combinations of result type, constness, parameter kind, way an argument is passed and conversions are unbounded, and whether a returned reference dangles does not show in what a test observes", "anchors": ["include/rtti/metadefine.h:104-596", "include/rtti/detail/metamethod_impl.h:6-16", "include/rtti/metaconstructor.h:19-25", "include/rtti/detail/variant_impl.h:434-451", "include/rtti/detail/argument_impl.h:13-100", "include/rtti/variant.h:673-707"]}
{"id": "C54", "title": "Methods and properties of the object in a variant are reached by name", "statement": "variant::invoke, set_property and get_property find the method or property that the class of the object in the variant, or for pointers of the object pointed to, offers under that name: its own first, then those of its bases depth first in order of declaration, with its dynamic class if classInfo tells it. They throw for exactly three reasons, each with its own message: what is held is neither an object of a class nor a pointer to one; its class is not registered; neither it nor any base has that name. Otherwise they call what was found on that very object, or its base of the class that registered it, with the given arguments, never a non-const member of something const; set_property stores into that object only and get_property reads it back, through any variant that leads to the object.", "quantifier": "every registered hierarchy of classes with any methods, overloads and properties, every variant, name and arguments", "why_tests_cant": "hierarchies, overload sets, signatures used as names, and combinations of constness, pointers, dynamic classes and conversions are unbounded", "anchors": ["include/rtti/detail/variant_impl.h:501-560", "src/variant.cpp:116-133", "include/rtti/variant.h:124-128", "src/metaclass.cpp:181-235", "src/metacontainer.cpp:315-358"]}
{"id": "C55", "title": "Conversions and comparisons manage their temporaries and answer as the converters say", "statement": "to<T>() returns the value or its base if is<T>(), otherwise what the registered converter makes of it; it throws bad_variant_convert if there is no converter or it gives up, runtime_error if T cannot be copied, and else only what a constructor or reporting converter threw. The object in its buffer is destroyed however it ends, so that exactly the returned object is left. eq compares contents of one type, else converts to the caller's type, else the caller's object back, else is false; neq is its negation; both free their memory and destroy their temporaries however they end. convert<T>() puts the converted value in place of the old one, which is destroyed once, or throws and leaves the variant as it was; tryConvert<T>() does the same and reports it. MetaType::destruct undoes MetaType::construct. In any program of such statements exactly the objects of the variants live, and none when they are cleared.", "quantifier": "every registry, content and type, every converter and every pattern of exceptions of constructors, converters and comparisons over time; every program on any number of variants", "why_tests_cant": "which call of user code throws, what converters answer and when, and the sequences of conversions are unbounded", "anchors": ["include/rtti/variant.h:116-121", "include/rtti/variant.h:250-274", "include/rtti/variant.h:308-324", "include/rtti/variant.h:508-600", "include/rtti/detail/variant_impl.h:451-498", "include/rtti/metatype.h:223-309", "include/rtti/metatype.h:619-703", "src/metatype.cpp:263-284", "src/metatype.cpp:398-437"]}
{"id": "C56", "title": "References into a variant stay valid, and tell contents apart", "statement": "A reference to the content of a variant (ref, cref, a pointer from value) reads and writes the content of that variant as long as the variant itself is not assigned to, moved from, swapped, cleared or destroyed, whatever is done to other variants, including copies of it. A reference to an object on the heap follows the object when variants are moved or swapped, and is left dangling exactly when no variant holds the object any more; a reference to a small object stays with the variant. Contents of two variants are never the same object, except for the object outside that std::ref names.", "quantifier": "every program over variants before and after taking the reference, every type of content, any failing copies", "why_tests_cant": "all interleavings of moves, swaps, copies and throwing copies between taking and using a reference", "anchors": ["include/rtti/variant.h:341-342", "include/rtti/detail/variant_impl.h:73-76", "include/rtti/detail/variant_impl.h:208-240", "src/variant.cpp:11-89"]}
{"id": "C57", "title": "Any function can be registered, reports its own type and is found by it", "statement": "Every function and member function of at most ten parameters can be registered as a method, and every pair of getter and setter as accessors of a property. A registered function reports whether it is static, its result type and its parameter types as declared. Functions that C++ lets share a name in one class are all listed, in order, and each is found by its name and its parameter types; nothing else is found by them. A member function of a derived class is listed whatever the bases list.", "quantifier": "every type of callable (free, static, member with every combination of const, volatile, &, &&, noexcept, functors, std::function, C variadics), every set of overloads in any order, every compiler's naming of types that is one-to-one", "why_tests_cant": "all combinations of qualifiers and all sets of overloads; the tests use a handful", "anchors": ["include/rtti/function_traits.h:13-174", "include/rtti/signature.h:53-76", "include/rtti/metadefine.h:70-504", "include/rtti/metadefine.h:776-832", "include/rtti/metacontainer.h:66-70", "src/metamethod.cpp:22-40"]}
{"id": "C58", "title": "What definition programs declare is what casts, look-ups and calls see", "statement": "After any definition programs, once no definition is waiting: the class graph that casts and variants use consists of registered classes and has no cycle, so casts and look-ups end; inheritedFrom answers exactly what bases were declared, and cast applies the functions registered with the bases on the way; variant::invoke, get_property and set_property run exactly the function or field registered with the item that getMethod or getProperty of the object's class gives. A method declared on a class is what a call with its signature runs on objects of the class. Later declarations change none of this: what a class answers with stays the same, and so does what look-ups return.", "quantifier": "every program of definitions (nested, deferred, ending in exceptions), every registry they lead to, every variant, name and arguments", "why_tests_cant": "the tests build one fixed registry; here all programs and all later programs are quantified over", "anchors": ["src/metaclass.cpp:44-48", "src/metaclass.cpp:92-145", "src/metaclass.cpp:181-235", "include/rtti/detail/variant_impl.h:501-560", "src/variant.cpp:116-133", "include/rtti/metadefine.h:899-975", "src/metamethod.cpp:22-40", "src/metaclass.cpp:147-174"]}
{"id": "C59", "title": "Threads do not block each other for ever", "statement": "Threads that use the registry at the same time never all wait for locks of each other: some thread can always go on, also where a waiting writer keeps readers out, and if every thread has its turn again and again all calls return. It holds if containers are nested properly, no class is among its own bases, and visitors and deferred definitions work only on what lies below the list they are called from; registrations into containers that exist already keep it so. Without deferred definitions no look-up dereferences a null pointer either.", "quantifier": "every number of threads, every client program with visitors and deferred definitions, every schedule, fair schedules for termination", "why_tests_cant": "a deadlock needs an interleaving that a test run hardly meets; no run shows that none exists", "anchors": ["src/metacontainer.cpp:20-85", "src/private/metacontainer_p.h:25-50", "src/private/metaitem_p.h:30-85", "src/private/metaclass_p.h:14-108", "src/metaitem.cpp:10-45", "src/metaclass.cpp:44-145", "src/metatype.cpp:40-95", "src/metatype.cpp:320-377"]}
{"id": "C60", "title": "Calls of several threads take effect one after another", "statement": "Registering, creating and asking in one table (types, converters, items of a container by name or position, counts, bases, derived classes, named values) behaves in every run of several threads as if each call took effect at one moment between its call and its answer: there is one order of all of them, together with the single rows that the other calls add, in which every answer given is the right one for the table as it is at that moment, and a call answered before another one was begun comes first. So a converter that was unregistered is not found by those who ask afterwards unless somebody registered one meanwhile, and one that was registered is the one used afterwards. Converters are asked for types that were there at the start. Calls that work on two tables or search the bases (addBaseClass, creation of a class, getMethod) are not of this kind.", "quantifier": "every number of threads, every client program with visitors and deferred definitions, every schedule, every state of the registry at the start, finished or not", "why_tests_cant": "that an order exists for every interleaving is a statement about all schedules; a run shows one, and a wrong answer needs a switch between two instructions", "anchors": ["src/metatype.cpp:40-95", "src/metatype.cpp:320-377", "src/metacontainer.cpp:20-85", "src/private/metacontainer_p.h:25-50", "src/private/metaitem_p.h:30-85", "src/private/metaclass_p.h:14-108", "src/metanamespace.cpp:25-38", "src/metaclass.cpp:17-110"]}
{"id": "C61", "title": "Objects made and ended through their type", "statement": "A client that makes objects with MetaType::construct (default, from a copy, by moving) and ends them with MetaType::destruct, deciding by the answers what to do next, and that copies only objects that have a value and ends objects as what they are, never meets undefined behaviour whichever constructors throw. Each pointer it holds is an object of its own with exactly the contents the calls gave it; a copy leaves the source as it is. Storage is allocated and freed once, each object is built and ended at most once and in storage that is there, all objects in storage are ended before it is freed, and if no call threw and all objects are ended nothing remains. How the type is qualified, and whether it is a reference, makes no difference. Arrays are copied only if their elements are trivially copyable; types are not over-aligned. construct gives what new T() gives, and a call that throws leaves nothing behind.", "quantifier": "every client program, every choice of types (classes with any traits, pointers, arrays of any length and depth, any qualification), every sequence of exceptions", "why_tests_cant": "all programs over all kinds of types with every pattern of exceptions; leaks, double ends and reads of indeterminate values do not show in results", "anchors": ["src/metatype.cpp:244-312", "include/rtti/metatype.h:223-417", "include/rtti/metatype.h:493-530"]}
{"id": "C62", "title": "Where the contents of variants lie", "statement": "Whatever a client makes, copies, moves, assigns, swaps, clears and ends: contents of a variant lie, from when they are made until they are destroyed, in live storage of their own, large enough for their type and at an address its alignment allows. Contents of different variants never overlap. Contents too large for the variant are in exactly one block of the heap, which is freed once, and no block is left when all variants have ended; moving from and swapping leave such contents where they are, so references to them stay valid, and contents do not move while only other variants change. Nothing is read from storage that nothing was written to.", "quantifier": "every sequence of operations on variants at any addresses, every choice of types (size, alignment, reference_wrapper, array), every choice of addresses by the heap and the stack", "why_tests_cant": "misaligned and indeterminate accesses mostly do not show on the machine the tests run on; whether they occur depends on the addresses that the allocator and the stack happen to give", "anchors": ["include/rtti/variant.h:19-26", "include/rtti/detail/variant_impl.h:45-336", "src/variant.cpp:7-92", "include/rtti/metatype.h:226-235"]}
{"id": "C63", "title": "Types are told apart at run time", "statement": "A variant, a MetaType or an identifier never takes one C++ type for another: the identifier of a type leads to that type's size, flags and functions whichever types were used before and in which order, and a variant answers is<T>(), gives access as T and copies out a T exactly as if the C++ types themselves were compared. Two types have one identifier exactly if the compiler prints the same text for them.", "quantifier": "every way a compiler prints types, every sequence of uses of types and of accesses to variants, every content and every type asked for", "why_tests_cant": "the text printed depends on the compiler and on which types a whole program happens to use (lambdas of one function, types in unnamed namespaces of different files), and on which of them is used first", "anchors": ["include/rtti/typename.h:10-42", "include/rtti/metatype.h:489-543", "src/metatype.cpp:55-135", "include/rtti/variant.h:354-600"]}
{"id": "C64", "title": "Registered converters are what their functions say", "statement": "registerConverter accepts a function object exactly if it can be called with the unmodifiable content and its result gives the target type; one written with bool& as second parameter becomes a converter whose success is what it reports, any other becomes one that succeeds unless it throws. No accepted converter can change the content it converts, and it is given no content its parameter may not be initialised with. Defining a non-explicit constructor from another type registers a converter from that type.", "quantifier": "every set of classes and conversions, every function object with one call operator, every source and target type, every behaviour of the function, every class and argument of a constructor", "why_tests_cant": "whether a registration compiles and which kind is chosen is decided by overload resolution for each combination of parameter types, qualifiers, defaults and conversions; a test contains only combinations that compile", "anchors": ["include/rtti/metatype.h:608-708", "include/rtti/metatype.h:783-821", "include/rtti/metadefine.h:934-942", "include/rtti/metadefine.h:1042-1049", "include/rtti/misc_traits.h:218-230"]}
{"id": "C65", "title": "Const objects stay as they are in programs that use the library", "statement": "An object declared const keeps its value and a const variant keeps its content, whatever a program that itself obeys the rules of C++ does with references, pointers, wrappers and variants of it: through accessors, conversions, arguments of registered functions, instances of member functions and properties, in any order, passing on whatever it gets. Every pointer that can be read anywhere points to an object that its type may refer to.", "quantifier": "every layout of memory, class hierarchy and set of declared types, every program (any number of registered functions doing any well-typed reads and writes, variants, wrappers and pointers to any depth), every length of execution", "why_tests_cant": "a leak of mutable access shows only when the particular chain of wrapping, conversion, binding and write is run; the rule for adding const below the top of a pointer is needed only because of stores made later through another reference", "anchors": ["README.md:13", "include/rtti/variant.h:144-274", "include/rtti/variant.h:418-600", "include/rtti/detail/argument_impl.h:6-115", "include/rtti/metadefine.h:222-436", "include/rtti/metadefine.h:634-737", "src/metatype.cpp:230-320"]}
{"id": "C66", "title": "A process made of several modules behaves as one program", "statement": "An executable, its libraries and plug-ins that are compiled against the shared library get the same identifiers for the same types, understand each other's variants, and find each other's classes, methods and converters, whichever copies of the templates' statics the dynamic linker uses and whichever module used a type first; loading and unloading plug-ins does not change what the others get, and no code or data of an unloaded plug-in is used.", "quantifier": "every number of modules, every assignment of the duplicated statics to modules, every type printing and hash function, every interleaving of uses, loads and unloads of any length", "why_tests_cant": "the outcome depends on symbol visibility, load order, hash collisions and on which module happens to come first; a test is one executable with one linkage", "anchors": ["CMakeLists.txt:38", "src/CMakeLists.txt:29-41", "include/rtti/metatype.h:436-450", "include/rtti/metatype.h:489-530", "include/rtti/metatype.h:641-703", "include/rtti/metatype.h:778-802", "include/rtti/typename.h:38-42", "include/rtti/detail/variant_impl.h:383-432", "src/metatype.cpp:55-93", "src/metatype.cpp:316-455", "src/variant.cpp:7-89"]}
{"id": "C67", "title": "The order of registrations does not matter", "statement": "Programs register classes from initialisers of many translation units, whose order is not defined. If the chains of definitions (namespaces, classes, enums and their elements, constructors, methods, properties, attributes, base classes) do not contradict one another and no class gets a member from two classes, every order of them in which classes come before those derived from them, and running some of them more than once, completes without an exception, and the registries cannot be told apart: the same items are found by name, signature and type, with the same types, invokers, attributes, elements, base classes, own and inherited members and numbers of members. What is found is exactly what the chains state.", "quantifier": "every set of chains of any length and nesting, every order and repetition, every name, signature, type and value", "why_tests_cant": "a build has one order of initialisers; another linker, compiler or set of files gives another one, and there are factorially many", "anchors": ["include/rtti/metadefine.h:841-988", "src/metacontainer.cpp:21-71", "src/metacontainer.cpp:156-182", "src/metanamespace.cpp:25-38", "src/metaclass.cpp:17-42", "src/metaenum.cpp:10-29", "src/metamethod.cpp:22-40", "src/metaproperty.cpp:15-32", "src/metaconstructor.cpp:10-28", "src/metaitem.cpp:137-149", "src/metaclass.cpp:44-196"]}
{"id": "C68", "title": "Whether definitions are deferred is not noticed", "statement": "A chain of definitions may defer what it states of a container until somebody first looks into that container. Programs that mix chains, deferred definitions nested in any way and questions (is there an item at this place and with which type and invoker, which overload has this signature, how many members of a kind, which attribute and element values) get from each question exactly the answer that is true of all statements made before it, whether the definitions that state it had run by then or not, provided the statements do not contradict one another and no container is given two deferred definitions. None of the calls throws. Hence two programs that state the same, one deferring and the other not, or deferring other parts, get the same answers to all questions.", "quantifier": "every program of chains, deferred definitions and questions of any length, nesting and order; every name, signature, type and value", "why_tests_cant": "a deferred definition runs inside whichever look-up comes first, possibly from within another deferred definition; the ways to nest definitions and to interleave them with look-ups are unbounded", "anchors": ["src/metacontainer.cpp:144-167", "src/metacontainer.cpp:197-222", "src/metacontainer.cpp:315-326", "include/rtti/metadefine.h:888-897", "include/rtti/metadefine.h:45-49", "src/metaitem.cpp:98-124", "src/metaenum.cpp:36-58"]}
{"id": "C69", "title": "A chain of definitions that fails leaves what it stated before, and can be run again", "statement": "A chain that names a base class which is not registered yet, or registers a class for a type that already has one elsewhere, ends with an exception. What the chain stated before that point stays registered, the rest does not appear, and nothing else changes: chains that run afterwards complete or fail as if the failed chain had consisted of its first part only, and look-ups by name, signature and type, base classes, derived classes and inherited members show exactly the statements kept. A failed chain can be run again: once each chain has completed, the registry cannot be told apart from that of a program in which base classes came first and nothing failed. Running all chains as often as there are chains, in any order, is always enough, and twice is enough if each chain registers its classes before it names base classes.", "quantifier": "every set of chains of any length and nesting, every order, number of failures and repetitions, every class hierarchy", "why_tests_cant": "which chains fail and where depends on the order of initialisers; what is left of each failure combines with all the others, in unboundedly many histories", "anchors": ["include/rtti/metadefine.h:841-988", "include/rtti/metadefine.h:1003-1035", "src/metaclass.cpp:17-42", "src/metaclass.cpp:92-122", "src/metacontainer.cpp:21-71", "src/metanamespace.cpp:25-38"]}
{"id": "C70", "title": "Deferred definitions that name base classes or fail run once, at the first look, with what is registered by then", "statement": "A deferred definition of a class or namespace runs when a look-up first looks into that container, on the way to something inside it or to ask for its members, methods or attributes, and sees the classes registered by then, not those registered when it was installed. If it names a base class that is not registered or a type that already has a class, that look-up ends with the exception; what the definition stated before stays, the rest never appears, it is not run again, and later look-ups are answered by what was kept. A container that waits for its definition refuses a second one with Redefinition and keeps the first; after it has been looked into, with or without failure, it accepts another one, which can complete it. When nothing waits any more, the registry cannot be told apart from that of a program without deferred definitions that keeps the same statements. In particular, chains that defer all they say about base classes can run in any order: if the containers are looked into once all classes are there, in whatever order, nothing fails and the result is that of the order in which base classes come first. This holds for chains and look-ups that do not themselves define members of a container that still waits, or define or search properties or methods of a class derived from one.", "quantifier": "every history of chains, deferred definitions, failed and repeated ones, and look-ups by name, of inherited methods, of counts, attributes and enum elements, of any length and nesting of containers; every class hierarchy", "why_tests_cant": "whether a deferred definition finds its bases depends on who looks first in a whole program; the histories and the points at which they fail are unbounded", "anchors": ["include/rtti/metadefine.h:888-909", "src/metacontainer.cpp:144-168", "src/metacontainer.cpp:203-222", "src/metaclass.cpp:17-42", "src/metaclass.cpp:92-122", "src/metacontainer.cpp:21-71"]}
