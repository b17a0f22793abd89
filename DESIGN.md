# Design of the formal model of elohim-meth/rtti

The C++ sources under /repo are modelled by hand as Gallina functions (Coq 8.16.1,
standard library only). Every definition cites the file and lines it models.
Undefined behaviour, exceptions, `std::terminate` and running out of fuel are distinct
outcomes, never defaults.

Layout of `rocq/theories`: for a topic `X`, `XModel.v` holds the executable model,
`XSpec.v` (or a section at the top of `XProofs.v`) the independent specification,
`XProofs.v` the lemmas, and `XProps.v` only the property theorems (closed by `exact`),
each followed by `Print Assumptions` and an `Example` that meets its hypotheses.

## Plan per property

| id | model | specification and proof method |
|----|-------|--------------------------------|
| C01 | Type grammar (cv at every level, pointers, arrays, references), the traits computing flags/arity/const mask (with the 16-bit truncation), `compatible` line by line | C++ [conv.qual] and reference-binding rule stated on the grammar; equivalence by induction on the type and bit lemmas |
| C02 | same | chains by induction over the list of steps; reflexivity |
| C03 | same | memory-safety and const-safety of an array view; the parts that fail (arrays of pointers) as `_refuted` |
| C04 | Type registry as a state machine | invariant over all histories |
| C05 | Registration order of decayed types in `metaTypeId` | invariant + idempotence of `full_decay` by induction on types |
| C06 | Converter table + the function-local static of `registerConverter` | refinement to a finite map; `_refuted` for re-registration |
| C07 | MetaItemList | invariant / refinement to an ordered list over all histories |
| C08 | findMethod on strings | first match in list; `_refuted` for names containing '(' |
| C09 | NamedVariantList | refinement to an insertion-ordered map |
| C10 | qualifiedName with its cache | path join; injectivity by induction |
| C11 | for_each with a stateful visitor | shortest refused prefix |
| C12, C13, C16, C18, C19, C31, C44, C41 | Whole registry ("world") with containers, lazy definitions, builder commands, exceptions and null dereference as outcomes | invariant over every execution of every definition program |
| C14, C15, C17 | class graph with ordered bases and pointer adjusters; fuelled depth-first search | reachability relation; fuel shown sufficient from acyclicity |
| C45, C46 | small-step interleaving of `metaTypeId` with its waiting statics, of the registry and of the converter table, any number of threads | refinement to the sequential registry of C04/C05; measure for progress; `_refuted` witness for the converter's static |
| C47 | static objects with order of construction, the Destroyed flags, the calls programs make in main and in destructors | invariant over histories (registry below table below converters in the order of construction); `_refuted` witnesses for namespace, classes, kept handles |
| C48 | small-step interleaving of the two lists of every class with shared and exclusive locks and the recursive walks | invariant over the stack of a walk with ghost snapshots; descent on ranks against deadlock; measure for progress; `_refuted` for atomic casts and the window between the two lists |
| C49, C50 | every access to shared memory of every public function as one step, arbitrary client programs with callbacks and lazy definitions | a lock discipline on remaining programs, preserved by every step; facts learnt under a lock fade to lower bounds when it is released, memories of the moment of the call bound what may be denied; `_refuted` schedules for the places without lock |
| C51 | every allocation of every registration may fail; calls one after the other, bad_alloc caught by the client; objects allocated and not freed | invariant over runs; counting of entries and of live objects against the calls that failed; `_refuted` runs for duplicates, leaks, orphaned classes, half-added bases, std::terminate |
| C52 | builders as objects: copies, variables, the shared stack of containers, its lifetime, static types, exceptions caught between statements | simulation of a relay by one chain; levels of stack and static type kept in step by balanced statements; `_refuted` programs for siblings, closing twice, dead stacks, exceptions |
| C53 | results of calls: void, values, references, wrappers, variants; where the returned object is and whether it outlives the call's arguments and instance variant; what compiles | case analysis over result types on top of C27-C29 and C23; `_refuted` for converted parameters, copied instances, empty results, announced types |
| C54 | variant::invoke, set_property, get_property from the name to the call or access: class of the object, look-up in the hierarchy, instance, arguments | composition of C02/C11/C16 (look-up), C23 (class of a variant), C28-C30 and C53 (calls); `_refuted` for inherited members of unregistered bases, overloads, arrays, static methods, null pointers, repeated bases |
| C55 | to, convert, tryConvert, eq, neq, MetaType::construct/destruct with every constructor, converter and comparison a call that may throw at any moment, every object and block accounted for | accounting invariant per function, composed over monadic binds and guards; refinement of AccModel's to; invariant over programs; `_refuted` for refused conversions, construct's memory, symmetry, arrays |
| C56 | references into variants as addresses (storage of a variant, block, object outside) over the programs of C21 | which variant holds an object is tracked by a small specification (`follow`); simulation over programs; freed blocks stay freed |
| C57 | types of callables, the specialisations of function_traits, which invokers compile, listing and look-up by types | case analysis against what C++ says of functions and overloads; induction over registrations; `_refuted` |
| C58 | the class graph, the environment of variants and the members of classes read off the registry | refinement: the search of the registry and that of the graph agree step for step; composition with C14, C17, C54; monotonicity of programs; `_refuted` |
| C59 | RaceModel as it is (every lock and every access a step); BlockSpec says who waits and what lies below what | locks get heights, held locks are above the one wanted: the holder of the lowest can go on; orderly clients keep the heights (invariant); termination by well-founded descent of the remaining programs under fair schedules; known-to-be-registered types for the absence of crashes; `_refuted` schedules |
| C60 | RaceModel as it is; AtomicSpec says what a call does to its table all at once and what an order of the calls of a run is (linearizability) | a predicate on what is left of each thread's program says where each open call takes effect (chosen after the value read is known: the first look of a create function, the second, or the write); ghost book of events and open calls (invariant); consequences for converters drawn from the order alone; `_refuted` runs for the calls that work on two tables or search the bases |
| C61 | construct, destruct and the functions of a type they call over a heap of cells (no object, indeterminate, value, moved from), clients as trees of calls, constructors that throw as a sequence of coins; MakeSpec: a world of handles with contents, without storage | each function by what it does to storage and log; an invariant between world, held pointers, heap and log, by induction over the client; `_refuted` for what construct leaves behind when it throws, indeterminate values, alignment, arrays of classes |
| C62 | the storage of variants as ranges of addresses: variants and the `temporary` of swap at any addresses aligned to 8, blocks aligned to 16, all chosen by the environment; the pointer in each storage, indeterminate until written | invariant over all programs: live ranges are apart, contents held on the heap and blocks are in bijection; `_refuted` for alignment (in place, heap, swap, assignment) and for indeterminate pointers (every move of contents on the heap) |
| C63 | metaTypeId<T>() over the text `nm T` the compiler prints, an arbitrary function; entries remember the type they were made for; is, the accessors and to on variants compare identifiers and read descriptions through the registry | invariant: names of entries are distinct, an identifier leads to the entry of its type's name, decays to the entry of its decayed type's name; if the types at hand print like no other type of the program the answers are those of AccModel.v (refinement), and the identifiers those of RegistryModel.v (simulation) |
| C64 | registerConverter for function objects with one call operator over the type grammar, with what converts, copies and moves given by an arbitrary environment; default_convert and the converters of converting constructors; what convert answers | the compiler's rules as functions, proved equal to the relations of TypesSpec (`binds`, `qual_ok`); case analysis; `_refuted` for explicit results, default arguments, pointers to const, move-only arguments |
| C65 | typed memory (every place declared with a type, values that are numbers or pointers), programs as any sequence of steps C++ allows (assignments, initialisations, dereferences, reference bindings, conversions to bases, members, elements) mixed with uses of the library whose answers are those of AccModel and CallModel | type soundness: what a reference or pointer leads to may be seen as its type ([conv.qual]); invariant over all executions from the empty memory; refutations for arrays of pointers, pointer converters, `Derived*` as `Base*&` and sixteen levels |
| C66 | modules with their own copies of the templates' statics (or not, as any linkage says), the registries of the library's images, variants with the module of their table, static converter objects and their destructors, loading and unloading; use of anything in an unloaded module is an error | simulation with the same program linked into one module, by an invariant over all histories; a second invariant for converters under arbitrary unloading, and a refinement of the registry of converters to a table keyed by types (`C66_converter_table`); refutations for the static library and for unloading |
| C67 | chains of definitions over the registry model of C12 (ReflModel.v), run one after the other; beside it a reading of a chain as a list of statements, without registry | invariant: the registry is exactly what was stated so far, by induction over chains and histories; class hierarchies by rank (depth below the roots), with `inherits` shown to be the ancestor relation of the statements; then equality of what look-ups answer; refutations for positions, bare names of overloads, contradicting chains, bases that come late and members got from two classes |
| C68 | the same model with KLazy; programs of chains and questions (DelaySpec.v); statements of deferred definitions are read off statically, wherever they nest | invariant: statements made = items in the registry + what the pending definitions state, each pending definition speaks only of its own container and below; a look-up runs the pending ones on its way, so nothing pending speaks of the place reached; measure for nested triggers; refutations for second deferred definitions, look-up by type and contradicting definitions |
| C69 | the chains of C67, now also ones that throw (FailSpec.v): the statements of a chain up to the first that cannot be made, read off without registry | invariant of C67 for the kept statements; a chain is run up to the statement that fails, then the failing step leaves the registry as it is; rounds of retries by induction over an order in which bases come first |
| C70 | histories of chains, deferring chains and the look-ups of C68, which run the definitions of the containers on the way one after another (LateSpec.v): what is stated by now and what waits for whom, with `cut` of C69 for definitions that fail | invariant: items = statements made, and the pending definitions of the registry are those that wait; chains that stay away from what waits run as in C67 and C69 (`exec_away`, `cut_away`); look-ups by induction on the way (`seek_late`), methods searched in base classes none of which waits (`method_find`); the first look runs the definition at its own container between begin and end marks. Not covered: look-ups that reach a waiting container through a base class, which hold the lock of the derived class meanwhile (C43) |
| C20 | small-step interleaving of `checkDeferredDefine`, any number of threads | invariants over all schedules; `_refuted` witnesses for partial observation and crash |
| C21, C22 | object store with lifetimes, variant storage kinds and the swap/copy/move table functions | refinement to a plain map of values; counting invariants; `_refuted` for in-place moves |
| C23, C24 | accessors of variant over the type grammar, class graph and converters | case analysis plus C01; `_refuted` cases |
| C25, C26 | equality and hash decision | guarded equivalence; `_refuted` for arrays, pointers, hash |
| C27 | argument binding | relation "may bind"; uses C23 |
| C28 | pack_arguments with `size_t` arithmetic | closed form for all lists |
| C29, C30 | member invokers and property invokers | case analysis over every instance form |
| C32 | flag printing | `_refuted` (array indexed by bit value) and what does hold |
| C33 | type lists | equality with list functions, by induction |
| C34 | signature text | injectivity under the stated guard; `_refuted` without |
| C35 | type predicates and flags | equivalence with traits on the grammar; flag by flag in FlagsProps.v |
| C36, C37 | interleaving of create protocols | invariants over all schedules; `_refuted` for classes |
| C38 | type name extraction | string lemma |
| C39 | guards | small exit-path semantics |
| C40 | meta_cast on object layouts; its overloads and which of them a call chooses | uses C15; case analysis of the choice |
| C42 | array element functions over an object store | `_refuted` for non-trivial elements, positive for trivial |
| C43 | lock discipline of traversals on one thread | `_refuted` for defining in the traversed container; positive for others |

## Trusted base

* The Coq 8.16.1 kernel (`coqchk` agrees with it on every file).
* What `Print Assumptions` lists for each theorem: "Closed under the global context" for every theorem
  of the manifest; no axiom is used, neither of the library nor of our own.
* The reading of /repo: the theorems are about the model, and each definition says which lines it models
  and what it leaves out.
  As a check of that reading, `ReplayTests.v` carries out the repository's own tests (tests/test_variant.cpp,
  test_single_inheritance.cpp, test_multiple_inheritance.cpp, test_virtual_inheritance.cpp, test_global_ns.cpp,
  test_std_ns.cpp, test_meta_type.cpp) on the model: every requirement about accessors,
  conversions, calls, properties, casts, comparisons and constructor counts holds of the model as it stands.
  `ReplayRegistration.v` does the same for what they register and look up (namespaces, classes, methods,
  attributes, constructors, names of types). Not replayed: test_type_name.cpp, which is commented out.
* For code that depends on the compiler: the text gcc prints for a type (C38), the C++ rules written down
  as specifications (`TypesSpec.v`: qualification conversion and reference binding), and the table of what
  compiles where a call is refused at compile time (`Rejected`, `None`).

## What is modelled

| files of /repo | modelled in | how |
|---|---|---|
| include/rtti/misc_traits.h, include/rtti/metatype.h (traits, `compatible`), src/metatype.cpp (flags, predicates) | TypesModel | types as a grammar (cv at each level, pointers, arrays, references); masks with their 16 bits |
| src/metatype.cpp, src/private/metatype_p.h, include/rtti/metatype.h (`metaTypeId`, converters) | RegistryModel | state machine; function-local statics explicit |
| src/metacontainer.cpp (MetaItemList), src/metaitem.cpp (NamedVariantList, qualifiedName) | ListsModel | the two parallel members (vector and map), the cache of the qualified name |
| src/metacontainer.cpp (`findMethod`), include/rtti/signature.h, include/rtti/typename.h, printing of flags | StringsModel | texts as lists of characters |
| include/rtti/typelist.h | TypeListModel | the recursive templates as functions on lists, parametrised by type equality |
| include/rtti/finally.h | FinallyModel | bodies with nested blocks, return, throw, try, guards, dismiss |
| src/metaclass.cpp (`inheritedFrom`, `cast`, look-up in bases), include/rtti/metaclass.h (`meta_cast`) | InheritModel | fuelled search; fuel shown sufficient exactly for acyclic graphs |
| the overloads of `meta_cast`, include/rtti/metaclass.h:91-172 | CastModel | the rules of C++ for choosing among these templates are part of the model (deduction, ranking of conversions, more specialised templates); no volatile, From is deduced |
| src/metacontainer.cpp, src/metaclass.cpp, src/metanamespace.cpp, src/metaenum.cpp, src/metamethod.cpp, src/metaproperty.cpp, src/metaconstructor.cpp, src/metaitem.cpp:77-137, include/rtti/metadefine.h (builder) | ReflModel | the whole registry on one thread: programs of builder calls, queries (members, bases, derived classes, casts, attributes, elements), visitors, lazy definitions, exceptions, locks of member lists, bases, attributes and elements |
| src/metacontainer.cpp:144-222 | DeferModel | one container, any number of threads, one step per access to shared memory |
| the create functions | CreateModel | any number of threads, one step per access |
| src/variant.cpp, include/rtti/detail/variant_impl.h (tables) | VarModel | heap, resources, failures of copies; programs over variants |
| references into variants: include/rtti/variant.h:341-342, `access` in include/rtti/detail/variant_impl.h | RefsModel | over VarModel; an object constructed in the place of one of the same type is reached by references to that one |
| include/rtti/function_traits.h, f_signature, method_invoker and PropertyInvokerEx as far as compilation goes, MetaMethod::create | FnModel | types of callables; `base_signature` left out; what parameter and result types must allow for a call to compile is left to CallModel and ReturnModel; operator() inherited by a functor or static is not modelled |
| the link from registries to casts and calls | LinkSpec | no further code: the class graph, environment and member tables of InheritModel, AccModel and DispatchModel are read off a registry of ReflModel; invokers are numbers there, functions here; metacast_to_base is one function for each pair of types |
| include/rtti/metatype.h:311-417 | ArrayModel | storage of elements, constructed or not |
| src/metatype.cpp:244-312, include/rtti/metatype.h:223-417 | MakeModel | storage as cells, one per object that is not an array; members of classes are not followed; an assignment to trivially copyable elements makes the object; addresses are not used again; the traits are whatever the compiler says |
| include/rtti/variant.h (accessors, `is`, `to`, `canConvert`), src/variant.cpp (`==`), hash | AccModel | contents over the type grammar and the class graph |
| include/rtti/detail/argument_impl.h, include/rtti/detail/metamethod_impl.h, invokers in include/rtti/metadefine.h | CallModel | arguments, `pack_arguments` with its `size_t`, members, properties |
| include/rtti/metatype.h:489-530, 778-802, src/metatype.cpp (registry, table) | ThreadModel | any number of threads, waiting function-local statics, one step per access |
| the static objects: src/metatype.cpp:47-103, 326-393, src/metanamespace.cpp:13-17, src/variant.cpp:5, include/rtti/metatype.h:640-860 | ExitModel | construction on first use, destruction in reverse order, calls in destructors |
| the hierarchy under several threads: src/metaclass.cpp:69-179, src/private/metaclass_p.h:12-106 | HierModel | walks step by step with the locks they hold; without lazy definitions and the exceptions for unregistered classes |
| every plain access to shared memory: src/metacontainer.cpp, src/metaitem.cpp, src/metatype.cpp, src/metaclass.cpp, src/metaenum.cpp, the create functions, the private lists | RaceModel | programs of single accesses, locks and atomics; names as numbers; without exceptions in the middle and without the user's objects |
| registrations when memory runs out: src/metacontainer.cpp:21-65, src/private/metaitem_p.h:52-70, src/metatype.cpp:77-93, 335-346, src/metaclass.cpp:17-42, 92-122, the create functions | OomModel | all lists of a category in one list; the allocations in the constructor of an item as one; without lazy definitions, one thread |
| builders as C++ objects: include/rtti/metadefine.h:836-1070 | KeepModel | statements over variables; names as numbers, no empty names; without lazy definitions and base classes that are not registered |
| results of calls: include/rtti/metadefine.h:104-596, include/rtti/detail/metamethod_impl.h, include/rtti/metaconstructor.h:19-25, lifetimes of arguments include/rtti/variant.h:673-707 | ReturnModel | functions as what they hand back, with the place of what they refer to; making the variant of an instance is taken not to throw; variants returned are not followed |
| calling by name: include/rtti/detail/variant_impl.h:501-560, src/variant.cpp:116-133, include/rtti/variant.h:124-128 | DispatchModel | look-up of InheritModel and StringsModel, calls of ReturnModel, properties of CallModel; lazy definitions have run; one thread |
| temporaries: include/rtti/variant.h:116-121, 250-274, 308-324, 508-600, include/rtti/detail/variant_impl.h:451-498, include/rtti/metatype.h:223-309, 619-703, src/metatype.cpp:292-312, 398-437 | TempModel | decisions of AccModel; calls of user code numbered in time, each may throw; destructors and swaps do not; memory does not run out; how variants keep objects is in VarModel |
| where contents of variants lie: include/rtti/variant.h:19-26, include/rtti/detail/variant_impl.h:8-336, 436-456, src/variant.cpp:7-89, include/rtti/metatype.h:226-235, 317-326 | LayoutModel | addresses as numbers, 64-bit sizes; not what the contents are, no exceptions |
| types told apart by their names: include/rtti/typename.h:10-42, include/rtti/metatype.h:489-543, src/metatype.cpp:17-135, include/rtti/variant.h:130-274, 354-600 | NameModel | classes and converters are looked up as in AccModel |
| choice of converters: include/rtti/metatype.h:608-708, 783-821, include/rtti/metadefine.h:934-942, 1042-1049, include/rtti/misc_traits.h:218-230 | SelectModel | one call operator that is no template; references to base classes count as conversions |
| const objects in whole programs: include/rtti/variant.h:144-600, include/rtti/detail/argument_impl.h, include/rtti/metadefine.h:222-436, 634-737 as used by a program | ConstModel | the program follows C++ without casts, places are never given back, members have places of their own; accessor functions of properties are member calls |
| several modules in a process: CMakeLists.txt:38, src/CMakeLists.txt:29-41, include/rtti/metatype.h:436-450, 489-530, 641-703, 778-802, include/rtti/typename.h:38-42, include/rtti/detail/variant_impl.h:383-432, src/metatype.cpp:55-163, 316-455, src/variant.cpp:7-89, src/metaclass.cpp:17-55, src/metamethod.cpp:22-40 | ModuleModel | one thread; a flat namespace of classes and methods; converters are function objects of the two kinds of metatype.h:778-793; metaTypeId runs wholly in one module |

## Not modelled

* Compilation itself: templates are modelled by the values they compute, or by a refusal.
* Failure of the memory allocator outside of OomModel (C51); exceptions from locks.
* Weak memory orderings: DeferModel and CreateModel are sequentially consistent. The code's data race on
  `m_deferredDefine` is shown as such (C20_no_race_refuted); after a race nothing is promised.
* Linking itself: ModuleModel takes the module whose copy of a static is used as given; that vtables and RTTI of the library's own classes agree between modules is taken for granted.
* Asserts: taken as compiled out (NDEBUG), so that what they guard against is visible as a bad outcome.
* `volatile` beyond its being ignored by the code (C01_volatile_refuted, C23_volatile_refuted).

## Findings

What the proofs show to be false of the code as it stands. Each is a theorem `..._refuted` with a concrete
witness; the positive theorems beside it say how much of the claim does hold.

Types
* C01: `volatile` is ignored; at 17 pointers the 16-bit mask loses a const, and a query can end the process.
* C02: compatibility is not transitive (values are).
* C03: arrays of pointers lose const (`int const*[3]&` for `int*(&)[3]`), and are not compatible with their own decayed type.
* C04: types that print alike share one description; a made-up identifier reads outside the registry.
* C05: `void const` decays to a type without identifier.
* C06: unregister a converter and register another function of the same C++ type: the old one is used (function-local static).
* C32: the flag printer indexes a table by the flag's value: out of bounds for every flag from Array on, e.g. for `int`.
* C33: `foldr` compiles only for result types that name themselves.
* C35: an array of classes "is a class", a pointer to one "is a pointer to class", `void**` "is a void pointer".
* C38: clang's text, with the marker before the type, can be cut wrongly.

Registry
* C07, C12, C31, C36: the empty name can be registered, but not found; the second definition gives null, and the next call dereferences it.
* C08: `operator()` cannot be found by its name. C10: names with colons collide. C34: parameter texts with a bare comma collide.
* C13: another type under a taken name is not reported; the following definitions land in the other class.
* C14: nothing refuses cyclic bases, and then the search does not end.
* C18: with the base declared first, a derived definition of the same name is dropped.
* C31: an attribute after a property, method or constructor goes to the container.
* C52: the first call of a statement moves the variable itself: `g._namespace("A")._end(); g._namespace("B")._end();` puts B inside of A.
  A builder can be closed twice, or kept from `global_define()._namespace("A")` after its stack is gone; both compile and are undefined. After `_end()`
  a variable typed as a class stands in a namespace, and `_base` casts that. A caught `duplicate_metaclass` leaves an entry on the stack, so the next
  `_end()` stays in the container it should leave.
* C40: `meta_cast<T const>` gives null even for a T if T has no class info (`C40_const_target_refuted`); a base occurring twice is cast to the wrong sub-object; a class that inherits its class info cannot be cast to itself.
* C41: a user constructor called `d_constructor` is taken for the default one and displaces it.
* C43: visitors, forced definitions and searches that define into the list being walked block for ever; shared locks are taken twice (`C43_visitor_queries_refuted`, `C43_search_queries_refuted`). The same with visitors of for_each_attribute and for_each_element that set an attribute or element of the same item, also through a lazy definition (`C43_attribute_visitor_refuted`, `C43_element_visitor_refuted`, `C43_attribute_definition_refuted`).
* C15: while definitions are waiting, a cast may give null though the base is declared when it returns (`C15_waiting_can_miss`); what it applies is always one declared way (`C15_cast_follows_declarations`).

Threads
* C20: two threads querying a lazily defined container can crash or see half of the definition; setters race; a failed definition is dropped.
* C37: registering a class from two threads can fail for one, or give one type two classes; the class is visible before its type is linked.
* C46: of two threads registering converters of one C++ type, the one told it succeeded may see the other's function used.
* C48: `addBaseClass` fills the two lists one after the other, so a class may have a base that does not list it yet
  (`C48_mirror_refuted`). A cast running while bases are declared may take a chain that was the first one at no
  moment (`C48_cast_atomic_refuted`).
* C49: the cached qualified name is written without lock or atomic: two threads asking for the name of one item race, or of two
  items with a common owner, and even the messages of exceptions ask for it. `m_deferredDefine` is read and written without lock. References to attribute and
  enumerator values are read after the lock is released, while `set` overwrites the value.

End of the program
* C47: `MetaNamespace::global()` has no flag like the registries: after its destruction it is handed out; a class is found deleted if the registry was older. A kept `MetaType` dangles. A refused converter unregisters the one in use when it is destroyed. `empty_variant` may be used before its initialisation in a static build.

Out of memory
* C51: `MetaItemList::add` and `NamedVariantList::set` append before they insert the name. If that insertion fails the item stays in the list without
  being found by name: a namespace, class, property or enumeration is listed again when the call is repeated, a class listed so is the class of no type;
  a method or constructor, found by walking through the list, is there although creating it failed. If the list cannot grow the new
  object leaks. `addBaseClass` may leave a base that does not list the derived class. `hasConverter<From, To>()` is noexcept and registers types, so
  its first use may end the program.

Variants
* C21: swapping with itself is undefined for every small type that owns something or has a move constructor (`C21_self_swap_refuted`) and harmless otherwise (`C21_self_swap`); a small type whose copy throws ends the program in `swap`.
* C22: small copy-only contents leak when moved; a throwing copy of a large one leaks its block; moved small objects are never destroyed.
* C23: `Derived*` is handed out as `Base*&`; arrays of pointers to const lose the const; volatile is ignored.
* C24: `is` without `to` for move-only types, null pointers (undefined with classInfo), converters that refuse.
* C25: not symmetric for arrays of different length and for `int const*`/`int*`; pointer == array is undefined.
* C26: the hash is over bytes: 0.0 and -0.0, equal strings, an array and a longer one differ.
* C42: copy and move of arrays assign to elements that do not exist; a throwing assignment in a noexcept function ends the program.
* C56: a reference to a small content does not follow it when the variant is moved (nothing is there) or swapped (it reads the other's); one to a large content does.

Calls
* C27: `Derived*` binds to `Base*&`; what `std::ref(y)` refers to is moved from; a parameter of type variant binds to no variant.
* C28: on an instance that is no class nothing is called and no error raised; static methods through `variant::invoke` get an extra argument; members with ten parameters and parameterless static functions cannot be called.
* C29: a converter between class pointers drops const; a null instance is dereferenced.
* C53: a reference that a function returns to its parameter `T const&` dangles if the argument was converted: the temporary lives in the library's `argument`
  and is gone when `invoke` returns. An object passed as the instance is copied, so a reference into it that comes back dangles too (the object passed
  through a variant, `std::ref` or a pointer is the caller's). An empty result means a void function or that nothing was called. `returnTypeId` is not the
  type of the variant for functions returning variants or const classes. Functions returning rvalue references cannot be registered; a static function
  taking `T&` cannot be called with an object that cannot be copied.
* C54: `_method("f", &Derived::f)` with f inherited from a class that is not registered is found and can never be called. By the bare name only the first
  overload is tried, whatever the arguments. The error for an array of objects says that a registered class is not registered. Even asking a null pointer
  for a property that does not exist is undefined if the class has classInfo. With a base that occurs twice, a method of it is called through a pointer to
  one intermediate class on the sub-object of the other one.
* C55: a functor that reports failure has constructed its result all the same: nobody destroys it, in `to` and in `eq`. `MetaType::construct` loses its memory
  if the constructor throws or there is none. `variant{1}.eq(1.5f)` is false and `variant{1.5f}.eq(1)` true with converters both ways (with one they agree).
  `eq` with an array and a converter to the pointer it decays to: the pointer is made in the array's place, undefined. An exception thrown by a plain converter
  turns into bad_variant_convert, one thrown by a reporting converter passes.
* C57: a member function is listed with the object among its parameters, so `getMethod<int>("set")` does not find `void set(int)`; one has to write
  `getMethod<Box &, int>("set")` (`C57_found_by_parameters_refuted`). A static function taking the object and the parameters of a member function of the same
  name is dropped, or drops it (`C57_static_collision_refuted`, exactly then by `C57_collision_exactly`). Member functions that are `&&`, or noexcept together with `&` or
  volatile, functions with `...`, objects with operator() and std::function do not compile as methods (`C57_registrable_refuted`; for std::function the traits
  are asked of a function type, function_traits.h:167). No static accessors of properties compile; accessors of two unrelated classes do (`C57_static_accessors_refuted`).
* C58: an overload declared later in a derived class takes over the bare name of the inherited method (`C58_inherited_stays_refuted`); a look-up during which the
  deferred definition of a base declares the method in the class already searched answers that there is none (`C58_waiting_refuted`).
* C59: two visitors (for_each_class), each registering a class in the container the other enumerates, block each other for ever (`C59_visitors_refuted`). So do two
  threads that only look up a method, if deferred definitions of the bases add bases crosswise: definitions run while the list of bases is locked
  (`C59_definitions_refuted`). A visitor that asks the container it enumerates for an item takes the shared lock twice; a thread that waits to write in between
  blocks both where the implementation lets writers first (`C59_readers_refuted`). Each of the threads returns when it runs alone.
* C60: addBaseClass enters the base first and the derived class later, under different locks: a thread can be told that a class has a base and after that that the base
  has no derived class (`C60_add_base_refuted`). A class can be found by its name before it can be found by its type (`C60_create_class_refuted`). getMethod looks into the
  class and then into its bases with the lock of the class's list released: it can return the method of a base that was made after the class had got its own
  (`C60_get_member_refuted`). The order of C60 counts each row such calls add as an event of its own.
* C61: `construct()` of a type without default constructor, or whose constructor throws, keeps the storage it has allocated (`C61_leak_refuted`), and of an array the elements built
  before (`C61_array_throws_refuted`). `construct()` of int, pointers and other trivial types does not give what `new T()` gives: the value is indeterminate, copying it is undefined
  (`C61_value_refuted`). Over-aligned types get storage of `operator new(size_t)` (`C61_aligned_refuted`). `construct(copy)` of an array of a class assigns to objects that are not
  there (`C61_array_copy_refuted`, as in C42). `construct(nullptr)` makes a default object, so a failed construct passed on as the source of a copy is not noticed.
* C30: set on an instance that is no class does nothing silently; a getter that is not const can never be called.

* C63: types are identified by the text the compiler prints. Two lambdas of one function with one signature (gcc prints `main()::<lambda(int)>` for both) and types of one name in unnamed
  namespaces of two files have one identifier: a variant with the one gives access to it as the other (`C63_no_confusion_refuted`), allocation through the identifier gives the size of whichever type
  was used first (`C63_described_refuted`, `C63_order_refuted`).
* C62: types of at most 16 bytes are put into the storage of the variant whatever their alignment; the storage has alignment 8, so `long double`, `__int128` and SIMD vectors lie
  misaligned in a variant at an odd multiple of 8 (`C62_in_place_refuted`), and a client that aligns its variants cannot help it, because swap and assignment use storage of
  their own (`C62_swap_refuted`, `C62_assign_refuted`). Larger types get `operator new(size)`, which ignores alignments above 16 (`C62_heap_refuted`). Every move of contents on the heap
  exchanges pointers with storage that nothing was written to, so an indeterminate value is read and copied (`C62_move_refuted`): variant() and `storage_t temporary;` leave the
  storage uninitialised.
* C64: a function object with a second parameter that has a default, or that takes `bool` by value, is taken for one that reports: its report stays false, so every conversion is refused
  (`C64_kind_refuted`, `C64_never_converts`). A converter to `char const*` does not compile, and one from `int const**` neither, as types are registered without const (`C64_declared_refuted`; tests/register_global_rtti.cpp:80 has one
  commented out). A converter that takes `int*` is found for a content `int const*` (`C64_binding_refuted`). Mutable lambdas are never accepted. An explicit result is good for a plain converter and not for a reporting one.
  A class whose converting constructor takes `A&&`, `A&` or a move-only value (`std::unique_ptr`) cannot be given that constructor in its definition: the converter that comes with it does not compile
  (`C64_constructor_rejected`, `C64_constructor_refuted`). Member-function converters never compile: `from->*_this.m_func()` lacks parentheses (metatype.h:727,760; not modelled).
* C65: a const object is overwritten by a program without any cast of its own: through an array of pointers to const taken as one of pointers (`C65_arrays_refuted`),
  through a member function that is not const after a converter between class pointers (`C65_converter_refuted`), next to a base object after a `Base*` was stored in a variant of `Derived*`
  (`C65_slot_refuted`), and through a pointer with sixteen levels (`C65_levels_refuted`).
* C66: with the static library each module has a registry of its own, so a variant of int made in one module is not one in another (`C66_static_refuted`). With the
  shared one, unloading a plug-in leaves behind pointers into it: names and functions of the types it was first to use (`C66_unload_refuted`), tables of variants
  (`C66_unload_variant_refuted`), invokers (`C66_reload_refuted`: after loading it again registration answers "already there"; `C66_exit_refuted`: the end of the process
  destroys them). Converters are taken out by the destructors of their static objects, but also those of others, if the plug-in's own was refused
  (`C66_refused_converter_refuted`). Two registrations with the same function type share one object or not, as the linker has it (`C66_same_functor_refuted`).
* C67: the order of registrations does show in six ways: positions in a container (`C67_position_refuted`), look-up of an overloaded method by its bare name
  (`C67_bare_name_refuted`), the definition kept when two chains define one signature differently, for which no error is raised (`C67_conflict_refuted`), base classes:
  a chain that runs before that of its base throws and leaves a class without base and members (`C67_base_first_refuted`), and a derived class that defines a property its base
  has too: its definition is dropped when that of the base ran first, with no exception (`C67_override_refuted`), and a class that gets bases from two chains, both with one method: calls
  reach the one whose chain ran first (`C67_ambiguous_refuted`). The theorems
  therefore ask for hierarchies in which bases come first and no class repeats a member of a base or gets one from two (`tree`, `once`, `ready` in OrderSpec.v); C68 leaves base classes out.
* C68: deferring is noticed in three ways: a second deferred definition of a container throws, unless somebody looked into the container in between (`C68_twice_refuted`);
  look-up of a class by its type does not run deferred definitions (`C68_by_type_refuted`); a deferred definition that contradicts another one throws out of a look-up, and is lost
  with all that follows in it: the next look-up answers as if it had not been there (`C68_late_refuted`).
* C69: definitions are not transactions. A chain that fails leaves its first part, including a class without its bases and members, and of `_base<A, B>` the base A when B is missing
  (`C69_kept`, Example `C69_tries`); a class left half-defined is enough for classes derived from it to be registered. Nothing is retried by the library; retrying is safe and enough (`C69_eventually`, `C69_rounds`, `C69_twice`).
* C70: the failure of a deferred definition is reported once, to whoever looks first; the same question asked again is answered from the half-made class, also when the missing base has been registered meanwhile
  (`C70_silent_refuted`). The base class does not list a derived class that has not been looked into yet (`C70_derived_refuted`).
* `std::hash<mpl::ID>` (tagged_id.h:62-64) makes an object of `std::hash<Type>` from the value instead of calling one: it does not compile when used (not modelled).

## Mutation tests

`seeded/LOG.jsonl` records wrong programs tried on a scratch copy of the model: the edited definition, the
edit, the claim it breaks, the theorems whose proofs then failed and those tightened afterwards.
