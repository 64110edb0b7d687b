#!/usr/bin/env python3
"""Writes ../properties.jsonl: the list of semantic properties (one JSON object per line)."""
import json, os
P=[]
def p(id,title,statement,quantifier,why,anchors):
    P.append(dict(id=id,title=title,statement=statement,quantifier=quantifier,why_tests_cant=why,anchors=anchors))
CFG="src/discriminant.rs: generate_discriminants!"
TP="src/tagged_pointer.rs: "
TB="src/tagged_box.rs: "
MM="src/tagged_box_macro/mod.rs: "
p("C01","Width selection is total and unambiguous",
  "Whatever TAGGED_BOX_RESERVED_WIDTH holds (or if it is unset), as long as it contains no line break, the build script enables exactly one reserved-width setting: the one named if the value is one of the 16 documented names, otherwise 60bits (with a warning when the variable was set to something else). With a line break this can fail: the value is copied into the build script's output, where a further line can enable a second setting.",
  "every environment value: unset, or any string of any length",
  "There are infinitely many strings; a test samples a few names. The claim is in fact false for values containing a line break, which no test tries.",
  ["build.rs: main",CFG,"src/lib.rs: Crate Settings docs"])
p("C02","Every setting splits the 64-bit word exactly",
  "In every selectable setting the pointer width and the number of discriminant bits add up to 64, MAX_POINTER_VALUE is the largest number of pointer-width bits, the Discriminant integer type can hold every tag, and every permitted discriminant (<= MAX_DISCRIMINANT) fits in the tag bits.",
  "every setting the build script can select",
  "cargo test runs one setting at a time, and Makefile.toml only lists 10 of the 16.",
  [CFG,"MAX_DISCRIMINANT","MAX_POINTER_VALUE","POINTER_WIDTH","DISCRIMINANT_BITS"])
p("C03","MAX_DISCRIMINANT is the largest tag the free bits can hold",
  "In every setting with b data bits except one, MAX_DISCRIMINANT = 2^b - 1. The exception, a defect, is 52bits (README: 12 bits for data), where it is 4068 instead of 4095.",
  "every setting","Tests use MAX_DISCRIMINANT itself as the reference, so they cannot notice a wrong constant.",
  [CFG,"README.md: Cargo Features"])
p("C04","Tagged pointer round trip",
  "For every address <= MAX_POINTER_VALUE and every discriminant <= MAX_DISCRIMINANT, TaggedPointer::new succeeds, discriminant() returns the discriminant and as_u64/as_ptr/as_mut_ptr return the address, in debug and release builds.",
  "every setting, address, discriminant and build profile",
  "2^64 words times 16 settings cannot be enumerated.",
  [TP+"new, discriminant, as_u64, as_ptr, as_mut_ptr, store_discriminant, fetch_discriminant, strip_discriminant"])
p("C05","When TaggedPointer::new panics",
  "With debug assertions TaggedPointer::new panics if and only if discriminant > MAX_DISCRIMINANT or ptr > MAX_POINTER_VALUE, with the message for the first of the two. In release builds it never panics, against its documentation.",
  "every setting, profile, address and discriminant value of the Discriminant type",
  "Tests run in one profile and one point outside the range.",
  [TP+"new"])
p("C06","Word and parts determine each other",
  "Distinct (address, discriminant) pairs in range give distinct raw words; every 64-bit word is the packing of its own address part and discriminant part; changing the discriminant never changes the address and vice versa.",
  "all 64-bit words and all in-range pairs","Infeasible to enumerate.",
  [TP+"store_discriminant, fetch_discriminant, strip_discriminant, as_raw_u64"])
p("C07","Equality, order and hash of tagged pointers",
  "Two TaggedPointers are equal iff discriminant and address are both equal; ordering is lexicographic by (discriminant, address), total and consistent with equality; equal pointers feed equal input to a Hasher and different ones different input.",
  "all pairs/triples of tagged pointers in every setting","Quantifies over pairs and triples of 64-bit words.",
  [TP+"#[derive(PartialEq, Eq, Hash, PartialOrd, Ord)] TaggedPointer"])
p("C08","Out-of-range arguments in release builds",
  "With debug assertions off, new(ptr, d) reads back both ptr and d correctly iff ptr <= MAX_POINTER_VALUE and d < 2^DISCRIMINANT_BITS; otherwise the address read is ptr modulo 2^POINTER_WIDTH and the discriminant read is the bitwise or of d modulo 2^DISCRIMINANT_BITS and the excess high bits of ptr. No call ever yields anything else.",
  "all settings, all 64-bit ptr values, all Discriminant values","Release-mode corruption is not exercised by the debug-profile tests.",
  [TP+"new, store_discriminant"])
p("C09","Dangling pointers",
  "TaggedPointer::dangling::<T>(d) and TaggedBox::dangling::<U>(d) never panic; the address is non-null and aligned for the type; the discriminant read back is d whenever d fits the tag bits, and d reduced modulo 2^DISCRIMINANT_BITS otherwise (silently, even in debug builds).",
  "all settings, all types (alignments), all discriminants","Ranges over all types and tags.",
  [TP+"dangling",TB+"dangling"])
p("C10","Numeric formatting shows the address and never the tag",
  "LowerHex/UpperHex/Binary/Octal of a TaggedPointer or TaggedBox render the address part: the text depends on the address only, never on the discriminant, has at least the requested width, and a reader that drops padding, sign and prefix gets the address back - unless the fill character is a digit of the radix that lands next to the number. Different addresses have different texts exactly when it is not. The text is exactly the one std::fmt documents: the address in that notation without superfluous zeros, after sign and prefix, with zeros or fill characters where the options put them and no more than the width asks for.",
  "all tagged words, all four radices, all formatting options (fill, alignment, `+`, `#`, `0`, width, precision)","Infinite domain.",
  ["src/lib.rs: impl_fmt!",TP+"impl_fmt!",TB+"impl_fmt!, as_u64"])
p("C11","Debug output of a TaggedPointer is faithful",
  "{:?} and {:#?} of a TaggedPointer consist of the name and three labelled parts from which the raw word, the address and the discriminant can be read; on 64-bit targets two tagged pointers have the same Debug text iff they are equal (unless pointers are padded with hexadecimal digits). {:p} shows the address only. The parts are laid out as std::fmt documents for pointers and integers. On 32-bit targets the raw word is shown truncated.",
  "all tagged words, all formatting options","Infinite domain.",[TP+"impl fmt::Debug, impl fmt::Pointer"])
p("C12","32-bit targets",
  "On a target with 32-bit pointers, any address obtained from a real pointer survives new followed by as_ptr/as_mut_ptr in every setting, and new never panics on account of the address.",
  "all 32-bit addresses, settings, discriminants","Tests run on the host width only.",
  [TP+"as_ptr, as_mut_ptr","Changelog.md: u64 over usize"])
p("C13","A box gives back what was put in",
  "After TaggedBox::new(val, d) returns, discriminant() is d and as_ref/as_ptr at the same type observe val, for every sized type, value and in-range discriminant.",
  "all types (size, alignment, validity), values, settings, profiles, allocators honouring their contract and prior heap states",
  "Ranges over all types, allocator behaviours and heap states.",
  [TB+"new, as_ref, as_ptr, discriminant"])
p("C14","Allocation discipline of new",
  "TaggedBox::new performs exactly one allocation with exactly the size and alignment of the type, or none for zero-sized types; the resulting pointer is non-null and aligned; no byte of any other live allocation changes.",
  "all types, values, heap states, allocators","Needs every heap state and allocator answer.",
  [TB+"new"])
p("C15","into_inner moves the value out intact",
  "TaggedBox::into_inner::<U> on a box made by new::<U>(val, _) returns val, runs no destructor and changes no memory.",
  "all types, values, heaps","Ranges over all types and heaps.",[TB+"into_inner"])
p("C16","into_raw / from_raw are inverse",
  "from_raw(into_raw(b), b.discriminant()) is the same box bit for bit and does not panic when the discriminant is permitted; into_raw(from_raw(p, d)) is p for every in-range p and d.",
  "all boxes, pointers, discriminants, settings, profiles","2^64 boxes.",[TB+"into_raw, from_raw"])
p("C17","Mutation through a box",
  "A value written through as_mut_ref/as_mut_ptr is what later reads and into_inner observe; the discriminant and the address are unchanged and every other box still observes its own value.",
  "all types, values, heaps with any number of other boxes","Needs arbitrary other live boxes.",
  [TB+"as_mut_ref, as_mut_ptr"])
p("C18","into_box hands over ownership exactly",
  "into_box yields a Box whose contents are the boxed value; dropping it runs the value's destructor once and frees the block with exactly the size and alignment it was allocated with, leaving no allocation behind; for zero-sized types nothing is freed.",
  "all types, values, heaps","Layout mismatch on dealloc is invisible to ordinary tests.",[TB+"into_box"])
p("C19","Failure paths of new",
  "If the allocator returns null, new panics, the value is destroyed exactly once and nothing stays allocated. With debug assertions, an out-of-range discriminant or address for a non-zero-sized type panics before any box exists (the block and value are leaked, not double-freed); for a zero-sized type no discriminant ever panics.",
  "all types, values, discriminants, allocator answers, profiles","Allocation failure cannot be scheduled from tests of this crate.",
  [TB+"new",TP+"new"])
p("C20","new_unchecked behaves as new",
  "TaggedBox::new_unchecked has in every state exactly the outcome of TaggedBox::new, including its panics.",
  "all types, values, discriminants, heaps, profiles","All states.",[TB+"new_unchecked"])
p("C21","How often a value is destroyed",
  "A value moved into a box, moved out with into_inner and dropped is destroyed exactly once if its type is not zero-sized, and exactly twice (a defect) if it is zero-sized: its destructor runs once inside new and again on the value moved out.",
  "all types and values","Existing tests never use a zero-sized type with Drop.",[TB+"new, into_inner, dangling"])
p("C22","No reclamation",
  "Neither dropping a TaggedBox (or container) nor moving the value out with into_inner ever gives the block back, for any type that occupies memory, against the documented Box-like semantics: the block stays allocated for ever and dropping the box destroys nothing. Only zero-sized types, which have no block, leave nothing behind.",
  "all types, values, heaps","Leaks are not observable by assertions.",[TB+"TaggedBox (no Drop), into_inner","README.md: Box-like semantics"])
p("C23","Clone is deep and independent",
  "Cloning a box gives a box with the same discriminant holding the clone of the value in its own fresh allocation; the original box, its value and all other memory are unchanged, nothing is destroyed, and later mutation of either is not visible in the other.",
  "all enum definitions, values, user Clone functions, heaps","All definitions and heaps.",[TB+"impl Clone"])
p("C24","Comparisons agree with the contained enum values",
  "==, partial_cmp and cmp on boxes return exactly what the same comparison of the contained enum values returns, with no effect on memory and no destructor run.",
  "all definitions, pairs of values, user comparison functions","All definitions and user functions.",
  [TB+"impl PartialEq, PartialOrd, Ord"])
p("C25","Debug and Display of a box",
  "Formatting a TaggedBox prints the contained value exactly as formatting that value with default options would; caller-supplied formatting options ({:#?}, widths) are ignored.",
  "all values, format implementations, options","All format options and values.",[TB+"impl Debug, impl Display"])
p("C26","Container round trip",
  "For every enum accepted by tagged_box!, Container::from(v).into_inner() is v for every value v of every variant (unit, tuple of any arity, struct) whose place in the enum, counted from 0, is at most MAX_DISCRIMINANT, in debug and release. So an enum of at most MAX_DISCRIMINANT + 1 variants round-trips entirely.",
  "all enum definitions, values, settings, profiles, allocators, heaps","Infinitely many enum definitions.",
  [MM+"tagged_box!, __taggable_into_box!, __boxed_into_inner!, __counter_enum!"])
p("C27","Too many variants",
  "The bound of C26 is sharp: an enum with more variants than tags is accepted by the macro, and then a safe round trip can return a different variant or read a dangling pointer as payload (even in debug builds for variants stored without allocation).",
  "every setting the macro compiles in; every number of variants above the bound","Tests use small enums.",
  [MM+"tagged_box! (Note on MAX_DISCRIMINANT), __taggable_into_box!"])
p("C28","When from_tagged_box inverts into_tagged_box",
  "Item::from_tagged_box(v.into_tagged_box()) is v for every value of a unit, single-field, empty or struct variant, and for tuple variants of several fields whenever the compiler lays the tuple (A, B, ..) out like the #[repr(C)] struct. If a field (of types that take any bytes, like integers) has another offset in the tuple, some value is not restored (a defect); with rustc's reordering of fields this happens e.g. for (u8, u32, u8).",
  "all enum definitions, values, legal tuple layouts","The layout of Rust tuples is unspecified; the one tested tuple happens to agree.",
  [MM+"__from_tagged_box! lines 290-304, __expand_tuple_arm!"])
p("C29","What ref_from_tagged_box does",
  "ref_from_tagged_box calls the closure exactly once with the stored value, runs no destructor, changes no memory, and the box is still usable afterwards, for every box built by into_tagged_box, except unit variants of an enum with its own Drop impl: there the arm lacks ManuallyDrop, so every look - also ==, Clone, Debug - runs that destructor once more (a defect).",
  "all definitions, values, closures, heaps","All closures and definitions.",[MM+"__ref_from_tagged!"])
p("C30","From<payload> conversions",
  "Container::from(x) for the payload type of a tuple variant builds exactly that variant with the fields in declaration order, for every arity 0..32, and is never ambiguous in an accepted definition.",
  "all definitions, variants, payload values","33 arities times all types.",[MM+"__derive_from!","src/tagged_box_macro/meta_macros.rs: __expand_tuple!"])
p("C31","Settings in which tagged_box! type-checks",
  "The expansion of tagged_box! type-checks exactly in the eight settings 56bits..63bits; the generated code casts tags to u8, so in the settings 48bits..55bits, whose Discriminant is u16, no enum compiles at all (a defect).",
  "all settings and all enum definitions","A test run sees only one setting; the failure is at compile time.",
  [MM+"__taggable_into_box!, __boxed_into_inner!, __from_tagged_box!, __ref_from_tagged!",CFG])
p("C32","All generated functions read the definition alike",
  "For every variant list the macro accepts, the generated enum, tag counter, variant count, into_tagged_box, from_tagged_box, into_inner, ref_from_tagged_box and From impls see the same variants in the same order, so the same variant has the same tag everywhere; a list that one of them rejects is rejected as a whole.",
  "all token sequences given to tagged_box!","Infinitely many inputs; the eight munchers have separate arms.",
  [MM+"__make_enum!, __counter_enum!, __count_variants!, __taggable_into_box!, __boxed_into_inner!, __from_tagged_box!, __ref_from_tagged!, __derive_from!"])
p("C33","Tuple arity limit",
  "Tuple variants of 0 to 32 fields are accepted, more are rejected at compile time, and no accepted arity drops, duplicates or reorders a field.",
  "all arities and field values","33 hand-expanded arms of two macros.",["src/tagged_box_macro/meta_macros.rs: __expand_tuple!, __expand_tuple_arm!"])
p("C34","Unknown discriminants panic",
  "from_tagged_box, into_inner and ref_from_tagged_box on a box whose discriminant matches no variant panic without reading memory or calling the closure; the reported variant count and discriminant are correct.",
  "all definitions, boxes, heaps","All words and definitions.",[MM+"__from_tagged_box!, __boxed_into_inner!, __ref_from_tagged!, __count_variants!"])
p("C35","Containers behave like plain enum values over any history",
  "For any sequence of constructing, cloning, copying, comparing, viewing, converting (from_tagged_box on tuple variants of several fields only where the compiler's tuple layout is the repr(C) one), reading the tag (always the variant's place), changing the field of a single-field variant in place (as_mut_ref at that field's type: assigning, or applying any function) and dropping of containers of an accepted enum, storing only variants for which there is a tag, every observation equals that of the same program on plain enum values, and no step is undefined behaviour; a change in place is seen through the changed container and its copies and through no other; the only additional outcome is the panic of a construction or clone whose payload is not zero-sized, and it happens exactly at the calls for whose block the allocator has no memory. A panic of the user's Clone, comparison or formatting code reaches the program as it would on plain values and leaves every container usable.",
  "all finite operation histories over field types without interior mutability (for which see C56), definitions, user trait impls (including panicking ones and ones that answer differently in every state), allocators (including failing ones), profiles","Unbounded histories.",
  [MM+"tagged_box!",TB+"Clone, PartialEq, PartialOrd, Ord, Debug"])
p("C36","Allocation accounting over histories",
  "Over any history of container operations no block is ever freed, and the number of live blocks grows by exactly one for each successful construction or clone of a value with non-zero-sized storage, apart from the blocks the user's trait impls take or free themselves.",
  "all histories","Unbounded histories.",[TB+"TaggedBox",MM+"tagged_box!"])
p("C37","Destructor accounting over histories",
  "Over any history of container operations on an enum with no Drop impl of its own and no zero-sized droppable payload, the destructors that run are exactly those of the values the program drops itself or overwrites in place and of the value passed to a construction whose allocation failed, apart from those the user's trait impls run themselves; no value is destroyed twice (for Copy enums nothing is destroyed at all).",
  "all histories","Unbounded histories.",[TB+"new, into_inner",MM+"__ref_from_tagged!"])
p("C38","Manual API histories are safe under the documented contract",
  "Any sequence of new / as_ref / as_mut_ref assignment / read and write through as_ptr, as_mut_ptr / into_inner / into_raw / read and write through the raw pointer / from_raw / into_box / Box drop / box drop that always uses the type a box was created with never causes undefined behaviour and behaves as the same program on plain variables: every read sees the last value stored in that box, exactly the destructors of that program run, in the same order, and every value of a non-zero-sized type is destroyed at most once; the only additional outcome is the panic of new on a non-zero-sized value, and it happens exactly at the calls for whose block the allocator has no memory. Memory that was live before the first call is neither freed nor changed.",
  "all histories over any number of boxes, all types","Unbounded histories.",[TB+"new, as_ref, as_mut_ref, as_ptr, as_mut_ptr, into_inner, into_raw, from_raw, into_box"])
p("C39","Copying a box is unsound",
  "TaggedBox<T> is Copy when T is, whatever type is stored. With copies the documented contract (use the type given to new) is not enough, for every non-zero-sized type: after one copy was turned into a Box and dropped, dropping, reading, moving out of or freeing the other is a use of freed memory; moving out of both copies gives the value twice and its destructors run twice (a defect). The macro's own containers are not affected: a Copy enum has no droppable payload and no operation of a container frees, so programs copying containers behave as on plain values (a change in place made through one copy shows in all).",
  "all non-zero-sized types, values, tags, heaps; for containers all histories with copies","Needs a contract-abiding double use.",[TB+"impl Copy"])
p("C40","Safe API can confuse types",
  "Safe functions of the crate can read memory at a wrong type. For every enum and every variant with non-zero-sized storage, TaggedBox::dangling with that variant's tag followed by ==, <, cmp, clone, Debug or Display (and from_tagged_box for single-field variants) is undefined behaviour if the low dangling address is not allocated, and unconditionally if the storage is aligned to more than a byte. TaggedBox::new of a value of another type with a single-field variant's tag is undefined behaviour in all of these if the bytes are invalid for, or fewer than, the payload's; otherwise from_tagged_box returns the bytes as the payload, a safe transmute (a defect). Through containers alone this is impossible (C35).",
  "all definitions, variants, types, values, user trait impls, heaps","Absence over all programs.",[TB+"new, dangling, PartialEq",MM+"from_tagged_box"])
p("C41","The documented manual implementation equals the macro's",
  "For the same enum, into_tagged_box, into_inner, from_tagged_box and ref_from_tagged_box of the code shown in the manual-implementation guide and in the macro's documentation give on every value, box, closure and heap the same result as the macro-generated code; the only difference is the panic message for an unknown tag. The guide's code (which writes `as _`) works in every discriminant setting.",
  "all values, boxes, heaps, profiles","All boxes and heaps.",["src/manually_impl_enum.rs"])
p("C42","Addresses above the reserved width",
  "If the allocator hands out an address larger than MAX_POINTER_VALUE, a release build returns from TaggedBox::new without panicking a box whose address is never the allocated one (it is cut to the pointer width) and whose tag is mixed with the excess bits of the address; nothing reports it.",
  "all settings, types, values, discriminants, allocator answers above the limit","Needs a machine whose allocator returns such addresses (5-level paging, settings below 57bits).",
  [TB+"new",TP+"new"])
p("C43","Enums with their own Drop impl",
  "If the enum has a Drop impl, storing a value runs that destructor although the value is kept in the box, so a value stored and taken out again is destroyed twice, and every clone of a box runs it for the clone (a defect). Without a Drop impl and without zero-sized droppable payloads storing destroys nothing.",
  "all definitions, values, heaps","No test enum has a Drop impl; a second destructor run is not visible in values.",[MM+"__taggable_into_box!"])
p("C44","Invalid definitions",
  "The message `Invalid enum definition` is never produced for tokens not starting with `@`; instead, after valid variants followed by something that does not look like a variant (missing last comma, attribute or doc comment on a variant, explicit discriminant), __counter_enum! calls itself until the recursion limit, however high that is.",
  "all token lists and recursion limits","Needs compile-fail inputs of every shape.",[MM+"__counter_enum! (@error arm)"])
p("C45","Recursion limit",
  "A definition with n variants, m of them tuple variants not having exactly one field, needs a recursion limit of at least n + m + 3 for the crate's own macros and is expanded within it; so rustc's default limit of 128 allows at most 125 variants, fewer than MAX_DISCRIMINANT in the settings that the macro supports with 7 or 8 data bits.",
  "all definitions and limits","Tests use few variants.",[MM+"tagged_box!, __taggable_into_box!, __expand_tuple_arm!"])
p("C46","Panic messages and their advice",
  "The text of a panic of the crate is its format string with the enum's name and the numbers in decimal, and determines which panic it was and with which numbers. The address panic of TaggedPointer::new recommends the setting one bit wider than the present one, which can be selected; following it leads in at most 15 rebuilds to the narrowest setting that fits, for every address below 2^63. At 63bits it recommends the nonexistent `64bits`, which selects the narrower default of 60, so for an address of 2^63 or more the advice never ends (a defect).",
  "all settings, values of the environment variable, addresses, panics","All addresses and settings, chains of rebuilds.",
  [TP+"new",MM+"__from_tagged_box!, __boxed_into_inner!, __ref_from_tagged!","build.rs"])
p("C47","Where the crate's own tests pass",
  "With memory enough, on a 64-bit target, the crate's test suite compiles and passes exactly in the settings 56bits to 60bits in a debug build and exactly at 56bits in a release build. Below 56 bits it does not compile; above 60 bits the test tagged_pointer fails, whose discriminants do not fit; in release builds the should_panic test oversized_discriminant passes only where MAX_DISCRIMINANT + 1 leaves the type (56bits and 48bits), because there the test itself panics. Of the ten settings for which the makefile runs the tests (48bits to 57bits) two can pass, 56bits and 57bits.",
  "all settings, both profiles, allocators, states of memory with room for the run, contents of strings and vectors, impls of the derived traits with the given meaning","A test run tests one setting.",
  [TP+"tests",TB+"tests","tests/tagged_box_macro.rs","Makefile.toml"])
p("C48","Changing the setting between builds",
  "A user who changes TAGGED_BOX_RESERVED_WIDTH and builds again expects the new width. The build script does not tell cargo that it depends on the variable, so (by cargo's documented rule) a build goes by the value at the last earlier build of its kind since which no file of the package changed; the new value is silently ignored until cargo clean or an edit (a defect). Consequently all ten runs of the makefile's test-all test the one setting of the build before, and are reported as ten different ones: after a default build all pass, from a clean state, and always with miri-all, all ten test 48bits and fail. If the script also printed the line cargo asks for, every build would go by the present value. Printing only cargo:rerun-if-changed=build.rs, a common habit, would make it worse: edits of other files would no longer let a new value through.",
  "all histories of builds of any kinds, edits and cargo clean, all values of the variable (for the defect: without line break)","Needs sequences of builds of one workspace.",
  ["build.rs","Makefile.toml"])
p("C49","Names a definition may use",
  "A correct Rust enum is accepted by tagged_box! only if its names stay clear of those the macro defines around them (macro hygiene does not protect items and type parameters): a variant with named fields, or a tuple variant of other than one field, must not be named like the enum, `core`, or a type (or module) occurring in its own fields, such as String(String, u8) - and, if a non-empty tuple or named-field variant, not `u8`; no field type may name Self, a type called F or the macro's own items; the enum must not be called F, nor TaggableInner if it has a tuple variant; struct and enum must differ, and From, FnOnce, u8, usize (and core) must have their usual meaning. All other definitions are accepted as far as names go: each field type then means the same in all generated functions. The name of a single-field tuple variant or unit variant is free.",
  "all definitions, all ways of writing the field types, all names defined around the macro call","Needs compile tests for every choice of names.",
  [MM+"tagged_box!, __taggable_into_box!, __boxed_into_inner!, __from_tagged_box!, __ref_from_tagged!, __derive_from!","src/tagged_box_macro/meta_macros.rs __expand_tuple_arm!"])
p("C50","Where the documentation's examples work",
  "With memory enough, on a 64-bit target, all examples in the documentation and the README work exactly in the settings 56bits to 60bits, in both profiles. The examples of TaggedBox with discriminant 0 work in every setting; those with discriminants 8 and 10 (into_raw, into_box, from_raw) in the settings up to 60bits and in all release builds; the example of discriminant() with 11 only up to 60bits. The tagged_box! examples compile exactly from 56bits on, and the one with three variants also needs at most 62bits: with 63bits its String is stored with a truncated tag and read as the first variant.",
  "all settings, both profiles, allocators, states of memory with room for the run, contents of strings and vectors, impls of the derived traits with the given meaning","The documentation is tested in one setting.",
  [TB+"doc examples","src/lib.rs","README.md",MM+"tagged_box! doc examples","src/manually_impl_enum.rs"])
p("C51","Long-running programs run out of memory",
  "No allocator can serve a program that goes on making boxes: a loop that makes a TaggedBox of a non-zero-sized type, or stores an enum value of such a variant, and lets it go out of scope leaks exactly the size of the type in each round, and panics for lack of memory before the bytes of the address space are used up; no program of containers gets more than MAX_POINTER_VALUE boxes in its life. With a Box instead (Box::new, or into_box at the end of each round), an allocator with memory for one box keeps the loop going for ever. So all benchmarks of the crate except the one of the unit variant leak (8, 32, 8 and 800 bytes per round), while the benchmark of Box::new they are compared with frees.",
  "all enums, types, values, allocators keeping their contract, numbers of rounds, programs","A test ends long before the memory does.",
  [TB+"new",MM+"into_tagged_box","benches/tagged_box.rs"])
p("C52","What {:?} and {:#?} of a container print",
  "With Debug derived, a container prints as a struct with one field: `Name { value: V }` for {:?}, and for {:#?} the field on lines of its own, every line of `value: V,` four columns to the right. V is always what the enum's own Debug prints for the stored value under plain {:?}: alternate mode, width, fill and the like never reach it, and only alternate mode changes the container's text. If the enum's Debug fails, what it wrote is printed and the failure reported, without the closing brace; if it panics the panic passes through. Two containers of one type print the same exactly if their values print the same under {:?}.",
  "all enums, values, names, user Debug impls (any text, several lines, errors, panics), formatting options, later states of memory, text already printed","Unbounded texts and options.",
  [TB+"Debug for TaggedBox",MM+"tagged_box!"])
p("C53","Which derives and impls a definition may have",
  "The attributes go to both the struct and the enum, so a derive must fit both. With derives only, a definition is accepted exactly if each of Clone, Copy, Debug, PartialEq, Eq, PartialOrd, Ord is derived at most once, together with its supertraits and only if all field types have it, Debug only together with Clone, and nothing else (neither Hash nor Default) is derived. With hand-written impls besides: the enum must be a correct Rust enum on its own, Hash not derived, the enum Clone (somehow) if Debug is derived, the struct's impls complete by themselves, Copy for the struct only if the enum is Copy; Drop on the enum wants Copy fields, Drop on the struct wants a Copy enum or one without data. TaggedBox<T> implements for T what T implements, except Hash and Default, Debug and Display only for a Clone T, always with the supertraits.",
  "all definitions, derive lists, hand-written impls, impls of the field types","Needs compile tests for every combination.",
  [TB+"trait impls",MM+"tagged_box!, __make_enum!, __taggable_into_box!, __boxed_into_inner!"])
p("C54","Size and thread safety of containers",
  "TaggedPointer, TaggedBox<T> and every container have the size and alignment of u64 whatever the enum, and their repr(transparent) is accepted. A container is Send (Sync, Unpin, ..) exactly if all field types of its enum are, that is if the enum is. A TaggedBox<T> is Send exactly if T is, whatever type the value in it has: TaggedBox::<()>::new of a value that is not Send gives a box that is.",
  "all definitions, auto traits of the field types, alignments of u64","Properties of types, not of runs.",
  ["src/tagged_pointer.rs TaggedPointer",TB+"TaggedBox",MM+"tagged_box!"])
p("C55","Containers inside containers",
  "The enum may have fields of its own container type (a linked list `Nil, Cons(u32, List)`), never in an enum with a Drop impl nor as the only field of a tuple variant. Building such a value bottom-up gives a container from which into_inner, all the way down, gives back exactly the same tree at any later time as long as its memory is kept; it takes one new block per node with data. Containers have no destructor: a node taken out and dropped destroys only its own leaves, and the containers in it stay in memory with all below them. Derived Clone copies the whole tree, every node into a block that overlaps nothing live before, so that changes made in a clone do not show in the original; derived == and cmp compare the trees (variant order first, then fields from left to right), without changing live memory, and agree with each other. Only a panicking clone of a leaf or lack of memory makes clone panic, and then the original is intact.",
  "all such definitions, trees of any depth, leaf impls (which may return or panic), heaps","Unbounded trees.",
  [MM+"tagged_box!, __taggable_into_box!, __boxed_into_inner!, __ref_from_tagged!",TB+"Clone, PartialEq, Ord for TaggedBox"])
p("C56","Interior mutability is lost, and can be memory-unsafe",
  "ref_from_tagged_box is documented to run the closure on a reference to the value contained, but the generated code hands out a reference to a bitwise copy and forgets the copy. So for every value and every sequence of looks (closures, and likewise the user's ==, Clone, Debug, which the crate's impls call in this way), each look finds the value as first stored; what an earlier look changed through Cell, RefCell and the like is gone, unlike with a Box of the enum (a defect). If a look replaces a buffer the value owns (as assigning through RefCell<Box<U>> does), the stored value keeps the address of the freed buffer: the next look that uses it is undefined behaviour, and so is using or dropping the buffer of what into_inner returns; with == this takes safe code only, while on a Box of the enum any number of replacements is fine.",
  "all definitions, values, looks (that keep the box's memory), buffer layouts, allocators","No test type has interior mutability.",
  [MM+"__ref_from_tagged!","src/taggable.rs ref_from_tagged_box",TB+"PartialEq for TaggedBox"])
p("C57","Boxes of a tagged_box! enum made or taken apart by hand",
  "TaggedBox::<Item>::new(value, d), with d the number of a variant with one field (tuple or struct variant), does on every state exactly what Item::into_tagged_box(V(value)) does, so into_inner, from_tagged_box and ref_from_tagged_box see V(value). Conversely the box of a container holding V(value) can be used by hand at the field's type: as_ref and into_inner give the value, and converting it with into_box and dropping the Box runs the value's destructor once and frees its memory, leaving the heap as before the container was made. For several fields a hand-made box of the Rust tuple is understood by from_tagged_box whatever the tuple's layout; into_inner of the container understands it if the tuple is laid out like the C struct and otherwise returns other values without any error (a defect: the two functions expect different contents).",
  "all definitions, variants, values, states, allocators, tuple layouts","The tests never mix the two APIs.",
  [MM+"__taggable_into_box!",MM+"__from_tagged_box!",MM+"__boxed_into_inner!",TB+"new",TB+"into_box"])
p("C58","Numbers in the documentation",
  "The table of settings in the documentation and the README is right in every line: the setting of that name reserves the given bits, leaves the given bits for data (every tag of that many bits is read back), and the one marked as default is used when nothing is set. The introduction's promise of 7 to 16 bits of data holds exactly up to 57bits and fails in the default setting, which has 4 (a defect of the text). The note that the number of variants must be <= MAX_DISCRIMINANT is too strict by one: with MAX_DISCRIMINANT + 1 variants every value still makes the round trip or panics for lack of memory.",
  "all settings, tags, definitions, values, states, allocators","Needs all 16 settings and all enums.",
  ["src/lib.rs module documentation","README.md",MM+"tagged_box! documentation"])
p("C59","Several enums, the manual API and other code in one program",
  "A program may use any number of tagged_box! enums, boxes made by hand and code of other crates side by side, all from one allocator, choosing each step from everything it saw before. If each part keeps to its own contract (C35, C38) and the other code leaves the memory behind the boxes alone (it may allocate, free and change anything else), nothing is undefined behaviour and every part sees exactly what it would see on plain values, whatever the others do in between, apart from an out-of-memory panic at the calls for whose block there is no memory. Blocks and destructors add up over the whole program: one block for every non-zero-sized value boxed by a container or by hand, minus those freed through a Box, the destructors of the plain run, and what the user's trait impls and the other code did themselves.",
  "all programs, sets of enums, user impls, other code, allocators","The tests use one enum at a time and nothing else allocates.",[TB+"TaggedBox",MM+"tagged_box!"])
p("C60","Threads using boxes at the same time",
  "TaggedBox<T> is Send and Sync when T is, so threads may hand each other boxes and look at shared ones together. Take any threads that make boxes, hand over boxes (or the raw pointers, Rust boxes and values got from them), share boxes through &TaggedBox, and choose every step from what they saw. If each call keeps Rust's ownership rules and the documentation's conditions, then for every order in which the single memory accesses of the calls happen: nothing is undefined behaviour, no two threads are ever about to touch the same memory with one of them changing it (no data race), and every thread sees what it would see on plain values had each of its calls happened at once when it returned; blocks and destructors add up as in C38, memory in use before is untouched, and a call ends after at most five moves of its thread (the start, at most three accesses, the return), whatever the others do (no locks). TaggedBox is also Copy when T is: two threads that each own a copy of one box (of non-zero size) and assign through it, each using only its own, come to a data race.",
  "all threads, programs, orders of accesses, values, allocators, starting states","Interleavings cannot be enumerated; the crate has no test with threads.",
  [TB+"TaggedBox",TB+"new",TB+"as_ref",TB+"as_mut_ref",TB+"into_inner",TB+"into_raw",TB+"from_raw",TB+"into_box",TB+"impl Copy"])
p("C61","References into boxes that live on",
  "as_ref borrows the box and as_mut_ref borrows it mutably, so the references they return may be kept while the client uses other boxes, makes new ones, and reads, changes, replaces (mem::replace) or swaps (mem::swap) values through the references it holds. For every such client that passes Rust's borrow checker and keeps the documentation's conditions nothing is undefined behaviour, and it sees exactly what it would see with references to plain variables, apart from out-of-memory panics where the allocator fails; tags stay with their boxes when values are swapped; blocks and destructors add up as in C38, and no value that takes up memory is destroyed twice. At every moment each reference in use is non-null, aligned and at a valid value in live memory, a mutable reference shares no byte with another reference, and no other variable leads to the bytes behind one. Copy breaks this, for every box of a value of non-zero size: from two copies the borrow checker accepts two mutable references to the same bytes, and a reference from one copy may be used after the value was freed through the other (undefined behaviour).",
  "all client programs, values, allocators, starting states","Borrows overlap in unboundedly many ways; no test keeps a reference while using other boxes.",
  [TB+"as_ref",TB+"as_mut_ref",TB+"impl Copy","src/tagged_pointer.rs as_ref, as_mut_ref"])
p("C62","The head of a definition",
  "tagged_box! accepts exactly: attributes (doc comments included), an optional visibility, `struct` with a name, a comma, an optional visibility, `enum` with a name, and a non-empty body in braces; so no generics, where clauses or other order. All attributes go to both the container and the enum, in order, the container getting #[repr(transparent)] on top. The compiler accepts the two items exactly if the visibilities are valid where they stand, every place that can name the container can also name the enum (because of `type Inner`, though the syntax lets one choose both freely: `pub struct` with a private enum is refused), no attribute asks for a representation (any repr hint, even transparent, clashes with the generated one, so the enum's layout cannot be fixed), and no cfg attribute is off (a cfg on the definition does not leave it out: the impls stay and have no types).",
  "all token lists, attributes, visibilities, modules","The tests only use private items and derives.",
  [MM+"tagged_box!",MM+"__make_enum!"])
p("C63","Which definitions compile, and that those work",
"A call of tagged_box! compiles exactly if its text is that of a definition of the documented form (attributes, two items, variants each followed by a comma) which satisfies, all together: at least one variant, distinct variant and member names, no keywords as names, at most 32 fields per tuple variant, within the recursion limit (variants plus tuple variants of none or several fields plus 3), none of the reserved uses of names, no two variants convertible from the same type (nor from the enum's or container's own), an enum visible wherever the container is, no repr, no cfg that is off, derives only from Clone, Copy, Debug, PartialEq, Eq, PartialOrd, Ord with Clone if there is Debug and with their supertraits, impls written by hand consistent with them, and not the 48-bit setting. Every definition that compiles and has no more variants than there are tags works: each value put into a container comes back unchanged, or the allocation failed.",
"every token list, module, set of hand-written impls, recursion limit, setting, field types; every value, allocator and memory state",
"Whether a program compiles cannot be asked in a unit test, and the ways in which definitions can be wrong are endless; the statement covers all token sequences.",
[MM+"tagged_box!",MM+"__make_enum!",MM+"__derive_from!","src/tagged_box_macro/meta_macros.rs",TB+"trait impls"])

p("C64","Threads using containers at the same time",
"A generated container is Send and Sync when its enum's fields are, so threads may hand each other containers and enum values and look at shared containers together (clone, compare, print, view, discriminant). Take any threads that do so and choose every step from what they saw. If each call keeps Rust's ownership rules and the conditions of C35, then for every order in which the single memory accesses of the calls and the calls of the user's impls happen: nothing is undefined behaviour, no two threads are ever about to touch the same memory with one of them changing it, and every thread sees what it would see on plain enum values had each of its calls happened at once when it returned (with an out-of-memory panic where the allocator failed it, and the user's panics passed on). Memory in use before is untouched; when no thread is inside a call there is one more block per value stored in non-zero-sized storage, and the destructors that ran are those of the values the threads themselves dropped or failed to store (for enums without Drop whose zero-sized payloads need no destructor), apart from what the user's impls allocate and destroy. A call ends after at most eight moves of its thread (the start, at most six accesses or calls of user code, the return), whatever the others do. Calls that change a value in place through the box are not included.",
"all enum definitions, threads, programs, orders of accesses, values, user impls, allocators, starting states",
"Interleavings cannot be enumerated; the crate has no test with threads.",
[MM+"tagged_box!",TB+"trait impls",TB+"new",TB+"as_ref",TB+"into_inner"])

p("C65","The text the macros generate",
"Take the text of the crate's macros as it stands in the repository, read it as Rust reads macro_rules!, and expand a call of tagged_box! arm by arm until no call is left. For every token sequence between the braces, every parser of types and every recursion limit this succeeds exactly if the macro model (C32, C62) accepts the call, and then the Rust code that results is, token by token, the code written down in SpecText.v for the definition: two items, the impls, one From per tuple variant with fields, one match arm per variant and function. So what C26 to C34 and C63 say about generated code is about the text in the repository. Whether a call expands does not depend on the types' alignment or traits.",
"every token sequence, type parser, recursion limit","The expansions tested are those of a few enums; macro authors cannot see all expansions.",
[MM+"tagged_box!",MM+"__make_enum!",MM+"__taggable_into_box!",MM+"__derive_from!",MM+"__boxed_into_inner!",MM+"__from_tagged_box!",MM+"__ref_from_tagged!",MM+"__counter_enum!",MM+"__count_variants!","src/tagged_box_macro/meta_macros.rs __expand_tuple!, __expand_tuple_arm!"])

p("C66","The hand-expanded macros are those their generators make",
"Expanding the commented-out calls of generate_tuple_expansion! and generate_tuple_arm_expansion! with the generators' text gives definitions of __expand_tuple! and __expand_tuple_arm! with the same 35 arms each as those written out below them: same patterns in the same order, and the same code up to a comma before a closing parenthesis, the inferable type argument after TaggedBox and the integer type of a cast. Literally they differ.",
"all 70 arms","The generators are never called (they do not work in current Rust), so nothing compares them with the written arms.",
["src/tagged_box_macro/meta_macros.rs"])

p("C67","The two macros nothing calls: one never expands, the other adds up the bits of its types",
"No macro of the crate calls __verify_variants! or __generate_const_sizes! (except they themselves). Whatever its arguments and whatever the recursion limit, a call of __verify_variants! does not expand: it takes variants off one by one and has no arm for the end. A call of __generate_const_sizes! expands exactly if its arguments are types separated by commas without one after the last, perhaps none, and the recursion limit is at least two more than there are types. What it becomes is a block with a constant for each type, and its value is the sum of their sizes in bits, or an error of constant evaluation if that does not fit usize.",
"all arguments, all recursion limits, all sizes of types, all widths of usize","The macros are exported but nothing uses them, so no test can notice.",
["src/tagged_box_macro/mod.rs:160-179","src/tagged_box_macro/mod.rs:583-593"])

p("C68","Keeping addresses in integers is fine as long as casts expose",
"On a machine where every pointer belongs to one block, casting a pointer to an integer exposes its block, and casting an integer to a pointer gives a pointer for an exposed live block that has that byte: a program that uses the TaggedBox API by the documented contract (C38) never accesses or frees memory through a pointer for another block or for none, and sees and leaves behind exactly what C38 says, whatever else is live. The exposing is needed: if casts of integers give pointers for no block (strict provenance), then no box of a non-zero-sized type ever gives its value back without undefined behaviour, and a TaggedPointer made from the address of a block never exposed (ptr.addr() instead of ptr as u64) cannot be read. A raw pointer kept after its block was freed is of no use ever again, even if another block is made at the same address.",
"all programs, allocators, starting states, numberings of blocks, settings","Provenance exists only in the abstract machine; native tests pass with or without it.",
[TB+"new",TB+"from_raw",TB+"into_raw",TB+"into_box",TB+"as_ref",TB+"as_mut_ref",TB+"as_ptr","src/tagged_pointer.rs as_ref, as_mut_ref, as_ptr, as_mut_ptr"])

p("C69","Generated containers need exposed addresses too, and nothing else",
"On the machine of C68: a program that uses a container generated by tagged_box! by the contract of C35 (storing, cloning, comparing, printing, viewing, changing in place, taking out), with any user impls that leave live memory alone, may panic and may keep memory of their own, never reads through a pointer for another block or for none; it sees and leaves behind exactly what C35 says, whatever else is live and however blocks are numbered. If casts of integers give pointers for no block, then for every variant that takes up memory into_inner, from_tagged_box and Clone are undefined behaviour in every state, and no closure given to ref_from_tagged_box is ever called; unit variants still work.",
"all enum definitions, programs, user impls, allocators, starting states, numberings of blocks, settings","Provenance exists only in the abstract machine; native tests pass with or without it.",
["src/tagged_box_macro/mod.rs into_inner, into_tagged_box, from_tagged_box, ref_from_tagged_box",TB+"new",TB+"into_inner",TB+"as_ptr","src/tagged_box.rs trait impls"])

p("C70","Destructors that panic",
"Any destructor may panic, in any state. A program that uses the TaggedBox API by the documented contract and catches panics still never runs into undefined behaviour, and sees what the same program on plain variables sees. A call in which a destructor panics has done all of its work: after an assignment through as_mut_ref, as_mut_ptr or a raw pointer the new value is in place, the block of a dropped Box from into_box is freed, and the other fields are destroyed; only new of a zero-sized type, which destroys its argument (C22), then returns no box. No value is destroyed twice, none that was destroyed is still held, blocks are accounted for, other memory is untouched. The program is aborted only in a call that destroys something with a panicking destructor during another panic: new out of memory, or a value with several destructors. While there is memory, a program whose types have at most one destructor is never aborted; if no destructor panics, all is as in C38.",
"all programs, destructors that panic depending on the value and the whole state, allocators, starting states, settings","Takes destructors failing at each point of every history.",
[TB+"new",TB+"new_unchecked",TB+"as_mut_ref",TB+"as_mut_ptr",TB+"into_raw",TB+"into_box",TB+"into_inner"])

p("C71","Generated containers and destructors that panic",
"As C70, for programs that use the code generated by tagged_box! for an enum without a Drop impl of its own. Whatever destructors panic, a program that keeps the contracts never runs into undefined behaviour and sees what the program on plain values sees; every container holds its value, and other memory is untouched. A call in which a destructor panics has done all of its work, except that a container being made from a value without bytes is not there and its value is destroyed; an assignment through as_mut_ref has put the new value in place. No value is destroyed twice, none destroyed is still held (without Copy). The program is aborted only in a call that destroys something with a panicking destructor while out of memory or while another destructor panics: with at most one destructor per variant, and memory, never. With user impls that keep no block and destroy nothing, destructors run and blocks made are accounted for exactly. If no destructor panics all is as in C35. If the enum has a Drop impl (its fields then have no destructors) that panics in into_tagged_box, the value is already in a box nobody gets; out of memory the program is aborted. Looking at a unit variant with ref_from_tagged_box runs that impl after the callback, at other variants not.",
"all enums, programs, user impls, destructors that panic depending on the value and the whole state, allocators, starting states, settings","Takes destructors failing at each point of every history.",
[MM+"tagged_box!",TB+"Clone",TB+"as_mut_ref",TB+"new"])

p("C72","Destructors that do things",
"Destructors are any code: they may allocate, free memory (a String frees its buffer), write to memory and panic. If they leave alone the memory behind the program's variables (except the bytes of the value being destroyed) and that of others, then a program that uses the TaggedBox API by the documented contract never runs into undefined behaviour, sees what the program on plain variables sees, destroys no value twice, holds none that was destroyed, and keeps the memory of others; if destructors run no other destructors, those that ran are exactly those of the destroyed values, in order. A call that destroys something runs the destructors one after the other, each in the state the one before left, and then puts the new value in place or frees the Box's block, even if one panics. The program is aborted only as in C70; while there is memory, a program whose types have at most one destructor never. Destructors that never touch a live block of a size the program's boxes have leave all this alone. Destructors that do nothing but panic are those of C70.",
"all programs, destructors that change state and panic in any way, allocators, starting states, settings","Takes all destructors, run in all states a history can reach.",
[TB+"new",TB+"new_unchecked",TB+"as_mut_ref",TB+"as_mut_ptr",TB+"into_raw",TB+"into_box",TB+"into_inner"])

p("C73","Generated containers and destructors that do things",
"As C72, for programs that use the code generated by tagged_box! for an enum without a Drop impl of its own. Destructors may allocate, free, write to memory and panic. If they leave alone the heap blocks behind the program's containers (of one assigned to, only the block need stay) and the memory of others, a program that keeps the contracts never runs into undefined behaviour and sees what the program on plain values sees; every container holds its value, the memory of others is kept, and without Copy no value is destroyed twice and none destroyed is still held. If the user's impls and the destructors run no destructors of their own, and no payload without bytes has one, those that ran are exactly those of the destroyed values, in order. Dropping a value, assigning through as_mut_ref, and storing a value that gets no heap block (from_payload, From, Clone) run the destructors one after the other, each in the state the one before left, even if one panics; an assignment then puts the new value in place. The program is aborted only as in C71: with at most one destructor per variant, and memory, never. Destructors that never touch a live block of a size the enum's payloads have leave all this alone. Destructors that do nothing but panic are those of C71.",
"all enums, programs, user impls, destructors that change state and panic in any way, allocators, starting states, settings","Takes all destructors, run in all states a history can reach.",
[MM+"tagged_box!",TB+"Clone",TB+"as_mut_ref",TB+"new"])

p("C74","An enum's own Drop that panics",
"The generated code runs the Drop impl of an enum on every value put into a container (From, from_payload, Clone) and on every unit variant looked at (comparing, formatting, cloning, viewing). If this impl may panic, on any values in any states, a program that uses the generated code and keeps its contracts still never runs into undefined behaviour and sees what the program on plain values sees; every container holds its value and the memory of others is kept. A call in which Drop panics has done its work, but a container being made is lost (its block stays allocated), and a clone is not made at all if the look at the box panics. If the user's other impls keep no block and destroy nothing, Drop has been run exactly on the values put into containers, the unit variants looked at and the values that went out of scope, in order, and on nothing else, and every container that needed one has its heap block. The program is aborted only in a call in which a Drop that may panic is run together with another one, with a panic of the user's impls or without memory for the call; without unit variants and with memory, never. If Drop never panics, programs do what they do in C35.",
"all enums with a Drop impl, programs, user impls, Drop impls that panic in any states, allocators, starting states, settings","Takes all histories of panics.",
[MM+"tagged_box!",TB+"Clone",TB+"PartialEq",TB+"fmt::Debug"])

p("C75","An enum's own Drop that does things",
"As C74, with a Drop impl that may do anything to the state, and panic, as long as it leaves alone the blocks of others and all blocks of a size the enum's values have: it may allocate, free and write to other blocks, made by itself or not. A program that keeps the contracts of the generated code still never runs into undefined behaviour, sees what the program on plain values sees, finds its values in its containers, leaves the memory of others as it was, and is aborted only as in C74. Putting a value into a container stores it first and then runs Drop on it, in the state with the value stored; the container has the value, whatever Drop does, although nobody gets it if Drop panics. Looking at a unit variant runs Drop after the user's code, in the state that code leaves; looking at any other variant never does. If neither Drop nor the user's other impls free or keep blocks or run destructors, Drop has been run exactly on the values C74 names, in order, and the heap blocks are those of the containers. A Drop that does nothing but panic is that of C74.",
"all enums with a Drop impl, programs, user impls, Drop impls that leave these blocks alone, allocators, starting states, settings","Takes all effects at all times.",
[MM+"tagged_box!",TB+"Clone",TB+"PartialEq",TB+"fmt::Debug"])

out=os.path.join(os.path.dirname(os.path.abspath(__file__)),"..","properties.jsonl")
open(out,"w").write("".join(json.dumps(x)+"\n" for x in P))
print(len(P))
