# Formal model of tagged-box in Rocq (Coq 8.16.1)

All Coq files are in `rocq/theories` (logical name `Verif`); only the Coq standard library is used.

## Layers of the model (files)

Model files (every definition cites the file and lines of the repository it transcribes):

| file | models | of |
|---|---|---|
| `Words.v` | u64 shift / mask / cast | Rust integer semantics |
| `Config.v` | the 16 settings, cfg selection, build script stdout and cargo's reading of it | `src/discriminant.rs`, `build.rs` |
| `Pointer.v` | `TaggedPointer` | `src/tagged_pointer.rs` |
| `Fmt.v` | the numeric formats, `{:p}` and Debug under all formatting options | `src/lib.rs` `impl_fmt!`, `tagged_pointer.rs` fmt impls |
| `Mem.v` | byte memory, live blocks, event log, outcome monad (Ok / Panicked / UB), types, layouts | Rust abstract machine (the part used) |
| `Box.v` | `TaggedBox<T>`, its trait impls, Rust's `Box` as used by clients | `src/tagged_box.rs` |
| `Arms.v` | the hand-expanded tuple arms, one table entry per macro arm | `src/tagged_box_macro/meta_macros.rs` |
| `Macro.v` | code generated by `tagged_box!` for an arbitrary enum definition | `src/tagged_box_macro/mod.rs` |
| `Tokens.v` | the `macro_rules!` munchers on token trees, recursion limit | `src/tagged_box_macro/mod.rs` |
| `Manual.v` | the hand-written implementations of the guide and of the macro's documentation | `src/manually_impl_enum.rs`, docs in `mod.rs` |
| `Rustc.v` | one concrete tuple layout (field reordering as in rustc around 1.42, from memory), only an instance of the arbitrary layout | rustc, not in the repository |
| `Messages.v` | the texts of the panics | all panicking code of the crate |
| `Session.v` | client programs of the `TaggedBox` API | the public API |
| `Containers.v` | client programs of the generated containers | the public API |
| `Multi.v` | programs using several enums, the manual API and other code side by side | the public API |
| `Threads.v` | threads using boxes at the same time, each call a list of single accesses | the public API |
| `KThreads.v` | threads using generated containers, each call a list of single accesses and calls of user code | `tagged_box_macro/mod.rs:739-831`, `tagged_box.rs:483-589` |
| `Source.v` | the text of all macros, copied by `tools/gen_source.py` | `tagged_box_macro/mod.rs:5-832`, `meta_macros.rs:4-915` |
| `Lexer.v`, `MacroRules.v` | rustc's lexer and `macro_rules!`: reading, matching, transcribing, expanding | Rust, as far as used by that text |
| `CrateMacros.v`, `Generated.v` | the macros as read from the text; the macros that generate macros | `tagged_box_macro/mod.rs`, `meta_macros.rs` |
| `Constants.v` | the value of the code `__generate_const_sizes!` writes | `tagged_box_macro/mod.rs:160-179` |
| `Heads.v` | what stands in front of the variants; attributes and visibilities | `tagged_box_macro/mod.rs:26-29, 733-743, 777-781` |
| `Compile.v` | one whole call: tokens, attributes, declarations, impls, names, tags | `tagged_box_macro/mod.rs:732-832` |
| `Refs.v` | clients that keep references into boxes; Rust's borrow rules | the public API |
| `Names.v` | what every name in the generated code means: scopes, local structs, `Self`, type parameters | `src/tagged_box_macro/mod.rs`, `meta_macros.rs` |
| `Traits.v` | which derives and impls of standard traits the compiler accepts | attributes and impl headers in `mod.rs`, `tagged_box.rs` |
| `Decls.v` | the type declarations, their layout and auto traits | `tagged_pointer.rs`, `tagged_box.rs`, `mod.rs` |
| `Nested.v` | enums containing their own container, derived `Clone`, `PartialEq`, `Ord` for them | attributes in `mod.rs`, `tagged_box.rs` |
| `Interior.v` | `ref_from_tagged_box` for values with interior mutability | `mod.rs` |
| `Cargo.v` | when cargo runs the build script (documented behaviour of cargo), the makefile's builds | `build.rs`, `Makefile.toml` |
| `Tests.v` | the crate's tests, the settings the makefile runs them with | `mod tests` of `tagged_pointer.rs`, `tagged_box.rs`, `tagged_box_macro/mod.rs`; `Makefile.toml` |

Specifications (independent of the model's helper functions): `Spec.v`, `SpecFmt.v` (a reader of numbers), `SpecMem.v`, `SpecMacro.v`, `SpecTokens.v`, `SpecHeads.v`, `SpecCompile.v`, `SpecText.v` (Rust code with holes), `SpecNames.v`, `SpecLeak.v`,
`SpecSession.v`, `SpecContainers.v`, `SpecMulti.v`, `SpecThreads.v`, `SpecKThreads.v`, `SpecRefs.v`. The last six are abstract machines on plain values.

Proofs: `ConfigFacts.v`, `PointerFacts.v`, `FmtFacts.v`, `MemFacts.v`, `BoxFacts.v`, `MacroFacts.v`, `TokensFacts.v`,
`SessionFacts.v`, `NamesFacts.v`, `ThreadsFacts.v`, `KThreads*.v`, `MacroRulesFacts.v`, `Text*.v` (lemmas); `Bump.v` (a concrete allocator and types meeting all hypotheses, used by the examples); `Props_*.v`
(property theorems named after the property, examples meeting their hypotheses, `Print Assumptions`).

`tools/` generates `properties.jsonl`, `MANIFEST.json` and the table in `Arms.v`. `seeded/mutate.py` applies wrong edits to the
model in a scratch copy and reports which theorems fail; `seeded/LOG.jsonl` records the attempts. A theorem is listed as
failed when its proof, or one it uses, no longer goes through; this does not prove that it is false of the edited model. In
particular an edit that drops part of a hypothesis can break a proof script alone; where that matters there is an example that
the part is needed (as `C75_needs`, `C75_needs_others`).

### Key decisions

* A `Discriminant`/`u64` is an `N`; wrap-around is explicit (`mod 2^64`, `mod 2^8`, ...).
* Build profile (`debug_assertions`) and pointer width of the target (32/64) are parameters of every function.
* A panic is an outcome carrying the message data and the state after unwinding (values owned by the frame are dropped); undefined
  behaviour is a separate outcome `UB`. "No UB" is always part of a conclusion, never assumed.
* Types are records (name, size, alignment, validity predicate on byte strings, has-destructor, Copy) and values are their byte
  strings; theorems quantify over all such types. A struct is a list of fields with offsets: `repr(C)` offsets are computed by the
  C algorithm; the layout of Rust tuples (`repr(Rust)`) is an arbitrary function, a parameter, because Rust leaves it unspecified.
* The allocator is an arbitrary function of the whole state (which holds the whole event history), size and alignment, that may
  fail. Its contract (non-null, aligned, inside the address space, disjoint from live blocks) is a hypothesis shown satisfiable by
  a concrete bump allocator.
* User code (Clone, comparisons, formatting, closures) is an arbitrary function argument.
* Enum definitions are arbitrary lists of variants (unit, tuple of any arity, struct).

## Plan per property

* C01 `Config.v`: build script output as lines of text, cargo's line parser, cfg-gated module list. Proved for all values without a
  line break; refuted in general by a value with an embedded line break.
* C02 finite sweep over the 16 rows lifted to all rows. C03 refuted for 52bits, proved for the other 15.
* C04-C09, C12 `Pointer.v`: bit-level code equals arithmetic spec `addr + disc * 2^w`; round trips, exact panic condition, bijection.
* C07: derived order on the raw word equals lexicographic order on (disc, addr).
* C10, C11 `Fmt.v`: digit strings with a parser; injectivity.
* C13-C22 `Box.v` over `Mem.v`: read-after-write for arbitrary layouts, allocation events, frame.
* C23-C25 over an arbitrary `TaggableInner` instance and then the macro's.
* C26-C30, C33, C34 `Macro.v`. C31: type-check predicate of the expansion. C32: `Tokens.v`.
* C35-C37 simulation of client programs of containers by an abstract machine on plain values (`SpecContainers.v`). A program is a
  tree that chooses each operation from what it saw so far. The abstract machine is told by a list of booleans at which calls
  memory is out; the list is the one computed along the run (`kshortages`: the allocator answers "no block" for the block that call
  needs). C38 likewise, with `shortages`, for the manual API (`SpecSession.v`). C39, C40: what copies and wrong types lead to.
* C41 equality of two programs. C42 truncation of large addresses. C43 enums with their own `Drop`. C44, C45 macro errors and limits.
* C46 texts of the panics; the chain of rebuilds that the address panic's advice leads to.
* C47 `Tests.v`: each test is a program of the modelled functions with its assertions; in which settings and profiles all pass.
* C48 `Cargo.v`: remembered runs of the build script; histories of builds, edits and `cargo clean`.
* C49 `Names.v`: the places of the generated code with the scopes they stand in; forbidden names in `SpecNames.v`.
* C50 `Docs.v`: the examples in the documentation as programs with assertions, as in C47.
* C51 `Bench.v`, `SpecLeak.v`: loops that make boxes; disjoint blocks fit the address space only so often. The benchmarks.
* C52 `Containers.v` `container_debug`: the derived Debug of the container around the box's.
* C53 `Traits.v`: the two expansions of each derive, the impl headers of `TaggedBox`, moves out of types with `Drop`.
* C54 `Decls.v`: the three type declarations, `repr(transparent)`, auto traits.
* C55 `Nested.v`: trees of containers in memory; derived impls run down the tree with a fuel.
* C56 `Interior.v`: closures whose result includes the contents they leave behind the reference.
* C57 uses the box model and the macro model together; no new definitions.
* C58 `Props_DocNumbers.v` transcribes the table of settings of the documentation.
* C59 `Multi.v`, `SpecMulti.v`: the abstract machines of C35 and C38 side by side. Other code is an arbitrary function on the state
  that leaves the blocks behind the boxes alone; a concrete example of code that does not shows that this is needed.
* C60 `Threads.v`, `SpecThreads.v`: a scheduler picks the thread that makes the next access. `ThreadsFacts.v` has an invariant that
  gives every thread the variables it may use, with the blocks behind them, and shows each access stays inside.
* C61 `Refs.v`, `SpecRefs.v`: references are kept in variables of their own; a step that the borrow checker refuses does not compile.
  The invariant of C38 plus: a borrowed variable still holds the box, and no mutable borrow meets another one.
* C62 `Heads.v`: the one arm of `tagged_box!` as a parser, shown inverse to writing the head down (`SpecHeads.v`); the compiler's checks on
  the two items (E0412, E0446, E0692) against who can name what.
* C63 `Compile.v`, `SpecCompile.v`: the pieces of C31, C32, C33, C44, C45, C49, C53 and C62 put together. One predicate says that a call of the
  macro compiles; it is shown equivalent to a list of conditions on the text, and to give the premises (`macro_setup`) of C26 and of
  all other theorems about generated code.
* C64 `KThreads.v`, `SpecKThreads.v`: C60 for the containers of C35. A call is a list of accesses, with the user's `clone`, comparisons and
  printing in between. Nothing a container allocates is ever changed or freed by another call, so the invariant (`KThreadsInv.v`) needs
  one set of finished blocks, which everybody may read, and per thread the block it is filling. `KThreadsWp.v` proves each call correct
  whatever the others do outside these.
* C65 `Source.v`, `MacroRules.v`, `SpecText.v`: `Tokens.v` transcribes each macro by hand; here the text itself is read and expanded by a model of
  `macro_rules!`, and the two are shown to agree. `MacroRulesFacts.v` relates matching by pattern to the parsers of `Tokens.v`;
  `TextMacros.v` and `TextParts.v` do one macro after the other, by induction over the definition; `TextWhole.v` and `TextRefused.v` put
  them together.
* C66 `Generated.v`: the generator macros run by the same model of `macro_rules!`; a closed computation.
* C67 `Props_Unused.v`: the macros nothing calls, for any arguments and recursion limit; `Constants.v` evaluates the code one of them writes.
* C68 `Provenance.v`, `Props_Provenance.v`: the programs of C38 on a machine whose pointers know the block they are for.
* C69 `KProvenance.v`, `KProvenanceFacts.v`, `Props_KProvenance.v`: the same for the programs of C35. Code of the user's impls runs as in C35; the blocks it makes get numbers when it returns, keep them, and are not exposed.
* C70 `DropPanics.v`, `SpecDropPanics.v`, `DropPanicsFacts.v`, `Props_DropPanics.v`: the programs of C38 on a machine on which any destructor may panic (an arbitrary function of value and state). Code
  runs with a flag that says whether a panic is unwinding; `finally` is Rust's cleanup (the other fields, the block of a `Box`, the value moved in by an assignment, `val` of `new`); a panic during unwinding
  aborts. Every step either leaves the state it leaves without panics or aborts, which carries C38 over.
* C71 `KDropPanics.v`, `SpecKDropPanics.v`, `KDropPanicsFacts.v`, `Props_KDropPanics.v`: the same for the programs of C35. Not modelled: panics of destructors
  inside the user's own impls other than as panics of these impls. Whole programs of an enum with a `Drop` impl that panics are C74.
* C10, C46 `SpecMessageText.v`, `Props_MessageText.v`: formatted numbers and panic messages character by character, against the documentation of `std::fmt` and the format strings of the source.
* C72 `Destructors.v`, `SpecDestructors.v`, `DestructorsFacts.v`, `Props_Destructors.v`: C70 with destructors that also change the state, in any way that leaves alone what the program's variables stand
  for (`polite`). Values are still byte strings: what they own elsewhere (a `String`'s buffer) is known only to their destructors.
* C73 `KDestructors.v`, `SpecKDestructors.v`, `KDestructorsFacts.v`, `Props_KDestructors.v`: C71 with destructors that also change the state (`kpolite`). Each step is related to the step without effects
  (`elike`), which carries C35 over as in C71.
* C74 `OwnDrop.v`, `SpecOwnDrop.v`, `OwnDropFacts.v`, `Props_OwnDrop.v`: C71 for enums with a `Drop` impl of their own. The calls that look at a box are modelled anew on the machine of C70 (`od_one`, `od_two`,
  `od_clone`), as looking runs `Drop` on unit variants; `od_drops` lists the values it is run on. The impl panics or not, as any function of value and state, but does nothing else.
* C75 `OwnEffects.v`, `SpecOwnEffects.v`, `OwnEffectsFacts.v`, `Props_OwnEffects.v`: C74 with a `Drop` impl that also changes the state, in any way that leaves alone
  a set of blocks (`gentle`) which has the blocks of others and all blocks of a size the enum's values have (`covers`). That asks for more than `kpolite` of C73, as a container being made is not yet in a variable. C75_needs shows what a `Drop` that frees others' blocks does. For C75_accounting it also keeps no block and runs no destructor (`tidy`).

Every hypothesis of a property theorem must be satisfiable together with the others; an `Example` named after each theorem that has
hypotheses applies it to a concrete case. (An earlier version of C35, C37 and C38 assumed an allocator that never fails, which
contradicts `env_ok`: no allocator has room for every size. They now assume that memory lasts along the run in question. An earlier
version of C56_place let the address of the buffer be set in any value to any number, which no value of fixed size allows.)

Where the code violates the property as a user would state it, a `_refuted` theorem proves the negation with a witness, next to a
theorem for the strongest true version.

## Trusted base

1. Coq 8.16.1's kernel (`coqchk` included), `coqc`, `vm_compute` (used in examples and finite sweeps; part of the kernel).
2. Axioms: none. `Print Assumptions` says "Closed under the global context" for every theorem named in `MANIFEST.json`. (`coqchk -o`
   over the whole development additionally lists seven fields `Coq.ssr.ssrunder.Under_rel.*` of a module type in Coq's own standard
   library that is loaded indirectly; no theorem uses them.)
3. That the model files say what the Rust code does. They were transcribed by hand, function by function, with file and line
   references; `Arms.v` by `tools/gen_arms.py`, the text in `Source.v` by `tools/gen_source.py`. The code was read, never run.
4. That `Mem.v` is a fair picture of the part of Rust's semantics used: see below.

### Modelled

* `build.rs` completely (except `dbg!` output), `src/discriminant.rs` completely.
* `src/tagged_pointer.rs` completely, both profiles, 32- and 64-bit targets.
* `src/tagged_box.rs` completely: constructors, accessors, conversions, all trait impls.
* `src/taggable.rs`: the two traits.
* `src/tagged_box_macro`: every macro arm, on two levels. `Tokens.v` runs the munchers on token trees; `Macro.v` gives the generated
  functions their meaning. C32 connects the two, and C65 connects both to the text of the macros.
* `src/manually_impl_enum.rs` and the expansion shown in the macro's documentation: the code in the docs.
* `benches/tagged_box.rs` (`Bench.v`).
* The unit tests, `tests/` (`Tests.v`) and the examples in doc comments and `README.md` (`Docs.v`).

### Assumptions visible in the theorems

* `target_ok`: the setting is one of the table, pointers have 32 or 64 bits.
* `alloc_ok`: the contract of `GlobalAlloc`; `alloc_fits`: its addresses fit the reserved width. C19 and C42 say what happens otherwise.
* `layout_legal` / `wf_ty`: size, alignment and offsets follow Rust's rules. `tuples_legal`: so does the compiler's tuple layout.
* `hval_ok`: a value handed to a function is a value of its type.
* `def_ok`: rustc accepts the enum (distinct names, `Copy` and `Drop` rules, no two conflicting `From` impls).
* `tag_fits`: the variant stored has a place not above `MAX_DISCRIMINANT`. C27 says what happens otherwise.
* User code (impls, closures) in single-call theorems is arbitrary. In C35-C37 it may return or panic, depending on the
  values it is given and on the whole state, and must leave live memory alone.
* Field types have no interior mutability except in C56: elsewhere, user code given a reference leaves the value behind it unchanged.
* In C35-C37 `as_mut_ref` on a container's box is used only at the field type of the single-field variant it holds.

### Simplifications

* A value is its bytes. A reference is the value seen through it, with Rust's validity conditions checked when it is made.
* Destructors are events in a log. They do not panic except in C70 to C75, and do not change memory except in C72, C73 and C75. They never use the program's own boxes.
* `TaggedBox<T>`'s type parameter has no run-time content. Its auto traits are in `Decls.v`; variance is not modelled.
* `Type` syntax in `Tokens.v`: how many token trees a `$ty:ty` fragment takes is a parameter of the model.
* `core::fmt` (padding of integers, raw pointers, `debug_struct`) is modelled as in the current standard library, with an ASCII fill character.
* Names (C49): types are trees over names; lookup from the inside out, types and values apart; a field type must mean the same
  wherever it is written. Not modelled: names of macros, lifetimes, user constants with the name of a macro variable.
* Traits (C53): only derives of core's traits, hand-written impls of the same traits and `Display`, `Drop`; the bodies of hand-written
  impls are taken to compile. Other attributes (`repr`, `cfg`, ..) are not modelled.
* Recursive enums (C55): a container as a field is the eight bytes of its word. The derived impls are the field-by-field code of core's
  derives. Recursion deeper than the fuel counts as a panic (a stack overflow); theorems assume enough.
* Cargo (C48): cargo keeps one run of the script per kind of build and decides by the files of the package and the lines
  `cargo:rerun-if-env-changed=`, `cargo:rerun-if-changed=`, as its documentation says. Other reasons for a rerun (another compiler,
  changed dependencies of the script, deleted output) are not modelled.
* Tests (C47): 64-bit targets. Stack variables are blocks of memory. A string or vector is three opaque words with given contents;
  what `clone` and `push_str` do to the contents is assumed (`std_ok`). Views nested in each other are taken one after the other.
  Memory must last for the run (`memory_lasts`).
* Documentation (C50): as C47. The example that reads a `String` as a `Vec<Paper>` is undefined behaviour in
  Rust whatever the bits; the model only asks whether the bits are a value of the other type (`papers`).
* Threads (C60): the manual API only. Accesses happen one at a time in some order, which is what Rust promises to programs without
  data races. What the allocator and destructors do inside counts as one access that touches no other thread's memory. Rust's ownership
  rules are a table of owners; a shared box stays shared.
* Threads with containers (C64): as C60, for all calls of C35 except those that change a value in place through the box (`KModify`,
  `KAssign`). The user's code is one step: it may do anything that leaves the memory in use alone (`implements keeps`), and what it
  returns may depend on the state it runs in.
* References (C61): the manual API only. A borrow lasts until the client ends it (`EndRef`), which is how the borrow checker treats it
  (non-lexical lifetimes); no reborrows or references into parts of a value. Exclusive means sharing no byte with another reference in
  use; Stacked Borrows is not modelled.
* Heads (C62): attribute arguments after `=` are literals, `cfg_attr` is taken to be expanded, nothing else in the module has the two names.
  Of the attributes only `repr` and `cfg` are interpreted here; derives are in C53.
* Whole calls (C63): there are no derive macros but those of core, other attributes have no effect, two types are equal if they have the
  same name, the keywords are those of edition 2018. Type syntax and the field types' sizes and impls are parameters.
* Texts (C65, C66): the lexer knows what occurs in the macros (no lifetimes, block comments, escapes, operators of three characters). In
  `macro_rules!` a repetition takes as many as it can and an `expr` or `path` fragment goes up to the next comma, which is what happens with
  the patterns and calls of the crate; no hygiene (see C49). `stringify!` and `panic!` in the generated code are left as calls.
* The recursion limit (C45) counts the crate's own macros, not the macros of the standard library in the generated code.

### Not modelled

Rust's aliasing rules; pointer provenance outside of C68 and C69 (elsewhere the integer-to-pointer casts of the crate are taken to give usable pointers);
what an optimiser does after undefined behaviour; macro hygiene corner cases such as user constants named like a pattern binder;
compile-time `const` evaluation of the `const fn`s (they are
ordinary functions here); `Cargo.toml`; the benchmark harness (what it runs is in `Bench.v`).
