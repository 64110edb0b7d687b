{
 "claims": [
  {
   "property": "C01",
   "status": "proved",
   "theorems": [
    "C01_one_setting",
    "C01_request_unique",
    "C01_refuted"
   ],
   "note": "C01_refuted: two settings enabled through a line break."
  },
  {
   "property": "C02",
   "status": "proved",
   "theorems": [
    "C02_split",
    "C02_selectable"
   ],
   "note": ""
  },
  {
   "property": "C03",
   "status": "proved",
   "theorems": [
    "C03_exact",
    "C03_refuted"
   ],
   "note": "Defect: wrong constant for 52bits."
  },
  {
   "property": "C04",
   "status": "proved",
   "theorems": [
    "C04_round_trip"
   ],
   "note": ""
  },
  {
   "property": "C05",
   "status": "proved",
   "theorems": [
    "C05_panics_debug",
    "C05_message",
    "C05_never_in_release",
    "C05_refuted"
   ],
   "note": "Defect: documented panic missing in release builds (C05_never_in_release, C05_refuted)."
  },
  {
   "property": "C06",
   "status": "proved",
   "theorems": [
    "C06_pack",
    "C06_injective",
    "C06_surjective",
    "C06_independent"
   ],
   "note": ""
  },
  {
   "property": "C07",
   "status": "proved",
   "theorems": [
    "C07_order",
    "C07_total"
   ],
   "note": ""
  },
  {
   "property": "C08",
   "status": "proved",
   "theorems": [
    "C08_release"
   ],
   "note": ""
  },
  {
   "property": "C09",
   "status": "proved",
   "theorems": [
    "C09_dangling",
    "C09_box"
   ],
   "note": ""
  },
  {
   "property": "C10",
   "status": "proved",
   "theorems": [
    "C10_fmt",
    "C10_width",
    "C10_fmt_address",
    "C10_injective",
    "C10_box_fmt",
    "C10_layout",
    "C10_box_layout"
   ],
   "note": ""
  },
  {
   "property": "C11",
   "status": "proved",
   "theorems": [
    "C11_shows",
    "C11_debug",
    "C11_pointer",
    "C11_layout",
    "C11_debug32_loses_bits"
   ],
   "note": ""
  },
  {
   "property": "C12",
   "status": "proved",
   "theorems": [
    "C12_bits32"
   ],
   "note": ""
  },
  {
   "property": "C13",
   "status": "proved",
   "theorems": [
    "C13_new_read"
   ],
   "note": ""
  },
  {
   "property": "C14",
   "status": "proved",
   "theorems": [
    "C14_allocation"
   ],
   "note": ""
  },
  {
   "property": "C15",
   "status": "proved",
   "theorems": [
    "C15_into_inner"
   ],
   "note": ""
  },
  {
   "property": "C16",
   "status": "proved",
   "theorems": [
    "C16_from_into",
    "C16_into_from",
    "C16_from_into_64"
   ],
   "note": ""
  },
  {
   "property": "C17",
   "status": "proved",
   "theorems": [
    "C17_assign",
    "C17_modify"
   ],
   "note": ""
  },
  {
   "property": "C18",
   "status": "proved",
   "theorems": [
    "C18_into_box"
   ],
   "note": ""
  },
  {
   "property": "C19",
   "status": "proved",
   "theorems": [
    "C19_null",
    "C19_out_of_range",
    "C19_zst_never_panics"
   ],
   "note": ""
  },
  {
   "property": "C20",
   "status": "proved",
   "theorems": [
    "C20_unchecked"
   ],
   "note": ""
  },
  {
   "property": "C21",
   "status": "proved",
   "theorems": [
    "C21_count",
    "C21_once",
    "C21_refuted"
   ],
   "note": "Defect for zero-sized types with a destructor (C21_refuted)."
  },
  {
   "property": "C22",
   "status": "proved",
   "theorems": [
    "C22_leaks",
    "C22_zst",
    "C22_refuted"
   ],
   "note": "Defect: nothing is ever reclaimed (C22_leaks)."
  },
  {
   "property": "C23",
   "status": "proved",
   "theorems": [
    "C23_clone",
    "C23_independent"
   ],
   "note": "For user Clone functions that keep live memory unchanged. \"Nothing is destroyed\" excludes zero-sized payloads with a destructor and enums with their own Drop impl (see C21, C29)."
  },
  {
   "property": "C24",
   "status": "proved",
   "theorems": [
    "C24_eq",
    "C24_partial_cmp",
    "C24_cmp"
   ],
   "note": "Enums with their own Drop impl: not for boxes holding a unit variant, see C29_refuted."
  },
  {
   "property": "C25",
   "status": "proved",
   "theorems": [
    "C25_debug",
    "C25_display"
   ],
   "note": "Enums with their own Drop impl: not for boxes holding a unit variant, see C29_refuted."
  },
  {
   "property": "C26",
   "status": "proved",
   "theorems": [
    "C26_round_trip"
   ],
   "note": ""
  },
  {
   "property": "C27",
   "status": "proved",
   "theorems": [
    "C27_unreadable",
    "C27_wrong_variant",
    "C27_dangling_payload",
    "C27_debug_panics",
    "C27_confused",
    "C27_sharp"
   ],
   "note": ""
  },
  {
   "property": "C28",
   "status": "proved",
   "theorems": [
    "C28_inverse",
    "C28_layout_needed",
    "C28_refuted"
   ],
   "note": "Defect for tuple variants of several fields: C28_refuted uses rustc's field reordering, C28_layout_needed is for any compiler."
  },
  {
   "property": "C29",
   "status": "proved",
   "theorems": [
    "C29_observes",
    "C29_unchanged",
    "C29_refuted",
    "C29_unit_drop"
   ],
   "note": "Defect for unit variants of enums with their own Drop impl (C29_refuted, C29_unit_drop)."
  },
  {
   "property": "C30",
   "status": "proved",
   "theorems": [
    "C30_builds",
    "C30_unambiguous"
   ],
   "note": ""
  },
  {
   "property": "C31",
   "status": "proved",
   "theorems": [
    "C31_exact",
    "C31_refuted"
   ],
   "note": "Defect: C31_refuted for 48bits."
  },
  {
   "property": "C32",
   "status": "proved",
   "theorems": [
    "C32_macro",
    "C32_unique",
    "C32_alike"
   ],
   "note": "For any parser of types that consumes tokens. The limit counts the crate's own macros."
  },
  {
   "property": "C33",
   "status": "proved",
   "theorems": [
    "C33_limit",
    "C33_store",
    "C33_expand"
   ],
   "note": ""
  },
  {
   "property": "C34",
   "status": "proved",
   "theorems": [
    "C34_unknown"
   ],
   "note": ""
  },
  {
   "property": "C35",
   "status": "proved",
   "theorems": [
    "C35_history",
    "C35_no_failure"
   ],
   "note": "User trait impls are arbitrary code assumed to return or panic and to leave live memory alone; what they return may depend on the state."
  },
  {
   "property": "C36",
   "status": "proved",
   "theorems": [
    "C36_blocks",
    "C36_accounting"
   ],
   "note": ""
  },
  {
   "property": "C37",
   "status": "proved",
   "theorems": [
    "C37_destroyed",
    "C37_accounting",
    "C37_once",
    "C37_copy",
    "C37_untouched"
   ],
   "note": "Enums with their own Drop impl: C43; zero-sized droppable payloads: C21."
  },
  {
   "property": "C38",
   "status": "proved",
   "theorems": [
    "C38_history",
    "C38_no_failure",
    "C38_once"
   ],
   "note": ""
  },
  {
   "property": "C39",
   "status": "proved",
   "theorems": [
    "C39_double_free",
    "C39_double_drop",
    "C37_copy",
    "C35_history"
   ],
   "note": "Defect. The last sentence is C35_history (programs with KCopy) and C37_copy."
  },
  {
   "property": "C40",
   "status": "proved",
   "theorems": [
    "C40_dangling",
    "C40_misaligned",
    "C40_transmutes",
    "C40_confuses",
    "C35_history"
   ],
   "note": "Defect."
  },
  {
   "property": "C41",
   "status": "proved",
   "theorems": [
    "C41_guide_into",
    "C41_guide_inner",
    "C41_guide_from",
    "C41_guide_ref",
    "C41_doc_into",
    "C41_doc_from",
    "C41_doc_ref",
    "C41_every_setting"
   ],
   "note": "Equal up to the panic message for unknown tags."
  },
  {
   "property": "C42",
   "status": "proved",
   "theorems": [
    "C42_release_truncates"
   ],
   "note": ""
  },
  {
   "property": "C43",
   "status": "proved",
   "theorems": [
    "C43_destroyed_on_storing",
    "C43_destroyed_twice",
    "C43_clone",
    "C43_only_then"
   ],
   "note": "Defect."
  },
  {
   "property": "C44",
   "status": "proved",
   "theorems": [
    "C44_no_message",
    "C44_loops"
   ],
   "note": "Defect."
  },
  {
   "property": "C45",
   "status": "proved",
   "theorems": [
    "C45_limit",
    "C45_too_many"
   ],
   "note": "Macros of the standard library in the generated code (panic!, stringify!) need a few more levels, which are not modelled."
  },
  {
   "property": "C46",
   "status": "proved",
   "theorems": [
    "C46_message_determines",
    "C46_text",
    "C46_advice",
    "C46_refuted",
    "C46_reaches",
    "C46_never"
   ],
   "note": "Defect (refuted part) at 63bits. Cargo.toml declares no features, so the advice is read as a value of the environment variable."
  },
  {
   "property": "C47",
   "status": "proved",
   "theorems": [
    "C47_suite",
    "C47_makefile",
    "C47_compiles",
    "C47_tagged_pointer",
    "C47_oversized",
    "C47_pointer_tests",
    "C47_new",
    "C47_new_zst",
    "C47_container_into_inner",
    "C47_item_tests",
    "C47_wrapped",
    "C47_storage",
    "C47_clone",
    "C47_tagged_box",
    "C47_surroundings"
   ],
   "note": "Defect: eight of the makefile's ten runs cannot pass, nor does any release run in the default setting. 32-bit targets are not covered (the tests' usize literals do not fit)."
  },
  {
   "property": "C48",
   "status": "proved",
   "theorems": [
    "C48_exact",
    "C48_stale",
    "C48_refuted",
    "C48_clean",
    "C48_repaired",
    "C48_test_all",
    "C48_miri_all",
    "C48_reports",
    "C48_miri_reports",
    "C48_half"
   ],
   "note": "Defect (refuted part). Rests on cargo's documented change detection, which is not part of the repository."
  },
  {
   "property": "C49",
   "status": "proved",
   "theorems": [
    "C49_names",
    "C49_own_name",
    "C49_single_name"
   ],
   "note": "Rests on Rust's rules of name lookup (items and type parameters of macro_rules! are not hygienic), which are not part of the repository; macro names and user constants with the name of a macro variable are not modelled."
  },
  {
   "property": "C50",
   "status": "proved",
   "theorems": [
    "C50_docs",
    "C50_untagged",
    "C50_tagged",
    "C50_discriminant",
    "C50_compiles",
    "C50_readme",
    "C50_works",
    "C50_does_not_work",
    "C50_greeting",
    "C50_misread",
    "C50_surroundings"
   ],
   "note": "The should_panic example that reads a String as a Vec<Paper> is undefined in Rust; C50_misread says under which reading of the bits it gets to its panic."
  },
  {
   "property": "C51",
   "status": "proved",
   "theorems": [
    "C51_new",
    "C51_into",
    "C51_programs",
    "C51_forever",
    "C51_loop",
    "C51_space",
    "C51_box",
    "C51_benchmarks"
   ],
   "note": "Defect: nothing reclaims a box (C22). Programs: user impls keep no blocks of their own and leave the heap in order."
  },
  {
   "property": "C52",
   "status": "proved",
   "theorems": [
    "C52_shown",
    "C52_error",
    "C52_panic",
    "C52_faithful"
   ],
   "note": "The Debug impl of TaggedBox never passes on the formatting options (C25). An enum with a Drop impl of its own is covered except for its unit variants (no_own_drop)."
  },
  {
   "property": "C53",
   "status": "proved",
   "theorems": [
    "C53_box",
    "C53_coherent",
    "C53_accepted",
    "C53_derives",
    "C53_def_ok"
   ],
   "note": "Rust's rules for derives and impls are modelled as far as used; attributes other than derives are not."
  },
  {
   "property": "C54",
   "status": "proved",
   "theorems": [
    "C54_size",
    "C54_auto",
    "C54_like_enum",
    "C54_box"
   ],
   "note": "Auto traits by Rust's structural rule. The last point is a gap in the manual API: the element type of new is not tied to the box's type parameter."
  },
  {
   "property": "C55",
   "status": "proved",
   "theorems": [
    "C55_no_drop",
    "C55_no_wrapper",
    "C55_build",
    "C55_take",
    "C55_lost",
    "C55_clone",
    "C55_independent",
    "C55_eq",
    "C55_cmp",
    "C55_consistent"
   ],
   "note": "Recursion of the derived impls has a fuel; the theorems hold for every fuel of at least the depth of the tree (below it stands for a stack overflow). What core's derives expand to is modelled."
  },
  {
   "property": "C56",
   "status": "proved",
   "theorems": [
    "C56_lost",
    "C56_refuted",
    "C56_place",
    "C56_dangling",
    "C56_eq"
   ],
   "note": "C56_refuted: the documented meaning of ref_from_tagged_box does not hold (a defect). What a closure changes behind its reference is part of its result in the model."
  },
  {
   "property": "C57",
   "status": "proved",
   "theorems": [
    "C57_made",
    "C57_by_hand",
    "C57_taken",
    "C57_tuple",
    "C57_refuted"
   ],
   "note": "Defect (refuted part): the two reading functions disagree on hand-made tuple boxes."
  },
  {
   "property": "C58",
   "status": "proved",
   "theorems": [
    "C58_table",
    "C58_seven",
    "C58_refuted",
    "C58_variants"
   ],
   "note": "Documentation defect (refuted part)."
  },
  {
   "property": "C59",
   "status": "proved",
   "theorems": [
    "C59_history",
    "C59_accounting"
   ],
   "note": ""
  },
  {
   "property": "C60",
   "status": "proved",
   "theorems": [
    "C60_calls",
    "C60_threads",
    "C60_no_race",
    "C60_memory",
    "C60_wait_free",
    "C60_copies_race"
   ],
   "note": ""
  },
  {
   "property": "C61",
   "status": "proved",
   "theorems": [
    "C61_history",
    "C61_exclusive",
    "C61_once",
    "C61_copies_alias",
    "C61_copies_dangle"
   ],
   "note": ""
  },
  {
   "property": "C62",
   "status": "proved",
   "theorems": [
    "C62_syntax",
    "C62_items",
    "C62_accepted",
    "C62_refused"
   ],
   "note": ""
  },
  {
   "property": "C63",
   "status": "proved",
   "theorems": [
    "C63_exact",
    "C63_setup",
    "C63_works"
   ],
   "note": "Rust's own checks are modelled as far as listed in Heads.v, Traits.v, Names.v and Compile.v; type parsing and the field types' properties are parameters."
  },
  {
   "property": "C64",
   "status": "proved",
   "theorems": [
    "C64_calls",
    "C64_threads",
    "C64_no_race",
    "C64_memory",
    "C64_wait_free"
   ],
   "note": "Calls that change a value in place (as_mut_ref on the container's box) are not included; the statement says so."
  },
  {
   "property": "C65",
   "status": "proved",
   "theorems": [
    "C65_text",
    "C65_any",
    "C65_source",
    "C65_same"
   ],
   "note": "Holds for a model of macro_rules! that is simplified where Lexer.v and MacroRules.v say so; how types are parsed is a parameter, as in C32."
  },
  {
   "property": "C66",
   "status": "proved",
   "theorems": [
    "C66_generated"
   ],
   "note": "A closed statement about the two macros and their generators, proved by computation."
  },
  {
   "property": "C67",
   "status": "proved",
   "theorems": [
    "C67_verify",
    "C67_sizes",
    "C67_sizes_only",
    "C67_value",
    "C67_uncalled"
   ],
   "note": "C67_sizes and C67_sizes_only: that no type begins with @ is a hypothesis on the parser for types. C67_sizes_only is about arguments not beginning with @, which is how the macro calls itself."
  },
  {
   "property": "C68",
   "status": "proved",
   "theorems": [
    "C68_exposed",
    "C68_strict",
    "C68_hidden",
    "C68_freed",
    "C68_calls"
   ],
   "note": "Which of several pointers for the same block may still be used (Stacked Borrows) is not modelled."
  },
  {
   "property": "C69",
   "status": "proved",
   "theorems": [
    "C69_exposed",
    "C69_strict",
    "C69_calls"
   ],
   "note": "KProvenance.v. The user's impls may make and keep memory of their own (relation separate); a block they free and make again in the same place within one call keeps its number."
  },
  {
   "property": "C70",
   "status": "proved",
   "theorems": [
    "C70_history",
    "C70_calm",
    "C70_no_abort"
   ],
   "note": "DropPanics.v. Manual API only; a destructor touches no live memory and does not call the crate. Each panic is caught by the client after the call."
  },
  {
   "property": "C71",
   "status": "proved",
   "theorems": [
    "C71_history",
    "C71_accounting",
    "C71_no_abort",
    "C71_calm",
    "C71_own_drop",
    "C71_look"
   ],
   "note": "KDropPanics.v. A destructor touches no live memory and does not call the crate; the user's trait impls return or panic, a destructor's panic inside them counts as theirs. Enums with a Drop impl of their own: C71_own_drop and C71_look per call; whole programs are C74."
  },
  {
   "property": "C72",
   "status": "proved",
   "theorems": [
    "C72_history",
    "C72_effects",
    "C72_no_abort",
    "C72_by_size",
    "C72_still"
   ],
   "note": "Destructors.v. Manual API only. A destructor runs to its end in one step and gets the field's value as it was before the first destructor of the call ran. It cannot use the program's own boxes. Blocks are not counted, as destructors may make and free some."
  },
  {
   "property": "C73",
   "status": "proved",
   "theorems": [
    "C73_history",
    "C73_destroyed",
    "C73_effects",
    "C73_no_abort",
    "C73_by_size",
    "C73_still"
   ],
   "note": "KDestructors.v. As C72: a destructor runs in one step on the value as it was before the call's first destructor ran, and cannot use the program's own containers. The user's impls return or panic and leave live memory alone. Enums with a Drop impl of their own are left out."
  },
  {
   "property": "C74",
   "status": "proved",
   "theorems": [
    "C74_history",
    "C74_accounting",
    "C74_no_abort",
    "C74_calm"
   ],
   "note": "OwnDrop.v. The Drop impl only panics or not: it changes no memory and does not call the crate. The user's other impls return or panic; a Drop panic inside them counts as theirs. Which Drop may panic is said per value, not per state."
  },
  {
   "property": "C75",
   "status": "proved",
   "theorems": [
    "C75_history",
    "C75_accounting",
    "C75_no_abort",
    "C75_store",
    "C75_look",
    "C75_still"
   ],
   "note": "OwnEffects.v. Drop leaves alone the blocks of others and all blocks of a size that the enum's values have, whoever made them (sufficient, not necessary, for leaving the containers alone); it does not call the crate. The rest as C74."
  }
 ]
}