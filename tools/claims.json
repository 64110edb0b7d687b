{
 "C01": [
  "proved",
  [
   "C01_one_setting",
   "C01_request_unique",
   "C01_refuted"
  ],
  "C01_refuted: two settings enabled through a line break."
 ],
 "C02": [
  "proved",
  [
   "C02_split",
   "C02_selectable"
  ],
  ""
 ],
 "C03": [
  "proved",
  [
   "C03_exact",
   "C03_refuted"
  ],
  "Defect: wrong constant for 52bits."
 ],
 "C04": [
  "proved",
  [
   "C04_round_trip"
  ],
  ""
 ],
 "C05": [
  "proved",
  [
   "C05_panics_debug",
   "C05_message",
   "C05_never_in_release",
   "C05_refuted"
  ],
  "Defect: documented panic missing in release builds (C05_never_in_release, C05_refuted)."
 ],
 "C06": [
  "proved",
  [
   "C06_pack",
   "C06_injective",
   "C06_surjective",
   "C06_independent"
  ],
  ""
 ],
 "C07": [
  "proved",
  [
   "C07_order",
   "C07_total"
  ],
  ""
 ],
 "C08": [
  "proved",
  [
   "C08_release"
  ],
  ""
 ],
 "C09": [
  "proved",
  [
   "C09_dangling",
   "C09_box"
  ],
  ""
 ],
 "C10": [
  "proved",
  [
   "C10_fmt",
   "C10_width",
   "C10_fmt_address",
   "C10_injective",
   "C10_box_fmt",
   "C10_layout",
   "C10_box_layout"
  ],
  ""
 ],
 "C11": [
  "proved",
  [
   "C11_shows",
   "C11_debug",
   "C11_pointer",
   "C11_layout",
   "C11_debug32_loses_bits"
  ],
  ""
 ],
 "C12": [
  "proved",
  [
   "C12_bits32"
  ],
  ""
 ],
 "C13": [
  "proved",
  [
   "C13_new_read"
  ],
  ""
 ],
 "C14": [
  "proved",
  [
   "C14_allocation"
  ],
  ""
 ],
 "C15": [
  "proved",
  [
   "C15_into_inner"
  ],
  ""
 ],
 "C16": [
  "proved",
  [
   "C16_from_into",
   "C16_into_from",
   "C16_from_into_64"
  ],
  ""
 ],
 "C17": [
  "proved",
  [
   "C17_assign",
   "C17_modify"
  ],
  ""
 ],
 "C18": [
  "proved",
  [
   "C18_into_box"
  ],
  ""
 ],
 "C19": [
  "proved",
  [
   "C19_null",
   "C19_out_of_range",
   "C19_zst_never_panics"
  ],
  ""
 ],
 "C20": [
  "proved",
  [
   "C20_unchecked"
  ],
  ""
 ],
 "C21": [
  "proved",
  [
   "C21_count",
   "C21_once",
   "C21_refuted"
  ],
  "Defect for zero-sized types with a destructor (C21_refuted)."
 ],
 "C22": [
  "proved",
  [
   "C22_leaks",
   "C22_zst",
   "C22_refuted"
  ],
  "Defect: nothing is ever reclaimed (C22_leaks)."
 ],
 "C23": [
  "proved",
  [
   "C23_clone",
   "C23_independent"
  ],
  "For user Clone functions that keep live memory unchanged. \"Nothing is destroyed\" excludes zero-sized payloads with a destructor and enums with their own Drop impl (see C21, C29)."
 ],
 "C24": [
  "proved",
  [
   "C24_eq",
   "C24_partial_cmp",
   "C24_cmp"
  ],
  "Enums with their own Drop impl: not for boxes holding a unit variant, see C29_refuted."
 ],
 "C25": [
  "proved",
  [
   "C25_debug",
   "C25_display"
  ],
  "Enums with their own Drop impl: not for boxes holding a unit variant, see C29_refuted."
 ],
 "C26": [
  "proved",
  [
   "C26_round_trip"
  ],
  ""
 ],
 "C27": [
  "proved",
  [
   "C27_unreadable",
   "C27_wrong_variant",
   "C27_dangling_payload",
   "C27_debug_panics",
   "C27_confused",
   "C27_sharp"
  ],
  ""
 ],
 "C28": [
  "proved",
  [
   "C28_inverse",
   "C28_layout_needed",
   "C28_refuted"
  ],
  "Defect for tuple variants of several fields: C28_refuted uses rustc's field reordering, C28_layout_needed is for any compiler."
 ],
 "C29": [
  "proved",
  [
   "C29_observes",
   "C29_unchanged",
   "C29_refuted",
   "C29_unit_drop"
  ],
  "Defect for unit variants of enums with their own Drop impl (C29_refuted, C29_unit_drop)."
 ],
 "C30": [
  "proved",
  [
   "C30_builds",
   "C30_unambiguous"
  ],
  ""
 ],
 "C31": [
  "proved",
  [
   "C31_exact",
   "C31_refuted"
  ],
  "Defect: C31_refuted for 48bits."
 ],
 "C33": [
  "proved",
  [
   "C33_limit",
   "C33_store",
   "C33_expand"
  ],
  ""
 ],
 "C34": [
  "proved",
  [
   "C34_unknown"
  ],
  ""
 ],
 "C42": [
  "proved",
  [
   "C42_release_truncates"
  ],
  ""
 ],
 "C32": [
  "proved",
  [
   "C32_macro",
   "C32_unique",
   "C32_alike"
  ],
  "For any parser of types that consumes tokens. The limit counts the crate's own macros."
 ],
 "C43": [
  "proved",
  [
   "C43_destroyed_on_storing",
   "C43_destroyed_twice",
   "C43_clone",
   "C43_only_then"
  ],
  "Defect."
 ],
 "C44": [
  "proved",
  [
   "C44_no_message",
   "C44_loops"
  ],
  "Defect."
 ],
 "C45": [
  "proved",
  [
   "C45_limit",
   "C45_too_many"
  ],
  "Macros of the standard library in the generated code (panic!, stringify!) need a few more levels, which are not modelled."
 ],
 "C41": [
  "proved",
  [
   "C41_guide_into",
   "C41_guide_inner",
   "C41_guide_from",
   "C41_guide_ref",
   "C41_doc_into",
   "C41_doc_from",
   "C41_doc_ref",
   "C41_every_setting"
  ],
  "Equal up to the panic message for unknown tags."
 ],
 "C35": [
  "proved",
  [
   "C35_history",
   "C35_no_failure"
  ],
  "User trait impls are arbitrary code assumed to return or panic and to leave live memory alone; what they return may depend on the state."
 ],
 "C36": [
  "proved",
  [
   "C36_blocks",
   "C36_accounting"
  ],
  ""
 ],
 "C37": [
  "proved",
  [
   "C37_destroyed",
   "C37_accounting",
   "C37_once",
   "C37_copy",
   "C37_untouched"
  ],
  "Enums with their own Drop impl: C43; zero-sized droppable payloads: C21."
 ],
 "C38": [
  "proved",
  [
   "C38_history",
   "C38_no_failure",
   "C38_once"
  ],
  ""
 ],
 "C39": [
  "proved",
  [
   "C39_double_free",
   "C39_double_drop",
   "C37_copy",
   "C35_history"
  ],
  "Defect. The last sentence is C35_history (programs with KCopy) and C37_copy."
 ],
 "C40": [
  "proved",
  [
   "C40_dangling",
   "C40_misaligned",
   "C40_transmutes",
   "C40_confuses",
   "C35_history"
  ],
  "Defect."
 ],
 "C46": [
  "proved",
  [
   "C46_message_determines",
   "C46_text",
   "C46_advice",
   "C46_refuted",
   "C46_reaches",
   "C46_never"
  ],
  "Defect (refuted part) at 63bits. Cargo.toml declares no features, so the advice is read as a value of the environment variable."
 ],
 "C47": [
  "proved",
  [
   "C47_suite",
   "C47_makefile",
   "C47_compiles",
   "C47_tagged_pointer",
   "C47_oversized",
   "C47_pointer_tests",
   "C47_new",
   "C47_new_zst",
   "C47_container_into_inner",
   "C47_item_tests",
   "C47_wrapped",
   "C47_storage",
   "C47_clone",
   "C47_tagged_box",
   "C47_surroundings"
  ],
  "Defect: eight of the makefile's ten runs cannot pass, nor does any release run in the default setting. 32-bit targets are not covered (the tests' usize literals do not fit)."
 ],
 "C48": [
  "proved",
  [
   "C48_exact",
   "C48_stale",
   "C48_refuted",
   "C48_clean",
   "C48_repaired",
   "C48_test_all",
   "C48_miri_all",
   "C48_reports",
   "C48_miri_reports",
   "C48_half"
  ],
  "Defect (refuted part). Rests on cargo's documented change detection, which is not part of the repository."
 ],
 "C49": [
  "proved",
  [
   "C49_names",
   "C49_own_name",
   "C49_single_name"
  ],
  "Rests on Rust's rules of name lookup (items and type parameters of macro_rules! are not hygienic), which are not part of the repository; macro names and user constants with the name of a macro variable are not modelled."
 ],
 "C50": [
  "proved",
  [
   "C50_docs",
   "C50_untagged",
   "C50_tagged",
   "C50_discriminant",
   "C50_compiles",
   "C50_readme",
   "C50_works",
   "C50_does_not_work",
   "C50_greeting",
   "C50_misread",
   "C50_surroundings"
  ],
  "The should_panic example that reads a String as a Vec<Paper> is undefined in Rust; C50_misread says under which reading of the bits it gets to its panic."
 ],
 "C51": [
  "proved",
  [
   "C51_new",
   "C51_into",
   "C51_programs",
   "C51_forever",
   "C51_loop",
   "C51_space",
   "C51_box",
   "C51_benchmarks"
  ],
  "Defect: nothing reclaims a box (C22). Programs: user impls keep no blocks of their own and leave the heap in order."
 ],
 "C52": [
  "proved",
  [
   "C52_shown",
   "C52_error",
   "C52_panic",
   "C52_faithful"
  ],
  "The Debug impl of TaggedBox never passes on the formatting options (C25). An enum with a Drop impl of its own is covered except for its unit variants (no_own_drop)."
 ],
 "C53": [
  "proved",
  [
   "C53_box",
   "C53_coherent",
   "C53_accepted",
   "C53_derives",
   "C53_def_ok"
  ],
  "Rust's rules for derives and impls are modelled as far as used; attributes other than derives are not."
 ],
 "C54": [
  "proved",
  [
   "C54_size",
   "C54_auto",
   "C54_like_enum",
   "C54_box"
  ],
  "Auto traits by Rust's structural rule. The last point is a gap in the manual API: the element type of new is not tied to the box's type parameter."
 ],
 "C55": [
  "proved",
  [
   "C55_no_drop",
   "C55_no_wrapper",
   "C55_build",
   "C55_take",
   "C55_lost",
   "C55_clone",
   "C55_independent",
   "C55_eq",
   "C55_cmp",
   "C55_consistent"
  ],
  "Recursion of the derived impls has a fuel; the theorems hold for every fuel of at least the depth of the tree (below it stands for a stack overflow). What core's derives expand to is modelled."
 ],
 "C56": [
  "proved",
  [
   "C56_lost",
   "C56_refuted",
   "C56_place",
   "C56_dangling",
   "C56_eq"
  ],
  "C56_refuted: the documented meaning of ref_from_tagged_box does not hold (a defect). What a closure changes behind its reference is part of its result in the model."
 ],
 "C57": [
  "proved",
  [
   "C57_made",
   "C57_by_hand",
   "C57_taken",
   "C57_tuple",
   "C57_refuted"
  ],
  "Defect (refuted part): the two reading functions disagree on hand-made tuple boxes."
 ],
 "C58": [
  "proved",
  [
   "C58_table",
   "C58_seven",
   "C58_refuted",
   "C58_variants"
  ],
  "Documentation defect (refuted part)."
 ],
 "C59": [
  "proved",
  [
   "C59_history",
   "C59_accounting"
  ],
  ""
 ],
 "C60": [
  "proved",
  [
   "C60_calls",
   "C60_threads",
   "C60_no_race",
   "C60_memory",
   "C60_wait_free",
   "C60_copies_race"
  ],
  ""
 ],
 "C61": [
  "proved",
  [
   "C61_history",
   "C61_exclusive",
   "C61_once",
   "C61_copies_alias",
   "C61_copies_dangle"
  ],
  ""
 ],
 "C62": [
  "proved",
  [
   "C62_syntax",
   "C62_items",
   "C62_accepted",
   "C62_refused"
  ],
  ""
 ],
 "C63": [
  "proved",
  [
   "C63_exact",
   "C63_setup",
   "C63_works"
  ],
  "Rust's own checks are modelled as far as listed in Heads.v, Traits.v, Names.v and Compile.v; type parsing and the field types' properties are parameters."
 ],
 "C64": [
  "proved",
  [
   "C64_calls",
   "C64_threads",
   "C64_no_race",
   "C64_memory",
   "C64_wait_free"
  ],
  "Calls that change a value in place (as_mut_ref on the container's box) are not included; the statement says so."
 ],
 "C65": [
  "proved",
  [
   "C65_text",
   "C65_any",
   "C65_source",
   "C65_same"
  ],
  "Holds for a model of macro_rules! that is simplified where Lexer.v and MacroRules.v say so; how types are parsed is a parameter, as in C32."
 ],
 "C66": [
  "proved",
  [
   "C66_generated"
  ],
  "A closed statement about the two macros and their generators, proved by computation."
 ],
 "C67": [
  "proved",
  [
   "C67_verify",
   "C67_sizes",
   "C67_sizes_only",
   "C67_value",
   "C67_uncalled"
  ],
  "C67_sizes and C67_sizes_only: that no type begins with @ is a hypothesis on the parser for types. C67_sizes_only is about arguments not beginning with @, which is how the macro calls itself."
 ],
 "C68": [
  "proved",
  [
   "C68_exposed",
   "C68_strict",
   "C68_hidden",
   "C68_freed",
   "C68_calls"
  ],
  "Which of several pointers for the same block may still be used (Stacked Borrows) is not modelled."
 ],
 "C69": [
  "proved",
  [
   "C69_exposed",
   "C69_strict",
   "C69_calls"
  ],
  "KProvenance.v. The user's impls may make and keep memory of their own (relation separate); a block they free and make again in the same place within one call keeps its number."
 ],
 "C70": [
  "proved",
  [
   "C70_history",
   "C70_calm",
   "C70_no_abort"
  ],
  "DropPanics.v. Manual API only; a destructor touches no live memory and does not call the crate. Each panic is caught by the client after the call."
 ],
 "C71": [
  "proved",
  [
   "C71_history",
   "C71_accounting",
   "C71_no_abort",
   "C71_calm",
   "C71_own_drop",
   "C71_look"
  ],
  "KDropPanics.v. A destructor touches no live memory and does not call the crate; the user's trait impls return or panic, a destructor's panic inside them counts as theirs. Enums with a Drop impl of their own: C71_own_drop and C71_look per call; whole programs are C74."
 ],
 "C72": [
  "proved",
  [
   "C72_history",
   "C72_effects",
   "C72_no_abort",
   "C72_by_size",
   "C72_still"
  ],
  "Destructors.v. Manual API only. A destructor runs to its end in one step and gets the field's value as it was before the first destructor of the call ran. It cannot use the program's own boxes. Blocks are not counted, as destructors may make and free some."
 ],
 "C73": [
  "proved",
  [
   "C73_history",
   "C73_destroyed",
   "C73_effects",
   "C73_no_abort",
   "C73_by_size",
   "C73_still"
  ],
  "KDestructors.v. As C72: a destructor runs in one step on the value as it was before the call's first destructor ran, and cannot use the program's own containers. The user's impls return or panic and leave live memory alone. Enums with a Drop impl of their own are left out."
 ],
 "C74": [
  "proved",
  [
   "C74_history",
   "C74_accounting",
   "C74_no_abort",
   "C74_calm"
  ],
  "OwnDrop.v. The Drop impl only panics or not: it changes no memory and does not call the crate. The user's other impls return or panic; a Drop panic inside them counts as theirs. Which Drop may panic is said per value, not per state."
 ],
 "C75": [
  "proved",
  [
   "C75_history",
   "C75_accounting",
   "C75_no_abort",
   "C75_store",
   "C75_look",
   "C75_still"
  ],
  "OwnEffects.v. Drop leaves alone the blocks of others and all blocks of a size that the enum's values have, whoever made them (sufficient, not necessary, for leaving the containers alone); it does not call the crate. The rest as C74."
 ]
}