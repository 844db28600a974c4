{
 "claims": [
  {
   "property": "C01",
   "status": "proved",
   "theorems": [
    "C01_capacity_respected"
   ],
   "note": ""
  },
  {
   "property": "C02",
   "status": "proved",
   "theorems": [
    "C02_rejected_unchanged"
   ],
   "note": ""
  },
  {
   "property": "C03",
   "status": "proved",
   "theorems": [
    "C03_ordered_concatenation"
   ],
   "note": ""
  },
  {
   "property": "C04",
   "status": "proved",
   "theorems": [
    "C04_insert_str",
    "C04_insert_init_args",
    "C04_sep_counted"
   ],
   "note": ""
  },
  {
   "property": "C05",
   "status": "proved",
   "theorems": [
    "C05_insert",
    "C05_cases_exhaustive"
   ],
   "note": ""
  },
  {
   "property": "C06",
   "status": "proved",
   "theorems": [
    "C06_insert_multiple",
    "C06_single_value"
   ],
   "note": ""
  },
  {
   "property": "C07",
   "status": "proved",
   "theorems": [
    "C07_printable",
    "C07_try_from_unvalidated"
   ],
   "note": "try_from is refuted to validate (C07_try_from_unvalidated): the property is about Cmdline::new."
  },
  {
   "property": "C08",
   "status": "proved",
   "theorems": [
    "C08_one_nul"
   ],
   "note": ""
  },
  {
   "property": "C09",
   "status": "proved",
   "theorems": [
    "C09_serialisation_errors"
   ],
   "note": ""
  },
  {
   "property": "C10",
   "status": "proved",
   "theorems": [
    "C10_split",
    "C10_parts_exist_unique"
   ],
   "note": ""
  },
  {
   "property": "C11",
   "status": "proved",
   "theorems": [
    "C11_capacity_exact",
    "C11_new_capacity"
   ],
   "note": ""
  },
  {
   "property": "C12",
   "status": "proved",
   "theorems": [
    "C12_documented_format"
   ],
   "note": ""
  },
  {
   "property": "C13",
   "status": "proved",
   "theorems": [
    "C13_reparse",
    "C13_other_white_space_refuted"
   ],
   "note": "Restated: holds when the only white space is the space character; a concrete text with other white space refutes the general claim."
  },
  {
   "property": "C14",
   "status": "proved",
   "theorems": [
    "C14_canonical_unique",
    "C14_virtio_text",
    "C14_virtio_injective"
   ],
   "note": ""
  },
  {
   "property": "C15",
   "status": "proved",
   "theorems": [
    "C15_virtio_errors"
   ],
   "note": ""
  },
  {
   "property": "C16",
   "status": "proved",
   "theorems": [
    "C16_no_panic",
    "C16_ctor_no_panic"
   ],
   "note": ""
  },
  {
   "property": "C17",
   "status": "proved",
   "theorems": [
    "C17_equivalence",
    "C17_serialised_form",
    "C17_unserialisable_conflated"
   ],
   "note": "C17_unserialisable_conflated shows that == identifies different command lines that do not serialise."
  },
  {
   "property": "C18",
   "status": "proved",
   "theorems": [
    "C18_load_cmdline_writes"
   ],
   "note": ""
  },
  {
   "property": "C19",
   "status": "proved",
   "theorems": [
    "C19_load_cmdline_exact",
    "C19_load_cmdline_errors",
    "C19_load_cmdline_no_panic"
   ],
   "note": ""
  },
  {
   "property": "C20",
   "status": "proved",
   "theorems": [
    "C20_elf_segments_placed",
    "C20_elf_segment_readable"
   ],
   "note": ""
  },
  {
   "property": "C21",
   "status": "proved",
   "theorems": [
    "C21_elf_addresses"
   ],
   "note": ""
  },
  {
   "property": "C22",
   "status": "proved",
   "theorems": [
    "C22_elf_bad_header",
    "C22_elf_ok_good_header"
   ],
   "note": ""
  },
  {
   "property": "C23",
   "status": "proved",
   "theorems": [
    "C23_elf_highmem"
   ],
   "note": ""
  },
  {
   "property": "C24",
   "status": "proved",
   "theorems": [
    "C24_elf_entry_overflow",
    "C24_elf_first_error",
    "C24_elf_address_overflow",
    "C24_elf_ok_no_wrap"
   ],
   "note": ""
  },
  {
   "property": "C25",
   "status": "proved",
   "theorems": [
    "C25_elf_frame"
   ],
   "note": ""
  },
  {
   "property": "C26",
   "status": "proved",
   "theorems": [
    "C26_elf_ok_inside",
    "C26_elf_truncated_fails"
   ],
   "note": ""
  },
  {
   "property": "C27",
   "status": "proved",
   "theorems": [
    "C27_elf_complete"
   ],
   "note": ""
  },
  {
   "property": "C28",
   "status": "proved",
   "theorems": [
    "C28_elf_offset_ignores_notes"
   ],
   "note": ""
  },
  {
   "property": "C29",
   "status": "proved",
   "theorems": [
    "C29_elf_pvh_note",
    "C29_elf_any_notes",
    "C29_verdict_unique"
   ],
   "note": ""
  },
  {
   "property": "C30",
   "status": "proved",
   "theorems": [
    "C30_elf_no_panic",
    "C30_elf_builds_agree",
    "C30_note_loop_bound"
   ],
   "note": ""
  },
  {
   "property": "C31",
   "status": "proved",
   "theorems": [
    "C31_elf_single_note_segment",
    "C31_elf_note_lost_refuted"
   ],
   "note": "Restated after refutation: the last PT_NOTE segment decides (C31_elf_note_lost_refuted is the concrete image)."
  },
  {
   "property": "C32",
   "status": "proved",
   "theorems": [
    "C32_elf_kernel_end",
    "C32_elf_short_memsz_refuted"
   ],
   "note": "Holds under p_memsz >= p_filesz; C32_elf_short_memsz_refuted shows the hypothesis is needed."
  },
  {
   "property": "C33",
   "status": "proved",
   "theorems": [
    "C33_align_up_least",
    "C33_align_up_total",
    "C33_align_up_refuses",
    "C33_align_up_exact",
    "C33_align_up_overflow_refuted"
   ],
   "note": "C33_align_up_exact gives every outcome in both builds, including the overflow near 2^64."
  },
  {
   "property": "C34",
   "status": "proved",
   "theorems": [
    "C34_bz_accepts_iff"
   ],
   "note": ""
  },
  {
   "property": "C35",
   "status": "proved",
   "theorems": [
    "C35_bz_payload_placed",
    "C35_bz_payload_readable"
   ],
   "note": ""
  },
  {
   "property": "C36",
   "status": "proved",
   "theorems": [
    "C36_bz_setup_header"
   ],
   "note": ""
  },
  {
   "property": "C37",
   "status": "proved",
   "theorems": [
    "C37_bz_errors_frame",
    "C37_bz_error_list",
    "C37_bz_error_kind"
   ],
   "note": ""
  },
  {
   "property": "C38",
   "status": "proved",
   "theorems": [
    "C38_bz_whole_header_in_file",
    "C38_bz_short_header_refuted"
   ],
   "note": "Restated after refutation: the byte count of the header read is ignored by the code."
  },
  {
   "property": "C39",
   "status": "proved",
   "theorems": [
    "C39_pe_placement",
    "C39_pe_readable"
   ],
   "note": ""
  },
  {
   "property": "C40",
   "status": "proved",
   "theorems": [
    "C40_pe_rejects",
    "C40_pe_errors_frame",
    "C40_pe_error_list"
   ],
   "note": ""
  },
  {
   "property": "C41",
   "status": "proved",
   "theorems": [
    "C41_pe_accepts_iff",
    "C41_pe_unbacked"
   ],
   "note": ""
  },
  {
   "property": "C42",
   "status": "proved",
   "theorems": [
    "C42_dtb_unbacked",
    "C42_dtb_error_list",
    "C42_dtb_ok",
    "C42_dtb_too_big",
    "C42_dtb_accepts_iff",
    "C42_dtb_frame"
   ],
   "note": ""
  },
  {
   "property": "C43",
   "status": "proved",
   "theorems": [
    "C43_linux_write",
    "C43_fdt_write"
   ],
   "note": ""
  },
  {
   "property": "C44",
   "status": "proved",
   "theorems": [
    "C44_pvh_writes",
    "C44_pvh_readable",
    "C44_pvh_accepts_iff"
   ],
   "note": ""
  },
  {
   "property": "C45",
   "status": "proved",
   "theorems": [
    "C45_pvh_errors",
    "C45_pvh_frame"
   ],
   "note": ""
  },
  {
   "property": "C46",
   "status": "proved",
   "theorems": [
    "C46_exact_fit_rejected",
    "C46_fits_with_slack",
    "C46_exact_fit_refuted",
    "C46_pvh_exact_fit_rejected"
   ],
   "note": "Restated after refutation: an exact fit is refused."
  },
  {
   "property": "C47",
   "status": "proved",
   "theorems": [
    "C47_append"
   ],
   "note": ""
  },
  {
   "property": "C48",
   "status": "proved",
   "theorems": [
    "C48_add_at",
    "C48_add_at_accepted"
   ],
   "note": ""
  },
  {
   "property": "C49",
   "status": "proved",
   "theorems": [
    "C49_add_errors"
   ],
   "note": ""
  },
  {
   "property": "C50",
   "status": "proved",
   "theorems": [
    "C50_failed_add",
    "C50_failed_add_refuted",
    "C50_failed_add_built"
   ],
   "note": "Restated after refutation: an absent list becomes an empty one."
  },
  {
   "property": "C51",
   "status": "proved",
   "theorems": [
    "C51_add_panics_iff",
    "C51_add_no_panic",
    "C51_add_panic_refuted"
   ],
   "note": "Restated after refutation: exact condition of the panic."
  },
  {
   "property": "C52",
   "status": "proved",
   "theorems": [
    "C52_module_reaches_guest",
    "C52_section_reaches_guest",
    "C52_set_elem_reaches_guest",
    "C52_header_reaches_guest"
   ],
   "note": ""
  },
  {
   "property": "C53",
   "status": "proved",
   "theorems": [
    "C53_boot_layouts",
    "C53_elf_layouts",
    "C53_image_layouts",
    "C53_zero_page_part_layouts",
    "C53_other_elf_layouts",
    "C53_zero_page_places",
    "C53_fields_inside",
    "C53_fields_disjoint",
    "C53_packed_no_gaps"
   ],
   "note": ""
  },
  {
   "property": "C54",
   "status": "proved",
   "theorems": [
    "C54_zero_page",
    "C54_start_info",
    "C54_list_entries",
    "C54_assign_changes_only_field"
   ],
   "note": ""
  },
  {
   "property": "C55",
   "status": "proved",
   "theorems": [
    "C55_header_bytes",
    "C55_boot"
   ],
   "note": ""
  },
  {
   "property": "C56",
   "status": "proved",
   "theorems": [
    "C56_success_writes",
    "C56_frame",
    "C56_writes_inside"
   ],
   "note": ""
  },
  {
   "property": "C57",
   "status": "proved",
   "theorems": [
    "C57_contents_irrelevant"
   ],
   "note": ""
  },
  {
   "property": "C58",
   "status": "proved",
   "theorems": [
    "C58_all_in_place",
    "C58_pieces_survive"
   ],
   "note": ""
  },
  {
   "property": "C59",
   "status": "proved",
   "theorems": [
    "C59_order_irrelevant"
   ],
   "note": ""
  },
  {
   "property": "C60",
   "status": "proved",
   "theorems": [
    "C60_retry",
    "C60_repeat"
   ],
   "note": ""
  },
  {
   "property": "C61",
   "status": "proved",
   "theorems": [
    "C61_environment_irrelevant",
    "C61_whole_sequences"
   ],
   "note": "The copy strategy of vm-memory is kept fixed (zero-length copies to unmapped addresses differ between strategies)."
  },
  {
   "property": "C62",
   "status": "proved",
   "theorems": [
    "C62_cmdline_reaches_guest"
   ],
   "note": ""
  },
  {
   "property": "C63",
   "status": "proved",
   "theorems": [
    "C63_linux_boot"
   ],
   "note": ""
  },
  {
   "property": "C64",
   "status": "proved",
   "theorems": [
    "C64_pvh_boot"
   ],
   "note": ""
  },
  {
   "property": "C65",
   "status": "proved",
   "theorems": [
    "C65_loader_message_identifies",
    "C65_boot_chain_identifies",
    "C65_boot_message_alone_refuted",
    "C65_cmdline_message_identifies",
    "C65_loader_source",
    "C65_messages_printable",
    "C65_pvh_message",
    "C65_messages_to_the_point"
   ],
   "note": "The boot configurator's message alone does not identify the error (C65_boot_message_alone_refuted)."
  },
  {
   "property": "C66",
   "status": "proved",
   "theorems": [
    "C66_unpack",
    "C66_repack"
   ],
   "note": ""
  },
  {
   "property": "C67",
   "status": "proved",
   "theorems": [
    "C67_elf_error_explained",
    "C67_elf_kinds",
    "C67_elf_first_steps",
    "C67_bz_steps",
    "C67_bz_payload_steps",
    "C67_pe_steps",
    "C67_dtb_steps"
   ],
   "note": "Added because mutation testing showed that error kinds reached only through I/O faults were not covered by C22-C42. For ELF segments and notes the converse direction is C109."
  },
  {
   "property": "C68",
   "status": "proved",
   "theorems": [
    "C68_no_hidden_bytes",
    "C68_fields_determine_bytes",
    "C68_every_bytes_is_a_value"
   ],
   "note": ""
  },
  {
   "property": "C69",
   "status": "proved",
   "theorems": [
    "C69_below_kernel_end",
    "C69_place_after_kernel"
   ],
   "note": ""
  },
  {
   "property": "C70",
   "status": "proved",
   "theorems": [
    "C70_formats_in_turn"
   ],
   "note": "Sources that do not fail or cut reads short."
  },
  {
   "property": "C71",
   "status": "proved",
   "theorems": [
    "C71_fdt_boot"
   ],
   "note": ""
  },
  {
   "property": "C72",
   "status": "proved",
   "theorems": [
    "C72_stores_are_all",
    "C72_in_order",
    "C72_any_moment",
    "C72_old_or_final"
   ],
   "note": "Sources that cut reads short are excluded for slice-wise copying only; C72_needs_unbroken shows why."
  },
  {
   "property": "C73",
   "status": "proved",
   "theorems": [
    "C73_deaf_to_contents",
    "C73_stores_in_bounds",
    "C73_interleaving",
    "C73_schedule_irrelevant"
   ],
   "note": "Interleaving is at the granularity of single-byte stores; calls never read guest memory (C73_deaf_to_contents)."
  },
  {
   "property": "C74",
   "status": "proved",
   "theorems": [
    "C74_read_exact_loop",
    "C74_retry_loop",
    "C74_stand_in",
    "C74_histories"
   ],
   "note": ""
  },
  {
   "property": "C75",
   "status": "proved",
   "theorems": [
    "C75_interruptions_invisible",
    "C75_bz_header_not_retried",
    "C75_like_plain"
   ],
   "note": "The bzImage header read is not retried when interrupted (C75_bz_header_not_retried); C75_like_plain is for vm-memory's TryAccess strategy."
  },
  {
   "property": "C76",
   "status": "proved",
   "theorems": [
    "C76_kernel_sees_inserted",
    "C76_kernel_sees_inserted_new",
    "C76_every_history",
    "C76_word",
    "C76_blank",
    "C76_words",
    "C76_kernel_sees_in_memory"
   ],
   "note": "The conditions on quotes and keys are needed: C76_stray_quote, C76_empty_key, C76_quote_in_key, C76_lone_dashes, C76_quoted_dashes."
  },
  {
   "property": "C77",
   "status": "proved",
   "theorems": [
    "C77_parsing_invisible"
   ],
   "note": "Balanced quotes and ASCII are needed: C77_open_quote, C77_exotic_space."
  },
  {
   "property": "C78",
   "status": "proved",
   "theorems": [
    "C78_rules_obeyed",
    "C78_one_report",
    "C78_report_iff",
    "C78_whole_sequences"
   ],
   "note": "Fault-free sources only (steady); what failing sources may report is C67. Memory after a call: C56, C24, C45."
  },
  {
   "property": "C79",
   "status": "proved",
   "theorems": [
    "C79_history",
    "C79_one_story"
   ],
   "note": "Rules in SpecHistory.v; equivalence in both directions, so the rules are also complete and consistent."
  },
  {
   "property": "C80",
   "status": "proved",
   "theorems": [
    "C80_boot_parameters",
    "C80_one_story"
   ],
   "note": "Rules in SpecParams.v; equivalence in both directions. An abort is a panic (capacity overflow); memory exhaustion below 2^63 bytes is not modelled."
  },
  {
   "property": "C81",
   "status": "proved",
   "theorems": [
    "C81_elf_same",
    "C81_elf_same_relocated",
    "C81_elf_same_tidy",
    "C81_elf_64",
    "C81_elf_safe",
    "C81_elf_unfit_refuted"
   ],
   "note": "Host.v; equality under elf_fits, safety for every image, refutation without elf_fits (C81_elf_unfit_refuted)."
  },
  {
   "property": "C82",
   "status": "proved",
   "theorems": [
    "C82_bz_same",
    "C82_bz_safe",
    "C82_bz_large_cut"
   ],
   "note": "C82_bz_large_cut shows what happens to images the host cannot measure, for sources without faults and short reads."
  },
  {
   "property": "C83",
   "status": "proved",
   "theorems": [
    "C83_history"
   ],
   "note": "Equivalence with the rules of SpecHistory.v on both pointer widths."
  },
  {
   "property": "C84",
   "status": "proved",
   "theorems": [
    "C84_boot_parameters",
    "C84_same_within",
    "C84_far_element_refuted"
   ],
   "note": "Equivalence with the rules of SpecHost.v; C84_far_element_refuted shows where the ordinary rules fail on 32-bit hosts."
  },
  {
   "property": "C85",
   "status": "proved",
   "theorems": [
    "C85_layouts",
    "C85_layouts_64"
   ],
   "note": "Sizes and offsets for every field path; alignment of u64 is 4 on i686, 8 on x86_64."
  },
  {
   "property": "C86",
   "status": "proved",
   "theorems": [
    "C86_effect",
    "C86_one_choice",
    "C86_contract",
    "C86_whole_sequences"
   ],
   "note": "Fault-free sources only (steady); for sources that fail in between see C67 and C72. The rules for reports are SpecDecide.v, those for effects SpecEffect.v."
  },
  {
   "property": "C87",
   "status": "proved",
   "theorems": [
    "C87_byte_order_irrelevant",
    "C87_rules_on_every_host"
   ],
   "note": "Endian.v has the header decoding with the host byte order spelt out (native integer, then from_le)."
  },
  {
   "property": "C88",
   "status": "proved",
   "theorems": [
    "C88_command_line_life"
   ],
   "note": "Rules: SpecHistory.v, SpecLife.v."
  },
  {
   "property": "C89",
   "status": "proved",
   "theorems": [
    "C89_boot_parameters_life"
   ],
   "note": "Rules: SpecParams.v, SpecDecide.v, SpecEffect.v, SpecLife.v. Lengths and addresses within Rust types (call_sized). Added after mutant q041 (sections present in a new value) survived."
  },
  {
   "property": "C90",
   "status": "proved",
   "theorems": [
    "C90_dtb",
    "C90_pe",
    "C90_dtb_confined",
    "C90_pe_confined",
    "C90_dtb_decided",
    "C90_pe_decided"
   ],
   "note": "Rules in SpecTalk.v; sources are arbitrary (plausible = reads give at most what was asked for); roomy only moves the loop fuel of the model out of the way. Contents that change between reads included (C90_C92_changing)."
  },
  {
   "property": "C91",
   "status": "proved",
   "theorems": [
    "C91_bz",
    "C91_bz_confined",
    "C91_bz_decided"
   ],
   "note": "As C90; offsets are 64-bit addresses."
  },
  {
   "property": "C92",
   "status": "proved",
   "theorems": [
    "C92_elf",
    "C92_elf_confined",
    "C92_elf_loaded",
    "C92_panics",
    "C92_files_never_panic",
    "C92_elf_decided"
   ],
   "note": "As C90. Absence of panics is false for debug builds on lying sources (C92_never_panics_refuted); C92_panics and C92_files_never_panic delimit it."
  },
  {
   "property": "C93",
   "status": "proved",
   "theorems": [
    "C93_replay"
   ],
   "note": "For any two sources, also of different state types."
  },
  {
   "property": "C94",
   "status": "proved",
   "theorems": [
    "C94_dtb",
    "C94_pe",
    "C94_bz",
    "C94_elf"
   ],
   "note": "Questions = operations on the source (one read_exact counts once; C74 refines it to single reads)."
  },
  {
   "property": "C95",
   "status": "proved",
   "theorems": [
    "C95_interleaving",
    "C95_room",
    "C95_any_order",
    "C95_capacity_monotone",
    "C95_one_by_one",
    "C95_as_text",
    "C95_parse_is_build"
   ],
   "note": "Blank init arguments are the exception to order-independence (C95_blank_init_refuted)."
  },
  {
   "property": "C96",
   "status": "proved",
   "theorems": [
    "C96_independent",
    "C96_independent_abort",
    "C96_set_forgets",
    "C96_any_order",
    "C96_one_by_one"
   ],
   "note": "Order independence needs disjoint elements (C96_overlap_refuted)."
  },
  {
   "property": "C97",
   "status": "proved",
   "theorems": [
    "C97_utf8",
    "C97_story",
    "C97_no_panic",
    "C97_stays_utf8"
   ],
   "note": "Utf8.v models src/cmdline/mod.rs on UTF-8 bytes; std string functions are modelled from core::str."
  },
  {
   "property": "C98",
   "status": "proved",
   "theorems": [
    "C98_elf",
    "C98_elf_trailing",
    "C98_bzimage"
   ],
   "note": "Noninterference; Elf::load and BzImage::load. The PE loader copies the whole file, so nothing is irrelevant there."
  },
  {
   "property": "C99",
   "status": "proved",
   "theorems": [
    "C99_elf",
    "C99_bz",
    "C99_pe",
    "C99_dtb",
    "C99_cmdline",
    "C99_linux",
    "C99_fdt",
    "C99_pvh",
    "C99_calls",
    "C99_refusal_ends",
    "C99_same_questions",
    "C99_elf_segments",
    "C99_pe_copies",
    "C99_bz_copies",
    "C99_pvh_blocks",
    "C99_kinds",
    "C99_vm_elf",
    "C99_vm_bz",
    "C99_vm_pe",
    "C99_vm_dtb",
    "C99_files",
    "C99_vm_cmdline",
    "C99_vm_boot",
    "C99_vm_fair"
   ],
   "note": "Exact (iff) for Elf, BzImage, PE, device tree, load_cmdline and the three configurators, over any GuestMemory implementation and any source."
  },
  {
   "property": "C100",
   "status": "proved",
   "theorems": [
    "C100_multiple",
    "C100_one_call",
    "C100_reachable",
    "C100_capacity",
    "C100_failure_keeps",
    "C100_no_crate_panic",
    "C100_honest",
    "C100_calls",
    "C100_check_bypassed"
   ],
   "note": "The double as_ref of insert_multiple lets a two-faced value past the check (C100_check_bypassed); everything proved of reachable builders holds all the same."
  },
  {
   "property": "C101",
   "status": "proved",
   "theorems": [
    "C101_more_memory",
    "C101_whole_sequences"
   ],
   "note": "For sources without trouble (steady); failing calls may of course succeed in a larger guest."
  },
  {
   "property": "C102",
   "status": "proved",
   "theorems": [
    "C102_moved",
    "C102_whole_sequences",
    "C102_defaults",
    "C102_elf_default"
   ],
   "note": "Includes failing calls. PE images move by multiples of 2 MiB (they are refused elsewhere). The guest must have some memory: with none at all the two command line errors are told apart by the address."
  },
  {
   "property": "C103",
   "status": "proved",
   "theorems": [
    "C103_strategies_agree",
    "C103_slices_accept_more",
    "C103_builds_agree",
    "C103_builds_agree_on_sequences",
    "C103_strategies_agree_on_sequences"
   ],
   "note": "With an empty piece the strategies differ (C103_slices_accept_more says how)."
  },
  {
   "property": "C104",
   "status": "proved",
   "theorems": [
    "C104_equality_is_of_fields",
    "C104_equality_is_of_bytes",
    "C104_default_is_zero",
    "C104_default_fields",
    "C104_results",
    "C104_loads_compared",
    "C104_errors",
    "C104_reports_compared"
   ],
   "note": "edid_info and boot_params have a hand-written zeroed() default; the derived form modelled here is shown to give the same bytes."
  },
  {
   "property": "C105",
   "status": "proved",
   "theorems": [
    "C105_same_load",
    "C105_elf_bounded",
    "C105_elf_in_proportion",
    "C105_cmdline",
    "C105_new_allocates_nothing",
    "C105_boot_parameters"
   ],
   "note": "Heap of the ELF loader (the only loader that allocates) and of the two strings of a Cmdline."
  },
  {
   "property": "C106",
   "status": "proved",
   "theorems": [
    "C106_devices",
    "C106_devices_any",
    "C106_devices_in_memory",
    "C106_every_history"
   ],
   "note": "Linux's driver as written in SpecDriver.v (specification, not code of /repo). C106_devices_any drops the requirement on the numbers."
  },
  {
   "property": "C107",
   "status": "proved",
   "theorems": [
    "C107_linux_boot",
    "C107_linux_has"
   ],
   "note": "Linux's early boot code as written in SpecGuest.v (specification, not code of /repo)."
  },
  {
   "property": "C108",
   "status": "proved",
   "theorems": [
    "C108_pvh_boot",
    "C108_linux_has"
   ],
   "note": "Linux's PVH entry code as written in SpecGuest.v. Addresses of modules and command line below 4 GiB, as Linux requires."
  },
  {
   "property": "C109",
   "status": "proved",
   "theorems": [
    "C109_elf",
    "C109_bz",
    "C109_pe",
    "C109_dtb"
   ],
   "note": "For arbitrary sources; which step exactly follows from the conversation (elf_talk etc.) in the same statement."
  },
  {
   "property": "C110",
   "status": "proved",
   "theorems": [
    "C110_elf_boot",
    "C110_linux_has"
   ],
   "note": "Linux's early boot code as written in SpecGuest.v (specification, not code of /repo)."
  },
  {
   "property": "C111",
   "status": "proved",
   "theorems": [
    "C111_survives",
    "C111_image",
    "C111_bzimage",
    "C111_elf",
    "C111_from_the_end_on",
    "C111_elf_end_refuted",
    "C111_image_end_refuted",
    "C111_bzimage_end_refuted"
   ],
   "note": "What a started kernel takes is a specification (SpecSpace.v, from the ELF and Linux boot documents), not code of /repo. C111_*_end_refuted: kernel_end alone does not tell."
  },
  {
   "property": "C112",
   "status": "proved",
   "theorems": [
    "C112_same_pieces",
    "C112_whole_program",
    "C112_device_tree",
    "C112_linux_fdt"
   ],
   "note": "Calls as in SpecVmm.v; guest memories compared byte by byte at every address (mem_same)."
  },
  {
   "property": "C113",
   "status": "proved",
   "theorems": [
    "C113_strings",
    "C113_loader_errors",
    "C113_boot_errors",
    "C113_cmdline_errors",
    "C113_errors_readable",
    "C113_cmdlines",
    "C113_structures",
    "C113_results",
    "C113_structures_readable",
    "C113_shown",
    "C113_results_readable"
   ],
   "note": "DebugText.v models derive(Debug) and the standard library's Debug for str and integers ({:?}, not the pretty form {:#?}). Elf32/64_Rela and Dyn (signed fields, unions) are not covered."
  },
  {
   "property": "C114",
   "status": "proved",
   "theorems": [
    "C114_nothing_invented",
    "C114_each_byte_from_one_thread",
    "C114_harmless_race",
    "C114_same_call_many_times"
   ],
   "note": "Interleaving of single-byte stores (as C73); no weaker memory model for values wider than a byte is needed, as every store is a byte."
  },
  {
   "property": "C115",
   "status": "proved",
   "theorems": [
    "C115_interchangeable",
    "C115_one_outcome",
    "C115_changes_inside",
    "C115_dirty_tracking",
    "C115_vm_memory_modest"
   ],
   "note": "On the open-world model Ask.v; linked to the loaders by C99_vm_*. Dirty tracking is specified as a wrapper, it is not code of /repo."
  },
  {
   "property": "C116",
   "status": "proved",
   "theorems": [
    "C116_whole_line_taken",
    "C116_announced_limit"
   ],
   "note": "cmdline_size (offset 0x238 of the file) exists from boot protocol 2.06 on; for older images the caller has to use 255 as the limit in C116_whole_line_taken."
  },
  {
   "property": "C117",
   "status": "proved",
   "theorems": [
    "C117_tree_read",
    "C117_dtb_boot",
    "C117_linux_has",
    "C117_every_tree"
   ],
   "note": "The device tree and what Linux reads from it are specification (SpecDtb.v), not code of the crate; the blob is any flattened form of the tree, whatever program wrote it."
  },
  {
   "property": "C118",
   "status": "proved",
   "theorems": [
    "C118_above",
    "C118_zero_page",
    "C118_pvh",
    "C118_device_tree"
   ],
   "note": "What a kernel takes before it reads its boot information, and what it reads, are specification (SpecSpace.v, SpecGuest.v, SpecDtb.v). `clear_of`: the calls keep off that memory; C118_above gives a sufficient condition in terms of kernel_end."
  },
  {
   "property": "C119",
   "status": "proved",
   "theorems": [
    "C119_published",
    "C119_one_value",
    "C119_fits",
    "C119_raise",
    "C119_lower",
    "C119_selection",
    "C119_tags",
    "C119_mips",
    "C119_notes",
    "C119_ranges",
    "C119_zero_page",
    "C119_table_sizes",
    "C119_ident",
    "C119_loader",
    "C119_subarch"
   ],
   "note": "SpecConstants.v writes the published numbers independently of the model (decimal, powers, consecutive numbering). The one shared machine number, EM_MIPS_RS3_LE and EM_MIPS_RS4_BE, is stated separately."
  },
  {
   "property": "C120",
   "status": "proved",
   "theorems": [
    "C120_same_words",
    "C120_legible",
    "C120_one_line",
    "C120_errors",
    "C120_cmdlines",
    "C120_results",
    "C120_structures"
   ],
   "note": "One-line and many-line printers are std's, as modelled in Pretty.v; C120_one_line ties the shapes to the texts of C113. Which characters beyond ASCII are printed unescaped is a parameter."
  },
  {
   "property": "C121",
   "status": "proved",
   "theorems": [
    "C121_features",
    "C121_complete",
    "C121_reexports",
    "C121_offers",
    "C121_private",
    "C121_one_alternative",
    "C121_matches",
    "C121_users",
    "C121_users_main",
    "C121_answers"
   ],
   "note": "The tables of Cfg.v are read off the sources by hand; private items count as visible to the whole crate; cfg(test) is left out."
  },
  {
   "property": "C122",
   "status": "proved",
   "theorems": [
    "C122_any_number",
    "C122_each_alone",
    "C122_counts_leave_no_trace",
    "C122_arm_benchmark",
    "C122_pc_benchmarks",
    "C122_bzimage_benchmark",
    "C122_pc_leaves"
   ],
   "note": "criterion is modelled as running each body any number of times, in order; the bzImage that is downloaded is an arbitrary file."
  },
  {
   "property": "C123",
   "status": "proved",
   "theorems": [
    "C123_accepted",
    "C123_built",
    "C123_well_formed",
    "C123_refused",
    "C123_total",
    "C123_core_search",
    "C123_lookup",
    "C123_last",
    "C123_division"
   ],
   "note": "vm-memory is a dependency whose source is not in the sandbox: its constructor and region search are modelled from their documented behaviour."
  },
  {
   "property": "C124",
   "status": "proved",
   "theorems": [
    "C124_loader_texts",
    "C124_boot_texts",
    "C124_cmdline_texts",
    "C124_capability_texts",
    "C124_structure_names",
    "C124_literals",
    "C124_escapes",
    "C124_cmdline_shown",
    "C124_result_shown",
    "C124_structure_shown"
   ],
   "note": "the tables in SpecTexts.v are generated from the Rust sources, independently of Display.v and DebugText.v."
  }
 ]
}