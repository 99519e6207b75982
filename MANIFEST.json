{
 "claims": [
  {
   "property": "C01",
   "status": "proved",
   "theorems": [
    "C01_history_is_map_insertion",
    "C01_step_reading"
   ],
   "note": ""
  },
  {
   "property": "C02",
   "status": "proved",
   "theorems": [
    "C02_refused_changes_nothing",
    "C02_refuted_when_kind_fails"
   ],
   "note": ""
  },
  {
   "property": "C03",
   "status": "proved",
   "theorems": [
    "C03_first_writer_wins",
    "C03_one_node_per_path"
   ],
   "note": ""
  },
  {
   "property": "C04",
   "status": "proved",
   "theorems": [
    "C04_implicit_parents",
    "C04_accepted_is_stored"
   ],
   "note": ""
  },
  {
   "property": "C05",
   "status": "proved",
   "theorems": [
    "C05_panic_iff",
    "C05_never_panics_refuted"
   ],
   "note": ""
  },
  {
   "property": "C06",
   "status": "proved",
   "theorems": [
    "C06_unique_names"
   ],
   "note": ""
  },
  {
   "property": "C07",
   "status": "proved",
   "theorems": [
    "C07_sorting_converges",
    "C07_stable_order_unique",
    "C07_loop_terminates",
    "C07_finalisation_succeeds"
   ],
   "note": ""
  },
  {
   "property": "C08",
   "status": "proved",
   "theorems": [
    "C08_children_are_a_sorted_range"
   ],
   "note": ""
  },
  {
   "property": "C09",
   "status": "proved",
   "theorems": [
    "C09_shortlex_order",
    "C09_parent_first",
    "C09_shortlex_strict_total"
   ],
   "note": ""
  },
  {
   "property": "C10",
   "status": "proved",
   "theorems": [
    "C10_order_independent"
   ],
   "note": ""
  },
  {
   "property": "C11",
   "status": "proved",
   "theorems": [
    "C11_get_entry",
    "C11_get_entry_joined"
   ],
   "note": ""
  },
  {
   "property": "C12",
   "status": "proved",
   "theorems": [
    "C12_no_lookup_through_leaf"
   ],
   "note": ""
  },
  {
   "property": "C13",
   "status": "proved",
   "theorems": [
    "C13_panic_iff",
    "C13_never_panics_refuted"
   ],
   "note": ""
  },
  {
   "property": "C14",
   "status": "proved",
   "theorems": [
    "C14_name_search"
   ],
   "note": ""
  },
  {
   "property": "C15",
   "status": "proved",
   "theorems": [
    "C15_walk",
    "C15_walk_all",
    "C15_walk_below"
   ],
   "note": ""
  },
  {
   "property": "C16",
   "status": "proved",
   "theorems": [
    "C16_walk_terminates",
    "C16_crafted_refuted"
   ],
   "note": ""
  },
  {
   "property": "C17",
   "status": "proved",
   "theorems": [
    "C17_round_trip",
    "C17_rights_refuted"
   ],
   "note": ""
  },
  {
   "property": "C18",
   "status": "proved",
   "theorems": [
    "C18_parent_links"
   ],
   "note": ""
  },
  {
   "property": "C19",
   "status": "proved",
   "theorems": [
    "C19_mount_serves_directory",
    "C19_inodes",
    "C19_inodes_distinct"
   ],
   "note": ""
  },
  {
   "property": "C20",
   "status": "proved",
   "theorems": [
    "C20_caches_transparent"
   ],
   "note": ""
  },
  {
   "property": "C21",
   "status": "proved",
   "theorems": [
    "C21_caches_bounded"
   ],
   "note": ""
  },
  {
   "property": "C22",
   "status": "proved",
   "theorems": [
    "C22_lookup"
   ],
   "note": ""
  },
  {
   "property": "C23",
   "status": "proved",
   "theorems": [
    "C23_attributes",
    "C23_root"
   ],
   "note": ""
  },
  {
   "property": "C24",
   "status": "proved",
   "theorems": [
    "C24_read",
    "C24_open"
   ],
   "note": ""
  },
  {
   "property": "C25",
   "status": "proved",
   "theorems": [
    "C25_listing",
    "C25_one_entry_refuted"
   ],
   "note": ""
  },
  {
   "property": "C26",
   "status": "proved",
   "theorems": [
    "C26_dotdot",
    "C26_root_dir_refuted"
   ],
   "note": ""
  },
  {
   "property": "C27",
   "status": "proved",
   "theorems": [
    "C27_wrong_kind",
    "C27_release",
    "C27_root"
   ],
   "note": ""
  },
  {
   "property": "C28",
   "status": "proved",
   "theorems": [
    "C28_no_abort",
    "C28_mtime_refuted"
   ],
   "note": ""
  },
  {
   "property": "C29",
   "status": "proved",
   "theorems": [
    "C29_selection",
    "C29_dot_refuted"
   ],
   "note": ""
  },
  {
   "property": "C30",
   "status": "proved",
   "theorems": [
    "C30_selected_extracted",
    "C30_accepted_extracted"
   ],
   "note": ""
  },
  {
   "property": "C31",
   "status": "proved",
   "theorems": [
    "C31_reproduces",
    "C31_reproduces_selection"
   ],
   "note": ""
  },
  {
   "property": "C32",
   "status": "proved",
   "theorems": [
    "C32_preserving_policies",
    "C32_error_stops",
    "C32_policies",
    "C32_bystanders",
    "C32_all_or_nothing",
    "C32_goes_on",
    "C32_overwrite_through_link_refuted",
    "C32_newer_aborts_refuted"
   ],
   "note": ""
  },
  {
   "property": "C33",
   "status": "proved",
   "theorems": [
    "C33_stays_below",
    "C33_dotdot_refuted",
    "C33_directory_link_refuted"
   ],
   "note": ""
  },
  {
   "property": "C34",
   "status": "proved",
   "theorems": [
    "C34_schedules_agree",
    "C34_schedules_agree_preserving",
    "C34_completes",
    "C34_hard_links_refuted"
   ],
   "note": ""
  },
  {
   "property": "C35",
   "status": "proved",
   "theorems": [
    "C35_success_means_written",
    "C35_missing_pack_refuted"
   ],
   "note": ""
  },
  {
   "property": "C36",
   "status": "proved",
   "theorems": [
    "C36_extractable",
    "C36_not_utf8_refuted",
    "C36_empty_target_refuted"
   ],
   "note": ""
  },
  {
   "property": "C37",
   "status": "proved",
   "theorems": [
    "C37_extract_twice"
   ],
   "note": ""
  },
  {
   "property": "C38",
   "status": "proved",
   "theorems": [
    "C38_roundtrip",
    "C38_archived"
   ],
   "note": ""
  },
  {
   "property": "C39",
   "status": "proved",
   "theorems": [
    "C39_absolute_refused",
    "C39_non_utf8_refused",
    "C39_outside_refused",
    "C39_prefix_itself",
    "C39_stored_below_prefix",
    "C39_dotdot_refuted"
   ],
   "note": ""
  },
  {
   "property": "C40",
   "status": "proved",
   "theorems": [
    "C40_stored_node",
    "C40_link_kept",
    "C40_link_followed",
    "C40_missing",
    "C40_special_skipped",
    "C40_only_root_followed"
   ],
   "note": ""
  },
  {
   "property": "C41",
   "status": "proved",
   "theorems": [
    "C41_schedule_independent",
    "C41_terminates",
    "C41_all_added",
    "C41_success_is_complete_refuted"
   ],
   "note": ""
  },
  {
   "property": "C42",
   "status": "proved",
   "theorems": [
    "C42_plain_listing",
    "C42_listing_determines_paths"
   ],
   "note": ""
  },
  {
   "property": "C43",
   "status": "proved",
   "theorems": [
    "C43_stable_listing",
    "C43_any_targets",
    "C43_reads_utf8",
    "C43_reads_once",
    "C43_other_versions",
    "C43_unambiguous",
    "C43_links_unambiguous",
    "C43_listing_determines",
    "C43_links_refuted",
    "C43_dot_refuted"
   ],
   "note": ""
  },
  {
   "property": "C44",
   "status": "proved",
   "theorems": [
    "C44_dump_file",
    "C44_dump_refused",
    "C44_output_file_refuted",
    "C44_missing_pack_refuted"
   ],
   "note": ""
  },
  {
   "property": "C45",
   "status": "proved",
   "theorems": [
    "C45_compression",
    "C45_refused",
    "C45_unambiguous",
    "C45_level_checked_refuted"
   ],
   "note": ""
  },
  {
   "property": "C46",
   "status": "proved",
   "theorems": [
    "C46_concat",
    "C46_unreachable"
   ],
   "note": ""
  },
  {
   "property": "C47",
   "status": "proved",
   "theorems": [
    "C47_output_protected",
    "C47_inputs_checked",
    "C47_inputs_checked_in_base",
    "C47_success",
    "C47_root_refuted",
    "C47_checked_first_refuted"
   ],
   "note": ""
  },
  {
   "property": "C48",
   "status": "proved",
   "theorems": [
    "C48_recurse_value",
    "C48_no_recurse",
    "C48_file_list",
    "C48_recurse_with_list_refuted",
    "C48_follow_with_infiles_refuted",
    "C48_bad_list"
   ],
   "note": ""
  },
  {
   "property": "C49",
   "status": "proved",
   "theorems": [
    "C49_members_are_kept",
    "C49_nothing_else",
    "C49_converts",
    "C49_all_or_nothing",
    "C49_hard_links_refuted",
    "C49_any_tar_refuted"
   ],
   "note": ""
  },
  {
   "property": "C50",
   "status": "proved",
   "theorems": [
    "C50_members_are_kept",
    "C50_nothing_else",
    "C50_unsafe_names_refused",
    "C50_converts",
    "C50_compression_refuted",
    "C50_links_refuted",
    "C50_parent_components_refuted"
   ],
   "note": ""
  },
  {
   "property": "C51",
   "status": "proved",
   "theorems": [
    "C51_outfile_is_used",
    "C51_inferred_name",
    "C51_every_name",
    "C51_parts_unique",
    "C51_standard_input_refused",
    "C51_distinct_names_refuted",
    "C51_collisions_refuted",
    "C51_no_file_name"
   ],
   "note": ""
  },
  {
   "property": "C52",
   "status": "proved",
   "theorems": [
    "C52_life_cycle",
    "C52_situations",
    "C52_written_once",
    "C52_exception_refuted",
    "C52_missing_file_refuted"
   ],
   "note": ""
  },
  {
   "property": "C53",
   "status": "proved",
   "theorems": [
    "C53_reads",
    "C53_read_is_full"
   ],
   "note": ""
  },
  {
   "property": "C54",
   "status": "proved",
   "theorems": [
    "C54_children",
    "C54_only_directories",
    "C54_equality",
    "C54_equality_across_refuted"
   ],
   "note": ""
  },
  {
   "property": "C55",
   "status": "proved",
   "theorems": [
    "C55_events",
    "C55_crash_points",
    "C55_elsewhere",
    "C55_done",
    "C55_failed",
    "C55_no_force"
   ],
   "note": "Relative to the writing protocol of jbk (not in the repository), stated as the transition system jbk_call of CreateHost.v: temporary files are made exclusively, written, and renamed to their final names by finalize once complete."
  },
  {
   "property": "C56",
   "status": "proved",
   "theorems": [
    "C56_extract_root_dir",
    "C56_root_dir_refused",
    "C56_file_list",
    "C56_lines",
    "C56_root_dir_slash_refuted"
   ],
   "note": ""
  },
  {
   "property": "C57",
   "status": "proved",
   "theorems": [
    "C57_create_extract"
   ],
   "note": ""
  },
  {
   "property": "C58",
   "status": "proved",
   "theorems": [
    "C58_get_entry",
    "C58_bad_path",
    "C58_root_refuted",
    "C58_attributes",
    "C58_content"
   ],
   "note": ""
  },
  {
   "property": "C59",
   "status": "proved",
   "theorems": [
    "C59_roundtrip"
   ],
   "note": ""
  },
  {
   "property": "C60",
   "status": "proved",
   "theorems": [
    "C60_confined",
    "C60_confined_extract",
    "C60_link_directory_refuted"
   ],
   "note": ""
  },
  {
   "property": "C61",
   "status": "proved",
   "theorems": [
    "C61_sound",
    "C61_total"
   ],
   "note": ""
  },
  {
   "property": "C62",
   "status": "proved",
   "theorems": [
    "C62_forward_walk_ends",
    "C62_creator_tables",
    "C62_own_child_refuted"
   ],
   "note": ""
  },
  {
   "property": "C63",
   "status": "proved",
   "theorems": [
    "C63_resolution",
    "C63_resolves_every_path",
    "C63_same_inode",
    "C63_contents",
    "C63_directory"
   ],
   "note": ""
  },
  {
   "property": "C64",
   "status": "proved",
   "theorems": [
    "C64_create",
    "C64_dump",
    "C64_list",
    "C64_mount",
    "C64_python",
    "C64_extract"
   ],
   "note": ""
  },
  {
   "property": "C65",
   "status": "proved",
   "theorems": [
    "C65_same_sources",
    "C65_order_irrelevant",
    "C65_readers_agree"
   ],
   "note": ""
  },
  {
   "property": "C66",
   "status": "proved",
   "theorems": [
    "C66_killed",
    "C66_history",
    "C66_resumed",
    "C66_keeps",
    "C66_skip_refuted",
    "C66_newer_refuted",
    "C66_link_lost_refuted"
   ],
   "note": ""
  },
  {
   "property": "C67",
   "status": "proved",
   "theorems": [
    "C67_tar",
    "C67_zip",
    "C67_zip_confined",
    "C67_tar_slip_refuted",
    "C67_zip_root_dir_refuted",
    "C67_zip_twins_refuted"
   ],
   "note": ""
  },
  {
   "property": "C68",
   "status": "proved",
   "theorems": [
    "C68_mounted",
    "C68_cleaned",
    "C68_serves",
    "C68_accepts",
    "C68_refuses",
    "C68_no_archive",
    "C68_no_abort",
    "C68_status_refuted"
   ],
   "note": ""
  },
  {
   "property": "C69",
   "status": "proved",
   "theorems": [
    "C69_read_only",
    "C69_rw_refused",
    "C69_whole_archive",
    "C69_auto_mount",
    "C69_no_archive",
    "C69_rw_list_refuted"
   ],
   "note": ""
  },
  {
   "property": "C70",
   "status": "proved",
   "theorems": [
    "C70_counts",
    "C70_never_in_the_way",
    "C70_display"
   ],
   "note": ""
  },
  {
   "property": "C71",
   "status": "proved",
   "theorems": [
    "C71_nothing_else",
    "C71_everything",
    "C71_one_bad_path"
   ],
   "note": ""
  },
  {
   "property": "C72",
   "status": "proved",
   "theorems": [
    "C72_truthful",
    "C72_not_found",
    "C72_no_abort",
    "C72_disorder_refuted",
    "C72_size_refuted",
    "C72_range_refuted",
    "C72_index_refuted"
   ],
   "note": ""
  },
  {
   "property": "C73",
   "status": "proved",
   "theorems": [
    "C73_created_opens",
    "C73_entries_index",
    "C73_opens_iff",
    "C73_no_index",
    "C73_foreign_aborts",
    "C73_read_by_name",
    "C73_numbers_refuted",
    "C73_mount_same",
    "C73_mount_no_index",
    "C73_mount_store_refuted"
   ],
   "note": ""
  },
  {
   "property": "C74",
   "status": "proved",
   "theorems": [
    "C74_output_path",
    "C74_reopened"
   ],
   "note": ""
  },
  {
   "property": "C75",
   "status": "proved",
   "theorems": [
    "C75_delivered",
    "C75_enough",
    "C75_pipe",
    "C75_status",
    "C75_dump_lines",
    "C75_list_piped",
    "C75_full_device_refuted"
   ],
   "note": ""
  },
  {
   "property": "C76",
   "status": "proved",
   "theorems": [
    "C76_nothing_lost",
    "C76_files_stay",
    "C76_readers_change_nothing",
    "C76_not_an_archive",
    "C76_link_refuted",
    "C76_companion_refuted"
   ],
   "note": ""
  },
  {
   "property": "C77",
   "status": "proved",
   "theorems": [
    "C77_mount",
    "C77_mounts",
    "C77_python",
    "C77_python_extract",
    "C77_python_refuses",
    "C77_create",
    "C77_stays",
    "C77_list",
    "C77_dump",
    "C77_extract",
    "C77_extract_succeeds"
   ],
   "note": ""
  },
  {
   "property": "C78",
   "status": "proved",
   "theorems": [
    "C78_moments",
    "C78_steady",
    "C78_appended",
    "C78_mount",
    "C78_truncated_refuted",
    "C78_views_refuted"
   ],
   "note": ""
  },
  {
   "property": "C79",
   "status": "proved",
   "theorems": [
    "C79_refines",
    "C79_reproduces"
   ],
   "note": ""
  },
  {
   "property": "C80",
   "status": "proved",
   "theorems": [
    "C80_careful",
    "C80_newer_refuted"
   ],
   "note": ""
  },
  {
   "property": "C81",
   "status": "proved",
   "theorems": [
    "C81_open_files",
    "C81_enough"
   ],
   "note": ""
  },
  {
   "property": "C82",
   "status": "proved",
   "theorems": [
    "C82_listed",
    "C82_find",
    "C82_depth_refuted"
   ],
   "note": ""
  },
  {
   "property": "C83",
   "status": "proved",
   "theorems": [
    "C83_converted",
    "C83_listing",
    "C83_dump",
    "C83_permissions_refuted"
   ],
   "note": ""
  },
  {
   "property": "C84",
   "status": "proved",
   "theorems": [
    "C84_iterate",
    "C84_parents"
   ],
   "note": ""
  },
  {
   "property": "C85",
   "status": "proved",
   "theorems": [
    "C85_extracted",
    "C85_mounted_tree",
    "C85_mounted",
    "C85_absolute_refuted"
   ],
   "note": ""
  },
  {
   "property": "C86",
   "status": "proved",
   "theorems": [
    "C86_tar",
    "C86_zip",
    "C86_late_directories_refuted"
   ],
   "note": ""
  },
  {
   "property": "C87",
   "status": "proved",
   "theorems": [
    "C87_times",
    "C87_update",
    "C87_newer_is_enough",
    "C87_newer_refuted"
   ],
   "note": ""
  },
  {
   "property": "C88",
   "status": "proved",
   "theorems": [
    "C88_parts",
    "C88_as_one",
    "C88_goes_on"
   ],
   "note": ""
  },
  {
   "property": "C89",
   "status": "proved",
   "theorems": [
    "C89_apart",
    "C89_same",
    "C89_output_elsewhere",
    "C89_inside",
    "C89_own_temporary_refuted"
   ],
   "note": ""
  },
  {
   "property": "C90",
   "status": "proved",
   "theorems": [
    "C90_repacked",
    "C90_listing",
    "C90_dump",
    "C90_extract",
    "C90_times"
   ],
   "note": ""
  },
  {
   "property": "C91",
   "status": "proved",
   "theorems": [
    "C91_create",
    "C91_tar",
    "C91_zip",
    "C91_python",
    "C91_addresses",
    "C91_stray_refuted"
   ],
   "note": ""
  },
  {
   "property": "C92",
   "status": "proved",
   "theorems": [
    "C92_crash_points",
    "C92_elsewhere",
    "C92_done",
    "C92_failed",
    "C92_reopened",
    "C92_clobber_refuted",
    "C92_lost_refuted"
   ],
   "note": ""
  },
  {
   "property": "C93",
   "status": "proved",
   "theorems": [
    "C93_steps",
    "C93_until_exit",
    "C93_crash_points",
    "C93_closed",
    "C93_side_by_side",
    "C93_exception_refuted"
   ],
   "note": ""
  },
  {
   "property": "C94",
   "status": "proved",
   "theorems": [
    "C94_opened",
    "C94_create_moments",
    "C94_convert_moments",
    "C94_self_refuted"
   ],
   "note": ""
  },
  {
   "property": "C95",
   "status": "proved",
   "theorems": [
    "C95_moments",
    "C95_elsewhere",
    "C95_no_failure",
    "C95_alone",
    "C95_as_alone",
    "C95_seen",
    "C95_open_files",
    "C95_race_refuted"
   ],
   "note": ""
  },
  {
   "property": "C96",
   "status": "proved",
   "theorems": [
    "C96_tar",
    "C96_tar_exact",
    "C96_zip",
    "C96_readers_agree",
    "C96_modes_refuted",
    "C96_order_refuted"
   ],
   "note": ""
  },
  {
   "property": "C97",
   "status": "proved",
   "theorems": [
    "C97_lookup",
    "C97_dump",
    "C97_python",
    "C97_request",
    "C97_list",
    "C97_extract",
    "C97_damage_refuted"
   ],
   "note": ""
  },
  {
   "property": "C98",
   "status": "proved",
   "theorems": [
    "C98_get_entry_sound",
    "C98_get_entry_ends",
    "C98_iterate",
    "C98_attributes",
    "C98_parents",
    "C98_walk_ends",
    "C98_creator_tables",
    "C98_own_child_refuted",
    "C98_own_parent_refuted",
    "C98_skipping_refuted"
   ],
   "note": ""
  },
  {
   "property": "C99",
   "status": "proved",
   "theorems": [
    "C99_clash_refused",
    "C99_given_twice"
   ],
   "note": ""
  },
  {
   "property": "C100",
   "status": "proved",
   "theorems": [
    "C100_create_iff",
    "C100_order"
   ],
   "note": ""
  },
  {
   "property": "C101",
   "status": "proved",
   "theorems": [
    "C101_tar_iff",
    "C101_zip_iff",
    "C101_order"
   ],
   "note": ""
  },
  {
   "property": "C102",
   "status": "proved",
   "theorems": [
    "C102_needed",
    "C102_iff",
    "C102_command"
   ],
   "note": ""
  },
  {
   "property": "C103",
   "status": "proved",
   "theorems": [
    "C103_block_iff",
    "C103_next"
   ],
   "note": ""
  },
  {
   "property": "C104",
   "status": "proved",
   "theorems": [
    "C104_nothing_lost",
    "C104_directories",
    "C104_no_trace"
   ],
   "note": ""
  },
  {
   "property": "C105",
   "status": "proved",
   "theorems": [
    "C105_selection",
    "C105_command",
    "C105_order",
    "C105_lines",
    "C105_list_all",
    "C105_odd_names_refuted"
   ],
   "note": ""
  },
  {
   "property": "C106",
   "status": "proved",
   "theorems": [
    "C106_tar",
    "C106_tar_order",
    "C106_zip",
    "C106_tar_zip",
    "C106_late_refuted",
    "C106_zip_order"
   ],
   "note": ""
  }
 ]
}