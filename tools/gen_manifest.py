#!/usr/bin/env python3
"""Writes MANIFEST.json."""
import json, os
C = []
def c(prop, status, theorems, note=""):
    C.append(dict(property=prop, status=status, theorems=theorems, note=note))
c("C01", "proved", ["C01_metadata_roundtrip", "C01_metadata_too_small"])
c("C02", "proved", ["C02_load_total", "C02_load_accepts_exactly_valid"])
c("C03", "proved", ["C03_burst_detected"], "CRC-32 is computed in the model, not assumed.")
c("C04", "proved", ["C04_addressing", "C04_update_is_local"])
c("C05", "proved", ["C05_fresh_from_source", "C05_fresh_without_source", "C05_fetched_all"])
c("C06", "proved", ["C06_lazy_device_is_a_disk", "C06_background_keeps_contents"], "Refinement of the ordinary disk of DiskSpec.v, for devices meeting well_configured; LazyRefuted.v shows what happens without it.")
c("C07", "proved", ["C07_crash_is_a_disk_crash", "C07_no_foreign_data", "C07_flushed_writes_survive"])
c("C08", "proved", ["C08_write_only_after_fetch", "C08_released_after_durable_copy", "C08_no_copy_after_write"])
c("C09", "proved", ["C09_written_before_write", "C09_completed_writes_marked"])
c("C10", "proved", ["C10_flags_survive"])
c("C11", "proved", ["C11_completions_match"])
c("C12", "proved", ["C12_at_most_four_attempts", "C12_given_up_only_after_four", "C12_fetched_is_reported", "C12_waiting_request_is_failed"])
c("C13", "proved", ["C13_at_most_16_fetches", "C13_fetch_buffers_distinct", "C13_one_operation_per_stripe", "C13_source_buffers_distinct", "C13_at_most_16_metadata_writes", "C13_metadata_buffers_distinct", "C13_no_panic"])
c("C14", "proved", ["C14_one_update_per_sector", "C14_contents_written"])
c("C15", "proved", ["C15_autofetch_completes"], "For every infinite execution that starts right after a start or crash, in which nothing fails for good (no_permanent_errors), the worker loop keeps running and the devices complete what they are given (keeps_running), and the source covers every stripe marked as having source data.")
c("C16", "proved", ["C16_dropped_only_when_unneeded"])
c("C17", "proved", ["C17_counters"])
c("C18", "proved", ["C18_every_request_completes", "C18_refuted_waits_forever", "C18_hang_reachable"], "Every request completes successfully in every infinite execution meeting no_permanent_errors and keeps_running. The two other theorems show that the hypothesis about the metadata device is needed: after a failed metadata write a guest write waits forever.")
c("C19", "proved", ["C19_read_does_not_copy", "C19_image_data", "C19_never_fetched"])
c("C20", "proved", ["C20_encrypted_device_is_a_disk", "C20_only_ciphertext_stored", "C20_channel_loop_is_the_byte_loop"])
c("C21", "proved", ["C21_tweaks_distinct", "C21_sector_uses_its_own_tweak", "C21_short_buffer_panics", "C21_encrypt_then_decrypt", "C21_uncompressed_archive_tweaks_disjoint", "C21_refuted_compressed_archive"], "C21_refuted_compressed_archive shows that the property fails for compressed archives, for every lossless codec.")
c("C22", "proved", ["C22_key_data_roundtrip", "C22_disk_keys_roundtrip", "C22_archive_key_roundtrip", "C22_unwrap_total", "C22_bad_input_rejected", "C22_unwrapped_lengths"], "AES-256-GCM is an abstract AEAD with its correctness law as a hypothesis.")
c("C23", "proved", ["C23_archive_roundtrip"], "The codecs and primitives are parameters with the laws of ArchiveSpec.lawful; no digest collision among the disk's own objects.")
c("C24", "proved", ["C24_tampering_detected", "C24_refuted_without_kek"], "Stated as: correct contents, or an explicit forgery or collision. C24_refuted_without_kek shows that the key-encryption key is needed.")
c("C25", "proved", ["C25_mapping_roundtrip", "C25_decoder_total", "C25_decoder_rejects"])
c("C26", "proved", ["C26_metadata_input_determines_fields", "C26_mapping_input_determines_fields", "C26_domains_separate"])
c("C27", "proved", ["C27_framing_roundtrip", "C27_framing_defined", "C27_decoder_total"])
c("C28", "proved", ["C28_openable_is_complete", "C28_mapping_uploaded_last"])
c("C29", "proved", ["C29_uploads_once_and_bounded_fetches", "C29_refuted_upload_concurrency"], "C29_refuted_upload_concurrency: the uploads in progress are not bounded by the configured concurrency.")
c("C46", "proved", ["C46_work_bounded", "C46_steps_bounded", "C46_never_stuck", "C46_can_always_finish"])
c("C30", "proved", ["C30_export_is_the_archive", "C30_order_independent", "C30_failure_aborts", "C30_export_progress", "C30_export_of_archived_disk"], "For images below 2^64 bytes.")
c("C47", "proved", ["C47_answered_exactly_once", "C47_poll_progress", "C47_contents"])
c("C31", "proved", ["C31_session_in_sync", "C31_failed_read_ends_session", "C31_truncated_answer", "C31_client_accepts_only_valid", "C31_no_panic", "C31_unknown_command"])
c("C32", "proved", ["C32_reply_by_header", "C32_right_medium", "C32_remote_contents", "C32_untracked", "C32_prepare", "C32_remote_size"])
c("C33", "proved", ["C33_retries_bounded", "C33_outcome", "C33_no_mixing", "C33_answered_exactly_once", "C33_progress", "C33_contents"], "Counterexamples to the stronger claim (any change of metadata is noticed): C33_refuted_unchecked_pool, C33_refuted_same_geometry.")
c("C34", "proved", ["C34_translation", "C34_headers", "C34_load", "C34_image_served", "C34_refuted_beyond_image"], "C34_refuted_beyond_image: a never-written stripe behind the end of the image cannot be served.")
c("C48", "partial", ["C48_remote_size_checked_partial", "C48_refuted_archive_stripe_size"], "Proved for remote servers; refuted for archives (no check exists in the code).")
c("C35", "proved", ["C35_accepted_iff", "C35_no_panic", "C35_rejected", "C35_refuted_header_length", "C35_refuted_id_into_read_only"])
c("C36", "partial", ["C36_no_panic_within_limits_partial", "C36_panics_exactly", "C36_limits_exclude_crashes", "C36_refuted_get_id", "C36_refuted_write_length", "C36_refuted_read_length", "C36_refuted_lazy_out_of_range", "C36_refuted_lazy_zero_length", "C36_refuted_memory"], "Refuted in general; C36_panics_exactly lists exactly the events on which the backend thread panics, and the property is proved for requests within the advertised limits.")
c("C37", "proved", ["C37_exactly_once", "C37_all_returned", "C37_own_slot", "C37_forwarded", "C37_completion", "C37_immediate"])
c("C38", "proved", ["C38_config_size", "C38_config_bytes", "C38_fields"])
c("C49", "partial", ["C49_inside_partial", "C49_refuted_write_past_end", "C49_refuted_read_past_end", "C49_refuted_wrap"], "The code has no range check: proved for requests inside the device, refuted for the others.")
c("C50", "proved", ["C50_notified", "C50_refuted_bad_chain"], "Proved for well-formed chains; C50_refuted_bad_chain for rejected ones.")
c("C51", "proved", ["C51_exactly_once", "C51_busy_exact", "C51_drains", "C51_refuted_submit_error"])
c("C39", "proved", ["C39_no_panic", "C39_exactly_once", "C39_drained", "C39_accepted", "C39_answer", "C39_refuted_stranded", "C39_refuted_stale_answer"], "C39_drained needs successful submits; the two refutations show what happens otherwise.")
c("C40", "proved", ["C40_counters", "C40_counters_exact", "C40_snapshot", "C40_concurrent_exact", "C40_refuted_torn_snapshot", "C40_refuted_failed_submit"])
c("C41", "proved", ["C41_merged", "C41_exact", "C41_order", "C41_paths_stay_inside", "C41_top_level"])
c("C42", "proved", ["C42_exact", "C42_values", "C42_missing", "C42_cycle", "C42_order", "C42_bounded"], "Base64 and AES-GCM are parameters.")
c("C43", "proved", ["C43_device", "C43_tools", "C43_exact", "C43_flags_need_enabled", "C43_warned"], "An archive without a key-encryption key needs no opt-in: there is no flag for it and the property does not ask for one.")
c("C44", "partial", ["C44_accepted", "C44_vhost_safe", "C44_masks_distinct", "C44_ublk_depth_partial", "C44_refuted_ublk_depth"], "The accepted queue size 65536 becomes depth 0 in the ublk backend (C44_refuted_ublk_depth); for every smaller accepted size the depth is kept.")
c("C52", "partial", ["C52_paths", "C52_meaning", "C52_export", "C52_secret_files", "C52_refuted_archive_target"], "Holds for devices, the export tool and secret files; false for the archive tool's target path (C52_refuted_archive_target).")
c("C45", "proved", ["C45_requests", "C45_answers", "C45_send_failure", "C45_answer_unique", "C45_errors"], "The JSON request parser is a parameter; the answers are printed and read back concretely. Each tracker is read at one instant (C40 covers concurrent reads).")
c("C53", "proved", ["C53_prefix", "C53_archives_apart", "C53_others_untouched"], "Object names are those the archiver uses (metadata.json, stripe-mapping, data/ and a hexadecimal hash).")
c("C54", "proved", ["C54_answers", "C54_at_most_once", "C54_every_call_answered", "C54_changes", "C54_concurrency", "C54_dead_store_fails_calls", "C54_refuted_dead_workers"], "C54_every_call_answered assumes that no worker ends, workers finish what they take and the caller polls; C54_refuted_dead_workers shows the first is needed. An S3 request takes effect while a worker handles it (late effects of abandoned attempts are not modelled).")
c("C55", "proved", ["C55_new_device_starts", "C55_reads_as_source", "C55_too_large_refused", "C55_init_succeeds", "C55_success_is_complete", "C55_options", "C55_refuted_same_size"], "A raw image must end at the end of a stripe or of the disk (LazyRefuted.v), an archive must have the device's stripe size (C48).")
c("C56", "proved", ["C56_private", "C56_links_not_followed"], "One process at a time; races with other processes renaming the path are not modelled.")
c("C57", "proved", ["C57_interrupted", "C57_new_file", "C57_refuted_old_metadata"], "With encryption the zeros of a new file must not decrypt to sectors with correct checksums (a hypothesis of C57_interrupted).")
c("C58", "proved", ["C58_server_admits", "C58_client_admits", "C58_same_credentials", "C58_nothing_without_the_key", "C58_usable_credentials", "C58_both_or_none"], "TLS is not modelled: a handshake completes exactly if both callbacks supply the same key.")
c("C59", "proved", ["C59_ends_only", "C59_undisturbed", "C59_refuted_identity", "C59_refuted_accept_error", "C59_refuted_zero_in_identity"], "openssl::memcmp::eq panics on different lengths, inside an extern C callback, which aborts the process.")
c("C60", "proved", ["C60_decode", "C60_encode", "C60_refused", "C60_roundtrip", "C60_decode_gives_guest_data", "C60_refuted_in_place"], "Any cipher that keeps the length of a sector; paths name the same file exactly if they are equal.")
c("C61", "proved", ["C61_listing_reads_back", "C61_dump_lists_exactly_the_stripes"], "")
c("C62", "proved", ["C62_dump_shows_what_was_fetched", "C62_stripe_header", "C62_only_exit_ends", "C62_refuted_stripes_of_the_image"], "Lines are modelled as their words; the client call is an arbitrary answer.")
c("C63", "proved", ["C63_call_reports_its_own_request", "C63_stripe_wait_reports_its_own_request", "C63_calls_report_their_own_requests", "C63_refuted_after_a_timeout", "C63_refuted_other_completions"], "The refutations show the late completion after a timeout, and that completions of other requests are dropped.")
c("C64", "proved", ["C64_read_back", "C64_nothing_invented", "C64_each_reported_once", "C64_plain_names_stay_inside", "C64_archive_names_plain", "C64_outside_untouched", "C64_archive_puts_succeed", "C64_refuted_other_names", "C64_refuted_atomic", "C64_refuted_power_loss"], "File system without links; the crash model of C64_refuted_power_loss is the usual one for files written without fsync.")
c("C65", "proved", ["C65_never_open_to_others", "C65_umask_restored", "C65_other_entries_untouched", "C65_ready", "C65_refuted_two_threads"], "System calls of one process on a directory; other processes writing to the same directory are not modelled.")
c("C66", "proved", ["C66_serves_behind_a_started_worker", "C66_failed_start_reported", "C66_success_means_served", "C66_worker_joined", "C66_requests_drained", "C66_never_stuck", "C66_refuted_worker_death"], "What the threads do inside a step is an arbitrary outcome; the death of the worker going unnoticed is exhibited.")
c("C67", "proved", ["C67_pause", "C67_retried", "C67_attempts", "C67_rest_unchanged", "C67_refuted_below_jitter"], "The SDK's standard strategy is the stated environment; its own classification, backoff and token bucket are arbitrary.")
c("C68", "proved", ["C68_base64", "C68_base64_read", "C68_mapping", "C68_mapping_any_order", "C68_mapping_file", "C68_metadata", "C68_metadata_unambiguous", "C68_archive", "C68_tampering", "C68_secret", "C68_refuted_secret_tail"], "base64, ciborium and serde_json are modelled by their formats: the reader of JSON takes no white space between tokens, that of CBOR no indefinite lengths, and the fields of the mapping file only in the order in which they are written.")
c("C69", "partial", ["C69_archive_partial", "C69_refuted_untracked", "C69_refuted_interrupted"], "The code does not have the property in full: archive ignores track_written, and prefers the local disk for a stripe marked written even if it was never fetched. Disks of whole stripes.")
c("C70", "proved", ["C70_server", "C70_starts"], "Disks of whole stripes; the reads of the local disk and of the source succeed.")
c("C71", "proved", ["C71_clone", "C71_restore"], "Compositions of C70 and C69 with C55 and C06; the transport between the server and the new device is C31 and C33.")
c("C72", "proved", ["C72_file_device_is_a_disk", "C72_write_through", "C72_reports", "C72_read_only", "C72_refuted_past_end"], "Requests within the device for the first two; the kernel's file is modelled by cells of any size (bytes, or whole sectors) that are copied one system call at a time. That a write past the end is refused is refuted.")
c("C73", "proved", ["C73_aligned", "C73_apart", "C73_alignment_chosen", "C73_refuted_block_size", "C73_pool", "C73_pool_buffers"], "Lengths below 2^63. That a block size which is not a power of two is handled is refuted.")
c("C74", "proved", ["C74_write_through", "C74_acknowledged_writes_survive", "C74_file_device"], "What O_SYNC means for the base of the lazy device is a hypothesis on the crashes (base_write_through); that the sync device meets it is C72_write_through. The metadata device need not be write-through.")
c("C75", "proved", ["C75_no_lost_kick", "C75_no_lost_interrupt", "C75_no_deadlock", "C75_backend_moves", "C75_sleeps_idle", "C75_refuted_bad_chain", "C75_refuted_flood"], "The virtio-queue and vhost-user-backend crates are modelled by their documented behaviour, memory as sequentially consistent. The exceptions of the statement are the two refuted theorems.")
c("C76", "proved", ["C76_own_key", "C76_plain_key", "C76_encrypted", "C76_only_own_key", "C76_kek_needed", "C76_valid"], "YAML parsing is outside the model: the decoded records are the input. AES-256-GCM is a parameter with the laws of an AEAD as hypotheses.")
c("C77", "proved", ["C77_device_file", "C77_archive_file", "C77_server_file", "C77_one_meaning", "C77_no_unknown_key", "C77_danger_is_written", "C77_plain_disk_is_written", "C77_no_panic", "C77_stands", "C77_refuted_kek_required"], "The TOML parser is outside the model (documents are trees with any interpretation of their leaves); serde's derived deserializers are modelled key by key. Sections written as arrays are refused in the model. One line of the reference is false of the code: an S3 source without archive_kek is accepted (C77_refuted_kek_required).")
c("C78", "proved", ["C78_guest_sees_a_disk", "C78_guest_history", "C78_goes_on", "C78_guest_of_a_lazy_device", "C78_guest_of_an_encrypted_device"], "Composition of the request path with any device that is an ordinary disk towards the backend, in particular C06 and C20. A request counts as issued when a thread takes its chain and as completed when the chain is put on the used ring; the order in which memory stores become visible to another CPU is not modelled (C75 treats the rings).")
c("C79", "proved", ["C79_lazy_over_any_disk", "C79_lazy_keeps_the_contract", "C79_backend_keeps_the_contract", "C79_encrypted_device_is_a_disk", "C79_lazy_over_encrypted", "C79_guest_of_the_whole_stack"], "Assume-guarantee composition: the lazy device's model with its base taken out (LayerModel) is shown to have exactly the histories of the closed model of C06 when the base behaves as a disk. Requests must lie inside the metadata (as in C13), and the caller's buffers below the lazy device must be its own and large enough (bufs_ok); the metadata device and the image stay inside the lazy device's model.")
c("C80", "proved", ["C80_driver_sees_a_disk", "C80_driver_history", "C80_goes_on", "C80_loop_is_these_steps", "C80_keeps_the_contract", "C80_driver_of_the_whole_stack"], "Refinement: the driver's notes are a history of a disk that gets its requests earlier than the device below (AheadFacts.v). Failing submit calls are outside (C39 shows what goes wrong then).")
c("C81", "proved", ["C81_io_uring_device_is_a_disk", "C81_write_through", "C81_reads", "C81_read_only", "C81_refuted_short_read", "C81_refuted_short_write", "C81_refuted_large_read"],
  "Forward simulation into a disk, at the granularity of bytes or of sectors. Short transfers and requests of 4 GiB and more are excluded by hypothesis, and refuted.")
c("C82", "proved", ["C82_encrypted_over_any_disk", "C82_keeps_the_contract", "C82_base_sees_cipher_text", "C82_encrypted_file", "C82_lazy_encrypted_file", "C82_guest_of_a_file", "C82_driver_of_a_file", "C82_guest_of_an_encrypted_file"],
  "The buffer part of each layer's contract is a hypothesis; sectors are written atomically (an encrypted sector torn by a power failure would decrypt to neither value); no short transfers (C81).")
c("C83", "proved", ["C83_no_request_is_refused", "C83_nor_if_submitted_in_time", "C83_vhost_requests_under_way", "C83_vhost_passes_failures_on", "C83_ublk_requests_under_way", "C83_guest_of_a_raw_file", "C83_guest_of_an_encrypted_file", "C83_guest_requests_on_the_data_file", "C83_driver_requests_on_the_data_file", "C83_submitted_at_once", "C83_metadata_writes", "C83_refuted_small_metadata_ring", "C83_refuted_image_ring"], "RingSpec.v counts requests under way and requests between submissions; the data device, through all layers; the two refutations are the exceptions named in the statement. That the fetcher submits each request at once and the flusher at most sixteen is read off the code (C13 bounds the writes), not part of the ring model")
c("C84", "proved", ["C84_layers", "C84_starts_as_set_up", "C84_files", "C84_read_only_files_unchanged", "C84_tools_only_read", "C84_new_device_comes_up", "C84_never_panics", "C84_guest_sees_the_configured_disk", "C84_driver_sees_the_configured_disk", "C84_guest_of_a_new_device", "C84_refuted_short_key"], "C84_refuted_short_key: the builder itself panics on a key shorter than 32 bytes (the configuration loader refuses those). The lazy device's metadata device, image and source work as in LayerModel.v.")
c("C85", "proved", ["C85_guest_write_through", "C85_guest_acknowledged_writes_survive", "C85_driver_write_through", "C85_driver_acknowledged_writes_survive", "C85_refuted_without_write_through"], "End to end: from the configuration through the built stack (C84) and each layer's model (C72, C79, C80, C81, C82, C78). O_SYNC is a law of the kernel's page cache in the model: a write that returned is never lost in a crash.")
c("C86", "proved", ["C86_comes_up_again", "C86_one_disk_for_life", "C86_up_to_now", "C86_flushed_writes_survive", "C86_life_of_a_new_device"], "Each run is that of C84 (same launch, same layers at work). What a run leaves behind is stated in RestartSpec.left_by: of each sector of the data file and of the metadata file what the devices over these files hold after the crash; the metadata device is that of the stack, sent bytes by the flusher (MetaLayerModel, C87). A torn 512-byte sector is outside the model. The raw image must be a file of its own (image_apart).")
c("C87", "proved", ["C87_whatever_the_metadata_device_does", "C87_base_called_by_the_contract", "C87_metadata_called_by_the_contract", "C87_metadata_after_a_crash", "C87_metadata_stays_sealed"], "The metadata device is outside the model of the lazy device here and is exchanged bytes with; that it is a file, encrypted or not, is C86, which uses these theorems.")
c("C88", "partial", ["C88_offered", "C88_protocol_offered", "C88_mode_told", "C88_write_through_as_told_partial", "C88_nonvacuous", "C88_refuted_without_flush", "C88_refuted_mode_read_alone"], "Partial because the code lacks the full property: acked_features only logs, so a driver that negotiates neither FLUSH nor CONFIG_WCE is misled unless write_through is configured (refuted with a guest session), and get_config ignores the offset (refuted). set_config is not implemented by the backend, so turning the cache off has no effect either. What libublk announces for ublk devices is outside the repository.")
c("C89", "proved", ["C89_server_starts", "C89_server_has_the_device", "C89_clone_is_the_disk"], "Joins C86 (a device's life), C70 (serving a stopped device), C31 (the client's side) and C84 (a new device) on one model of the two stacks; the server is built from the files and the key as prepare.rs does it (CloneModel.v). The first device may have metadata or none (then it is served in stripes of 2048 sectors). As in C70 it is made of whole stripes, and with track_written the stripes that were never written and have no source are zeros on both disks (the server does not send them). The server's own I/O and the connection are taken to work (a failure is an error there: C31, C32).")
c("C90", "partial", ["C90_inside_partial", "C90_refuted_last_stripe", "C90_refuted_announced", "C90_nonvacuous"], "Proved for the stripes that lie within the disk; refuted for a last stripe that does not, over every run of the model of the sync engine (SyncModel.v, C72). The io_uring engine takes the short read for a success instead (C81_refuted_short_read).")
c("C91", "partial", ["C91_archive_starts", "C91_archive_has_the_device_partial", "C91_archive_can_be_a_source_partial", "C91_restored_is_the_disk_partial"], "Joins C86 (a device's life), C23 (the archive) and C84 (a new device) on one model of the two stacks (BackupModel.v). Partial because the code lacks the full property without the two conditions, see C69_refuted_untracked and C69_refuted_interrupted. Cryptographic primitives and compression are parameters with laws; two different stripe objects are assumed to have different digests. The device's sectors are a multiple of the stripe size. C91_nonvacuous meets the hypotheses about the first device, its archive's start and the primitives; a finished run of the archiver and a device made from it are shown on the smaller model only (C71_restore_nonvacuous).")
with open(os.path.join(os.path.dirname(__file__), "..", "MANIFEST.json"), "w") as f:
    json.dump({"claims": C}, f, indent=1); f.write("\n")
