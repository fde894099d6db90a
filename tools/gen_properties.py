#!/usr/bin/env python3
"""Writes properties.jsonl (the list is kept here so that it is easy to edit)."""
import json, os
P = []
def p(title, statement, quantifier, why, anchors):
    P.append(dict(id="C%02d" % (len(P)+1), title=title, statement=statement,
                  quantifier=quantifier, why_tests_cant=why, anchors=anchors))
BL="src/block_device/bdev_lazy/"
p("Metadata save/load round-trip",
  "Serialising any valid device metadata (current magic and version, stripe shift at most 17, fewer than 2^32 stripes) into any sufficiently large sector-aligned buffer succeeds, and loading that buffer gives back exactly the same shift and exactly the same per-stripe header bytes, whatever trailing bytes follow.",
  "all metadata values, all header byte vectors of any length, all buffers with any prior contents",
  "Unit tests check a few stripe counts; group boundaries (508 headers per sector), padding, truncation and trailing garbage range over unboundedly many sizes.",
  [BL+"metadata/types.rs: write_to_buf, from_bytes, write_sector_with_crc32"])
p("Metadata loading never panics and accepts only valid images",
  "Loading metadata from an arbitrary byte buffer always returns success or an error (no out-of-bounds access, no failed assertion); if it succeeds, the buffer has the right magic, version, a shift of at most 17, a stripe count that fits, every used sector has a correct checksum, and the returned headers are exactly the stored bytes.",
  "all byte strings of any length",
  "The input space is every byte string; a fuzzer samples it, and the absence of a panic on the slices and asserts is a universally quantified statement.",
  [BL+"metadata/types.rs: from_bytes, sector_crc32_is_valid"])
p("Corruption of a metadata sector is detected",
  "Changing the stored metadata by any non-zero error confined to 32 consecutive bits of one used sector (header sector or stripe-header sector) makes loading fail; it is never silently accepted as different metadata.",
  "all valid metadata images, all used sectors, all burst positions and all non-zero burst patterns up to 32 bits",
  "There are 4096*2^32 bursts per sector and unboundedly many images; tests flip one byte of one image.",
  [BL+"metadata/types.rs: compute_sector_crc32, sector_crc32_is_valid, from_bytes"])
p("Stripe header addressing is a bijection and updates are local",
  "Each stripe's header lives at exactly one (sector, byte) location inside the metadata area, distinct stripes have distinct locations, and rewriting the sector of one stripe with one header changed yields metadata that loads with exactly that one header changed.",
  "all stripe counts, all stripe ids, all header values",
  "Off-by-one errors appear only at particular group boundaries of large devices.",
  [BL+"metadata/types.rs: stripe_id_to_sector, stripe_id_to_group", BL+"metadata_flusher.rs: start_writes"])
p("Fresh metadata marks exactly the stripes the source has",
  "Newly created metadata has one header per device stripe; a stripe is marked as having source data exactly when the stripe source has it, and nothing is marked fetched or written. A device is considered completely fetched exactly when every stripe that has source data is marked fetched.",
  "all device sizes, stripe sizes and stripe sources",
  "Quantifies over all size combinations including partial last stripes.",
  [BL+"metadata/types.rs: new, new_from_stripe_source, has_fetched_all_stripes", "src/backends/common/mod.rs: init_metadata, ensure_metadata_file"])
p("Lazy device behaves as one ordinary disk",
  "For every interleaving of guest reads, writes and flushes on any number of queues with background fetching, metadata updates, I/O errors and retries, each successful read returns, for every sector, a value that an ordinary disk initialised with (source image overlaid on the base device) would hold at some moment between the read's issue and its completion; background activity never changes the logical contents.",
  "all request sequences, all queue counts, all schedules of the worker and of I/O completions, all I/O failures and submission failures",
  "Tests run a handful of schedules; the property is about every interleaving of asynchronous completions.",
  [BL+"device.rs: LazyIoChannel", BL+"bgworker.rs: BgWorker", BL+"stripe_fetcher.rs: StripeFetcher", BL+"metadata_flusher.rs: MetadataFlusher"])
p("Lazy device is crash consistent",
  "If the host crashes at any point, and every device sector then holds any of the values written since it was last made durable, reopening the device yields the logical contents an ordinary disk could have after the same crash: writes acknowledged before a completed flush survive, and no sector shows data that was neither the image data nor guest-written.",
  "all crash points, all subsets of unflushed sector writes that reach the medium, any number of crash/restart cycles",
  "Crash points and persisted subsets are combinatorially many and cannot be provoked by unit tests.",
  [BL+"stripe_fetcher.rs: poll_fetches", BL+"metadata_flusher.rs: poll_channel", BL+"device.rs: add_write, process_queued_rw_requests", BL+"metadata/shared_state.rs"])
p("Copy-on-write ordering of guest writes",
  "A guest write is issued to the base device only after every stripe it touches has no source data or has been copied from the source, made durable, and durably recorded as fetched; conversely the background copy of a stripe never lands on a sector after a guest write to it has been issued.",
  "all schedules, all overlapping requests, all failures and retries",
  "The bad interleavings are races between a background thread and I/O threads.",
  [BL+"device.rs: add_write, process_queued_rw_requests", BL+"stripe_fetcher.rs: start_write, fetch_completed"])
p("Written-tracking is durable before the write is issued",
  "With written tracking enabled, no guest write reaches the base device unless the written flag of each stripe it touches is already durable in the metadata; so after any crash every stripe modified by a guest is marked written.",
  "all schedules, crash points and failures with tracking enabled",
  "Requires reasoning about every crash point between flag update and data write.",
  [BL+"device.rs: request_stripes_written, start_stripe_set_written", BL+"metadata_flusher.rs"])
p("Acknowledged stripe flags are never lost",
  "Once a stripe is visible as fetched (or written) to the I/O path, no later metadata update, failed update, crash or restart makes the stored metadata forget it.",
  "all histories of metadata updates including failures at every stage and crashes",
  "Group sectors are rewritten whole and failed updates are rolled back in memory, so lost updates would need specific interleavings.",
  [BL+"metadata_flusher.rs: start_writes, poll_channel, cleanup_failed_submission"])
p("Each guest request completes at most once and never spuriously",
  "On a lazy device queue, every completion reported corresponds to a request that was issued and had not been completed before.",
  "all request sequences and schedules",
  "Requests move between a queue, two underlying channels and an error list; duplicates depend on the interleaving.",
  [BL+"device.rs: poll, process_queued_rw_requests, add_read, add_write"])
p("Stripe fetch attempts are bounded and end in a definite state",
  "A stripe requested from the source is attempted at most four times per fetch request; then it is either recorded as fetched or marked failed, and requests waiting for a failed stripe are failed rather than left waiting forever by the queue.",
  "all failure patterns of the source and the target",
  "Failure patterns across 16 concurrent stripes with retries cannot be enumerated.",
  [BL+"stripe_fetcher.rs: fetch_completed, poll_fetches", BL+"device.rs: process_queued_rw_requests"])
p("Fetch buffers are never shared and concurrency is bounded",
  "At most 16 stripe fetches (and at most 16 metadata sector writes) are in progress at once, each of these operations owns a distinct buffer, at most one fetch per stripe is in progress, and no buffer is returned to its pool twice (the pool's assertions never fire).",
  "all request orders, completion orders and failures",
  "A double return panics the worker only under particular failure interleavings.",
  [BL+"stripe_fetcher.rs: start_fetches, fetch_completed", BL+"metadata_flusher.rs", "src/utils/aligned_buffer_pool.rs"])
p("Metadata sector updates are serialised",
  "At any time at most one update per metadata sector is in progress, and the sector contents written contain every flag acknowledged earlier plus exactly the one flag being added.",
  "all update request sequences and completion orders",
  "Quantifies over all concurrent updates to stripes sharing a sector.",
  [BL+"metadata_flusher.rs: start_writes, poll_channel"])
p("Autofetch eventually fetches every source stripe",
  "With autofetch enabled and no permanent errors, the background worker, run repeatedly, gets every stripe that has source data fetched and recorded, whatever else is requested, and then disconnects from the source.",
  "all device sizes, all interleavings of guest requests",
  "A liveness statement over unbounded executions.",
  [BL+"stripe_fetcher.rs: update_autofetch, start_fetches", BL+"bgworker.rs: update"])
p("The source is disconnected only when no longer needed",
  "The worker drops its stripe source only in states where every stripe with source data has been recorded as fetched, and afterwards never needs the source again.",
  "all executions",
  "Depends on counters kept in sync with per-stripe states through failures and refetches.",
  [BL+"stripe_fetcher.rs: disconnect_from_source_if_all_fetched", BL+"metadata/shared_state.rs: set_stripe_header"])
p("Status counters are exact",
  "The reported number of fetched stripes and source stripes always equals the number of stripes recorded as fetched and the number having source data, and fetched never exceeds source, which never exceeds total.",
  "all executions, starting from any metadata produced by the tool",
  "Double counting appears only for particular repeated updates.",
  [BL+"metadata/shared_state.rs: new, set_stripe_header", BL+"status_report.rs"])
p("Waiting requests make progress",
  "If the underlying devices complete every operation successfully and the worker keeps running, every guest request eventually completes successfully; a request is not left waiting forever. (With metadata write errors this fails: a counterexample is exhibited.)",
  "all states and request sequences",
  "Liveness over unbounded executions; the hang needs a metadata write error at one precise point.",
  [BL+"device.rs: process_queued_rw_requests", BL+"metadata_flusher.rs: poll_channel", BL+"stripe_fetcher.rs: handle_fetch_request"])
p("Reads of unfetched data do not copy when copy-on-read is off",
  "With copy-on-read disabled, a read that lies inside one stripe never causes the stripe to be fetched and returns the source image's data for unfetched stripes.",
  "all reads and all states",
  "Quantifies over all requests and stripe states.",
  [BL+"device.rs: add_read", "src/backends/common/mod.rs: build_bdev_lazy"])
p("Encrypted device is transparent",
  "Reads, writes and flushes through the encrypting device return the same data and results as on a plain disk whose contents are the decryption of the base device, for any sequence of concurrent requests with distinct ids.",
  "all request sequences, ids, completion orders and any per-sector invertible cipher",
  "Request-id bookkeeping of in-flight reads can fail only under particular reorderings.",
  ["src/block_device/bdev_crypt.rs: CryptIoChannel", "src/crypt/block.rs: encrypt, decrypt"])
p("Encryption tweaks are never reused across sectors of one device or archive",
  "Distinct sectors get distinct XTS tweaks; sector i of a buffer is processed with the tweak of its absolute sector number; in an archive without compression, whose sectors number at most 2^60, the tweaks used for different stripes and for the stripe mapping never coincide. (With compression this is false: for every lossless codec some stripe's object is one sector longer than the stripe and reuses a tweak of the next stripe.)",
  "all sector numbers below 2^64, all stripe ids and stripe sizes",
  "A collision would need astronomically large indices that tests never use.",
  ["src/crypt/block.rs: get_initial_tweak, encrypt, decrypt", "src/archive/stripe_hashes.rs: XTS_SECTOR_START", "src/archive/archiver.rs: maybe_encrypt"])
p("Key wrapping round-trip and rejection",
  "Unwrapping a wrapped key gives the original; anything shorter than nonce+tag is rejected; unwrapping with missing key material or wrong lengths is rejected without panicking.",
  "all keys, all ciphertext byte strings, any AEAD satisfying its correctness law",
  "Input space is all byte strings.",
  ["src/crypt/key.rs: encrypt_key_data, decrypt_key_data"])
p("Archive and restore round-trip",
  "Archiving a fully readable device and then opening the archive as a stripe source with the same key returns, for every stripe that contained data, exactly its bytes (with or without compression and encryption, including deduplicated and all-zero stripes), and reports exactly those stripes as present.",
  "all disk contents, stripe sizes, compression and encryption settings, completion orders",
  "Contents and completion orders are unbounded.",
  ["src/archive/archiver.rs: StripeArchiver", "src/stripe_source/archive.rs: ArchiveStripeSource"])
p("Tampering with an archive is detected",
  "If any stored stripe object, the stripe mapping or the authenticated metadata fields are altered, opening the archive or fetching the affected stripe fails; no stripe is ever returned with contents other than the archived ones, unless the store holds a forged MAC tag, a forged wrapped key or a hash collision. (This needs a key-encryption key: without one, anybody's archive is accepted.)",
  "all modifications of all stored objects",
  "The adversary's choices are unbounded.",
  ["src/stripe_source/archive.rs", "src/archive/stripe_hashes.rs: deserialize_stripe_mapping", "src/archive/hmac.rs"])
p("Stripe mapping encode/decode round-trip",
  "Every stripe mapping decodes back to itself under the same keys, and the mapping decoder rejects, without panicking, any blob with a wrong version, domain, alignment, length or MAC.",
  "all finite maps from stripe index to digest, all byte strings",
  "Unbounded map sizes and padding cases.",
  ["src/archive/stripe_hashes.rs: serialize_stripe_mapping, deserialize_stripe_mapping, pad_to_sector"])
p("Authenticated encodings are unambiguous",
  "The byte strings fed to the MAC for archive metadata, and for the stripe mapping, determine all the fields they authenticate: two different field values never give the same MAC input, and the two domains never collide.",
  "all pairs of metadata values and mapping blobs",
  "A collision is a relation between two inputs; tests can only check chosen pairs.",
  ["src/archive/hmac.rs: metadata_hmac_input, push_len_prefixed", "src/archive/stripe_hashes.rs: manifest_hmac_input"])
p("Compressed stripe framing round-trips and is total",
  "Decompressing the output of compression gives the original; the framed output is always sector aligned; decoding arbitrary bytes never panics and never reads outside the input.",
  "all payloads, all byte strings, any lossless codec",
  "All sizes modulo 512, including boundary cases, and arbitrary corrupt sizes.",
  ["src/archive/compression.rs"])
p("An archive becomes visible only when complete",
  "The stripe mapping, without which an archive cannot be opened, is stored only after the metadata and every stripe object it refers to have been stored successfully; if archiving fails or is interrupted at any point, what has been stored either cannot be opened as an archive or is complete.",
  "all interruption points and completion orders",
  "Crash points during a long asynchronous upload.",
  ["src/archive/archiver.rs: archive_all, wait_for_puts, finish"])
p("Archiver uploads each distinct object once with bounded concurrency",
  "Each distinct stripe content is uploaded once under the name of its hash, all-zero stripes upload nothing, stripes without data are skipped, each stripe is read at most once, and the number of stripe fetches in progress never exceeds the configured concurrency. (The number of uploads in progress is not bounded by it.)",
  "all stripe contents and completion orders",
  "Deduplication against in-flight uploads depends on completion order.",
  ["src/archive/archiver.rs: start_archive_tasks, process_put_results, upload_stripe"])
p("Exported image equals the archived disk",
  "Exporting an archive writes, for each archived stripe, its contents at its offset, and zeros elsewhere; the result is independent of completion order, and any failure aborts with an error.",
  "all archives and completion orders",
  "Completion orders of 16 concurrent fetches.",
  ["src/export_archive.rs"])
p("Remote stripe protocol client and server agree",
  "For every request, the bytes the server sends are parsed by the client to exactly the server's answer, consuming exactly those bytes so that the next request starts in sync; the client never returns data for a status other than OK and rejects wrong sizes, unknown statuses and incompatible versions.",
  "all request sequences, stripe contents, statuses, and all byte streams from a misbehaving server",
  "Streams of arbitrary length with arbitrary contents.",
  ["src/stripe_server/session.rs", "src/stripe_server/client.rs", "src/stripe_server/mod.rs"])
p("The stripe server only serves valid data",
  "The server returns data only for in-range stripes that hold data locally; a stripe whose source data was not fetched is never served from the local disk (it is answered NOT_FETCHED or read from the source), and stripes without data are answered NO_DATA. Reading a stripe as zero when NO_DATA is reported equals the device's logical contents.",
  "all metadata headers, stripe ids and disk contents",
  "All header bit combinations for all stripes.",
  ["src/stripe_server/session.rs: handle_read_stripe_request, stripe_has_data, stripe_not_fetched", "src/stripe_server/prepare.rs"])
p("Remote source retries are bounded and never mix stripe geometries",
  "A remote stripe source answers each request exactly once, makes at most ten reconnections per request, retries only after transport errors, and after reconnecting to a server whose stripe size or stripe count differs it fails instead of serving stripes; what it delivers is the complete stripe such a server sent for that stripe. (Not caught, with counterexamples: a replaced server with the same geometry but other contents; a server replaced while the initial pool is being connected, because only the first connection is checked.)",
  "all failure patterns, schedules of workers and server replacements",
  "Failure patterns over reconnects are unbounded.",
  ["src/stripe_source/remote.rs"])
p("Legacy metadata translation preserves which data is local",
  "Translating old-format metadata yields one header per device stripe, marking a stripe as locally written exactly when the old header is non-zero and as unfetched source data otherwise, or rejects the input; it never panics.",
  "all byte strings and device sizes",
  "Arbitrary old metadata contents and sizes.",
  ["src/stripe_server/legacy.rs: translate_v0_2_metadata, is_legacy_v0_2, load_metadata_for_serving"])
p("Guest requests are parsed safely",
  "A virtio-blk descriptor chain is accepted exactly if its header is readable and device-readable, its data descriptors have the direction the request type needs and its last descriptor is a writable status of at least one byte; the parsed request describes exactly the chain's descriptors; anything else is returned to the guest unserved, without a panic. (Not checked by the code, shown by counterexamples: that the header descriptor is long enough, and the direction of a device-id request's data.)",
  "all descriptor chains a guest can build",
  "A malicious guest controls every descriptor; chains are unbounded.",
  ["src/backends/vhost/request.rs: Request::parse, check_data_desc, check_status_desc"])
p("Guest cannot crash the vhost backend",
  "No guest request makes the backend thread panic. (Refuted: a device-id request without data descriptor, oversized lengths, zero-length or out-of-range requests on a lazy device are exhibited as counterexamples; the property is proved for requests within the advertised limits.)",
  "all guest requests",
  "Needs considering every guest-controlled field.",
  ["src/backends/vhost/backend_thread.rs: process_get_device_id, request_len, write_to_guest, process_read, process_write", BL+"device.rs: add_read"])
p("Each guest request is answered exactly once with its own data",
  "Every descriptor chain taken from the available ring is put on the used ring at most once, with a status that matches the I/O result; in-flight requests own distinct slots and buffers; read data is scattered to guest memory in order and write data gathered in order without loss or overlap.",
  "all request mixes, completion orders and failures",
  "Slot reuse errors depend on completion order.",
  ["src/backends/vhost/backend_thread.rs: get_request_slot, put_request_slot, complete_io, poll_io, write_to_guest, process_write"])
p("Device configuration space is consistent",
  "The advertised capacity equals the device's sector count, and a read of the configuration space returns exactly the requested number of bytes.",
  "all sizes requested by the guest and all device sizes",
  "All request sizes.",
  ["src/backends/vhost/backend.rs: get_config, build_virtio_config"])
p("ublk requests are completed exactly once",
  "Each ublk request tag handed to the I/O handler gets exactly one completion, with the number of bytes on success and an error otherwise; each accepted request is sent to the device exactly once with its own sectors and data; requests larger than the buffer are rejected; the handler returns only when everything is completed. (Counterexamples: an oversized request at the end of a batch leaves the rest of the batch waiting until another request arrives; after a failed submit a late answer to the old operation is taken for the answer to the tag's next request.)",
  "all request sequences, completion orders and failures",
  "Completion order and submit failures.",
  ["src/backends/ublk/io_handler.rs"])
p("I/O statistics and snapshots are exact",
  "Per-queue cumulative counters equal the number and bytes of issued operations; the snapshot lists exactly the operations in flight (up to the tracking capacity) and never reports a finished operation, for snapshots that do not race with an update of the same slot. (Counterexamples: a racing snapshot can combine the kind of one operation with the sectors of another; after a failed ublk submit the failed requests stay listed.)",
  "all operation sequences",
  "All interleavings of issue and completion with slot reuse.",
  ["src/backends/common/io_tracking.rs: IoTracker", "src/backends/common/rpc.rs"])
p("Config includes are merged without silent override",
  "The effective configuration contains every setting of the main file and of each included file; if two files define the same non-table key, or a table in one and a value in another, loading fails; a successful merge does not depend on the order of the includes.",
  "all trees of TOML tables and all include lists",
  "Unbounded nesting and key sets.",
  ["src/config/v2/includes.rs: merge_tables, resolve_includes, parse_include_array, validate_include_path"])
p("Secret resolution is complete and terminates",
  "Resolving secrets always terminates; it succeeds exactly when every secret's key-encryption key chain is defined and acyclic and each decrypts; each resolved value is the source decrypted with the resolved key under the secret's name; cyclic or missing references are reported as errors.",
  "all secret definition graphs and all processing orders",
  "Graphs of arbitrary shape and hash-map iteration orders.",
  ["src/config/v2/secrets.rs: resolve_secrets, maybe_resolve_secret"])
p("Insecure configurations need explicit opt-in",
  "A configuration without disk encryption, with inline secrets that are not encrypted under another secret, with environment secrets, secrets in regular files, or with an unauthenticated remote connection is accepted only if the danger zone is enabled and the matching flag is set.",
  "all configurations",
  "All combinations of settings and flags.",
  ["src/config/v2/load.rs", "src/config/v2/secrets.rs: load_source", "src/config/v2/stripe_source.rs: validate", "src/config/v2/mod.rs: DangerZone"])
p("Accepted tuning values are safe to use",
  "Every accepted tuning has a power-of-two queue size, in-range queue counts and segment sizes, and buffer sizes computed from it do not overflow.",
  "all integer settings",
  "All 64-bit values.",
  ["src/config/v2/tuning.rs: validate"])
p("Control interface answers each request line once",
  "The control interface answers each request line (every line that is not blank, up to the first that is not UTF-8) with exactly one line holding one JSON object, in order; the object is an error exactly for malformed or unknown commands, and queue, statistics and status answers show the operations in flight, the totals and the stripe counts at that moment. It never panics.",
  "all request lines",
  "Arbitrary input lines.",
  ["src/backends/common/rpc.rs: process_request, handle_client"])
p("Archiving terminates",
  "If no operation fails, archiving completes: the archiver is never stuck while work is left (some completion it waits for is outstanding, or it can act), and it takes at most a fixed number of steps per stripe.",
  "all disks, settings and completion orders",
  "Unbounded disks and interleavings; a test only shows that one schedule ends.",
  ["src/archive/archiver.rs: archive_all_inner, poll_fetches, poll_uploads"])
p("An archive source answers each request once, with that stripe",
  "A stripe source backed by an archive answers every request exactly once, even when several stripes share one stored object; a successful answer leaves exactly that stripe's contents in the request's buffer, a failure is reported only if a get failed or the object does not decode, and once the store has answered everything the source is idle.",
  "all archives, histories of requests and polls, orders and results of the store's answers",
  "Unbounded interleavings of requests that share objects, and arbitrary store behaviour.",
  ["src/stripe_source/archive.rs: request, start_fetch_stripe, poll, finish_pending_request, busy"])
p("A stripe source with another stripe size is not used silently",
  "Opening a stripe source whose stripes have another size than the device's fails. (Holds for a remote server; refuted for an archive, whose stripe size is never compared with the device's: a concrete archive is used with wrong contents and no error.)",
  "all servers, archives and stripe sizes",
  "A test needs a mismatched pair; that no check exists on some path is a statement about all of them.",
  ["src/stripe_source/remote.rs: RemoteStripeSource::new", "src/stripe_source/builder.rs: build", "src/stripe_source/archive.rs: new, finish_stripe_fetch"])
p("Requests outside the device are refused",
  "A request that reaches beyond the device's last sector is refused and has no effect; a request inside the device touches exactly its own sectors. (The first half is refuted: the backend and the io_uring device check no range, so a write behind the end grows the backing file, a read there is reported as successful with nothing read, and a sector number of 2^55 wraps to the first sector.)",
  "all sector numbers and lengths, all file sizes",
  "All 64-bit sector numbers, including those whose byte offset overflows.",
  ["src/block_device/bdev_uring.rs: add_read, add_write, poll, UringBlockDevice::new"])
p("The guest is notified of completed requests",
  "Whenever processing the queue returns well-formed requests to the guest, the guest is notified according to the negotiated notification rules. (Refuted for rejected chains: they are put on the used ring without notification.)",
  "all request mixes, all completion orders, with and without event-index notification suppression",
  "A missing notification hangs the guest only for particular interleavings.",
  ["src/backends/vhost/backend_thread.rs: process_queue, signal_used_queue, complete_io"])
p("The io_uring channel reports every operation exactly once",
  "Every operation handed to the channel is reported exactly once or still outstanding, the channel is busy exactly while something is outstanding, and if the kernel takes the entries offered at submit time everything is reported once the kernel has finished. (Refuted otherwise: an entry the kernel did not take is not offered again until another request arrives.)",
  "all sequences of requests, submits, kernel completions (any order, any result) and polls, all queue sizes",
  "The kernel's completion order and its submission failures cannot be enumerated by tests.",
  ["src/block_device/bdev_uring.rs: UringIoChannel"])
p("Configuration paths are relative to the configuration file",
  "If the directory of the configuration file is absolute, every path of the loaded configuration (disk, metadata, sockets, image, archive, secret files) is absolute: an absolute path is kept, a relative one is taken in that directory, whatever the working directory of the process.",
  "all configurations and directories",
  "All paths and all optional settings.",
  ["src/config/v2/load.rs: resolve_path, resolve_device_paths, resolve_secret_paths, load_from_value", "src/config/v2/stripe_source.rs: resolve_paths"])
p("Archives under different S3 prefixes do not interfere", "A configured S3 prefix stands for one folder of the bucket (slashes around it do not matter), and every object of the archive has the key folder + name. Two archives in different folders have no key in common, even if one folder is inside the other, and archiving or reading one never changes an object of the other.", "all prefixes, all archives, all schedules of the upload workers", "Collisions between nested folders depend on all pairs of prefixes and object names.", ["src/archive/s3_store.rs:S3Store::new", "src/archive/s3_store.rs:key_with_prefix", "src/archive/archiver.rs"])
p("The S3 store answers every request once, with its own outcome", "Every put or get handed to the S3 store is answered exactly once, with the name it was called with; a put reported as successful stored its data and a get returns what the object held at some moment between the call and the answer; the bucket changes only by puts that are in progress; and at most the configured number of requests (1 to 128) are worked on at once. (A worker that ends while requests wait loses them without any answer: exhibited as a counterexample.)", "all sequences of calls and polls, all schedules and failures of the workers, all bucket contents", "Interleavings of worker threads, retries and polls are unbounded.", ["src/archive/s3_store.rs", "src/archive/s3_store/s3_store_workers.rs"])
p("A newly initialised device reads as its source laid over its disk", "After init-metadata succeeds, the device starts whenever its source fits the disk, and everything a guest then sees, through any failures and crashes, is what an ordinary disk would show that initially holds the source's sectors in every stripe for which the source has data and the disk's own sectors elsewhere. A source too large for the disk is refused at the start. init-metadata reports success only after everything was written and synchronised, and succeeds whenever no system call fails and the path is free or holds a file of whole sectors. (Archives and servers deliver whole stripes, so a disk that is not a whole number of stripes cannot be cloned onto a disk of the same size: exhibited as a counterexample.)", "all disk sizes, stripe sizes 2^6 to 2^16 sectors, all raw images, archives and servers, with and without encryption, and all later histories including crashes", "Relates a command run once, an on-disk format and all later executions of another program; sizes and sources are unbounded.", ["src/backends/common/mod.rs:init_metadata", "src/backends/common/mod.rs:BackendEnv::build", "src/stripe_source/builder.rs:build", "src/block_device/bdev_lazy/metadata/save.rs", "src/block_device/bdev_lazy/metadata/load.rs", "src/bin/init-metadata.rs"])
p("init-metadata keeps the metadata file private and follows no links", "A metadata file that init-metadata creates is at no moment accessible to group or others, whatever the umask; metadata is only written into a file whose permissions are exactly 0600 by then, and until that write an existing file is at most extended with zeros; a symbolic link or anything that is not a regular file at the path is refused and left as it is.", "all states of the path, all umasks, all combinations of failing system calls", "All failure points and prior states of the path matter.", ["src/backends/common/mod.rs:ensure_metadata_file", "src/backends/common/mod.rs:init_metadata"])
p("An interrupted init-metadata is noticed", "If init-metadata is stopped while it writes a new file, at any point and with any of the sectors written, the device refuses to start from what is there, or everything had been written. The same holds on a file whose previous sectors have no correct checksum. (Over older metadata it does not hold: the device can start with a mixture of both, exhibited as a counterexample.)", "all devices and sources, all subsets of the sectors written", "The subsets of sectors that a crash leaves are unbounded in number.", ["src/backends/common/mod.rs:init_metadata", "src/block_device/bdev_lazy/metadata/save.rs:save_to_bdev", "src/block_device/bdev_lazy/metadata/types.rs:from_bytes"])
p("With a pre-shared key the stripe server serves only holders of the key", "A stripe server configured with a pre-shared key completes a handshake only with peers that name its identity and hold its secret, and sends nothing at all to any other peer, in any interleaving of connections. A client with a pre-shared key goes on only with a server that uses the client's secret for the client's identity. A client and a server of this program with usable credentials connect exactly if their credentials are equal.", "all credentials, all peers (not only this program's client), all interleavings of any number of connections", "Peers and interleavings are unbounded; tests use one matching pair.", ["src/stripe_server/psk.rs:PskCredentials::new", "src/stripe_server/psk.rs:wrap_psk_server_stream", "src/stripe_server/psk.rs:wrap_psk_client_stream", "src/bin/remote-stripe-server.rs:run"])
p("Clients of the stripe server do not disturb each other", "As long as the server process runs, every connection is in the state and has been sent the bytes it would have been sent had it been the only one. The process ends only when accepting a connection fails or a peer names an identity whose length differs from the configured one. (Both take down the service for all clients, and the second is possible for every peer without knowing the secret; they are exhibited as counterexamples to the expectation that a client cannot end the server.)", "all sequences of connections, handshakes and requests of any number of clients", "All interleavings of unboundedly many clients.", ["src/bin/remote-stripe-server.rs:run", "src/stripe_server/psk.rs:wrap_psk_server_stream", "src/stripe_server/session.rs:handle_requests"])
p("The xts tool converts images sector by sector, and back", "When encoding reports success, every requested sector of the input is in the output at the same place, encrypted with the tweak of its own sector number, and sectors below the start are zeros; when decoding reports success, the output is exactly the requested sectors, each decrypted with the tweak of its place in the image, so that decoding what was encoded gives the input back and decoding the data file of an encrypted disk gives what the guest sees. No other file changes. A range that the image does not contain, an image that is not a whole number of sectors and a missing input are refused before any file is touched. (Converting in place, with the output path equal to the input path, is exhibited as a counterexample: encoding reports success and the image is lost.)", "all images of any size, all start and length options, all ciphers that keep the length, all I/O failures", "Chunk boundaries, sizes and failures are unbounded.", ["src/bin/xts.rs:decode", "src/bin/xts.rs:encode", "src/block_device/bdev_sync.rs:SyncIoChannel", "src/block_device/bdev_crypt.rs:CryptIoChannel"])
p("dump-metadata lists exactly the stripes with each flag", "Reading a printed listing back, where a-b stands for all the numbers from a to b, gives exactly the numbers of the stripes whose header has the flag, in increasing order, for each of the three flags and every metadata.", "all metadata with any number of stripes and any combination of flags", "The number of stripes and the pattern of runs are unbounded.", ["src/bin/dump-metadata.rs:format_list", "src/bin/dump-metadata.rs:push_range", "src/bin/dump-metadata.rs:run"])
p("The remote stripe shell shows what was fetched", "For a stripe whose metadata has the written flag, dump_stripe prints in hexadecimal exactly the requested bytes of what the last successful fetch_stripe of that stripe in the session brought; it says so if the stripe does not exist, was not fetched, or the range leaves it. Nothing that is typed and no server answer ends the shell, except the commands exit and quit. (For stripes without the written flag dump_stripe prints zeros even after their data was fetched and is not zero; this is exhibited as a counterexample.)", "all sessions: all sequences of typed words and server answers", "Sessions and numbers typed are unbounded.", ["src/bin/remote-stripe-shell.rs:run", "src/bin/remote-stripe-shell.rs:parse"])
p("Synchronous waits report their own request", "A call that waits for a request (putting or getting an object, a device read, write or flush of the tools and servers, a stripe of a source) returns the result of exactly that request when it ends in time, and a timeout otherwise; however many calls follow each other on one store or channel, whatever else completes meanwhile. The exception is exhibited: after a call timed out, a later call with the same name or number can be told the result of the earlier request.", "all sequences of calls, all orders and times of completion, all clock readings", "The wrong result needs a completion that arrives after a timeout, in a later call.", ["src/block_device/wait_for_completion.rs: wait_for_completion", "src/stripe_source/wait.rs: wait_for_stripe", "src/archive/mod.rs: put_object, get_object"])
p("Archive in a local directory", "In a store kept in a directory, a get after a put that was reported as successful returns exactly what was put, whatever other puts and gets come between and whichever of them fail; what a get returns was always put there; every call is reported once, in order; with the object names archives use, nothing outside the directory changes and no put is refused because of another object. What does not hold is exhibited: a failed put can destroy the object that was there, and success does not survive a power loss, because nothing is synced.", "all sequences of puts, gets and polls, all names, data and I/O errors, all states after a power loss", "The combinations of names, errors and crash states are unbounded.", ["src/archive/fs_store.rs: FileSystemStore", "src/archive/archiver.rs: object_key"])
p("Private sockets", "Whatever umask the process starts with, whichever system calls fail and wherever the process dies, a socket the backend created is at no moment open to users other than the owner and the group, nor executable; when the set-up succeeded, each socket is readable and writable by exactly the owner and the group; the umask is restored on success and on failure; no other directory entry is changed. The documented limit is exhibited: with two threads using the guard at once a socket can be open to everybody and the umask is not restored.", "all starting umasks, directory contents, sequences of failing calls, crash points and numbers of clients served", "The window between creation and chmod is a few instructions wide and depends on the umask at start.", ["src/utils/umask_guard.rs: UmaskGuard", "src/backends/common/rpc.rs: start_rpc_server", "src/backends/vhost/backend_loop.rs: serve_vhost"])
p("Start and stop of a backend", "A backend with a metadata device serves its first client only after the background worker reported that it started; if the worker fails to start, by an error or a panic, the call fails and nothing is served; when the call returns, in whatever way, the worker has ended and has taken every request that was accepted; the two threads never wait for each other for ever. Not guaranteed, and exhibited: the death of the worker later on is not noticed; the backend goes on serving clients whose requests for stripes are refused.", "all interleavings of the main thread, the worker and the I/O threads, all outcomes of every step", "Depends on the interleaving of threads and on panics at any point.", ["src/backends/common/mod.rs: run_backend_loop, run_bgworker_thread, spawn_bgworker_thread, stop_bgworker_thread", "src/block_device/bdev_lazy/bgworker.rs: run, receive_requests"])
p("Rate-limited retries", "With rate-limited retries switched on, an S3 request answered with 429, 500, 502, 503 or 504 is tried again while attempts are left, after a pause of at least the configured minimum and at most the minimum plus the jitter, even when that is longer than the SDK's default cap; there are never more attempts than configured; for every other outcome, and when the feature is off, the decision and the pause stay the SDK's. The documented half-open range is not exact: the pause can equal the minimum plus the jitter.", "all accepted settings, all sequences of responses, random numbers and SDK decisions", "Settings, responses and random numbers are unbounded; the upper end of the range has probability 2^-52.", ["src/utils/s3.rs: RateLimitedRetryClassifier, build_s3_client", "src/config/v2/stripe_source.rs: validate_rate_limited_retry, validate_max_attempts", "src/stripe_source/builder.rs: build_archive_store"])
p("Archive and key formats", "The files of an archive and the texts of keys and secrets are what the formats' definitions say, byte for byte, and read back as what was written: keys are base64 with padding, of which exactly one text stands for each byte string and no other is accepted; the stripe mapping is the CBOR encoding of the map from stripes to digests in a CBOR record, and every other CBOR encoding of the same record is read as the same mapping; metadata.json is the JSON object with the documented fields, negative compression levels included. Hence an archive reads back as the disk, and tampering shows, with only the ciphers, digests and zstd taken on trust. A base64 secret is its text and then white space. Not guaranteed, and exhibited: in a secret file longer than 10929 bytes what follows is not looked at, even if it is no base64.", "all byte strings, all mappings and metadata of the Rust types, all encodings", "Byte strings, maps and encodings are unbounded; the edge cases sit at the boundaries 24, 256, 65536, 2^32 and at every padding.", ["src/crypt/key_serialization.rs", "src/archive/mod.rs: ArchiveMetadata, ArchiveCompressionAlgorithm", "src/archive/stripe_hashes.rs: StripeMappingFile, StripeContentSpecifier, serialize_stripe_mapping, deserialize_stripe_mapping", "src/archive/bytes32.rs", "src/config/v2/secrets.rs: decode, load_file_source"])
p("Archiving a stopped device", "An archive made from a device that has stopped, in an orderly way or by a crash, gives for every stripe exactly what the guest's disk holds: the data of every write reported as successful (after a crash: flushed), of the source elsewhere, and zeros where nothing was ever written. It holds for devices that track writes, for the stripes all of whose writes were reported successful. It does not hold otherwise, and both cases are exhibited: without write tracking (the default) flushed writes to stripes without source data are silently left out of the archive; with it, a stripe whose write was interrupted between being marked and being fetched is archived with whatever the local disk held before.", "all devices, sources, schedules, failures, crash points and archive options", "Depends on which of two metadata updates had reached the disk at the moment of the stop, for every history.", ["src/bin/archive.rs: run", "src/archive/archiver.rs: stripe_should_be_archived, start_fetch_stripe", "src/block_device/bdev_lazy/device.rs: queue_rw_request"])
p("Serving a stopped device", "A stripe server started on a device that has stopped, in an orderly way or by a crash, with or without write tracking and whatever became of the last writes, answers for every stripe with exactly what the guest's disk holds; the stripes it reports as without data hold zeros. It starts if and only if the device's source is configured or no stripe depends on it any more.", "all devices, sources, schedules, failures and crash points", "The answer combines header bits, the local disk and the source after every possible history.", ["src/stripe_server/prepare.rs: prepare_stripe_server, mark_no_source_stripes_written", "src/stripe_server/session.rs: handle_read_stripe_request", "src/stripe_server/client.rs: fetch_stripe"])
p("Moving a disk", "When a stopped device is served by a stripe server (or, under the conditions of C69, archived) and a new device is set up on an empty disk of at least the same size with that server (archive) as its source, the new device starts, its guest first finds exactly the sectors the old guest left and zeros behind them, and from then on, through any failures and crashes, it behaves as an ordinary disk with those contents.", "all histories of the old device and of the new one, all stripe sizes, disks and encryption settings", "Combines two devices, a server or an archive and the set-up of metadata, each over unbounded histories.", ["src/stripe_server/prepare.rs: prepare_stripe_server", "src/bin/archive.rs: run", "src/backends/common/mod.rs: init_metadata", "src/stripe_source/builder.rs: build"])
p("The synchronous file device is a disk",
  "A device opened with the sync engine behaves as a disk of byte cells: a successful read returns, byte by byte, data last written (or the initial contents), concurrent writes take effect in some order, a failed write may have changed any part of its range and nothing else, and after a crash everything flushed is there and every other byte holds some value written to it since. This holds whatever the kernel does: short reads and writes, interruptions, errors, and other channels running in between. Opened with O_SYNC (tuning.write_through), it behaves as if a flush followed every successful write. Every request is reported exactly once, in order, at the latest by the next poll, and a read-only device never changes the file. A write past the end of the device is not refused, however: it succeeds and makes the file longer.",
  "all file lengths and contents, all request sequences on any number of channels, all interleavings of the kernel's partial transfers, all errors and crash points",
  "short transfers, interruptions and interleavings of several channels are the kernel's choice; a test run sees one of them, and never a crash",
  ["src/block_device/bdev_sync.rs: SyncIoChannel, SyncBlockDevice", "src/backends/common/mod.rs: build_raw_block_device"])
p("I/O buffers are aligned, disjoint and handed out once",
  "A buffer allocated with an alignment that is a power of two starts at a multiple of it, lies within its storage and is zero, wherever the allocator puts it; buffers in disjoint storage are disjoint. The alignment chosen at start suits both direct I/O pages and the file system's block size if that is a power of two; if it is not, the start panics. A pool of buffers hands out only buffers that are not out, has none left only when all are out, and accepts a return exactly when the buffer is out: returning a buffer twice, or a foreign one, panics.",
  "all addresses, lengths and alignments; all sequences of gets and returns, also wrong ones",
  "the address of an allocation is the allocator's choice, and the histories of a pool are unbounded",
  ["src/utils/aligned_buffer.rs: AlignedBuf", "src/utils/aligned_buffer_pool.rs: AlignedBufferPool", "src/backends/common/mod.rs: determine_alignment"])
p("Write-through devices need no flush",
  "When the base device is opened write-through, a guest write whose successful completion was reported is seen by every later read, over any number of power failures, although the guest never flushes. This holds for the sync file device and for the lazy device above a write-through base, also while stripes are being fetched and whatever becomes of the metadata writes in flight. Seen by the guest, the device is an ordinary disk whose client flushes after each completion.",
  "all configurations, guest request sequences, interleavings of the background worker, and crash points",
  "which unflushed state a power failure keeps is the device's choice, and the loss shows only if it strikes between a completion and the recording of the stripe's state",
  ["src/config/v2/tuning.rs: write_through", "src/backends/common/mod.rs: create_io_engine_device", "src/block_device/bdev_sync.rs", "src/block_device/bdev_lazy/device.rs", "src/block_device/bdev_lazy/stripe_fetcher.rs", "src/block_device/bdev_lazy/metadata_flusher.rs"])
p("No wake-up is lost between guest and backend", "A guest driver that follows the virtio standard and a vhost backend thread never wait for each other for ever: whenever the backend sleeps with no kick pending and the driver has made its kick decision for all it published, every request has been taken and answered; and when moreover the driver waits for an interrupt and none is on its way, it has taken every answer. With or without EVENT_IDX, and whatever the backend's poll timeout. (Chains that cannot be parsed are excepted, and floods of 2^16 requests answered without I/O in one pass: for both a lost interrupt is exhibited.)", "every interleaving of the driver's and the backend's accesses to the rings, any number of requests, any queue size up to 32768, ring indices wrapping around", "lost wake-ups need one particular interleaving of two processors around the index updates; tests run the queue in one thread", ["src/backends/vhost/backend.rs: handle_event", "src/backends/vhost/backend_thread.rs: process_queue, complete_io, complete_bad_chain"])
p("A legacy volume is served with its own key", "Serving a v0.2 volume from its old configuration: with the key-encryption key it was wrapped under, the volume is read with exactly its two stored keys, in order; when a configuration is accepted, whatever the key-encryption key and however the stored keys were altered, the key used is the one that seals to the stored bytes; wrapped keys without a key-encryption key are refused; an encrypted volume is never read as unencrypted nor the reverse; data, metadata and image paths and written-tracking are taken over unchanged, and the result satisfies the rules for current configurations.", "every legacy configuration, every key-encryption key, every pair of keys, every alteration", "a wrong key gives garbage rather than an error when blocks are decrypted, so only for all inputs is it excluded; tests try a few keys", ["src/stripe_server/legacy.rs: load_legacy_config, unwrap_xts_key, decrypt_key, into_key"])
p("Configuration files are read strictly, as the reference says",
  "A configuration file (with its includes) is accepted with given settings exactly when, for every key of the reference, the setting is the value written there, of the documented type and range, or, if the key is not written, the documented default; and when nothing is written besides documented keys, at any depth. A misspelt, misplaced or ill-typed key anywhere refuses the whole file. In particular no safety override is on unless the file says so literally, and a disk is left unencrypted only if the file has no encryption section and sets both danger_zone.enabled and danger_zone.allow_unencrypted_disk to true. (The reference calls archive_kek.ref of an S3 source required; the program takes it as optional.)",
  "all parsed TOML documents with any includes, for the device, archive target, archive export and stripe server files",
  "The documents are unboundedly many, and the guarantee is about every key that is not a documented one and every combination of sections present or absent.",
  ["src/config/v2/mod.rs: DeviceSection, DangerZone, EncryptionSection", "src/config/v2/tuning.rs: TuningSection", "src/config/v2/stripe_source.rs: StripeSourceConfig, ArchiveStorageConfig, RemoteStripeConfig", "src/config/v2/secrets.rs: SecretDef, parse_secrets", "src/config/v2/load.rs: load_from_value, parse_required_section, parse_optional_section"])
p("The guest of a running backend uses an ordinary disk",
  "Take what a guest can observe: the read, write and flush requests in the descriptor chains it publishes on its queues, and for every chain that comes back on a used ring the status byte and the data then found in its memory. Under a driver that keeps to the virtio rules, on any number of queues sharing one memory and one device, this history is a history of one ordinary disk with the device's size, initial contents and final contents, provided the device behaves as an ordinary disk towards the backend; so with a lazy device (image overlay) or an encrypted device the guest's own history is that of a disk holding the image over the base, or the decrypted sectors. No chain comes back that the guest does not wait for, and the backend does not stop.",
  "all memory contents, queue counts, descriptor layouts, interleavings of queues, guest stores at any time, device completions in any order, failures and power failures",
  "the composition of request parsing, slots, buffers, scatter/gather and the device must hold for every interleaving of queues and completions; unit tests drive one queue with one request at a time",
  ["src/backends/vhost/backend_thread.rs: process_queue, process_read, process_write, process_flush, poll", "src/backends/vhost/request.rs: Request::parse", "src/backends/vhost/backend.rs: UbiBlkBackend::new", "src/block_device/mod.rs: IoChannel"])
p("The layers of a device can be stacked",
  "A lazy device needs nothing from its base device but calls and completions: over any base device that behaves as an ordinary disk it is an ordinary disk itself, holding the base overlaid with the image, and at the end every sector is the base's where the stripe has been released and the image's elsewhere. Each layer also keeps the id rule of the device below it: as long as its own user does not reuse the id of a request in flight, neither does the lazy device, although it makes requests of its own; nor do the threads of a backend. So the usual stack, a guest on a backend on a lazy device on an encrypting device on a disk, shows the guest one ordinary disk holding the decrypted base overlaid with the image.",
  "all requests, fetches, orders of sectors and completions, failures and power failures in every layer, and every behaviour of the base device that an ordinary disk allows",
  "each layer's tests use a test device below it; that the guarantees of one layer are enough for the next, for all interleavings, is not a test of any one of them",
  ["src/backends/common/mod.rs: build_bdev_lazy, build_block_device", "src/block_device/bdev_lazy/device.rs: LazyIoChannel", "src/block_device/bdev_lazy/stripe_fetcher.rs: StripeFetcher", "src/block_device/bdev_crypt.rs: CryptIoChannel", "src/block_device/mod.rs: IoChannel"])
p("The kernel driver of a running ublk backend uses an ordinary disk",
  "If the block device under a ublk backend behaves as an ordinary disk, then what the kernel driver itself sees on any number of queues (the requests it hands over under tags, and the result and buffer it gets back per tag) is a history of an ordinary disk of the same size and contents: completions match requests, reads return the initial contents or data written to that sector, completed writes are seen by later reads and survive power failures once flushed. Requests that wait in a handler, oversized or unsupported requests that are refused, and the interleaving of queues make no difference; the backend never gets stuck and never reuses an id in flight on a channel.",
  "All conforming driver behaviours on any number of queues and tags, all interleavings of the queue threads' steps with the device's, all device histories allowed by an ordinary disk, all crash points; also through a lazy and an encrypting device.",
  "Tests drive one handler with one request at a time over a small in-memory device; refinement relates all concurrent histories, including power failures.",
  ["src/backends/ublk/io_handler.rs: UblkIoHandler::handle, enqueue_request, complete_request, process_pending_requests", "src/backends/ublk/mod.rs: serve_ublk_queue"])
p("The io_uring file device is a disk",
  "Opened on a file of whole sectors, the io_uring device (the default engine) shows the callers of all its channels one ordinary disk of the file's size and contents: every completion answers a request in flight, a read returns per sector (indeed per byte) the initial contents or data of some write to it, a completed write is seen by later reads, and once flushed it survives power failures; with write_through no flush is needed; opened read-only, it never changes the file. This rests on the kernel transferring all that was asked or reporting an error, and on requests below 4 GiB: the device reports a short transfer as a success, and asks for nothing when a request has 4 GiB.",
  "All file sizes and queue sizes, all sequences of calls on any number of channels that keep the contract of a channel, all orders in which the kernel takes up, carries out piece by piece and completes requests, all failures of requests, all crash points and what survives them.",
  "Tests issue a few requests and wait for each; they cannot range over what the kernel may do with requests in flight together, nor over what a power failure leaves.",
  ["src/block_device/bdev_uring.rs: UringBlockDevice::new, UringIoChannel::new, add_read, add_write, add_flush, submit, poll"])
p("Encryption works over any base device, down to a file",
  "The encrypting device needs nothing from its base device but calls and completions: over any base that behaves as an ordinary disk it is an ordinary disk holding the decrypted sectors, it does not panic, it keeps the id rule towards its base if its callers do, and of every write the base gets only the encryption of each sector under that sector's number. So a guest (or the ublk driver) on a backend on a lazy device on an encrypting device on an io_uring file sees one ordinary disk: at first the decrypted file overlaid with the image, and at the end what the file then holds, decrypted, where the stripe is released.",
  "All calls on all channels, all completions and orders the base device may choose, all failures and power failures in every layer, all ciphers whose decryption undoes encryption.",
  "Each layer's tests use a test device below it and one request at a time; that the guarantees of each layer suffice for the next, under all interleavings and down to what a power failure leaves in the file, is a statement about all histories.",
  ["src/block_device/bdev_crypt.rs: CryptIoChannel", "src/block_device/bdev_uring.rs: UringIoChannel", "src/backends/common/mod.rs: build_block_device, create_io_engine_device", "src/block_device/bdev_lazy/device.rs: LazyIoChannel"])
p("A request is never refused for want of a ring slot", "A guest's request on the data device fails only if the kernel reported an error for that very request: the device's ring has a slot for every request a virtqueue or a ublk queue can have under way, with the lazy and the encrypting device in between as well. The stripe fetcher, which submits each request at once, is never refused either; the metadata flusher is not if queue_size is at least 16. Two configurations accepted by the validator do not have the property: a queue_size below 16 can fail metadata updates of a sound disk, and a queue_size above 64 can fail reads served from a raw image.", "every session of a conforming guest or kernel driver, every order of submission, transfer and completion in the kernel, every number of queues, every queue and ring size", "whether a slot is free depends on how many requests of a queue happen to be under way at once, over all schedules of guest, backend threads and kernel; tests issue a handful of requests", ["src/block_device/bdev_uring.rs: add_read, add_write, add_flush, submit, poll", "src/backends/common/mod.rs: build_block_device, build_raw_image_device", "src/backends/vhost/backend_thread.rs: process_queue", "src/backends/ublk/io_handler.rs", "src/block_device/bdev_lazy/metadata_flusher.rs: start_writes, poll_channel", "src/config/v2/tuning.rs: validate"])
p("The device stack is built as configured", "A backend that comes up serves exactly what its configuration says. The guests' device is the configured data file, behind the cipher exactly if a key is configured, with the two halves of that key; with a metadata path, the lazy device over that, which reads the configured raw image directly exactly if copy-on-read is off and tracks writes exactly if that is configured. Only the data and the metadata file are opened for writing; a raw image is opened for reading and keeps its contents whatever happens; the tools that archive or dump a device open all files for reading only. Every file is opened with O_DIRECT, and with O_SYNC exactly if write_through is set. All a guest, or the kernel driver, then notes is a history of one disk that first holds the (decrypted) data file overlaid with the source, and at the end what the files hold. After init-metadata the backend comes up. No configuration with keys of at least 32 bytes makes it panic.", "every configuration, contents of the files, sector cipher, sequence of requests, failures and power losses, for both I/O engines and both frontends", "the unit tests build devices over small files with one configuration and do not run the layers together", ["src/backends/common/mod.rs:BackendEnv::build", "src/backends/common/mod.rs:build_block_device", "src/backends/common/mod.rs:build_raw_image_device", "src/backends/common/mod.rs:build_bdev_lazy", "src/backends/common/mod.rs:create_io_engine_device", "src/stripe_source/builder.rs:StripeSourceBuilder::build", "src/bin/archive.rs", "src/bin/dump-metadata.rs"])
p("With write-through, acknowledged writes survive power failures, through the whole backend", "If tuning.write_through is configured, then all a guest of the backend (over vhost-user) or the kernel driver (over ublk) notes is what it would note of one ordinary disk with a volatile cache on which a flush succeeds after every completed request: whether or not there is a key, a metadata file, a source still being fetched, and whichever I/O engine is configured. So every read issued after a write was reported done finds that write, or a later one, though the power fails in between and nobody flushed. Without write-through this may fail.", "for every configuration with write_through, every content of the files, every schedule of the kernel, the background fetcher and the guest, every failure of a request, and every number of power failures at any point", "whether data survives a power failure depends on every layer at once (the flag reaching each opened file, the engine's flush that is then skipped, the order of metadata and data in the lazy device); tests run without power failures", ["src/backends/common/mod.rs:build_block_device", "src/block_device/bdev_uring.rs:add_flush", "src/block_device/bdev_sync.rs:SyncIoChannel", "src/block_device/bdev_lazy/device.rs:LazyIoChannel", "src/block_device/bdev_crypt.rs:CryptIoChannel", "src/backends/vhost/backend_thread.rs", "src/backends/ublk/io_handler.rs"])
p("A device keeps its contents through restarts of its backend", "A backend that is stopped at any point, by a crash of its own or a power failure, comes up again with the same configuration on the files it left behind: whichever stripes were fetched, half fetched or being written back at that point, its metadata still loads, and the device has the same size. What guests (over vhost-user) or the kernel driver (over ublk) note over any number of such runs, one after the other, is what they would note of one single disk that loses power between the runs, holding the configured contents at first (for a new device: the data file overlaid with the source); and at any time the device holds what that disk holds. So flushed writes are found by later runs, and nothing ever reappears or is taken from the source again once it was written over.", "for every number of runs, every point at which each of them stops, every configuration (key, source, engine), every schedule, request and failure within the runs, and every outcome of the writes in flight at each stop", "one would have to stop a backend at every point of every schedule and start it again, any number of times; the tests of the crate start each device once", ["src/backends/common/mod.rs:BackendEnv::build", "src/block_device/bdev_lazy/metadata/load.rs:load_from_bdev", "src/block_device/bdev_lazy/bgworker.rs:BgWorker", "src/block_device/bdev_lazy/metadata_flusher.rs:MetadataFlusher", "src/block_device/bdev_lazy/metadata/shared_state.rs:SharedMetadataState::new", "src/block_device/bdev_lazy/device.rs:LazyIoChannel", "src/backends/vhost/backend_thread.rs", "src/backends/ublk/io_handler.rs"])
p("Metadata device of a lazy device may be any device, and is never misleading",
  "The metadata device of a lazy device is called with whole sectors of headers and with flushes, never reusing the id of a call in flight. Whatever it answers, the guest sees an ordinary disk as long as the data device is one. If it behaves as a disk itself, then after a crash at any point the header bytes left on it tell of every stripe where the guest's data is (in the source if the stripe has one and is not marked fetched, on the data device otherwise), every header sector has its checksum, and all other sectors are as before.",
  "every run of the lazy device, every order, failure or absence of completions from both devices, every crash point and everything the crash may leave of unflushed metadata sectors",
  "Tests use a metadata device that completes at once and in order and never stop between a header write and its flush; the claim is about every interleaving of metadata writes with data writes and about every outcome of a crash.",
  ["src/block_device/bdev_lazy/metadata_flusher.rs: set_stripe_fetched, set_stripe_written, start_writes, poll_channel", "src/block_device/bdev_lazy/bgworker.rs: BgWorker::update", "src/block_device/bdev_lazy/metadata/types.rs: write_sector_with_crc32"])
p("A driver that may take completed writes for durable is right to (vhost)",
  "From the features it negotiated and the cache mode it read, a virtio driver concludes whether completed writes are durable or need a flush. Whenever a driver that negotiated CONFIG_WCE or FLUSH and read the configuration space from its start concludes that the cache is write-through, completed writes survive power failures; with CONFIG_WCE it concludes so exactly if tuning.write_through is configured. The backend offers only features it implements. (Refuted for a driver that negotiates neither bit: the device keeps its volatile cache although the driver need not flush. Refuted for a front-end that reads the mode byte on its own: the offset is ignored, and it is given a byte of the capacity.)",
  "all configurations, worlds, sets of accepted features, configuration-space read sizes and guest sessions with power failures",
  "The claim ranges over all drivers' negotiations and all crash points.",
  ["src/backends/vhost/backend.rs: features, acked_features, protocol_features, get_config, new"])
p("A device cloned from another one's stripe server starts out with what that one held",
  "Take a device (with metadata or without, with or without encryption, with or without a source of its own, with either I/O engine), let it be used through any number of runs of its backend, each ended by a kill or a power failure, and then start the stripe server on the files it left behind. The server starts if a source is configured or nothing is left to fetch, always so without metadata. For every stripe its clients get exactly what the disk of the first device's users holds; the stripes it reports as without data are zeros there. A second, new device of at least that size, made with the same stripe size, with the server as its source and with its own key and engine, is to its users, over all its own runs and crashes, a disk that began with those contents.",
  "all pairs of configurations, ciphers and files, all lives of the first device (any number of runs, requests, interleavings and crashes), all lives of the second, every sector",
  "A test would have to copy one device in one state with one key; here two whole stacks, two ciphers, the metadata of both, the server and its protocol, and unbounded histories on both sides have to agree on every sector.",
  ["src/stripe_server/prepare.rs: prepare_stripe_server, mark_no_source_stripes_written", "src/stripe_server/legacy.rs: load_metadata_for_serving, read_metadata_bytes", "src/stripe_server/session.rs: handle_read_stripe_request", "src/stripe_source/remote.rs: RemoteStripeSource", "src/backends/common/mod.rs: BackendEnv::build, build_block_device", "src/block_device/bdev_lazy"])
p("Every stripe a stripe server announces can be fetched from it",
  "A client that is told by a stripe server that it has data for a stripe can fetch that stripe, whatever the size of the server's disk. The code does not have this in full: the server always reads a whole stripe from its disk, so a last stripe that the disk does not fill cannot be read when the disk is a plain file opened with the sync engine; the client gets a server error each time. Every device without metadata whose size is not a multiple of 1 MiB has such a stripe, and its server announces it.",
  "all disk sizes, stripe sizes, stripe headers and contents; all interleavings, partial transfers, interruptions and failures of the server's reads",
  "That a read of the last stripe never succeeds is a statement about all executions of the read loop; that all other stripes can be had ranges over all sizes.",
  ["src/stripe_server/session.rs: read_stripe, handle_read_stripe_request", "src/stripe_server/prepare.rs: prepare_stripe_server", "src/block_device/bdev_sync.rs: add_read", "src/stripe_server/client.rs: fetch_stripe"])
p("A device restored from an archive starts out with what the archived one held",
  "Take a device with metadata, let it be used through any number of runs of its backend, each ended by a kill or a power failure, and run the archive command on the files it left behind. The command starts whenever a backend would. If it reports success, the archive can be opened with the key it was made with and gives for every stripe exactly what the disk of the device's users holds; stripes it has no object for are zeros there. A second, new device of at least that size over a file of zeros, made with the same stripe size and the archive as its source, presents over its whole life one disk that began with these contents, whatever keys and engines either of them uses. The code has this only if the stripes not marked as written are zeros (so with track_written, on a disk that was zeros) and no stripe is marked as written while its data is in the source only.",
  "all pairs of configurations, ciphers and files, all lives of the first device, all schedules of the archiver's fetches and uploads, all lives of the second device, every sector",
  "A test would archive one device in one state with one key; here two stacks, their ciphers and metadata, the archive's format and the archiver's schedule, and unbounded histories on both sides have to agree on every sector.",
  ["src/bin/archive.rs: run", "src/archive/archiver.rs: StripeArchiver::new, archive_all, start_fetch_stripe", "src/stripe_source/archive.rs: ArchiveStripeSource", "src/stripe_source/builder.rs: StripeSourceBuilder", "src/backends/common/mod.rs: BackendEnv::build, build_block_device"])
with open(os.path.join(os.path.dirname(__file__), "..", "properties.jsonl"), "w") as f:
    for x in P: f.write(json.dumps(x) + "\n")
print(len(P))
