# Formal model of ubicloud/ubiblk in Rocq (Coq 8.16.1)

The code in `/repo` (pinned commit) is read as text; nothing in it is built or run.
The model is in `rocq/theories`, logical name `Verif`. `properties.jsonl` lists the
properties; `MANIFEST.json` maps each to its theorems; `seeded/LOG.jsonl` records the
wrong programs the theorems were tried against.

## How the model is organised

Each subject has up to four files:

* `XModel.v`  -- executable Gallina definitions, one per Rust function, each with a
  comment giving file and lines in `/repo` and the simplifications made. No proofs.
* `XSpec.v`   -- a small specification that does not use the model's helpers. Where a
  property needs none beyond lists and numbers, there is no such file.
* `XProofs.v` -- lemmas and invariants.
* `XProps.v`  -- the property theorems (`Cnn_...`), beside each an `Example
  ..._nonvacuous` showing that a concrete non-trivial case meets its hypotheses, and
  `Print Assumptions`.

Names: `Cnn_...` is a theorem of property Cnn. `Cnn_refuted_...` proves that a stronger
form of the property, one a reader might expect, is false of the code, with a witness.
`..._partial` proves part of a property that does not hold in full; the manifest's note
says what is missing.

Conventions. A Rust panic (index out of bounds, failed `assert!`, arithmetic overflow
in a debug build, unwrap of `None`) is an explicit outcome of the model function
(`Panic` of type `res`), never ignored. Integers are `N` or `nat` with explicit range
hypotheses, or explicit wrapping where the code can wrap. Concurrency is a transition
system: `step : state -> event -> option state`, one event per atomic action of a
thread, of the kernel or of a device; theorems quantify over all event sequences, hence
over all schedules, completion orders, failures and crash points. Files and devices are
functions from positions to values; a crash keeps an arbitrary subset of the writes
that were not flushed.

External code (AES-XTS, AES-GCM, SHA-256, HMAC, zstd, TOML, TLS, io_uring, the AWS SDK)
is a parameter, universally quantified in the theorem together with the law it is
assumed to satisfy ("decrypt inverts encrypt"), or an arbitrary environment choosing
outcomes. CRC-32, base64, CBOR and JSON are not abstracted: they are implemented in the
model and their properties proved (C03, C45, C68).

## Plan per property

| id | modelled | proof |
|----|----------|-------|
| C01 C02 | `write_to_buf`, `from_bytes` over byte lists, with panics (`MetadataModel`) | round trip by induction over groups; accepted images characterised |
| C03 | CRC-32 bit by bit (reflected 0xEDB88320) | linearity over GF(2), injectivity of the shift register |
| C04 C05 | stripe addressing, sector rewrite, fresh metadata | arithmetic, locality of list update |
| C06-C11 C13 C14 | one transition system for queues (`LazyIoChannel`), worker, fetcher, flusher, shared state, base and metadata devices with asynchronous, failing, crashable I/O (`LazyModel`, `LazyState`) | inductive invariants (`LazyInv*`); forward simulation to a plain crashable disk |
| C12 | fetcher with retry counters | invariant and measure over event traces |
| C15 C18 | the same system with fair continuations (`LazyLive*`) | ranking function; counterexample for metadata errors (C18) |
| C16 C17 | shared-state counters | invariant over all updates |
| C19 | `add_read` | every reachable state, no fetch message emitted |
| C20 | `CryptIoChannel` over an abstract channel and cipher | simulation by request id |
| C21 | tweak construction, archive sector numbering | arithmetic, injectivity |
| C22 | key wrapping framing (`KeyModel`) | AEAD law as hypothesis |
| C23 C24 C28 C29 C46 | archiver loop, archive source, object store (`ArchiveModel`, `ArchiverModel`) | invariant over completion orders; forgeries and collisions explicit in the conclusion; measure for C46 |
| C25 C26 C27 | byte-level codecs | round trip, injectivity |
| C30 C47 | export loop, archive source worker (`ArchiveSourceModel`) | invariant over completion orders |
| C31 C32 C34 | protocol encoders/decoders, session, legacy translation (`RemoteModel`) | round trip, invariants, decision tables |
| C33 | remote source workers and pool (`RemotePoolModel`) | invariant, bound on attempts |
| C35 C36 C37 C38 C50 | descriptor chains, request slots, completion, config space (`VhostModel`) | invariants; exact characterisation of the events that panic (`VhostPanic`) |
| C39 | ublk request handling (`UblkModel`) | invariant over schedules |
| C40 | `IoTracker` slots, concurrent snapshot (`TrackerModel`) | invariant over operation sequences |
| C41 C42 C43 C44 C52 | includes, secrets fixpoint, gating, tuning, paths (`IncludesModel`, `SecretsModel`, `ConfigModel`) | induction on tables; fixpoint measure; decision logic |
| C45 | control interface: line splitting over UTF-8 bytes, trimming, JSON printing and reading (`RpcModel`) | induction on the byte stream |
| C48 | stripe sizes of sources and device | concrete runs refute the archive case |
| C49 C51 | io_uring channel (`UringModel`) | invariant; refutation of the bound |
| C53 C54 | S3 keys, S3 worker pool (`StoreModel`) | injectivity, invariant |
| C55 C56 C57 | init-metadata, block-device stack, file creation (`SetupModel`) | composition of C06-C09; crash enumeration |
| C58 C59 | PSK credentials, accept loop (`PskModel`) | case analysis, invariant |
| C60 | xts tool (`XtsModel`) | loop invariant; composition gives the inverse |
| C61 C62 | dump-metadata, remote shell (`ToolsModel`) | exact output |
| C63 | synchronous waits (`WaitModel`) | invariant over completions |
| C64 | directory object store on a file-system model (`FsStoreModel`) | path arithmetic, invariant, crash model |
| C65 | socket creation with umask (`SockModel`) | invariant over system calls and attempts to connect |
| C66 | start and stop of a backend (`LoopModel`) | invariant and measure over thread interleavings |
| C67 | S3 retry settings (`RetryModel`) | arithmetic over rationals as integers, induction on attempts |
| C68 | base64, metadata.json and CBOR byte by byte (`WireModel`) | relations from the RFCs; round trip; the codec laws of C23-C28 become theorems |
| C69 C70 | archive and stripe server on the files of a stopped lazy device (`OfflineModel`) | history invariants (which sectors are untouched, where WRITTEN marks come from) composed with C06, C23, C32 |
| C71 | moving a disk by server or archive (`MoveProps`) | composition of C70, C69, C55 and C06 |
| C72 | the sync file device over a file of bytes; each system call copies some of its bytes, or fails (`SyncModel`) | simulation by the disk of `DiskSpec`, byte by byte; per channel, reported ++ queued = issued |
| C73 | aligned buffers and the buffer pool (`BufModel`) | arithmetic; pool invariant: available = not in use = not out |
| C74 | the lazy device with crashes that keep completed writes of the base (`WtSpec`); C72's device | the simulation of C06 again, then a second one that inserts a flush after each completion |
| C75 | driver and backend thread step by step over the shared ring indices: kicks, interrupts, EVENT_IDX or not (`KickModel`) | an inductive invariant over all interleavings; 16-bit wrap-around included |
| C76 | `load_legacy_config` behind the YAML parser (`LegacyModel`), with the secrets of C42 and the base64 of C68 | direct; the AEAD's laws are hypotheses |
| C77 | the deserializers of all configuration sections, key by key, behind the TOML parser (`SectionsModel`), after the includes of C41 and before the validation of C43 | equivalence with a separate table of keys, types and defaults (`SectionsSpec`) |
| C78 | all queue threads of a backend over one guest memory and one device known by its history (`GuestModel`); the guest's own notes (`GuestSpec`) | forward simulation between the device's history and the guest's, renaming slots to chains; composed with C06 and C20 |
| C79 | the lazy device with its base device taken out (`LayerModel`): calls and completions only | congruence of every step under a change of the base's state (`LayerPatch`), forward simulation into the closed model of C06, assume-guarantee on ids; composed with C20 and C78 |
| C80 | all queue handlers of a ublk backend over one device known by its history (`UblkDiskModel`); the driver's own notes (`UblkDiskSpec`) | forward simulation into a disk that gets its requests earlier (`AheadFacts`: refused and waiting requests, smaller flush snapshots); determinism of what the driver notes; composition with C79 |
| C81 | all channels of an io_uring device, the kernel at work on many requests at once, piece by piece in the buffers, and a file that remembers what a power failure may leave (`UringDiskModel`); the contract of the caller (`UringDiskSpec`) | forward simulation into a disk (`UringDiskProofs`), bytes or sectors as units; short transfers and 4 GiB requests refuted |
| C82 | the encrypting device as a program over a base it knows only by calls and completions (`CryptOpenModel`); the buffer contract (`CryptOpenSpec`) | the base's disk, decrypted, is the callers' disk (simulation of C20 applied to each step between two items of the base's history); composition with C78, C79, C80 and C81 down to a file |
| C83 | no new model: the ring of `UringDiskModel`, the backends of C78 and C80, the layers of C79 and C82; `RingSpec` counts requests under way and requests between two submissions | a slot for each request under way (invariant of the ring); serials under way are injected into heads below the queue size or tags (pigeonhole), through the lazy and the encrypting device; two refutations: the 64 entries of the image, and a queue_size below 16 for metadata |
| C84 | putting the layers together from the configuration (`StackModel`): files, flags, keys, order; `StackSpec` says what a configuration asks for and when a device over given files is at work | inversion of the construction; the start is the one of C55 (equation); `serves` by cases on the engine (C72, C81), the cipher (C82), the lazy device (C79), under either frontend (C78, C80) |
| C85 | nothing new is modelled; `c_through` of the configuration is followed through `StackModel` to the opened file and up again | a history of which every crash keeps what it found completed (`KeptFacts.kept_run`) is one of a disk flushed after each completion; each layer (file devices, cipher, lazy device, both frontends) maps such histories below to such histories above (`ThroughProofs`) |
| C86 | the metadata device as part of the stack (`MetaLayerModel`, C87); `RestartSpec` says what a stopped backend leaves in its files (`left_by`), what a life of several runs is (`life`), and how histories are joined (`joined`) | the new launch by inversion of the old one (`relaunch`); the left metadata loads (`image_kept`, from the validity of C02) with headers that satisfy the invariant of the lazy device (`metadata_left`, from C87; `after_crash`), so the new contents are those after the crash (`comes_up`); two disk histories, the second starting with what the crash left, are one (`RestartFacts.one_after_the_other`); induction over the runs |
| C87 | the lazy device with its metadata device taken out too (`MetaLayerModel`): the flusher sends sectors of bytes and is told of completions | congruence of every step under a change of the metadata device's state (`MetaLayerPatch`); forward simulation into the runs of C79 (`MetaLayerProofs.sim_prun`), in which the histories of header arrays in the model and of byte sectors on the device agree entry by entry; without any assumption on the device a weaker relation (`Loose`) is enough for what the guest sees |
| C88 | the offered features and the configuration space (`NegotiateModel`); what a virtio driver may conclude of the cache from them, after the standard (`NegotiateSpec`) | the mode byte is computed from C38; with write-through C85 applies. Partial: refuted for drivers that negotiate neither FLUSH nor CONFIG_WCE, with a guest session that loses a completed write, and for reads of the mode byte alone |
| C89 | the stripe server built from the files and the key of a stopped backend (`CloneModel`), on top of the stack of C84 and the lives of C86, and a new device with the server as source; what the server reads and its clients get (`CloneSpec`) | the server and the backend read the same metadata; C70 for a device on which nothing happens but one power failure gives the contents the next run would start with (C86); that never-written stripes stay zeros is carried through the lives; C86 for the new device gives the rest; a device without metadata is served from its data alone |
| C90 | nothing new: the stripe server (`RemoteModel`), the sync engine (`SyncModel`) and the configured server (`CloneModel`); a server whose reads are those of a run of the sync engine on a file (`TailSpec`) | invariant over all runs without writes: a read that ends successfully lies within the file; an explicit run delivers every stripe that does |
| C91 | the archive command on the files and the key of a stopped device (`BackupModel`: bin/archive.rs, archiver.rs), over the models of the stack, the metadata and the archiver | the archiver's configuration is computed from what the backend would start with, so C23's round trip gives the contents of C86's disk stripe by stripe; the new device by C86_life_of_a_new_device. Partial: the two conditions of C69 |

C36, C44, C48, C49, C52 and C69 are `partial`: the code does not have the property in full.
The theorems state exactly what it does have, and `_refuted_` theorems show the rest to
be false.

## What is modelled, file by file

Line numbers are in the comments of the definitions. Test modules are not modelled.

| source | model |
|--------|-------|
| archive/archiver.rs, archive/mod.rs, compression.rs, hmac.rs, stripe_hashes.rs, bytes32.rs, utils/hash.rs | ArchiveModel, ArchiverModel, WireModel |
| archive/fs_store.rs | FsStoreModel |
| archive/s3_store.rs, s3_store_workers.rs | StoreModel |
| backends/common/io_tracking.rs | TrackerModel |
| backends/common/mod.rs | SetupModel, StackModel (layers, files and flags), LoopModel, SockModel |
| backends/common/rpc.rs, bdev_lazy/status_report.rs | RpcModel, SockModel |
| backends/ublk/io_handler.rs, ublk/mod.rs | UblkModel, UblkDiskModel (all queues together), ConfigModel |
| backends/vhost/backend.rs, backend_thread.rs, request.rs | VhostModel; GuestModel (all threads together); handle_event and the ring notifications in KickModel; the offered features in NegotiateModel |
| backends/vhost/backend_loop.rs | LoopModel, SockModel |
| bin/archive.rs (what the archiver is given), stripe_server/prepare.rs on a stopped device | OfflineModel; archive.rs down to the files and the cipher in BackupModel, prepare.rs in CloneModel |
| bin/init-metadata.rs, dump-metadata.rs (devices: StackModel), remote-stripe-shell.rs, remote-stripe-server.rs, xts.rs | SetupModel, ToolsModel, PskModel, XtsModel |
| block_device/bdev_crypt.rs, crypt/block.rs | CryptModel, CryptOpenModel (over any base) |
| block_device/bdev_lazy/* | LazyModel, LazyState, MetadataModel, SetupModel; LayerModel (over an unknown base device), MetaLayerModel (over an unknown metadata device as well) |
| block_device/bdev_sync.rs | SyncModel (cells of any size: bytes or sectors) |
| block_device/bdev_uring.rs | UringModel, UringDiskModel (all channels, with the kernel and the file) |
| block_device/wait_for_completion.rs, stripe_source/wait.rs | WaitModel |
| config/v2/* | ConfigModel, IncludesModel, SectionsModel, SecretsModel, RetryModel |
| crypt/key.rs, key_serialization.rs | KeyModel, WireModel |
| export_archive.rs, stripe_source/archive.rs | ArchiveModel, ArchiveSourceModel |
| stripe_server/* | RemoteModel, PskModel, LegacyModel |
| stripe_source/bdev.rs, builder.rs, remote.rs | LazyModel, SetupModel, RemoteModel, RemotePoolModel |
| utils/aligned_buffer.rs, aligned_buffer_pool.rs | BufModel |
| utils/aligned_buffer_pool.rs, block.rs, s3.rs, umask_guard.rs | LazyModel, CryptModel, RetryModel, SockModel |

Modelled only as the environment of something else: block_device/bdev_null.rs (a device
of zeros).

Not modelled: archive/mem_store.rs, block_device/bdev_test.rs and
stripe_source/flaky.rs (used by tests and fault injection only); bin/export-archive.rs, bin/ublk-backend.rs, bin/vhost-backend.rs and cli.rs (they load
the configuration and call what is modelled); error.rs (errors are numbers in the
model, their texts matter nowhere except in C45); utils/security.rs (two system calls that disable core dumps);
log messages everywhere.

Not expressible here: wall-clock time and timeouts (a timeout is an event that may
happen at any moment), kernel io_uring internals beyond "queued, in flight, completed",
memory safety of unsafe code, weak memory (threads interleave sequentially), TLS beyond
"a peer without the key does not get through", the AWS SDK beyond its documented retry
loop, TOML and JSON parsing of requests (arbitrary functions).

## Trusted base

* Coq's kernel, 8.16.1. No kernel check is switched off and no plugin of ours is loaded.
* The reading of `/repo` embodied in the `*Model.v` files, and the statements in the
  `*Spec.v` and `*Props.v` files.
* `Print Assumptions` says "Closed under the global context" for every theorem named in
  the manifest: they rest on no axiom, neither ours nor the standard library's. Tactics
  libraries that are loaded declare axioms (`Coq.ssr.ssrunder.Under_rel`) that no theorem
  here uses.
* The hypotheses of the theorems themselves: the laws of the external functions
  (`crypto_lawful` in `ArchiveSpec.v`, `tweakable_cipher` in `CryptSpec.v`, `aead` in
  `CryptProps.v`), and the ranges of machine integers.
