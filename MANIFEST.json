{
 "claims": [
  {
   "property": "C01",
   "status": "proved",
   "theorems": [
    "C01_cached_storage_is_a_map",
    "C01_new_storage_coherent"
   ],
   "note": ""
  },
  {
   "property": "C02",
   "status": "proved",
   "theorems": [
    "C02_cache_sound",
    "C02_cache_complete",
    "C02_uncached_coroutines",
    "C02_uncached_complete"
   ],
   "note": "Both directions: every cached execution is an execution on the bare store, and every bare execution whose loads do not fail is a cached execution (a cached load never reaches the backing store, so it cannot fail). For coroutines this holds on a storage without cache (C02_uncached_coroutines, C02_uncached_complete); with the cache it does not (C04, C79, C95)."
  },
  {
   "property": "C03",
   "status": "proved",
   "theorems": [
    "C03_durable"
   ],
   "note": ""
  },
  {
   "property": "C04",
   "status": "partial",
   "theorems": [
    "C04_no_cache_partial",
    "C04_own_keys_partial",
    "C04_cache_race_refuted"
   ],
   "note": "False for the caching storage: C04_cache_race_refuted exhibits a schedule where a load that starts after a completed store returns the old value. Proved parts: with disable_cache=True against anything that does not write the key (C04_no_cache_partial), and with or without the cache against coroutines that do not use the key at all (C04_own_keys_partial). C96 shows that coroutines without races never notice the cache."
  },
  {
   "property": "C05",
   "status": "proved",
   "theorems": [
    "C05_bytes_roundtrip",
    "C05_bytes_roundtrip_cached"
   ],
   "note": ""
  },
  {
   "property": "C06",
   "status": "proved",
   "theorems": [
    "C06_load_primitive",
    "C06_load_optional",
    "C06_load_list",
    "C06_load_dict",
    "C06_load_bytes"
   ],
   "note": "All five typed loads, for the five primitive types; base64 decoding is strict (see DESIGN)."
  },
  {
   "property": "C07",
   "status": "proved",
   "theorems": [
    "C07_keys_distinct",
    "C07_keys_of_model"
   ],
   "note": ""
  },
  {
   "property": "C08",
   "status": "proved",
   "theorems": [
    "C08_just_isolated"
   ],
   "note": "On a heap model of copy.deepcopy with sharing; cyclic values are excluded because JSON values have no cycles."
  },
  {
   "property": "C09",
   "status": "proved",
   "theorems": [
    "C09_key_pair_stable"
   ],
   "note": ""
  },
  {
   "property": "C10",
   "status": "proved",
   "theorems": [
    "C10_key_pair_crash_safe",
    "C10_over_lives"
   ],
   "note": "C10_over_lives covers every storage that any sequential life (set-up attempts, use, crashes, restarts) of an initially empty storage can produce. C10_key_pair_crash_safe covers every storage in which the key is not stored without the flag."
  },
  {
   "property": "C11",
   "status": "partial",
   "theorems": [
    "C11_concurrent_get_refuted",
    "C11_concurrent_get_partial"
   ],
   "note": "False as stated: C11_concurrent_get_refuted exhibits an asyncio schedule in which two concurrent gets on an empty storage return different keys. Proved part: once a complete pair is stored, every get among arbitrary concurrent application code returns it."
  },
  {
   "property": "C12",
   "status": "proved",
   "theorems": [
    "C12_seed_priv"
   ],
   "note": ""
  },
  {
   "property": "C13",
   "status": "partial",
   "theorems": [
    "C13_limits_refuted",
    "C13_limits_partial"
   ],
   "note": "False: [if m or 0 > s] (backend.py:114) rejects every per-message limit other than None and 0. C13_limits_partial characterises exactly what is accepted."
  },
  {
   "property": "C14",
   "status": "proved",
   "theorems": [
    "C14_bad_arguments_rejected"
   ],
   "note": ""
  },
  {
   "property": "C15",
   "status": "proved",
   "theorems": [
    "C15_fresh_id"
   ],
   "note": "At every stopping point of create, for every answer of server and random number generator."
  },
  {
   "property": "C16",
   "status": "proved",
   "theorems": [
    "C16_own_id_kept",
    "C16_create_uses_own_id"
   ],
   "note": ""
  },
  {
   "property": "C17",
   "status": "proved",
   "theorems": [
    "C17_announce_after_publish"
   ],
   "note": "At every stopping point of create. Uploading means the order of the attempts in the log of the same call."
  },
  {
   "property": "C18",
   "status": "proved",
   "theorems": [
    "C18_first_run_published"
   ],
   "note": "Complete first runs with any server and backends."
  },
  {
   "property": "C19",
   "status": "partial",
   "theorems": [
    "C19_published_after_retry_refuted",
    "C19_published_after_retry_partial",
    "C19_repaired_partial"
   ],
   "note": "Refuted: once the own device id is stored, a failed upload is never repeated by create, and the next refresh announces a device without bundle. Proved for first calls that stop before the own device id is stored; the missing part is every later failure point. C19_repaired_partial: a create that returns followed by ensure_data_consistency has everything published, whatever happened before."
  },
  {
   "property": "C20",
   "status": "proved",
   "theorems": [
    "C20_reconciled"
   ],
   "note": "Complete runs on any storage with an own device id; a namespace counts as previously used when the own record supports it and has an activity entry for it, which is what create compares."
  },
  {
   "property": "C21",
   "status": "proved",
   "theorems": [
    "C21_listed_devices"
   ],
   "note": ""
  },
  {
   "property": "C22",
   "status": "proved",
   "theorems": [
    "C22_frame",
    "C22_known_kept",
    "C22_known_device",
    "C22_unrelated_device",
    "C22_missing_device"
   ],
   "note": ""
  },
  {
   "property": "C23",
   "status": "proved",
   "theorems": [
    "C23_own_device_stays"
   ],
   "note": ""
  },
  {
   "property": "C24",
   "status": "proved",
   "theorems": [
    "C24_update",
    "C24_refresh",
    "C24_decrypt",
    "C24_encrypt",
    "C24_crash"
   ],
   "note": ""
  },
  {
   "property": "C25",
   "status": "proved",
   "theorems": [
    "C25_records_complete"
   ],
   "note": "For every sequential life of a storage that starts empty: set-up attempts, arbitrary application code, crashes and restarts, purges of other accounts including failed and interrupted ones that are repeated until they complete, with anything not about that account in between. While the first run has not stored the own device id, all devices of the own account count as own. Interleavings: C79_one_writer_partial; two coroutines updating the same account are not covered: C79_concurrent_updates_refuted."
  },
  {
   "property": "C26",
   "status": "partial",
   "theorems": [
    "C26_information",
    "C26_update",
    "C26_encrypt_partial",
    "C26_other_calls",
    "C26_missing_plaintext_refuted"
   ],
   "note": "Proved for get_device_information, update_device_list and all calls but encrypt and those reading the message queue, for every sequential life of a storage that starts empty, interrupted purges included if they are repeated until they complete. encrypt needs a plaintext for every namespace it may use (C26_missing_plaintext_refuted shows KeyError otherwise) and a trust decision that does not itself raise these exceptions. Until an interrupted purge completes: C27_usable_after_crash_refuted, C27_others_partial. Lookups concurrent with one coroutine that updates: C79_readers_partial. Concurrent updates: C79_concurrent_updates_refuted."
  },
  {
   "property": "C27",
   "status": "partial",
   "theorems": [
    "C27_others_partial",
    "C27_healed_partial",
    "C27_usable_after_crash_refuted",
    "C27_trust_after_retry_refuted",
    "C27_retry_partial",
    "C27_retry_succeeds_partial"
   ],
   "note": "Refuted: records are deleted before the list, so after an interruption get_device_information raises NothingException; and when interrupted after the identity keys were deleted, a second call no longer finds the trust levels. Proved: a completed second call removes the list and every record of the devices known before the first, touches nothing else, and only raises what storage or backends raise; over whole lives, with restarts and calls about other accounts in between, the other accounts are not affected and a completed purge makes all records complete again."
  },
  {
   "property": "C28",
   "status": "partial",
   "theorems": [
    "C28_concurrent_updates_refuted",
    "C28_sequential_updates_partial",
    "C28_other_accounts_partial",
    "C28_one_writer_partial"
   ],
   "note": "Refuted: two concurrent updates of one account that both read the device list before either writes it lose a device (C28_concurrent_updates_refuted). Proved parts: run one after the other, both lists are known, supported and active (C28_sequential_updates_partial); an update among arbitrary concurrent calls about other accounts (C28_other_accounts_partial), and among coroutines that use the same account in any way except updating it (C28_one_writer_partial)."
  },
  {
   "property": "C29",
   "status": "proved",
   "theorems": [
    "C29_idempotent",
    "C29_order_free"
   ],
   "note": ""
  },
  {
   "property": "C30",
   "status": "proved",
   "theorems": [
    "C30_reported",
    "C30_others_unchanged",
    "C30_level"
   ],
   "note": ""
  },
  {
   "property": "C31",
   "status": "proved",
   "theorems": [
    "C31_trust_kept"
   ],
   "note": "For all histories of arbitrarily interleaved application code with crashes; trust decision callbacks are application code."
  },
  {
   "property": "C32",
   "status": "proved",
   "theorems": [
    "C32_key_pinned",
    "C32_reported_is_recorded"
   ],
   "note": "From any quiescent point where the key is recorded: all later histories (interleavings, crashes, restarts) without purge_bare_jid of the account. The race at first contact is C73."
  },
  {
   "property": "C33",
   "status": "partial",
   "theorems": [
    "C33_trust_refuted",
    "C33_queue_refuted",
    "C33_purge_partial",
    "C33_crash_partial"
   ],
   "note": "Refuted for trust levels of keys without a listed device and for /queue entries. Proved: exactly the list, the records of listed devices and the trust levels of their recorded keys disappear, everything else is unchanged, each loaded backend is told to purge the account; also at every crash point."
  },
  {
   "property": "C34",
   "status": "proved",
   "theorems": [
    "C34_trusted_only",
    "C34_current_level"
   ],
   "note": "For a call among any concurrent activity (the environment may answer from a different world each time) and up to any crash point; C34_current_level adds, without concurrent calls, that the evaluated level is the stored one."
  },
  {
   "property": "C35",
   "status": "proved",
   "theorems": [
    "C35_requested",
    "C35_recipients"
   ],
   "note": "C35_requested holds under any concurrent activity; C35_recipients (known, active, first namespace in the priority order, and every eligible device with a recorded key is considered) without concurrent calls."
  },
  {
   "property": "C36",
   "status": "proved",
   "theorems": [
    "C36_nobody_dropped"
   ],
   "note": "While no purge_backend runs (fixed_backends); with one it is false, see C75. Assumes that neither the environment nor the trust callback raises NoEligibleDevices itself."
  },
  {
   "property": "C37",
   "status": "proved",
   "theorems": [
    "C37_no_encryption_while_undecided",
    "C37_still_undecided"
   ],
   "note": "Under any concurrent activity, up to any crash point; if evaluating the trust itself raises, that exception comes out instead of StillUndecided."
  },
  {
   "property": "C38",
   "status": "proved",
   "theorems": [
    "C38_served_or_reported"
   ],
   "note": "While no purge_backend runs. Devices whose identity key is neither recorded nor downloadable are never selected, as in the code."
  },
  {
   "property": "C39",
   "status": "proved",
   "theorems": [
    "C39_store_after_encrypting",
    "C39_all_stored"
   ],
   "note": "Under any concurrent activity and crash points. Every session used is stored exactly once, in the state its encryption left."
  },
  {
   "property": "C40",
   "status": "proved",
   "theorems": [
    "C40_empty_message",
    "C40_encrypt"
   ],
   "note": "Encrypt: for every key in every returned message. Empty messages: every call of __send_empty_message, whoever makes it."
  },
  {
   "property": "C41",
   "status": "partial",
   "theorems": [
    "C41_bundle_key_refuted",
    "C41_bundle_key_partial"
   ],
   "note": "False: C41_bundle_key_refuted, the code never compares the identity key of the bundle it downloads with the trusted one. Proved part: a new session uses either a bundle with the evaluated key or a bundle downloaded for exactly that device after the decision."
  },
  {
   "property": "C42",
   "status": "partial",
   "theorems": [
    "C42_concurrent_refuted",
    "C42_next_call_partial",
    "C42_one_user_partial"
   ],
   "note": "False: C42_concurrent_refuted, two concurrent encrypts use the same session state. Proved part: after encrypt returns, the session last stored for every device served is the advanced one, and every state an encryption produced is among them, so that a later call starts from it. C91 carries this to everything that starts later. With several coroutines of which only one stores sessions the same holds (C42_one_user_partial)."
  },
  {
   "property": "C43",
   "status": "partial",
   "theorems": [
    "C43_crash_refuted",
    "C43_returned_partial"
   ],
   "note": "False: C43_crash_refuted, a crash between sending the empty message and storing the session makes the next encrypt reuse the state. Proved part: if the empty message call returns, the advanced session is the stored one."
  },
  {
   "property": "C44",
   "status": "proved",
   "theorems": [
    "C44_sessions_after_trust",
    "C44_distrusted",
    "C44_recorded"
   ],
   "note": "For a single call with any concurrent activity; that the evaluated device carries the recorded level is proved for calls with nothing else going on (C44_recorded)."
  },
  {
   "property": "C45",
   "status": "proved",
   "theorems": [
    "C45_identity_key",
    "C45_inconsistent",
    "C45_recorded_key"
   ],
   "note": "The condition of C45_inconsistent covers messages with several key materials for this device (the code takes an arbitrary one): all of them carry another identity key."
  },
  {
   "property": "C46",
   "status": "proved",
   "theorems": [
    "C46_not_for_us",
    "C46_sender_not_found",
    "C46_unknown_sender",
    "C46_known_sender"
   ],
   "note": "The own device list may be uploaded again while the sender's list is refreshed (sender account = own account). If the lookup itself fails (storage, download), its exception is raised instead of SenderNotFound."
  },
  {
   "property": "C47",
   "status": "proved",
   "theorems": [
    "C47_stored_after_decryption",
    "C47_success"
   ],
   "note": "For every prefix of every execution with any concurrent activity."
  },
  {
   "property": "C48",
   "status": "partial",
   "theorems": [
    "C48_no_trace_refuted",
    "C48_failed_partial"
   ],
   "note": "False: the session is stored and the pre key consumed before the bundle is uploaded and the response sent; if one of these fails decrypt raises (C48_no_trace_refuted, failing upload). Proved part: nothing is left behind by failures before the session is stored, and otherwise the message was decrypted completely."
  },
  {
   "property": "C49",
   "status": "proved",
   "theorems": [
    "C49_prekey_calls",
    "C49_replenished",
    "C49_visible",
    "C49_above_threshold"
   ],
   "note": "visible counts pre keys by the calls made, with the contract that backends report that number; for one call at a time (see C77 for concurrent calls)."
  },
  {
   "property": "C50",
   "status": "partial",
   "theorems": [
    "C50_limit_refuted",
    "C50_response_partial"
   ],
   "note": "The code is proved to respond exactly for key exchanges and receiving chains longer than 53 (C50_response_partial). The documentation is refuted: sm:962 says the number of messages required to trigger the response is STALENESS_MAGIC_NUMBER = 53; with a receiving chain of 53 nothing is sent (C50_limit_refuted). functionality.md's \"ratchet counter of 53 or higher\" agrees with the code if counters start at 0."
  },
  {
   "property": "C51",
   "status": "proved",
   "theorems": [
    "C51_plaintext",
    "C51_recorded"
   ],
   "note": ""
  },
  {
   "property": "C52",
   "status": "proved",
   "theorems": [
    "C52_built",
    "C52_reused",
    "C52_no_session"
   ],
   "note": ""
  },
  {
   "property": "C53",
   "status": "proved",
   "theorems": [
    "C53_sends_nothing",
    "C53_in_sync_mode",
    "C53_queued",
    "C53_previously_queued"
   ],
   "note": "previously queued devices: for namespaces of which none extends the other by a slash (ns_separated), and nothing else going on (see C78)."
  },
  {
   "property": "C54",
   "status": "proved",
   "theorems": [
    "C54_flush"
   ],
   "note": "Any completed run alone, with any answers of the outside: what was called for every loaded backend, in order. Sessions of queued devices without session are skipped as in the code."
  },
  {
   "property": "C55",
   "status": "partial",
   "theorems": [
    "C55_retry_refuted",
    "C55_retry_partial"
   ],
   "note": "Refuted: the queue of an account is deleted before its messages are sent, so a failed send loses the messages after it. Proved: the accounts not reached yet are still queued and served by the next after_history_sync."
  },
  {
   "property": "C56",
   "status": "partial",
   "theorems": [
    "C56_lost_refuted",
    "C56_stranded_refuted",
    "C56_decrypt_first_partial",
    "C56_sync_first_partial"
   ],
   "note": "Refuted twice: a response can be lost, and one can be queued after the flush and stay there although sync mode has ended. Proved: if one of the two calls runs after the other, nothing is lost."
  },
  {
   "property": "C57",
   "status": "proved",
   "theorems": [
    "C57_passes",
    "C57_steps"
   ],
   "note": "The task in full: complete passes, then an unfinished one, for any ages, backends loaded at the start of each pass, upload failures and exceptions. The loop is modelled with fuel; the theorem holds for every fuel."
  },
  {
   "property": "C58",
   "status": "proved",
   "theorems": [
    "C58_sleep"
   ],
   "note": "Every sleep in every run of the task, with any concurrent activity."
  },
  {
   "property": "C59",
   "status": "partial",
   "theorems": [
    "C59_backoff_refuted",
    "C59_minute_partial"
   ],
   "note": "Refuted: retry_delay is reset to 60 at the start of every iteration. Proved: every failed upload is followed by one minute of sleep and another attempt."
  },
  {
   "property": "C60",
   "status": "partial",
   "theorems": [
    "C60_rotation_refuted",
    "C60_later_code_partial"
   ],
   "note": "Refuted: the rotation task uploads the bundle it fetched before the purge. Proved for all library code that starts after purge_backend returned, in any interleaving; the missing part is code already running when purge_backend returns."
  },
  {
   "property": "C61",
   "status": "proved",
   "theorems": [
    "C61_purge_backend",
    "C61_crash"
   ],
   "note": "Functional statement plus a crash-point statement. Assumes the stored activity dictionary has distinct keys (Python dictionaries do). Looking up the own device may record identity keys of further own devices, which is stated."
  },
  {
   "property": "C62",
   "status": "proved",
   "theorems": [
    "C62_store_after_send",
    "C62_each_backend",
    "C62_returned_error",
    "C62_raised_error"
   ],
   "note": "Any run with any concurrent activity; nothing is assumed except that loaded backends are distinct. An exception outside the library (cancellation) ends the call, as in the code."
  },
  {
   "property": "C63",
   "status": "partial",
   "theorems": [
    "C63_on_lives_partial",
    "C63_runtime_error_refuted",
    "C63_exceptions_partial",
    "C63_unknown_device_partial"
   ],
   "note": "False as stated: for a device that the library does not know, RuntimeError is raised. All other exceptions come from the outside: C63_on_lives_partial for the storages of lives, C63_exceptions_partial among concurrent activity."
  },
  {
   "property": "C64",
   "status": "proved",
   "theorems": [
    "C64_ensure"
   ],
   "note": "Complete runs of ensure_data_consistency from any state with any server."
  },
  {
   "property": "C65",
   "status": "proved",
   "theorems": [
    "C65_set_own_label",
    "C65_crash"
   ],
   "note": ""
  },
  {
   "property": "C66",
   "status": "proved",
   "theorems": [
    "C66_own_device_information"
   ],
   "note": ""
  },
  {
   "property": "C67",
   "status": "proved",
   "theorems": [
    "C67_entries",
    "C67_read_only"
   ],
   "note": "Any run with any concurrent activity, for distinct loaded backends."
  },
  {
   "property": "C68",
   "status": "proved",
   "theorems": [
    "C68_fingerprint",
    "C68_spells_key",
    "C68_groups",
    "C68_injective"
   ],
   "note": ""
  },
  {
   "property": "C69",
   "status": "proved",
   "theorems": [
    "C69_levels"
   ],
   "note": "All device records with any level name."
  },
  {
   "property": "C70",
   "status": "proved",
   "theorems": [
    "C70_accounts",
    "C70_storage",
    "C70_prompted"
   ],
   "note": "Any run with any concurrent activity in terms of the devices looked up; in terms of the storage for a call that runs alone. The prompt is an arbitrary program. Finding: a stored level that is none of the four names makes the decision raise ValueError, not UnknownTrustLevel."
  },
  {
   "property": "C71",
   "status": "proved",
   "theorems": [
    "C71_only_blindly",
    "C71_storage"
   ],
   "note": "Any run with any concurrent activity; on the storage for a call that runs alone."
  },
  {
   "property": "C72",
   "status": "proved",
   "theorems": [
    "C72_histories",
    "C72_every_moment",
    "C72_no_type_error"
   ],
   "note": "Below the storage cache, with or without cache, all schedules (over-approximated), all crash points and restarts. Assumes namespaces that do not extend one another by a slash (as for C07; an example shows TypeError otherwise) and that sessions returned by decrypt_key_material/build_session_passive carry the namespace of the backend."
  },
  {
   "property": "C73",
   "status": "partial",
   "theorems": [
    "C73_first_contact_refuted",
    "C73_recorded_key_partial"
   ],
   "note": "Refuted at first contact: two concurrent calls download two different bundles, report two keys for one device, and the second overwrites the recorded key (C73_first_contact_refuted). Proved part: once the key is recorded, every call among arbitrary concurrent application code reports it."
  },
  {
   "property": "C74",
   "status": "proved",
   "theorems": [
    "C74_loaded_distinct",
    "C74_pool_covered",
    "C74_cached_covered"
   ],
   "note": ""
  },
  {
   "property": "C75",
   "status": "partial",
   "theorems": [
    "C75_concurrent_purge_refuted",
    "C75_kept_backends_partial"
   ],
   "note": "False as stated: C75_concurrent_purge_refuted, encrypt returns without an error and without having encrypted for the requested account. Proved instead: with fixed backends C36_nobody_dropped; with backends coming and going except a set K, C75_kept_backends_partial (trusted devices preferring a namespace of K are served or reported; an account is dropped only if a trusted device of it prefers a namespace outside K)."
  },
  {
   "property": "C76",
   "status": "proved",
   "theorems": [
    "C76_session_and_material"
   ],
   "note": ""
  },
  {
   "property": "C77",
   "status": "partial",
   "theorems": [
    "C77_concurrent_refill_refuted",
    "C77_sequence_partial",
    "C77_one_refiller_partial"
   ],
   "note": "Refuted: two concurrent decrypts that both read the number of visible pre keys before either generates lead to 150 visible pre keys. Proved part: any sequence of decrypts, failing or not, at any crash point. With several coroutines of which only one receives messages of the backend there are never more than 100, at any moment (C77_one_refiller_partial)."
  },
  {
   "property": "C78",
   "status": "partial",
   "theorems": [
    "C78_concurrent_queue_refuted",
    "C78_sequence_partial",
    "C78_one_user_partial",
    "C78_one_sequence_partial"
   ],
   "note": "Refuted: two concurrent decrypts that both read the queue before either writes it lose a device. Proved part: any sequence of successful decrypts, alone or among coroutines that do not use the queue (C78_one_sequence_partial; C78_one_user_partial says which answers are due), and at every moment of it nothing queued before is lost."
  },
  {
   "property": "C79",
   "status": "partial",
   "theorems": [
    "C79_concurrent_updates_refuted",
    "C79_one_after_other_partial",
    "C79_one_writer_partial",
    "C79_readers_partial",
    "C79_as_alone_partial",
    "C79_cached_refuted"
   ],
   "note": "False as stated: interleaved updates for two namespaces leave a device with a namespace without activity information, lose the other namespace and make the next update fail with KeyError. One after the other both are recorded. If only one coroutine updates an account, its records are complete at every moment of every interleaving with arbitrary other calls, lookups never find anything missing, and the updates have the effect they have alone; this part is about the storage interface, so about Storage with disable_cache=True (C02_uncached_coroutines). With the cache even one update next to one lookup loses a namespace later (C79_cached_refuted)."
  },
  {
   "property": "C80",
   "status": "proved",
   "theorems": [
    "C80_calls_succeed",
    "C80_purge_bare_jid",
    "C80_create"
   ],
   "note": "The contract healthy only restricts the answers during the call itself; EOutOfFuel of create is the bound on the draws of a device id in the model."
  },
  {
   "property": "C81",
   "status": "proved",
   "theorems": [
    "C81_exceptions"
   ],
   "note": "The kinds and causes of the exceptions that are not OMEMOExceptions are listed in Life.raises_here; the TypeError of decrypt and after_history_sync needs a message queue key that coincides with another key (see C41)."
  },
  {
   "property": "C82",
   "status": "proved",
   "theorems": [
    "C82_bundles_filled"
   ],
   "note": "At every crash point of create; the upload may have failed."
  },
  {
   "property": "C83",
   "status": "proved",
   "theorems": [
    "C83_isolated",
    "C83_isolated_cached"
   ],
   "note": "For the plain storage and, C83_isolated_cached, for the caching one; the storage items each call may touch are listed in Foot.v and proved complete for every call of the library."
  },
  {
   "property": "C84",
   "status": "proved",
   "theorems": [
    "C84_published",
    "C84_create"
   ],
   "note": "create is covered without concurrent activity, every other call with any. The trust decision passed to encrypt is a parameter and must not itself call the operations that change pre keys."
  },
  {
   "property": "C85",
   "status": "partial",
   "theorems": [
    "C85_one_publisher_partial",
    "C85_current_partial",
    "C85_sequence_partial",
    "C85_own_partial",
    "C85_concurrent_refuted"
   ],
   "note": "False with concurrency: C85_concurrent_refuted has decrypt fetch a bundle, the rotation task rotate and publish, and decrypt then publish the outdated bundle. Proved: C85_current_partial for every point of a call running by itself, C85_sequence_partial for any code made of calls one after the other, C85_own_partial for the call's own part of the log under any concurrency. C85_one_publisher_partial: with several coroutines of which only one publishes, every bundle is up to date when uploaded."
  },
  {
   "property": "C86",
   "status": "proved",
   "theorems": [
    "C86_documented",
    "C86_encrypt_key_exchange"
   ],
   "note": "Stated in the semantics in which other coroutines may change everything between two commands; only purge_backend by others is excluded (fixed_backends). Exceptions that are not OMEMOExceptions are the subject of C81."
  },
  {
   "property": "C87",
   "status": "partial",
   "theorems": [
    "C87_decrypt_partial",
    "C87_decrypt_refuted",
    "C87_namespaces_refuted"
   ],
   "note": "False: decrypt also forwards TooManySkippedMessageKeys, BundleUploadFailed, DeviceListDownloadFailed and DeviceListUploadFailed (C87_decrypt_refuted, all four on a storage of a real history); UnknownNamespace leaves get_device_information, purge_backend and create if the network methods reject namespaces that are not loaded (C87_namespaces_refuted). C87_decrypt_partial: nothing else leaves decrypt."
  },
  {
   "property": "C88",
   "status": "proved",
   "theorems": [
    "C88_written",
    "C88_round_trip",
    "C88_sent",
    "C88_empty_trip"
   ],
   "note": "correct_crypto is a hypothesis about the calls to the two backends (abstract here): encrypted key material opens to the key material it was made of, content to its plaintext, and only encrypt_empty makes content without plaintext."
  },
  {
   "property": "C89",
   "status": "proved",
   "theorems": [
    "C89_reasons",
    "C89_delivered"
   ],
   "note": "Sequential use of a storage by one account (life, as in C80); the call itself runs without failures from outside (healthy). That the queue is never damaged by the library is C72."
  },
  {
   "property": "C90",
   "status": "proved",
   "theorems": [
    "C90_reasons",
    "C90_sent",
    "C90_blame"
   ],
   "note": "Causes of failure and delivery for sequential lives with a callback made of library calls, the report for any concurrent activity. Missing bundles are allowed; everything else outside is assumed not to fail during the call."
  },
  {
   "property": "C91",
   "status": "proved",
   "theorems": [
    "C91_never_older",
    "C91_messages",
    "C91_other_calls"
   ],
   "note": "Needs that the call has returned: C43 refutes it for crashes between sending and storing, C42 for calls that overlap. The age of a session state is an abstraction of the ratchet; C91_never_older is the general statement for whatever is stored."
  },
  {
   "property": "C92",
   "status": "partial",
   "theorems": [
    "C92_concurrent_refuted",
    "C92_later_calls_partial"
   ],
   "note": "False for an encrypt in progress when the decision is made (witness: set_trust has returned, then the level is overwritten and a session with the distrusted device is built). Proved for everything that starts after the decision, all interleavings, crashes and restarts; purge_bare_jid of the account, set_trust to a level that is not manual, and the first create of the same account are excluded. The prompt is any program of the application."
  },
  {
   "property": "C93",
   "status": "partial",
   "theorems": [
    "C93_queued_refuted",
    "C93_shunned_partial",
    "C93_content_partial",
    "C93_btbv_partial"
   ],
   "note": "False for devices with a queued answer: after_history_sync encrypts and sends the queued empty message to the device although it was distrusted meanwhile (witness). Proved for devices that are not queued (C93_shunned_partial); and for all devices that nothing but empty messages is encrypted (C93_content_partial). Both for everything that starts after the decision, in all interleavings, crashes and restarts, with any trust decision callback that does not itself take the decision back (C93_btbv_partial: BTBV's is one). Contract: sessions are for the device they were loaded, built or used for; the level is evaluated as distrusted. Calls in progress when the decision is stored are excluded (see C92_concurrent_refuted)."
  },
  {
   "property": "C94",
   "status": "proved",
   "theorems": [
    "C94_sourced",
    "C94_only_empty"
   ],
   "note": "Pools of code using the library (libcode), any schedule, any answers, any moment. Sources are looked for in the calls of the same run. The recipient of an empty message is the account of the session as the backend returns it after encrypting. Not covered: arguments of the application passed on unchanged (plaintexts, key exchanges of received messages)."
  },
  {
   "property": "C95",
   "status": "partial",
   "theorems": [
    "C95_cached_refuted",
    "C95_uncached_partial"
   ],
   "note": "False with the cache: a lookup that has read the old level puts it into the cache after the new one was stored, and encrypt then encrypts for the device just distrusted (C95_cached_refuted). Without the cache it holds for any code, interleavings, crash points and processes (C95_uncached_partial)."
  },
  {
   "property": "C96",
   "status": "proved",
   "theorems": [
    "C96_race_free",
    "C96_calls"
   ],
   "note": "C96_race_free is about arbitrary coroutines: the hypothesis that no execution on the storage interface has a race is semantic, about every interleaving. C96_calls derives it for application code from what the calls may change (may_change), given completely recorded accounts that nobody changes."
  },
  {
   "property": "C97",
   "status": "proved",
   "theorems": [
    "C97_told",
    "C97_strangers"
   ],
   "note": "Contract all_named: sessions and the own bundle carry the namespace, account and device id they were asked for. The application itself is code whose network traffic is that of its calls (libcode)."
  },
  {
   "property": "C98",
   "status": "proved",
   "theorems": [
    "C98_sessions",
    "C98_lookups",
    "C98_sender",
    "C98_not_again"
   ],
   "note": "C98_sessions and C98_lookups hold for all interleavings of library calls that keep the recorded key (keeps_key: no purge_bare_jid of the account, no first create for it). C98_sender is about one call by itself, at every crash point. C98_not_again: one call of encrypt, the others arbitrary; the contracts used are that backends have distinct namespaces and that a downloaded bundle names the namespace, account and device asked for; the trust callback downloads nothing. A download that failed may be repeated (get_device_information and encrypt both try)."
  },
  {
   "property": "C99",
   "status": "proved",
   "theorems": [
    "C99_stored",
    "C99_judged",
    "C99_reported"
   ],
   "note": "No contracts for backends or the network are needed: the statements hold for whatever they answer. Lists, namespaces, activity and labels of the own account are exempt in C99_stored and C99_judged, since the library itself records its own device there. C99_judged: the application code evaluates no trust levels itself. C99_reported: one call of get_device_information by itself."
  },
  {
   "property": "C100",
   "status": "proved",
   "theorems": [
    "C100_stored",
    "C100_judged"
   ],
   "note": "The purge itself runs by itself (no other coroutine at work); what is covered is everything after it. All instances used afterwards have the same undecided level. tidy: only listed devices have records of the account; C100_tidy_needed shows that records left by an interrupted update outlive the purge. The exception for trust levels of keys no listed device had is the finding of C33."
  },
  {
   "property": "C101",
   "status": "proved",
   "theorems": [
    "C101_call",
    "C101_sequence",
    "C101_flaky",
    "C101_flaky_coroutines",
    "C101_flaky_history"
   ],
   "note": "For all calls and all answers whatsoever. Trust decisions passed to encrypt must themselves stop (they are code of the application); the example shows code that swallows a failure and does not. C101_flaky, C101_flaky_coroutines and C101_flaky_history discharge the simplification that a failing write has no effect: with failing writes that may have taken effect, everything reached is reached by the model after a crash of the same coroutine right after the write, and for applications that catch the failure and go on, another coroutine goes on. So every theorem about histories (hist) holds for such storages."
  },
  {
   "property": "C102",
   "status": "proved",
   "theorems": [
    "C102_call"
   ],
   "note": "For all calls and all answers whatsoever; the table is the definition handled. The example runs the calls into the handled failures (they go on) and into others (they end). Trust decisions passed to encrypt must themselves let other failures through. Implies C101 for single calls."
  },
  {
   "property": "C103",
   "status": "partial",
   "theorems": [
    "C103_only_failed_partial",
    "C103_cancelled_write_refuted"
   ],
   "note": "False as stated: the cache entry is set only after the awaited write has returned, so when set_trust is cancelled while its write is performed, the old level is seen until the process restarts and the new one afterwards (C103_cancelled_write_refuted). What holds (C103_only_failed_partial): for one program at a time, cache and storage agree on all keys except those whose write raised with no successful write since. Without the cache there is nothing to disagree."
  },
  {
   "property": "C104",
   "status": "proved",
   "theorems": [
    "C104_no_more_undecided",
    "C104_still_undecided",
    "C104_test_decision",
    "C104_blind_trust"
   ],
   "note": "C104_no_more_undecided is about one call at a time: another task may set a level back to undecided between the decision and the evaluation. The contract by_level also excludes that the storage, backends or network raise StillUndecided themselves."
  },
  {
   "property": "C105",
   "status": "partial",
   "theorems": [
    "C105_own_label_refuted",
    "C105_purge_refuted",
    "C105_shared_list_refuted",
    "C105_own_label_partial",
    "C105_purge_partial",
    "C105_update_partial",
    "C105_coroutines_partial"
   ],
   "note": "False as stated. set_own_label assigns into, and purge_backend pops from, the dictionary returned by _download_device_list, also if the upload then fails (C105_own_label_refuted, C105_purge_refuted). update_device_list works on a copy but hands the copy to _upload_device_list while it still reads it; with an application that keeps that object and returns it, as the one in the tests does, a concurrent purge_backend makes it fail with a KeyError (C105_shared_list_refuted). What holds, for one call at a time: update_device_list changes no existing object, the other two change only the own entry, and all three do what the value-level model says (C105_update_partial, C105_own_label_partial, C105_purge_partial). Among coroutines the model on values covers everything if the application returns a new dictionary every time and keeps none of those it is given (C105_coroutines_partial; one call per coroutine, beside any other code)."
  }
 ]
}