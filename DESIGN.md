# Formal model of python-omemo in Rocq (Coq 8.16.1)

The properties are in `properties.jsonl`, the theorems proving (or refuting) them in `rocq/theories/Props*.v`,
the map between the two in `MANIFEST.json`. Line numbers in comments refer to `/repo` at the pinned commit; `sm`
is `omemo/session_manager.py`.

## 1. Shape of the model

### Programs

A Python coroutine is a *program tree* (`prog`, `Prog.v`): it returns (`Ret`), raises (`Raise`), or performs one
command on its environment and continues with the response (`Step`). Every `await` on something outside the function
(storage, backend, network, application callback), every use of a random source, every read or write of a mutable
instance attribute (`self.__backends`, `self.__synchronizing`) and every iteration over a Python `set`/`frozenset` is
one command (`Sem.v`). `try/except` is a function on trees (`try_`), loops are structural recursion over lists. The
two endless loops (search for a device id, key rotation) take fuel; running out of fuel is the outcome `EOutOfFuel`.
The theorems about them quantify over the fuel, so they speak about every finite prefix of the endless execution.

`Model.v` is the library, function by function, in this language. It is executable (`run` with an oracle for the
answers), and contains no proofs.

### Executions

All semantics are relations over arbitrary answers (`Prog.v`):

| relation | meaning |
|---|---|
| `exec S p w o w'` | complete execution of `p` from world `w`, outcome `o`, final world `w'` |
| `reach S p w w'` | `w'` is the world at some point of an execution: a crash point |
| `preach S (ps, w) c` | interleavings of a pool of coroutines; a switch is possible at *every* command (over-approximation of asyncio/Twisted) |
| `areach aw S …` | interleavings that switch only at commands that really await (`awaited`, `Sem.v`); used for counterexamples, so that these are genuine asyncio schedules; `areach_preach` embeds it into `preach` |
| `run`, `run_crash`, `run_sched` | executable versions with an oracle (`Env.v`); `run_exec`, `run_crash_reach`, `run_sched_areach` turn what they compute into facts about the relations |

A semantics `S` is a *contract* on the answers. The contract `base` (`w_allowed`, `Sem.v`) says only:

* storage is a map (`gmap string json`), a failing storage call has no effect;
* instance attributes hold what was written last;
* `randbelow(n)` is in `[0,n)`, `token_bytes(n)` has `n` bytes;
* a downloaded device list is a dictionary (distinct keys);
* what comes from outside as an exception is one of the documented library exceptions, an exception of storage or
  backend, or cancellation (`ext_exn`); never one of the model's own internal errors.

Backends, network and trust evaluation may otherwise answer anything at any time. Stronger contracts
(`with_contract`, `alone`) are explicit hypotheses of the theorems that use them: distinct or fixed loaded backends,
backends that report the number of visible pre keys, and so on. `healthy` (`Life.v`) says that nothing outside fails; it is
the contract of C80. The contract predicates are in the vocabulary files.

Three kinds of statements follow from this:

1. **A call on its own** (`exec base`, `reach base`): functional results and storage contents.
2. **A call among any concurrent activity** (`alone P`, `Alone.v`): each answer may come from a different world, so
   everything else may have changed between two commands of the call. The state is the list of the calls made so far.
   `C74_pool_covered` proves that what any coroutine of any pool does is such an execution.
3. **Histories**: `hist` (`Api.v`) are sequences of processes, each an arbitrary interleaving of arbitrary application
   code (`appcode`: any program built from public calls and own commands outside the storage), cut off anywhere,
   followed by a restart. `life` (`Life.v`) are sequential histories of one account on one device that start on an
   empty storage: failed and interrupted set-ups, use, crashes, restarts, purges of other accounts (if one fails or
   is cut off, the account is left alone until a later run completes). `libcode`
   restricts application code to code that does not itself talk to network or backends.

### Below the storage interface

`StorageImpl.v` models the cache of `Storage` on raw `_load/_store/_delete` operations and translates (`lower`)
library programs to it; C01–C04, C72, C95 and C103 are about that level. Without concurrency the cache does not matter
(`C02_cache_sound`). Statements about interleavings on the interface carry over to storages with `disable_cache=True`, in both
directions (`C02_uncached_coroutines`, `C02_uncached_complete`); to storages with the cache only C83 and the
statements of kind 2 do (`C74_cached_covered`), because there a load may return an older value (C04, C79, C95). `Heap.v` models mutable Python objects and
`copy.deepcopy` (with memo and sharing); C08 is what justifies treating `Maybe` values as plain values elsewhere.

### Data

JSON values, storage keys as the real strings, base64, hex and decimal printing at byte level (`Strs.v`). Python dicts
are association lists with Python's insertion behaviour, sets are duplicate-free lists whose order is revealed only
by the command `CPerm`: its answer is a Lehmer code, so any order may occur at every single iteration. Sessions,
bundles, key exchanges, messages are records with the attributes the library reads, plus an opaque payload.

## 2. Files

| file | content |
|---|---|
| `Base.v`, `Strs.v` | exceptions, JSON, dictionary and set helpers, records; base64, hex, key formats |
| `Prog.v` | program trees, executions, crash points, interleavings, weakest preconditions |
| `Sem.v` | commands, world, log of observable calls, contract |
| `StorageImpl.v`, `Heap.v` | `storage.py` below the interface; object heap |
| `Objects.v` | device lists as objects: `set_own_label`, `purge_backend`, `update_device_list` |
| `Model.v` | `identity_key_pair.py`, `session_manager.py`, `storage.py` typed loads, `Backend.__init__`, BTBV example |
| `Api.v` | the public calls as data; application code; histories |
| `Spec.v`, `Alone.v`, `Dec.v`, `Rot.v`, `Repl.v`, `Btbv.v`, `Typed.v`, `Foot.v`, `Publish.v`, `Docs.v`, `Trip.v`, `Deliver.v`, `Life.v`, `Ratchet.v`, `Distrust.v`, `Prov.v`, `Share.v`, `Uncached.v`, `One.v`, `Cached.v`, `Talk.v`, `Frugal.v`, `Origin.v`, `Renew.v`, `Stop.v`, `Handle.v`, `Doubt.v`, `Enough.v` | vocabulary of the statements, independent of the functions of the model |
| `Env.v` | a concrete environment, for examples and counterexamples only |
| `Pf*.v` | proofs |
| `Props*.v` | the theorems: each is `exact lemma`, followed by `Print Assumptions` and an example or witness |

`PfFrame.v` and `PfNet.v` are traversals of the whole library (what may be written, what may be raised, what is
published), `PfShare.v` does the same for interleavings (rely and guarantee); `PfWp.v`, `PfUpdate.v`, `PfInfo.v`, `PfEncrypt*.v`, `PfDec*.v`, `PfAlive*.v` are the functional proofs.

## 3. What is modelled

| source | model |
|---|---|
| `storage.py` | all: `Nothing`/`Just` (heap level and value level), `Storage.load/store/delete` with and without cache, `store_bytes`, all typed loads |
| `identity_key_pair.py` | all; the `xeddsa` functions are parameters (`prims`) |
| `backend.py` | `__init__` (both limits); the abstract methods are commands |
| `bundle.py`, `message.py`, `session.py`, `types.py` | data records; `__eq__` of bundles is equality of records, `builds_same_session` is a command |
| `session_manager.py` | every method: `create`, `purge_backend`, `purge_bare_jid`, the rotation task, `ensure_data_consistency`, device list handling, trust, `replace_sessions`, `get_sending_chain_length`, `set_own_label`, device information, `format_identity_key`, history synchronization, empty messages, `encrypt`, `decrypt`; the abstract methods are commands |
| `examples/btbv_session_manager.py` | all; `_prompt_manual_trust` is an arbitrary program |
| `tests/session_manager_impl.py` | the trust evaluation and decision only (`Enough.v`) |

Not modelled: logging; log messages and texts of exceptions; `AsyncFramework` (how sleeping is done; `async_sleep` is
one command, creating the task at the end of `create` is a separate coroutine of a pool); type checks done by Python
itself on arguments of the wrong type; memory and recursion limits; `project.py`, `version.py`, `__init__.py`
(metadata and re-exports); the documentation examples other than BTBV.

Simplifications, each also noted at its definition:

* a storage operation that raises has no effect (without cache this loses nothing: a failing write that took effect is a crash
  right after it, `C101_flaky`, `C101_flaky_coroutines`, `C101_flaky_history`; with the cache, the cached value stays the old one, see C103); backends do not write below the keys of the core library;
* one `SessionManager` instance per world (two instances on one storage are not modelled; the documentation forbids it);
* `f"{True}"` prints `True` in Python, `1` here (a stored boolean read as a device id);
* heap: objects are never freed, an object under construction is not readable before it is complete; `Just` of cyclic
  values is excluded (JSON values have no cycles);
* `JDict` values may have duplicate keys in the model; theorems that depend on their absence say so (`C61`);
* messages, errors and sessions collected in `encrypt` are lists instead of sets of objects compared by identity;
* device lists exchanged with the application are values; for one call at a time, or if the application returns a new dictionary
  each time and keeps none, this loses nothing (`C105_*_partial`); an application
  that keeps and returns the same dictionary object sees more (`C105_*_refuted`);
* the cache of bundles in `encrypt` is a list; only membership is used.

## 4. Trusted base

* The Rocq kernel (8.16.1) and std++; both without axioms of our own. `Print Assumptions` is run after every theorem
  in `Props*.v`; for every one of them it prints `Closed under the global context`. Loading std++ makes the axioms
  `Under_rel…` of `Coq.ssr.ssrunder` (opaque module signature of the standard library) present in the environment;
  no theorem depends on them.
* The reading of the Python source written down in `Model.v`, `StorageImpl.v`, `Heap.v`, `Sem.v`, with the
  simplifications of section 3.
* The contract of section 1.

Nothing is bounded: lists, histories, numbers of coroutines, schedules, crash points and answers are universally
quantified. `vm_compute` is used for examples and counterexamples only.

## 5. Properties and theorems

`partial` means: refuted as stated, or proved with an explicit restriction. Theorems named `_refuted` exhibit an
execution of the model violating the statement, theorems named `_partial` are the part that holds; the notes in
`MANIFEST.json` say what is missing.

| property | status | theorems |
|---|---|---|
| C01 Cached storage behaves as a map | proved | `C01_cached_storage_is_a_map`, `C01_new_storage_coherent` |
| C02 The cache is transparent | proved | `C02_cache_sound`, `C02_cache_complete`, `C02_uncached_coroutines`, `C02_uncached_complete` |
| C03 Writes are durable when the call returns | proved | `C03_durable` |
| C04 Cached loads stay correct under concurrency | partial | `C04_no_cache_partial`, `C04_own_keys_partial`, `C04_cache_race_refuted` |
| C05 Bytes round-trip | proved | `C05_bytes_roundtrip`, `C05_bytes_roundtrip_cached` |
| C06 Typed loads classify exactly | proved | `C06_load_primitive`, `C06_load_optional`, `C06_load_list`, `C06_load_dict`, `C06_load_bytes` |
| C07 Storage keys never collide | proved | `C07_keys_distinct`, `C07_keys_of_model` |
| C08 Maybe isolates stored values | proved | `C08_just_isolated` |
| C09 Identity key pair is stable | proved | `C09_key_pair_stable` |
| C10 Identity key generation is crash safe | proved | `C10_key_pair_crash_safe`, `C10_over_lives` |
| C100 A purged account starts over | proved | `C100_stored`, `C100_judged` |
| C101 A failing storage operation or a cancellation ends a call | proved | `C101_call`, `C101_sequence`, `C101_flaky`, `C101_flaky_coroutines`, `C101_flaky_history` |
| C102 Only the failures a call is written for are handled | proved | `C102_call` |
| C103 The cache agrees with the storage after writes that raised | partial | `C103_only_failed_partial`, `C103_cancelled_write_refuted` |
| C104 A trust decision about everyone is enough | proved | `C104_no_more_undecided`, `C104_still_undecided`, `C104_test_decision`, `C104_blind_trust` |
| C105 Device lists of the application are not modified | partial | `C105_own_label_refuted`, `C105_purge_refuted`, `C105_shared_list_refuted`, `C105_own_label_partial`, `C105_purge_partial`, `C105_update_partial`, `C105_coroutines_partial` |
| C11 One identity key pair per storage under concurrency | partial | `C11_concurrent_get_refuted`, `C11_concurrent_get_partial` |
| C12 Seed and private-key forms agree | proved | `C12_seed_priv` |
| C13 Skipped-key limits are accepted iff valid | partial | `C13_limits_refuted`, `C13_limits_partial` |
| C14 create rejects bad arguments without effect | proved | `C14_bad_arguments_rejected` |
| C15 Generated device id is fresh and in range | proved | `C15_fresh_id` |
| C16 The own device id never changes | proved | `C16_own_id_kept`, `C16_create_uses_own_id` |
| C17 Announce only after publishing | proved | `C17_announce_after_publish` |
| C18 create leaves everything published | proved | `C18_first_run_published` |
| C19 A create that succeeds after an earlier failure is fully published | partial | `C19_published_after_retry_refuted`, `C19_published_after_retry_partial`, `C19_repaired_partial` |
| C20 Backend changes are reconciled | proved | `C20_reconciled` |
| C21 Device list update: listed devices | proved | `C21_listed_devices` |
| C22 Device list update: unlisted data is kept | proved | `C22_frame`, `C22_known_kept`, `C22_known_device`, `C22_unrelated_device`, `C22_missing_device` |
| C23 Own device stays on its own list | proved | `C23_own_device_stays` |
| C24 Unknown namespaces are rejected without effect | proved | `C24_update`, `C24_refresh`, `C24_decrypt`, `C24_encrypt`, `C24_crash` |
| C25 Device records are crash consistent | proved | `C25_records_complete` |
| C26 No internal errors | partial | `C26_information`, `C26_update`, `C26_encrypt_partial`, `C26_other_calls`, `C26_missing_plaintext_refuted` |
| C27 purge_bare_jid may be interrupted | partial | `C27_others_partial`, `C27_healed_partial`, `C27_usable_after_crash_refuted`, `C27_trust_after_retry_refuted`, `C27_retry_partial`, `C27_retry_succeeds_partial` |
| C28 Concurrent device list updates do not lose data | partial | `C28_concurrent_updates_refuted`, `C28_sequential_updates_partial`, `C28_other_accounts_partial`, `C28_one_writer_partial` |
| C29 Updates are idempotent and order-independent | proved | `C29_idempotent`, `C29_order_free` |
| C30 set_trust is what you get | proved | `C30_reported`, `C30_others_unchanged`, `C30_level` |
| C31 Nothing else changes trust | proved | `C31_trust_kept` |
| C32 Identity keys are pinned | proved | `C32_key_pinned`, `C32_reported_is_recorded` |
| C33 purge_bare_jid deletes everything about the account | partial | `C33_trust_refuted`, `C33_queue_refuted`, `C33_purge_partial`, `C33_crash_partial` |
| C34 Messages are encrypted for trusted devices only | proved | `C34_trusted_only`, `C34_current_level` |
| C35 Recipients are active, not ourselves, and use the preferred backend | proved | `C35_requested`, `C35_recipients` |
| C36 No recipient is silently dropped | proved | `C36_nobody_dropped` |
| C37 No encryption while undecided | proved | `C37_no_encryption_while_undecided`, `C37_still_undecided` |
| C38 Every trusted device is served once or reported | proved | `C38_served_or_reported` |
| C39 encrypt persists sessions all at the end | proved | `C39_store_after_encrypting`, `C39_all_stored` |
| C40 Key exchange attached iff needed | proved | `C40_empty_message`, `C40_encrypt` |
| C41 Sessions are built with the trusted identity key | partial | `C41_bundle_key_refuted`, `C41_bundle_key_partial` |
| C42 A ratchet state is used at most once under concurrency | partial | `C42_concurrent_refuted`, `C42_next_call_partial`, `C42_one_user_partial` |
| C43 A ratchet state is used at most once across crashes | partial | `C43_crash_refuted`, `C43_returned_partial` |
| C44 Distrusted senders are rejected | proved | `C44_sessions_after_trust`, `C44_distrusted`, `C44_recorded` |
| C45 Key exchange must carry the known identity key | proved | `C45_identity_key`, `C45_inconsistent`, `C45_recorded_key` |
| C46 Messages for others or from unknown senders have no session effects | proved | `C46_not_for_us`, `C46_sender_not_found`, `C46_unknown_sender`, `C46_known_sender` |
| C47 Sessions advance only after successful decryption | proved | `C47_stored_after_decryption`, `C47_success` |
| C48 A failing decrypt leaves no trace | partial | `C48_no_trace_refuted`, `C48_failed_partial` |
| C49 Consumed pre keys are replaced and republished | proved | `C49_prekey_calls`, `C49_replenished`, `C49_visible`, `C49_above_threshold` |
| C50 Empty responses are sent exactly when required | partial | `C50_limit_refuted`, `C50_response_partial` |
| C51 Plaintext and sender attribution | proved | `C51_plaintext`, `C51_recorded` |
| C52 Existing sessions are reused only for the same key exchange | proved | `C52_built`, `C52_reused`, `C52_no_session` |
| C53 History sync defers responses | proved | `C53_sends_nothing`, `C53_in_sync_mode`, `C53_queued`, `C53_previously_queued` |
| C54 after_history_sync flushes the queue once | proved | `C54_flush` |
| C55 A failed flush can be retried | partial | `C55_retry_refuted`, `C55_retry_partial` |
| C56 Leaving history sync concurrently loses no response | partial | `C56_lost_refuted`, `C56_stranded_refuted`, `C56_decrypt_first_partial`, `C56_sync_first_partial` |
| C57 Signed pre keys rotate exactly when due | proved | `C57_passes`, `C57_steps` |
| C58 Rotation task sleeps the right time | proved | `C58_sleep` |
| C59 Upload retries back off | partial | `C59_backoff_refuted`, `C59_minute_partial` |
| C60 A purged backend stays offline | partial | `C60_rotation_refuted`, `C60_later_code_partial` |
| C61 purge_backend removes one backend cleanly | proved | `C61_purge_backend`, `C61_crash` |
| C62 replace_sessions replaces only after notifying | proved | `C62_store_after_send`, `C62_each_backend`, `C62_returned_error`, `C62_raised_error` |
| C63 replace_sessions reports failures instead of raising | partial | `C63_on_lives_partial`, `C63_runtime_error_refuted`, `C63_exceptions_partial`, `C63_unknown_device_partial` |
| C64 ensure_data_consistency repairs | proved | `C64_ensure` |
| C65 set_own_label updates only the own label | proved | `C65_set_own_label`, `C65_crash` |
| C66 Own and other devices are separated | proved | `C66_own_device_information` |
| C67 Sending chain lengths are reported per loaded backend | proved | `C67_entries`, `C67_read_only` |
| C68 Fingerprint format | proved | `C68_fingerprint`, `C68_spells_key`, `C68_groups`, `C68_injective` |
| C69 BTBV evaluates levels as documented | proved | `C69_levels` |
| C70 BTBV stops trusting blindly after a manual decision | proved | `C70_accounts`, `C70_storage`, `C70_prompted` |
| C71 BTBV writes only BLINDLY_TRUSTED and only for undecided devices | proved | `C71_only_blindly`, `C71_storage` |
| C72 Storage stays well typed under every schedule | proved | `C72_histories`, `C72_every_moment`, `C72_no_type_error` |
| C73 First contact is free of races | partial | `C73_first_contact_refuted`, `C73_recorded_key_partial` |
| C74 Loaded backends stay distinct; a lone call's theorems cover concurrency | proved | `C74_loaded_distinct`, `C74_pool_covered`, `C74_cached_covered` |
| C75 No recipient is dropped even if a backend is purged meanwhile | partial | `C75_concurrent_purge_refuted`, `C75_kept_backends_partial` |
| C76 Sessions are continued, and everyone gets the key material of the content | proved | `C76_session_and_material` |
| C77 Concurrent decrypts do not overfill the pre keys | partial | `C77_concurrent_refill_refuted`, `C77_sequence_partial`, `C77_one_refiller_partial` |
| C78 Concurrent decrypts during history sync queue all their devices | partial | `C78_concurrent_queue_refuted`, `C78_sequence_partial`, `C78_one_user_partial`, `C78_one_sequence_partial` |
| C79 Concurrent device list updates keep the records complete | partial | `C79_concurrent_updates_refuted`, `C79_one_after_other_partial`, `C79_one_writer_partial`, `C79_readers_partial`, `C79_as_alone_partial`, `C79_cached_refuted` |
| C80 Calls fail only when something outside fails | proved | `C80_calls_succeed`, `C80_purge_bare_jid`, `C80_create` |
| C81 Which exceptions leave the library | proved | `C81_exceptions` |
| C82 Uploaded bundles carry pre keys | proved | `C82_bundles_filled` |
| C83 Calls that touch different things do not interfere | proved | `C83_isolated`, `C83_isolated_cached` |
| C84 Changed pre keys are published | proved | `C84_published`, `C84_create` |
| C85 Uploaded bundles are up to date | partial | `C85_one_publisher_partial`, `C85_current_partial`, `C85_sequence_partial`, `C85_own_partial`, `C85_concurrent_refuted` |
| C86 Only documented exceptions | proved | `C86_documented`, `C86_encrypt_key_exchange` |
| C87 Only documented exceptions: decrypt, and namespaces not loaded | partial | `C87_decrypt_partial`, `C87_decrypt_refuted`, `C87_namespaces_refuted` |
| C88 What is sent is what is read | proved | `C88_written`, `C88_round_trip`, `C88_sent`, `C88_empty_trip` |
| C89 Messages arrive unless there is a reason | proved | `C89_reasons`, `C89_delivered` |
| C90 Messages are sent unless there is a reason | proved | `C90_reasons`, `C90_sent`, `C90_blame` |
| C91 Session states are not used again | proved | `C91_never_older`, `C91_messages`, `C91_other_calls` |
| C92 Manual trust decisions win over blind trust | partial | `C92_concurrent_refuted`, `C92_later_calls_partial` |
| C93 Distrusted devices are left alone | partial | `C93_queued_refuted`, `C93_shunned_partial`, `C93_content_partial`, `C93_btbv_partial` |
| C94 What the library hands out has a source | proved | `C94_sourced`, `C94_only_empty` |
| C95 A trust decision is seen by every later call | partial | `C95_cached_refuted`, `C95_uncached_partial` |
| C96 Coroutines without races do not notice the cache | proved | `C96_race_free`, `C96_calls` |
| C97 Calls tell the network only what they must | proved | `C97_told`, `C97_strangers` |
| C98 Bundles and device lists are not downloaded needlessly | proved | `C98_sessions`, `C98_lookups`, `C98_sender`, `C98_not_again` |
| C99 What the storage says has a source | proved | `C99_stored`, `C99_judged`, `C99_reported` |

## 6. Findings about the code

Each is a theorem (name in parentheses).

* `backend.py:114`: `m or 0 > s` rejects every per-message limit except `None` and 0 (`C13_limits_refuted`).
* The rotation task resets `retry_delay` to 60 in every iteration, so there is no back-off (`C59_backoff_refuted`), and
  it uploads the bundle of a backend purged meanwhile (`C60_rotation_refuted`).
* A failed bundle upload during the first run is never repeated by later `create` calls (`C19_…_refuted`).
* `purge_bare_jid` deletes records before the list: an interruption leaves an account for which
  `get_device_information` raises `NothingException` (`C27_usable_after_crash_refuted`), or trust levels that no later
  call finds (`C27_trust_after_retry_refuted`). It never removes queue entries or levels of keys without device
  (`C33_…_refuted`).
* `encrypt` and `replace_sessions` never compare the identity key of a downloaded bundle with the key whose trust was
  evaluated (`C41_bundle_key_refuted`).
* Empty messages are sent before the session is stored: a crash in between reuses the ratchet state
  (`C43_crash_refuted`). Two concurrent `encrypt` calls use the same state (`C42_concurrent_refuted`).
* `decrypt` that raises while uploading or responding has already stored the session (`C48_no_trace_refuted`).
* `after_history_sync` deletes a queue before sending (`C55_retry_refuted`), and races with `decrypt`
  (`C56_…_refuted`). Concurrent decrypts lose queue entries (`C78_…_refuted`) and overfill pre keys (`C77_…_refuted`).
* A `decrypt` suspended between fetching and uploading a bundle overwrites the newer bundle published by the rotation task
  (`C85_concurrent_refuted`): the server is left with a signed pre key that was already replaced.
* Concurrent device list updates lose devices (`C28_…_refuted`) or leave namespaces without activity information, which
  makes a later `encrypt` fail with `KeyError` (`C79_…_refuted`). Concurrent first contact overwrites a recorded
  identity key (`C73_…_refuted`).
* `encrypt` for a namespace without plaintext raises `KeyError` (`C26_missing_plaintext_refuted`); running concurrently
  with `purge_backend` it may return without having encrypted for an account (`C75_…_refuted`).
* BTBV: a manual decision made while `encrypt` is running is overwritten with blind trust, and the message is encrypted for
  the device just distrusted (`C92_concurrent_refuted`).
- `after_history_sync` does not look at trust levels (session_manager.py:1604-1614): an answer queued before its recipient
  was distrusted is encrypted and sent to the distrusted device (`C93_queued_refuted`).
* With the cache of `Storage`, a lookup that read the old trust level before `set_trust` stored the new one caches the old
  level afterwards: the decision is on disk, but `encrypt` keeps encrypting for the distrusted device until the process
  restarts (`C95_cached_refuted`). In the same way one lookup next to one update makes the following update forget a
  namespace of a device (`C79_cached_refuted`).
* A write that raised although it took effect (a task cancelled while writing) leaves the old value in the cache of `Storage`:
  the old trust level is seen until the process restarts, then the new one (`C103_cancelled_write_refuted`).
* `replace_sessions` of an unknown device raises `RuntimeError` (`C63_runtime_error_refuted`).
* The documented staleness limit is not the one in the code (`C50_limit_refuted`).
* Two concurrent first `IdentityKeyPair.get` calls return different key pairs (`C11_…_refuted`). Load racing with store
  leaves a stale cache (`C04_cache_race_refuted`).
* `decrypt` raises four exceptions its documentation does not mention (`C87_decrypt_refuted`). If the network methods
  reject namespaces of backends that are not loaded, as their documentation allows, `create` fails whenever a backend was
  removed, `purge_backend` fails for backends not loaded, and `get_device_information` (so `encrypt`) fails for accounts
  with a device of a purged backend (`C87_namespaces_refuted`). The documented `KeyExchangeFailed` of `encrypt` never
  occurs (`C86_encrypt_key_exchange`).
* Namespaces of which one extends the other by a slash share queue keys (`C72_separation_needed`).

## 7. Tests of the theorems against wrong programs

`seeded/LOG.jsonl` records edits of the model that imitate realistic bugs, the claims they break, which theorems stopped
proving, and which theorems were tightened because they did not. The edits were made in a scratch copy.
