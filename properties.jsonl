{"id": "C01", "title": "Cached storage behaves as a map", "statement": "Whatever sequence of load/store/delete calls is made on one Storage with the cache enabled, and whichever of the underlying operations fail without effect, every load that succeeds returns exactly the value of the last successful store to that key since the last successful delete (or Nothing).", "quantifier": "all finite sequences of load/store/delete calls, all keys and values, all failure patterns, all initial contents", "why_tests_cant": "the state space of call sequences x failure patterns is infinite", "anchors": ["omemo/storage.py:Storage.load", "omemo/storage.py:Storage.store", "omemo/storage.py:Storage.delete"]}
{"id": "C02", "title": "The cache is transparent", "statement": "Running any program on top of Storage with the cache enabled is indistinguishable from running it against the bare backing store: same results, same exceptions, same backing contents, same calls to network and backends.", "quantifier": "all programs using the Storage API sequentially, all failure patterns", "why_tests_cant": "quantifies over programs, not inputs", "anchors": ["omemo/storage.py:Storage.__init__", "omemo/storage.py:Storage.load", "omemo/storage.py:Storage.store", "omemo/storage.py:Storage.delete"]}
{"id": "C03", "title": "Writes are durable when the call returns", "statement": "When store/delete returns, the backing store already reflects it; at every crash point the backing store differs from the acknowledged writes by at most the single in-flight write, so a restart with an empty cache loses nothing.", "quantifier": "all call sequences and all crash points inside them", "why_tests_cant": "crash points cannot be enumerated by tests", "anchors": ["omemo/storage.py:Storage.store", "omemo/storage.py:Storage.delete"]}
{"id": "C04", "title": "Cached loads stay correct under concurrency", "statement": "When several coroutines use one caching Storage, a load that starts after a store has completed returns the stored value (or a newer one).", "quantifier": "all schedules of concurrent load/store/delete coroutines", "why_tests_cant": "schedule dependent", "anchors": ["omemo/storage.py:Storage.load", "omemo/storage.py:Storage.store"]}
{"id": "C05", "title": "Bytes round-trip", "statement": "For every byte string b and key k, after store_bytes(k, b) succeeds, load_bytes(k) returns exactly b.", "quantifier": "all byte strings of every length", "why_tests_cant": "infinitely many byte strings", "anchors": ["omemo/storage.py:Storage.store_bytes", "omemo/storage.py:Storage.load_bytes"]}
{"id": "C06", "title": "Typed loads classify exactly", "statement": "load_primitive/load_optional/load_list/load_dict/load_bytes return Nothing exactly when the key is absent (a stored None is not absent), Just v exactly when the stored value v has the requested type, raise TypeError for any other stored value, and never change the storage.", "quantifier": "all stored JSON values, all requested types", "why_tests_cant": "infinitely many JSON values", "anchors": ["omemo/storage.py:Storage.load_primitive", "omemo/storage.py:Storage.load_optional", "omemo/storage.py:Storage.load_list", "omemo/storage.py:Storage.load_dict", "omemo/storage.py:Storage.load_bytes", "omemo/storage.py:Maybe"]}
{"id": "C07", "title": "Storage keys never collide", "statement": "Two different pieces of data (device list, namespaces, activity, label, identity key, trust, own id, identity key pair) of any accounts/devices are never kept under the same storage key, whatever characters the JIDs contain; queue keys do not collide either as long as no loaded namespace extends another one by a slash.", "quantifier": "all bare JIDs, device ids, identity keys, namespaces", "why_tests_cant": "all strings", "anchors": ["omemo/session_manager.py:SessionManager.update_device_list", "omemo/session_manager.py:SessionManager.set_trust", "omemo/session_manager.py:SessionManager.decrypt"]}
{"id": "C08", "title": "Maybe isolates stored values", "statement": "Mutating a value after passing it to Just, or mutating a value obtained from from_just/maybe, never changes what later reads return.", "quantifier": "all nested JSON structures and all later mutations", "why_tests_cant": "arbitrary aliasing and mutation sequences", "anchors": ["omemo/storage.py:Just.__init__", "omemo/storage.py:Just.from_just", "omemo/storage.py:Just.maybe", "omemo/storage.py:Just.fmap"]}
{"id": "C09", "title": "Identity key pair is stable", "statement": "Once IdentityKeyPair.get has returned a key pair, every later successful get on the same storage returns the same key pair, whatever other data is written in between and however often the process restarts.", "quantifier": "all histories of later storage operations on other keys", "why_tests_cant": "unbounded histories", "anchors": ["omemo/identity_key_pair.py:IdentityKeyPair.get"]}
{"id": "C10", "title": "Identity key generation is crash safe", "statement": "If the process dies at any point inside IdentityKeyPair.get, the next get on the surviving storage succeeds (unless the storage fails) and never mixes an old flag with a new key: it returns either the pair being written or a fresh seed.", "quantifier": "all crash points inside get, all prior storage contents", "why_tests_cant": "crash points", "anchors": ["omemo/identity_key_pair.py:IdentityKeyPair.get"]}
{"id": "C11", "title": "One identity key pair per storage under concurrency", "statement": "Two IdentityKeyPair.get calls running concurrently on one storage return the same key pair.", "quantifier": "all schedules of two get calls", "why_tests_cant": "schedule dependent", "anchors": ["omemo/identity_key_pair.py:IdentityKeyPair.get"]}
{"id": "C12", "title": "Seed and private-key forms agree", "statement": "is_seed and is_priv are always opposite; as_priv always yields a private-key pair, is idempotent, and keeps the public identity key, given that seed->priv->pub equals seed->pub.", "quantifier": "all seeds and private keys", "why_tests_cant": "all 32-byte strings", "anchors": ["omemo/identity_key_pair.py:IdentityKeyPairSeed", "omemo/identity_key_pair.py:IdentityKeyPairPriv"]}
{"id": "C13", "title": "Skipped-key limits are accepted iff valid", "statement": "Backend(max_session, max_message) is accepted exactly when max_message is None, or 1 <= max_message <= max_session, or both are 0, and then reports those limits.", "quantifier": "all integers for both parameters", "why_tests_cant": "all pairs of integers", "anchors": ["omemo/backend.py:Backend.__init__"]}
{"id": "C14", "title": "create rejects bad arguments without effect", "statement": "create with two backends of the same namespace, or a refill threshold outside 25..99, raises ValueError and touches neither storage nor network nor backends.", "quantifier": "all backend lists, thresholds and prior states", "why_tests_cant": "all argument combinations", "anchors": ["omemo/session_manager.py:SessionManager.create"]}
{"id": "C15", "title": "Generated device id is fresh and in range", "statement": "On first run the device id chosen is between 1 and 2^31-1 and is in none of the device lists downloaded for the loaded backends.", "quantifier": "all downloaded device lists and all random sequences", "why_tests_cant": "all random sequences", "anchors": ["omemo/session_manager.py:SessionManager.create"]}
{"id": "C16", "title": "The own device id never changes", "statement": "Once an own device id is stored, every later create on that storage (with any backends, any server behaviour, failing or not) uses and keeps that id.", "quantifier": "all later create calls, all failures", "why_tests_cant": "unbounded histories", "anchors": ["omemo/session_manager.py:SessionManager.create"]}
{"id": "C17", "title": "Announce only after publishing", "statement": "In create, this device is never added to the published device list of a namespace before its bundle for that namespace has been successfully uploaded during that same call.", "quantifier": "all first-run and backend-change executions, all failures and crash points", "why_tests_cant": "every prefix of every execution", "anchors": ["omemo/session_manager.py:SessionManager.create", "omemo/session_manager.py:SessionManager.update_device_list"]}
{"id": "C18", "title": "create leaves everything published", "statement": "A first-run create that returns normally has generated pre keys, uploaded a bundle, and made sure the device list contains this device, for every loaded backend.", "quantifier": "all environments in which create returns", "why_tests_cant": "all server behaviours", "anchors": ["omemo/session_manager.py:SessionManager.create"]}
{"id": "C19", "title": "A create that succeeds after an earlier failure is fully published", "statement": "If create fails (e.g. a bundle upload fails) and is called again, then once it returns normally the bundle of every loaded backend has been uploaded by one of the calls.", "quantifier": "all failure points of the first call", "why_tests_cant": "all failure points", "anchors": ["omemo/session_manager.py:SessionManager.create"]}
{"id": "C20", "title": "Backend changes are reconciled", "statement": "When create runs with a different set of backends than last time and returns, newly added backends have their bundle uploaded and their device list refreshed, removed backends have been taken off the device list and their bundle deleted, and the own device record lists exactly the loaded namespaces as active.", "quantifier": "all pairs of old/new backend sets, all server states", "why_tests_cant": "all set combinations", "anchors": ["omemo/session_manager.py:SessionManager.create", "omemo/session_manager.py:SessionManager.purge_backend"]}
{"id": "C21", "title": "Device list update: listed devices", "statement": "After update_device_list(ns, jid, list) returns, every device in the list is known for jid, supports ns, and is active for ns; a new device has exactly the listed label, a known device takes the listed label unless that is None.", "quantifier": "all lists, all prior device states, all set iteration orders", "why_tests_cant": "all prior states", "anchors": ["omemo/session_manager.py:SessionManager.update_device_list"]}
{"id": "C22", "title": "Device list update: unlisted data is kept", "statement": "update_device_list never forgets a device, its identity key or trust; a known device missing from the list only becomes inactive for that ns; other namespaces' activity, other devices' labels and other accounts are untouched.", "quantifier": "all lists and prior states", "why_tests_cant": "frame over the whole storage", "anchors": ["omemo/session_manager.py:SessionManager.update_device_list"]}
{"id": "C23", "title": "Own device stays on its own list", "statement": "When an update for the own account omits this device, update_device_list uploads exactly the received list plus this device with its stored label before touching local data; if it does return, this device is on the list last seen or uploaded; otherwise nothing is uploaded.", "quantifier": "all own-account updates, all failures", "why_tests_cant": "all lists and failures", "anchors": ["omemo/session_manager.py:SessionManager.update_device_list"]}
{"id": "C24", "title": "Unknown namespaces are rejected without effect", "statement": "update_device_list/refresh_device_list/decrypt/encrypt with a namespace whose backend is not loaded raise UnknownNamespace and change no local data.", "quantifier": "all namespaces and states", "why_tests_cant": "all states", "anchors": ["omemo/session_manager.py:SessionManager.update_device_list", "omemo/session_manager.py:SessionManager.decrypt", "omemo/session_manager.py:SessionManager.encrypt"]}
{"id": "C25", "title": "Device records are crash consistent", "statement": "At every crash point of every SessionManager operation except purge_bare_jid, every device on a stored device list has its namespaces, activity and label stored, and every supported namespace of a foreign device has activity information.", "quantifier": "all histories of API calls, all crash points", "why_tests_cant": "crash points x histories", "anchors": ["omemo/session_manager.py:SessionManager.update_device_list", "omemo/session_manager.py:SessionManager.create", "omemo/session_manager.py:SessionManager.get_device_information"]}
{"id": "C26", "title": "No internal errors", "statement": "get_device_information, update_device_list and encrypt never fail with NothingException, KeyError or TypeError on a storage produced by any history of API calls (excluding an interrupted purge_bare_jid and purging the own account).", "quantifier": "all histories of API calls with failures and crashes", "why_tests_cant": "unbounded histories", "anchors": ["omemo/session_manager.py:SessionManager.get_device_information", "omemo/session_manager.py:SessionManager.update_device_list"]}
{"id": "C27", "title": "purge_bare_jid may be interrupted", "statement": "If purge_bare_jid is interrupted, the account stays usable (device information can still be queried) and calling it again removes everything the first call would have removed.", "quantifier": "all crash points inside purge_bare_jid", "why_tests_cant": "crash points", "anchors": ["omemo/session_manager.py:SessionManager.purge_bare_jid"]}
{"id": "C28", "title": "Concurrent device list updates do not lose data", "statement": "Two update_device_list calls for the same account running concurrently leave every device of both lists known and active for its namespace.", "quantifier": "all schedules of two updates", "why_tests_cant": "schedule dependent", "anchors": ["omemo/session_manager.py:SessionManager.update_device_list"]}
{"id": "C29", "title": "Updates are idempotent and order-independent", "statement": "Repeating the same update changes nothing, and the outcome does not depend on the order in which the internal sets are iterated.", "quantifier": "all lists, states, iteration orders", "why_tests_cant": "all orders", "anchors": ["omemo/session_manager.py:SessionManager.update_device_list"]}
{"id": "C30", "title": "set_trust is what you get", "statement": "After set_trust(jid, key, level), get_device_information(jid) reports level for every device with that key, whatever its device id, and the level of every other (account, key) pair is unchanged; keys never set report the undecided level.", "quantifier": "all accounts, keys, levels, states", "why_tests_cant": "all pairs of keys", "anchors": ["omemo/session_manager.py:SessionManager.set_trust", "omemo/session_manager.py:SessionManager.get_device_information"]}
{"id": "C31", "title": "Nothing else changes trust", "statement": "No operation other than set_trust (including the trust decision callback), purge_bare_jid of that account, and the first-run setup of the own key changes a stored trust level.", "quantifier": "all histories of API calls, crashes and schedules", "why_tests_cant": "unbounded histories", "anchors": ["omemo/session_manager.py:SessionManager"]}
{"id": "C32", "title": "Identity keys are pinned", "statement": "Once an identity key is recorded for (account, device), get_device_information keeps reporting that key, whatever bundles the server serves later, until purge_bare_jid of that account.", "quantifier": "all histories of API calls, all server behaviours", "why_tests_cant": "unbounded adversarial histories", "anchors": ["omemo/session_manager.py:SessionManager.get_device_information"]}
{"id": "C33", "title": "purge_bare_jid deletes everything about the account", "statement": "After purge_bare_jid(jid) returns, no device list, device record, trust level or queued message of jid is left in storage, each loaded backend was told to purge jid, and data of other accounts is untouched.", "quantifier": "all prior states", "why_tests_cant": "all states", "anchors": ["omemo/session_manager.py:SessionManager.purge_bare_jid"]}
{"id": "C34", "title": "Messages are encrypted for trusted devices only", "statement": "Every device for which encrypt encrypts key material or builds a session had a trust level evaluating to TRUSTED in that same call, after any trust decision.", "quantifier": "all recipients, states, trust callbacks, failures", "why_tests_cant": "all callback behaviours", "anchors": ["omemo/session_manager.py:SessionManager.encrypt"]}
{"id": "C35", "title": "Recipients are active, not ourselves, and use the preferred backend", "statement": "encrypt never encrypts for the sending device, only for known devices of the requested accounts (or own account), and for each uses the first namespace in the priority order for which the device is active.", "quantifier": "all states and priority orders", "why_tests_cant": "all orders and sets", "anchors": ["omemo/session_manager.py:SessionManager.encrypt"]}
{"id": "C36", "title": "No recipient is silently dropped", "statement": "If encrypt returns, every requested account other than the own one has at least one device encrypted for; otherwise it raises NoEligibleDevices naming exactly the accounts with none.", "quantifier": "all recipients, failures", "why_tests_cant": "all failure patterns", "anchors": ["omemo/session_manager.py:SessionManager.encrypt"]}
{"id": "C37", "title": "No encryption while undecided", "statement": "If a recipient device's trust still evaluates to UNDECIDED after the trust decision, encrypt raises StillUndecided and performs no encryption, session building or session storing; undecided devices are offered in one bulk decision.", "quantifier": "all states and callbacks", "why_tests_cant": "all callbacks", "anchors": ["omemo/session_manager.py:SessionManager.encrypt"]}
{"id": "C38", "title": "Every trusted device is served once or reported", "statement": "If encrypt returns, each selected trusted device appears in exactly one message exactly once, or in exactly one reported error and in no message.", "quantifier": "all device sets and failure patterns", "why_tests_cant": "all failure patterns", "anchors": ["omemo/session_manager.py:SessionManager.encrypt"]}
{"id": "C39", "title": "encrypt persists sessions all at the end", "statement": "encrypt stores sessions only after all encryption succeeded; before it returns, every session used is stored exactly once in its advanced state; if it raises anything before that, no session was stored.", "quantifier": "all executions, failures, crash points", "why_tests_cant": "every prefix", "anchors": ["omemo/session_manager.py:SessionManager.encrypt"]}
{"id": "C40", "title": "Key exchange attached iff needed", "statement": "encrypt and empty messages attach the session's key exchange exactly when the session was actively initiated and is unconfirmed.", "quantifier": "all sessions", "why_tests_cant": "all sessions", "anchors": ["omemo/session_manager.py:SessionManager.encrypt", "omemo/session_manager.py:SessionManager.__send_empty_message"]}
{"id": "C41", "title": "Sessions are built with the trusted identity key", "statement": "When encrypt builds a new session for a device, the bundle used carries the identity key whose trust was evaluated for that device.", "quantifier": "all server behaviours", "why_tests_cant": "adversarial server", "anchors": ["omemo/session_manager.py:SessionManager.encrypt"]}
{"id": "C42", "title": "A ratchet state is used at most once under concurrency", "statement": "Two concurrent encrypt calls never encrypt two messages with the same state of the same session.", "quantifier": "all schedules of two encrypt calls", "why_tests_cant": "schedule dependent", "anchors": ["omemo/session_manager.py:SessionManager.encrypt"]}
{"id": "C43", "title": "A ratchet state is used at most once across crashes", "statement": "If an automated empty message has been handed to the network, a later encryption never starts from the session state that message was encrypted with.", "quantifier": "all crash points of sending an empty message", "why_tests_cant": "crash points", "anchors": ["omemo/session_manager.py:SessionManager.__send_empty_message", "omemo/session_manager.py:SessionManager.replace_sessions"]}
{"id": "C44", "title": "Distrusted senders are rejected", "statement": "decrypt never decrypts anything from a device whose trust evaluates to DISTRUSTED: it raises SenderDistrusted before any session is loaded, built or stored.", "quantifier": "all messages, states", "why_tests_cant": "all messages", "anchors": ["omemo/session_manager.py:SessionManager.decrypt"]}
{"id": "C45", "title": "Key exchange must carry the known identity key", "statement": "If a message's key exchange carries another identity key than the one recorded for the sending device, decrypt raises PublicDataInconsistency and no session is built, used or stored.", "quantifier": "all messages, states", "why_tests_cant": "adversarial messages", "anchors": ["omemo/session_manager.py:SessionManager.decrypt"]}
{"id": "C46", "title": "Messages for others or from unknown senders have no session effects", "statement": "decrypt of a message without key material for this device raises MessageNotForUs with no effect; if the sender is unknown the device list is refreshed once and SenderNotFound is raised without touching sessions if it stays unknown.", "quantifier": "all messages and states", "why_tests_cant": "all messages", "anchors": ["omemo/session_manager.py:SessionManager.decrypt"]}
{"id": "C47", "title": "Sessions advance only after successful decryption", "statement": "decrypt stores a session only after both key material and content were decrypted, the stored session is the one that decrypted the message, and at most one session of the sender is stored for it before the response.", "quantifier": "all messages, failures and crash points", "why_tests_cant": "every prefix", "anchors": ["omemo/session_manager.py:SessionManager.decrypt"]}
{"id": "C48", "title": "A failing decrypt leaves no trace", "statement": "If decrypt raises, no session has been persisted and no pre key consumed, so the message can be retried.", "quantifier": "all failures", "why_tests_cant": "all failure points", "anchors": ["omemo/session_manager.py:SessionManager.decrypt"]}
{"id": "C49", "title": "Consumed pre keys are replaced and republished", "statement": "After decrypting a key exchange the used pre key is hidden (history sync) or deleted; if that changed the bundle, pre keys are topped up to exactly 100 when at or below the threshold, the number of visible pre keys never exceeds 100, and the resulting bundle is uploaded.", "quantifier": "all pre key counts, thresholds, modes", "why_tests_cant": "all counts and histories", "anchors": ["omemo/session_manager.py:SessionManager.decrypt", "omemo/backend.py:Backend"]}
{"id": "C50", "title": "Empty responses are sent exactly when required", "statement": "decrypt responds with (or queues, during history sync) an empty message exactly when the message was a key exchange or the receiving chain is longer than 53; the documented limit is 53 or higher.", "quantifier": "all messages, chain lengths", "why_tests_cant": "all chain lengths", "anchors": ["omemo/session_manager.py:SessionManager.decrypt", "omemo/session_manager.py:SessionManager.STALENESS_MAGIC_NUMBER", "functionality.md"]}
{"id": "C51", "title": "Plaintext and sender attribution", "statement": "decrypt returns None as plaintext exactly for empty content, otherwise the backend's decryption, and the returned device is the recorded device with the message's account and device id.", "quantifier": "all messages", "why_tests_cant": "all messages", "anchors": ["omemo/session_manager.py:SessionManager.decrypt"]}
{"id": "C52", "title": "Existing sessions are reused only for the same key exchange", "statement": "On a key exchange message the existing session is used only if it was passively initiated by a key exchange building the same session; otherwise a new session is built; without key exchange only an existing session is used, else NoSession.", "quantifier": "all sessions and key exchanges", "why_tests_cant": "all combinations", "anchors": ["omemo/session_manager.py:SessionManager.decrypt"]}
{"id": "C53", "title": "History sync defers responses", "statement": "While in history synchronization mode decrypt sends nothing and deletes no pre key; the session's device is in the queue afterwards, and previously queued devices stay queued.", "quantifier": "all messages, queue contents", "why_tests_cant": "all queue contents", "anchors": ["omemo/session_manager.py:SessionManager.decrypt", "omemo/session_manager.py:SessionManager.before_history_sync"]}
{"id": "C54", "title": "after_history_sync flushes the queue once", "statement": "When after_history_sync returns, hidden pre keys were deleted for every loaded backend, exactly one empty message was sent for each queued device that has a session, and the queue of every loaded backend is empty.", "quantifier": "all queue contents", "why_tests_cant": "all queue contents", "anchors": ["omemo/session_manager.py:SessionManager.after_history_sync"]}
{"id": "C55", "title": "A failed flush can be retried", "statement": "If after_history_sync fails to send one message, the messages not yet sent are still queued and sent by the next after_history_sync.", "quantifier": "all failure points", "why_tests_cant": "all failure points", "anchors": ["omemo/session_manager.py:SessionManager.after_history_sync"]}
{"id": "C56", "title": "Leaving history sync concurrently loses no response", "statement": "When decrypt and after_history_sync run concurrently, the response owed by decrypt is either sent or still queued for a future sync while the library knows it is in sync mode.", "quantifier": "all schedules", "why_tests_cant": "schedule dependent", "anchors": ["omemo/session_manager.py:SessionManager.decrypt", "omemo/session_manager.py:SessionManager.after_history_sync"]}
{"id": "C57", "title": "Signed pre keys rotate exactly when due", "statement": "In each pass the rotation task rotates exactly the backends whose signed pre key is older than the period, and uploads the new bundle successfully before looking at the next backend.", "quantifier": "all ages, periods, upload failure patterns", "why_tests_cant": "all failure patterns", "anchors": ["omemo/session_manager.py:SessionManager.__manage_signed_pre_key_rotation"]}
{"id": "C58", "title": "Rotation task sleeps the right time", "statement": "Between passes the task sleeps for 60 seconds more than the smallest remaining time (never more than the period plus 60, never less than 60).", "quantifier": "all ages and periods", "why_tests_cant": "all ages", "anchors": ["omemo/session_manager.py:SessionManager.__manage_signed_pre_key_rotation"]}
{"id": "C59", "title": "Upload retries back off", "statement": "While the upload after a rotation keeps failing the delay between attempts doubles from one minute up to one hour.", "quantifier": "all numbers of consecutive failures", "why_tests_cant": "unbounded failures", "anchors": ["omemo/session_manager.py:SessionManager.__manage_signed_pre_key_rotation"]}
{"id": "C60", "title": "A purged backend stays offline", "statement": "After purge_backend(ns) has returned, nothing is uploaded for ns by the library unless ns is loaded again.", "quantifier": "all schedules of purge_backend and the rotation task", "why_tests_cant": "schedule dependent", "anchors": ["omemo/session_manager.py:SessionManager.purge_backend", "omemo/session_manager.py:SessionManager.__manage_signed_pre_key_rotation"]}
{"id": "C61", "title": "purge_backend removes one backend cleanly", "statement": "When purge_backend(ns) returns, the device list was republished without this device and otherwise unchanged (if it was on it), the own record no longer mentions ns, the backend is unloaded and purged if it was loaded, and its bundle was deleted last; other namespaces are unaffected.", "quantifier": "all states, namespaces", "why_tests_cant": "all states", "anchors": ["omemo/session_manager.py:SessionManager.purge_backend"]}
{"id": "C62", "title": "replace_sessions replaces only after notifying", "statement": "replace_sessions stores a replacement session only after its notification was sent; library errors of one backend are returned and do not stop the others; for a returned non-storage error no session was replaced for that backend.", "quantifier": "all devices, failures", "why_tests_cant": "all failure patterns", "anchors": ["omemo/session_manager.py:SessionManager.replace_sessions"]}
{"id": "C63", "title": "replace_sessions reports failures instead of raising", "statement": "For any device, replace_sessions either returns the mapping of failures or raises a documented library error.", "quantifier": "all devices", "why_tests_cant": "all devices", "anchors": ["omemo/session_manager.py:SessionManager.replace_sessions"]}
{"id": "C64", "title": "ensure_data_consistency repairs", "statement": "When ensure_data_consistency returns, for every loaded backend this device is on the device list last downloaded or uploaded, and the bundle online equals the local one or the local one was uploaded.", "quantifier": "all server states", "why_tests_cant": "all server states", "anchors": ["omemo/session_manager.py:SessionManager.ensure_data_consistency"]}
{"id": "C65", "title": "set_own_label updates only the own label", "statement": "set_own_label stores the label and uploads, for each backend, exactly the downloaded list with only this device's label replaced.", "quantifier": "all labels and lists", "why_tests_cant": "all lists", "anchors": ["omemo/session_manager.py:SessionManager.set_own_label"]}
{"id": "C66", "title": "Own and other devices are separated", "statement": "get_own_device_information returns this device and the set of all other own devices, together exactly what get_device_information returns.", "quantifier": "all states", "why_tests_cant": "all states", "anchors": ["omemo/session_manager.py:SessionManager.get_own_device_information"]}
{"id": "C67", "title": "Sending chain lengths are reported per loaded backend", "statement": "get_sending_chain_length returns exactly one entry per loaded backend the device supports: the session's chain length, or None without session; it changes nothing.", "quantifier": "all devices and sessions", "why_tests_cant": "all devices", "anchors": ["omemo/session_manager.py:SessionManager.get_sending_chain_length"]}
{"id": "C68", "title": "Fingerprint format", "statement": "format_identity_key returns the lowercase hex of the Curve25519 key in groups of 8 whose concatenation is the whole hex string; for 32-byte keys 8 groups of 8; different Curve25519 keys give different fingerprints.", "quantifier": "all keys", "why_tests_cant": "all byte strings", "anchors": ["omemo/session_manager.py:SessionManager.format_identity_key"]}
{"id": "C69", "title": "BTBV evaluates levels as documented", "statement": "The BTBV trust system maps TRUSTED and BLINDLY_TRUSTED to trusted, UNDECIDED to undecided, DISTRUSTED to distrusted and any other name raises UnknownTrustLevel.", "quantifier": "all strings", "why_tests_cant": "all strings", "anchors": ["examples/btbv_session_manager.py:BTBVSessionManager._evaluate_custom_trust_level"]}
{"id": "C70", "title": "BTBV stops trusting blindly after a manual decision", "statement": "If any known device of an account has level TRUSTED or DISTRUSTED, the BTBV decision sets no trust level for that account and hands its undecided devices to the manual prompt.", "quantifier": "all accounts and trust states", "why_tests_cant": "all states", "anchors": ["examples/btbv_session_manager.py:BTBVSessionManager._make_trust_decision"]}
{"id": "C71", "title": "BTBV writes only BLINDLY_TRUSTED and only for undecided devices", "statement": "The BTBV decision itself only ever stores BLINDLY_TRUSTED, and only for the devices it was asked about.", "quantifier": "all undecided sets and states", "why_tests_cant": "all states", "anchors": ["examples/btbv_session_manager.py:BTBVSessionManager._make_trust_decision"]}
{"id": "C72", "title": "Storage stays well typed under every schedule", "statement": "Whatever API calls run concurrently, in whatever interleaving, with whatever failures and crashes, every value the library stored has the type its readers expect, so no typed load ever raises TypeError.", "quantifier": "all sets of concurrent API calls, all schedules, all crash points", "why_tests_cant": "schedules x histories", "anchors": ["omemo/session_manager.py:SessionManager", "omemo/storage.py:Storage"]}
{"id": "C73", "title": "First contact is free of races", "statement": "When several calls of get_device_information run concurrently for an account with a device whose identity key is not recorded yet, they all report the same identity key for it, and that key is the recorded one.", "quantifier": "all storages, all bundles served, all asyncio schedules", "why_tests_cant": "schedules x server behaviours", "anchors": ["omemo/session_manager.py:SessionManager.get_device_information", "omemo/session_manager.py:SessionManager.__get_device_information"]}
{"id": "C74", "title": "Loaded backends stay distinct; a lone call's theorems cover concurrency", "statement": "In every interleaving of application code, including create and purge_backend, the loaded backends never contain a namespace twice, and the calls any one coroutine makes are calls it could make on its own against an arbitrarily changing environment with distinct backends.", "quantifier": "all pools of application code, all interleavings", "why_tests_cant": "schedules x programs", "anchors": ["omemo/session_manager.py:SessionManager.create", "omemo/session_manager.py:SessionManager.purge_backend"]}
{"id": "C75", "title": "No recipient is dropped even if a backend is purged meanwhile", "statement": "If encrypt returns without an error while purge_backend runs concurrently, every requested account was still encrypted for.", "quantifier": "all asyncio schedules of encrypt and purge_backend", "why_tests_cant": "schedules x states", "anchors": ["omemo/session_manager.py:SessionManager.encrypt", "omemo/session_manager.py:SessionManager.purge_backend"]}
{"id": "C76", "title": "Sessions are continued, and everyone gets the key material of the content", "statement": "encrypt builds a new session only for a device for which the backend returned no session, otherwise continues exactly the session loaded for that device; the key material it encrypts is the one the caller's plaintext of that namespace was encrypted with in this call.", "quantifier": "all states, recipients, plaintexts and concurrent activity", "why_tests_cant": "states x schedules", "anchors": ["omemo/session_manager.py:SessionManager.encrypt"]}
{"id": "C77", "title": "Concurrent decrypts do not overfill the pre keys", "statement": "With several decrypts of key exchanges running concurrently, the number of visible pre keys never exceeds 100.", "quantifier": "all schedules of concurrent decrypts", "why_tests_cant": "schedules", "anchors": ["omemo/session_manager.py:SessionManager.decrypt"]}
{"id": "C78", "title": "Concurrent decrypts during history sync queue all their devices", "statement": "When several messages are decrypted concurrently during history synchronization, each device that is due an empty message is in the queue afterwards.", "quantifier": "all schedules of concurrent decrypts", "why_tests_cant": "schedules", "anchors": ["omemo/session_manager.py:SessionManager.decrypt"]}
{"id": "C79", "title": "Concurrent device list updates keep the records complete", "statement": "When device lists of one account for different namespaces are processed concurrently, the records of every device afterwards name all the namespaces it was listed for, with activity information for each, as if the updates had run one after the other.", "quantifier": "all pairs of updates, all interleavings at await points", "why_tests_cant": "needs one particular interleaving of the storage operations of two coroutines", "anchors": ["omemo/session_manager.py:SessionManager.update_device_list"]}
{"id": "C80", "title": "Calls fail only when something outside fails", "statement": "After any history of calls, failures, crashes and restarts, a call to update or refresh the device list of a loaded backend, to query device information, set trust or label, purge a backend or an account, check data consistency, read chain lengths or create the manager with valid arguments returns normally whenever no storage, backend or network operation it makes raises; bundles that cannot be downloaded do not make these calls fail.", "quantifier": "all lives of a storage, all calls of these kinds with all arguments, all behaviours of storage, backends and network without failures during the call", "why_tests_cant": "needs every storage content a history with crashes can leave behind", "anchors": ["omemo/session_manager.py:SessionManager.get_device_information", "omemo/session_manager.py:SessionManager.update_device_list", "omemo/session_manager.py:SessionManager.create", "omemo/session_manager.py:SessionManager.purge_backend"]}
{"id": "C81", "title": "Which exceptions leave the library", "statement": "On the storages of a life, every exception a call of the session manager raises is an OMEMOException or the cancellation of the task, except: ValueError of create for duplicate namespaces or a refill threshold outside 25 to 99, RuntimeError of replace_sessions for a device the device information does not contain, KeyError of encrypt when a namespace of the priority order has no plaintext, and TypeError of decrypt and after_history_sync from the message queue.", "quantifier": "all lives of a storage, all calls with all arguments, all behaviours of storage, backends, network and trust decisions", "why_tests_cant": "one would have to provoke every failure at every operation on every reachable storage content", "anchors": ["omemo/types.py:OMEMOException", "omemo/session_manager.py:SessionManager"]}
{"id": "C82", "title": "Uploaded bundles carry pre keys", "statement": "Every bundle create uploads was fetched right before from one of the given backends for the own account, and by then either the first 100 pre keys of that backend had been generated during this create, or its visible pre keys had just been counted and, if they were at or below the refill threshold, refilled to 100.", "quantifier": "all arguments, all states of storage and backends, all interruption points", "why_tests_cant": "all server and backend behaviours and every failure point", "anchors": ["omemo/session_manager.py:SessionManager.create"]}
{"id": "C83", "title": "Calls that touch different things do not interfere", "statement": "Whatever the interleaving, a coroutine whose calls concern other accounts, queues and key pairs than the calls of all other coroutines behaves as if it ran alone from the same storage: same results, exceptions and calls to the outside, and the data it touches ends up the same; provided that the others neither load nor unload backends, and do not switch the history synchronization mode if it decrypts.", "quantifier": "all pools of coroutines, all interleavings, all states, answers and failures", "why_tests_cant": "schedules x states", "anchors": ["omemo/session_manager.py:SessionManager", "omemo/identity_key_pair.py:IdentityKeyPair.get"]}
{"id": "C84", "title": "Changed pre keys are published", "statement": "When a call of the library returns normally, then after the last time it rotated a signed pre key or generated, hid or deleted pre keys of a backend it fetched the bundle of this backend and uploaded it successfully.", "quantifier": "all calls except the endless rotation task (C57), all states, answers and concurrent activity; for create, all executions without concurrent activity", "why_tests_cant": "all server and backend behaviours, states and schedules", "anchors": ["omemo/session_manager.py:SessionManager.create", "omemo/session_manager.py:SessionManager.decrypt", "omemo/session_manager.py:SessionManager.ensure_data_consistency"]}
{"id": "C85", "title": "Uploaded bundles are up to date", "statement": "Whenever the library uploads a bundle, the pre keys of its backend have not been changed by the library since the bundle was fetched.", "quantifier": "all calls, states, answers, interruption points and interleavings", "why_tests_cant": "schedules x states: a decrypt and the rotation task both publish bundles", "anchors": ["omemo/session_manager.py:SessionManager.decrypt", "omemo/session_manager.py:SessionManager.ensure_data_consistency", "omemo/session_manager.py:SessionManager.create"]}
{"id": "C86", "title": "Only documented exceptions", "statement": "If the methods implemented by storage, backends and application raise only the exceptions in their documentation (and the network methods know the namespaces they are asked for), every library exception raised by a public method other than decrypt is listed in the Raises section of that method (or is a StorageException). encrypt never raises KeyExchangeFailed.", "quantifier": "all public methods but decrypt, all arguments, all storage contents, all answers, all concurrent activity that does not unload backends", "why_tests_cant": "every failure of every operation at every point of every flow", "anchors": ["omemo/session_manager.py:SessionManager.create", "omemo/session_manager.py:SessionManager.encrypt", "omemo/session_manager.py:SessionManager.purge_backend", "omemo/session_manager.py:SessionManager.ensure_data_consistency", "omemo/session_manager.py:SessionManager.refresh_device_lists"]}
{"id": "C87", "title": "Only documented exceptions: decrypt, and namespaces not loaded", "statement": "decrypt raises only the exceptions in its documentation, and public methods raise only documented ones even if the network methods reject the namespaces of backends that are not loaded, as their documentation allows.", "quantifier": "all messages, arguments, storage contents and answers", "why_tests_cant": "every failure of every operation at every point of every flow", "anchors": ["omemo/session_manager.py:SessionManager.decrypt", "omemo/session_manager.py:SessionManager.get_device_information", "omemo/session_manager.py:SessionManager.purge_backend", "omemo/session_manager.py:SessionManager.create"]}
{"id": "C88", "title": "What is sent is what is read", "statement": "If the cryptography of the two backends fits together, a device that decrypts a message returned by encrypt gets the plaintext given to encrypt for the namespace of the message, the key material returned by encrypt, and the information about the sending device. Messages sent by the library itself come from this device, are empty and have one recipient; who decrypts them gets no plaintext.", "quantifier": "all accounts, recipients, plaintexts, storage contents, sessions and answers at both ends, all concurrent activity", "why_tests_cant": "the two ends are separate processes with independent states and environments", "anchors": ["omemo/session_manager.py:SessionManager.encrypt", "omemo/session_manager.py:SessionManager.decrypt", "omemo/session_manager.py:SessionManager.__send_empty_message", "omemo/session_manager.py:SessionManager.replace_sessions"]}
{"id": "C89", "title": "Messages arrive unless there is a reason", "statement": "If nothing outside the library fails during the call, decrypt fails only because the namespace is not loaded, the message is not for this device, the sending device is unknown or without key even after the device list was downloaded, the device is distrusted, the backend has no session although the message needs one, the identity key of the key exchange is not the one on record, or (during history synchronization) the stored queue was damaged by others. So a message for this device from a known device with the right key is decrypted.", "quantifier": "all messages, storages that lives with failures, crashes and restarts produce, all answers from outside", "why_tests_cant": "states after failures and crashes, all answers; absence of further failure causes", "anchors": ["omemo/session_manager.py:SessionManager.decrypt", "omemo/session_manager.py:SessionManager.get_device_information", "omemo/session_manager.py:SessionManager.refresh_device_list"]}
{"id": "C90", "title": "Messages are sent unless there is a reason", "statement": "If nothing outside the library fails during the call (bundles may be missing), encrypt fails only because the priority order names a backend that is not loaded, a plaintext is missing, a requested device is still undecided after the callback, the callback fails, or some recipient has no device left: each of its reachable devices is not trusted or its bundle cannot be downloaded. What is reported for a device is the exception of the call that failed for this device, and only trusted devices are reported.", "quantifier": "all recipients, plaintexts, priority orders, callbacks, storages that lives with failures, crashes and restarts produce, all answers from outside; the reports also under any concurrent activity", "why_tests_cant": "states after failures and crashes, all answers; absence of further failure causes", "anchors": ["omemo/session_manager.py:SessionManager.encrypt", "omemo/session_manager.py:SessionManager.get_device_information"]}
{"id": "C91", "title": "Session states are not used again", "statement": "If the sessions of the backends are ratchets (encrypting makes a session older, a session built anew is different from all stored before, loading gives what was stored last), then once encrypt has returned a message, or another call that sent empty messages has returned, nothing that starts later encrypts with the session states used for these messages: not concurrently running calls, not calls that fail, not after crashes, restarts or purges.", "quantifier": "all states, calls and arguments, all answers of backends that are ratchets, all programs using the library later, all interleavings, failures, crash points and numbers of restarts", "why_tests_cant": "unbounded later histories with interleavings and crashes; absence of reuse", "anchors": ["omemo/session_manager.py:SessionManager.encrypt", "omemo/session_manager.py:SessionManager.__send_empty_message", "omemo/session_manager.py:SessionManager.decrypt", "omemo/session_manager.py:SessionManager.after_history_sync", "omemo/session_manager.py:SessionManager.replace_sessions"]}
{"id": "C92", "title": "Manual trust decisions win over blind trust", "statement": "With the BTBV session manager, once the user has decided about the trust of a device of an account (TRUSTED or DISTRUSTED), no identity key of that account becomes blindly trusted any more: every trust level of the account stays as it was or is set to another manual level by the application, whatever calls run, fail, overlap or are cut off afterwards.", "quantifier": "all storages, applications, prompts, arguments, answers of the environment, interleavings, failures, crash points and numbers of restarts", "why_tests_cant": "unbounded later histories with interleavings; the decision logic runs between suspension points of encrypt", "anchors": ["examples/btbv_session_manager.py:BTBVSessionManager._make_trust_decision", "omemo/session_manager.py:SessionManager.set_trust", "omemo/session_manager.py:SessionManager.encrypt", "omemo/session_manager.py:SessionManager.update_device_list"]}
{"id": "C93", "title": "Distrusted devices are left alone", "statement": "Once a trust level that means distrust is stored for the identity key of a device, no later call encrypts anything for the device, builds a session with it or decrypts anything from it, and the decision stays in force, until the application takes it back: by another level, by purging the account, or by replacing the sessions with this very device.", "quantifier": "all storages, applications, trust decision callbacks, arguments, answers of the environment, interleavings, failures, crash points and numbers of restarts", "why_tests_cant": "a negative statement over unbounded later histories of every public call with interleavings, failures and restarts", "anchors": ["omemo/session_manager.py:SessionManager.set_trust", "omemo/session_manager.py:SessionManager.encrypt", "omemo/session_manager.py:SessionManager.decrypt", "omemo/session_manager.py:SessionManager.after_history_sync", "omemo/session_manager.py:SessionManager.replace_sessions"]}
{"id": "C94", "title": "What the library hands out has a source", "statement": "Whatever runs concurrently or fails, the library sends messages of its own accord only in the name of this device, with the content of an empty message it had encrypted before and the key of that content encrypted for one session of the recipient; the sessions it stores came out of cryptography, those it encrypts with were loaded from the backend or just used to decrypt; the bundles it builds sessions from were downloaded, those it uploads came from the backend; device lists it uploads differ from a downloaded or given one in at most one device; the number of pre keys it generates is 100 or 100 minus a count reported by the backend.", "quantifier": "all applications, trust decision callbacks, arguments, worlds, answers of the environment, interleavings, failures and crash points", "why_tests_cant": "a statement about every call to backends and network in every interleaving and every partial execution", "anchors": ["omemo/session_manager.py:SessionManager.encrypt", "omemo/session_manager.py:SessionManager.decrypt", "omemo/session_manager.py:SessionManager.replace_sessions", "omemo/session_manager.py:SessionManager.after_history_sync", "omemo/session_manager.py:SessionManager.update_device_list", "omemo/session_manager.py:SessionManager.ensure_data_consistency"]}
{"id": "C95", "title": "A trust decision is seen by every later call", "statement": "After set_trust has returned, every get_device_information (and therefore encrypt) call that starts later reports the new trust level for the identity key until another decision about that key is made, whatever other coroutines and later processes do, on storages with and without the cache.", "quantifier": "all storages, applications, trust decision callbacks, interleavings, crash points and restarts", "why_tests_cant": "a statement about every schedule of coroutines around the cache operations; on a single schedule the cache looks correct", "anchors": ["omemo/storage.py:Storage.load", "omemo/storage.py:Storage.store", "omemo/session_manager.py:SessionManager.set_trust", "omemo/session_manager.py:SessionManager.get_device_information", "omemo/session_manager.py:SessionManager.encrypt"]}
{"id": "C96", "title": "Coroutines without races do not notice the cache", "statement": "If a key of the storage that one coroutine writes is not used by any other, then whatever the coroutines do on the storage with its cache, under any interleaving of the accesses to the cache and to the underlying storage and any storage failures, they also do on a storage without cache, with the same results and the same contents; when all are done, the cache agrees with the underlying storage. In particular any number of lookups, encryptions and decryptions may run at once for accounts whose devices are completely recorded, next to calls that change other accounts.", "quantifier": "all coroutines, keys, values, calls, accounts, interleavings of cache and storage accesses, and storage failures", "why_tests_cant": "a statement about every interleaving at the granularity of single cache and storage accesses; the cache is wrong under some interleavings (C04, C95), so that it is right for these programs needs an argument about all of them", "anchors": ["omemo/storage.py:Storage.load", "omemo/storage.py:Storage.store", "omemo/storage.py:Storage.delete", "omemo/session_manager.py:SessionManager.get_device_information", "omemo/session_manager.py:SessionManager.encrypt", "omemo/session_manager.py:SessionManager.decrypt"]}
{"id": "C97", "title": "Calls tell the network only what they must", "statement": "Everything that reaches the network in any execution is something one of the calls made by the application may say: set_trust, purge_bare_jid, get_sending_chain_length, before_history_sync and the identity key pair say nothing; looking up devices and encrypt only download bundles of the accounts concerned and of the own account; decrypt asks about and writes to the sender only, publishes only the bundle of this device for the backend of the message; device list uploads happen only for the own account; purge_backend removes only the own bundle of that backend; accounts that no call is about are not asked about and not written to.", "quantifier": "all applications, trust decision callbacks, arguments, worlds, answers of the environment within the contract, interleavings and failures", "why_tests_cant": "a statement that something never happens, in every interleaving and after every failure; tests observe the traffic of single runs", "anchors": ["omemo/session_manager.py:SessionManager.encrypt", "omemo/session_manager.py:SessionManager.decrypt", "omemo/session_manager.py:SessionManager.update_device_list", "omemo/session_manager.py:SessionManager.purge_backend", "omemo/session_manager.py:SessionManager.replace_sessions", "omemo/session_manager.py:SessionManager.get_device_information", "omemo/session_manager.py:SessionManager.ensure_data_consistency"]}
{"id": "C98", "title": "Bundles and device lists are not downloaded needlessly", "statement": "Once the identity key of a device is recorded, its bundle is downloaded only by encrypt, and there only after a session of that namespace was looked up and not found; the only other downloads are those of replace_sessions for that device and of ensure_data_consistency for the own device. decrypt downloads a device list only if the sending device is not known. Within one call of encrypt a bundle that was received is not downloaded again.", "quantifier": "all calls, arguments, worlds, answers of the environment, interleavings (the statement about decrypt: one call, at every moment; the last one: one call of encrypt among arbitrary other coroutines, at every moment) and failures", "why_tests_cant": "a statement that something never happens, in every interleaving and after every failure; superfluous traffic does not change results and goes unnoticed", "anchors": ["omemo/session_manager.py:SessionManager.get_device_information", "omemo/session_manager.py:SessionManager.encrypt", "omemo/session_manager.py:SessionManager.decrypt", "omemo/session_manager.py:SessionManager.replace_sessions", "omemo/session_manager.py:SessionManager.ensure_data_consistency"]}
{"id": "C99", "title": "What the storage says has a source", "statement": "At every moment, every identity key recorded for a device is in a bundle downloaded for exactly that account and device id, or is the library's own public key under its own account. Every recorded device, its namespaces, its activity and its label of a foreign account come from device lists of that account and that namespace which were downloaded or given to update_device_list. Every stored trust level was set by set_trust for that account and key (or is the undecided level create stores for the own key). What the library says about devices, to evaluate_custom_trust_level and as the result of get_device_information, has such a source as well.", "quantifier": "all calls, arguments, device lists, bundles, worlds, answers of the environment, interleavings, failures and moments, and all later processes over the same storage (the statement about the result of get_device_information: one call by itself)", "why_tests_cant": "a provenance invariant over every interleaving and failure; a mixed-up account, device or namespace shows only with particular data and schedules", "anchors": ["omemo/session_manager.py:SessionManager.update_device_list", "omemo/session_manager.py:SessionManager.get_device_information", "omemo/session_manager.py:SessionManager.set_trust", "omemo/session_manager.py:SessionManager.create", "omemo/session_manager.py:SessionManager.set_own_label"]}
{"id": "C100", "title": "A purged account starts over", "statement": "After purge_bare_jid has returned, everything the library knows about the account has come since: recorded identity keys are from bundles downloaded since, devices with namespaces, activity and labels are from device lists downloaded or given since, and trust levels were set since (or were there before for keys which no listed device had). Devices of the account that are judged are undecided unless such a level is stored.", "quantifier": "all accounts other than the own one, all storages in which only listed devices of the account have records, all calls made afterwards, arguments, answers of the environment, interleavings, failures and moments", "why_tests_cant": "a statement about every interleaving of all calls made afterwards: nothing may bring back what was deleted", "anchors": ["omemo/session_manager.py:SessionManager.purge_bare_jid", "omemo/session_manager.py:SessionManager.update_device_list", "omemo/session_manager.py:SessionManager.get_device_information", "omemo/session_manager.py:SessionManager.set_trust"]}
{"id": "C101", "title": "A failing storage operation or a cancellation ends a call", "statement": "Once an operation of the storage raises an exception, or the task running the call is cancelled, a call to the library performs no further operation and raises exactly that exception: no exception handler of the library swallows or replaces it or goes on working. Consequently, with a storage without cache, a write that raises although it took effect leads to nothing but what a crash right after the successful write leads to, also with other coroutines running.", "quantifier": "every function of the session manager, all arguments, all answers of storage, backends, network and callbacks; all interleavings for the consequence", "why_tests_cant": "There are hundreds of places where an operation can fail; tests inject failures at a few of them.", "anchors": ["omemo/session_manager.py", "omemo/storage.py:Storage.store"]}
{"id": "C102", "title": "Only the failures a call is written for are handled", "statement": "Every exception raised by the storage, a backend, the network or a callback ends the call at once and leaves it unchanged, except for these: get_device_information (and the calls using it) skips bundles that cannot be downloaded or found; ensure_data_consistency uploads the bundle then; the rotation retries an upload that failed with BundleUploadFailed; encrypt reports a recipient whose bundle cannot be downloaded or found or whose key exchange fails; replace_sessions reports any library exception of building, sending or storing the new session. All other calls handle no failure at all.", "quantifier": "every function of the session manager, all arguments, all answers of storage, backends, network and callbacks", "why_tests_cant": "Each of dozens of operations can raise dozens of exceptions; tests try a few combinations.", "anchors": ["omemo/session_manager.py"]}
{"id": "C103", "title": "The cache agrees with the storage after writes that raised", "statement": "Whether or not a write that raised an exception (a storage failure, or the cancellation of the task) took effect, what Storage has cached is what the storage holds, so that what is loaded does not change by restarting the process.", "quantifier": "all programs on Storage, all failures, all choices which failing writes took effect", "why_tests_cant": "The cache and the storage disagree only after a write was interrupted between being performed and being cached.", "anchors": ["omemo/storage.py:Storage.store", "omemo/storage.py:Storage.delete"]}
{"id": "C104", "title": "A trust decision about everyone is enough", "statement": "If the application evaluates trust levels by their names and its trust decision leaves none of the devices it was asked about undecided (and makes no other undecided), encrypt never raises StillUndecided. The decision in the tests is of this kind, and so is blind trust before verification whenever its manual prompt is. When it does raise StillUndecided, it tells the truth: the level in force of some key of a recipient or of the own account is still undecided.", "quantifier": "all evaluations by name, all decisions, recipients, plaintexts, priorities and states, all answers and failures of the storage, network and backends; one call at a time", "why_tests_cant": "Devices share keys, levels are reloaded after the decision and evaluated again; tests use one decision and a few devices.", "anchors": ["omemo/session_manager.py:SessionManager.encrypt", "examples/btbv_session_manager.py", "tests/session_manager_impl.py"]}
{"id": "C105", "title": "Device lists of the application are not modified", "statement": "The dictionaries the application returns from _download_device_list or passes to update_device_list are left as they are, and what the application does with dictionaries it was given does not disturb a running call.", "quantifier": "all device lists, all sharing of dictionary objects by the application, all answers and failures of the storage and the network", "why_tests_cant": "The tests' application stores and returns the very dictionary it was given, so an in-place change looks like a successful upload; the disturbance needs two tasks and a switch at one particular await.", "anchors": ["omemo/session_manager.py:SessionManager.set_own_label", "omemo/session_manager.py:SessionManager.purge_backend", "omemo/session_manager.py:SessionManager.update_device_list", "tests/session_manager_impl.py"]}
