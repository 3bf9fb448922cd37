# Formal model of cloud-storage-signature (Rocq / Coq 8.16.1)

Build: `cd rocq && coq_makefile -f _CoqProject -o Makefile && make -j4` (about five minutes). The last
file, `Assumptions.v`, prints the axioms of every claimed theorem.

## Approach

* Rust `String`, `&str` and `&[u8]` are lists of bytes (`list byte`). UTF-8 validity is a boolean
  predicate, used where the code decodes bytes to text. A Rust `String` is always valid UTF-8; theorems
  that need this say so, all others hold for arbitrary bytes.
* Pure functions are total Gallina functions. `Result` and `Option` are data. A panic (`expect`,
  `todo!`, overflow) is an explicit outcome.
* `async` functions are programs in a free monad (`prog`, Effects.v) over six effects: read the clock,
  one HTTP exchange, lock, unlock, read cache, write cache. A program has two interpretations:
  `steps`/`returns`/`panics` (one call against an arbitrary environment) and `cstep`/`runs` (any number
  of calls, interleaved, with cancellation and panics, Conc.v).
* What the repository does not determine is a field of the record `deps` (Keys.v). Every theorem
  quantifies over it, most under `deps_ok`, the only assumption about it.
* Specifications are in `Spec*.v`. They are relations or small functions independent of the model:
  a calendar counted day by day, a JSON grammar, bit-level base64, hex and SHA-256, percent-decoding and form
  reading, the canonical request, a policy verifier, a verifying server, the trace of a token lookup.
* `*Facts.v` connect model and specification. `Prop_*.v` state the properties; beside every theorem an
  `Example` shows a concrete case that meets its hypotheses.
* `Conformance.v` evaluates the model on the expectations of the repository's own tests. These are tests
  of the model, not proofs of properties.
* A property titled "(refutation)" is false in full generality. Its theorem `.._refuted` denies the
  full statement with a witness; the other theorems prove the strongest restricted form.

## Files

| model | code |
|---|---|
| Base.v, Utf8.v | byte strings, ordering, decimal numbers, `String::from_utf8` and lossy decoding |
| Time.v | `SystemTime`, chrono, utils/unix_timestamp.rs, date.rs, active_datetime.rs, expiration.rs |
| Base64.v, Sha256.v | base64 `STANDARD`, sha256 `digest`, `hex_encode` of html_form_data.rs / signed_url.rs |
| Json.v, JsonTree.v | serde_json reader and writer |
| Policy.v | policy_document.rs, policy_document/{condition,expiration,field,value}.rs |
| Scope.v | credential_scope.rs, location.rs, service.rs, request_type.rs |
| Effects.v | the effects of `async` functions |
| Keys.v | signing_key.rs, signing_key_inner.rs, signing_algorithm.rs, bound_token.rs |
| FormUrl.v, Url.v | percent-encoding, form_urlencoded, url, http `Uri` |
| SignedUrl.v | src/signed_url.rs, private/signed_url.rs, canonical_request.rs, string_to_sign.rs, http_verb.rs |
| HtmlForm.v | html_form_data.rs |
| Calls.v, Conc.v | calls of the two public operations, and many of them at once |
| Fifo.v | the same with the queue of tokio's mutex |
| Messages.v | `Display` and `source` of the error types |
| Rsa.v | `pem::parse`, `RsaKeyPair::from_pkcs8` and `sign` as signing_key_inner.rs uses them |
| SpecUpload.v | the storage service that checks POST forms, and browsers: specification, no code |
| SpecPath.v | the path that the URL standard gives a name: specification, no code |
| SpecName.v | names that library and server write alike: specification, no code |
| SpecParameter.v | query parameters that library and server write alike: specification, no code |
| Page.v | examples/image-uploader: index.html, axum's routes, request bodies and responses |
| SpecPage.v | requests that reach handlers, visits of the page, what is shown: specification, no code |
| SpecExact.v | the options whose URLs a server accepts: specification, no code |
| Multipart.v | examples/image-uploader/index.html: the octets of the upload |
| SpecMultipart.v | how a service reads the octets of an upload: specification, no code |
| Login.v | user names and passwords in the URLs of requests (url, reqwest) |
| SpecLogin.v | what an authority says, and the header for it: specification, no code |
| SpecFormExact.v | what decides whether a form is accepted: specification, no code |
| SpecRequestUrl.v | the text of the request URL: specification, no code |
| SpecHostFree.v | executions that differ in the metadata host only: specification, no code |
| SpecHostHistory.v | the same for concurrent histories: specification, no code |
| SpecRate.v | how often tokens are fetched: specification, no code |
| SpecRecovery.v | a past that spoils nothing, servers that answer well from now on: specification, no code |
| SpecChange.v | accounts that change, an entry put into the cache during a call: specification, no code |
| SpecAgree.v | requests for the same thing, keys of the same account: specification, no code |
| SpecAddress.v | reachable objects and parameters: specification, no code |
| SpecPlatform.v | metadata server and signBlob that do their work, in a history: specification, no code |
| Redirect.v | one `Client::execute` with its redirects |

## Properties

| id | property | modelled code | proof | theorems (file) |
|---|---|---|---|---|
| C01 | Unsigned form output is exactly the fields that were set | builder methods, `build`, `into_vec` (HtmlForm.v) | induction over the call history; case analysis over the fields | `C01_unsigned_build` (Prop_Form.v) |
| C02 | Signed form output: names, order and values | `build` with signing options (HtmlForm.v) | symbolic execution of the program; history lemmas of C01 | `C02_signed_fields` (Prop_Form.v) |
| C03 | The policy covers every form field and nothing else | condition list, policy JSON (HtmlForm.v, Policy.v, Json.v) | the JSON printer is inverted by a JSON grammar (SpecJson.v); conditions compared with the fields | `C03_policy_covers` (Prop_Form.v) |
| C04 | The policy expiration is the requested one, never later | `Expiration`, `UnixTimestamp` (Time.v) | calendar correctness (C41) and the floor of nanoseconds | `C04_expiration` (Prop_Form.v) |
| C05 | A form policy is only issued for a non-empty validity window | window check of `build_policy_and_x_goog_signature` | symbolic execution; arithmetic | `C05_window`, `C05_empty_window` (Prop_Form.v) |
| C06 | The form signature is over exactly the emitted policy bytes | `sign`, base64, hex (Keys.v, Base64.v) | symbolic execution; codec inverses | `C06_signature` (Prop_Form.v) |
| C07 | Form credential and date describe the same UTC instant and the signer | credential scope and dates (Scope.v, Time.v) | text lemmas over the calendar specification | `C07_credential` (Prop_Form.v) |
| C08 | Failing validation of a signed form has a fixed precedence and no network effect | order of checks in `build` | symbolic execution against an inductive list of violations (SpecForm.v) | `C08_precedence`, `C08_errors` (Prop_Form.v) |
| C09 | Signed-form panics are exactly characterised | panics as outcomes of the program | symbolic execution; every `Panic` leaf is characterised | `C09_panics`, `C09_no_panic`, `C09_sign_blob_panics` (Prop_Form.v) |
| C10 | A form only verifies for the values that were signed (tamper evidence) | policy verifier as a specification (SpecPolicy.v) | injectivity of JSON and base64 texts | `C10_tamper_evidence` (Prop_Form.v) |
| C11 | X-Goog-Expires is the floor of the requested lifetime and bounded by seven days | `build_signed_url`: lifetime | symbolic execution; arithmetic | `C11_expires`, `C11_rejected` (Prop_Url.v) |
| C12 | Shape of the signed URL | `SignedUrl::new` | symbolic execution; unique decomposition of the text | `C12_shape`, `C12_origin` (Prop_Url.v) |
| C13 | What is signed is what is sent | canonical request, string to sign (SignedUrl.v, Sha256.v) | symbolic execution against the canonical request specification (SpecUrl.v) | `C13_signed_message` (Prop_Url.v) |
| C14 | The URL path denotes the requested object | `Url::parse` path handling (Url.v) | induction over segments; percent-encoding inverses; witnesses for the refutation | `C14_path`, `C14_plain_path` (Prop_UrlPath.v) |
| C15 | Object names with '#', '?', '%' or dot segments are not escaped (refutation) | `Url::parse` path handling (Url.v) | induction over segments; percent-encoding inverses; witnesses for the refutation | `C15_refuted`, `C15_witnesses`, `C15_cut` (Prop_UrlPath.v) |
| C16 | Query parameters survive the round trip | form_urlencoded (FormUrl.v), canonical query | encode/decode inverses over the sorted list; witness for the refutation | `C16_round_trip` (Prop_UrlQuery.v) |
| C17 | Query parameters containing %HH are altered (refutation) | form_urlencoded (FormUrl.v), canonical query | encode/decode inverses over the sorted list; witness for the refutation | `C17_refuted`, `C17_read` (Prop_UrlQuery.v) |
| C18 | Canonical query string is order independent and sorted as text | canonical query string, sort | permutation and sortedness of the merge sort; witness for the refutation | `C18_permutation`, `C18_sorted` (Prop_UrlQuery.v) |
| C19 | Canonical query string is not always sorted by parameter name (refutation) | canonical query string, sort | permutation and sortedness of the merge sort; witness for the refutation | `C19_refuted`, `C19_names` (Prop_UrlQuery.v) |
| C20 | Canonical headers and signed headers | header map, canonical headers | ordered-set induction; quantified over the iteration order of `HeaderMap` | `C20_headers`, `C20_names`, `C20_rearranged` (Prop_UrlHeaders.v) |
| C21 | Invalid headers are rejected, so header text cannot inject lines | header conversion in `build_signed_url` | character classes; symbolic execution | `C21_accepted`, `C21_rejected`, `C21_lines` (Prop_UrlHeaders.v) |
| C22 | The signed message binds verb, path, query and headers | canonical request, string to sign | unique decomposition of the two texts; collisions are an explicit alternative | `C22_binding` (Prop_UrlHeaders.v) |
| C23 | HTTP method validation | `HttpVerb` (SignedUrl.v) | case analysis; symbolic execution | `C23_method`, `C23_signed` (Prop_Url.v) |
| C24 | X-Goog-Credential and X-Goog-Date of a signed URL | credential scope in the URL | text lemmas; witness for the refutation | `C24_credential` (Prop_UrlScope.v) |
| C25 | Region is not validated (refutation) | credential scope in the URL | text lemmas; witness for the refutation | `C25_refuted`, `C25_components`, `C25_four` (Prop_UrlScope.v) |
| C26 | Reserved query parameters are not rejected (refutation) | parameters of the URL | counting occurrences over the permutation; witnesses | `C26_refuted`, `C26_witnesses`, `C26_once` (Prop_UrlScope.v) |
| C27 | Signed URL panics are characterised | panics of `build_signed_url`, `http::Uri` limits (Url.v) | symbolic execution; length arithmetic | `C27_local`, `C27_unimplemented`, `C27_uri_panics` (Prop_Url.v) |
| C28 | Signed URL validation happens before any network request, with fixed precedence | order of checks in `build_signed_url` | symbolic execution against an inductive list of violations (SpecUrl.v) | `C28_first_violation`, `C28_complete`, `C28_reported` (Prop_Url.v) |
| C29 | Signing with a local key is a pure function of the options | both operations as programs (Calls.v) | trace analysis of programs | `C29_pure` (Prop_Keys.v) |
| C30 | The default accessible_at is a single clock reading | both operations as programs (Calls.v) | trace analysis of programs | `C30_single_reading`, `C30_no_other_reading` (Prop_Keys.v) |
| C31 | A cached bound token is used only with more than 30 seconds left | `get_email_and_token` (Keys.v) | trace specification of a lookup (SpecToken.v) by symbolic execution | `C31_token_use`, `C31_lookup`, `C31_fresh` (Prop_Keys.v) |
| C32 | The cached email and token come from one successful refresh | interleaving semantics (Conc.v) | invariants over all reachable configurations; a lock discipline checked once for every program (Discipline.v, Obeys.v) | `C32_cache`, `C32_read` (Prop_Conc.v) |
| C33 | Failed refreshes change nothing and serve nothing stale | `get_email_and_token` (Keys.v) | trace specification of a lookup (SpecToken.v) by symbolic execution | `C33_failed_response`, `C33_lookup` (Prop_Keys.v) |
| C34 | Metadata refreshes of one key never overlap | interleaving semantics (Conc.v) | invariants over all reachable configurations; a lock discipline checked once for every program (Discipline.v, Obeys.v) | `C34_one`, `C34_no_overlap` (Prop_Conc.v) |
| C35 | One refresh serves all concurrent operations | interleaving semantics (Conc.v) | invariants over all reachable configurations; a lock discipline checked once for every program (Discipline.v, Obeys.v) | `C35_serves` (Prop_Conc.v) |
| C36 | No lost lock: a waiting operation is never blocked by a finished, failed, cancelled or panicked one | interleaving semantics (Conc.v) | invariants over all reachable configurations; a lock discipline checked once for every program (Discipline.v, Obeys.v) | `C36_lock`, `C36_progress`, `C36_bound`, `C36_total`, `C36_completes` (Prop_Conc.v) |
| C37 | signBlob request is faithful | `BoundToken::sign` (Keys.v) | symbolic execution; JSON and base64 inverses | `C37_signature`, `C37_requests`, `C31_token_use` (Prop_Keys.v) |
| C38 | The credential email may differ from the signing email (refutation) | two lookups in one call | trace analysis; witness execution | `C38_refuted`, `C38_form`, `C38_url` (Prop_Bound.v) |
| C39 | A hostile expires_in panics (refutation) | `SystemTime + Duration` overflow (Time.v, Keys.v, Conc.v) | trace analysis, configuration invariant; witness execution | `C39_refuted`, `C39_panic_cause`, `C39_no_panic`, `C39_no_panic_form`, `C39_after_panic`, `C39_cache_unchanged` (Prop_Conc.v, Prop_Keys.v) |
| C40 | A bound token never signs locally | `sign` for bound tokens | symbolic execution | `C40_never`, `C40_form`, `C40_url` (Prop_Bound.v) |
| C41 | UTC calendar conversion is correct | chrono conversion and formats (Time.v) | 400-year periodicity and a sweep of one cycle; digit lemmas against a day-by-day calendar (SpecCalendar.v) | `C41_calendar`, `C41_civil` (Prop_Time.v) |
| C42 | Timestamp texts are fixed-width, order preserving and invertible | chrono conversion and formats (Time.v) | 400-year periodicity and a sweep of one cycle; digit lemmas against a day-by-day calendar (SpecCalendar.v) | `C42_texts` (Prop_Time.v) |
| C43 | Timestamp range check | chrono conversion and formats (Time.v) | 400-year periodicity and a sweep of one cycle; digit lemmas against a day-by-day calendar (SpecCalendar.v) | `C43_range`, `C43_bound` (Prop_Time.v) |
| C44 | Date text parsing is not a faithful inverse (refutation) | `TryFrom<&str> for Date` (Time.v) | digit lemmas; witnesses | `C44_not_a_date_refuted`, `C44_roundtrip_refuted`, `C44_digits`, `C44_rendered` (Prop_Time.v) |
| C45 | Policy documents survive serialisation | serde_json writer and reader (Json.v, Policy.v) | print/parse inversion by induction on trees | `C45_roundtrip` (Prop_Policy.v) |
| C46 | JSON writing is injective and valid for all strings | serde_json writer and reader (Json.v, Policy.v) | print/parse inversion by induction on trees | `C46_policy_text`, `C46_policy_injective`, `C46_payload_text` (Prop_Policy.v) |
| C47 | Field names parse and print consistently | `Field` (Policy.v) | case analysis over the names | `C47_field_names`, `C47_field_injective` (Prop_Policy.v) |
| C48 | Service account JSON loading | `service_account_from_str` (Keys.v, Json.v) | reader against a JSON grammar with duplicate members | `C48_success`, `C48_errors`, `C48_key` (Prop_ServiceAccount.v) |
| C49 | Hex and base64 encodings are lossless | hex and base64 (Base64.v) | against bit-level specifications (SpecCodec.v) | `C49_hex`, `C49_base64`, `C49_base64_decode`, `C49_base64_alphabet` (Prop_Codec.v) |
| C50 | Credential scope accepts only matching service and request type | `CredentialScope` (Scope.v) | case analysis; unique decomposition | `C50_new`, `C50_text`, `C50_injective` (Prop_Scope.v) |
| C51 | The emitted URL is not always a legal URI (refutation) | everything that reaches the URL text | character classes of every part | `C51_refuted`, `C51_characters`, `C51_copied` (Prop_UrlPath.v) |
| C52 | Repeated metadata names make the signed form unusable | metadata loop of `build` | against the policy verifier of C10 | `C52_duplicate_names`, `C52_names_distinct` (Prop_Form.v) |
| C53 | The digest in the string to sign is SHA-256 | sha256 crate as a function (Sha256.v) | word operations against a bit-level FIPS 180-4 specification (SpecSha.v); constants from roots of primes by computation | `C53_digest`, `C53_shape`, `C53_function` (Prop_Sha.v) |
| C54 | A portable signed URL is accepted by every conforming server | everything of C13 against a server (SpecServer.v) | the server rebuilds the signed canonical request: encodings agree on portable characters, order by name agrees with order by text | `C54_accepted`, `C54_unportable` (Prop_Server.v) |
| C55 | A signature authorizes nothing but the signed request | as C54 | unique decomposition of message and canonical request, read back through the server | `C55_bound`, `C55_expired` (Prop_Server.v) |
| C56 | Secrets do not influence anything but the authorization header | `run_call` as a program of effects (Effects.v, Keys.v, Calls.v) | relation between two executions (SpecSecret.v), induction on the trace | `C56_secrets`, `C56_destination` (Prop_Secret.v) |
| C57 | Which requests a call makes | as C56 | shape of the trace of each part of a call (SpecRequests.v) | `C57_requests`, `C57_bound`, `C57_success` (Prop_Requests.v) |
| C58 | Which texts are read as policy documents | `Deserialize` of `PolicyDocument`, `Condition`, `Expiration` (Policy.v, Json.v) | reader against the JSON grammar, the field table and the calendar (SpecPolicyText.v) | `C58_read`, `C58_unique`, `C58_value_refuted` (Prop_PolicyText.v) |
| C59 | Which texts are read as RFC 3339 instants | chrono text readers (Time.v) | reader against a grammar over the calendar (SpecTimeText.v), both directions; witnesses | `C59_rfc3339`, `C59_expiration`, `C59_strict`, `C59_rfc3339_only_refuted`, `C59_leap_second_refuted` (Prop_TimeText.v) |
| C60 | Which texts are read as basic-format instants | chrono text readers (Time.v) | reader against a grammar over the calendar (SpecTimeText.v), both directions; witnesses | `C60_basic`, `C60_roundtrip`, `C60_strict_refuted` (Prop_TimeBasic.v) |
| C61 | Key constructors: metadata host and key files | `BoundToken::new`, `SigningKey::bound_token`, `service_account_from_path` (Keys.v), UTF-8 validation (Utf8.v) | UTF-8 validity against the table of characters (SpecUtf8.v), then C48 and C57; witness | `C61_host`, `C61_requests`, `C61_empty_refuted`, `C61_file`, `C61_file_errors`, `C104_host` (Prop_Constructors.v, Prop_HostFree.v) |
| C62 | The possible histories of concurrent calls | Conc.v over `run_call` | configurations against histories (SpecHistory.v), both directions by induction on the history | `C62_histories`, `C62_determined` (Prop_History.v) |
| C63 | Keys do not influence each other | as C62 | the restricted and renumbered history satisfies the conditions of C62 | `C63_independent` (Prop_History.v) |
| C64 | Lookups are atomic | as C62 | induction on the history; an event of a lock holder is moved forward to its previous event, which C62 allows | `C64_serial` (Prop_Serial.v) |
| C65 | Tokio's queued lock behaves as the lock of the model | `tokio::sync::Mutex` as a semaphore with a queue around Conc.v (Fifo.v) | each step of one machine is a step of the other; induction on the history | `C65_refines`, `C65_complete` (Prop_Fifo.v) |
| C66 | The lock of a key is served first come, first served | as C65 | the queue of the machine is the line that can be read off the history (FifoFacts.v); what becomes of that line while a task waits | `C66_order`, `C66_bounded` (Prop_Fifo.v) |
| C67 | No lost wake-up | as C65 | invariant: a free lock has an empty queue; C36 for the tasks that do not wait | `C67_wait`, `C67_progress`, `C67_maximal`, `C67_finite`, `C67_completes` (Prop_Fifo.v) |
| C68 | The uploader's list of images is the list of forms handed out | `create_image`, `list_images`, `update_image` as concurrent handlers over one list (Uploader.v) | invariant over the history of requests and responses (SpecUploader.v) | `C68_images`, `C68_uploaded`, `C68_monotone` (Prop_Uploader.v) |
| C69 | A listing shows the uploaded images of one moment | as C68, with `build_signed_url` | the effects of a listing are those of its links; the theorems on signed URLs for each | `C69_links`, `C69_failure` (Prop_Uploader.v) |
| C70 | A form handed out allows one upload | as C68, with `build` | the fields and the policy from the theorems on forms; unique reading of the policy | `C70_form`, `C70_upload` (Prop_Uploader.v) |
| C71 | The uploader's settings rule out the avoidable failures | `main` up to the router (Uploader.v) | settings against a relation, both directions; outcomes of a handler by induction on its program | `C71_configuration`, `C71_form_errors`, `C71_form_panics`, `C71_links` (Prop_Uploader.v) |
| C72 | The access token goes to the signing service only, whatever the account is called | `Url::parse` of the request texts as reqwest does it (Target.v over Url.v) | the fixed beginning of the text is parsed by computation, the rest by the lemmas on paths; then C57 and C61 for executions; C73_address: the parser agrees with a relation over all texts (SpecAddressText.v), from which the host for every content of the variable follows; witnesses | `C72_server`, `C72_account`, `C72_name`, `C72_every_account`, `C72_every_request`, `C72_account_refuted` (Prop_AccountText.v, Prop_Target.v) |
| C73 | Metadata requests go to the configured host and path | `Url::parse` of the request texts as reqwest does it (Target.v over Url.v) | the fixed beginning of the text is parsed by computation, the rest by the lemmas on paths; then C57 and C61 for executions; C73_address: the parser agrees with a relation over all texts (SpecAddressText.v), from which the host for every content of the variable follows; witnesses | `C73_metadata`, `C73_requests`, `C73_address`, `C73_every_host`, `C73_every_request`, `C73_metadata_refuted` (Prop_AddressText.v, Prop_Target.v) |
| C74 | The policy determines the form | `build` of forms | the fields are a fixed layout around the policy; base64 and the policy text are read back uniquely (C49, C58) | `C74_policy_determines_form` (Prop_Purpose.v) |
| C75 | A signature serves one purpose | `build`, `build_signed_url`, signBlob requests | shape of the request programs; the first bytes of the four kinds of text (SpecPurpose.v) differ | `C75_disjoint`, `C75_requests`, `C75_form`, `C75_url` (Prop_Purpose.v) |
| C76 | The text of an error tells what happened | `Display` and `source` of the error types (Messages.v) | a text is cut at the first fixed beginning that fits, which gives back the error; failing executions from the lemmas behind C31, C33 | `C76_form_distinct`, `C76_url_distinct`, `C76_key_file`, `C76_key_file_refuted`, `C76_report`, `C76_chain`, `C76_chain_refuted`, `C76_sources`, `C76_file_sources` (Prop_Messages.v, Prop_Sources.v) |
| C77 | A request without host header is never signed | `SignedUrl::new` | inversion of the program; C37 for the requests of the lookup | `C77_refused`, `C77_accepted`, `C77_url` (Prop_Host.v) |
| C78 | Redirects do not carry the access token away | redirects of reqwest (Redirect.v), requests of the programs | the messages of one request are a chain of steps; invariants of the headers along it; C72 for the requests | `C78_count`, `C78_led`, `C78_result`, `C78_token`, `C78_hop`, `C78_payload`, `C78_metadata`, `C78_token_refuted`, `C78_plain_refuted`, `C78_payload_refuted`, `C78_source_refuted`, `C78_authority`, `C78_headers`, `C78_content`, `C78_start`, `C78_sign`, `C78_followed`, `C78_kept` (Prop_Redirect.v, Prop_RedirectHeaders.v) |
| C79 | Header values beyond ASCII are refused before anything is signed | `build_signed_url`, `HeaderValue::to_str` | after the lookup the program returns at the canonical headers; a value is converted unless it has such a character | `C79_refused`, `C79_only` (Prop_Ascii.v) |
| C80 | Every failure has the text of its cause | `Display` of the error types (Messages.v) with the programs that fail | case analysis of failing executions (C08, C28, C61, C76, C79) against the tables of SpecTexts.v | `C80_form`, `C80_unsigned`, `C80_url`, `C80_file` (Prop_Texts.v) |
| C81 | A private key's text is read as that key | `pem::parse`, `RsaKeyPair::from_pkcs8` (Rsa.v) | the readers are sound and complete for relations between texts and contents (SpecRsa.v); encodings determine the key | `C81_same`, `C81_contains`, `C81_exact` (Prop_Rsa.v) |
| C82 | Local signatures verify | `RsaKeyPair::sign` (Rsa.v) | ring checks the result against the public key before returning it; the encoded message is the one of RFC 8017 | `C82_any`, `C82_valid`, `C82_strength`, `C82_primes`, `C82_ring` (Prop_Rsa.v) |
| C83 | Sound keys sign every message | the checks of `from_pkcs8`, exponentiation by parts | Fermat and Chinese remainders (NumberFacts.v) show that the check of the result succeeds; sound keys pass the checks on sizes | `C83_signs`, `C83_ring` (Prop_Rsa.v) |
| C84 | Signatures are unique and for one digest | `RsaKeyPair::sign` | the public power is injective below the modulus; the encoded message determines the digest | `C84_unique`, `C84_message`, `C84_only` (Prop_Rsa.v) |
| C85 | Forms and URLs made with a service account verify under its public key | `sign` with the signer of Rsa.v in forms and URLs | C06, C13 and C54 give the signed message and its acceptance; C82 that the signature verifies; C83 excludes signing errors | `C85_form`, `C85_url`, `C85_accepted`, `C85_form_signs`, `C85_url_signs` (Prop_Rsa.v) |
| C86 | Issued forms are accepted until they expire | forms (HtmlForm.v); the service and the browser are specifications (SpecUpload.v) | the facts of C02 to C07 give each check of the service; conversions of line breaks have exactly the plain texts as fixed points | `C86_accepted`, `C86_browser`, `C86_plain` (Prop_Upload.v) |
| C87 | A form gives no more than was issued | forms (HtmlForm.v) | C10 for the fields; time texts are injective; slashes are counted for the account | `C87_only` (Prop_Upload.v) |
| C88 | From the key file to the accepted request | `service_account_from_path`, the signer of Rsa.v, forms and URLs | C61 reads the file, C83 signs, the build then returns (Prop_KeyFile.v), C86 and C54 accept, C84 excludes other signatures | `C88_form`, `C88_url` (Prop_KeyFile.v) |
| C89 | The path of the URL for every bucket and object name | `Url::parse` as used by `build_signed_url` (Url.v); the specification is SpecPath.v | the walk keeps the escaped segments of the directory reached; each cut of the specification is unique; induction on the segments | `C89_path`, `C89_total`, `C89_inside`, `C89_outside`, `C89_escape` (Prop_Path.v) |
| C90 | Which names give URLs that servers accept | `build_signed_url` and servers (SpecServer.v) | a segment is written alike by library and server exactly if it agrees (induction on the text); C54 for acceptance without the condition on names; the signed message determines the path up to a collision | `C90_accepted`, `C90_refused`, `C90_undisputed`, `C90_disputed`, `C90_other_bucket` (Prop_Name.v) |
| C91 | Which query parameters give URLs that servers accept | `build_signed_url` and servers (SpecServer.v); the specification is SpecParameter.v | a text is written alike exactly if it is read_alike (induction); lines and pairs are ordered alike exactly if no name overtakes another; the signed query determines the lines, these the pairs | `C91_accepted`, `C91_refused`, `C91_plain`, `C91_stray`, `C91_slash`, `C91_blanks` (Prop_Parameter.v) |
| C92 | The image uploader's page and server understand each other | routes, extractors and responses of axum, the requests and readings of the page (Page.v) | the reader is sound and complete for values followed by anything; round trip through the JSON writer; case analysis of the routes | `C92_routes`, `C92_create`, `C92_untyped`, `C92_update`, `C92_answers` (Prop_Page.v) |
| C93 | An upload through the page | the page as a sequence of requests and responses (Page.v) with the server of Uploader.v | inversion of the visit; the order of the exchanges puts the copying of the images after the update; C68, C69, C70, C86 | `C93_visit`, `C93_untyped`, `C93_shows`, `C93_accepted` (Prop_Page.v) |
| C94 | What the list of the page shows | `renderListItems` with the live list of children (Page.v) | induction in steps of two | `C94_render`, `C94_exact`, `C94_first`, `C94_bounded` (Prop_Page.v) |
| C95 | The page shows just the latest response (refutation) | as C94 | witness of two responses | `C95_latest_refuted` (Prop_Page.v) |
| C96 | Exactly which options give URLs that a server accepts | `build_signed_url` and servers (SpecServer.v); the specification is SpecExact.v | sufficiency as for C91 with the weaker condition on account, region and names; necessity: the server finds the signed message, so the canonical requests are equal up to a collision, hence path, query lines and header lines | `C96_exactly` (Prop_Exact.v) |
| C97 | The octets of an upload are read as the form and the file | `uploadImage` with the encoding of its `FormData` (Page.v, Multipart.v); the specification is SpecMultipart.v | the delimiter begins with CR and has no other, so its first occurrence is unique; header lines cannot hold it; normalising line breaks makes no new boundary | `C97_read`, `C97_unique`, `C97_absent`, `C97_boundary` (Prop_Multipart.v) |
| C98 | A service accepts the octets of an upload | the builder (HtmlForm.v), `create_image` (Uploader.v) and `uploadImage` (Page.v, Multipart.v) | C97 for the reading; C86 and C93 for acceptance | `C98_page`, `C98_form` (Prop_Multipart.v) |
| C99 | From the metadata server to the accepted request | concurrent histories (Conc.v) of the builders and of bound tokens (Keys.v); the specification is SpecPlatform.v | what a lookup returns was fetched in the history, by this task or by one that filled the cache (C32, C31); then C96 and C86 | `C99_url`, `C99_form` (Prop_Platform.v) |
| C100 | A valid call whose own requests are answered well succeeds | as C99; only the answers to this call must be good, other calls may fail in any way | every error of a lookup or of signBlob needs an answer that is not good, an unusable address or a clock out of range; C39 for panics, C40 and the checks for the rest | `C100_form`, `C100_url` (Prop_Platform.v) |
| C101 | User names and passwords in GCE_METADATA_HOST | the authority of url and the request builder of reqwest (Login.v, Target.v); the specification is SpecLogin.v | induction for the last at sign and the first colon; escaping by url and unescaping by reqwest cancel out; C61 for all executions | `C101_metadata`, `C101_requests`, `C101_every_host`, `C101_every_request`, `C101_prefix_refuted` (Prop_Login.v, Prop_LoginText.v) |
| C102 | Exactly which forms a service accepts | forms (HtmlForm.v); the specification is SpecFormExact.v | each condition of the policy pairs with a covered field (C03), each documented name occurs once (C02); C10 and unique readings for the other direction; C86 for browsers | `C102_exactly`, `C102_issued`, `C102_browser` (Prop_FormExact.v) |
| C103 | The text of the request URL and what its length decides | `build_signed_url` (SignedUrl.v, Url.v, FormUrl.v); the specification is SpecRequestUrl.v | induction for each escaping, one lemma per part and uniqueness of the readings (C89); C28 and inversion of the build for the limits | `C103_text`, `C103_path`, `C103_too_long`, `C103_panics`, `C103_always`, `C103_short` (Prop_RequestUrl.v) |
| C104 | The metadata host decides nothing but where metadata requests go | bound tokens (Keys.v) and both builders; the specification is SpecHostFree.v | a relation between programs that differ in metadata requests only, preserved by every construct of the model; then induction over the execution; for histories a simulation between configurations, step by step (SpecHostHistory.v, C62) | `C104_host`, `C104_histories` (Prop_HostFree.v, Prop_HostHistory.v) |
| C105 | Tokens are fetched rarely | histories (Conc.v, Keys.v, Calls.v); the specification is SpecRate.v | induction over the writes: between two writes the lock was taken, the entry read and found old (C32, C35); requests are counted per task over all executions of a call and summed (C62) | `C105_rate`, `C105_requests`, `C105_load` (Prop_Rate.v) |
| C106 | Which objects and parameters a signed URL can reach, and how to write them | `build_signed_url` (SignedUrl.v, Url.v); the specification is SpecAddress.v | escaped names have the segments of the raw ones and are left alone by the URL parser; C90 and C91 for the server; the converse because a kept character of the decoded path stands for itself | `C106_reached`, `C106_read`, `C106_unreachable`, `C106_impassable` (Prop_Address.v) |
| C107 | A key recovers from everything | histories (Conc.v); the specification is SpecRecovery.v | a task that can move can do so with any answer, the number of steps is bounded (C36); then C100, and C103 for the length of a URL | `C107_completes`, `C107_form`, `C107_url` (Prop_Recovery.v) |
| C108 | A change of the service account | histories (Conc.v); the specification is SpecChange.v | an entry stays in the cache while the task holds the lock, and until the next write; then C102 and C96 | `C108_form`, `C108_url` (Prop_Change.v) |
| C109 | The key decides nothing but the account and the signature | `build`, `build_signed_url`, histories (Conc.v); the specification is SpecAgree.v | both results are the same function of fields, region, seconds, account and signature; accounts and signatures in histories as in C99 | `C109_form`, `C109_url`, `C109_histories_form`, `C109_histories_url` (Prop_Agree.v) |
| C110 | Timestamps and system times | `UnixTimestamp::to_system_time`, `from_system_time` (Time.v) | integer arithmetic; texts by C41 and C42 | `C110_round_trip`, `C110_cut`, `C110_before`, `C110_total_refuted`, `C110_text` (Prop_SystemTime.v) |

## Trusted base

1. **Coq's kernel**, version 8.16.1, including its conversion by `vm_compute` where a proof uses it.
2. **Axioms: none.** `Print Assumptions` reports "Closed under the global context" for every theorem in
   MANIFEST.json (Assumptions.v prints this during the build). The development declares no axiom,
   parameter, functor or module type, and no `Admitted`. A list of all constants that are in scope
   also shows seven constants `Coq.ssr.ssrunder.Under_rel.*`: these are parameters of a module type
   inside the standard library, loaded with it; no theorem depends on them.
3. **The reading of the source.** Every definition of the model cites the lines it models. That the
   definition means the same as these lines is trusted, checked only by Conformance.v.
4. **The models of third-party crates**, written from their documentation and remembered source, in the
   versions of Cargo.lock: base64 0.22.1, chrono 0.4.42, form_urlencoded 1.2.2, http 1.3.1,
   pem 3.0.6, percent-encoding 2.3.2, reqwest 0.12.24 (redirects), ring 0.17.14 (reading RSA keys, signing), serde_json 1.0.145, sha256 1.6.0, tokio 1.48.0, url 2.5.7, and `std`.
   The sources were not available for comparison.
5. **The specifications**: the properties mean what the `Spec*.v` files say.

### Left open (fields of `deps`, quantified over)

* RSA signing: in most theorems an arbitrary function from key text and message to a signature or an error. Rsa.v models
  it (pem 3.0.6, ring 0.17.14); C81-C84 are about that function, C85 about forms and URLs that use it.
* Whether a JSON number is in the range of `f64`.
* Two character sets that differ between releases (`^` in url paths, `"` in header names).
* The iteration order of `http::HeaderMap` and its capacity. `deps_ok` says that the values of one name come in insertion
  order and nothing else is in the map.
* Which URL texts reqwest accepts.
* Not in `deps` but treated the same way: whether the client, having removed credentials for one redirect, takes them
  back for the next (`remembers` in Redirect.v; C78 says what depends on it).

### Assumptions about the runtime (Conc.v)

* Effects are atomic and interleave in any order; a request is sent and answered in two steps.
* The clock may show any time at any reading; it need not be monotonic.
* Servers may answer anything, or fail, or never answer.
* `tokio::sync::Mutex` has one owner, is granted in some order, and is not poisoned.  Fifo.v refines this to tokio's
  queue of waiting futures (from memory of its batch semaphore); C65 shows that the two have the same executions.
* A future may be dropped between any two effects. Its guard is then released.

### Not modelled

* Of RSA: ring's arithmetic (Montgomery form, constant time) is arithmetic on integers; blinding, self tests and
  the processor's features are left out, and so is `SystemRandom`, which this signature scheme does not use.  Reasons
  for refusing a key are one error.  ConformanceRsa.v checks that the key of the repository's tests is read and that
  the signature expected by them verifies under it; computing that signature with the model gives the same octets
  (six minutes, not part of the build).
* The file system and the process environment: one answer per file (`file_answer`), one content of the variable.
* Network transport: TLS, proxies, timeouts, header order of reqwest. One `EHttp` effect is one
  `reqwest` `execute` plus reading the body.  Target.v says where a request text leads (url 2.5.7 from memory) but does
  not normalise hosts nor take the port apart; user names and passwords are in Login.v.  Redirects are modelled apart from the programs (Redirect.v):
  the result of `EHttp` is what the client returns after following them.
* User names in `GCE_METADATA_HOST` that are not Unicode after unescaping, which reqwest leaves in the URL (others: Login.v).
* The errors of other crates that the crate's errors wrap: error values leave them out, their texts are parameters of
  Messages.v (`Display` and `source` of the public errors, thiserror's rules from memory). `Debug` is not modelled.
* `Send`/`Sync`, memory, allocation failure, stack depth except serde_json's recursion limit.
* `SystemTime` on platforms other than 64-bit Unix.
* Compile-time aspects: feature flags, visibility, `Clone`/`Debug`/`PartialEq` derives, doc tests.
* Tests (their expectations are in Conformance.v).  Of `examples/image-uploader` the handlers, the
  reading of the settings (Uploader.v), the routes, the JSON of requests and responses and `index.html` (Page.v) are
  modelled; axum 0.7, browsers' `fetch`, `FormData` and live node lists from memory.  Not modelled: the port, the
  listener, headers other than whether the type is JSON, the choice of the multipart boundary (Multipart.v takes any), CORS.  The `std::sync::Mutex` around the images is never held across an await or a panic, so each use
  is one step and poisoning does not arise.

## Tests against wrong programs

`seeded/LOG.jsonl` has one line per edit of the model.  Each edit was made in a scratch copy and everything depending on
the edited file was rebuilt; where a line has a `scope`, only the files it names.

* A lemma coqc rejects is listed in `lemmas_failed`, replaced by an unproved one in the scratch copy, and the build goes on.
* `theorems_failed` lists the theorems of MANIFEST.json that are rejected themselves or whose proof uses a rejected lemma
  (seen by `Print Assumptions`).  A theorem may therefore be listed although its statement still holds of the edited
  program: what failed is this proof of it.
* `theorems_undecided` lists theorems whose check was stopped for time or memory.  They count neither way.
* `theorems_tightened` lists theorems strengthened, or added, because the edit went unnoticed before.
* Lines whose `note` says `control` are edits that break no claim.
