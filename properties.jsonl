{"id": "C01", "title": "Unsigned form output is exactly the fields that were set", "statement": "For any sequence of HtmlFormDataBuilder calls without policy_document_signing_options, build().await succeeds exactly when key was set and no x_goog_meta name is empty; the result of into_vec() is then the list of the set fields in the documented order, each once, each with the value of the last call that set it, followed by the x-goog-meta-* pairs in call order. If key was never set the error is `key not found`; otherwise, if a meta name is empty, the error is `x-goog-meta-* field name is empty`. No network request is made and the clock is not read.", "quantifier": "every finite sequence of builder calls with arbitrary strings, every environment", "why_tests_cant": "the set of call sequences and strings is infinite; tests check two of them", "anchors": ["src/html_form_data.rs: HtmlFormDataBuilder::{acl..x_goog_meta}, build", "src/html_form_data.rs: HtmlFormData::into_vec"]}
{"id": "C02", "title": "Signed form output: names, order and values", "statement": "With policy_document_signing_options, a successful build().await returns the documented field list (as in C01) plus exactly the five fields policy, x-goog-algorithm, x-goog-credential, x-goog-date and x-goog-signature, each once, at their documented positions; caller-supplied values are unchanged and the algorithm is GOOG4-RSA-SHA256.", "quantifier": "every builder call sequence, every signing key, every clock and every server behaviour", "why_tests_cant": "depends on all combinations of optional fields (2^13) and on arbitrary values", "anchors": ["src/html_form_data.rs: build", "src/html_form_data.rs: build_policy_and_x_goog_signature"]}
{"id": "C03", "title": "The policy covers every form field and nothing else", "statement": "In the output of a successful signed build, base64-decoding the `policy` field and reading it as JSON gives an object whose `conditions` are, in order, one condition per returned form field other than policy and x-goog-signature: [\"content-length-range\", n, n] for Content-Length n and [\"eq\", \"$name\", value] for every other field; and whose only other member is `expiration`.", "quantifier": "every builder call sequence (any bytes in any value: quotes, backslashes, control characters, non-ASCII), every environment", "why_tests_cant": "JSON escaping and base64 must be right for every value; a single uncovered field is a security hole no finite test list excludes", "anchors": ["src/html_form_data.rs: build_policy_and_x_goog_signature", "src/private/policy_document.rs: PolicyDocument", "src/private/policy_document/condition.rs: Condition Serialize", "src/private/policy_document/field.rs: Field::new, Display"]}
{"id": "C04", "title": "The policy expiration is the requested one, never later", "statement": "The `expiration` member of the emitted policy is the RFC 3339 UTC rendering (YYYY-MM-DDTHH:MM:SSZ, Gregorian calendar) of the requested expiration rounded down to the second; reading it back gives an instant e with e <= requested < e + 1s.", "quantifier": "every representable SystemTime expiration for which build succeeds", "why_tests_cant": "calendar arithmetic over 2.5e11 seconds; tests check three dates", "anchors": ["src/html_form_data.rs: build_policy_and_x_goog_signature", "src/private/policy_document/expiration.rs: Expiration", "src/private/utils/unix_timestamp.rs: to_rfc3339, from_system_time"]}
{"id": "C05", "title": "A form policy is only issued for a non-empty validity window", "statement": "A signed build fails with `expiration before accessible_at` whenever expiration <= accessible_at (nanosecond comparison, accessible_at defaulting to one clock reading); hence a successful build implies accessible_at < expiration, 1970-01-01 <= accessible_at, and expiration <= 9999-12-31T23:59:59.", "quantifier": "all pairs of SystemTime values and all clock readings", "why_tests_cant": "two 64-bit times with nanoseconds; boundary cases at every value", "anchors": ["src/html_form_data.rs: build_policy_and_x_goog_signature"]}
{"id": "C06", "title": "The form signature is over exactly the emitted policy bytes", "statement": "In a successful signed build the x-goog-signature field is the lower-case hex of a signature the configured key produced for exactly the bytes of the emitted `policy` field: for a service account key, sign(private_key, policy); for a bound token with use_sign_blob, the base64-decoded signedBlob of a signBlob request whose payload base64-decodes to the policy bytes.", "quantifier": "every builder call sequence, key and environment", "why_tests_cant": "any divergence between signed and sent bytes for any input invalidates the form", "anchors": ["src/html_form_data.rs: build_policy_and_x_goog_signature", "src/private/signing_key_inner.rs: sign", "src/private/bound_token.rs: sign", "src/private/signed_url.rs: hex_encode"]}
{"id": "C07", "title": "Form credential and date describe the same UTC instant and the signer", "statement": "In a successful signed build x-goog-credential is <authorizer>/<YYYYMMDD>/<region or auto>/storage/goog4_request where YYYYMMDD is the UTC Gregorian date of accessible_at and equals the first eight characters of x-goog-date, and x-goog-date is YYYYMMDDTHHMMSSZ of accessible_at rounded down to the second.", "quantifier": "every accessible_at for which build succeeds, every region string, every authorizer", "why_tests_cant": "midnight, leap-day and century boundaries for ten thousand years", "anchors": ["src/html_form_data.rs: build_policy_and_x_goog_signature", "src/private/credential_scope.rs: CredentialScope", "src/private/date.rs: Date", "src/private/utils/unix_timestamp.rs: to_date, to_iso8601_basic_format_date_time"]}
{"id": "C08", "title": "Failing validation of a signed form has a fixed precedence and no network effect", "statement": "A signed build reports, in this order, the first that applies: expiration <= accessible_at; accessible_at out of range; expiration out of range; bucket missing; key missing; HMAC key. In each of these cases no HTTP request is sent and no cache is touched.", "quantifier": "every builder state that violates any subset of the conditions", "why_tests_cant": "all subsets of violated conditions with all values", "anchors": ["src/html_form_data.rs: build_policy_and_x_goog_signature"]}
{"id": "C09", "title": "Signed-form panics are exactly characterised", "statement": "A signed build never panics for an HMAC key or for a service account key with use_sign_blob = false, whatever the inputs (all internal expect() calls are unreachable). It does panic for a service account key with use_sign_blob = true once validation passes, contrary to the documentation of SigningKey::service_account which allows it.", "quantifier": "every builder state and environment", "why_tests_cant": "absence of a panic is a universally quantified claim", "anchors": ["src/html_form_data.rs: build_policy_and_x_goog_signature (expect)", "src/private/signing_key_inner.rs: sign (todo!)", "src/signing_key.rs: service_account docs"]}
{"id": "C10", "title": "A form only verifies for the values that were signed (tamper evidence)", "statement": "Take the output of a successful signed build whose field names are pairwise distinct. A verifier that evaluates every policy condition on a submitted form (exact match on field values, length range on the file) accepts the issued fields with a file of any length allowed by Content-Length, and rejects any form in which some covered field has a different value or is missing, or whose file length differs from the signed Content-Length.", "quantifier": "every issued form and every altered form", "why_tests_cant": "quantifies over all possible alterations", "anchors": ["src/html_form_data.rs: build", "src/private/policy_document/condition.rs"]}
{"id": "C11", "title": "X-Goog-Expires is the floor of the requested lifetime and bounded by seven days", "statement": "build_signed_url succeeds only if 0 <= expires - accessible_at and floor seconds of that difference is at most 604800; the emitted X-Goog-Expires is that floor, so the URL's validity end (X-Goog-Date + X-Goog-Expires) is never later than the requested expires. Otherwise it returns an error without any network request.", "quantifier": "all pairs of SystemTime values with nanoseconds", "why_tests_cant": "64-bit times with nanoseconds: boundaries cannot be enumerated", "anchors": ["src/signed_url.rs: build_signed_url", "src/private/expiration.rs: Expiration::try_from"]}
{"id": "C12", "title": "Shape of the signed URL", "statement": "Every successful build_signed_url returns https://storage.googleapis.com, a path starting with '/', '?', the canonical query string, '&X-Goog-Signature=' and the lower-case hex signature; no bucket name, object name, query parameter, region or key can change the scheme or host, or move the first '?' or the last '&X-Goog-Signature='.", "quantifier": "every BuildSignedUrlOptions value and environment", "why_tests_cant": "all strings in bucket_name/object_name/query_parameters, including '@', '\\\\', '#', '?', control characters", "anchors": ["src/private/signed_url.rs: SignedUrl::new", "src/signed_url.rs: build_signed_url"]}
{"id": "C13", "title": "What is signed is what is sent", "statement": "For every successful build_signed_url, the signed message is ALGORITHM, X-Goog-Date, credential scope and the hex SHA-256 of a canonical request, joined by newlines, where the canonical request is rebuilt from the returned URL alone: the requested verb, the URL path with reserved characters percent-encoded, the URL query with the trailing X-Goog-Signature removed, the canonical headers, the signed header names and UNSIGNED-PAYLOAD.", "quantifier": "every option value and environment", "why_tests_cant": "a mismatch for any input makes the URL unusable", "anchors": ["src/private/signed_url.rs: SignedUrl::new", "src/private/canonical_request.rs: CanonicalRequest::new, canonical_query_string", "src/private/string_to_sign.rs: StringToSign::new"]}
{"id": "C14", "title": "The URL path denotes the requested object", "statement": "For bucket and object names made of unproblematic characters (no '?', '#', '%', backslash, tab, CR, LF, no trailing space/control character, and no '.' or '..' path segment) the returned URL's path percent-decodes to exactly /bucket/object.", "quantifier": "all such bucket and object names, including all non-ASCII UTF-8 and reserved characters", "why_tests_cant": "all strings over a large alphabet", "anchors": ["src/signed_url.rs: build_signed_url (url::Url::parse)"]}
{"id": "C15", "title": "Object names with '#', '?', '%' or dot segments are not escaped (refutation)", "statement": "The statement of C14 without its restriction is false: there are bucket/object names for which build_signed_url succeeds but the URL's path denotes a different object (e.g. object `a#b` yields the path of object `a`; object `../other/x` escapes the bucket).", "quantifier": "existential witness for the negation of a universal claim", "why_tests_cant": "tests show single URLs; the claim is about which names are safe", "anchors": ["src/signed_url.rs: build_signed_url TODO: escape bucket_name and object_name"]}
{"id": "C16", "title": "Query parameters survive the round trip", "statement": "For every successful build_signed_url, decoding the returned URL's query as application/x-www-form-urlencoded gives, up to order, the supplied query_parameters, the parameters contained in the object name's own query (if any), X-Goog-Algorithm, X-Goog-Credential, X-Goog-Date, X-Goog-Expires, X-Goog-SignedHeaders and X-Goog-Signature, where no name or value, nor the region or the authorizer, may contain '%' followed by two hex digits, and header names no '%'.", "quantifier": "all lists of UTF-8 query parameters (duplicates, empty names and values, '&', '=', '+', spaces, non-ASCII)", "why_tests_cant": "all lists of arbitrary strings", "anchors": ["src/signed_url.rs: build_signed_url (query_pairs_mut)", "src/private/signed_url.rs: add_signed_url_required_query_string_parameters", "src/private/canonical_request.rs: canonical_query_string, percent_encode"]}
{"id": "C17", "title": "Query parameters containing %HH are altered (refutation)", "statement": "The statement of C16 without its restriction is false: a supplied parameter value such as `%41` is emitted so that a server reads `A`; in general a server reads the percent-decoding of the supplied value.", "quantifier": "existential witness plus a general law for all values", "why_tests_cant": "needs the general law over all strings", "anchors": ["src/private/canonical_request.rs: percent_encode ('%' is passed through)"]}
{"id": "C18", "title": "Canonical query string is order independent and sorted as text", "statement": "The signed URL (and signed message) does not depend on the order in which query_parameters are supplied; the canonical query string is the ascending byte-wise sort of the encoded name=value texts, a permutation of them.", "quantifier": "all permutations of all parameter lists", "why_tests_cant": "n! orders of arbitrary lists", "anchors": ["src/private/canonical_request.rs: canonical_query_string"]}
{"id": "C19", "title": "Canonical query string is not always sorted by parameter name (refutation)", "statement": "Google requires parameters sorted by name. If no encoded name is a proper prefix of another, the canonical query string is sorted by name; in general it is not (e.g. names `part` and `part1`).", "quantifier": "positive part: all parameter lists without prefix-related names; negative: a witness", "why_tests_cant": "depends on relations between arbitrary names", "anchors": ["src/private/canonical_request.rs: canonical_query_string (query_pairs.sort())"]}
{"id": "C20", "title": "Canonical headers and signed headers", "statement": "For every successful build_signed_url the signed header names are exactly host and the lower-cased supplied header names, strictly ascending without duplicates, joined by ';', identical in X-Goog-SignedHeaders and in the canonical request; the canonical header block has one line name:v1,v2,... per name in the same order with that name's values in supplied order (host's first value being storage.googleapis.com). The result does not depend on the case of names nor on the relative order of headers with different names.", "quantifier": "all header lists", "why_tests_cant": "all lists, cases, duplicates and orders", "anchors": ["src/private/canonical_request.rs: CanonicalRequest::new", "src/private/signed_url.rs: add_signed_url_required_query_string_parameters", "src/signed_url.rs: build_signed_url headers"]}
{"id": "C21", "title": "Invalid headers are rejected, so header text cannot inject lines", "statement": "If any supplied header name is not an RFC 9110 token or any value contains a byte outside printable ASCII and tab, build_signed_url does not return a URL. Hence in the signed canonical request no header contributes a newline.", "quantifier": "all header lists", "why_tests_cant": "all byte strings", "anchors": ["src/signed_url.rs: build_signed_url headers", "src/private/canonical_request.rs: CanonicalRequest::new (to_str)"]}
{"id": "C22", "title": "The signed message binds verb, path, query and headers", "statement": "If two successful build_signed_url calls sign the same message, then they have the same algorithm, date, credential scope, and either exhibit a SHA-256 collision or have the same verb, the same path up to percent-decoding, the same canonical query and the same canonical header block.", "quantifier": "all pairs of option values", "why_tests_cant": "quantifies over pairs of arbitrary requests, including values with newlines", "anchors": ["src/private/string_to_sign.rs: StringToSign::new", "src/private/canonical_request.rs: CanonicalRequest::new"]}
{"id": "C23", "title": "HTTP method validation", "statement": "build_signed_url returns a URL only if http_method is exactly one of DELETE, GET, HEAD, POST, PUT (case-sensitive), and the signed canonical request starts with that method.", "quantifier": "all strings", "why_tests_cant": "all strings", "anchors": ["src/private/http_verb.rs: HttpVerb::from_str", "src/signed_url.rs: build_signed_url"]}
{"id": "C24", "title": "X-Goog-Credential and X-Goog-Date of a signed URL", "statement": "For every successful build_signed_url whose authorizer and region contain no '%HH' triplet, the decoded X-Goog-Credential is <authorizer>/<YYYYMMDD>/<region or auto>/storage/goog4_request, X-Goog-Date is the UTC time of accessible_at rounded down to seconds in YYYYMMDDTHHMMSSZ form, its first eight characters are the credential date, and the same scope and date are lines 3 and 2 of the signed message.", "quantifier": "all times, regions, keys", "why_tests_cant": "calendar and string encodings for all inputs", "anchors": ["src/private/signed_url.rs: add_signed_url_required_query_string_parameters", "src/private/credential_scope.rs", "src/private/active_datetime.rs"]}
{"id": "C25", "title": "Region is not validated (refutation)", "statement": "It is not the case that the credential scope always has exactly the four components date/location/service/request-type: a region containing '/' is accepted and yields more.", "quantifier": "existential witness; positive part for all regions without '/'", "why_tests_cant": "a universal claim over strings", "anchors": ["src/private/location.rs: Location::try_from"]}
{"id": "C26", "title": "Reserved query parameters are not rejected (refutation)", "statement": "It is not the case that every successful URL has exactly one X-Goog-Expires (or X-Goog-Signature) parameter: callers' query_parameters with those names are accepted and emitted as well. If no supplied name collides, each of the six X-Goog-* parameters occurs exactly once.", "quantifier": "existential witness; positive part for all non-colliding parameter lists", "why_tests_cant": "a universal claim over parameter lists", "anchors": ["src/signed_url.rs: build_signed_url query_parameters", "src/private/signed_url.rs: add_signed_url_required_query_string_parameters"]}
{"id": "C27", "title": "Signed URL panics are characterised", "statement": "build_signed_url with a service account key and use_sign_blob = false panics only if the URL with the added parameters exceeds 65534 bytes although the URL before adding them did not (such inputs exist), or if the supplied headers exceed the capacity of http::HeaderMap. With an HMAC key, or a service account key with use_sign_blob = true, every call that passes validation panics.", "quantifier": "every option value and environment", "why_tests_cant": "absence of panics is universal; the length boundary depends on all inputs", "anchors": ["src/private/signed_url.rs: add_signed_url_required_query_string_parameters (expect)", "src/private/signing_key_inner.rs: sign (todo!)"]}
{"id": "C28", "title": "Signed URL validation happens before any network request, with fixed precedence", "statement": "build_signed_url reports the first of: accessible_at before 1970 or after 9999; expires before accessible_at; bad method; request URL too long; bad header name/value; lifetime over seven days; and in each of these cases sends no HTTP request and leaves the token cache unchanged.", "quantifier": "every option value violating any subset of conditions", "why_tests_cant": "all subsets of violations", "anchors": ["src/signed_url.rs: build_signed_url"]}
{"id": "C29", "title": "Signing with a local key is a pure function of the options", "statement": "With a service account key, use_sign_blob = false and accessible_at given, the results of build and of build_signed_url depend only on the options: same options, same result, with no network request, no clock reading and no cache access.", "quantifier": "all options, all pairs of environments", "why_tests_cant": "quantifies over pairs of environments", "anchors": ["src/html_form_data.rs: build", "src/signed_url.rs: build_signed_url", "src/private/signing_key_inner.rs: sign"]}
{"id": "C30", "title": "The default accessible_at is a single clock reading", "statement": "If accessible_at is None, build and build_signed_url behave exactly as if accessible_at had been set to one clock reading taken at the start of the call, so date, credential date and lifetime never mix two readings.", "quantifier": "all options, all clocks (also non-monotonic)", "why_tests_cant": "clock readings are nondeterministic; a mix would show only near second or midnight boundaries", "anchors": ["src/html_form_data.rs: build_policy_and_x_goog_signature", "src/signed_url.rs: build_signed_url"]}
{"id": "C31", "title": "A cached bound token is used only with more than 30 seconds left", "statement": "Whenever an operation on a bound-token key uses an access token it did not fetch itself, that token's recorded expiry was more than 30 s after the clock reading taken in that operation; otherwise the operation fetches a new email and token (in that order) before proceeding.", "quantifier": "all histories of operations, server responses and clock readings", "why_tests_cant": "all interleavings of time and calls", "anchors": ["src/private/bound_token.rs: get_email_and_token"]}
{"id": "C32", "title": "The cached email and token come from one successful refresh", "statement": "At any time, for any schedule of concurrent operations on clones of a bound-token key, including cancellations and panics at any await point, the cache is empty or holds an email, a token and an expiry such that email and token are the bodies of two consecutive successful metadata responses of one task, the token response had token_type Bearer, and the expiry is that task's clock reading plus expires_in.", "quantifier": "all schedules, numbers of tasks, cancellation points, server responses and clocks", "why_tests_cant": "interleavings are unbounded", "anchors": ["src/private/bound_token.rs: get_email_and_token", "src/private/bound_token.rs: BoundToken (Arc<Mutex<..>>)"]}
{"id": "C33", "title": "Failed refreshes change nothing and serve nothing stale", "statement": "If a refresh fails (transport error, non-2xx status, unreadable or malformed body, token_type other than exactly Bearer) the operation returns an error, makes no signBlob request, and the cache is unchanged.", "quantifier": "all failure points and all response bodies", "why_tests_cant": "all bodies and failure points", "anchors": ["src/private/bound_token.rs: get_email_and_token"]}
{"id": "C34", "title": "Metadata refreshes of one key never overlap", "statement": "For any schedule of concurrent operations on clones of one bound-token key, between a task's email request and the end of that task's refresh no other task sends a metadata request for the same key, and at most one task is refreshing at a time.", "quantifier": "all schedules, any number of tasks, cancellations", "why_tests_cant": "schedules cannot be enumerated by tests", "anchors": ["src/private/bound_token.rs: get_email_and_token (tokio::sync::Mutex held across awaits)"]}
{"id": "C35", "title": "One refresh serves all concurrent operations", "statement": "After a refresh recorded expiry e, no task sends a metadata request for that key as long as every clock reading of later lock holders is more than 30 s before e.", "quantifier": "all schedules and clocks", "why_tests_cant": "unbounded schedules", "anchors": ["src/private/bound_token.rs: get_email_and_token"]}
{"id": "C36", "title": "No lost lock: a waiting operation is never blocked by a finished, failed, cancelled or panicked one", "statement": "In every reachable state the key's lock is free or held by a live task; hence some task can always make progress while any is unfinished, and every operation ends after finitely many steps.", "quantifier": "all schedules with cancellation and panics", "why_tests_cant": "liveness over all schedules", "anchors": ["src/private/bound_token.rs: get_email_and_token"]}
{"id": "C37", "title": "signBlob request is faithful", "statement": "Every signBlob request sent has method POST, URL https://iamcredentials.googleapis.com/v1/projects/-/serviceAccounts/<email>:signBlob, Authorization `Bearer <token>`, and a JSON body whose only member `payload` base64-decodes to the message; email and token come from the same cache entry or refresh. A returned signature is the base64 decoding of signedBlob in a 2xx JSON response.", "quantifier": "all messages, histories and responses", "why_tests_cant": "all messages and responses", "anchors": ["src/private/bound_token.rs: sign"]}
{"id": "C38", "title": "The credential email may differ from the signing email (refutation)", "statement": "It is not guaranteed that the email in X-Goog-Credential is the service account asked to sign: if the cached token expires between the two lookups and the metadata server then reports another email, the call succeeds with a mismatch. If the second lookup hits the cache written or read by the first, they agree.", "quantifier": "existential witness; positive part over all histories", "why_tests_cant": "a race between two lookups", "anchors": ["src/private/signed_url.rs: SignedUrl::new (authorizer, then sign)", "src/private/bound_token.rs: sign"]}
{"id": "C39", "title": "A hostile expires_in panics (refutation)", "statement": "It is not the case that bound-token operations never panic: a token response with an expires_in so large that the expiry overflows the clock's range panics; when no clock reading precedes 1970 and expires_in stays in range no bound-token operation panics, but for URLs that are too long or have too many headers (C27), and a panic leaves the cache unchanged and the lock free.", "quantifier": "all responses and clocks", "why_tests_cant": "u64 range", "anchors": ["src/private/bound_token.rs: get_email_and_token (SystemTime + Duration, expect)"]}
{"id": "C40", "title": "A bound token never signs locally", "statement": "With a bound-token key and use_sign_blob = false, build and build_signed_url never succeed and never send a signBlob request; they return `bound token must use sign blob` once validation, metadata access and request canonicalisation succeed.", "quantifier": "all options and environments", "why_tests_cant": "universal absence claim", "anchors": ["src/private/signing_key_inner.rs: sign"]}
{"id": "C41", "title": "UTC calendar conversion is correct", "statement": "For every second from 0000-01-01T00:00:00Z to 9999-12-31T23:59:59Z the year, month, day, hour, minute and second used in X-Goog-Date, credential date and policy expiration are those of the proleptic Gregorian calendar counted day by day from 1970-01-01.", "quantifier": "all 315,569,520,000 seconds", "why_tests_cant": "too many instants", "anchors": ["src/private/utils/unix_timestamp.rs: to_date, to_iso8601_basic_format_date_time, to_rfc3339"]}
{"id": "C42", "title": "Timestamp texts are fixed-width, order preserving and invertible", "statement": "The YYYYMMDDTHHMMSSZ and RFC 3339 texts have 16 and 20 bytes, compare as text like the instants they denote, parse back to the same instant, and distinct instants have distinct texts.", "quantifier": "all pairs of timestamps in range", "why_tests_cant": "pairs over 3e11 instants", "anchors": ["src/private/utils/unix_timestamp.rs", "src/private/date.rs"]}
{"id": "C43", "title": "Timestamp range check", "statement": "A SystemTime is accepted as accessible_at or form expiration exactly when it lies in [1970-01-01T00:00:00Z, 10000-01-01T00:00:00Z); sub-second parts are dropped (rounded down).", "quantifier": "all SystemTime values", "why_tests_cant": "64-bit range", "anchors": ["src/private/utils/unix_timestamp.rs: from_system_time, TryFrom<i64>"]}
{"id": "C44", "title": "Date text parsing is not a faithful inverse (refutation)", "statement": "Date::try_from accepts some eight-byte texts that are not dates (20200231) and, because a leading '+' is accepted, some whose rendering differs from the input; every eight-digit text it accepts renders back to itself and every rendered date of a timestamp is accepted.", "quantifier": "all strings", "why_tests_cant": "all strings", "anchors": ["src/private/date.rs: TryFrom<&str> for Date, Display"]}
{"id": "C45", "title": "Policy documents survive serialisation", "statement": "Serialising a policy document to JSON and deserialising it gives the same document, for every document whose eq/starts-with conditions do not name Content-Length; those that do are always rejected when deserialising.", "quantifier": "all documents: any number of conditions, any strings, any u64 ranges, all timestamps", "why_tests_cant": "unbounded documents and strings", "anchors": ["src/private/policy_document/condition.rs", "src/private/policy_document/expiration.rs", "src/private/policy_document/field.rs", "src/private/policy_document.rs"]}
{"id": "C46", "title": "JSON writing is injective and valid for all strings", "statement": "Every JSON text this crate writes is valid JSON that reads back to the intended tree, so no supplied string can close its quotes or add members.", "quantifier": "all JSON trees of the shapes used, all strings", "why_tests_cant": "all strings", "anchors": ["src/private/policy_document/condition.rs: Serialize", "src/private/bound_token.rs: SignBlobRequestBody"]}
{"id": "C47", "title": "Field names parse and print consistently", "statement": "Field::new accepts exactly the 18 fixed form-field names and x-goog-meta-<non-empty>, and printing a parsed field gives the input back; distinct accepted names give distinct fields.", "quantifier": "all strings", "why_tests_cant": "all strings", "anchors": ["src/private/policy_document/field.rs: Field::new, Display"]}
{"id": "C48", "title": "Service account JSON loading", "statement": "SigningKey::service_account_from_str succeeds exactly for JSON objects having string members client_email and private_key (the last duplicate counts), ignoring all other members and their order, and the key then signs as that email with that private key; errors are distinguished as: not JSON, root not an object, client_email missing / not a string, private_key missing / not a string, in this order.", "quantifier": "all input texts", "why_tests_cant": "all texts", "anchors": ["src/signing_key.rs: service_account_from_str"]}
{"id": "C49", "title": "Hex and base64 encodings are lossless", "statement": "The signature hex has two lower-case hex digits per byte and determines the bytes; base64 text decodes to the encoded bytes, has length 4*ceil(n/3) and only the standard alphabet.", "quantifier": "all byte strings", "why_tests_cant": "all byte strings", "anchors": ["src/private/signed_url.rs: hex_encode", "src/html_form_data.rs: base64 STANDARD", "src/private/bound_token.rs: base64 STANDARD"]}
{"id": "C50", "title": "Credential scope accepts only matching service and request type", "statement": "A credential scope can be created exactly for (storage, goog4_request) and (s3, aws4_request); its text is date/location/service/request-type, and for locations without '/' distinct scopes have distinct texts.", "quantifier": "all dates, locations, services and request types", "why_tests_cant": "all strings", "anchors": ["src/private/credential_scope.rs: CredentialScope::new, Display"]}
{"id": "C51", "title": "The emitted URL is not always a legal URI (refutation)", "statement": "It is not the case that the returned URL contains only URI characters: a query parameter value with a space, newline or non-ASCII character is emitted raw. If query parameters, region, authorizer and header names use only RFC 3986 characters, and bucket and object names (otherwise arbitrary) none of '?', '|' and '^', the URL contains only RFC 3986 characters.", "quantifier": "existential witness; positive part over all clean options", "why_tests_cant": "all strings", "anchors": ["src/private/canonical_request.rs: percent_encode (only 18 characters are escaped)"]}
{"id": "C52", "title": "Repeated metadata names make the signed form unusable", "statement": "A signed build with two x_goog_meta calls of the same name and different values succeeds, but the emitted policy has contradictory conditions: no form with single-valued fields satisfies it. Field names of a signed form are pairwise distinct exactly when the metadata names are.", "quantifier": "all call sequences, all keys, all executions", "why_tests_cant": "quantifies over all submitted forms and all builds", "anchors": ["src/html_form_data.rs: build (metadata loop), build_policy_and_x_goog_signature"]}
{"id": "C53", "title": "The digest in the string to sign is SHA-256", "statement": "The last line of the signed message is the lower-case hex text of the FIPS 180-4 SHA-256 digest of the canonical request: the hash equals an independent bit-level specification of the standard (padding, message schedule, compression, constants from roots of primes) on every input, is a function of the input and has 32 bytes.", "quantifier": "all byte strings", "why_tests_cant": "two or three known vectors leave nearly every padding position and round constant interaction unchecked", "anchors": ["src/private/canonical_request.rs: CanonicalRequest, sha256", "src/private/signed_url.rs: StringToSign"]}
{"id": "C54", "title": "A portable signed URL is accepted by every conforming server", "statement": "Take any successful build whose options are portable (bucket and object names without ? # % \\ ^ |, dot segments and stray control characters; query parameters of unreserved and the 18 escaped characters; token header names, trimmed values). Every server that rebuilds the canonical request from the decoded request, in any encoding that agrees with RFC 3986 on these characters, and verifies the signature of that message, accepts the request made from the URL with the signed headers, at every second of the lifetime. Without portability this fails: once the query contains a character the server escapes, for example the slash of a content type, no request at all is accepted with the signature except through a SHA-256 collision.", "quantifier": "all options, keys, executions, servers, additional headers and instants", "why_tests_cant": "the servers are a family of programs outside the repository, quantified over", "anchors": ["src/private/signed_url.rs: SignedUrl::new", "src/private/canonical_request.rs: percent_encode, CanonicalRequest", "src/signed_url.rs: build"]}
{"id": "C55", "title": "A signature authorizes nothing but the signed request", "statement": "If a server that checks signed URLs accepts any request with a signature of the message of a successful build, then, unless two different canonical requests with the same SHA-256 digest have been found, the request has the method, the decoded path, the decoded parameters and the signed header values of the build, the account is the authorizer of the build, and the time lies in the lifetime the options asked for. The request made from the URL itself is never accepted outside that lifetime.", "quantifier": "all options, keys, executions, servers, requests, instants and signatures", "why_tests_cant": "quantifies over all requests an attacker can make", "anchors": ["src/private/signed_url.rs: SignedUrl::new, StringToSign", "src/private/canonical_request.rs: CanonicalRequest"]}
{"id": "C56", "title": "Secrets do not influence anything but the authorization header", "statement": "Take two executions of the same call with keys that differ only in their secret (HMAC secret; private keys that make the same signatures) against answers that differ only in access tokens (all usable in a header). Step by step both do the same: the same clock reads, lock steps, cache accesses and HTTP requests, except that the authorization header of the signBlob request carries the respective token; and they end with the same result or panic. A token is sent to no destination other than the signBlob method.", "quantifier": "all pairs of executions of all calls", "why_tests_cant": "a statement about pairs of executions over all secrets; a leak through any field, URL or error would be invisible to an assertion on one run", "anchors": ["src/private/bound_token.rs: get, refresh, sign", "src/signed_url.rs: build", "src/html_form_data.rs: build"]}
{"id": "C57", "title": "Which requests a call makes", "statement": "At every point of every execution the HTTP requests sent so far are a beginning of: at most one lookup (email, token), at most one further lookup, one signBlob; so a call makes at most five requests, asks each metadata URL at most twice, and sends nothing after signBlob. Calls without a bound token make no request. A successful call consists of exactly an optional clock read, two lookups and one signBlob with the email and token of the second.", "quantifier": "all calls, all execution prefixes", "why_tests_cant": "quantifies over all prefixes, including failing and panicking runs", "anchors": ["src/private/bound_token.rs: get, refresh, sign", "src/private/signing_key_inner.rs: authorizer, sign"]}
{"id": "C58", "title": "Which texts are read as policy documents", "statement": "Reading a policy document succeeds exactly on: a JSON text whose top level is an object with conditions and expiration exactly once each (other members ignored) or an array of exactly the two; every condition a one-member object, or an array of three whose first element is literally eq, starts-with or content-length-range; eq and starts-with name (after $) a field of the table other than Content-Length with a string; ranges two u64 literals; the expiration an RFC 3339 text in range. The document read is the one the text says, uniquely. Reading is not a function of the JSON value: an escape inside the operator makes it fail (refutation).", "quantifier": "all byte strings", "why_tests_cant": "all texts; the tests try about twenty", "anchors": ["src/private/policy_document/condition.rs: Deserialize for Condition", "src/private/policy_document.rs: PolicyDocument", "src/private/policy_document/expiration.rs: Deserialize for Expiration"]}
{"id": "C59", "title": "Which texts are read as RFC 3339 instants", "statement": "UnixTimestamp::from_rfc3339 accepts exactly the date-times of RFC 3339 with existing dates, offsets below 24 hours and seconds up to 60, plus those with the minus sign U+2212, and returns the second they denote (second 60 as 59); OutOfRange carries the value of exactly the well-formed texts outside the years 0 to 9999, and everything else is InvalidRfc3339Format of the text. Expiration::from_str maps these errors one to one and its unreachable!() is never reached. Refuted: that only RFC 3339 texts are read; that different instants are told apart (leap second).", "quantifier": "all byte strings", "why_tests_cant": "all texts and all instants", "anchors": ["src/private/utils/unix_timestamp.rs: from_rfc3339, TryFrom<i64>", "src/private/policy_document/expiration.rs: FromStr"]}
{"id": "C60", "title": "Which texts are read as basic-format instants", "statement": "UnixTimestamp::from_iso8601_basic_format_date_time reads every text the crate writes back to the same instant, and accepts exactly the texts of an explicit grammar: optional Unicode white space before every field, fields shorter than their width when white space or a letter follows, signed years, second 60 as 59; errors are classified exactly. Refuted: that only YYYYMMDDTHHMMSSZ is read.", "quantifier": "all byte strings, all instants", "why_tests_cant": "all texts and all instants", "anchors": ["src/private/utils/unix_timestamp.rs: from_iso8601_basic_format_date_time, to_iso8601_basic_format_date_time"]}
{"id": "C61", "title": "Key constructors: metadata host and key files", "statement": "SigningKey::bound_token builds a key whose metadata requests go to http://HOST/computeMetadata/v1/instance/service-accounts/default/{email,token} with HOST the content of GCE_METADATA_HOST if it is set to Unicode text and metadata.google.internal otherwise; nothing else of a call depends on the variable, in particular signBlob requests keep their fixed address. service_account_from_path succeeds exactly for a file that can be opened and read, is UTF-8 and holds a JSON object with string members client_email and private_key; it reports FileOpen exactly when opening fails and FileRead exactly when reading fails or the bytes are not UTF-8. Refuted: that an empty variable counts as unset.", "quantifier": "all contents of the variable (set, unset, not Unicode), all file contents, all executions of all calls", "why_tests_cant": "all byte strings and all executions; UTF-8 validity is an infinite set", "anchors": ["src/private/bound_token.rs: BoundToken::new, get_email_and_token", "src/signing_key.rs: SigningKey::bound_token, SigningKey::service_account_from_path"]}
{"id": "C62", "title": "The possible histories of concurrent calls", "statement": "A sequence of events of any number of concurrent operations is possible exactly if every task on its own is a beginning of its call (with any responses, cancelled at any point), no lock is taken while another task holds it, and every cache read sees the last write of that key (nothing if there is none). The sequence determines where every task is, every lock owner and every cache content.", "quantifier": "all numbers of tasks, all calls and keys, all interleavings, responses, clock readings and cancellations", "why_tests_cant": "interleavings, responses and task numbers are unbounded", "anchors": ["src/private/bound_token.rs: get_email_and_token, sign", "src/html_form_data.rs: HtmlFormDataBuilder::build", "src/signed_url.rs: SignedUrl::new"]}
{"id": "C63", "title": "Keys do not influence each other", "statement": "For any execution and any set of tasks that contains with a task all tasks on clones of the same key: leaving all other tasks out gives a possible execution, in which the kept tasks do the same, stand at the same point and own the same locks, and the caches of their keys hold the same.", "quantifier": "all executions, all sets of tasks closed under sharing a bound-token key", "why_tests_cant": "needs every interleaving with arbitrary other tasks", "anchors": ["src/private/bound_token.rs: BoundToken (cache: Arc<Mutex<..>>), get_email_and_token", "src/signing_key.rs: SigningKey (Clone)"]}
{"id": "C64", "title": "Lookups are atomic", "statement": "Every execution can be reordered, keeping the order of the events of every task, of every key and of the task starts, into an execution in which nothing happens between a task taking the lock of its key and giving it back (or ending) except that task's own events; tasks, locks and caches end up the same. A task that never gives the lock back does nothing more once another task moves. (Clock readings keep their values; readings of different tasks may change order, which the model's arbitrary clock allows.)", "quantifier": "all executions of any number of tasks", "why_tests_cant": "quantifies over all interleavings and gives an equivalent one", "anchors": ["src/private/bound_token.rs: get_email_and_token (guard held from line 79 to 171)"]}
{"id": "C65", "title": "Tokio's queued lock behaves as the lock of the model", "statement": "If the lock of a key is the fair semaphore of tokio (a task that finds it taken joins a queue; giving it back hands it to the first of the queue; a dropped waiter leaves the queue or passes the lock on), the executions, with the queueing left out, are exactly those of the model in which any waiting task may take a free lock. So C32 to C36, C39 and C62 to C64 hold with the queue.", "quantifier": "all executions of any number of tasks, both directions", "why_tests_cant": "relates two infinite sets of executions", "anchors": ["src/private/bound_token.rs: get_email_and_token (self.email_and_token.lock().await, line 79)"]}
{"id": "C66", "title": "The lock of a key is served first come, first served", "statement": "While a task waits for the lock of a key, only tasks that asked for it before, and have waited since, take it, each at most once; so a call is overtaken at most once by each call that was waiting when it asked, and by no later one. Tasks dropped while waiting, also after being handed the lock, do not break the order.", "quantifier": "all executions with queues, all waiting tasks, all keys", "why_tests_cant": "fairness quantifies over all schedules and cancellations", "anchors": ["src/private/bound_token.rs: get_email_and_token (line 79)"]}
{"id": "C67", "title": "No lost wake-up", "statement": "With the queue, a task that waits does so for an unfinished task that holds the lock, or the first in line can take it at once; an unfinished task can move or waits for another one that can; an execution has at most 50 events per call started, so none goes on for ever; one that nothing but new calls and cancellations could continue has ended every call.", "quantifier": "all executions with queues, cancellations and panics at any point", "why_tests_cant": "absence of deadlock and of lost wake-ups is a statement on all schedules", "anchors": ["src/private/bound_token.rs: get_email_and_token (lines 79-171)"]}
{"id": "C68", "title": "The uploader's list of images is the list of forms handed out", "statement": "After any history of requests the images in memory are, in order, the forms handed out: the id of an image is the key field of its form and a version 4 UUID in lower case. An image is marked as uploaded exactly if an update with its id was answered after its form was handed out and no earlier image has the same id. Images are never removed, renamed or unmarked, whatever requests run at the same time or are dropped.", "quantifier": "all histories of any number of concurrent requests, all random bytes, all responses of other servers", "why_tests_cant": "quantifies over all interleavings and all histories", "anchors": ["examples/image-uploader/src/main.rs: create_image, update_image, AppState, Image"]}
{"id": "C69", "title": "A listing shows the uploaded images of one moment", "statement": "The links returned for a listing are, in order, one per image marked as uploaded at one moment during the request. Each is a signed GET of that object in the configured bucket with no extra headers or parameters; counted from the (second) time it states, it is dead a minute after the clock was first read for it. A listing fails only if the crate refuses one of these links.", "quantifier": "all histories, all configurations, all clocks", "why_tests_cant": "quantifies over all interleavings with other requests", "anchors": ["examples/image-uploader/src/main.rs: list_images", "src/signed_url.rs: build_signed_url"]}
{"id": "C70", "title": "A form handed out allows one upload", "statement": "A form is handed out with POST to the configured bucket. Its fields are the bucket, the announced length and type, a fresh id as key, and the signed policy. Whatever a server reads from that policy, it accepts only an upload to that bucket under that key with that type and exactly that length; the policy expires a minute after the clock was first read, in whole seconds.", "quantifier": "all histories, all lengths and types, all forms and sizes a client may send", "why_tests_cant": "quantifies over all forms a client may send and all readings of the policy", "anchors": ["examples/image-uploader/src/main.rs: create_image", "src/html_form_data.rs: HtmlFormDataBuilder::build"]}
{"id": "C71", "title": "The uploader's settings rule out the avoidable failures", "statement": "The program starts exactly with USE_SIGN_BLOB being true or false in lower case, a bucket name, and for false a readable key file. Then key and signing method fit together: a form fails only because the clock moved by a minute or left the range of years, or because a remote server or the private key failed; a link never fails because of method, headers, region or scope. Panics come only from impossible clocks and, for links, from the size of the header map or the uri.", "quantifier": "all environments, all key files, all histories of the program started with them", "why_tests_cant": "quantifies over all environments and histories", "anchors": ["examples/image-uploader/src/main.rs: main, create_image, list_images", "src/signing_key.rs: bound_token, service_account_from_path"]}
{"id": "C72", "title": "The access token goes to the signing service only, whatever the account is called", "statement": "In every execution of every operation a request with an authorization header is sent over HTTPS to iamcredentials.googleapis.com, for every text the metadata server may have given as the account. If that text has no slash, backslash, question mark or number sign, the request asks to sign for exactly that account (without tabs and line breaks, percent-escapes read as such); the usual account names are written out unchanged. For other texts this is false: a/../b and b:signBlob? ask for b.", "quantifier": "all executions, all account texts", "why_tests_cant": "quantifies over all texts the metadata server may send", "anchors": ["src/private/bound_token.rs: sign (lines 190-209)"]}
{"id": "C73", "title": "Metadata requests go to the configured host and path", "statement": "If GCE_METADATA_HOST is a host name or address, possibly with a port, every request of every operation with a key from bound_token goes either to that host over HTTP, for one of the two documented paths and without a token, or to the signing service over HTTPS. For other contents this is false: an empty variable sends the request to a host called computeMetadata, and one with a number sign asks for the root. For every text, the address is read as the URL standard's grammar does for http and https in small letters: exactly that scheme, authority as written, path, query and fragment, and no address otherwise. So whatever the variable holds, each request goes without a token over HTTP to the name that it starts with after slashes, up to the first delimiter (computeMetadata if it holds only slashes), or to the signing service.", "quantifier": "all executions, all hosts", "why_tests_cant": "quantifies over all hosts; the failure for the empty variable needs the URL rules of slashes", "anchors": ["src/private/bound_token.rs: BoundToken::new, get_email_and_token (lines 94-137)"]}
{"id": "C74", "title": "The policy determines the form", "statement": "If two signed forms carry the same policy field, they have the same fields in the same order with the same values, except for the signature, and their expirations agree in whole seconds. So nothing of a form lies outside what was signed.", "quantifier": "all builders, keys, clocks and executions of the two builds", "why_tests_cant": "quantifies over pairs of builders and executions; needs the encoding of the policy to lose nothing", "anchors": ["src/html_form_data.rs: HtmlFormDataBuilder::build", "src/html_form_data/policy_document.rs: PolicyDocument"]}
{"id": "C75", "title": "A signature serves one purpose", "statement": "Every text a call asks the signing service to sign, whether or not the call comes to an end, is a policy for a form call and a V4 string to sign for a URL call, and so is every text whose signature is handed out. No text is of both kinds, and none of either kind is what one signs for a JSON web token or a V2 URL. So no server that follows the documentation accepts a form's signature for a URL.", "quantifier": "all calls, keys, executions and texts", "why_tests_cant": "quantifies over all texts of several kinds and over unfinished executions", "anchors": ["src/html_form_data.rs: HtmlFormDataBuilder::build", "src/signed_url.rs: build_signed_url", "src/private/bound_token.rs: sign"]}
{"id": "C76", "title": "The text of an error tells what happened", "statement": "The public errors are opaque, so their text is all a caller has. Two failed forms with the same text failed for the same reason, with the same status, body and quoted outside error; likewise two failed URLs. If the text says that talking to the servers failed, then it names the last request of the call and quotes what came back (status and whole body), or names a request that could not be sent. Following source() from an error adds nothing to its text but what lies behind errors of other crates. From a failed form it leads to the outside error and all behind it, unless the error is made of a server's answer; a failed URL has no source; a key file that cannot be opened or read, or is no JSON, leads to the outside error. For key files two of these claims are false: failing to open and failing to read have the same text, and what serde_json says is not in the text.", "quantifier": "all errors, all texts of outside errors, all executions", "why_tests_cant": "quantifies over pairs of errors and all server answers; texts must not run into one another", "anchors": ["src/private/bound_token.rs: BoundTokenError (lines 13-55)", "src/private/signing_key_inner.rs: Error", "src/html_form_data.rs: ErrorKind", "src/signed_url.rs: ErrorKind", "src/signing_key.rs: ErrorKind", "src/private/signed_url.rs: Error"]}
{"id": "C77", "title": "A request without host header is never signed", "statement": "If SignedUrl::new is given a request without a host header, it sends no signBlob request in any execution; it ends with that refusal, or as the lookup of the account ends. With a host header it never gives this refusal, so no URL is ever refused for it.", "quantifier": "all requests, keys, executions", "why_tests_cant": "build_signed_url always adds the header, so no test through the public functions reaches the case", "anchors": ["src/private/signed_url.rs: SignedUrl::new, add_signed_url_required_query_string_parameters"]}
{"id": "C78", "title": "Redirects do not carry the access token away", "statement": "One request becomes at most eleven messages; each further one is sent because the one before was answered with 301, 302, 303, 307 or 308, and goes where that answer leads; the call sees the answer to the last one. Such an answer is followed, with the method, content and headers the status and the servers call for, unless it answers the eleventh message or leads out of the web, which fails the call. Host and port of an address are read as the URL standard says: after the last at sign, up to a port. With a client that keeps removed headers removed, every message with the access token, in every execution and whatever servers answer, goes to iamcredentials.googleapis.com port 443. With either client the message that leaves a host for another is without token, the text to sign is repeated only after 307 and 308 and unchanged, a message that drops it is a GET without the headers that describe a content, every header is one of the request's or a referer with the address of an earlier message, the first message goes to the path and query of the request's address, and metadata requests stay GET requests without token. Not guaranteed, shown by witnesses: that the token stays with the service if the client takes removed headers back (two redirects suffice), that it is sent over TLS (http on port 443 counts as the same server), that the text to sign and the account stay with the service, that tokens come from the metadata server.", "quantifier": "all executions, requests, networks (functions from everything sent so far to an answer)", "why_tests_cant": "chains of redirects between arbitrary hosts; wiremock tests use one host", "anchors": ["src/private/bound_token.rs: BoundToken::new, get_email_and_token, sign (client.execute)"]}
{"id": "C79", "title": "Header values beyond ASCII are refused before anything is signed", "statement": "A URL with a header value that has a character beyond ASCII, valid otherwise, is never signed: in every execution, finished or not, only the account is looked up; the result, if there is one, is the refusal that names such characters or the failure of that lookup. No URL without such a header value is refused for this reason.", "quantifier": "all options, keys, times, executions", "why_tests_cant": "quantifies over all header values and over unfinished executions", "anchors": ["src/private/canonical_request.rs: CanonicalHeaders", "src/private/signed_url.rs: SignedUrl::new"]}
{"id": "C80", "title": "Every failure has the text of its cause", "statement": "For every failed form, signed or not, every failed URL and every failed key file, the text of the error is the one a table of causes prescribes: the table gives for each cause (time, order, missing field, method, length, header, lifetime, characters beyond ASCII, account lookup with the request and answer that failed, missing sign-blob flag, stages of the RSA key) its condition, stated without the program, and the exact text with what it quotes. Conditions that come first in the documentation's order come first in the table. A form that lacks its bucket is never said to lack its key, and so on.", "quantifier": "all options, builder calls, keys, files, server answers, executions, texts of outside errors", "why_tests_cant": "quantifies over all causes and answers; tests check a few error values and no texts", "anchors": ["src/html_form_data.rs: ErrorKind", "src/signed_url.rs: ErrorKind", "src/private/bound_token.rs: BoundTokenError", "src/private/signing_key_inner.rs: Error", "src/signing_key.rs: ErrorKind"]}
{"id": "C81", "title": "A private key's text is read as that key", "statement": "Texts of the same PKCS #8 key, with whatever text before the PEM block, label, line lengths and line ends, are one key: every message gets the same result with each, and never a PEM error. Conversely, unless the text has no PEM block, or its content is refused, the text contains a PEM block whose content is the DER encoding of a key, every octet of it, and the result is the one that any other text of this key gives. The DER reader accepts exactly the encodings of the standards (shortest lengths, no negative numbers), with what may follow the key in PKCS #8.", "quantifier": "all texts, keys, messages, size limits", "why_tests_cant": "quantifies over all texts; the tests have one key", "anchors": ["src/private/signing_key_inner.rs: SigningKeyInner::sign (lines 66-86)"]}
{"id": "C82", "title": "Local signatures verify", "statement": "Whenever signing with a service account's private key gives octets, they are an RSASSA-PKCS1-v1_5 signature with SHA-256 of the message (RFC 8017) under the public key written in the text: as long as the modulus, less than it, and their public power is the encoded digest of the message. No relation between the numbers of the key is assumed: a key with inconsistent numbers signs nothing that does not verify. The key then has an odd modulus and exponent within the limits (2041 to 4096 bits), exponent 65537 or more, and two odd factors of equal length, a multiple of 512 bits, whose product the modulus divides.", "quantifier": "all texts, messages, numbers in the key, size limits from 496 bits", "why_tests_cant": "tests compare with one signature", "anchors": ["src/private/signing_key_inner.rs: SigningKeyInner::sign (lines 66-86)"]}
{"id": "C83", "title": "Sound keys sign every message", "statement": "A text of a key whose numbers are as RFC 8017 defines them (primes in either order, exponents, coefficient) and which has the sizes that ring asks for, signs every message, and the signature is valid.", "quantifier": "all sound keys, texts of them, messages", "why_tests_cant": "needs Fermat's theorem and the Chinese remainder theorem for all keys", "anchors": ["src/private/signing_key_inner.rs: SigningKeyInner::sign (lines 66-86)"]}
{"id": "C84", "title": "Signatures are unique and for one digest", "statement": "Under a sound key a message has one valid signature: the one that signing gives is the only one that verifies. A signature that is valid for two messages is so only if both have the same digest.", "quantifier": "all sound keys, messages, signatures", "why_tests_cant": "quantifies over all octet strings as signatures", "anchors": ["src/private/signing_key_inner.rs: SigningKeyInner::sign (lines 66-86)"]}
{"id": "C85", "title": "Forms and URLs made with a service account verify under its public key", "statement": "If a form is built with a service account's key, the decoded signature field verifies, for the policy field, under the public key of that account. If a URL is built, its signature verifies for the string to sign of the canonical request of that URL, and a service that checks signatures by that public key accepts the request until it expires. With a sound key of the right sizes, a form fails only for its options and times, and a URL never fails in signing.", "quantifier": "all options, builder calls, keys, times, executions, services", "why_tests_cant": "the composition of encoding, hashing, key reading and RSA for all keys", "anchors": ["src/private/signing_key_inner.rs: SigningKeyInner::sign (lines 66-86)", "src/html_form_data.rs: HtmlFormDataBuilder::build", "src/signed_url.rs: build_signed_url"]}
{"id": "C86", "title": "Issued forms are accepted until they expire", "statement": "A service that decodes the policy, checks that it has not expired, that the fields satisfy its conditions, that every field is mentioned by a condition or needs none, that algorithm, credential, date and signature agree, and that the signature of the policy verifies for the account of the credential, accepts a successfully built form from the second of the build until the second of the expiration, with the fields in any order, further x-ignore- fields and a file of the stated size, if metadata names are distinct. Browsers submit the fields unchanged exactly if line breaks in values are CR LF and names have neither line breaks nor quotation marks; what a browser submits of any other form is accepted by no service at any time.", "quantifier": "all builder calls, options, executions, times, services, orders of fields, files, browsers that follow the HTML standard", "why_tests_cant": "tests build forms but no test has a service that checks them", "anchors": ["src/html_form_data.rs: HtmlFormDataBuilder::build", "src/private/policy_document.rs: PolicyDocument"]}
{"id": "C87", "title": "A form gives no more than was issued", "statement": "Whatever form a service accepts with the policy of an issued form: it is accepted only between the second of the build and the second of the expiration, contains every issued field with its value and none with that name and another value, has a file of the issued length, contains no other field except those that need no condition, names the account that was authorized when the form was built (if neither account nor region contain a slash), and has a signature of that policy that verifies for the account.", "quantifier": "all builder calls, options, executions, all forms an attacker could make, files, times, services", "why_tests_cant": "quantifies over all forms anybody could submit", "anchors": ["src/html_form_data.rs: HtmlFormDataBuilder::build", "src/private/policy_document.rs: PolicyDocument"]}
{"id": "C88", "title": "From the key file to the accepted request", "statement": "A JSON key file with the address of an account and the text of a sound private key of the right sizes gives a signing key. With it every form whose fields and times are in order is issued, in exactly one way, without any request; services that know the public key accept it until it expires and accept no other signature of its policy. URLs made with it are accepted likewise.", "quantifier": "all files, keys, builder calls, options, times, services, submitted forms", "why_tests_cant": "composition of file, JSON, PEM, DER, RSA, policy and service for all inputs", "anchors": ["src/signing_key.rs: SigningKey::service_account_from_path (lines 69-75)", "src/private/signing_key_inner.rs: SigningKeyInner::sign (lines 66-86)", "src/html_form_data.rs: HtmlFormDataBuilder::build", "src/signed_url.rs: build_signed_url"]}
{"id": "C89", "title": "The path of the URL for every bucket and object name", "statement": "For all bucket and object names, also those with dot segments, drive letters, backslashes, line breaks, question marks, number signs or trailing spaces, the path of the URL has exactly the segments that the URL standard (with the library's drive letters) gives for bucket, slash, object: each denotes its text and none contains another slash. Every name has exactly one such list. A name that never goes up more often than down stays in its bucket. Segments that lead back to the root do not count: for every ordinary bucket, the object name ../other/name gives the same path as the object name of the bucket other.", "quantifier": "all bucket and object names, options, dependencies, executions", "why_tests_cant": "C15 gives examples of names that do not survive; no test lists what becomes of every name", "anchors": ["src/signed_url.rs: build_signed_url", "src/private/signed_url.rs: SignedUrl"]}
{"id": "C90", "title": "Which names give URLs that servers accept", "statement": "Take any bucket and object name, whose path has the segments of C89. If in every one of them percent signs only start escapes in capitals of characters that servers escape, bars are characters the server does not escape and carets are treated alike by the library and the server, the URL is accepted from the second of the build until it expires. Otherwise no request at any time is accepted for what was signed, except through a hash collision. So names without percent sign, bar and caret are never refused, while the objects 100%, a%2Fb and %c3%a9 are. With ../ in front of an object name, the request that servers accept is one for another bucket.", "quantifier": "all bucket and object names, options, executions, times, servers, requests", "why_tests_cant": "C54 has accepted requests for portable names only; deciding acceptance for every name needs every server and every name", "anchors": ["src/signed_url.rs: build_signed_url", "src/private/canonical_request.rs: CanonicalRequest::new, percent_encode", "src/private/signed_url.rs: SignedUrl"]}
{"id": "C91", "title": "Which query parameters give URLs that servers accept", "statement": "If in all names and values percent signs only start escapes in capitals of characters that the server escapes, and all other characters are reserved ones or copied by the server, if no name is read as one of the six X-Goog- names, and if no name continues another one (or a name the library adds) with a character that is escaped or comes before the equals sign, the URL is accepted until it expires (with a path as in C90, plain region, account and header names, and header values without blanks at their ends). Otherwise no request at any time is accepted for what was signed, except through a hash collision; and no request that sends the headers as given is accepted if a value begins or ends with a blank. In particular a parameter with a slash in it, such as response-content-type=text/plain, gives a URL that no server accepts.", "quantifier": "all query parameters (also those inside the object name), options, executions, times, servers, requests", "why_tests_cant": "the tests compare texts and use one parameter without special characters; acceptance needs all servers", "anchors": ["src/signed_url.rs: build_signed_url", "src/private/canonical_request.rs: canonical_query_string, percent_encode", "src/private/signed_url.rs: add_signed_url_required_query_string_parameters"]}
{"id": "C92", "title": "The image uploader's page and server understand each other", "statement": "A request reaches a handler exactly if its method and path are those of the routes and, for a new image, the body is JSON with an unsigned length and a text type and at most 2 MiB, for an update, the id is one non-empty UTF-8 segment; the handler gets exactly these values. The page's request for a file with a type (of at most 300000 octets, sizes below 2^64) reaches the handler with that file's size and type; for a file without a type it reaches no handler. The page reads from each response exactly what the handler returned.", "quantifier": "all requests, bodies, files, forms, lists of links", "why_tests_cant": "there are no tests of the example; every body and every path would have to be tried", "anchors": ["examples/image-uploader/src/main.rs: main, create_image, update_image, CreateImageRequestBody, CreateImageResponseBody", "examples/image-uploader/index.html: createImage, loadImages, updateImage"]}
{"id": "C93", "title": "An upload through the page", "statement": "Whenever selecting a file ends with a list of images, in any history of the server, the file had a type, a form for exactly that size and type was issued and sent unchanged, followed by the file, to the bucket, the bucket took it, the id of the form was reported, and the list has a link to the new object. A service that knows the key accepts the form from its issue until the minute is over. A file without a type is never sent anywhere. If server and bucket answer well, the visit ends with the list.", "quantifier": "all files, histories of the server with other requests in between, answers of the bucket, times", "why_tests_cant": "it takes the page, the server, the bucket and other visitors together; tests have none of them", "anchors": ["examples/image-uploader/src/main.rs: create_image, list_images, update_image", "examples/image-uploader/index.html: onChange, createImage, uploadImage, updateImage, loadImages"]}
{"id": "C94", "title": "What the list of the page shows", "statement": "After a response the list shows every second image of what was shown before, from the second on, followed by all images of the response in order. It is just the response exactly if at most one image was shown before. The first list is right, and there are never more images than twice the longest response.", "quantifier": "all lists shown before, all responses, any number of them", "why_tests_cant": "the fault shows only from the second list with two images on; no test runs the page", "anchors": ["examples/image-uploader/index.html: renderListItems, main"]}
{"id": "C95", "title": "The page shows just the latest response (refutation)", "statement": "The list of the page shows just the images of the latest response. This is false: children are removed while iterating over the live list, so every second old image stays.", "quantifier": "all sequences of responses", "why_tests_cant": "tests show examples in which it holds", "anchors": ["examples/image-uploader/index.html: renderListItems"]}
{"id": "C96", "title": "Exactly which options give URLs that a server accepts", "statement": "For a signed URL from the builder, sent with the signed headers, a server accepts it as the library's account exactly if: every segment of the path agrees (C90), the parameters agree (C91), the characters of account and region other than slashes and those of the header names are written alike by both (not a percent sign, and reserved or kept by the server), header names are tokens, header values have no blanks around them, the time is within the window, and the signature verifies. The only exception is a collision of SHA-256 with the signed canonical request.", "quantifier": "all options, traces, keys, servers, times, headers as sent", "why_tests_cant": "a test tries one URL at one server; the condition covers every option together and both directions", "anchors": ["src/signed_url.rs: build_signed_url", "src/private/canonical_request.rs: canonical_query_string, canonical_headers, percent_encode", "src/private/signed_url.rs: SignedUrl::new, add_signed_url_required_query_string_parameters"]}
{"id": "C97", "title": "The octets of an upload are read as the form and the file", "statement": "The body that the browser makes of the page's upload is read by a service, by the grammar of multipart bodies, as exactly the fields with their names escaped and line breaks normalised, followed by the file with its name, type and content, exactly if the delimiter of the boundary does not occur in any value or in the content. A body has at most one reading. It is enough that the boundary itself does not occur; for all values and contents there is such a boundary.", "quantifier": "all fields with distinct names, files, names and contents, boundaries", "why_tests_cant": "browsers choose boundaries at random; no test looks at octets, let alone for all contents, and uniqueness of the reading is not an observation", "anchors": ["examples/image-uploader/index.html: uploadImage", "src/html_form_data.rs: HtmlFormDataBuilder::build"]}
{"id": "C98", "title": "A service accepts the octets of an upload", "statement": "If the boundary does not occur in the fields and the file, the body sent by the page for a form of the image uploader is read as one form with the file's octets, and a service that knows the key accepts it from the issue until the minute is over. For any form of the library sent so: the form read is the form issued exactly if the fields are plain; it is then accepted within its window if the file has the length asked for; and if it is ever accepted, as any account, the fields are plain.", "quantifier": "all forms of the builder, all keys and times, files, boundaries, services", "why_tests_cant": "it takes library, browser and service together for all contents", "anchors": ["src/html_form_data.rs: HtmlFormDataBuilder::build", "examples/image-uploader/index.html: uploadImage", "examples/image-uploader/src/main.rs: create_image"]}
{"id": "C99", "title": "From the metadata server to the accepted request", "statement": "In any concurrent history of calls with bound-token keys in which the metadata server names only one account and signBlob gives that account's signatures, every URL returned by any task, from a fresh token or from the cache, is accepted as that account within its window by every server that verifies the account's signatures (for the options that C96 describes), and every form returned is accepted as that account within its window. Requests may fail, tasks may be cancelled and other keys may be in use.", "quantifier": "all concurrent histories, tasks, caches, options, servers, times, sent headers and forms", "why_tests_cant": "it takes the cache, the platform, the signing and the verifying side together over all interleavings; tests have no platform", "anchors": ["src/signed_url.rs: build_signed_url", "src/html_form_data.rs: HtmlFormDataBuilder::build", "src/private/bound_token.rs: BoundToken::get_email_and_token", "src/private/signing_key_inner.rs: authorizer, sign"]}
{"id": "C100", "title": "A valid call whose own requests are answered well succeeds", "statement": "In any concurrent history in which the metadata server and signBlob have answered the requests of one call well, no other account was named to any call and no unsendable token was given to any, the addresses are usable, and clocks are in range, that call, if it has a bound-token key and uses signBlob, its options are valid and it ends, was cancelled or returned a result. Requests of other calls may have failed in any way: no earlier or concurrent failure makes this call fail. It returned no error and did not panic; the one exception is a URL whose extended text is longer than 65534 octets, which may panic.", "quantifier": "all concurrent histories, tasks, caches, valid options", "why_tests_cant": "a test shows that one call succeeds, not that no interleaving of valid calls gives an error", "anchors": ["src/signed_url.rs: build_signed_url", "src/html_form_data.rs: HtmlFormDataBuilder::build", "src/private/bound_token.rs: BoundToken::get_email_and_token", "src/private/signing_key_inner.rs: sign"]}
{"id": "C101", "title": "User names and passwords in GCE_METADATA_HOST", "statement": "For every content of the variable without the characters / \\ ? # (other than nothing): both metadata requests go over HTTP to what follows the last at sign and ask for the documented paths. They carry a Basic authorization header exactly if a user name or a password is written before it, with the escapes replaced, and then for exactly these; a password that is not Unicode is left out, a lone colon is nothing. No signBlob request gets such a header. With those characters the server and the credentials are read in the same way from the host that the variable names in the sense of C73, while the path may be another. A variable that begins with the name of the metadata server may still lead elsewhere.", "quantifier": "all contents of the variable, all executions of all calls, all requests", "why_tests_cant": "the tests set a plain host; the header is made by the HTTP client out of the URL text", "anchors": ["src/private/bound_token.rs: BoundToken::new, get_email_and_token, sign"]}
{"id": "C102", "title": "Exactly which forms a service accepts", "statement": "For a signed form from the builder and any form with its policy, a service accepts the upload as the library's account exactly if: policy, signature, algorithm, credential and date are each given once, every issued field is there with its value and no other (the length field may be absent), every other field needs no condition, the file has the issued length if there is one, the time is from the second of signing to before the second of expiry, and the signature verifies. For the form as issued, in any order and with fields to be ignored, this comes down to the length, the window, the signature and that metadata set twice under a name was set to one value; through a browser also that the fields are plain.", "quantifier": "all sequences of builder calls, traces, keys, forms, sizes, times", "why_tests_cant": "a test uploads one form once; exactness needs both directions over all forms, and repeated metadata is not tested", "anchors": ["src/html_form_data.rs: HtmlFormDataBuilder::build, x_goog_meta, content_length", "src/private/policy_document.rs: PolicyDocument"]}
{"id": "C103", "title": "The text of the request URL and what its length decides", "statement": "The request URL of a bucket, object and parameters is the origin, the path, the query and the fragment of 'bucket/object' read as a URL reference: trailing controls and spaces and all tabs and line breaks are dropped, the first question mark and the number sign end the path, dot segments are followed, special characters of each part are written as percent sign and two capital hex digits and all others kept, and the parameters are appended form-encoded. The path of a signed URL is this path. The error HttpRequest is returned exactly if time, lifetime order and method are right and this text has more than 65534 octets. The call panics over the length exactly if everything is valid, the account is known and the text with the five added parameters but without the fragment has more than 65534 octets; a URL that is returned had at most that many.", "quantifier": "all bucket and object names, parameters, headers, keys, clocks, traces", "why_tests_cant": "the tests use short names of plain letters; the limit and the escaping are rules about every text", "anchors": ["src/signed_url.rs: build_signed_url", "src/private/signed_url.rs: add_signed_url_required_query_string_parameters, SignedUrl::new"]}
{"id": "C104", "title": "The metadata host decides nothing but where metadata requests go", "statement": "For any two contents of GCE_METADATA_HOST that give usable addresses, and any call with a bound-token key: every execution with one content is an execution with the other, event by event with the same responses, clock readings, lock steps and cache accesses, the same signBlob request and the same end, except that the metadata requests name the other host. The same holds for concurrent histories of any calls with any keys, each key with two addresses of its own.", "quantifier": "all calls, executions (also unfinished ones), contents of the variable, responses", "why_tests_cant": "the tests use one host; independence is about pairs of executions", "anchors": ["src/private/bound_token.rs: BoundToken::new, get_email_and_token, sign", "src/private/signing_key_inner.rs: authorizer, sign"]}
{"id": "C105", "title": "Tokens are fetched rarely", "statement": "In every concurrent history of calls: if the tokens fetched for a key live at least L seconds (L at least 30) and the clock, as the holders of the key's lock read it, does not go back, then the token of the key is fetched at most once, plus once for each L - 30 seconds that passed. The requests sent to the metadata server are two for each fetch that was stored, plus at most two for each call with this key that did not end in success. So the load on the metadata server does not grow with the number of successful calls.", "quantifier": "all histories of any number of tasks, keys, interleavings, cancellations, responses, clocks that do not go back", "why_tests_cant": "a test sees one schedule; the bound is over all interleavings and all numbers of calls", "anchors": ["src/private/bound_token.rs: get_email_and_token, sign", "src/private/signing_key_inner.rs: authorizer, sign"]}
{"id": "C106", "title": "Which objects and parameters a signed URL can reach, and how to write them", "statement": "Take a server, and bucket, object and parameters as the server knows them. If no segment of bucket/object is a dot or two dots, a backslash in it is escaped by the server, and a caret in it is not one that only the URL library escapes, and if no parameter has an X-Goog- name and none overtakes another in the order of texts: passing all of them percent-encoded as the server does gives a URL whose path denotes exactly bucket/object, from which the server reads exactly these parameters besides the library's, and which it accepts until it expires. Otherwise no names at all help: whatever URL has this path, or these parameters, no request is accepted for what was signed, except through a hash collision.", "quantifier": "all servers, buckets, objects, parameters, ways to write them, keys, clocks, traces", "why_tests_cant": "the tests use one object of plain letters; reachability quantifies over all ways to write a name", "anchors": ["src/signed_url.rs: build_signed_url", "src/private/canonical_request.rs: CanonicalRequest::new, percent_encode"]}
{"id": "C107", "title": "A key recovers from everything", "statement": "After any concurrent history, with calls that failed, panicked, were cancelled or are still running, and for any way in which the servers answer from then on (any answers, any clock), all running calls can be run to their ends without cancelling any. If the answers are good, no other account was named so far, no unsendable token was given and no clock was before 1970, then a new call with a bound-token key, signBlob and valid options (for a URL: not longer than 65534 octets) can be started at once and returns a result.", "quantifier": "all histories, states of locks and caches, answers, valid options", "why_tests_cant": "a test reaches a few states of a key; this is about all states that failures, panics and cancellations can leave behind", "anchors": ["src/private/bound_token.rs: BoundToken::get_email_and_token, sign", "src/signed_url.rs: build_signed_url", "src/html_form_data.rs: HtmlFormDataBuilder::build"]}
{"id": "C108", "title": "A change of the service account", "statement": "The account of a platform may change while calls are running, and signBlob signs for whichever account it is asked for. In every concurrent history, a form or URL that a call with a bound-token key returned names an account that the metadata server named, and is signed by an account that the metadata server named. The two differ only if some task put a token of the signing account into the cache of the key after the call had given back its lock for the first time and before signBlob answered it. A form and a URL are accepted exactly if the signature is one of the account named in them and the other conditions hold (for a URL: except through a hash collision).", "quantifier": "all histories with any number of calls, any accounts named at any time, any servers that verify", "why_tests_cant": "tests run one call against one fixed account; the account changes only rarely, and only some interleavings show it", "anchors": ["src/private/bound_token.rs: BoundToken::get_email_and_token, sign", "src/signed_url.rs: build_signed_url", "src/html_form_data.rs: HtmlFormDataBuilder::build"]}
{"id": "C109", "title": "The key decides nothing but the account and the signature", "statement": "Two forms with the same fields, the same region and an expiration in the same second, or two URLs for the same thing, made with any two keys: if the keys stand for the same account and both are made in the same second (and a URL lasts the same number of seconds), the signed texts are the same, and with the same signature the results are the same. So in any two concurrent histories, or at two places of one history, a service account's private key and a bound token for that account, or bound tokens at different hosts, with fresh or cached tokens, give exactly the same form and the same URL, if an account has one signature per text (which C84 says for RSA keys).", "quantifier": "all options, keys of all kinds, histories, interleavings, clocks within a second", "why_tests_cant": "tests run each kind of key against its own expected text; none compares them for all options and interleavings", "anchors": ["src/private/signing_key_inner.rs: SigningKeyInner::authorizer, sign", "src/signed_url.rs: build_signed_url", "src/html_form_data.rs: HtmlFormDataBuilder::build"]}
{"id": "C110", "title": "Timestamps and system times", "statement": "Every timestamp from 1970 to 9999 turns into the system time of that second and is read back from it unchanged; a system time that has a timestamp comes back cut to the beginning of its second; the UTC text of such a second, read and turned into a system time, is written as the same text again. Timestamps before 1970, which the reader of texts accepts, have no system time: the conversion panics on each of them.", "quantifier": "all timestamps, all system times, all UTC texts", "why_tests_cant": "tests convert single instants of the present; the cast of negative values is not exercised at all", "anchors": ["src/private/utils/unix_timestamp.rs: UnixTimestamp::to_system_time, from_system_time, from_rfc3339"]}
