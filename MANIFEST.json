{
 "claims": [
  {
   "property": "C01",
   "status": "proved",
   "theorems": [
    "C01_unsigned_build"
   ],
   "note": "For every sequence of builder calls; the output is specified from the calls alone (SpecForm)."
  },
  {
   "property": "C02",
   "status": "proved",
   "theorems": [
    "C02_signed_fields"
   ],
   "note": ""
  },
  {
   "property": "C03",
   "status": "proved",
   "theorems": [
    "C03_policy_covers"
   ],
   "note": ""
  },
  {
   "property": "C04",
   "status": "proved",
   "theorems": [
    "C04_expiration"
   ],
   "note": ""
  },
  {
   "property": "C05",
   "status": "proved",
   "theorems": [
    "C05_window",
    "C05_empty_window"
   ],
   "note": ""
  },
  {
   "property": "C06",
   "status": "proved",
   "theorems": [
    "C06_signature"
   ],
   "note": "RSA itself is a parameter: the signature is what the signing function, or the signBlob response, returned for exactly the policy bytes."
  },
  {
   "property": "C07",
   "status": "proved",
   "theorems": [
    "C07_credential"
   ],
   "note": ""
  },
  {
   "property": "C08",
   "status": "proved",
   "theorems": [
    "C08_precedence",
    "C08_errors"
   ],
   "note": ""
  },
  {
   "property": "C09",
   "status": "proved",
   "theorems": [
    "C09_panics",
    "C09_no_panic",
    "C09_sign_blob_panics"
   ],
   "note": ""
  },
  {
   "property": "C10",
   "status": "proved",
   "theorems": [
    "C10_tamper_evidence"
   ],
   "note": ""
  },
  {
   "property": "C11",
   "status": "proved",
   "theorems": [
    "C11_expires",
    "C11_rejected"
   ],
   "note": "a rejected lifetime gives an error, or a panic if there are too many headers for the header map (C27)"
  },
  {
   "property": "C12",
   "status": "proved",
   "theorems": [
    "C12_shape",
    "C12_origin"
   ],
   "note": ""
  },
  {
   "property": "C13",
   "status": "proved",
   "theorems": [
    "C13_signed_message"
   ],
   "note": ""
  },
  {
   "property": "C14",
   "status": "proved",
   "theorems": [
    "C14_path",
    "C14_plain_path"
   ],
   "note": ""
  },
  {
   "property": "C15",
   "status": "proved",
   "theorems": [
    "C15_refuted",
    "C15_witnesses",
    "C15_cut"
   ],
   "note": "The unrestricted claim is refuted; what the path is cut to is proved in general."
  },
  {
   "property": "C16",
   "status": "proved",
   "theorems": [
    "C16_round_trip"
   ],
   "note": ""
  },
  {
   "property": "C17",
   "status": "proved",
   "theorems": [
    "C17_refuted",
    "C17_read"
   ],
   "note": "Refutation, and the general law of what a server reads."
  },
  {
   "property": "C18",
   "status": "proved",
   "theorems": [
    "C18_permutation",
    "C18_sorted"
   ],
   "note": "Also for errors, panics and the requests sent."
  },
  {
   "property": "C19",
   "status": "proved",
   "theorems": [
    "C19_refuted",
    "C19_names"
   ],
   "note": "Refutation with part/part1, and the positive part."
  },
  {
   "property": "C20",
   "status": "proved",
   "theorems": [
    "C20_headers",
    "C20_names",
    "C20_rearranged"
   ],
   "note": ""
  },
  {
   "property": "C21",
   "status": "proved",
   "theorems": [
    "C21_accepted",
    "C21_rejected",
    "C21_lines"
   ],
   "note": "Whether the http crate accepts the double quote in names is a parameter."
  },
  {
   "property": "C22",
   "status": "proved",
   "theorems": [
    "C22_binding"
   ],
   "note": "Also for different keys and environments."
  },
  {
   "property": "C23",
   "status": "proved",
   "theorems": [
    "C23_method",
    "C23_signed"
   ],
   "note": ""
  },
  {
   "property": "C24",
   "status": "proved",
   "theorems": [
    "C24_credential"
   ],
   "note": ""
  },
  {
   "property": "C25",
   "status": "proved",
   "theorems": [
    "C25_refuted",
    "C25_components",
    "C25_four"
   ],
   "note": ""
  },
  {
   "property": "C26",
   "status": "proved",
   "theorems": [
    "C26_refuted",
    "C26_witnesses",
    "C26_once"
   ],
   "note": ""
  },
  {
   "property": "C27",
   "status": "proved",
   "theorems": [
    "C27_local",
    "C27_unimplemented",
    "C27_uri_panics"
   ],
   "note": ""
  },
  {
   "property": "C28",
   "status": "proved",
   "theorems": [
    "C28_first_violation",
    "C28_complete",
    "C28_reported"
   ],
   "note": ""
  },
  {
   "property": "C29",
   "status": "proved",
   "theorems": [
    "C29_pure"
   ],
   "note": ""
  },
  {
   "property": "C30",
   "status": "proved",
   "theorems": [
    "C30_single_reading",
    "C30_no_other_reading"
   ],
   "note": ""
  },
  {
   "property": "C31",
   "status": "proved",
   "theorems": [
    "C31_token_use",
    "C31_lookup",
    "C31_fresh"
   ],
   "note": "Holds for every response of the environment, so for every interleaving."
  },
  {
   "property": "C32",
   "status": "proved",
   "theorems": [
    "C32_cache",
    "C32_read"
   ],
   "note": ""
  },
  {
   "property": "C33",
   "status": "proved",
   "theorems": [
    "C33_failed_response",
    "C33_lookup"
   ],
   "note": ""
  },
  {
   "property": "C34",
   "status": "proved",
   "theorems": [
    "C34_one",
    "C34_no_overlap"
   ],
   "note": ""
  },
  {
   "property": "C35",
   "status": "proved",
   "theorems": [
    "C35_serves"
   ],
   "note": ""
  },
  {
   "property": "C36",
   "status": "proved",
   "theorems": [
    "C36_lock",
    "C36_progress",
    "C36_bound",
    "C36_total",
    "C36_completes"
   ],
   "note": "the bound of 25 events per call with C36_progress excludes infinite schedules and deadlocks"
  },
  {
   "property": "C37",
   "status": "proved",
   "theorems": [
    "C37_signature",
    "C37_requests",
    "C31_token_use"
   ],
   "note": ""
  },
  {
   "property": "C38",
   "status": "proved",
   "theorems": [
    "C38_refuted",
    "C38_form",
    "C38_url"
   ],
   "note": "the guarantee is refuted with a witness; if the second lookup of a call is not disturbed the two emails agree"
  },
  {
   "property": "C39",
   "status": "proved",
   "theorems": [
    "C39_refuted",
    "C39_panic_cause",
    "C39_no_panic",
    "C39_no_panic_form",
    "C39_after_panic",
    "C39_cache_unchanged"
   ],
   "note": ""
  },
  {
   "property": "C40",
   "status": "proved",
   "theorems": [
    "C40_never",
    "C40_form",
    "C40_url"
   ],
   "note": ""
  },
  {
   "property": "C41",
   "status": "proved",
   "theorems": [
    "C41_calendar",
    "C41_civil"
   ],
   "note": "Texts equal the UTC texts of a calendar defined by day-by-day succession from 1970-01-01 (SpecCalendar.v)."
  },
  {
   "property": "C42",
   "status": "proved",
   "theorems": [
    "C42_texts"
   ],
   "note": ""
  },
  {
   "property": "C43",
   "status": "proved",
   "theorems": [
    "C43_range",
    "C43_bound"
   ],
   "note": ""
  },
  {
   "property": "C44",
   "status": "proved",
   "theorems": [
    "C44_not_a_date_refuted",
    "C44_roundtrip_refuted",
    "C44_digits",
    "C44_rendered"
   ],
   "note": "The faithful-inverse claim is refuted with witnesses; the true part is proved."
  },
  {
   "property": "C45",
   "status": "proved",
   "theorems": [
    "C45_roundtrip"
   ],
   "note": ""
  },
  {
   "property": "C46",
   "status": "proved",
   "theorems": [
    "C46_policy_text",
    "C46_policy_injective",
    "C46_payload_text"
   ],
   "note": "Against the RFC 8259 grammar relation of SpecJson.v."
  },
  {
   "property": "C47",
   "status": "proved",
   "theorems": [
    "C47_field_names",
    "C47_field_injective"
   ],
   "note": ""
  },
  {
   "property": "C48",
   "status": "proved",
   "theorems": [
    "C48_success",
    "C48_errors",
    "C48_key"
   ],
   "note": "serde_json limits (nesting 127, number range) are part of the statement."
  },
  {
   "property": "C49",
   "status": "proved",
   "theorems": [
    "C49_hex",
    "C49_base64",
    "C49_base64_decode",
    "C49_base64_alphabet"
   ],
   "note": ""
  },
  {
   "property": "C50",
   "status": "proved",
   "theorems": [
    "C50_new",
    "C50_text",
    "C50_injective"
   ],
   "note": ""
  },
  {
   "property": "C51",
   "status": "proved",
   "theorems": [
    "C51_refuted",
    "C51_characters",
    "C51_copied"
   ],
   "note": ""
  },
  {
   "property": "C52",
   "status": "proved",
   "theorems": [
    "C52_duplicate_names",
    "C52_names_distinct"
   ],
   "note": ""
  },
  {
   "property": "C53",
   "status": "proved",
   "theorems": [
    "C53_digest",
    "C53_shape",
    "C53_function"
   ],
   "note": ""
  },
  {
   "property": "C54",
   "status": "proved",
   "theorems": [
    "C54_accepted",
    "C54_unportable"
   ],
   "note": "the accepting server is a specification (SpecServer.v) written from the public documentation of V4 signatures"
  },
  {
   "property": "C55",
   "status": "proved",
   "theorems": [
    "C55_bound",
    "C55_expired"
   ],
   "note": "collisions of SHA-256 appear as an explicit alternative"
  },
  {
   "property": "C56",
   "status": "proved",
   "theorems": [
    "C56_secrets",
    "C56_destination"
   ],
   "note": ""
  },
  {
   "property": "C57",
   "status": "proved",
   "theorems": [
    "C57_requests",
    "C57_bound",
    "C57_success"
   ],
   "note": ""
  },
  {
   "property": "C58",
   "status": "proved",
   "theorems": [
    "C58_read",
    "C58_unique",
    "C58_value_refuted"
   ],
   "note": "the claim that reading depends on the JSON value only is refuted with a witness"
  },
  {
   "property": "C59",
   "status": "proved",
   "theorems": [
    "C59_rfc3339",
    "C59_expiration",
    "C59_strict",
    "C59_rfc3339_only_refuted",
    "C59_leap_second_refuted"
   ],
   "note": ""
  },
  {
   "property": "C60",
   "status": "proved",
   "theorems": [
    "C60_basic",
    "C60_roundtrip",
    "C60_strict_refuted"
   ],
   "note": ""
  },
  {
   "property": "C61",
   "status": "proved",
   "theorems": [
    "C61_host",
    "C61_requests",
    "C61_empty_refuted",
    "C61_file",
    "C61_file_errors",
    "C104_host"
   ],
   "note": "the claim that an empty variable counts as unset is refuted with a witness"
  },
  {
   "property": "C62",
   "status": "proved",
   "theorems": [
    "C62_histories",
    "C62_determined"
   ],
   "note": ""
  },
  {
   "property": "C63",
   "status": "proved",
   "theorems": [
    "C63_independent"
   ],
   "note": ""
  },
  {
   "property": "C64",
   "status": "proved",
   "theorems": [
    "C64_serial"
   ],
   "note": ""
  },
  {
   "property": "C65",
   "status": "proved",
   "theorems": [
    "C65_refines",
    "C65_complete"
   ],
   "note": "tokio is modelled from memory of its batch semaphore"
  },
  {
   "property": "C66",
   "status": "proved",
   "theorems": [
    "C66_order",
    "C66_bounded"
   ],
   "note": ""
  },
  {
   "property": "C67",
   "status": "proved",
   "theorems": [
    "C67_wait",
    "C67_progress",
    "C67_maximal",
    "C67_finite",
    "C67_completes"
   ],
   "note": ""
  },
  {
   "property": "C68",
   "status": "proved",
   "theorems": [
    "C68_images",
    "C68_uploaded",
    "C68_monotone"
   ],
   "note": ""
  },
  {
   "property": "C69",
   "status": "proved",
   "theorems": [
    "C69_links",
    "C69_failure"
   ],
   "note": ""
  },
  {
   "property": "C70",
   "status": "proved",
   "theorems": [
    "C70_form",
    "C70_upload"
   ],
   "note": "random bytes are arbitrary, so ids may coincide"
  },
  {
   "property": "C71",
   "status": "proved",
   "theorems": [
    "C71_configuration",
    "C71_form_errors",
    "C71_form_panics",
    "C71_links"
   ],
   "note": ""
  },
  {
   "property": "C72",
   "status": "proved",
   "theorems": [
    "C72_server",
    "C72_account",
    "C72_name",
    "C72_every_account",
    "C72_every_request",
    "C72_account_refuted"
   ],
   "note": "the claim for all account texts is refuted with witnesses"
  },
  {
   "property": "C73",
   "status": "proved",
   "theorems": [
    "C73_metadata",
    "C73_requests",
    "C73_address",
    "C73_every_host",
    "C73_every_request",
    "C73_metadata_refuted"
   ],
   "note": "the claim for all contents of the variable is refuted with witnesses; redirects: C78"
  },
  {
   "property": "C74",
   "status": "proved",
   "theorems": [
    "C74_policy_determines_form"
   ],
   "note": ""
  },
  {
   "property": "C75",
   "status": "proved",
   "theorems": [
    "C75_disjoint",
    "C75_requests",
    "C75_form",
    "C75_url"
   ],
   "note": ""
  },
  {
   "property": "C76",
   "status": "proved",
   "theorems": [
    "C76_form_distinct",
    "C76_url_distinct",
    "C76_key_file",
    "C76_key_file_refuted",
    "C76_report",
    "C76_chain",
    "C76_chain_refuted",
    "C76_sources",
    "C76_file_sources"
   ],
   "note": "the two claims that fail for key files are refuted with witnesses"
  },
  {
   "property": "C77",
   "status": "proved",
   "theorems": [
    "C77_refused",
    "C77_accepted",
    "C77_url"
   ],
   "note": ""
  },
  {
   "property": "C78",
   "status": "proved",
   "theorems": [
    "C78_count",
    "C78_led",
    "C78_result",
    "C78_token",
    "C78_hop",
    "C78_payload",
    "C78_metadata",
    "C78_token_refuted",
    "C78_plain_refuted",
    "C78_payload_refuted",
    "C78_source_refuted",
    "C78_authority",
    "C78_headers",
    "C78_content",
    "C78_start",
    "C78_sign",
    "C78_followed",
    "C78_kept"
   ],
   "note": "behaviour of reqwest from memory; both behaviours of clients on removed headers are covered"
  },
  {
   "property": "C79",
   "status": "proved",
   "theorems": [
    "C79_refused",
    "C79_only"
   ],
   "note": ""
  },
  {
   "property": "C80",
   "status": "proved",
   "theorems": [
    "C80_form",
    "C80_unsigned",
    "C80_url",
    "C80_file"
   ],
   "note": ""
  },
  {
   "property": "C81",
   "status": "proved",
   "theorems": [
    "C81_same",
    "C81_contains",
    "C81_exact"
   ],
   "note": "pem and ring from memory of their sources"
  },
  {
   "property": "C82",
   "status": "proved",
   "theorems": [
    "C82_any",
    "C82_valid",
    "C82_strength",
    "C82_primes",
    "C82_ring"
   ],
   "note": "pem and ring from memory of their sources"
  },
  {
   "property": "C83",
   "status": "proved",
   "theorems": [
    "C83_signs",
    "C83_ring"
   ],
   "note": "the case beside it has a key of 496 bits with limits to match: primality of larger primes takes too long to check without the virtual machine"
  },
  {
   "property": "C84",
   "status": "proved",
   "theorems": [
    "C84_unique",
    "C84_message",
    "C84_only"
   ],
   "note": ""
  },
  {
   "property": "C85",
   "status": "proved",
   "theorems": [
    "C85_form",
    "C85_url",
    "C85_accepted",
    "C85_form_signs",
    "C85_url_signs"
   ],
   "note": ""
  },
  {
   "property": "C86",
   "status": "proved",
   "theorems": [
    "C86_accepted",
    "C86_browser",
    "C86_plain"
   ],
   "note": "that browsers follow the HTML standard and services the documentation is the specification in SpecUpload.v"
  },
  {
   "property": "C87",
   "status": "proved",
   "theorems": [
    "C87_only"
   ],
   "note": ""
  },
  {
   "property": "C88",
   "status": "proved",
   "theorems": [
    "C88_form",
    "C88_url"
   ],
   "note": "ring is the modelled signer, see C82; URLs under the conditions of C54"
  },
  {
   "property": "C89",
   "status": "proved",
   "theorems": [
    "C89_path",
    "C89_total",
    "C89_inside",
    "C89_outside",
    "C89_escape"
   ],
   "note": "closes the cases that C14 excludes; the last part states that the library does not confine object names to the bucket"
  },
  {
   "property": "C90",
   "status": "proved",
   "theorems": [
    "C90_accepted",
    "C90_refused",
    "C90_undisputed",
    "C90_disputed",
    "C90_other_bucket"
   ],
   "note": "servers are those of SpecServer.v, see C54; closes the names that C54 excludes"
  },
  {
   "property": "C91",
   "status": "proved",
   "theorems": [
    "C91_accepted",
    "C91_refused",
    "C91_plain",
    "C91_stray",
    "C91_slash",
    "C91_blanks"
   ],
   "note": "closes the parameters that C54 excludes"
  },
  {
   "property": "C92",
   "status": "proved",
   "theorems": [
    "C92_routes",
    "C92_create",
    "C92_untyped",
    "C92_update",
    "C92_answers"
   ],
   "note": "axum, the browser and JSON.parse are modelled as far as Page.v says"
  },
  {
   "property": "C93",
   "status": "proved",
   "theorems": [
    "C93_visit",
    "C93_untyped",
    "C93_shows",
    "C93_accepted"
   ],
   "note": "the service is that of SpecUpload.v, see C86"
  },
  {
   "property": "C94",
   "status": "proved",
   "theorems": [
    "C94_render",
    "C94_exact",
    "C94_first",
    "C94_bounded"
   ],
   "note": ""
  },
  {
   "property": "C95",
   "status": "proved",
   "theorems": [
    "C95_latest_refuted"
   ],
   "note": "the statement is false; C94 says exactly when it holds"
  },
  {
   "property": "C96",
   "status": "proved",
   "theorems": [
    "C96_exactly"
   ],
   "note": "both directions for the URL as issued; joins C54, C55, C90 and C91 and adds account, region and header names; the collision is explicit"
  },
  {
   "property": "C97",
   "status": "proved",
   "theorems": [
    "C97_read",
    "C97_unique",
    "C97_absent",
    "C97_boundary"
   ],
   "note": "the encoding of browsers (Multipart.v) is from the HTML standard, from memory"
  },
  {
   "property": "C98",
   "status": "proved",
   "theorems": [
    "C98_page",
    "C98_form"
   ],
   "note": "services are those of SpecUpload.v reading octets as in SpecMultipart.v"
  },
  {
   "property": "C99",
   "status": "proved",
   "theorems": [
    "C99_url",
    "C99_form"
   ],
   "note": "the platform is described by SpecPlatform.v as a condition on the history"
  },
  {
   "property": "C100",
   "status": "proved",
   "theorems": [
    "C100_form",
    "C100_url"
   ],
   "note": "for signing with signBlob; without it C40 gives the error. Ends, not termination: a call can wait for a response or the mutex for ever"
  },
  {
   "property": "C101",
   "status": "proved",
   "theorems": [
    "C101_metadata",
    "C101_requests",
    "C101_every_host",
    "C101_every_request",
    "C101_prefix_refuted"
   ],
   "note": "url 2.5 and reqwest 0.12 from memory; a user name that is not Unicode stays in the URL and is left open"
  },
  {
   "property": "C102",
   "status": "proved",
   "theorems": [
    "C102_exactly",
    "C102_issued",
    "C102_browser"
   ],
   "note": "services and browsers are those of SpecUpload.v, see C86"
  },
  {
   "property": "C103",
   "status": "proved",
   "theorems": [
    "C103_text",
    "C103_path",
    "C103_too_long",
    "C103_panics",
    "C103_always",
    "C103_short"
   ],
   "note": "also pins down target and extended of C27, C28, C40 and C100 by a specification that uses no function of the model; url 2.5 and http 1 from memory"
  },
  {
   "property": "C104",
   "status": "proved",
   "theorems": [
    "C104_host",
    "C104_histories"
   ],
   "note": ""
  },
  {
   "property": "C105",
   "status": "proved",
   "theorems": [
    "C105_rate",
    "C105_requests",
    "C105_load"
   ],
   "note": "the clock hypothesis is about readings under the lock of the key only"
  },
  {
   "property": "C106",
   "status": "proved",
   "theorems": [
    "C106_reached",
    "C106_read",
    "C106_unreachable",
    "C106_impassable"
   ],
   "note": "servers are those of SpecServer.v, see C54"
  },
  {
   "property": "C107",
   "status": "proved",
   "theorems": [
    "C107_completes",
    "C107_form",
    "C107_url"
   ],
   "note": "that the call can be run to a result without further cancellations; that it does on every schedule on which it ends is C100, that schedules end is C36 and C67"
  },
  {
   "property": "C108",
   "status": "proved",
   "theorems": [
    "C108_form",
    "C108_url"
   ],
   "note": "that the two accounts can differ is C38_refuted, and in a history of two tasks C108_case"
  },
  {
   "property": "C109",
   "status": "proved",
   "theorems": [
    "C109_form",
    "C109_url",
    "C109_histories_form",
    "C109_histories_url"
   ],
   "note": "that an account has one signature per text is a hypothesis of the last two; C84_unique proves it for RSA"
  },
  {
   "property": "C110",
   "status": "proved",
   "theorems": [
    "C110_round_trip",
    "C110_cut",
    "C110_before",
    "C110_total_refuted",
    "C110_text"
   ],
   "note": "that every timestamp has a system time is refuted: those before 1970 panic; to_system_time is used by tests only"
  }
 ]
}