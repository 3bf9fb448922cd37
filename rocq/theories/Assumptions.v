(** The axioms each claimed theorem depends on; the build prints them.
    Generated from MANIFEST.json. *)
From Verif Require Import Prop_AccountText Prop_Address Prop_AddressText Prop_Agree Prop_Ascii Prop_Bound Prop_Change Prop_Codec Prop_Conc Prop_Constructors Prop_Exact Prop_Fifo Prop_Form Prop_FormExact Prop_History Prop_Host Prop_HostFree Prop_HostHistory Prop_KeyFile Prop_Keys Prop_Login Prop_LoginText Prop_Messages Prop_Multipart Prop_Name Prop_Page Prop_Parameter Prop_Path Prop_Platform Prop_Policy Prop_PolicyText Prop_Purpose Prop_Rate Prop_Recovery Prop_Redirect Prop_RedirectHeaders Prop_RequestUrl Prop_Requests Prop_Rsa Prop_Scope Prop_Secret Prop_Serial Prop_Server Prop_ServiceAccount Prop_Sha Prop_Sources Prop_SystemTime Prop_Target Prop_Texts Prop_Time Prop_TimeBasic Prop_TimeText Prop_Upload Prop_Uploader Prop_Url Prop_UrlHeaders Prop_UrlPath Prop_UrlQuery Prop_UrlScope.

Print Assumptions C01_unsigned_build.
Print Assumptions C02_signed_fields.
Print Assumptions C03_policy_covers.
Print Assumptions C04_expiration.
Print Assumptions C05_window.
Print Assumptions C05_empty_window.
Print Assumptions C06_signature.
Print Assumptions C07_credential.
Print Assumptions C08_precedence.
Print Assumptions C08_errors.
Print Assumptions C09_panics.
Print Assumptions C09_no_panic.
Print Assumptions C09_sign_blob_panics.
Print Assumptions C10_tamper_evidence.
Print Assumptions C11_expires.
Print Assumptions C11_rejected.
Print Assumptions C12_shape.
Print Assumptions C12_origin.
Print Assumptions C13_signed_message.
Print Assumptions C14_path.
Print Assumptions C14_plain_path.
Print Assumptions C15_refuted.
Print Assumptions C15_witnesses.
Print Assumptions C15_cut.
Print Assumptions C16_round_trip.
Print Assumptions C17_refuted.
Print Assumptions C17_read.
Print Assumptions C18_permutation.
Print Assumptions C18_sorted.
Print Assumptions C19_refuted.
Print Assumptions C19_names.
Print Assumptions C20_headers.
Print Assumptions C20_names.
Print Assumptions C20_rearranged.
Print Assumptions C21_accepted.
Print Assumptions C21_rejected.
Print Assumptions C21_lines.
Print Assumptions C22_binding.
Print Assumptions C23_method.
Print Assumptions C23_signed.
Print Assumptions C24_credential.
Print Assumptions C25_refuted.
Print Assumptions C25_components.
Print Assumptions C25_four.
Print Assumptions C26_refuted.
Print Assumptions C26_witnesses.
Print Assumptions C26_once.
Print Assumptions C27_local.
Print Assumptions C27_unimplemented.
Print Assumptions C27_uri_panics.
Print Assumptions C28_first_violation.
Print Assumptions C28_complete.
Print Assumptions C28_reported.
Print Assumptions C29_pure.
Print Assumptions C30_single_reading.
Print Assumptions C30_no_other_reading.
Print Assumptions C31_token_use.
Print Assumptions C31_lookup.
Print Assumptions C31_fresh.
Print Assumptions C32_cache.
Print Assumptions C32_read.
Print Assumptions C33_failed_response.
Print Assumptions C33_lookup.
Print Assumptions C34_one.
Print Assumptions C34_no_overlap.
Print Assumptions C35_serves.
Print Assumptions C36_lock.
Print Assumptions C36_progress.
Print Assumptions C36_bound.
Print Assumptions C36_total.
Print Assumptions C36_completes.
Print Assumptions C37_signature.
Print Assumptions C37_requests.
Print Assumptions C38_refuted.
Print Assumptions C38_form.
Print Assumptions C38_url.
Print Assumptions C39_refuted.
Print Assumptions C39_panic_cause.
Print Assumptions C39_no_panic.
Print Assumptions C39_no_panic_form.
Print Assumptions C39_after_panic.
Print Assumptions C39_cache_unchanged.
Print Assumptions C40_never.
Print Assumptions C40_form.
Print Assumptions C40_url.
Print Assumptions C41_calendar.
Print Assumptions C41_civil.
Print Assumptions C42_texts.
Print Assumptions C43_range.
Print Assumptions C43_bound.
Print Assumptions C44_not_a_date_refuted.
Print Assumptions C44_roundtrip_refuted.
Print Assumptions C44_digits.
Print Assumptions C44_rendered.
Print Assumptions C45_roundtrip.
Print Assumptions C46_policy_text.
Print Assumptions C46_policy_injective.
Print Assumptions C46_payload_text.
Print Assumptions C47_field_names.
Print Assumptions C47_field_injective.
Print Assumptions C48_success.
Print Assumptions C48_errors.
Print Assumptions C48_key.
Print Assumptions C49_hex.
Print Assumptions C49_base64.
Print Assumptions C49_base64_decode.
Print Assumptions C49_base64_alphabet.
Print Assumptions C50_new.
Print Assumptions C50_text.
Print Assumptions C50_injective.
Print Assumptions C51_refuted.
Print Assumptions C51_characters.
Print Assumptions C51_copied.
Print Assumptions C52_duplicate_names.
Print Assumptions C52_names_distinct.
Print Assumptions C53_digest.
Print Assumptions C53_shape.
Print Assumptions C53_function.
Print Assumptions C54_accepted.
Print Assumptions C54_unportable.
Print Assumptions C55_bound.
Print Assumptions C55_expired.
Print Assumptions C56_secrets.
Print Assumptions C56_destination.
Print Assumptions C57_requests.
Print Assumptions C57_bound.
Print Assumptions C57_success.
Print Assumptions C58_read.
Print Assumptions C58_unique.
Print Assumptions C58_value_refuted.
Print Assumptions C59_rfc3339.
Print Assumptions C59_expiration.
Print Assumptions C59_strict.
Print Assumptions C59_rfc3339_only_refuted.
Print Assumptions C59_leap_second_refuted.
Print Assumptions C60_basic.
Print Assumptions C60_roundtrip.
Print Assumptions C60_strict_refuted.
Print Assumptions C61_host.
Print Assumptions C61_requests.
Print Assumptions C61_empty_refuted.
Print Assumptions C61_file.
Print Assumptions C61_file_errors.
Print Assumptions C104_host.
Print Assumptions C62_histories.
Print Assumptions C62_determined.
Print Assumptions C63_independent.
Print Assumptions C64_serial.
Print Assumptions C65_refines.
Print Assumptions C65_complete.
Print Assumptions C66_order.
Print Assumptions C66_bounded.
Print Assumptions C67_wait.
Print Assumptions C67_progress.
Print Assumptions C67_maximal.
Print Assumptions C67_finite.
Print Assumptions C67_completes.
Print Assumptions C68_images.
Print Assumptions C68_uploaded.
Print Assumptions C68_monotone.
Print Assumptions C69_links.
Print Assumptions C69_failure.
Print Assumptions C70_form.
Print Assumptions C70_upload.
Print Assumptions C71_configuration.
Print Assumptions C71_form_errors.
Print Assumptions C71_form_panics.
Print Assumptions C71_links.
Print Assumptions C72_server.
Print Assumptions C72_account.
Print Assumptions C72_name.
Print Assumptions C72_every_account.
Print Assumptions C72_every_request.
Print Assumptions C72_account_refuted.
Print Assumptions C73_metadata.
Print Assumptions C73_requests.
Print Assumptions C73_address.
Print Assumptions C73_every_host.
Print Assumptions C73_every_request.
Print Assumptions C73_metadata_refuted.
Print Assumptions C74_policy_determines_form.
Print Assumptions C75_disjoint.
Print Assumptions C75_requests.
Print Assumptions C75_form.
Print Assumptions C75_url.
Print Assumptions C76_form_distinct.
Print Assumptions C76_url_distinct.
Print Assumptions C76_key_file.
Print Assumptions C76_key_file_refuted.
Print Assumptions C76_report.
Print Assumptions C76_chain.
Print Assumptions C76_chain_refuted.
Print Assumptions C76_sources.
Print Assumptions C76_file_sources.
Print Assumptions C77_refused.
Print Assumptions C77_accepted.
Print Assumptions C77_url.
Print Assumptions C78_count.
Print Assumptions C78_led.
Print Assumptions C78_result.
Print Assumptions C78_token.
Print Assumptions C78_hop.
Print Assumptions C78_payload.
Print Assumptions C78_metadata.
Print Assumptions C78_token_refuted.
Print Assumptions C78_plain_refuted.
Print Assumptions C78_payload_refuted.
Print Assumptions C78_source_refuted.
Print Assumptions C78_authority.
Print Assumptions C78_headers.
Print Assumptions C78_content.
Print Assumptions C78_start.
Print Assumptions C78_sign.
Print Assumptions C78_followed.
Print Assumptions C78_kept.
Print Assumptions C79_refused.
Print Assumptions C79_only.
Print Assumptions C80_form.
Print Assumptions C80_unsigned.
Print Assumptions C80_url.
Print Assumptions C80_file.
Print Assumptions C81_same.
Print Assumptions C81_contains.
Print Assumptions C81_exact.
Print Assumptions C82_any.
Print Assumptions C82_valid.
Print Assumptions C82_strength.
Print Assumptions C82_primes.
Print Assumptions C82_ring.
Print Assumptions C83_signs.
Print Assumptions C83_ring.
Print Assumptions C84_unique.
Print Assumptions C84_message.
Print Assumptions C84_only.
Print Assumptions C85_form.
Print Assumptions C85_url.
Print Assumptions C85_accepted.
Print Assumptions C85_form_signs.
Print Assumptions C85_url_signs.
Print Assumptions C86_accepted.
Print Assumptions C86_browser.
Print Assumptions C86_plain.
Print Assumptions C87_only.
Print Assumptions C88_form.
Print Assumptions C88_url.
Print Assumptions C89_path.
Print Assumptions C89_total.
Print Assumptions C89_inside.
Print Assumptions C89_outside.
Print Assumptions C89_escape.
Print Assumptions C90_accepted.
Print Assumptions C90_refused.
Print Assumptions C90_undisputed.
Print Assumptions C90_disputed.
Print Assumptions C90_other_bucket.
Print Assumptions C91_accepted.
Print Assumptions C91_refused.
Print Assumptions C91_plain.
Print Assumptions C91_stray.
Print Assumptions C91_slash.
Print Assumptions C91_blanks.
Print Assumptions C92_routes.
Print Assumptions C92_create.
Print Assumptions C92_untyped.
Print Assumptions C92_update.
Print Assumptions C92_answers.
Print Assumptions C93_visit.
Print Assumptions C93_untyped.
Print Assumptions C93_shows.
Print Assumptions C93_accepted.
Print Assumptions C94_render.
Print Assumptions C94_exact.
Print Assumptions C94_first.
Print Assumptions C94_bounded.
Print Assumptions C95_latest_refuted.
Print Assumptions C96_exactly.
Print Assumptions C97_read.
Print Assumptions C97_unique.
Print Assumptions C97_absent.
Print Assumptions C97_boundary.
Print Assumptions C98_page.
Print Assumptions C98_form.
Print Assumptions C99_url.
Print Assumptions C99_form.
Print Assumptions C100_form.
Print Assumptions C100_url.
Print Assumptions C101_metadata.
Print Assumptions C101_requests.
Print Assumptions C101_every_host.
Print Assumptions C101_every_request.
Print Assumptions C101_prefix_refuted.
Print Assumptions C102_exactly.
Print Assumptions C102_issued.
Print Assumptions C102_browser.
Print Assumptions C103_text.
Print Assumptions C103_path.
Print Assumptions C103_too_long.
Print Assumptions C103_panics.
Print Assumptions C103_always.
Print Assumptions C103_short.
Print Assumptions C104_histories.
Print Assumptions C105_rate.
Print Assumptions C105_requests.
Print Assumptions C105_load.
Print Assumptions C106_reached.
Print Assumptions C106_read.
Print Assumptions C106_unreachable.
Print Assumptions C106_impassable.
Print Assumptions C107_completes.
Print Assumptions C107_form.
Print Assumptions C107_url.
Print Assumptions C108_form.
Print Assumptions C108_url.
Print Assumptions C109_form.
Print Assumptions C109_url.
Print Assumptions C109_histories_form.
Print Assumptions C109_histories_url.
Print Assumptions C110_round_trip.
Print Assumptions C110_cut.
Print Assumptions C110_before.
Print Assumptions C110_total_refuted.
Print Assumptions C110_text.
