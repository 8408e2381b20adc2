{
 "claims": [
  {
   "property": "C01",
   "status": "proved",
   "theorems": [
    "C01_parse_terminates",
    "C01_parse_outcome"
   ],
   "note": "Every text, both languages. Fuel is shown sufficient; the model has no other bound."
  },
  {
   "property": "C02",
   "status": "proved",
   "theorems": [
    "C02_parse_shape"
   ],
   "note": "All texts on which parsing succeeds."
  },
  {
   "property": "C03",
   "status": "proved",
   "theorems": [
    "C03_json_roundtrip"
   ],
   "note": ""
  },
  {
   "property": "C04",
   "status": "proved",
   "theorems": [
    "C04_human_roundtrip",
    "C04_human_roundtrip_open"
   ],
   "note": ""
  },
  {
   "property": "C05",
   "status": "partial",
   "theorems": [
    "C05_human_serialized_rejected",
    "C05_human_serializer_refuted"
   ],
   "note": "Refuted: the human serialiser drops the quotes; universal theorem for names that begin with a letter, witness for the claim."
  },
  {
   "property": "C06",
   "status": "proved",
   "theorems": [
    "C06_mixed_rejected",
    "C06_mixed_rejected_nested"
   ],
   "note": ""
  },
  {
   "property": "C07",
   "status": "partial",
   "theorems": [
    "C07_number_panics_human",
    "C07_number_refuted",
    "C07_number_panics_json"
   ],
   "note": "Refuted: every numeral accepted by the grammar makes the parser panic, in both languages."
  },
  {
   "property": "C08",
   "status": "proved",
   "theorems": [
    "C08_one_line_columns",
    "C08_one_line_leaves"
   ],
   "note": ""
  },
  {
   "property": "C09",
   "status": "partial",
   "theorems": [
    "C09_multi_line_refuted",
    "C09_multi_line_json_refuted"
   ],
   "note": "Refuted by two-line texts in both languages. C08 is the true restriction."
  },
  {
   "property": "C10",
   "status": "proved",
   "theorems": [
    "C10_access_exact"
   ],
   "note": ""
  },
  {
   "property": "C11",
   "status": "proved",
   "theorems": [
    "C11_access_mono"
   ],
   "note": ""
  },
  {
   "property": "C12",
   "status": "proved",
   "theorems": [
    "C12_prune_agrees"
   ],
   "note": ""
  },
  {
   "property": "C13",
   "status": "proved",
   "theorems": [
    "C13_pruned_chosen",
    "C13_prune_selection",
    "C13_prune_selection_distinct"
   ],
   "note": ""
  },
  {
   "property": "C14",
   "status": "partial",
   "theorems": [
    "C14_bsw_short_panics",
    "C14_short_node_refuted",
    "C14_short_node_ghw_refuted",
    "C14_short_node_lsw_refuted",
    "C14_short_node_yct_refuted",
    "C14_ghw_short_panics",
    "C14_lsw_short_panics",
    "C14_yct_short_panics",
    "C14_bsw_no_panic_partial"
   ],
   "note": "Refuted for nodes with fewer than two children (JSON language). For policies with at least two children everywhere the session theorems (C29-C39 ..._session_exact) show that no step panics; for BSW this is also shown for arbitrary keys and ciphertexts."
  },
  {
   "property": "C15",
   "status": "proved",
   "theorems": [
    "C15_share_reconstruct"
   ],
   "note": ""
  },
  {
   "property": "C16",
   "status": "proved",
   "theorems": [
    "C16_threshold_reconstruct"
   ],
   "note": ""
  },
  {
   "property": "C17",
   "status": "proved",
   "theorems": [
    "C17_share_secrecy",
    "C17_shift_inverse"
   ],
   "note": ""
  },
  {
   "property": "C18",
   "status": "proved",
   "theorems": [
    "C18_threshold_secrecy"
   ],
   "note": ""
  },
  {
   "property": "C19",
   "status": "proved",
   "theorems": [
    "C19_share_leaves",
    "C19_coefficient_leaves"
   ],
   "note": ""
  },
  {
   "property": "C20",
   "status": "proved",
   "theorems": [
    "C20_columns",
    "C20_msp_shape"
   ],
   "note": ""
  },
  {
   "property": "C21",
   "status": "proved",
   "theorems": [
    "C21_msp_spans"
   ],
   "note": ""
  },
  {
   "property": "C22",
   "status": "proved",
   "theorems": [
    "C22_msp_unsound_none"
   ],
   "note": "For every field: the theorem is stated for every instance of the crypto interface, whose scalars may be any field."
  },
  {
   "property": "C23",
   "status": "proved",
   "theorems": [
    "C23_msp_accepts",
    "C23_cp_encrypt_wide_and",
    "C23_kp_keygen_wide_and",
    "C23_aw_encrypt_wide_and"
   ],
   "note": "Also for the three entry points that abort."
  },
  {
   "property": "C24",
   "status": "proved",
   "theorems": [
    "C24_policy_in_dnf_iff"
   ],
   "note": ""
  },
  {
   "property": "C25",
   "status": "partial",
   "theorems": [
    "C25_dnf_faithful_iff",
    "C25_dnf_splits_conjunction",
    "C25_dnf_split_refuted"
   ],
   "note": "Refuted; C25_dnf_faithful_iff says exactly when it holds for flat policies."
  },
  {
   "property": "C26",
   "status": "partial",
   "theorems": [
    "C26_json_to_dnf_nested",
    "C26_bd_encrypt_nested",
    "C26_mk_encrypt_nested",
    "C26_nested_refuted",
    "C26_nested_mke08_refuted",
    "C26_bd_encrypt_runs_partial",
    "C26_mk_encrypt_runs_partial"
   ],
   "note": "Refuted for nested conjunctions; proved for flat policies (_partial)."
  },
  {
   "property": "C27",
   "status": "partial",
   "theorems": [
    "C27_dnf_drops_missing",
    "C27_bd_missing_opens",
    "C27_mk_missing_opens",
    "C27_missing_key_refuted",
    "C27_missing_key_mke08_refuted"
   ],
   "note": "Refuted for both schemes, with the opening by an under-privileged user."
  },
  {
   "property": "C28",
   "status": "proved",
   "theorems": [
    "C28_dnf_flat_faithful"
   ],
   "note": ""
  },
  {
   "property": "C29",
   "status": "proved",
   "theorems": [
    "C29_bsw_correct",
    "C29_bsw_session_exact",
    "C29_bsw_human_session"
   ],
   "note": "Includes an end-to-end theorem with no assumption that the steps succeed."
  },
  {
   "property": "C30",
   "status": "proved",
   "theorems": [
    "C30_bsw_delegate_correct",
    "C30_bsw_delegated_session_exact"
   ],
   "note": ""
  },
  {
   "property": "C31",
   "status": "proved",
   "theorems": [
    "C31_bsw_delegate_iff",
    "C31_bsw_delegate_attrs",
    "C31_bsw_delegate_fresh"
   ],
   "note": ""
  },
  {
   "property": "C32",
   "status": "proved",
   "theorems": [
    "C32_ghw_correct",
    "C32_ghw_session_exact",
    "C32_ghw_human_session"
   ],
   "note": ""
  },
  {
   "property": "C33",
   "status": "proved",
   "theorems": [
    "C33_lsw_correct",
    "C33_lsw_session_exact"
   ],
   "note": ""
  },
  {
   "property": "C34",
   "status": "proved",
   "theorems": [
    "C34_yct_correct",
    "C34_yct_session_exact"
   ],
   "note": ""
  },
  {
   "property": "C35",
   "status": "proved",
   "theorems": [
    "C35_cp_whenever",
    "C35_cp_correct",
    "C35_cp_session_exact"
   ],
   "note": ""
  },
  {
   "property": "C36",
   "status": "proved",
   "theorems": [
    "C36_kp_whenever",
    "C36_kp_correct",
    "C36_kp_session_exact"
   ],
   "note": ""
  },
  {
   "property": "C37",
   "status": "proved",
   "theorems": [
    "C37_aw_correct",
    "C37_aw_session_exact"
   ],
   "note": ""
  },
  {
   "property": "C38",
   "status": "proved",
   "theorems": [
    "C38_bd_correct",
    "C38_bd_session_exact"
   ],
   "note": ""
  },
  {
   "property": "C39",
   "status": "proved",
   "theorems": [
    "C39_mk_correct",
    "C39_mk_session_exact"
   ],
   "note": ""
  },
  {
   "property": "C40",
   "status": "proved",
   "theorems": [
    "C40_bsw_reject",
    "C40_ghw_reject",
    "C40_lsw_reject",
    "C40_yct_reject",
    "C40_cp_reject",
    "C40_kp_reject",
    "C40_aw_reject",
    "C40_bd_reject",
    "C40_mk_reject"
   ],
   "note": "All nine decryption functions; for LSW and YCT14 with the arity condition of the claim. The session theorems include the failing case end to end."
  },
  {
   "property": "C41",
   "status": "partial",
   "theorems": [
    "C41_bsw_one_leaf",
    "C41_ghw_one_leaf",
    "C41_lsw_underscore_panics",
    "C41_yct_underscore_panics",
    "C41_aw_underscore_panics",
    "C41_bsw_underscore_refuted",
    "C41_ghw_underscore_refuted",
    "C41_lsw_underscore_refuted",
    "C41_yct_underscore_refuted",
    "C41_aw_underscore_refuted"
   ],
   "note": "Refuted for BSW, GHW11, LSW, YCT14, AW11. AC17 is unaffected (C35/C36 have no such condition). C89 gives the result for every policy."
  },
  {
   "property": "C42",
   "status": "partial",
   "theorems": [
    "C42_lsw_one_name",
    "C42_yct_one_name",
    "C42_two_leaf_shares",
    "C42_lsw_duplicate_refuted",
    "C42_yct_duplicate_refuted",
    "C42_cp_duplicate_refuted",
    "C42_kp_duplicate_refuted"
   ],
   "note": "Refuted for LSW, YCT14 and AC17; for LSW and YCT14 the first share takes the place of the secret in every policy over one name. Holds for BSW, GHW11, AW11, BDABE, MKE08: their correctness theorems (C29, C32, C37-C39) do not ask for distinct names. C89 gives the result for every policy."
  },
  {
   "property": "C43",
   "status": "partial",
   "theorems": [
    "C43_upper_letters",
    "C43_aw_keygen_lower_panics",
    "C43_aw_lower_policy_rejects",
    "C43_aw_keygen_case_refuted",
    "C43_aw_policy_case_refuted"
   ],
   "note": "Refuted, both for key generation and for policies."
  },
  {
   "property": "C44",
   "status": "partial",
   "theorems": [
    "C44_bsw_any_plaintext",
    "C44_ghw_any_plaintext",
    "C44_cp_any_plaintext",
    "C44_kp_any_plaintext",
    "C44_aw_any_plaintext",
    "C44_bd_any_plaintext",
    "C44_mk_any_plaintext",
    "C44_empty_plaintext_refuted",
    "C44_lsw_empty_refused_partial",
    "C44_yct_empty_refused_partial",
    "C44_parse_empty",
    "C44_bad_policy_refused"
   ],
   "note": "Refuted for seven entry points; proved for LSW and YCT14 (_partial) and for unparsable or empty policy texts in all schemes."
  },
  {
   "property": "C45",
   "status": "proved",
   "theorems": [
    "C45_bsw_no_attrs",
    "C45_ghw_no_attrs",
    "C45_cp_no_attrs",
    "C45_aw_empty_refused",
    "C45_kp_no_attrs_refuted"
   ],
   "note": "Also shows that AC17 key-policy encryption accepts an empty attribute list (outside the claim)."
  },
  {
   "property": "C46",
   "status": "proved",
   "theorems": [
    "C46_requests_decided",
    "C46_from_authority_iff",
    "C46_from_authority_unique",
    "C46_bd_request_pk_iff",
    "C46_bd_request_sk_iff",
    "C46_mk_request_pk_iff",
    "C46_mk_request_sk_iff"
   ],
   "note": ""
  },
  {
   "property": "C47",
   "status": "partial",
   "theorems": [
    "C47_lsw_negation_useless",
    "C47_lsw_negation_refuted"
   ],
   "note": "Refuted."
  },
  {
   "property": "C48",
   "status": "proved",
   "theorems": [
    "C48_symmetric_roundtrip",
    "C48_symmetric_form"
   ],
   "note": ""
  },
  {
   "property": "C49",
   "status": "partial",
   "theorems": [
    "C49_symmetric_short",
    "C49_short_payload_refuted",
    "C49_symmetric_long_partial"
   ],
   "note": "Refuted for payloads below 12 bytes; proved from 12 bytes on (_partial)."
  },
  {
   "property": "C50",
   "status": "partial",
   "theorems": [
    "C50_write_read_back",
    "C50_write_file_other",
    "C50_write_from_vec_never",
    "C50_write_from_vec_noop",
    "C50_write_from_vec_refuted"
   ],
   "note": "Proved for write_file, refuted for write_from_vec."
  },
  {
   "property": "C51",
   "status": "proved",
   "theorems": [
    "C51_read_raw_middle",
    "C51_read_raw_short",
    "C51_read_raw_exact"
   ],
   "note": ""
  },
  {
   "property": "C52",
   "status": "partial",
   "theorems": [
    "C52_bsw_forge_works",
    "C52_bsw_refuted"
   ],
   "note": "Refuted: an explicit adversary using public operations only succeeds for all setups and keys (up to the stated non-degeneracy of hash values), with a concrete run."
  },
  {
   "property": "C53",
   "status": "partial",
   "theorems": [
    "C53_ghw_forge_works",
    "C53_ghw_refuted"
   ],
   "note": "Refuted: an explicit adversary using public operations only succeeds for all setups and keys (up to the stated non-degeneracy of hash values), with a concrete run."
  },
  {
   "property": "C54",
   "status": "partial",
   "theorems": [
    "C54_cp_relabel_works",
    "C54_cp_relabel_opens",
    "C54_cp_refuted"
   ],
   "note": "Refuted: an explicit adversary using public operations only succeeds for all setups and keys (up to the stated non-degeneracy of hash values), with a concrete run."
  },
  {
   "property": "C55",
   "status": "partial",
   "theorems": [
    "C55_kp_relabel_works",
    "C55_kp_relabel_opens",
    "C55_kp_refuted"
   ],
   "note": "Refuted: an explicit adversary using public operations only succeeds for all setups and keys (up to the stated non-degeneracy of hash values), with a concrete run."
  },
  {
   "property": "C56",
   "status": "partial",
   "theorems": [
    "C56_lsw_relabel_works",
    "C56_lsw_refuted"
   ],
   "note": "Refuted: an explicit adversary using public operations only succeeds for all setups and keys (up to the stated non-degeneracy of hash values), with a concrete run."
  },
  {
   "property": "C57",
   "status": "partial",
   "theorems": [
    "C57_aw_forge_works",
    "C57_aw_collusion",
    "C57_aw_refuted"
   ],
   "note": "Refuted: an explicit adversary using public operations only succeeds for all setups and keys (up to the stated non-degeneracy of hash values), with a concrete run."
  },
  {
   "property": "C58",
   "status": "partial",
   "theorems": [
    "C58_bd_forge_works",
    "C58_bd_forge_user",
    "C58_bd_refuted"
   ],
   "note": "Refuted: an explicit adversary using public operations only succeeds for all setups and keys (up to the stated non-degeneracy of hash values), with a concrete run."
  },
  {
   "property": "C59",
   "status": "partial",
   "theorems": [
    "C59_mk_forge_works",
    "C59_mk_forge_user",
    "C59_mk_refuted"
   ],
   "note": "Refuted: an explicit adversary using public operations only succeeds for all setups and keys (up to the stated non-degeneracy of hash values), with a concrete run."
  },
  {
   "property": "C60",
   "status": "partial",
   "theorems": [
    "C60_yct_forge_works",
    "C60_yct_refuted",
    "C60_yct_many",
    "C60_yct_many_refuted"
   ],
   "note": "Refuted: an explicit adversary using public operations only succeeds for all setups and keys (up to the stated non-degeneracy of hash values), with a concrete run. C60_yct_many does the same for conjunctions of any length, with as many keys as names and weights that solve linear equations in the values of the keys; C60_yct_many_refuted is an instance with three names."
  },
  {
   "property": "C61",
   "status": "partial",
   "theorems": [
    "C61_bd_opens_edited",
    "C61_bd_split_opens",
    "C61_mk_opens_edited",
    "C61_mk_split_opens",
    "C61_bd_refuted",
    "C61_mk_refuted"
   ],
   "note": "Refuted: an explicit adversary using public operations only succeeds for all setups and keys (up to the stated non-degeneracy of hash values), with a concrete run."
  },
  {
   "property": "C62",
   "status": "proved",
   "theorems": [
    "C62_ghw_outsource_hides"
   ],
   "note": ""
  },
  {
   "property": "C63",
   "status": "partial",
   "theorems": [
    "C63_label_collision",
    "C63_attribute_01_opens_cp",
    "C63_attribute_01_opens_kp",
    "C63_ac17_refuted",
    "C63_labels_inj",
    "C63_labels_columns_partial"
   ],
   "note": "Refuted: the attribute named 01 collides; its holder opens every ciphertext. The colliding names are exactly a zero and a number (_partial)."
  },
  {
   "property": "C64",
   "status": "partial",
   "theorems": [
    "C64_bsw_cut_retarget",
    "C64_bsw_cut_opens",
    "C64_bsw_refuted",
    "C64_ghw_cut_retarget",
    "C64_aw_cut_retarget",
    "C64_lsw_cut_rekey",
    "C64_yct_cut_rekey"
   ],
   "note": "Refuted."
  },
  {
   "property": "C65",
   "status": "proved",
   "theorems": [
    "C65_bsw_borsh",
    "C65_lsw_borsh",
    "C65_ac17_borsh",
    "C65_aw11_borsh",
    "C65_bdabe_borsh",
    "C65_mke08_borsh"
   ],
   "note": "On the model of the borsh format; group element and scalar encodings of rabe_bn are abstract with a round-trip law (wire_ok)."
  },
  {
   "property": "C66",
   "status": "partial",
   "theorems": [
    "C66_yct_pk_reads",
    "C66_yct_borsh_refuted",
    "C66_yct_msk_reads",
    "C66_yct_sk_reads",
    "C66_yct_ct_reads",
    "C66_lost_encrypt",
    "C66_lost_keygen",
    "C66_lost_sk",
    "C66_lost_ct"
   ],
   "note": "Refuted: universally (every value loses its nodes), with the consequences for encryption, key generation and decryption."
  },
  {
   "property": "C67",
   "status": "proved",
   "theorems": [
    "C67_store_load",
    "C67_hex_back"
   ],
   "note": "deflate/inflate enter by their round-trip law (env_ok)."
  },
  {
   "property": "C68",
   "status": "partial",
   "theorems": [
    "C68_decrypt_state",
    "C68_decrypt_panics",
    "C68_decrypt_writes_refuted",
    "C68_decrypt_success"
   ],
   "note": "Refuted for every call with a non-empty plaintext."
  },
  {
   "property": "C69",
   "status": "partial",
   "theorems": [
    "C69_wrap_bsw",
    "C69_ciphertext_file_refuted",
    "C69_wrap_lsw",
    "C69_wrap_aw11"
   ],
   "note": "Refuted for BSW, LSW and AW11 on every call; holds for AC17CP inside C74. BDABE and MKE08 never get that far (C71)."
  },
  {
   "property": "C70",
   "status": "partial",
   "theorems": [
    "C70_refused_bsw",
    "C70_refused_reported_refuted",
    "C70_refused_lsw"
   ],
   "note": "Refuted for BSW and LSW on every refused encryption."
  },
  {
   "property": "C71",
   "status": "partial",
   "theorems": [
    "C71_delegate_never",
    "C71_delegate_refuted",
    "C71_encrypt_never",
    "C71_encrypt_refuted"
   ],
   "note": "Refuted for delegation and for encryption with AC17KP, BDABE, MKE08, on all accepted command lines; file systems without an entry at the empty path."
  },
  {
   "property": "C72",
   "status": "partial",
   "theorems": [
    "C72_aw11_lost",
    "C72_aw11_refuted"
   ],
   "note": "Refuted for all command lines whose parameter file is not the master key file."
  },
  {
   "property": "C73",
   "status": "partial",
   "theorems": [
    "C73_keygen_single",
    "C73_cp_single",
    "C73_two_attributes_refuted"
   ],
   "note": "Refuted for all policies that no single attribute satisfies."
  },
  {
   "property": "C74",
   "status": "proved",
   "theorems": [
    "C74_cp_console"
   ],
   "note": ""
  },
  {
   "property": "C75",
   "status": "partial",
   "theorems": [
    "C75_yct_console_encrypt",
    "C75_yct_console_keygen",
    "C75_yct_console_refuted",
    "C75_yct_console_decrypt"
   ],
   "note": "Refuted for all calls."
  },
  {
   "property": "C76",
   "status": "partial",
   "theorems": [
    "C76_bd_console_calls",
    "C76_bd_console_refuted",
    "C76_mk_console_calls",
    "C76_mk_console_refuted"
   ],
   "note": "Refuted for all sequences of calls that do not overwrite the key file of the user."
  },
  {
   "property": "C77",
   "status": "proved",
   "theorems": [
    "C77_run_frame",
    "C77_calls_frame"
   ],
   "note": ""
  },
  {
   "property": "C78",
   "status": "proved",
   "theorems": [
    "C78_run_clean"
   ],
   "note": ""
  },
  {
   "property": "C79",
   "status": "partial",
   "theorems": [
    "C79_prune_aborts",
    "C79_bsw_panics",
    "C79_ghw_panics",
    "C79_ghw_out_panics",
    "C79_lsw_panics",
    "C79_yct_panics",
    "C79_ac_panics",
    "C79_aw_panics",
    "C79_bd_panics",
    "C79_mk_panics",
    "C79_ghw_total_refuted",
    "C79_lsw_total_refuted",
    "C79_yct_total_refuted",
    "C79_cp_total_refuted",
    "C79_kp_total_refuted",
    "C79_aw_total_refuted",
    "C79_no_abort_partial",
    "C79_yct_lookups"
   ],
   "note": "Refuted for GHW11, LSW, YCT14, AC17 and AW11; holds for BSW, BDABE, MKE08 (_partial). The exact condition is proved for all nine functions."
  },
  {
   "property": "C80",
   "status": "proved",
   "theorems": [
    "C80_msp_verdict"
   ],
   "note": "All policy values, not only parsed ones."
  },
  {
   "property": "C81",
   "status": "proved",
   "theorems": [
    "C81_kp_hash",
    "C81_cp_hash",
    "C81_bsw_encrypt",
    "C81_ghw_encrypt",
    "C81_lsw_encrypt",
    "C81_yct_encrypt",
    "C81_cp_encrypt",
    "C81_kp_encrypt",
    "C81_aw_encrypt",
    "C81_bd_encrypt",
    "C81_mk_encrypt"
   ],
   "note": "AC17 for the keys of a setup, also with a hash that may fail (C81_cp_hash, C81_kp_hash); the other schemes for arbitrary keys."
  },
  {
   "property": "C82",
   "status": "proved",
   "theorems": [
    "C82_cp_hash",
    "C82_kp_hash",
    "C82_bsw_keygen",
    "C82_bsw_delegate",
    "C82_ghw_keygen",
    "C82_ghw_tkgen",
    "C82_lsw_keygen",
    "C82_yct_keygen",
    "C82_cp_keygen",
    "C82_kp_keygen",
    "C82_aw_keygen"
   ],
   "note": "AC17 for the keys of a setup, also with a hash that may fail (C82_cp_hash, C82_kp_hash); the other schemes for arbitrary keys."
  },
  {
   "property": "C83",
   "status": "proved",
   "theorems": [
    "C83_chain_fresh",
    "C83_chain_decrypts",
    "C83_chain_extends"
   ],
   "note": "Same side conditions on policies as C29."
  },
  {
   "property": "C84",
   "status": "partial",
   "theorems": [
    "C84_sharing",
    "C84_bsw_setup",
    "C84_bsw_keygen",
    "C84_bsw_delegate",
    "C84_bsw_encrypt",
    "C84_ghw_setup",
    "C84_ghw_keygen",
    "C84_ghw_tkgen",
    "C84_ghw_encrypt",
    "C84_lsw_setup",
    "C84_lsw_keygen",
    "C84_lsw_encrypt",
    "C84_lsw_negation_sum",
    "C84_lsw_negation_sum_refuted",
    "C84_yct_setup",
    "C84_yct_keygen",
    "C84_yct_encrypt",
    "C84_ac_setup",
    "C84_cp_keygen",
    "C84_cp_encrypt",
    "C84_kp_keygen",
    "C84_kp_encrypt",
    "C84_kp_not_published",
    "C84_kp_published_refuted",
    "C84_aw_setup",
    "C84_aw_authgen",
    "C84_aw_keygen",
    "C84_aw_encrypt",
    "C84_bd_setup",
    "C84_bd_authgen",
    "C84_bd_keygen",
    "C84_bd_encrypt",
    "C84_mk_setup",
    "C84_mk_authgen",
    "C84_mk_keygen",
    "C84_mk_encrypt"
   ],
   "note": "All components of all functions; refuted for two: LSW ciphertexts use values that add up to zero where shares of the secret belong, AC17 key-policy keys have another blinding. For these the equation of the code is proved."
  },
  {
   "property": "C85",
   "status": "partial",
   "theorems": [
    "C85_rerandomise_runs",
    "C85_rerandomise_honest",
    "C85_rerandomise_differs",
    "C85_ciphertext_fixed_refuted"
   ],
   "note": "Refuted for every ciphertext."
  },
  {
   "property": "C86",
   "status": "partial",
   "theorems": [
    "C86_json_cubic_partial",
    "C86_human_polynomial_refuted",
    "C86_open_parentheses",
    "C86_nested_parentheses",
    "C86_left_nested_or"
   ],
   "note": "Refuted for the human language: no polynomial is a bound; exponential lower bounds for three families of texts, one refused and two accepted. Cubic upper bound for every JSON text (_partial). The measure is the number of grammar expressions tried."
  },
  {
   "property": "C87",
   "status": "partial",
   "theorems": [
    "C87_recover_conjunction_partial",
    "C87_recover_exact",
    "C87_recover_one",
    "C87_recover_disjunction",
    "C87_recover_secret_refuted"
   ],
   "note": "Refuted for every disjunction of two conjunctions and non-zero secret; proved for policies without disjunction (_partial); exact result for all lists."
  },
  {
   "property": "C88",
   "status": "partial",
   "theorems": [
    "C88_lsw_decrypt_exact",
    "C88_lsw_negated_name_refuted",
    "C88_lsw_decrypt_carry_partial",
    "C88_lsw_all_negated"
   ],
   "note": "Refuted; the value that decryption uses is proved for all policies over distinct names, and correctness whenever that value is right (_partial)."
  },
  {
   "property": "C89",
   "status": "proved",
   "theorems": [
    "C89_bsw_decrypt",
    "C89_ghw_decrypt",
    "C89_lsw_decrypt",
    "C89_yct_decrypt",
    "C89_cp_decrypt",
    "C89_kp_decrypt",
    "C89_aw_decrypt"
   ],
   "note": "Seven schemes. The exponent is zero under the side conditions of C29-C37, which gives their correctness theorems again."
  },
  {
   "property": "C90",
   "status": "partial",
   "theorems": [
    "C90_cp_rest_distinct",
    "C90_kp_rest_distinct",
    "C90_cp_attribute_twice",
    "C90_cp_repeated_refuted",
    "C90_kp_attribute_twice",
    "C90_kp_repeated_refuted"
   ],
   "note": "Refuted for AC17, both variants: the exponent left over is proved for every list and policy over distinct names. The correctness theorems of the other schemes (C29-C34, C37-C39) do not ask for distinct attributes."
  },
  {
   "property": "C91",
   "status": "proved",
   "theorems": [
    "C91_every_text",
    "C91_accepted",
    "C91_rejected",
    "C91_aborts",
    "C91_one_meaning",
    "C91_brackets",
    "C91_same_column"
   ],
   "note": "Every text; the description of the language (Layout.v) does not mention the matching algorithm."
  },
  {
   "property": "C92",
   "status": "proved",
   "theorems": [
    "C92_every_text",
    "C92_accepted",
    "C92_rejected",
    "C92_aborts",
    "C92_one_meaning",
    "C92_tidy",
    "C92_without_precedence_refuted",
    "C92_without_precedence_two_meanings_refuted"
   ],
   "note": "Every text. The two _refuted theorems show that the clause on precedence is needed: without it there are refused texts and texts with two readings."
  },
  {
   "property": "C93",
   "status": "proved",
   "theorems": [
    "C93_bsw",
    "C93_lsw",
    "C93_ac17",
    "C93_aw11",
    "C93_bdabe",
    "C93_mke08",
    "C93_yct14",
    "C93_damaged",
    "C93_no_panic",
    "C93_hex_exact"
   ],
   "note": "All 37 file types, for element codecs with the same property (wire_ok, wire_tight); the elements are the values in memory, so two representations of one curve point count as two."
  },
  {
   "property": "C94",
   "status": "partial",
   "theorems": [
    "C94_bd_access",
    "C94_mk_access",
    "C94_opens_iff",
    "C94_opens_is_sat_partial",
    "C94_opens_more",
    "C94_refuted"
   ],
   "note": "Refuted: a later conjunction is cut into pieces. The exact outcome is proved for every ciphertext, user and stored policy text; equality with the policy where no conjunction comes after the first child (_partial)."
  },
  {
   "property": "C95",
   "status": "proved",
   "theorems": [
    "C95_json_back",
    "C95_accepted_names",
    "C95_to_json",
    "C95_to_json_distinct",
    "C95_human_never_back",
    "C95_to_human",
    "C95_json_writable",
    "C95_human_writable",
    "C95_human_back",
    "C95_json_injection_refuted",
    "C95_json_total",
    "C95_json_leaf",
    "C95_human_exact"
   ],
   "note": "Both directions for every policy; C95_json_injection_refuted shows that the condition on names is needed for trees built by hand. C95_human_never_back is universal: no policy whatever its names survives the human serialiser."
  },
  {
   "property": "C96",
   "status": "partial",
   "theorems": [
    "C96_shares",
    "C96_pruned",
    "C96_msp",
    "C96_coefficients_partial",
    "C96_check_partial",
    "C96_check_leaf_object",
    "C96_normal_form",
    "C96_check_refuted",
    "C96_coefficients_refuted"
   ],
   "note": "Refuted for objects of kind Leaf: the satisfaction check accepts them unseen, and the coefficients get an empty label. Sharing, pruning and span programs agree for every value; the check and the coefficients without such objects (_partial); the normal-form test is sound for every value."
  },
  {
   "property": "C97",
   "status": "partial",
   "theorems": [
    "C97_bounded_depth_refuted",
    "C97_depth_needed",
    "C97_depth_enough",
    "C97_height_linear",
    "C97_every_height"
   ],
   "note": "Refuted in both languages: for every depth there is a short accepted text that needs more. The needed depth is at least the height of the policy, and a depth linear in the length is enough."
  },
  {
   "property": "C98",
   "status": "partial",
   "theorems": [
    "C98_text_tells_refuted",
    "C98_text_tells_names",
    "C98_text_tells_policies",
    "C98_text_written",
    "C98_new_exact"
   ],
   "note": "Refuted for names with a quote, in programs of values built by hand. Proved for all programs whose names can stand between quotes, so for all programs of policy texts; the written form for every converted value."
  },
  {
   "property": "C99",
   "status": "partial",
   "theorems": [
    "C99_only_kinds",
    "C99_success_writes_partial",
    "C99_request_refused",
    "C99_success_writes_refuted"
   ],
   "note": "Labels and types proved for every command, scheme and result. Refuted for one command: a refused BDABE attribute key request succeeds without a file; all others write their files (_partial)."
  },
  {
   "property": "C100",
   "status": "partial",
   "theorems": [
    "C100_damaged_key",
    "C100_missing_key",
    "C100_missing_document",
    "C100_refused_policy",
    "C100_reported_refuted",
    "C100_encrypt_aborts"
   ],
   "note": "Refuted: files that cannot be opened stop every command, a damaged key file stops AC17CP keygen, a refused policy stops keygen of AC17KP, LSW and YCT14. The answer to a damaged or missing first key file is exact for every command and scheme."
  },
  {
   "property": "C101",
   "status": "proved",
   "theorems": [
    "C101_first_choice",
    "C101_choice_unique",
    "C101_minimal",
    "C101_minimal_one_line",
    "C101_repeated_leaf_refuted",
    "C101_smallest_refuted"
   ],
   "note": "The selection is exact for every policy with at least two children everywhere. The two _refuted theorems are outside the claim: with equal leaves on two lines the selection is not minimal, and it is never promised to be smallest."
  },
  {
   "property": "C102",
   "status": "proved",
   "theorems": [
    "C102_bsw",
    "C102_bsw_delegate",
    "C102_ghw",
    "C102_lsw",
    "C102_yct",
    "C102_aw",
    "C102_bd",
    "C102_mk",
    "C102_cp",
    "C102_kp",
    "C102_repeated_refuted"
   ],
   "note": "C102_repeated_refuted shows that the condition on names is needed outside AC17."
  },
  {
   "property": "C103",
   "status": "proved",
   "theorems": [
    "C103_aw_order",
    "C103_aw_merge",
    "C103_aw_keygen",
    "C103_bd",
    "C103_mk",
    "C103_yct_encrypt",
    "C103_yct_keygen",
    "C103_aw_first",
    "C103_aw_shared_refuted"
   ],
   "note": "C103_aw_shared_refuted shows that the order does matter when two AW11 authorities offer the same attribute."
  },
  {
   "property": "C104",
   "status": "proved",
   "theorems": [
    "C104_utf8_exact",
    "C104_read_exact",
    "C104_read_aborts"
   ],
   "note": "The specification encodes code points; the model decodes by the table of the Unicode standard."
  },
  {
   "property": "C105",
   "status": "proved",
   "theorems": [
    "C105_not_offered",
    "C105_words",
    "C105_words_all",
    "C105_one_word"
   ],
   "note": "White space is that of the Unicode standard, words are defined on code points; the model works on the UTF-8 bytes."
  },
  {
   "property": "C106",
   "status": "partial",
   "theorems": [
    "C106_depends",
    "C106_named",
    "C106_bdabe_needs",
    "C106_named_suffice_refuted",
    "C106_last_character",
    "C106_target"
   ],
   "note": "False for BDABE key generation, which reads ska.key although its argument is called skau. C106_depends gives the exact list of files that matter for every command, C106_named says which of them are named on the command line."
  },
  {
   "property": "C107",
   "status": "partial",
   "theorems": [
    "C107_accepted",
    "C107_kept",
    "C107_default_files",
    "C107_defaults_fit",
    "C107_defaults_unfit",
    "C107_defaults_fit_refuted",
    "C107_names",
    "C107_dispatch",
    "C107_idle",
    "C107_status",
    "C107_scheme_needed"
   ],
   "note": "The defaults fit for AC17 ciphertext-policy, BSW, LSW and YCT14 (C107_defaults_fit) and not for AC17 key-policy, AW11, BDABE and MKE08 (C107_defaults_unfit); the rest of the claim is proved."
  },
  {
   "property": "C108",
   "status": "proved",
   "theorems": [
    "C108_order_prime",
    "C108_laws",
    "C108_text_bound",
    "C108_width",
    "C108_bsw",
    "C108_bsw_delegated",
    "C108_ghw",
    "C108_lsw",
    "C108_yct",
    "C108_aw"
   ],
   "note": ""
  },
  {
   "property": "C109",
   "status": "proved",
   "theorems": [
    "C109_bsw",
    "C109_bsw_none",
    "C109_lsw",
    "C109_lsw_none",
    "C109_ac17_cp",
    "C109_ac17_kp",
    "C109_ac17_cp_none",
    "C109_ac17_kp_none",
    "C109_yct",
    "C109_yct_none",
    "C109_aw",
    "C109_aw_none",
    "C109_bdabe",
    "C109_bdabe_none",
    "C109_mke",
    "C109_mke_none"
   ],
   "note": "Not a reduction: combinations are terms over the group operations with scalars fixed in advance, without equality tests and without the bytes of the sealed data. Compare C52 to C60, where holders of any key do succeed."
  },
  {
   "property": "C110",
   "status": "proved",
   "theorems": [
    "C110_cloud",
    "C110_cloud_none",
    "C110_one_key_twin",
    "C110_one_key"
   ],
   "note": "Several unfit YCT14 keys together do succeed, see C60; secret keys of GHW11 do too (C52 to C60)."
  },
  {
   "property": "C111",
   "status": "proved",
   "theorems": [
    "C111_bsw",
    "C111_ghw",
    "C111_lsw",
    "C111_yct",
    "C111_ac17_cp",
    "C111_ac17_kp",
    "C111_aw",
    "C111_bdabe",
    "C111_mke"
   ],
   "note": "YCT14 keys are scalars; the combination may use them as exponents. For BDABE and MKE08 the combination also sees the names in the ciphertext tuples."
  },
  {
   "property": "C112",
   "status": "partial",
   "theorems": [
    "C112_language_refuted",
    "C112_line",
    "C112_last_line",
    "C112_display",
    "C112_kinds"
   ],
   "note": "False: the text for a human policy also says Json Policy Error, so it does not tell the language. The texts agree exactly when the lines agree; the line is the last one of the place; the other kinds of error are told apart."
  },
  {
   "property": "C113",
   "status": "proved",
   "theorems": [
    "C113_bsw",
    "C113_ghw",
    "C113_lsw",
    "C113_yct",
    "C113_ac17_cp",
    "C113_ac17_kp",
    "C113_aw",
    "C113_bdabe",
    "C113_mke"
   ],
   "note": "No law of the groups is used. LSW and YCT14 refuse empty data, hence the condition."
  },
  {
   "property": "C114",
   "status": "partial",
   "theorems": [
    "C114_payload",
    "C114_bsw",
    "C114_ghw",
    "C114_lsw",
    "C114_ac17_cp",
    "C114_ac17_kp",
    "C114_aw",
    "C114_yct",
    "C114_bdabe",
    "C114_mke",
    "C114_product",
    "C114_bdabe_refuted",
    "C114_mke_refuted"
   ],
   "note": "Proved for BSW, GHW11, LSW, AC17 and AW11; for YCT14 the key is the power of a public element by the draw. False for BDABE and MKE08: the key is a product of draws, so if the first is zero every value of the second gives the trivial key; the second draw decides the key exactly when the first is not zero."
  },
  {
   "property": "C115",
   "status": "proved",
   "theorems": [
    "C115_bsw",
    "C115_ghw",
    "C115_lsw",
    "C115_ac17_cp",
    "C115_ac17_kp",
    "C115_aw",
    "C115_yct",
    "C115_bdabe",
    "C115_mke",
    "C115_differ"
   ],
   "note": "Extends C85 to all schemes. In YCT14 the key changes with the exponent, so there the product is no encryption of the same sealed data."
  },
  {
   "property": "C116",
   "status": "proved",
   "theorems": [
    "C116_length",
    "C116_number",
    "C116_padding",
    "C116_padding_injective",
    "C116_tables"
   ],
   "note": "SHA3-256 is written out after FIPS 202."
  },
  {
   "property": "C117",
   "status": "proved",
   "theorems": [
    "C117_exact",
    "C117_length",
    "C117_one_tag",
    "C117_reuse",
    "C117_open_exact",
    "C117_sealed_length",
    "C117_open_short",
    "C117_sbox"
   ],
   "note": "AES-256-GCM is written out after FIPS 197 and SP 800-38D. Exactness is stronger than the law aead_ok that other theorems assume."
  },
  {
   "property": "C118",
   "status": "proved",
   "theorems": [
    "C118_laws",
    "C118_bsw",
    "C118_bsw_delegated",
    "C118_ghw",
    "C118_lsw",
    "C118_yct",
    "C118_ac17_cp",
    "C118_ac17_kp",
    "C118_aw",
    "C118_bdabe",
    "C118_mke"
   ],
   "note": "Groups stay abstract up to their logarithm; the conditions on the policy are those of C29 to C39."
  },
  {
   "property": "C119",
   "status": "proved",
   "theorems": [
    "C119_bsw",
    "C119_ghw",
    "C119_lsw",
    "C119_yct",
    "C119_ac17_cp",
    "C119_ac17_kp",
    "C119_bdabe",
    "C119_mke",
    "C119_new"
   ],
   "note": "AW11 has no randomness in its keys. The combined key is an output of keygen, so everything proved of issued keys holds of it, decryption (C29-C39) included."
  },
  {
   "property": "C120",
   "status": "proved",
   "theorems": [
    "C120_bsw",
    "C120_ghw",
    "C120_lsw",
    "C120_yct",
    "C120_ac17",
    "C120_aw11",
    "C120_bdabe",
    "C120_mke08",
    "C120_cut",
    "C120_longer",
    "C120_bytes_size",
    "C120_layout_bsw",
    "C120_layout_ghw",
    "C120_layout_lsw",
    "C120_layout_yct",
    "C120_layout_ac17",
    "C120_layout_aw11",
    "C120_layout_bdabe",
    "C120_layout_mke08",
    "C120_head_shortest",
    "C120_layout_result",
    "C120_result_back"
   ],
   "note": "The forms of field and group elements are those of rabe_bn: hypothesis swire_ok (read back, no prefixes). Unlike under borsh (C66), the values inside YCT14 attributes survive."
  },
  {
   "property": "C121",
   "status": "partial",
   "theorems": [
    "C121_order",
    "C121_extra",
    "C121_one_form_refuted",
    "C121_twice",
    "C121_missing",
    "C121_packed_mixup",
    "C121_named_no_mixup",
    "C121_one_type_refuted",
    "C121_nesting",
    "C121_too_deep",
    "C121_text_as_bytes",
    "C121_bytes_as_bytes",
    "C121_byte_range",
    "C121_array_form",
    "C121_array_length",
    "C121_node_missing",
    "C121_enum_public",
    "C121_enum_private",
    "C121_enum_other",
    "C121_lang_exact"
   ],
   "note": "C121_one_form_refuted and C121_one_type_refuted have the witnesses; C121_order, C121_extra and C121_packed_mixup hold for all values, C121_twice, C121_missing and C121_named_no_mixup say what is refused."
  },
  {
   "property": "C122",
   "status": "proved",
   "theorems": [
    "C122_files",
    "C122_results",
    "C122_result_file",
    "C122_yct_session"
   ],
   "note": "The expectation that a stored ciphertext is read back is false for the five schemes of C122_results: it fails for all ciphertexts. The payload's length is assumed to be below 2^64."
  },
  {
   "property": "C123",
   "status": "partial",
   "theorems": [
    "C123_session",
    "C123_decrypt_refuted",
    "C123_never",
    "C123_size",
    "C123_wrong_length",
    "C123_names",
    "C123_keygen",
    "C123_comma_refuted",
    "C123_encrypt",
    "C123_policy",
    "C123_delegate",
    "C123_delegate_exact",
    "C123_keygen_exact",
    "C123_decrypt_fails",
    "C123_encrypt_fails",
    "C123_encrypt_beyond",
    "C123_size_wraps",
    "C123_unterminated"
   ],
   "note": "Refuted: C123_decrypt_refuted. rabe_bsw_decrypt takes the length of the ciphertext less 16 for that of the plaintext, forgets the nonce of 12 bytes, and reads 12 bytes past the plaintext; C123_session gives the outcome of every honest session and C123_never shows that no call at all returns a plaintext. C123_comma_refuted: names with a comma. Proved positively: keys, ciphertexts, refusals, names, wrong lengths, policies that are not JSON."
  },
  {
   "property": "C124",
   "status": "proved",
   "theorems": [
    "C124_sha3",
    "C124_schedule",
    "C124_aes",
    "C124_product",
    "C124_product_unique",
    "C124_seal",
    "C124_seal_unique",
    "C124_open",
    "C124_message",
    "C124_message_open"
   ],
   "note": "The specifications Fips202.v, Fips197.v and Sp80038d.v follow the numbering of the standards and share nothing with Sha3.v and Gcm.v but the multiplication of bytes in PrimitiveSpec.v. That the crates sha3 and aes-gcm implement these standards remains trusted."
  },
  {
   "property": "C125",
   "status": "partial",
   "theorems": [
    "C125_decrypt",
    "C125_make",
    "C125_operation_refuted",
    "C125_bsw",
    "C125_ghw",
    "C125_ghw_out",
    "C125_lsw",
    "C125_yct",
    "C125_aw",
    "C125_bd",
    "C125_mk",
    "C125_cp",
    "C125_kp",
    "C125_mismatch",
    "C125_never",
    "C125_policy",
    "C125_dnf",
    "C125_empty",
    "C125_ac17",
    "C125_request",
    "C125_aw_add",
    "C125_aw_keygen",
    "C125_spelled"
   ],
   "note": "Refuted: C125_operation_refuted. Decryption of BSW reports an error in bsw/encrypt. Proved positively: the functions with texts are those of the model when the text is forgotten (C125_decrypt, C125_make), and what every text means, for decryption, keys and encryption of all schemes; C125_never lists texts of the code that no run gives."
  },
  {
   "property": "C126",
   "status": "proved",
   "theorems": [
    "C126_bsw",
    "C126_ghw",
    "C126_lsw",
    "C126_yct",
    "C126_ac",
    "C126_aw",
    "C126_bd",
    "C126_mk",
    "C126_sharing",
    "C126_plain",
    "C126_aes"
   ],
   "note": "The tests are transcribed as programs of the model (UnitTests.v), with their policy texts verbatim; they pass for every tape without a zero, every nonce and every group with the laws. The hypotheses are that the hash is total and that 1 to 10 are not zero in the field. This also ties the model to the code: the expected node indices, span program and numbers of DNF terms in the tests are those of the model. Finding: two tests fix flaws as expected behaviour (C126_bd_or_and_opens, C126_dnf_counts)."
  },
  {
   "property": "C127",
   "status": "proved",
   "theorems": [
    "C127_bsw",
    "C127_bsw_any",
    "C127_ghw_transform",
    "C127_ghw_out",
    "C127_lsw",
    "C127_yct",
    "C127_yct_encrypt",
    "C127_ac17_cp",
    "C127_ac17_kp",
    "C127_aw",
    "C127_bdabe",
    "C127_mke"
   ],
   "note": "The model functions are run, unchanged, on group elements that carry the number of pairings and powers they were made with, and a cipher that answers with the number of the key. Counted is what goes into the payload key; a value used twice is counted twice (this concerns only the hash in AW11). The documentation's 'No pairing' for YCT14 and the 'fast' of AC17 are thereby exact."
  },
  {
   "property": "C128",
   "status": "partial",
   "theorems": [
    "C128_cheapest_refuted",
    "C128_at_most_all",
    "C128_conjunction"
   ],
   "note": "Refuted: of a disjunction the first true child is taken, so for (A and B) or C a key with A, B and C takes 5 pairings in BSW where a key with C alone takes 3. Proved: never more leaves than the policy has, exactly all of them without disjunctions; C101: none of them is superfluous."
  },
  {
   "property": "C129",
   "status": "proved",
   "theorems": [
    "C129_bsw_setup",
    "C129_bsw_keygen",
    "C129_bsw_delegate",
    "C129_bsw_encrypt",
    "C129_ghw_setup",
    "C129_ghw_keygen",
    "C129_ghw_tkgen",
    "C129_ghw_encrypt",
    "C129_lsw_setup",
    "C129_lsw_keygen",
    "C129_lsw_encrypt",
    "C129_yct_setup",
    "C129_yct_keygen",
    "C129_yct_encrypt",
    "C129_ac_setup",
    "C129_cp_keygen",
    "C129_cp_encrypt",
    "C129_kp_keygen",
    "C129_kp_encrypt",
    "C129_aw_setup",
    "C129_aw_authgen",
    "C129_aw_encrypt",
    "C129_bd_setup",
    "C129_bd_authgen",
    "C129_bd_keygen",
    "C129_bd_encrypt",
    "C129_mk_setup",
    "C129_mk_authgen",
    "C129_mk_keygen",
    "C129_mk_encrypt",
    "C129_apart",
    "C129_refused"
   ],
   "note": "Exact number of draws of all 30 operations, e.g. 2 + coins for BSW encryption where coins is one less than the parts of each conjunction; the result depends on these draws only."
  },
  {
   "property": "C130",
   "status": "partial",
   "theorems": [
    "C130_bsw_setup",
    "C130_bsw_keygen",
    "C130_bsw_delegate",
    "C130_bsw_encrypt",
    "C130_ghw_setup",
    "C130_ghw_keygen",
    "C130_ghw_tkgen",
    "C130_ghw_encrypt",
    "C130_lsw_setup",
    "C130_lsw_keygen",
    "C130_lsw_encrypt",
    "C130_lsw_encrypt_hides",
    "C130_lsw_encrypt_refuted",
    "C130_yct_setup",
    "C130_yct_keygen",
    "C130_yct_encrypt",
    "C130_ac_setup",
    "C130_cp_keygen",
    "C130_cp_encrypt",
    "C130_kp_keygen",
    "C130_kp_encrypt",
    "C130_aw_setup",
    "C130_aw_authgen",
    "C130_aw_encrypt",
    "C130_aw_encrypt_hides",
    "C130_aw_encrypt_refuted",
    "C130_bd_setup",
    "C130_bd_authgen",
    "C130_bd_keygen",
    "C130_bd_encrypt",
    "C130_bd_encrypt_hides",
    "C130_bd_encrypt_refuted",
    "C130_mk_setup",
    "C130_mk_authgen",
    "C130_mk_keygen",
    "C130_mk_encrypt",
    "C130_mk_encrypt_hides",
    "C130_mk_encrypt_refuted"
   ],
   "note": "Proved for 26 of the 30 operations, under the condition that the generators involved are not zero. Refuted for four: LSW encryption draws a value for its last attribute that is never used; AW11 encryption loses the value of a leaf without public key; BDABE and MKE08 encryption draw two values for the payload key of which only the product matters. For these the draws that do show are proved too."
  },
  {
   "property": "C131",
   "status": "proved",
   "theorems": [
    "C131_fixed",
    "C131_bsw_keygen",
    "C131_bsw_delegate",
    "C131_bsw_encrypt",
    "C131_lsw_keygen",
    "C131_lsw_encrypt",
    "C131_yct_setup",
    "C131_yct_keygen",
    "C131_yct_encrypt",
    "C131_ac_setup",
    "C131_cp_keygen",
    "C131_cp_encrypt",
    "C131_kp_keygen",
    "C131_kp_encrypt",
    "C131_aw_authgen",
    "C131_aw_keygen",
    "C131_aw_encrypt",
    "C131_bd_authgen",
    "C131_bd_keygen",
    "C131_bd_request_pk",
    "C131_bd_request_sk",
    "C131_bd_encrypt",
    "C131_mk_authgen",
    "C131_mk_keygen",
    "C131_mk_request_pk",
    "C131_mk_request_sk",
    "C131_mk_encrypt",
    "C131_alike",
    "C131_seals"
   ],
   "note": "All types with a borsh form; GHW11 has none. The widths of the four kinds of group elements and scalars are parameters (the encoding of rabe-bn is not modelled). The cipher condition is proved of AES-GCM (C131_seals)."
  },
  {
   "property": "C132",
   "status": "proved",
   "theorems": [
    "C132_same",
    "C132_twin",
    "C132_five",
    "C132_none"
   ],
   "note": "Adversaries are combinations of group operations as in C109, fixed before the randomness of the others is drawn. Attributes may occur several times in the policy (C132_none, C132_five); the pairwise form C132_twin asks that they do not. The converse is C111 (one identity) and, for several identities whose attributes only together satisfy the policy, C57: those do open, as hashes of identities are known scalars."
  },
  {
   "property": "C133",
   "status": "partial",
   "theorems": [
    "C133_bsw_encrypt",
    "C133_bsw_decrypt",
    "C133_ghw_encrypt",
    "C133_ghw_transform",
    "C133_lsw_keygen",
    "C133_lsw_decrypt",
    "C133_yct_decrypt",
    "C133_cp_encrypt",
    "C133_cp_decrypt",
    "C133_kp_keygen",
    "C133_kp_decrypt",
    "C133_aw_encrypt",
    "C133_aw_decrypt",
    "C133_bd_encrypt",
    "C133_bd_decrypt",
    "C133_mk_encrypt",
    "C133_mk_decrypt",
    "C133_silent",
    "C133_in_dnf",
    "C133_array",
    "C133_delegate",
    "C133_yct_keygen",
    "C133_yct_keygen_lines",
    "C133_yct_keygen_secrets",
    "C133_silent_refuted",
    "C133_read_to_vec",
    "C133_number",
    "C133_write_from_vec",
    "C133_write_file"
   ],
   "note": "Refuted as stated for all operations: \"a call that succeeds prints nothing\" is false of YCT14 keygen (C133_silent_refuted), which reports and skips leaves without master key part; C133_yct_keygen_lines gives its lines exactly. All other policy operations: C133_silent. The text of a pest error and Rust's {:?} of a string are parameters; the prints of rabe-console are not modelled."
  },
  {
   "property": "C134",
   "status": "proved",
   "theorems": [
    "C134_bsw",
    "C134_lsw",
    "C134_ac17_cp",
    "C134_ac17_kp",
    "C134_yct",
    "C134_yct_guess",
    "C134_ghw_cloud",
    "C134_bdabe",
    "C134_mke",
    "C134_aw"
   ],
   "note": "Probabilities are stated as numbers of lists of drawn values. Adversaries are combinations of group operations as in C109, chosen before the values are drawn. For BDABE and MKE08 the draws of the authorities are fixed and the combination may depend on them."
  },
  {
   "property": "C135",
   "status": "partial",
   "theorems": [
    "C135_status",
    "C135_error_line",
    "C135_nothing",
    "C135_announced",
    "C135_setup",
    "C135_authgen",
    "C135_keygen",
    "C135_yct_keygen",
    "C135_delegate",
    "C135_encrypt",
    "C135_decrypt",
    "C135_request_pk",
    "C135_request_sk",
    "C135_same",
    "C135_bad_file",
    "C135_several_keys",
    "C135_no_request",
    "C135_list",
    "C135_request_refuted",
    "C135_encrypt_refuted",
    "C135_no_authorities",
    "C135_no_attributes",
    "C135_yct_setup",
    "C135_no_name",
    "C135_no_delegation",
    "C135_outside",
    "C135_nothing_delegated"
   ],
   "note": "Standard output only: the texts of panics go to standard error and are not modelled.  The last sentence is false: a BDABE request for a secret key that is refused and a BSW encryption for a policy that cannot be read have exit status 0."
  },
  {
   "property": "C136",
   "status": "partial",
   "theorems": [
    "C136_bsw",
    "C136_ghw",
    "C136_lsw",
    "C136_cp",
    "C136_kp",
    "C136_yct",
    "C136_mke",
    "C136_bdabe",
    "C136_bdabe_authority",
    "C136_bdabe_refuted"
   ],
   "note": "The expectation that a BDABE authority opens only ciphertexts for attributes of its own is false: every authority opens every ciphertext (C136_bdabe_authority, witness C136_bdabe_refuted).  For MKE08 the authorities alone do not open (C109, where their exponents are known to whoever chooses the combination), for AW11 see C132.  YCT14 needs the secret of the attribute used to be different from zero."
  },
  {
   "property": "C137",
   "status": "partial",
   "theorems": [
    "C137_accepted",
    "C137_exact",
    "C137_front",
    "C137_one_attribute",
    "C137_one_public_key",
    "C137_no_defaults",
    "C137_session",
    "C137_readme_key",
    "C137_readme",
    "C137_readme_refuted"
   ],
   "note": "The last sentence is false: the key of the README has the one attribute \"A and B\" (C137_readme_key), and the fourth call ends with exit status 1 whatever was encrypted (C137_readme, witness C137_readme_refuted).  With a fitting attribute the call panics instead unless the document is empty (C137_session, C68).  How clap hands the words out is taken from its documentation; authgen, whose declarations break a rule of clap, and the spelling --a=value are left out."
  },
  {
   "property": "C138",
   "status": "proved",
   "theorems": [
    "C138_bsw",
    "C138_bsw_delegated",
    "C138_ghw",
    "C138_ac17_cp",
    "C138_ac17_kp",
    "C138_yct",
    "C138_lsw",
    "C138_aw",
    "C138_bdabe",
    "C138_mke"
   ],
   "note": "Counted, not only bounded: C138 gives the complete list of the runs that work, its length and the panic of every other run.  The conditions on policies and attributes are those of C29 to C39.  That the values are drawn uniformly is not part of the model."
  },
  {
   "property": "C139",
   "status": "proved",
   "theorems": [
    "C139_bsw",
    "C139_lsw",
    "C139_yct",
    "C139_ac17",
    "C139_aw",
    "C139_bdabe",
    "C139_mke",
    "C139_result"
   ],
   "note": "Bytes in terms of the codecs of rabe_bn for field and group elements, which are parameters."
  },
  {
   "property": "C140",
   "status": "partial",
   "theorems": [
    "C140_twins",
    "C140_files",
    "C140_refuted",
    "C140_apart"
   ],
   "note": "Refuted: C140_refuted; C140_twins and C140_files say which files are confused, C140_apart which are not."
  },
  {
   "property": "C141",
   "status": "proved",
   "theorems": [
    "C141_trace",
    "C141_late",
    "C141_readable",
    "C141_needed"
   ],
   "note": "Generalises C74; C141_needed shows that the condition on the other calls cannot be dropped."
  },
  {
   "property": "C142",
   "status": "proved",
   "theorems": [
    "C142_completes",
    "C142_aborts",
    "C142_attributes"
   ],
   "note": "Criterion itself (how often it runs a closure, and its measurements) is not modelled."
  },
  {
   "property": "C143",
   "status": "proved",
   "theorems": [
    "C143_quoted",
    "C143_utf8",
    "C143_split"
   ],
   "note": "The model reads bytes, pest characters; this is why both give the same names."
  },
  {
   "property": "C144",
   "status": "proved",
   "theorems": [
    "C144_files",
    "C144_lines"
   ],
   "note": "C141 with the condition on the files themselves instead of on the calls in between; C144_lines speaks of the words of the command lines as in C137."
  },
  {
   "property": "C145",
   "status": "proved",
   "theorems": [
    "C145_bd_parts",
    "C145_mk_parts",
    "C145_every_leaf",
    "C145_count",
    "C145_names",
    "C145_bd_bytes",
    "C145_mk_bytes"
   ],
   "note": "The equations of C84 and the lengths of C131 for BDABE and MKE08 without json_to_dnf in the statement; that the blocks are not the conjunctions of the policy is C25 and C94."
  },
  {
   "property": "C146",
   "status": "proved",
   "theorems": [
    "C146_bsw",
    "C146_ghw",
    "C146_lsw",
    "C146_ac17_cp",
    "C146_ac17_kp",
    "C146_aw11",
    "C146_bdabe",
    "C146_mke08"
   ],
   "note": "Counted as in C127, where YCT14 is; how many elements a ciphertext has is C84, C131 and C145. A value used twice is billed twice, so the hashes of the columns of AC17 are counted at every use."
  },
  {
   "property": "C147",
   "status": "proved",
   "theorems": [
    "C147_borsh",
    "C147_layout",
    "C147_read",
    "C147_apart"
   ],
   "note": "The type that C65, C120 and C140 leave out."
  },
  {
   "property": "C148",
   "status": "proved",
   "theorems": [
    "C148_bsw",
    "C148_bsw_delegate",
    "C148_ghw",
    "C148_ghw_transform",
    "C148_lsw",
    "C148_aw11_authority",
    "C148_aw11",
    "C148_bdabe",
    "C148_mke08",
    "C148_ac17_cp",
    "C148_ac17_kp"
   ],
   "note": "Counted as in C127 and C146; a value used twice is billed twice, so in AC17 keys for a policy the bill of an element is larger than the number of operations the loop performs for it. Keys of YCT14 hold no group elements."
  },
  {
   "property": "C149",
   "status": "partial",
   "theorems": [
    "C149_places",
    "C149_bsw",
    "C149_ghw",
    "C149_aw",
    "C149_ac17_cp",
    "C149_ac17_kp",
    "C149_yct",
    "C149_lsw",
    "C149_lsw_noticed",
    "C149_lsw_refuted"
   ],
   "note": "False for LSW ciphertexts (C149_lsw_refuted): the values for negated attributes no longer add up to zero, unless those dropped do (C149_lsw_noticed); but decryption does not read them, so every key opens what is left as it opens a ciphertext for the attributes left (C149_lsw). Proved for the other six."
  },
  {
   "property": "C150",
   "status": "proved",
   "theorems": [
    "C150_draws",
    "C150_bsw",
    "C150_ghw",
    "C150_lsw",
    "C150_yct",
    "C150_aw_draws",
    "C150_aw"
   ],
   "note": "The five schemes that share a secret over the policy; AW11 shares two. Not AC17, where the columns of the span program are counted over the whole policy."
  },
  {
   "property": "C151",
   "status": "partial",
   "theorems": [
    "C151_ghw_agree_refuted",
    "C151_yct_agree_refuted",
    "C151_aw_agree_refuted",
    "C151_cp_agree_refuted",
    "C151_kp_agree_refuted",
    "C151_held",
    "C151_bsw",
    "C151_ghw",
    "C151_lsw",
    "C151_yct",
    "C151_aw",
    "C151_ac17_cp",
    "C151_ac17_kp",
    "C151_bdabe",
    "C151_mke",
    "C151_bsw_agree_refuted",
    "C151_lsw_agree_refuted",
    "C151_bdabe_agree_refuted",
    "C151_mke_agree_refuted"
   ],
   "note": "What is read is proved for all eight schemes. The last sentence is false: the theorems C151_..._agree_refuted, for every scheme, change one entry of a ciphertext, and then one of two fitting keys opens it and the other gets an error. For ciphertexts that the crate made all fitting keys agree (C29 to C39)."
  },
  {
   "property": "C152",
   "status": "proved",
   "theorems": [
    "C152_ghw",
    "C152_ghw_differs",
    "C152_lsw",
    "C152_lsw_all"
   ],
   "note": "With C149 also for parts of the attributes, and with C150 for one alternative of a policy. Entries for negated names are left out: their second part contains a value that is not public. The BSW case is C31_bsw_delegate_fresh."
  },
  {
   "property": "C153",
   "status": "proved",
   "theorems": [
    "C153_ghw",
    "C153_lsw"
   ],
   "note": "C149, C150 and C152 together."
  },
  {
   "property": "C154",
   "status": "proved",
   "theorems": [
    "C154_bsw",
    "C154_ghw",
    "C154_lsw",
    "C154_aw",
    "C154_ac17_cp",
    "C154_ac17_kp",
    "C154_bdabe",
    "C154_mke"
   ],
   "note": "The sealed data is not refreshed: without the payload key it stays as it is, and that links ciphertexts. In YCT14 the payload key is made of the only value drawn."
  },
  {
   "property": "C155",
   "status": "proved",
   "theorems": [
    "C155_narrower",
    "C155_names",
    "C155_bsw",
    "C155_ghw",
    "C155_lsw",
    "C155_yct",
    "C155_aw"
   ],
   "note": "Generalises C150 (one alternative of a top-level disjunction). BSW and GHW11 entries get the labels of the shorter text; LSW and YCT14 entries have no places. In AW11 (C155_aw) a leaf has an entry if a public key names it, and the entries get the labels of the shorter text."
  },
  {
   "property": "C156",
   "status": "partial",
   "theorems": [
    "C156_bsw_retarget",
    "C156_ghw_retarget",
    "C156_bsw_opens",
    "C156_ghw_opens",
    "C156_bsw_refuted",
    "C156_ghw_refuted"
   ],
   "note": "Refuted for every ciphertext: the hash of a name is a known power of the generator, so the entries of a ciphertext combine to the secret in the exponent, and with it entries for any policy are computed. The result is exactly what encryption gives for the other policy, in both directions (C156_bsw_retarget, C156_ghw_retarget); C156_bsw_refuted and C156_ghw_refuted show a user opening what their key does not open."
  },
  {
   "property": "C157",
   "status": "partial",
   "theorems": [
    "C157_lsw_rekey",
    "C157_lsw_rekey_any",
    "C157_lsw_opens",
    "C157_lsw_refuted"
   ],
   "note": "Refuted for every key without negated names: the entries combine to the master secret times a known power of a generator, and this is an entry for any name whose hash is not zero. The result is exactly what key generation gives for the name, and every key for it arises (C157_lsw_rekey); likewise for any policy without negated names (C157_lsw_rekey_any). So every such key opens every ciphertext that has a name with a hash other than zero (C157_lsw_opens). C157_lsw_refuted shows a user doing so."
  },
  {
   "property": "C158",
   "status": "partial",
   "theorems": [
    "C158_yct_sever",
    "C158_yct_sever_any",
    "C158_yct_opens",
    "C158_yct_sever_one",
    "C158_one_means",
    "C158_yct_refuted",
    "C158_yct_any_refuted",
    "C158_yct_one_refuted"
   ],
   "note": "Refuted for all names and random values unless a share is zero: the entries for the first name give the ratio of the two names' secrets, and the result is exactly the key that key generation gives for the second name (C158_yct_sever); likewise for any policy in the place of the second name (C158_yct_sever_any), so every ciphertext that satisfies it is opened (C158_yct_opens). One key for A or (A and g), a policy that means A (C158_one_means), gives a key for g in the same way (C158_yct_sever_one, C158_yct_one_refuted); compare C110_one_key, where no name occurs twice. C158_yct_refuted and C158_yct_any_refuted show users doing so and opening what neither of the keys opens."
  },
  {
   "property": "C159",
   "status": "partial",
   "theorems": [
    "C159_yct_two_keys",
    "C159_yct_zeros",
    "C159_yct_many_keys",
    "C159_yct_refuted",
    "C159_yct_many_refuted"
   ],
   "note": "Refuted for all policies with distinct names: two keys whose values for a name differ combine to an issued key with zero for this name (C119), and the crate's decryption with this key opens every ciphertext that satisfies the policy but for this name, once a neutral entry is added (C159_yct_two_keys). C159_yct_zeros is the form for any number of missing names, and C159_yct_many_keys eliminates one name with each further key. C159_yct_refuted and C159_yct_many_refuted show runs. C60 and C158 make keys instead."
  },
  {
   "property": "C160",
   "status": "proved",
   "theorems": [
    "C160_yct_twin",
    "C160_yct_moved",
    "C160_yct_either",
    "C160_yct_room"
   ],
   "note": "C160_yct_either is the alternative, from the solvability of linear equations in the values of the keys; C160_yct_twin moves the system along a solution, C160_yct_moved gives the secrets of the moved system, and C160_yct_room shows that there always is one with another secret. It complements C159 (the first case, by elimination) and C110_one_key (one key, any policy). For the second case it says that the keys arise in the other system, not that no computation opens in both, which C110_one_key shows for one key."
  }
 ]
}