{
 "claims": [
  {
   "property": "C01",
   "status": "proved",
   "theorems": [
    "C01_construct_keyed",
    "C01_construct_unkeyed"
   ],
   "note": ""
  },
  {
   "property": "C02",
   "status": "proved",
   "theorems": [
    "C02_history_refines_finite_maps",
    "C02_mapPartitions_total",
    "C02_mapPartitions_raises"
   ],
   "note": ""
  },
  {
   "property": "C03",
   "status": "proved",
   "theorems": [
    "C03_join",
    "C03_union",
    "C03_subtractByKey",
    "C03_filter",
    "C03_map",
    "C03_mapValues"
   ],
   "note": ""
  },
  {
   "property": "C04",
   "status": "proved",
   "theorems": [
    "C04_reduce_folds",
    "C04_reduce_restarts_after_None",
    "C04_mapReducePartitions",
    "C04_take_first"
   ],
   "note": ""
  },
  {
   "property": "C05",
   "status": "proved",
   "theorems": [
    "C05_payload_fragmentation"
   ],
   "note": ""
  },
  {
   "property": "C06",
   "status": "proved",
   "theorems": [
    "C06_short_header_never_right",
    "C06_any_fragmentation_refuted",
    "C06_desynchronised_stream_raises_refuted",
    "C06_negative_length",
    "C06_leading_underscore"
   ],
   "note": ""
  },
  {
   "property": "C07",
   "status": "proved",
   "theorems": [
    "C07_closed_mid_message_never_returns",
    "C07_closed_between_messages_raises"
   ],
   "note": ""
  },
  {
   "property": "C08",
   "status": "proved",
   "theorems": [
    "C08_send_to_all",
    "C08_send_to_one",
    "C08_send_bad_index",
    "C08_recv_from_all",
    "C08_recv_from_one",
    "C08_recv_bad_index"
   ],
   "note": ""
  },
  {
   "property": "C09",
   "status": "proved",
   "theorems": [
    "C09_int_roundtrip",
    "C09_int_rejected"
   ],
   "note": ""
  },
  {
   "property": "C10",
   "status": "proved",
   "theorems": [
    "C10_float_error",
    "C10_float_ties",
    "C10_float_total",
    "C10_lossless_refuted"
   ],
   "note": ""
  },
  {
   "property": "C11",
   "status": "proved",
   "theorems": [
    "C11_add",
    "C11_add_scalar",
    "C11_sub",
    "C11_rsub",
    "C11_mul",
    "C11_mul_scalar",
    "C11_compare",
    "C11_compare_scalar",
    "C11_custom_modulus_refuted"
   ],
   "note": ""
  },
  {
   "property": "C12",
   "status": "proved",
   "theorems": [
    "C12_roundtrip",
    "C12_bad_factors"
   ],
   "note": ""
  },
  {
   "property": "C13",
   "status": "proved",
   "theorems": [
    "C13_bad_obfuscator",
    "C13_roundtrip_refuted"
   ],
   "note": ""
  },
  {
   "property": "C14",
   "status": "proved",
   "theorems": [
    "C14_product",
    "C14_power",
    "C14_inverse",
    "C14_no_inverse",
    "C14_obfuscate"
   ],
   "note": ""
  },
  {
   "property": "C15",
   "status": "proved",
   "theorems": [
    "C15_encrypt",
    "C15_encrypt_given",
    "C15_decrypt",
    "C15_add",
    "C15_sub",
    "C15_add_scalar",
    "C15_scalar_sub",
    "C15_mul",
    "C15_neg",
    "C15_increase"
   ],
   "note": ""
  },
  {
   "property": "C16",
   "status": "proved",
   "theorems": [
    "C16_two_terms",
    "C16_three_terms_refuted"
   ],
   "note": ""
  },
  {
   "property": "C17",
   "status": "proved",
   "theorems": [
    "C17_gradient_sums"
   ],
   "note": ""
  },
  {
   "property": "C18",
   "status": "proved",
   "theorems": [
    "C18_not_encrypted",
    "C18_foreign_key",
    "C18_mixed_keys"
   ],
   "note": ""
  },
  {
   "property": "C19",
   "status": "proved",
   "theorems": [
    "C19_int",
    "C19_float"
   ],
   "note": ""
  },
  {
   "property": "C20",
   "status": "proved",
   "theorems": [
    "C20_keys",
    "C20_fast_keys",
    "C20_all_rows_refuted"
   ],
   "note": ""
  },
  {
   "property": "C21",
   "status": "proved",
   "theorems": [
    "C21_roundtrip",
    "C21_product",
    "C21_no_key"
   ],
   "note": ""
  },
  {
   "property": "C22",
   "status": "proved",
   "theorems": [
    "C22_expressions",
    "C22_leaf_encoding",
    "C22_outside",
    "C22_generate",
    "C22_bad_key",
    "C22_unsupported",
    "C22_window_refuted"
   ],
   "note": ""
  },
  {
   "property": "C23",
   "status": "proved",
   "theorems": [
    "C23_one_batch",
    "C23_any_history"
   ],
   "note": ""
  },
  {
   "property": "C24",
   "status": "proved",
   "theorems": [
    "C24_rank",
    "C24_monotone",
    "C24_documented_refuted"
   ],
   "note": ""
  },
  {
   "property": "C25",
   "status": "proved",
   "theorems": [
    "C25_flush_keeps",
    "C25_no_loss_refuted"
   ],
   "note": ""
  },
  {
   "property": "C26",
   "status": "proved",
   "theorems": [
    "C26_total",
    "C26_merge",
    "C26_merge_total_refuted",
    "C26_abnormal_refuted",
    "C26_uncompressed_refuted"
   ],
   "note": ""
  },
  {
   "property": "C27",
   "status": "proved",
   "theorems": [
    "C27_sorted_refuted",
    "C27_one_sided"
   ],
   "note": ""
  },
  {
   "property": "C28",
   "status": "proved",
   "theorems": [
    "C28_bin",
    "C28_monotone",
    "C28_threshold",
    "C28_dense_row",
    "C28_fitted_refuted"
   ],
   "note": ""
  },
  {
   "property": "C29",
   "status": "proved",
   "theorems": [
    "C29_sparse",
    "C29_prepare"
   ],
   "note": ""
  },
  {
   "property": "C30",
   "status": "proved",
   "theorems": [
    "C30_overwritten",
    "C30_kept_refuted",
    "C30_prediction_refuted"
   ],
   "note": ""
  },
  {
   "property": "C31",
   "status": "proved",
   "theorems": [
    "C31_bins",
    "C31_accumulated"
   ],
   "note": ""
  },
  {
   "property": "C32",
   "status": "proved",
   "theorems": [
    "C32_stored_only"
   ],
   "note": ""
  },
  {
   "property": "C33",
   "status": "proved",
   "theorems": [
    "C33_encrypted"
   ],
   "note": ""
  },
  {
   "property": "C34",
   "status": "proved",
   "theorems": [
    "C34_local_split",
    "C34_never_last_bin"
   ],
   "note": ""
  },
  {
   "property": "C35",
   "status": "proved",
   "theorems": [
    "C35_host_search",
    "C35_same_as_plaintext"
   ],
   "note": ""
  },
  {
   "property": "C36",
   "status": "proved",
   "theorems": [
    "C36_chosen",
    "C36_every_node",
    "C36_no_placeholder",
    "C36_gain_roundtrip",
    "C36_no_host_refuted"
   ],
   "note": ""
  },
  {
   "property": "C37",
   "status": "proved",
   "theorems": [
    "C37_weight_optimal",
    "C37_gain_is_drop",
    "C37_gain_lower_bound",
    "C37_gain_nonneg_refuted"
   ],
   "note": ""
  },
  {
   "property": "C38",
   "status": "proved",
   "theorems": [
    "C38_plain",
    "C38_paillier"
   ],
   "note": ""
  },
  {
   "property": "C39",
   "status": "proved",
   "theorems": [
    "C39_plain",
    "C39_paillier"
   ],
   "note": ""
  },
  {
   "property": "C40",
   "status": "proved",
   "theorems": [
    "C40_boost_plain",
    "C40_boost_paillier",
    "C40_plain",
    "C40_paillier"
   ],
   "note": ""
  },
  {
   "property": "C41",
   "status": "proved",
   "theorems": [
    "C41_predict",
    "C41_absent",
    "C41_dropped_refuted"
   ],
   "note": ""
  },
  {
   "property": "C42",
   "status": "proved",
   "theorems": [
    "C42_plain",
    "C42_paillier"
   ],
   "note": ""
  },
  {
   "property": "C43",
   "status": "proved",
   "theorems": [
    "C43_fields",
    "C43_predictions",
    "C43_overflow",
    "C43_always_saves_refuted"
   ],
   "note": ""
  },
  {
   "property": "C44",
   "status": "proved",
   "theorems": [
    "C44_leak",
    "C44_guest_thresholds",
    "C44_host_thresholds",
    "C44_labels_hidden_refuted"
   ],
   "note": ""
  },
  {
   "property": "C45",
   "status": "proved",
   "theorems": [
    "C45_plain",
    "C45_paillier",
    "C45_predict_plain",
    "C45_predict_paillier",
    "C45_exact"
   ],
   "note": ""
  },
  {
   "property": "C46",
   "status": "proved",
   "theorems": [
    "C46_plain",
    "C46_paillier",
    "C46_mismatch_refuted"
   ],
   "note": ""
  },
  {
   "property": "C47",
   "status": "proved",
   "theorems": [
    "C47_boost_plain",
    "C47_boost_paillier",
    "C47_plain",
    "C47_paillier",
    "C47_mismatch_refuted"
   ],
   "note": ""
  },
  {
   "property": "C48",
   "status": "proved",
   "theorems": [
    "C48_labels",
    "C48_too_many",
    "C48_mixed",
    "C48_predict"
   ],
   "note": ""
  },
  {
   "property": "C49",
   "status": "proved",
   "theorems": [
    "C49_sample"
   ],
   "note": ""
  },
  {
   "property": "C50",
   "status": "proved",
   "theorems": [
    "C50_plain",
    "C50_paillier"
   ],
   "note": ""
  },
  {
   "property": "C51",
   "status": "proved",
   "theorems": [
    "C51_sigmoid",
    "C51_softmax",
    "C51_lse",
    "C51_huber",
    "C51_fair",
    "C51_log_cosh",
    "C51_loss"
   ],
   "note": ""
  },
  {
   "property": "C52",
   "status": "proved",
   "theorems": [
    "C52_tweedie_refuted",
    "C52_tweedie_sign",
    "C52_lae",
    "C52_lae_refuted",
    "C52_lae_else"
   ],
   "note": ""
  },
  {
   "property": "C53",
   "status": "proved",
   "theorems": [
    "C53_sigmoid",
    "C53_softmax",
    "C53_two",
    "C53_others",
    "C53_hard_sigmoid",
    "C53_softsign",
    "C53_softplus"
   ],
   "note": ""
  },
  {
   "property": "C54",
   "status": "proved",
   "theorems": [
    "C54_order",
    "C54_exact",
    "C54_error",
    "C54_integers",
    "C54_negative_refuted",
    "C54_maximum_refuted",
    "C54_columns",
    "C54_aggregate",
    "C54_partitions"
   ],
   "note": ""
  },
  {
   "property": "C55",
   "status": "proved",
   "theorems": [
    "C55_statistics",
    "C55_quantile_point",
    "C55_median",
    "C55_initialize",
    "C55_start",
    "C55_fit"
   ],
   "note": ""
  },
  {
   "property": "C56",
   "status": "proved",
   "theorems": [
    "C56_labelled",
    "C56_unlabelled",
    "C56_errors",
    "C56_columns",
    "C56_short_row",
    "C56_every_file",
    "C56_blank_refuted",
    "C56_ragged_refuted"
   ],
   "note": ""
  },
  {
   "property": "C57",
   "status": "proved",
   "theorems": [
    "C57_partition",
    "C57_size",
    "C57_extremes",
    "C57_aligned",
    "C57_tables",
    "C57_order_refuted"
   ],
   "note": ""
  },
  {
   "property": "C58",
   "status": "proved",
   "theorems": [
    "C58_accepts",
    "C58_rejects",
    "C58_idempotent",
    "C58_unchecked",
    "C58_nan_refuted",
    "C58_mode_refuted",
    "C58_none",
    "C58_mode",
    "C58_predict",
    "C58_evaluate",
    "C58_evaluate_accepts",
    "C58_cv",
    "C58_binning",
    "C58_transform"
   ],
   "note": ""
  },
  {
   "property": "C59",
   "status": "proved",
   "theorems": [
    "C59_runs",
    "C59_lost",
    "C59_test",
    "C59_off",
    "C59_stage",
    "C59_output_refuted"
   ],
   "note": ""
  },
  {
   "property": "C60",
   "status": "proved",
   "theorems": [
    "C60_dense_increasing"
   ],
   "note": ""
  },
  {
   "property": "C61",
   "status": "proved",
   "theorems": [
    "C61_accuracy",
    "C61_empty"
   ],
   "note": ""
  },
  {
   "property": "C62",
   "status": "proved",
   "theorems": [
    "C62_override",
    "C62_no_section",
    "C62_succeeds",
    "C62_deep",
    "C62_misspelt_refuted"
   ],
   "note": ""
  },
  {
   "property": "C63",
   "status": "proved",
   "theorems": [
    "C63_tree",
    "C63_encryption",
    "C63_boost",
    "C63_predict",
    "C63_foreign"
   ],
   "note": ""
  },
  {
   "property": "C64",
   "status": "proved",
   "theorems": [
    "C64_tree",
    "C64_boost",
    "C64_boost_all",
    "C64_near_tie_refuted"
   ],
   "note": ""
  },
  {
   "property": "C65",
   "status": "proved",
   "theorems": [
    "C65_plain",
    "C65_paillier",
    "C65_again_plain",
    "C65_again_paillier",
    "C65_reused",
    "C65_reused_refuted"
   ],
   "note": ""
  },
  {
   "property": "C66",
   "status": "proved",
   "theorems": [
    "C66_plain",
    "C66_paillier",
    "C66_no_test_plain",
    "C66_no_test_paillier",
    "C66_ids_guest",
    "C66_ids_host",
    "C66_order_refuted"
   ],
   "note": ""
  },
  {
   "property": "C67",
   "status": "proved",
   "theorems": [
    "C67_plain",
    "C67_paillier",
    "C67_split_refuted",
    "C67_no_number"
   ],
   "note": ""
  },
  {
   "property": "C68",
   "status": "proved",
   "theorems": [
    "C68_finishes",
    "C68_trees",
    "C68_rounds",
    "C68_predict",
    "C68_strict",
    "C68_age"
   ],
   "note": ""
  },
  {
   "property": "C69",
   "status": "proved",
   "theorems": [
    "C69_difference",
    "C69_labels"
   ],
   "note": ""
  },
  {
   "property": "C70",
   "status": "proved",
   "theorems": [
    "C70_accuracy",
    "C70_short_host",
    "C70_same_name",
    "C70_same_name_refuted"
   ],
   "note": ""
  },
  {
   "property": "C71",
   "status": "proved",
   "theorems": [
    "C71_same_accuracy",
    "C71_near_tie_refuted"
   ],
   "note": ""
  },
  {
   "property": "C72",
   "status": "proved",
   "theorems": [
    "C72_diff",
    "C72_weights",
    "C72_in_place",
    "C72_in_place_refuted"
   ],
   "note": ""
  },
  {
   "property": "C73",
   "status": "proved",
   "theorems": [
    "C73_small",
    "C73_lengths",
    "C73_raises",
    "C73_rows",
    "C73_error",
    "C73_scaling_refuted",
    "C73_reduce",
    "C73_reduce_lengths",
    "C73_reduce_kinds",
    "C73_reduce_values",
    "C73_norm",
    "C73_reduce_refuted"
   ],
   "note": ""
  },
  {
   "property": "C74",
   "status": "proved",
   "theorems": [
    "C74_near",
    "C74_exact",
    "C74_zero_bin_refuted"
   ],
   "note": ""
  },
  {
   "property": "C75",
   "status": "proved",
   "theorems": [
    "C75_near_best",
    "C75_best_refuted"
   ],
   "note": ""
  },
  {
   "property": "C76",
   "status": "proved",
   "theorems": [
    "C76_near_tree",
    "C76_same_tree",
    "C76_near_tie_refuted"
   ],
   "note": ""
  },
  {
   "property": "C77",
   "status": "proved",
   "theorems": [
    "C77_plain",
    "C77_paillier",
    "C77_gone",
    "C77_empty_read",
    "C77_death_refuted"
   ],
   "note": ""
  },
  {
   "property": "C78",
   "status": "proved",
   "theorems": [
    "C78_decrypt",
    "C78_decrypt_table",
    "C78_encrypt",
    "C78_table_refuted"
   ],
   "note": ""
  },
  {
   "property": "C79",
   "status": "proved",
   "theorems": [
    "C79_accepts",
    "C79_exactly",
    "C79_sections_ignored",
    "C79_errors",
    "C79_sections_refuted",
    "C79_all_rules_refuted"
   ],
   "note": ""
  },
  {
   "property": "C80",
   "status": "proved",
   "theorems": [
    "C80_first",
    "C80_outcomes",
    "C80_key",
    "C80_roundtrip",
    "C80_odd",
    "C80_never",
    "C80_ends_refuted"
   ],
   "note": ""
  },
  {
   "property": "C81",
   "status": "proved",
   "theorems": [
    "C81_equal",
    "C81_modulus",
    "C81_secret_refuted",
    "C81_weak_key"
   ],
   "note": ""
  },
  {
   "property": "C82",
   "status": "proved",
   "theorems": [
    "C82_partitions",
    "C82_encrypted",
    "C82_masks_refuted"
   ],
   "note": ""
  },
  {
   "property": "C83",
   "status": "proved",
   "theorems": [
    "C83_partitions",
    "C83_counts",
    "C83_same",
    "C83_same_refuted",
    "C83_columns_refuted",
    "C83_sparse_query",
    "C83_sparse"
   ],
   "note": ""
  },
  {
   "property": "C84",
   "status": "proved",
   "theorems": [
    "C84_chosen",
    "C84_rejected",
    "C84_distinct",
    "C84_all",
    "C84_position_refuted",
    "C84_negative_refuted"
   ],
   "note": ""
  }
 ]
}