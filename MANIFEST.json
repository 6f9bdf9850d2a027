{
 "claims": [
  {
   "property": "C01",
   "status": "proved",
   "theorems": [
    "C01_kdtree_lookup_exact"
   ],
   "note": "functional tree model of container/kdtree.py; all construction + insert/remove histories; exact rationals"
  },
  {
   "property": "C02",
   "status": "proved",
   "theorems": [
    "C02_kdtree_range_exact"
   ],
   "note": "distance >= 0; exact rationals"
  },
  {
   "property": "C03",
   "status": "proved",
   "theorems": [
    "C03_kdtree_nearest_exact"
   ],
   "note": "distance >= 0; exact rationals"
  },
  {
   "property": "C04",
   "status": "proved",
   "theorems": [
    "C04_kdtree_multiset"
   ],
   "note": "parent pointers implicit in the model"
  },
  {
   "property": "C05",
   "status": "proved",
   "theorems": [
    "C05_find_left_element_leftmost",
    "C05_find_left_element_rejects"
   ],
   "note": "strict weak order comparator; non-negative indices"
  },
  {
   "property": "C06",
   "status": "proved",
   "theorems": [
    "C06_dsatur_proper"
   ],
   "note": "any iteration order of the python set; weighted matrices allowed"
  },
  {
   "property": "C07",
   "status": "proved",
   "theorems": [
    "C07_index_to_label_describes",
    "C07_label_to_index_describes",
    "C07_label_index_label_roundtrip",
    "C07_index_label_index_roundtrip",
    "C07_set_encoding_labels",
    "C07_set_encoding_indices"
   ],
   "note": ""
  },
  {
   "property": "C08",
   "status": "proved",
   "theorems": [
    "C08_object_roundtrip",
    "C08_object_roundtrip_distinct",
    "C08_set_encoding_objects",
    "C08_equal_with_different_text_refuted"
   ],
   "note": "for objects whose equality agrees with equality of str(); a witness shows the failure otherwise"
  },
  {
   "property": "C09",
   "status": "proved",
   "theorems": [
    "C09_dbscan_partition_points",
    "C09_dbscan_partition_matrix"
   ],
   "note": "points of one dimension; square matrices"
  },
  {
   "property": "C10",
   "status": "proved",
   "theorems": [
    "C10_dbscan_density_points",
    "C10_dbscan_density_matrix"
   ],
   "note": "order of points inside a cluster is not specified beyond its first element"
  },
  {
   "property": "C11",
   "status": "proved",
   "theorems": [
    "C11_optics_partition_points",
    "C11_optics_partition_matrix",
    "C11_optics_minpts_zero_refuted"
   ],
   "note": "minpts >= 1 as stated; minpts = 0 is accepted by the constructor and fails (witness)"
  },
  {
   "property": "C12",
   "status": "proved",
   "theorems": [
    "C12_optics_order_points",
    "C12_optics_order_matrix"
   ],
   "note": "stronger: reachability is the least offer of earlier core points and the order is by least reachability; point mode keeps squared distances"
  },
  {
   "property": "C13",
   "status": "proved",
   "theorems": [
    "C13_kmeans_partition",
    "C13_kmeans_total",
    "C13_kmeans_no_iteration_refuted"
   ],
   "note": "itermax >= 1; without an iteration no clusters are produced (last theorem)"
  },
  {
   "property": "C14",
   "status": "proved",
   "theorems": [
    "C14_kmeans_error_decreases",
    "C14_kmeans_not_worse_than_initial",
    "C14_kmeans_centers_optimal",
    "C14_predict_nearest"
   ],
   "note": "squared Euclidean metric for the error"
  },
  {
   "property": "C15",
   "status": "proved",
   "theorems": [
    "C15_kmedians_partition",
    "C15_kmedians_error_decreases",
    "C15_predict_nearest"
   ],
   "note": ""
  },
  {
   "property": "C16",
   "status": "partial",
   "theorems": [
    "C16_swap_cost_exact",
    "C16_deviation_meaning",
    "C16_swap_only_improving_refuted"
   ],
   "note": "swap cost proved exact; 'only improving swaps are applied' is false of the code (witness); what a run does is C65"
  },
  {
   "property": "C17",
   "status": "proved",
   "theorems": [
    "C17_build_greedy",
    "C17_build_refuses"
   ],
   "note": ""
  },
  {
   "property": "C18",
   "status": "proved",
   "theorems": [
    "C18_bsas",
    "C18_mbsas",
    "C18_ttsas",
    "C18_refused",
    "C18_shared_object_refuted"
   ],
   "note": "the data entries are different list objects (the last theorem shows that means are wrong otherwise); in addition the run is shown to follow the textbook scheme"
  },
  {
   "property": "C19",
   "status": "partial",
   "theorems": [
    "C19_caller_data_refuted",
    "C19_only_founders"
   ],
   "note": "false of the code: the founder of each cluster is overwritten by the mean; nothing else changes (second theorem)"
  },
  {
   "property": "C20",
   "status": "proved",
   "theorems": [
    "C20_agglomerative_partition",
    "C20_refused"
   ],
   "note": "the average link value is the one of the code, the sum of squared distances over the number of points of both clusters (see C68)"
  },
  {
   "property": "C21",
   "status": "proved",
   "theorems": [
    "C21_single_link"
   ],
   "note": "distances are squared euclidean distances, which order the pairs as distances do"
  },
  {
   "property": "C22",
   "status": "proved",
   "theorems": [
    "C22_rock"
   ],
   "note": "in addition every merge is shown to join a pair with the greatest positive goodness; uses the axioms of the real numbers"
  },
  {
   "property": "C23",
   "status": "partial",
   "theorems": [
    "C23_cftree_conserves",
    "C23_same_object_refuted"
   ],
   "note": "proved for every sequence of insertions in which the caller does not insert one entry object twice (every sequence of insert_point calls is one); false otherwise, as a leaf split then drops a copy (second theorem)"
  },
  {
   "property": "C24",
   "status": "partial",
   "theorems": [
    "C24_cftree_structure",
    "C24_zero_max_entries_refuted"
   ],
   "note": "proved for max_entries >= 1; 0 is accepted by the code and cannot be kept (second theorem)"
  },
  {
   "property": "C25",
   "status": "proved",
   "theorems": [
    "C25_birch_partition"
   ],
   "note": "for max_node_entries >= 1; also shows that the features stand for groups of the points which together are the data, and that every point follows a nearest feature; that process() returns is C73"
  },
  {
   "property": "C26",
   "status": "proved",
   "theorems": [
    "C26_clique_dense_components",
    "C26_clique_refuses"
   ],
   "note": "exact arithmetic; points of one dimension"
  },
  {
   "property": "C27",
   "status": "proved",
   "theorems": [
    "C27_plusplus_distinct",
    "C27_plusplus_refuses",
    "C27_plusplus_second_call_refuted"
   ],
   "note": "a freshly constructed initialiser; the last theorem shows that a second initialize() can raise KeyError"
  },
  {
   "property": "C28",
   "status": "proved",
   "theorems": [
    "C28_random_distinct",
    "C28_random_refuses",
    "C28_random_exhausted",
    "C28_random_second_call_refuted"
   ],
   "note": "a freshly constructed initialiser; repeated calls use the indexes up"
  },
  {
   "property": "C29",
   "status": "proved",
   "theorems": [
    "C29_reservoir_r",
    "C29_reservoir_x",
    "C29_too_many",
    "C29_reservoir_x_zero_refuted"
   ],
   "note": "reservoir_x needs n >= 1 and positive random thresholds; for n = 0 it does not return (last theorem)"
  },
  {
   "property": "C30",
   "status": "partial",
   "theorems": [
    "C30_silhouette_score",
    "C30_coincident_refuted"
   ],
   "note": "proved for any square distance table (also data_type='distance_matrix') and any disjoint non-empty clusters, except for a point that coincides with all points of its own and of another cluster, whose score is nan"
  },
  {
   "property": "C31",
   "status": "proved",
   "theorems": [
    "C31_elbow"
   ],
   "note": "the elbow length is the distance to the line the code uses, through (0, first error) and (number of errors, last error); the documented line is C88"
  },
  {
   "property": "C32",
   "status": "partial",
   "theorems": [
    "C32_membership_sum_partial",
    "C32_membership_sum_refuted"
   ],
   "note": "the exact sum is proved for every point; it is 1 unless the point is one of the centres"
  },
  {
   "property": "C33",
   "status": "proved",
   "theorems": [
    "C33_clarans_partition"
   ],
   "note": "for runs that finish; see C94"
  },
  {
   "property": "C34",
   "status": "partial",
   "theorems": [
    "C34_bang_covers",
    "C34_disjoint_refuted"
   ],
   "note": "coverage and totality proved; disjointness is false of the code for points on faces of blocks (refuted), and shared points are shown to lie on a common face of two leaf blocks"
  },
  {
   "property": "C35",
   "status": "proved",
   "theorems": [
    "C35_euclidean",
    "C35_manhattan",
    "C35_chebyshev",
    "C35_canberra"
   ],
   "note": "real arithmetic, points of one length"
  },
  {
   "property": "C36",
   "status": "proved",
   "theorems": [
    "C36_xmeans_partition"
   ],
   "note": "for every metric, criterion and seeds"
  },
  {
   "property": "C37",
   "status": "partial",
   "theorems": [
    "C37_gmeans_kmax",
    "C37_wce_partial",
    "C37_wce_refuted"
   ],
   "note": "k_max and partition proved; the error is 0.0 when no split is accepted, otherwise right"
  },
  {
   "property": "C38",
   "status": "proved",
   "theorems": [
    "C38_som_neighbours_exact",
    "C38_som_neighbours_symmetric"
   ],
   "note": ""
  },
  {
   "property": "C39",
   "status": "partial",
   "theorems": [
    "C39_grid_four_refuted",
    "C39_grid_eight_refuted",
    "C39_grid_four_actual",
    "C39_grid_eight_actual"
   ],
   "note": "false of the code for the grids (math.ceil instead of floor); what is built is characterised for all sizes; the other structures are C58"
  },
  {
   "property": "C40",
   "status": "partial",
   "theorems": [
    "C40_sync_antiphase",
    "C40_sync_circle_refuted",
    "C40_sync_indexes_refuted",
    "C40_sync_indexes_fail_refuted"
   ],
   "note": "false of the code: abs(phase - 2*pi) reflects the phase, so antiphase oscillators are joined; the indexes argument is applied to joining members only.  The true part is C59"
  },
  {
   "property": "C41",
   "status": "partial",
   "theorems": [
    "C41_hysteresis_equal_refuted",
    "C41_hysteresis_actual"
   ],
   "note": "false of the code: the captured flag is not reset for each group; the exact output is characterised for all inputs, including that it is a partition"
  },
  {
   "property": "C42",
   "status": "proved",
   "theorems": [
    "C42_pcnn_sync_ensembles",
    "C42_pcnn_spike_ensembles",
    "C42_pcnn_time_signal"
   ],
   "note": ""
  },
  {
   "property": "C43",
   "status": "proved",
   "theorems": [
    "C43_chromosomes_valid",
    "C43_clusters_partition",
    "C43_best_reported"
   ],
   "note": "mutation coefficient at most one (above one the code raises IndexError), shuffles are permutations"
  },
  {
   "property": "C44",
   "status": "proved",
   "theorems": [
    "C44_responsibilities_sum",
    "C44_weights_sum",
    "C44_clusters"
   ],
   "note": "densities are a parameter assumed positive and finite for non-zero covariances (C44_gaussian_regular shows it of gaussian() in exact arithmetic); returned probabilities add up to one up to the 0.000001 of the code; tolerance below 100000 so that the loop is entered"
  },
  {
   "property": "C45",
   "status": "proved",
   "theorems": [
    "C45_codec_round_trip",
    "C45_codec_total",
    "C45_codec_overflow_refuted",
    "C45_mixed_refused"
   ],
   "note": "numbers must fit the C type (the third theorem shows what happens otherwise); strings and numpy matrices are not modelled"
  },
  {
   "property": "C46",
   "status": "proved",
   "theorems": [
    "C46_cure",
    "C46_refused"
   ],
   "note": "the radius of the kd-tree search is a square root; comparisons with it are made between squares in the model (C46_le_sqrt, C46_lt_sqrt)"
  },
  {
   "property": "C47",
   "status": "proved",
   "theorems": [
    "C47_phase_normalised",
    "C47_phase_idempotent"
   ],
   "note": "exact arithmetic; 2*pi is any positive rational; for floats of huge magnitude the python loop may not progress, which is rounding and not modelled"
  },
  {
   "property": "C48",
   "status": "proved",
   "theorems": [
    "C48_data_corners_tight",
    "C48_dimension_info_tight"
   ],
   "note": ""
  },
  {
   "property": "C49",
   "status": "partial",
   "theorems": [
    "C49_dbscan_reprocess_refuted",
    "C49_dbscan_reprocess_appends",
    "C49_bsas_reprocess_refuted",
    "C49_agglomerative_centroid_reprocess_refuted",
    "C49_clique_reprocess_refuted",
    "C49_bang_reprocess_refuted",
    "C49_elbow_reprocess_refuted"
   ],
   "note": "false of the code; refuted for DBSCAN, BSAS, CLIQUE, BANG (dendrogram), centroid-link agglomerative and the elbow method; positive cases are C67 and C69"
  },
  {
   "property": "C50",
   "status": "partial",
   "theorems": [
    "C50_graph_recognised_refuted",
    "C50_graph_actual",
    "C50_matrix_sound"
   ],
   "note": "false of the code: `(e != 0) or (e != 1)` always holds; what is reported is characterised for all inputs"
  },
  {
   "property": "C51",
   "status": "proved",
   "theorems": [
    "C51_dsatur_saturation_order"
   ],
   "note": "non-negative entries"
  },
  {
   "property": "C52",
   "status": "proved",
   "theorems": [
    "C52_dsatur_bipartite_two_colors"
   ],
   "note": ""
  },
  {
   "property": "C53",
   "status": "partial",
   "theorems": [
    "C53_index_roundtrip_refuted",
    "C53_trailing_empty_refuted",
    "C53_label_to_index_failures"
   ],
   "note": "the statement is false of the code: refuted by witnesses, failures characterised exactly"
  },
  {
   "property": "C54",
   "status": "proved",
   "theorems": [
    "C54_label_object_commutes",
    "C54_object_label_commutes",
    "C54_set_encoding_path"
   ],
   "note": ""
  },
  {
   "property": "C55",
   "status": "proved",
   "theorems": [
    "C55_optics_components_points",
    "C55_optics_components_matrix"
   ],
   "note": "symmetric matrices"
  },
  {
   "property": "C56",
   "status": "partial",
   "theorems": [
    "C56_optics_requested_amount_refuted",
    "C56_optics_requested_amount_fails_refuted",
    "C56_connectivity_radius_sound"
   ],
   "note": "false of the code (two witnesses); what holds of the analyser is proved"
  },
  {
   "property": "C57",
   "status": "partial",
   "theorems": [
    "C57_given_radius",
    "C57_optics_stale_ordering_refuted"
   ],
   "note": "false when the radius is changed to reach the amount of clusters; proved instead: get_ordering() always describes the run with the radius given to the constructor, so it is right whenever that run already has the amount"
  },
  {
   "property": "C58",
   "status": "proved",
   "theorems": [
    "C58_plain_structures",
    "C58_dynamic_connections",
    "C58_neighbors_agree",
    "C58_dynamic_duplicate_refuted"
   ],
   "note": "the last theorem shows that repeated set_connection duplicates list entries"
  },
  {
   "property": "C59",
   "status": "proved",
   "theorems": [
    "C59_sync_ensembles_partition",
    "C59_sync_near_not_separated",
    "C59_phase_matrix"
   ],
   "note": ""
  },
  {
   "property": "C60",
   "status": "proved",
   "theorems": [
    "C60_oscillations_counted",
    "C60_pulse_ensembles",
    "C60_groups_near"
   ],
   "note": ""
  },
  {
   "property": "C61",
   "status": "partial",
   "theorems": [
    "C61_legion_weights_refuted",
    "C61_legion_weights_actual"
   ],
   "note": "false of the code: the weight Wt / (stimulated neighbours) is given to all neighbours; the matrix that is built is characterised"
  },
  {
   "property": "C62",
   "status": "proved",
   "theorems": [
    "C62_sync_order_in_unit",
    "C62_sync_order_one",
    "C62_local_order_in_unit",
    "C62_correlation_matrix",
    "C62_sync_order_zero",
    "C62_sync_order_zero_refuted"
   ],
   "note": "all-zero phases raise ZeroDivisionError (last theorem)"
  },
  {
   "property": "C63",
   "status": "proved",
   "theorems": [
    "C63_kmeans_converges"
   ],
   "note": ""
  },
  {
   "property": "C64",
   "status": "partial",
   "theorems": [
    "C64_labels_refuted",
    "C64_labels_agree"
   ],
   "note": "false of the code when a cluster is erased; proved when none is"
  },
  {
   "property": "C65",
   "status": "proved",
   "theorems": [
    "C65_kmedoids_partition",
    "C65_kmedoids_run",
    "C65_pam_improves"
   ],
   "note": ""
  },
  {
   "property": "C66",
   "status": "proved",
   "theorems": [
    "C66_reservoir_r_uniform"
   ],
   "note": "reservoir_x is not covered"
  },
  {
   "property": "C67",
   "status": "proved",
   "theorems": [
    "C67_ttsas_reprocess"
   ],
   "note": ""
  },
  {
   "property": "C68",
   "status": "partial",
   "theorems": [
    "C68_average_link_refuted",
    "C68_average_same_sizes"
   ],
   "note": "false of the code: the sum is divided by the sum of the sizes; true between pairs of equal sizes (second theorem)"
  },
  {
   "property": "C69",
   "status": "proved",
   "theorems": [
    "C69_agglomerative_reprocess"
   ],
   "note": ""
  },
  {
   "property": "C70",
   "status": "partial",
   "theorems": [
    "C70_rock_threshold_refuted",
    "C70_rock_threshold_one_fails"
   ],
   "note": "false of the code at threshold = 1; below 1 it is C22"
  },
  {
   "property": "C71",
   "status": "partial",
   "theorems": [
    "C71_first_merge",
    "C71_cure_closest_pair_refuted"
   ],
   "note": "true of the first merge (C71_first_merge), false of later ones: the merged cluster and the relocated ones are inserted into a queue whose keys have changed, which leaves it unsorted"
  },
  {
   "property": "C72",
   "status": "proved",
   "theorems": [
    "C72_feature_statistics",
    "C72_feature_distances",
    "C72_feature_diameter",
    "C72_small_diameter_refuted"
   ],
   "note": "squared quantities; the last theorem shows the effect of the cut at 1e-9"
  },
  {
   "property": "C73",
   "status": "partial",
   "theorems": [
    "C73_insert_points_total",
    "C73_birch_total",
    "C73_zero_threshold_refuted"
   ],
   "note": "Proved for all five measures, max_entries >= 1 and thresholds t >= 0 with t*t >= 1e-9 (and multiplier >= 1 for birch). False for smaller thresholds: because diameters with numerator below 1e-9 are reported as 0, three points around 0 with threshold 0 make the split fail with AttributeError."
  },
  {
   "property": "C74",
   "status": "partial",
   "theorems": [
    "C74_limit_partial",
    "C74_entry_limit_refuted"
   ],
   "note": "false of the code: the loop that increases the threshold runs once only; proved when the first threshold already keeps the limit"
  },
  {
   "property": "C75",
   "status": "partial",
   "theorems": [
    "C75_no_empty_partial",
    "C75_empty_cluster_refuted"
   ],
   "note": "false of the code; proved when every entry has its centre in a point of the data and the centres are distinct"
  },
  {
   "property": "C76",
   "status": "proved",
   "theorems": [
    "C76_bang_clusters"
   ],
   "note": "exact arithmetic; the neighbourhood test is the one of the code (upper corners, 0.01 % slack)"
  },
  {
   "property": "C77",
   "status": "partial",
   "theorems": [
    "C77_bang_dendrogram",
    "C77_batches_sorted",
    "C77_dendrogram_order_refuted"
   ],
   "note": "every block once per cluster is proved; the decreasing order is false of the code"
  },
  {
   "property": "C78",
   "status": "partial",
   "theorems": [
    "C78_neighbours_partial",
    "C78_neighbours_refuted"
   ],
   "note": "proved for data of one or two coordinates none of which is constant; false in three dimensions"
  },
  {
   "property": "C79",
   "status": "partial",
   "theorems": [
    "C79_bang_height",
    "C79_height_is_levels_refuted"
   ],
   "note": "false of the code for levels >= 2; the height is max 1 (levels - 1)"
  },
  {
   "property": "C80",
   "status": "partial",
   "theorems": [
    "C80_minkowski_even",
    "C80_minkowski_two",
    "C80_minkowski_odd_refuted"
   ],
   "note": "proved for even integer degrees; false for odd degrees, as the code takes no absolute values: degree 1 is negative and degree 3 gives complex numbers"
  },
  {
   "property": "C81",
   "status": "partial",
   "theorems": [
    "C81_chi_square",
    "C81_chi_square_triangle_refuted"
   ],
   "note": "everything but the triangle inequality is proved; the triangle inequality is false"
  },
  {
   "property": "C82",
   "status": "proved",
   "theorems": [
    "C82_gower"
   ],
   "note": ""
  },
  {
   "property": "C83",
   "status": "partial",
   "theorems": [
    "C83_numpy_agrees_partial",
    "C83_gower_zero_range",
    "C83_gower_refuted"
   ],
   "note": "proved for all types, for Gower when the points agree in the columns of range zero; false otherwise (numpy gives the largest double)"
  },
  {
   "property": "C84",
   "status": "proved",
   "theorems": [
    "C84_distance_matrix"
   ],
   "note": ""
  },
  {
   "property": "C85",
   "status": "partial",
   "theorems": [
    "C85_silhouette_cases",
    "C85_singleton_refuted",
    "C85_single_cluster",
    "C85_single_cluster_refuted"
   ],
   "note": "false of the code: nan for a cluster of one point, below -1 for every point of a single cluster; C85_silhouette_cases covers all clusterings"
  },
  {
   "property": "C86",
   "status": "partial",
   "theorems": [
    "C86_score_is_mean",
    "C86_ksearch_best",
    "C86_ksearch_none",
    "C86_ksearch_scores",
    "C86_kmax_refuted"
   ],
   "note": "proved for kmin .. kmax-1; kmax itself is never tried"
  },
  {
   "property": "C87",
   "status": "partial",
   "theorems": [
    "C86_ksearch_best",
    "C86_ksearch_scores",
    "C87_reprocess_refuted"
   ],
   "note": "holds for the first process() (C86); false for later ones"
  },
  {
   "property": "C88",
   "status": "partial",
   "theorems": [
    "C88_not_fewer",
    "C88_three_amounts_partial",
    "C88_documented_elbow_refuted"
   ],
   "note": "false of the code, witness computed with the k-means model; proved instead: for errors below the segment the returned amount is never less than the documented one, and equal under a stated lead; proved for three amounts"
  },
  {
   "property": "C89",
   "status": "proved",
   "theorems": [
    "C89_centres_in_box"
   ],
   "note": ""
  },
  {
   "property": "C90",
   "status": "partial",
   "theorems": [
    "C90_membership_formula",
    "C90_centres",
    "C90_membership_refuted",
    "C90_centres_refuted"
   ],
   "note": "false of the code; the memberships are the documented ones for (m+1)/2, the centres are weighted by the plain memberships"
  },
  {
   "property": "C91",
   "status": "partial",
   "theorems": [
    "C91_clusters",
    "C91_nearest_partial",
    "C91_nearest_refuted"
   ],
   "note": "partition and largest membership proved; nearest centre proved for points that are no centre, false for a point that is a centre"
  },
  {
   "property": "C92",
   "status": "partial",
   "theorems": [
    "C92_best_local_partial",
    "C92_best_local_refuted"
   ],
   "note": "proved for data without coinciding points; false with coinciding points, whose emptied clusters misalign clusters and medoids in the estimation"
  },
  {
   "property": "C93",
   "status": "partial",
   "theorems": [
    "C93_accepts_everything",
    "C93_price",
    "C93_swap_refuted"
   ],
   "note": "false of the code; for one cluster every candidate is accepted while the medoid is not point 0; for more clusters, unless a medoid's index equals the number of the replaced one, the price counts only the points that gain, and only those of two clusters, so candidates from these clusters are always accepted"
  },
  {
   "property": "C94",
   "status": "partial",
   "theorems": [
    "C94_single_cluster_medoid",
    "C94_never_finishes",
    "C94_finishes_refuted"
   ],
   "note": "false of the code; a finished run for one cluster always returns medoid 0, and where point 0 is the worst medoid no run finishes"
  },
  {
   "property": "C95",
   "status": "proved",
   "theorems": [
    "C95_xmeans_finishes",
    "C95_gmeans_finishes"
   ],
   "note": "squared Euclidean metric"
  },
  {
   "property": "C96",
   "status": "partial",
   "theorems": [
    "C96_bic_splits_pairs",
    "C96_mndl_keeps_pairs",
    "C96_pairs_refuted"
   ],
   "note": "false of the code: BIC always splits a pair of different points, MNDL never"
  },
  {
   "property": "C97",
   "status": "partial",
   "theorems": [
    "C97_mndl_documented",
    "C97_bic_penalty",
    "C97_bic_refuted",
    "C97_mndl_decision",
    "C97_bic_decision"
   ],
   "note": "MNDL proved; the code's BIC subtracts the penalty once per cluster, which changes decisions; a split is accepted exactly where the score that the code computes improves."
  },
  {
   "property": "C98",
   "status": "proved",
   "theorems": [
    "C98_selection_proportional",
    "C98_better_is_likelier"
   ],
   "note": "real arithmetic"
  },
  {
   "property": "C99",
   "status": "proved",
   "theorems": [
    "C99_crossover_exchanges",
    "C99_mutation_bounded"
   ],
   "note": ""
  },
  {
   "property": "C100",
   "status": "partial",
   "theorems": [
    "C100_gaussian_1d",
    "C100_gaussian_2d",
    "C100_density_refuted"
   ],
   "note": "true in one dimension; in two dimensions the code divides by the square root of the Frobenius norm instead of the determinant: the value is the density times sqrt(determinant/norm), and differs already for the standard normal distribution"
  },
  {
   "property": "C101",
   "status": "proved",
   "theorems": [
    "C101_moments",
    "C101_box_and_definite"
   ],
   "note": "for positive densities, exact real arithmetic"
  },
  {
   "property": "C102",
   "status": "partial",
   "theorems": [
    "C102_lost_cluster_refuted",
    "C102_rows",
    "C102_last_removed"
   ],
   "note": "false: the maximization step removes the cluster from the means, covariances and weights but not from the responsibilities, so extraction reads the wrong row and a populated cluster gets lost.  C102_rows says for every input which row is read; C102_last_removed: the claim holds when the removed clusters are the last ones"
  },
  {
   "property": "C103",
   "status": "partial",
   "theorems": [
    "C103_same_leaf",
    "C103_single_leaf",
    "C103_nearest_leaf_refuted"
   ],
   "note": "false of the code beyond a single leaf; proved instead: whatever the entry, it goes to the one leaf that the tree itself singles out, and there to the nearest entry or becomes a new one"
  },
  {
   "property": "C104",
   "status": "proved",
   "theorems": [
    "C104_find_nearest_leaf",
    "C104_level_nodes"
   ],
   "note": "no entry object inserted twice by the caller (see C23)"
  },
  {
   "property": "C105",
   "status": "proved",
   "theorems": [
    "C105_train_captures_all",
    "C105_train_forgets"
   ],
   "note": "rate, radius and influence are arbitrary functions"
  },
  {
   "property": "C106",
   "status": "proved",
   "theorems": [
    "C106_weights_in_box"
   ],
   "note": "exact rationals; rate and influence in [0, 1] (exp of a non-positive number; init_learn_rate <= 1)"
  },
  {
   "property": "C107",
   "status": "proved",
   "theorems": [
    "C107_simulate_nearest",
    "C107_predict_nearest"
   ],
   "note": ""
  },
  {
   "property": "C108",
   "status": "partial",
   "theorems": [
    "C108_last_point_partial",
    "C108_predict_agrees_refuted"
   ],
   "note": "false: the weights keep moving after a point was captured; witness with one epoch and rate 1/2; proved for the last point of the data when the rate is less than one"
  },
  {
   "property": "C109",
   "status": "proved",
   "theorems": [
    "C109_distance_matrix"
   ],
   "note": ""
  },
  {
   "property": "C110",
   "status": "proved",
   "theorems": [
    "C110_density_matrix"
   ],
   "note": ""
  },
  {
   "property": "C111",
   "status": "partial",
   "theorems": [
    "C111_single_neuron",
    "C111_single_neuron_refuted"
   ],
   "note": "false: the neuron of a 1x1 map has no neighbours and the division by their number raises ZeroDivisionError; see C109 for all other sizes"
  },
  {
   "property": "C112",
   "status": "partial",
   "theorems": [
    "C112_grid_covers_partial",
    "C112_grid_1d",
    "C112_grid_1d_refuted"
   ],
   "note": "proved for at least two rows and two columns; false for one row and one-dimensional data (SOM-SC), where all neurons start at the centre"
  },
  {
   "property": "C113",
   "status": "proved",
   "theorems": [
    "C113_somsc_partition",
    "C113_arguments"
   ],
   "note": ""
  },
  {
   "property": "C114",
   "status": "partial",
   "theorems": [
    "C114_zero_epochs",
    "C114_one_cluster",
    "C114_zero_epochs_refuted",
    "C114_empty_cluster_refuted",
    "C114_predict_before_process_refuted"
   ],
   "note": "false in each part: zero epochs leave all clusters empty, a neuron may win nothing, predict before process raises AttributeError.  True part: with one cluster and at least one epoch the cluster has all points (and C113 for the partition)"
  },
  {
   "property": "C115",
   "status": "partial",
   "theorems": [
    "C115_default_radius_partial",
    "C115_shared_parameters_refuted"
   ],
   "note": "proved for a fresh parameter object; false when the object is used again because the constructor stores the radius in it"
  },
  {
   "property": "C116",
   "status": "proved",
   "theorems": [
    "C116_averages",
    "C116_variance_increase",
    "C116_features_agree",
    "C116_empty_cluster"
   ],
   "note": "exact rationals; the functions that take the square root are stated for the value under the root"
  },
  {
   "property": "C117",
   "status": "proved",
   "theorems": [
    "C117_average_of_nearest",
    "C117_amount_of_neighbours"
   ],
   "note": "the distance (a float) is a function parameter with non-negative values"
  },
  {
   "property": "C118",
   "status": "proved",
   "theorems": [
    "C118_monotone_in_neighbours"
   ],
   "note": ""
  },
  {
   "property": "C119",
   "status": "partial",
   "theorems": [
    "C119_hsyncnet",
    "C119_single_point_refuted",
    "C119_zero_clusters_never_end",
    "C119_zero_clusters_refuted",
    "C119_radii"
   ],
   "note": "all but termination proved for at least two points, whatever the simulation does; false for a single point (ZeroDivisionError) and for number_clusters = 0 (never ends)"
  },
  {
   "property": "C120",
   "status": "proved",
   "theorems": [
    "C120_connections_within_radius",
    "C120_no_radius_and_no_data"
   ],
   "note": ""
  },
  {
   "property": "C121",
   "status": "partial",
   "theorems": [
    "C121_weights_scaled",
    "C121_equal_distances_refuted",
    "C121_closest_not_coupled_refuted"
   ],
   "note": "scaled weights proved when two distances differ; false when all distances are equal (weight is the distance itself), and the closest pair always gets weight 0, so it is not coupled"
  },
  {
   "property": "C122",
   "status": "proved",
   "theorems": [
    "C122_arc_kept_syncnet",
    "C122_arc_kept_sync",
    "C122_synchronised_stays",
    "C122_step_succeeds",
    "C122_phases_normalised"
   ],
   "note": "real numbers instead of floats; FAST solver"
  },
  {
   "property": "C123",
   "status": "proved",
   "theorems": [
    "C123_simulate_dynamic",
    "C123_already_ordered"
   ],
   "note": "local order and step are functions of the phases"
  },
  {
   "property": "C124",
   "status": "proved",
   "theorems": [
    "C124_syncsom",
    "C124_oscillator_connections"
   ],
   "note": "training parameters, initial phases and the simulation are arbitrary"
  },
  {
   "property": "C125",
   "status": "partial",
   "theorems": [
    "C125_same_tolerance_partial",
    "C125_default_tolerances_refuted"
   ],
   "note": "proved for eps = 0.01; false with the default arguments (0.1 and 0.01)"
  },
  {
   "property": "C126",
   "status": "partial",
   "theorems": [
    "C126_sync_coloring",
    "C126_hysteresis_coloring",
    "C126_same_output_refuted"
   ],
   "note": "colours are ensembles for both networks; for the hysteresis network vertices with identical output can get different colours, exactly characterised"
  },
  {
   "property": "C127",
   "status": "proved",
   "theorems": [
    "C127_adjacency"
   ],
   "note": ""
  },
  {
   "property": "C128",
   "status": "partial",
   "theorems": [
    "C128_weights",
    "C128_zero_row",
    "C128_isolated_vertex_refuted"
   ],
   "note": "weights and states proved when no row sums up to zero; otherwise, e.g. for an isolated vertex, ZeroDivisionError (exact characterisation)"
  },
  {
   "property": "C129",
   "status": "partial",
   "theorems": [
    "C129_sync_static",
    "C129_hysteresis_static",
    "C129_hysteresis_no_collect_refuted"
   ],
   "note": "exact arithmetic instead of float arange; the hysteresis network without collecting always raises AttributeError (None.append)"
  },
  {
   "property": "C130",
   "status": "proved",
   "theorems": [
    "C130_points_matrix_agree"
   ],
   "note": "the matrix holds exact distances, i.e. non-negative numbers whose squares are the squared distances"
  },
  {
   "property": "C131",
   "status": "proved",
   "theorems": [
    "C131_monotone"
   ],
   "note": ""
  },
  {
   "property": "C132",
   "status": "proved",
   "theorems": [
    "C132_order_independent"
   ],
   "note": ""
  },
  {
   "property": "C133",
   "status": "partial",
   "theorems": [
    "C133_border_order_refuted"
   ],
   "note": "false for border points in reach of two clusters, they go to the cluster met first; C132 is the part that holds"
  },
  {
   "property": "C134",
   "status": "proved",
   "theorems": [
    "C134_sync_equation",
    "C134_syncnet_equation",
    "C134_step_ends"
   ],
   "note": "real numbers instead of floats; FAST solver"
  },
  {
   "property": "C135",
   "status": "proved",
   "theorems": [
    "C135_train_hebb",
    "C135_order_and_signs",
    "C135_bad_samples"
   ],
   "note": ""
  },
  {
   "property": "C136",
   "status": "partial",
   "theorems": [
    "C136_incremental_training",
    "C136_incremental_training_refuted"
   ],
   "note": "false: a second call divides the old couplings by the size of the network once more; exact couplings proved"
  },
  {
   "property": "C137",
   "status": "proved",
   "theorems": [
    "C137_memory_order",
    "C137_symmetries",
    "C137_initial_order"
   ],
   "note": "real numbers instead of floats"
  },
  {
   "property": "C138",
   "status": "proved",
   "theorems": [
    "C138_patterns_stationary",
    "C138_mean_phase_kept"
   ],
   "note": "real numbers instead of floats; FAST solver for the step, the vector field for the others"
  },
  {
   "property": "C139",
   "status": "partial",
   "theorems": [
    "C139_simulate_static",
    "C139_later_simulation",
    "C139_result_changes_refuted"
   ],
   "note": "the returned states are right until the next simulation, which writes its pattern into the list object that is the last state of the old result"
  },
  {
   "property": "C140",
   "status": "proved",
   "theorems": [
    "C140_adaptation",
    "C140_epoch"
   ],
   "note": "exact arithmetic; the influence is any function of the distance and the radius"
  },
  {
   "property": "C141",
   "status": "proved",
   "theorems": [
    "C141_autostop"
   ],
   "note": "exact arithmetic; radius and rate any functions of the epoch"
  },
  {
   "property": "C142",
   "status": "proved",
   "theorems": [
    "C142_step_equations",
    "C142_step_ends"
   ],
   "note": "exact arithmetic; neighbours are those reported by get_neighbors (C58)"
  },
  {
   "property": "C143",
   "status": "partial",
   "theorems": [
    "C143_fast_linking",
    "C143_first_step_ends",
    "C143_simulate_ends_refuted"
   ],
   "note": "consistency of the result proved; the first step of a new network ends for non-negative stimuli and couplings; later steps may loop for ever (two connected oscillators taking turns)"
  },
  {
   "property": "C144",
   "status": "proved",
   "theorems": [
    "C144_simulate",
    "C144_bad_stimulus",
    "C144_continuation"
   ],
   "note": ""
  },
  {
   "property": "C145",
   "status": "proved",
   "theorems": [
    "C145_silence"
   ],
   "note": ""
  },
  {
   "property": "C146",
   "status": "proved",
   "theorems": [
    "C146_mean_field",
    "C146_bounded"
   ],
   "note": "exact arithmetic; exp(-x) any non-negative function"
  },
  {
   "property": "C147",
   "status": "partial",
   "theorems": [
    "C147_synchronous",
    "C147_delaunay_refuted"
   ],
   "note": "proved for ALL_TO_ALL; false for TRIANGULATION_DELAUNAY, where edges shared by two triangles are counted twice in the normalising sum"
  },
  {
   "property": "C148",
   "status": "proved",
   "theorems": [
    "C148_sync_ensembles",
    "C148_observation"
   ],
   "note": ""
  },
  {
   "property": "C149",
   "status": "partial",
   "theorems": [
    "C149_too_few_points",
    "C149_isolated",
    "C149_any_points_refuted"
   ],
   "note": "false: equal points or a point whose weights all underflow to zero raise ZeroDivisionError; NameError for too few points proved"
  },
  {
   "property": "C150",
   "status": "partial",
   "theorems": [
    "C150_free_rotation",
    "C150_simulated_time_refuted"
   ],
   "note": "false: RK4 and RKF45 integrate over 9/10 of every step (numpy.arange leaves the end out), FAST advances one unit of time per step whatever the step is; the exact phases are proved; odeint is a parameter that is exact for constant derivatives"
  },
  {
   "property": "C151",
   "status": "proved",
   "theorems": [
    "C151_step_equations",
    "C151_without_potentials",
    "C151_first_step"
   ],
   "note": "neighbour lists without duplicates (always so for the matrix representation); odeint is a parameter"
  },
  {
   "property": "C152",
   "status": "proved",
   "theorems": [
    "C152_inhibitor",
    "C152_potentials"
   ],
   "note": "odeint is a parameter that solves the relaxation equation exactly"
  },
  {
   "property": "C153",
   "status": "partial",
   "theorems": [
    "C153_simulate",
    "C153_time_refuted"
   ],
   "note": "the values are proved; false: the property time gives 0, 1, 2, ... instead of the times, and without collecting len() and time raise TypeError"
  },
  {
   "property": "C154",
   "status": "proved",
   "theorems": [
    "C154_only_signs",
    "C154_refused"
   ],
   "note": ""
  },
  {
   "property": "C155",
   "status": "partial",
   "theorems": [
    "C155_gating",
    "C155_membrane",
    "C155_without_stimulus",
    "C155_defined",
    "C155_every_potential_refuted"
   ],
   "note": "equations proved; false for every potential: v = vRest + 25 and v = vRest + 10 (exactly these) raise ZeroDivisionError (nan for numpy operands) although the limits exist; real numbers instead of floats"
  },
  {
   "property": "C156",
   "status": "partial",
   "theorems": [
    "C156_inhibition",
    "C156_excitation",
    "C156_cn2_independent",
    "C156_future_pulses",
    "C156_second_simulation_refuted"
   ],
   "note": "proved when all pulses are in the past; false in a second simulation, where the time starts at 0 again and the kept pulse times of the first lie in the future, so they excite"
  },
  {
   "property": "C157",
   "status": "proved",
   "theorems": [
    "C157_pulses"
   ],
   "note": "odeint is an arbitrary function"
  },
  {
   "property": "C158",
   "status": "proved",
   "theorems": [
    "C158_switched_on",
    "C158_stays_on"
   ],
   "note": "odeint is an arbitrary function; the first activation of a new network, and every activation for the time it stays on; exact times"
  },
  {
   "property": "C159",
   "status": "partial",
   "theorems": [
    "C159_simulate",
    "C159_refused",
    "C159_central_start_refuted"
   ],
   "note": "proved except the first row of the central elements, which is always zero, also in later simulations"
  },
  {
   "property": "C160",
   "status": "partial",
   "theorems": [
    "C160_relaxation",
    "C160_time_refuted",
    "C160_weights"
   ],
   "note": "the equation is proved; false for the time: every step is integrated over 9/10 of its length only (numpy.arange leaves the end out); odeint is a parameter that solves the relaxation equation exactly"
  },
  {
   "property": "C161",
   "status": "proved",
   "theorems": [
    "C161_outputs",
    "C161_in_use"
   ],
   "note": "the states at which odeint evaluates the derivative are a parameter"
  },
  {
   "property": "C162",
   "status": "proved",
   "theorems": [
    "C162_bounded"
   ],
   "note": "odeint is a parameter that solves the relaxation equation exactly"
  },
  {
   "property": "C163",
   "status": "proved",
   "theorems": [
    "C163_matrix",
    "C163_requires_numbering"
   ],
   "note": "lines are modelled after splitting and parsing of numbers"
  },
  {
   "property": "C164",
   "status": "partial",
   "theorems": [
    "C164_isolated_refuted",
    "C164_from_zero"
   ],
   "note": "false: a vertex without an edge (or a vertex 0) makes read_graph raise KeyError"
  },
  {
   "property": "C165",
   "status": "proved",
   "theorems": [
    "C165_rows",
    "C165_one_kind"
   ],
   "note": "lines are modelled after splitting and parsing of numbers"
  },
  {
   "property": "C166",
   "status": "partial",
   "theorems": [
    "C166_guess_refuted",
    "C166_guess"
   ],
   "note": "false: the test (element != 0) or (element != 1) always holds, so every graph with a vertex is of vector type"
  },
  {
   "property": "C167",
   "status": "proved",
   "theorems": [
    "C167_partition",
    "C167_in_order"
   ],
   "note": "lines are modelled after parsing"
  },
  {
   "property": "C168",
   "status": "partial",
   "theorems": [
    "C168_labels_refuted",
    "C168_after_error_refuted"
   ],
   "note": "false for labels out of order (a new label takes the next free cluster) and after an error (the clusters read before it are returned by the next call)"
  },
  {
   "property": "C169",
   "status": "proved",
   "theorems": [
    "C169_box"
   ],
   "note": "exact arithmetic for the grey value"
  },
  {
   "property": "C170",
   "status": "partial",
   "theorems": [
    "C170_blank",
    "C170_blank_refuted",
    "C170_gray",
    "C170_gray_refuted",
    "C170_gray_value"
   ],
   "note": "false: a picture without dark pixels gives (width, height, 1, 1), and the weights sum to 0.9999, so grey v becomes 0.9999 v; the range is proved with that factor"
  },
  {
   "property": "C171",
   "status": "proved",
   "theorems": [
    "C171_colors"
   ],
   "note": "the simulation is a parameter that records states of the right size; python path of the ensembles"
  },
  {
   "property": "C172",
   "status": "proved",
   "theorems": [
    "C172_coordinates"
   ],
   "note": "exact division instead of the float division of the code"
  },
  {
   "property": "C173",
   "status": "partial",
   "theorems": [
    "C173_objects_refuted",
    "C173_objects_fail_refuted",
    "C173_one_colour",
    "C173_skipped"
   ],
   "note": "false for more than one colour: the python path of the ensembles mixes positions in the segment with indexes of pixels, so objects contain pixels of other colours, lose pixels, or an IndexError is raised; proved for one colour, without radius, and below the noise size"
  },
  {
   "property": "C174",
   "status": "proved",
   "theorems": [
    "C174_equation",
    "C174_inwards",
    "C174_short"
   ],
   "note": "real numbers instead of floats"
  },
  {
   "property": "C175",
   "status": "proved",
   "theorems": [
    "C175_bounded"
   ],
   "note": "odeint is a parameter that does not leave a disc whose outside the field points away from, as no exact solution does"
  },
  {
   "property": "C176",
   "status": "partial",
   "theorems": [
    "C176_rotation",
    "C176_time_refuted"
   ],
   "note": "false for the time: every step is integrated over 9/10 of its length only; the rotation by w * 9/10 t is proved for a solver that is exact on rotations"
  },
  {
   "property": "C177",
   "status": "partial",
   "theorems": [
    "C177_rows",
    "C177_last",
    "C177_second_refuted"
   ],
   "note": "proved for the first simulation of a network; in a second one the first row consists of complex arrays instead of real parts"
  },
  {
   "property": "C178",
   "status": "proved",
   "theorems": [
    "C178_axes",
    "C178_flat"
   ],
   "note": "numpy.linalg.eigh is any decomposition with the promised properties (ascending values, orthonormal columns)"
  },
  {
   "property": "C179",
   "status": "partial",
   "theorems": [
    "C179_angle_refuted",
    "C179_mirrored",
    "C179_uncorrelated"
   ],
   "note": "false: the rows of the eigenvector matrix are permuted instead of its columns, the axis is mirrored; for (2 1; 1 2) the returned angle is the direction of the smallest variance whichever eigenvectors are found. Proved: it is the mirrored main axis in general, and right for uncorrelated coordinates"
  },
  {
   "property": "C180",
   "status": "proved",
   "theorems": [
    "C180_points",
    "C180_short",
    "C180_constructor"
   ],
   "note": ""
  },
  {
   "property": "C181",
   "status": "proved",
   "theorems": [
    "C181_separated",
    "C181_no_clusters"
   ],
   "note": ""
  },
  {
   "property": "C182",
   "status": "partial",
   "theorems": [
    "C182_means",
    "C182_fresh",
    "C182_distinct_refuted",
    "C182_redrawn"
   ],
   "note": "number and closeness are proved; the means are different only if fewer than ten draws in a row repeat: the perturbation leaves zero coordinates alone, so two equal means can come out"
  },
  {
   "property": "C183",
   "status": "partial",
   "theorems": [
    "C183_clusters",
    "C183_covariances",
    "C183_unbiased",
    "C183_definite_refuted"
   ],
   "note": "all proved except definiteness: a mean with at most one point starts with a matrix of equal entries, singular in two or more dimensions"
  },
  {
   "property": "C184",
   "status": "partial",
   "theorems": [
    "C184_given",
    "C184_random",
    "C184_kmeans",
    "C184_means_alone_refuted",
    "C184_refused"
   ],
   "note": "means given without covariances are ignored; the other parts are proved"
  },
  {
   "property": "C185",
   "status": "proved",
   "theorems": [
    "C185_drawn",
    "C185_shows",
    "C185_append_clusters"
   ],
   "note": ""
  },
  {
   "property": "C186",
   "status": "partial",
   "theorems": [
    "C186_not_shown_refuted",
    "C186_still_works_refuted",
    "C186_stays",
    "C186_blocked"
   ],
   "note": "false: the descriptor is stored before the checks, so a refused cluster is drawn, can break show, and a first cluster with a wrong dimension blocks the canvas for good; the theorems without suffix say this holds always"
  },
  {
   "property": "C187",
   "status": "partial",
   "theorems": [
    "C187_value_error_refuted",
    "C187_refused",
    "C187_empty",
    "C187_titles"
   ],
   "note": "refusal without change is proved; the exception is never the ValueError (IndexError for the first missing canvas, TypeError from the message format otherwise), and titles accept negative indexes"
  },
  {
   "property": "C188",
   "status": "proved",
   "theorems": [
    "C188_reported",
    "C188_index",
    "C188_distinct",
    "C188_repeat"
   ],
   "note": ""
  },
  {
   "property": "C189",
   "status": "proved",
   "theorems": [
    "C189_cells"
   ],
   "note": ""
  },
  {
   "property": "C190",
   "status": "proved",
   "theorems": [
    "C190_all_pairs",
    "C190_filter",
    "C190_line",
    "C190_shows"
   ],
   "note": ""
  },
  {
   "property": "C191",
   "status": "proved",
   "theorems": [
    "C191_grid"
   ],
   "note": ""
  },
  {
   "property": "C192",
   "status": "partial",
   "theorems": [
    "C192_append",
    "C192_nothing",
    "C192_dimension_refuted",
    "C192_append_all"
   ],
   "note": "clusters of another dimension are accepted and make show fail; the other parts are proved"
  },
  {
   "property": "C193",
   "status": "proved",
   "theorems": [
    "C193_drawn",
    "C193_colours",
    "C193_refused",
    "C193_points"
   ],
   "note": ""
  },
  {
   "property": "C194",
   "status": "partial",
   "theorems": [
    "C194_colours",
    "C194_works",
    "C194_distinct_refuted",
    "C194_other_colours"
   ],
   "note": "segments 2 and 5 have the same colour, the only pair; everything else is proved, for up to 19 segments (IndexError beyond)"
  },
  {
   "property": "C195",
   "status": "proved",
   "theorems": [
    "C195_masks",
    "C195_grid"
   ],
   "note": ""
  },
  {
   "property": "C196",
   "status": "partial",
   "theorems": [
    "C196_together",
    "C196_apart",
    "C196_single",
    "C196_groups",
    "C196_one_group_refuted",
    "C196_limits"
   ],
   "note": "false for a single group, where all dynamics are drawn; proved otherwise (a dynamic in several groups is drawn with the first)"
  },
  {
   "property": "C197",
   "status": "proved",
   "theorems": [
    "C197_cells",
    "C197_few"
   ],
   "note": ""
  },
  {
   "property": "C198",
   "status": "partial",
   "theorems": [
    "C198_default_refuted",
    "C198_given_refuted",
    "C198_always"
   ],
   "note": "false: the test for a given axis is inverted; C198_always shows that it fails for all visualizers"
  },
  {
   "property": "C199",
   "status": "partial",
   "theorems": [
    "C199_placed",
    "C199_groups",
    "C199_groups_refuted",
    "C199_colour_refuted"
   ],
   "note": "proved without groups; with groups the canvas is ignored and unlisted dynamics go to canvas 0; colours are ignored"
  },
  {
   "property": "C200",
   "status": "partial",
   "theorems": [
    "C200_covers",
    "C200_given_refuted",
    "C200_given"
   ],
   "note": "automatic borders are proved; given borders are kept when they start after 0, replaced when they start below 0"
  },
  {
   "property": "C201",
   "status": "proved",
   "theorems": [
    "C201_grid",
    "C201_tiles"
   ],
   "note": ""
  },
  {
   "property": "C202",
   "status": "proved",
   "theorems": [
    "C202_blocks",
    "C202_dendrogram"
   ],
   "note": ""
  },
  {
   "property": "C203",
   "status": "partial",
   "theorems": [
    "C203_animation",
    "C203_plane_only",
    "C203_animation_refuted",
    "C203_default_thresholds"
   ],
   "note": "false: IndexError exactly if a level of the directory is empty (C203_animation); with the default thresholds it is complete exactly if not all points are equal"
  },
  {
   "property": "C204",
   "status": "partial",
   "theorems": [
    "C204_same_result",
    "C204_history",
    "C204_error",
    "C204_used_again",
    "C204_last_refuted",
    "C204_first_entry_refuted"
   ],
   "note": "all but the last sentence is proved; the last is false for itermax = 0 and for initial centres without points"
  },
  {
   "property": "C205",
   "status": "partial",
   "theorems": [
    "C205_shown",
    "C205_more_centers",
    "C205_animation",
    "C205_animation_refuted"
   ],
   "note": "pictures are proved; an animation is complete exactly if every initial centre got a cluster"
  },
  {
   "property": "C206",
   "status": "proved",
   "theorems": [
    "C206_same_result",
    "C206_lengths",
    "C206_history"
   ],
   "note": ""
  },
  {
   "property": "C207",
   "status": "partial",
   "theorems": [
    "C207_curves",
    "C207_from_the_start",
    "C207_from_later_refuted",
    "C207_visible",
    "C207_clusters",
    "C207_not_collected",
    "C207_default_refuted",
    "C207_frames"
   ],
   "note": "false for a first iteration after 0 and for observers without the global best; proved otherwise"
  },
  {
   "property": "C208",
   "status": "proved",
   "theorems": [
    "C208_roulette",
    "C208_fitter",
    "C208_zero",
    "C208_refused"
   ],
   "note": ""
  },
  {
   "property": "C209",
   "status": "proved",
   "theorems": [
    "C209_same_result",
    "C209_used_again",
    "C209_history"
   ],
   "note": "the densities are a parameter, as for C44"
  },
  {
   "property": "C210",
   "status": "proved",
   "theorems": [
    "C210_shown",
    "C210_points_only",
    "C210_frames"
   ],
   "note": ""
  },
  {
   "property": "C211",
   "status": "proved",
   "theorems": [
    "C211_kmedians",
    "C211_fcm",
    "C211_em"
   ],
   "note": ""
  },
  {
   "property": "C212",
   "status": "proved",
   "theorems": [
    "C212_kmeans",
    "C212_kmedians",
    "C212_kmedoids",
    "C212_fcm",
    "C212_density",
    "C212_rock",
    "C212_bang",
    "C212_birch",
    "C212_clarans",
    "C212_ga",
    "C212_elbow",
    "C212_silhouette",
    "C212_xmeans",
    "C212_gmeans"
   ],
   "note": "for X-means, G-means, BIRCH, CLARANS, the genetic algorithm and BANG the theorem states the refusal; the success for other arguments is that of the termination theorems of these algorithms"
  },
  {
   "property": "C213",
   "status": "proved",
   "theorems": [
    "C213_amount"
   ],
   "note": ""
  },
  {
   "property": "C214",
   "status": "proved",
   "theorems": [
    "C214_gmeans"
   ],
   "note": ""
  },
  {
   "property": "C215",
   "status": "partial",
   "theorems": [
    "C215_xmeans_partial",
    "C215_xmeans_refuted"
   ],
   "note": "refuted: two equal initial centres make X-means return one cluster although the criterion prefers its halves and kmax is 4 (xmeans.py:250-257 compares with the amount before k-means dropped a centre); proved for last rounds where k-means drops no centre"
  },
  {
   "property": "C216",
   "status": "proved",
   "theorems": [
    "C216_table_point",
    "C216_point_table",
    "C216_tables"
   ],
   "note": ""
  },
  {
   "property": "C217",
   "status": "proved",
   "theorems": [
    "C217_python",
    "C217_numpy"
   ],
   "note": ""
  },
  {
   "property": "C218",
   "status": "proved",
   "theorems": [
    "C218_switched",
    "C218_refused",
    "C218_same_distances"
   ],
   "note": ""
  },
  {
   "property": "C219",
   "status": "partial",
   "theorems": [
    "C219_still_works_partial",
    "C219_copied",
    "C219_left_in_numpy",
    "C219_still_works_refuted",
    "C219_switched_back_refuted",
    "C219_left_in_numpy_others"
   ],
   "note": "refuted for silhouette and k-means++, which do not copy the metric; proved for the other algorithms"
  },
  {
   "property": "C220",
   "status": "partial",
   "theorems": [
    "C220_loaded_partial",
    "C220_data_lost",
    "C220_loaded_refuted"
   ],
   "note": "refuted for the density matrix and the picture before the next training; proved for all other series of calls"
  },
  {
   "property": "C221",
   "status": "partial",
   "theorems": [
    "C221_weights_stay",
    "C221_statistics_shared",
    "C221_reports_stay_refuted"
   ],
   "note": "true for weights; refuted for awards and captured objects, whose lists are changed in place"
  },
  {
   "property": "C222",
   "status": "partial",
   "theorems": [
    "C222_squares_partial",
    "C222_texts_transposed",
    "C222_texts_fit",
    "C222_texts_refuted"
   ],
   "note": "refuted: the texts are placed with row and column exchanged; when they fit is characterised"
  },
  {
   "property": "C223",
   "status": "partial",
   "theorems": [
    "C223_marks",
    "C223_lines_partial",
    "C223_belongs_partial",
    "C223_awards_partial",
    "C223_line_connections_refuted",
    "C223_space_numbers_refuted",
    "C223_places"
   ],
   "note": "refuted for connections in one dimension and numbers in three, where nothing is drawn; proved for the other cases"
  },
  {
   "property": "C224",
   "status": "proved",
   "theorems": [
    "C224_picture",
    "C224_refused"
   ],
   "note": ""
  },
  {
   "property": "C225",
   "status": "partial",
   "theorems": [
    "C225_kmeans",
    "C225_kmedians",
    "C225_kmedoids",
    "C225_gmeans",
    "C225_unprocessed",
    "C225_xmeans_partial",
    "C225_user_metric_refuted"
   ],
   "note": "true of k-means, k-medians, k-medoids and G-means, and of X-means with the built-in metrics; false of X-means with a user-defined metric, whose function is given the table of all centres"
  },
  {
   "property": "C226",
   "status": "partial",
   "theorems": [
    "C226_kmedoids",
    "C226_kmeans",
    "C226_kmeans_default_refuted",
    "C226_kmedoids_matrix_refuted"
   ],
   "note": "true of k-medoids of points for all parameters and of k-means with zero tolerance and enough iterations; false of k-means with the default tolerance (the centres moved after the last assignment) and of k-medoids of a distance matrix (rows are compared as points)"
  },
  {
   "property": "C227",
   "status": "partial",
   "theorems": [
    "C227_from_end",
    "C227_range",
    "C227_defaults",
    "C227_split",
    "C227_beyond",
    "C227_asleep",
    "C227_shown",
    "C227_stop_refuted",
    "C227_negative_refuted"
   ],
   "note": "true as stated for states with a phase other than 0 (C227_asleep: a state with all phases 0 raises ZeroDivisionError); the documentation calls stop the last iteration that is used, which is refuted, as is a negative start for the picture"
  },
  {
   "property": "C228",
   "status": "partial",
   "theorems": [
    "C228_phase_matrix",
    "C228_missing_size",
    "C228_correlation_matrix",
    "C228_animations",
    "C228_animated_phases",
    "C228_in_phase_refuted"
   ],
   "note": "true as stated; that a value 0 of the correlation matrix means oscillators in phase is refuted (opposite phases)"
  },
  {
   "property": "C229",
   "status": "partial",
   "theorems": [
    "C229_random",
    "C229_equipartition",
    "C229_other",
    "C229_half_circle",
    "C229_equidistant_refuted"
   ],
   "note": "false for EQUIPARTITION on the circle: only half of it is filled; the rest is proved"
  },
  {
   "property": "C230",
   "status": "partial",
   "theorems": [
    "C230_next_center",
    "C230_shares",
    "C230_farthest",
    "C230_probability_refuted"
   ],
   "note": "the candidates have the documented probabilities, but point 0 always competes with them: with one candidate a point not farther than point 0 is never chosen (refuted)"
  },
  {
   "property": "C231",
   "status": "partial",
   "theorems": [
    "C231_points",
    "C231_matrix",
    "C231_same_centers",
    "C231_other_type_refuted"
   ],
   "note": "true of points and matrices; an unknown data type is not refused but counts all distances as 0"
  },
  {
   "property": "C232",
   "status": "proved",
   "theorems": [
    "C232_pcnn",
    "C232_pcnn_at_rest",
    "C232_cnn",
    "C232_sync",
    "C232_new_map"
   ],
   "note": ""
  },
  {
   "property": "C233",
   "status": "partial",
   "theorems": [
    "C233_first_row",
    "C233_at_rest",
    "C233_peripherals_continue",
    "C233_continued_refuted"
   ],
   "note": "true of the peripheral neurons; the first recorded state of the central elements is [0, 0] even in a second run, and the times start anew while old pulses keep theirs, so pulse times repeat (refuted, for a solver that lets the potential change its sign at every step)"
  },
  {
   "property": "C234",
   "status": "partial",
   "theorems": [
    "C234_matrix",
    "C234_vector",
    "C234_vector_file",
    "C234_limits",
    "C234_refused",
    "C234_one_sided_refuted",
    "C234_file_refuted",
    "C234_colors_refuted"
   ],
   "note": "true for matrices and for lists of whole numbers in which both ends name the connection; false for files with lists of neighbours (numbers are read as floats, which can not index a list: TypeError), for one-sided lists, and colorings of more than 20 vertices are refused however few colours they use"
  },
  {
   "property": "C235",
   "status": "proved",
   "theorems": [
    "C235_agglomerative",
    "C235_rock",
    "C235_cure"
   ],
   "note": ""
  },
  {
   "property": "C236",
   "status": "partial",
   "theorems": [
    "C236_first_points",
    "C236_any_point_refuted"
   ],
   "note": "false of the code, proved instead: for different points every finished run for two clusters returns point 0 or point 1 as a medoid, since a medoid's index is compared with the number of a cluster"
  },
  {
   "property": "C237",
   "status": "proved",
   "theorems": [
    "C237_local_search"
   ],
   "note": "for finished runs; what the price measures is C93_price"
  },
  {
   "property": "C238",
   "status": "partial",
   "theorems": [
    "C238_plain",
    "C238_diagram",
    "C238_every_amount_refuted"
   ],
   "note": "proved for amounts up to 35 for which a radius exists; else TypeError (no radius) or IndexError (more clusters than colours), with witnesses"
  },
  {
   "property": "C239",
   "status": "proved",
   "theorems": [
    "C239_syncnet",
    "C239_cnn",
    "C239_not_shown"
   ],
   "note": ""
  },
  {
   "property": "C240",
   "status": "proved",
   "theorems": [
    "C240_animation",
    "C240_time_signal",
    "C240_too_small"
   ],
   "note": "for a record with at most as many neurons as pixels"
  },
  {
   "property": "C241",
   "status": "partial",
   "theorems": [
    "C241_pictures",
    "C241_animation",
    "C241_not_shown",
    "C241_final_refuted",
    "C241_one_grey_refuted"
   ],
   "note": "which states are shown, where and how is proved; that the last picture is the final state is false for more than fifty states, and 0 and 2 pi have different greys"
  },
  {
   "property": "C242",
   "status": "partial",
   "theorems": [
    "C242_kmedoids",
    "C242_kmedoids_matrix",
    "C242_initializers",
    "C242_dbscan",
    "C242_rock",
    "C242_agglomerative",
    "C242_silhouette",
    "C242_one_cluster_refuted"
   ],
   "note": "false only for silhouettes of a single cluster, whose distance to other clusters is the constant -1; with two or more clusters proved"
  },
  {
   "property": "C243",
   "status": "partial",
   "theorems": [
    "C243_kmeans",
    "C243_kmedians",
    "C243_centroid_link",
    "C243_bsas",
    "C243_ttsas",
    "C243_clique",
    "C243_default_tolerance_refuted"
   ],
   "note": "proved with the tolerance in the new unit; with the fixed default tolerance 0.001 metres and kilometres give different clusters"
  },
  {
   "property": "C244",
   "status": "partial",
   "theorems": [
    "C244_workable",
    "C244_kept",
    "C244_broken_file_refuted",
    "C244_version_refuted"
   ],
   "note": "proved if the file that exists can be loaded; a broken file raises OSError once and is silently replaced by python afterwards; the version found is never named"
  },
  {
   "property": "C245",
   "status": "partial",
   "theorems": [
    "C245_python",
    "C245_library",
    "C245_elbow_ignores_initializer_refuted",
    "C245_elbow_object_refuted"
   ],
   "note": "false only for elbow: a class given as initializer (also the default) is not recognised and the library is asked for random centres; an object given as initializer overrides ccore=False"
  },
  {
   "property": "C246",
   "status": "partial",
   "theorems": [
    "C246_restored",
    "C246_same_code_refuted"
   ],
   "note": "attributes and, where there is no library, process() are kept; an object made with ccore=False uses the library after loading"
  },
  {
   "property": "C247",
   "status": "partial",
   "theorems": [
    "C247_balanced",
    "C247_equal_points",
    "C247_height_refuted"
   ],
   "note": "proved for points without common coordinates; n equal points make a chain of n nodes, so that python's limit of recursion (1000) is reached with a thousand equal points"
  },
  {
   "property": "C248",
   "status": "partial",
   "theorems": [
    "C248_memberships",
    "C248_centres",
    "C248_objective_refuted"
   ],
   "note": "the two half-steps minimise two different sums: the memberships for the exponent (m + 1) / 2, the centres for the exponent 1; so with m = 2 the documented objective can rise at the update of the centres and from one iteration to the next (witness: four points on a line)"
  },
  {
   "property": "C249",
   "status": "partial",
   "theorems": [
    "C249_seed",
    "C249_zero",
    "C249_zero_refuted"
   ],
   "note": "proved for seeds other than 0; `random_state or -1` turns the seed 0 into -1, the current time"
  },
  {
   "property": "C250",
   "status": "partial",
   "theorems": [
    "C250_parameters",
    "C250_lost",
    "C250_linking_refuted",
    "C250_teta_zx_refuted"
   ],
   "note": "proved for all parameters except B of pcnn and teta_zx of legion, which are never assigned, so that the library works with 0"
  },
  {
   "property": "C251",
   "status": "partial",
   "theorems": [
    "C251_kmeans",
    "C251_kmedians",
    "C251_kmedoids",
    "C251_pam_build",
    "C251_sequential",
    "C251_clique",
    "C251_elbow",
    "C251_optics",
    "C251_optics_objects",
    "C251_silhouette",
    "C251_ksearch",
    "C251_scores",
    "C251_gmeans",
    "C251_xmeans",
    "C251_fcm",
    "C251_lists",
    "C251_cure",
    "C251_negative_refuted"
   ],
   "note": "proved for numbers within the C types (and seeds other than 0, C249); numbers outside are not refused but taken modulo 2^64"
  },
  {
   "property": "C252",
   "status": "partial",
   "theorems": [
    "C252_raised",
    "C252_kmedoids",
    "C252_message_refuted"
   ],
   "note": "proved for clique, pam_build and elbow; k-medoids, whose C interface also sends messages, takes the message for results and raises TypeError or IndexError"
  },
  {
   "property": "C253",
   "status": "proved",
   "theorems": [
    "C253_split",
    "C253_dbscan"
   ],
   "note": "the request and its answer, for non-empty clusters that share no object with each other and the noise"
  },
  {
   "property": "C254",
   "status": "partial",
   "theorems": [
    "C254_metric",
    "C254_minkowski_refuted"
   ],
   "note": "false only for a Minkowski metric without degree, which python takes as 2 and the library cannot be asked for (TypeError)"
  },
  {
   "property": "C255",
   "status": "partial",
   "theorems": [
    "C255_given_back",
    "C251_cure",
    "C255_som_refuted"
   ],
   "note": "proved for all algorithms and the getters of oscillatory networks; the four getters of self-organised maps never give their packages back"
  },
  {
   "property": "C256",
   "status": "partial",
   "theorems": [
    "C256_value",
    "C256_neighbors",
    "C256_again",
    "C256_length",
    "C256_order_zero",
    "C256_dots_only",
    "C256_order_refuted",
    "C256_picture_refuted",
    "C256_hsyncnet_refuted",
    "C256_grid_refuted"
   ],
   "note": "neighbours, sizes of sync and syncnet, and has_connection() compared with == are proved; but 1.0 is not the object True, so the local order of such a network is always 0 and its picture has no lines; hsyncnet has length 0, and height, width and structure of grids are lost"
  },
  {
   "property": "C257",
   "status": "partial",
   "theorems": [
    "C257_state",
    "C257_names",
    "C257_division",
    "C257_negative_refuted"
   ],
   "note": "proved for iterations that are not negative; -1 becomes 2^64 - 1"
  },
  {
   "property": "C258",
   "status": "proved",
   "theorems": [
    "C258_kmeans",
    "C258_kmedians"
   ],
   "note": "for the default metric and the manhattan distance"
  },
  {
   "property": "C259",
   "status": "partial",
   "theorems": [
    "C259_untied",
    "C259_ties_refuted",
    "C259_kmedians_refuted"
   ],
   "note": "proved for k-means, any metric, as long as no point has two nearest centres in any round; false with ties (witness: three points), and false for k-medians when a cluster is lost, because medians are then compared with those of other clusters"
  },
  {
   "property": "C260",
   "status": "partial",
   "theorems": [
    "C260_sync",
    "C260_sizes",
    "C260_syncnet",
    "C260_hsyncnet",
    "C260_simulation",
    "C260_legion",
    "C260_pcnn",
    "C260_hhn",
    "C260_train",
    "C260_recognition",
    "C260_wrong_pattern",
    "C260_float_pattern",
    "C260_float_pattern_refuted",
    "C260_empty_refuted",
    "C260_radius_refuted"
   ],
   "note": "proved for data that is not empty, a radius and patterns of integers; false for patterns with floats (accepted by the check, TypeError from ctypes), for hsyncnet with empty data (the library is asked for 2^32 - 1 neighbours) and for syncnet without a radius (TypeError)"
  },
  {
   "property": "C261",
   "status": "proved",
   "theorems": [
    "C261_points",
    "C261_centers"
   ],
   "note": "real arithmetic; clusters follow the order of the centres for points with one largest membership"
  },
  {
   "property": "C262",
   "status": "proved",
   "theorems": [
    "C262_matrix",
    "C262_points"
   ],
   "note": "for clusterings (disjoint, not empty) with at least two clusters; scores equal as numbers, nan or infinite alike"
  },
  {
   "property": "C263",
   "status": "proved",
   "theorems": [
    "C263_unique",
    "C263_order",
    "C263_ties_refuted"
   ],
   "note": "C263_ties_refuted: with equal distances the order decides"
  },
  {
   "property": "C264",
   "status": "proved",
   "theorems": [
    "C264_copies",
    "C264_order"
   ],
   "note": "C264_copies compares two runs of the model: data and the m copies of its points in any order, with the threshold multiplied by m. C264_order is the case m = 1. Both runs are shown to succeed. Exact arithmetic."
  },
  {
   "property": "C265",
   "status": "proved",
   "theorems": [
    "C265_order",
    "C265_gaussian"
   ],
   "note": "real arithmetic; the initial means and covariances are given (the random initializer draws positions and is outside of the claim). C265_gaussian: with the densities of the library and covariances that do not vanish both runs succeed."
  },
  {
   "property": "C266",
   "status": "proved",
   "theorems": [
    "C266_copies",
    "C266_order"
   ],
   "note": "C266_copies compares two runs of the model on new objects: data and the m copies of its points in any order, thresholds multiplied by m; both runs are shown to succeed. C266_order is the case m = 1. Exact arithmetic; a second process() on the same object is C49."
  },
  {
   "property": "C267",
   "status": "partial",
   "theorems": [
    "C267_typed",
    "C267_doubles",
    "C267_bytes",
    "C267_untyped_matrix_refuted",
    "C267_integers_refuted",
    "C267_integer_types"
   ],
   "note": "proved for matrices and arrays with a C type, for arrays of float64 without one, and for bytes (which come back as a list of integers); false without a C type for a numpy.matrix (None * cols, TypeError) and for arrays of integers (numpy integers are not instances of int, NameError)"
  },
  {
   "property": "C268",
   "status": "partial",
   "theorems": [
    "C268_manhattan",
    "C268_euclid_refuted"
   ],
   "note": "proved for the Manhattan metric, also when clusters are dropped on the way. False for the default metric (squared Euclid): after a drop the remaining medians are compared with the old ones by position, and when they coincide the run ends although points are nearer to the other median. Whether runs with the default metric always end is not claimed."
  },
  {
   "property": "C269",
   "status": "proved",
   "theorems": [
    "C269_units",
    "C269_default",
    "C269_origin",
    "C269_threshold_refuted"
   ],
   "note": "both runs are shown to succeed; exact arithmetic. C269_threshold_refuted shows that the conversion of a positive threshold is needed."
  },
  {
   "property": "C270",
   "status": "proved",
   "theorems": [
    "C270_unit",
    "C270_origin",
    "C270_tolerance_refuted"
   ],
   "note": "real arithmetic. C270_tolerance_refuted shows that the conversion of the tolerance is needed: with the same tolerance the run stops at another iteration."
  },
  {
   "property": "C271",
   "status": "partial",
   "theorems": [
    "C271_value",
    "C271_string",
    "C271_integer",
    "C271_kind_refuted",
    "C271_unpack",
    "C271_pair_refuted",
    "C271_protocol"
   ],
   "note": "indexes 0 and 1 as stated. Refuted: the message adds an integer to a string, so every other integer raises TypeError; python's iteration expects IndexError, so no unpacking succeeds."
  },
  {
   "property": "C272",
   "status": "partial",
   "theorems": [
    "C272_equal",
    "C272_reflexive",
    "C272_symmetric",
    "C272_transitive_refuted",
    "C272_dimension_refuted",
    "C272_nearest",
    "C272_nearest_empty",
    "C272_successors",
    "C272_successors_refuted",
    "C272_leaf_feature",
    "C272_nonleaf_feature"
   ],
   "note": "equality is reflexive and, for one dimension, symmetric. Refuted: it is not transitive and features of different dimensions can be equal; get_nearest_successors returns the first two successors because of a return inside the loop."
  },
  {
   "property": "C273",
   "status": "proved",
   "theorems": [
    "C273_bic",
    "C273_mndl",
    "C273_xmeans_bic",
    "C273_xmeans_mndl",
    "C273_gmeans",
    "C273_elbow",
    "C273_tolerance_refuted"
   ],
   "note": "exact arithmetic for points, reals for the criteria; the draws of the initializer are the same indices in both runs; scipy's test is a parameter assumed to give the same answer for a sample shifted by a constant. C273_tolerance_refuted shows that the conversion of the tolerance is needed. The elbow's own k-means runs have a fixed tolerance, so only the choice from the errors is claimed."
  },
  {
   "property": "C274",
   "status": "proved",
   "theorems": [
    "C274_matrix",
    "C274_points",
    "C274_radius_refuted"
   ],
   "note": "exact arithmetic; the distances kept for points are squares in the model. Points with a requested amount of clusters are not modelled. C274_radius_refuted shows that the conversion of the radius is needed."
  },
  {
   "property": "C275",
   "status": "partial",
   "theorems": [
    "C275_equation",
    "C275_twins",
    "C275_rotation",
    "C275_sum",
    "C275_two_colours",
    "C275_separates_refuted"
   ],
   "note": "real arithmetic, only the FAST solver's step. Refuted: any state in which all phases agree up to half a turn is stationary, so two adjacent vertices may keep one colour for ever."
  },
  {
   "property": "C276",
   "status": "partial",
   "theorems": [
    "C276_lists",
    "C276_numbers",
    "C276_division_number",
    "C276_division",
    "C276_inverse",
    "C276_norm",
    "C276_difference",
    "C276_triangle",
    "C276_sizes_refuted"
   ],
   "note": "real arithmetic. Refuted: a longer second list is accepted and its rest ignored; only a shorter one raises IndexError."
  },
  {
   "property": "C277",
   "status": "partial",
   "theorems": [
    "C277_densities",
    "C277_unit",
    "C277_origin",
    "C277_one_coordinate_refuted"
   ],
   "note": "real arithmetic; numpy's pseudo-inverse is a parameter with its scaling law as hypothesis. C277_unit is for one unit of all coordinates and for runs that are not ended by the comparison of the first likelihood with the constant -100000 of the code. Refuted for the unit of one coordinate: the density is divided by the root of the norm of the covariance instead of its determinant."
  },
  {
   "property": "C278",
   "status": "proved",
   "theorems": [
    "C278_region_unique"
   ],
   "note": "exact arithmetic"
  },
  {
   "property": "C279",
   "status": "partial",
   "theorems": [
    "C279_size",
    "C279_size_refuted",
    "C279_level_refuted"
   ],
   "note": "len() counts exactly the blocks that get_level returns. Refuted: with more than one level the root is stored nowhere, so len() is 0 where the root is the only leaf, and get_level(k) returns blocks of level k + 1."
  },
  {
   "property": "C280",
   "status": "proved",
   "theorems": [
    "C280_clarans"
   ],
   "note": "exact arithmetic; random.sample and random.randint are arguments of the run"
  },
  {
   "property": "C281",
   "status": "partial",
   "theorems": [
    "C281_train",
    "C281_simulate",
    "C281_somsc",
    "C281_centroid_refuted"
   ],
   "note": "exact arithmetic; the exponential is a parameter. Proved for uniform_grid and random_surface. Refuted for random_centroid (and random is alike): the drawn numbers are added to the centre without regard to the spread of the data."
  },
  {
   "property": "C282",
   "status": "proved",
   "theorems": [
    "C282_dynamic",
    "C282_equal_features",
    "C282_refused"
   ],
   "note": "real arithmetic; one step of the phases (the integrator) is a parameter; that a run ends is not claimed"
  },
  {
   "property": "C283",
   "status": "proved",
   "theorems": [
    "C283_recorded",
    "C283_start",
    "C283_turn"
   ],
   "note": "exact arithmetic; that a record may be out of date although it is exact is why C71 is refuted"
  },
  {
   "property": "C284",
   "status": "proved",
   "theorems": [
    "C284_unit"
   ],
   "note": "exact arithmetic; points of at least one coordinate"
  },
  {
   "property": "C285",
   "status": "partial",
   "theorems": [
    "C285_origin",
    "C285_unit_refuted",
    "C285_zero_diameter_refuted"
   ],
   "note": "exact arithmetic. Proved for another origin. Refuted for another unit: a diameter is taken as zero when the expression under its root is below 1e-9, and a diameter of zero becomes 1 on rebuilding, whatever the unit is."
  },
  {
   "property": "C286",
   "status": "partial",
   "theorems": [
    "C286_unit",
    "C286_origin",
    "C286_coefficient_refuted"
   ],
   "note": "exact rationals for the coordinates, reals for the exponential; the overflow of the exponential is left out. Proved for another origin, and for another unit when select_coeff is divided by its factor. Refuted for another unit with the same select_coeff: the other chromosome is selected."
  },
  {
   "property": "C287",
   "status": "partial",
   "theorems": [
    "C287_any_order",
    "C287_no_points",
    "C287_after_exception_refuted",
    "C287_changed_data_refuted"
   ],
   "note": "exact arithmetic. Proved for points of the same number of coordinates and for no points. Refuted for points of different numbers of coordinates (after the exception the next call returns what was stored halfway: a width of zero, a maximum that a point exceeds) and for data changed by their owner between the calls."
  },
  {
   "property": "C288",
   "status": "proved",
   "theorems": [
    "C288_numbers",
    "C288_order",
    "C288_out_of_range"
   ],
   "note": "exact arithmetic; points of the same number of coordinates for the order of the points"
  },
  {
   "property": "C289",
   "status": "partial",
   "theorems": [
    "C289_origin",
    "C289_average",
    "C289_unit_refuted"
   ],
   "note": "exact arithmetic; exp is a parameter that respects equality. Proved for another origin. Refuted for another unit, for exp rounded in any way: the exponent of the weights is the square of a distance divided by a distance, so it grows with the unit."
  },
  {
   "property": "C290",
   "status": "partial",
   "theorems": [
    "C290_stop",
    "C290_distance_refuted"
   ],
   "note": "real arithmetic. Proved with the square of the distance a centre moved compared with the tolerance. Refuted for the distance itself, which the documentation calls the change of the centres: for every tolerance below 1 a run stops after a longer move."
  }
 ]
}