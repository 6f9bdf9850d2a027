{"id": "C01", "title": "kd-tree point lookup is exact for every history", "statement": "After building a kd-tree from any list of points and then applying any sequence of insert and remove calls, find_node(p) / find_node_with_payload(p, q) return a node exactly when a node with that point (and payload) is currently stored, and the returned node carries that point (and payload).", "quantifier": "every initial point list (duplicates and ties on split coordinates included), every sequence of insert/remove calls, every query point and payload", "why_tests_cant": "the answer depends on where ties on the discriminator ended up after arbitrary interleavings of median splits, inserts and replacement-removals; tests sample a handful of orders", "anchors": ["pyclustering/container/kdtree.py:kdtree_balanced.find_node", "pyclustering/container/kdtree.py:kdtree_balanced.find_node_with_payload", "pyclustering/container/kdtree.py:kdtree.insert", "pyclustering/container/kdtree.py:kdtree.remove"]}
{"id": "C02", "title": "kd-tree range search is exact", "statement": "find_nearest_dist_nodes(point, distance) returns each stored node whose squared Euclidean distance to the point is at most distance squared exactly once, paired with that distance, and returns nothing else.", "quantifier": "every tree reachable by building/inserting/removing, every query point of the same dimension, every distance >= 0", "why_tests_cant": "pruning bugs only lose points lying in particular sub-boxes of particular trees; completeness is a statement about all trees and all balls", "anchors": ["pyclustering/container/kdtree.py:kdtree_balanced.find_nearest_dist_nodes", "pyclustering/container/kdtree.py:kdtree_balanced.__recursive_nearest_nodes"]}
{"id": "C03", "title": "kd-tree nearest node within a distance", "statement": "find_nearest_dist_node(point, distance) returns a stored node that is at minimal distance from the point among all stored nodes within the distance, and returns None exactly when no stored node is within the distance.", "quantifier": "every reachable tree, every query point, every distance >= 0", "why_tests_cant": "minimality over all stored nodes for all queries cannot be enumerated", "anchors": ["pyclustering/container/kdtree.py:kdtree_balanced.find_nearest_dist_node"]}
{"id": "C04", "title": "kd-tree insert/remove change exactly one element", "statement": "insert adds exactly one (point, payload) element to the stored multiset; remove deletes exactly one element equal to the point (and payload) when one is stored and changes nothing otherwise; len() always equals the number of stored elements.", "quantifier": "every reachable tree, every inserted/removed element", "why_tests_cant": "the multiset effect of replacement-removal depends on the shape of the tree below the removed node", "anchors": ["pyclustering/container/kdtree.py:kdtree.insert", "pyclustering/container/kdtree.py:kdtree.remove", "pyclustering/container/kdtree.py:kdtree.__recursive_remove", "pyclustering/container/kdtree.py:kdtree_balanced.__len__"]}
{"id": "C05", "title": "leftmost position search", "statement": "find_left_element(sorted_data, right_border, comparator) returns the smallest index i such that element i is not less than the element at right_border, for data sorted by the comparator.", "quantifier": "every sorted list and every border index inside it", "why_tests_cant": "off-by-one errors of a binary search appear only for particular lengths and runs of equal keys", "anchors": ["pyclustering/utils/__init__.py:find_left_element"]}
{"id": "C06", "title": "DSATUR yields a proper colouring with consecutive colours", "statement": "For every symmetric adjacency matrix without self-loops, dsatur.process assigns to each vertex a colour >= 1 such that adjacent vertices differ, the colours used are exactly 1..k for some k, and k is at most the maximum vertex degree plus one.", "quantifier": "every undirected graph of every size", "why_tests_cant": "greedy saturation order is graph dependent; properness on all graphs is not enumerable", "anchors": ["pyclustering/gcolor/dsatur.py:dsatur.process", "pyclustering/gcolor/dsatur.py:dsatur.get_colors"]}
{"id": "C07", "title": "label and index-list encodings are mutually inverse", "statement": "Converting a clustering from index-list form to labels and back with cluster_encoder returns the same clusters (same order, same members), for clusterings that are lists of ascending disjoint index lists covering the first point with a non-empty last cluster; labels to index lists and back returns the same labels; points belonging to no cluster get the not-a-number label.", "quantifier": "every data size and every list of disjoint ascending clusters; every label vector", "why_tests_cant": "round trips are claims over all clusterings, including empty, trailing-empty and uncovered ones", "anchors": ["pyclustering/cluster/encoder.py:cluster_encoder.set_encoding"]}
{"id": "C08", "title": "object-list encoding preserves the objects", "statement": "Converting to the object-list form and back yields clusters containing equal objects in the same order, and never assigns one data index to two clusters.", "quantifier": "every data set (duplicate points included) and every disjoint clustering of it", "why_tests_cant": "duplicates interact with the search position kept per object text", "anchors": ["pyclustering/cluster/encoder.py:cluster_encoder.set_encoding"]}
{"id": "C09", "title": "DBSCAN output is a partition", "statement": "After process(), every point index occurs exactly once: either in exactly one cluster or in noise; no cluster is empty.", "quantifier": "every data set, radius and neighbour threshold", "why_tests_cant": "visit order and expansion queue are data dependent", "anchors": ["pyclustering/cluster/dbscan.py:dbscan.process", "pyclustering/cluster/dbscan.py:dbscan.__expand_cluster"]}
{"id": "C10", "title": "DBSCAN clusters are the density-connected components", "statement": "Two core points are in the same cluster iff they are linked by a chain of core points with consecutive distances within the radius; every clustered non-core point is within the radius of a core point of its cluster; every noise point is not a core point and is within the radius of no core point.", "quantifier": "every data set / distance matrix (symmetric), radius and neighbour threshold", "why_tests_cant": "requires reasoning about all chains in all neighbourhood graphs", "anchors": ["pyclustering/cluster/dbscan.py:dbscan.process", "pyclustering/cluster/dbscan.py:dbscan.__neighbor_indexes_points", "pyclustering/cluster/dbscan.py:dbscan.__neighbor_indexes_distance_matrix"]}
{"id": "C11", "title": "OPTICS output is a partition and an ordering", "statement": "After process(), every point index occurs exactly once in clusters plus noise, and every point is processed exactly once in the ordered database.", "quantifier": "every data set, radius and minimum-points value >= 1", "why_tests_cant": "priority-queue order is data dependent", "anchors": ["pyclustering/cluster/optics.py:optics.process", "pyclustering/cluster/optics.py:optics.__allocate_clusters"]}
{"id": "C12", "title": "OPTICS reachability and core distances are sound", "statement": "A point has a core distance iff it has at least minpts neighbours within the radius, and it equals the distance to its minpts-th nearest neighbour; every finite reachability distance is at least the core distance of, and the distance to, some core point processed earlier.", "quantifier": "every data set and parameter choice", "why_tests_cant": "order-dependent updates of reachability must be right for every processing order", "anchors": ["pyclustering/cluster/optics.py:optics.__expand_cluster_order", "pyclustering/cluster/optics.py:optics.__update_order_seed"]}
{"id": "C13", "title": "k-means returns a partition whose centres are the means", "statement": "After process() with at least one iteration, clusters partition all point indices, none is empty, there are as many centres as clusters and never more than initial centres, and each centre is the arithmetic mean of the points assigned to it.", "quantifier": "every data set, every list of initial centres, every tolerance and iteration limit", "why_tests_cant": "cluster emptying happens only for special geometries; claim ranges over all of them", "anchors": ["pyclustering/cluster/kmeans.py:kmeans.process", "pyclustering/cluster/kmeans.py:kmeans.__update_clusters", "pyclustering/cluster/kmeans.py:kmeans.__update_centers"]}
{"id": "C14", "title": "k-means never increases the within-cluster error", "statement": "With the squared Euclidean metric each assignment+update iteration does not increase the sum of squared distances of points to their centres; predict() returns for each point the index of a nearest centre.", "quantifier": "every data set, every centres list, every number of iterations", "why_tests_cant": "monotonicity is a universally quantified inequality", "anchors": ["pyclustering/cluster/kmeans.py:kmeans.process", "pyclustering/cluster/kmeans.py:kmeans.predict", "pyclustering/cluster/kmeans.py:kmeans.get_total_wce"]}
{"id": "C15", "title": "k-medians centres are coordinate-wise medians and minimise Manhattan error", "statement": "After process(), clusters partition the data, none is empty, and each median minimises the sum of absolute coordinate differences over its cluster; predict() gives every point a nearest median.", "quantifier": "every data set and list of initial medians", "why_tests_cant": "minimality against all alternative centres cannot be sampled", "anchors": ["pyclustering/cluster/kmedians.py:kmedians.process", "pyclustering/cluster/kmedians.py:kmedians.__update_medians"]}
{"id": "C16", "title": "k-medoids swap cost and monotonicity", "statement": "The cost computed for exchanging a medoid with a candidate equals the true change of the total distance to the nearest medoid; a swap is applied only if it lowers the total deviation.", "quantifier": "every distance matrix, medoid set and candidate", "why_tests_cant": "the incremental formula must agree with the full recomputation for every configuration", "anchors": ["pyclustering/cluster/kmedoids.py:kmedoids.__swap_medoids", "pyclustering/cluster/kmedoids.py:kmedoids.__calculate_swap_cost", "pyclustering/cluster/kmedoids.py:kmedoids.process"]}
{"id": "C17", "title": "PAM BUILD picks distinct, greedily optimal medoids", "statement": "build.initialize(k) returns k distinct valid indices; the first minimises total distance; each next one minimises the total deviation over all not yet chosen points.", "quantifier": "every distance matrix and every k not larger than the data size", "why_tests_cant": "optimality among all candidates at every step for all inputs", "anchors": ["pyclustering/cluster/kmedoids.py:build"]}
{"id": "C18", "title": "BSAS / MBSAS / TTSAS produce bounded partitions with mean representatives", "statement": "After process() clusters partition the indices, no cluster is empty, at most max_clusters clusters (BSAS, MBSAS) are made, and each representative is the arithmetic mean of the cluster's points; TTSAS terminates.", "quantifier": "every data set in every presentation order, every threshold and cluster limit", "why_tests_cant": "sequential schemes depend on the presentation order; all orders matter", "anchors": ["pyclustering/cluster/bsas.py:bsas.process", "pyclustering/cluster/mbsas.py:mbsas.process", "pyclustering/cluster/ttsas.py:ttsas.process"]}
{"id": "C19", "title": "sequential clustering leaves the caller's data unchanged", "statement": "After bsas.process() the data set passed by the caller has the same contents as before.", "quantifier": "every data set", "why_tests_cant": "aliasing between representatives and caller lists only shows on inputs that trigger representative updates", "anchors": ["pyclustering/cluster/bsas.py:bsas.process", "pyclustering/cluster/bsas.py:bsas._update_representative"]}
{"id": "C20", "title": "agglomerative clustering yields exactly the requested partition size", "statement": "After process(), clusters partition the indices, none is empty and there are exactly min(number of points, requested number) clusters, for each of the four link types; every merge joins a pair with minimal link value.", "quantifier": "every data set, link type and requested number >= 1", "why_tests_cant": "pair selection by minimum over all pairs at every step", "anchors": ["pyclustering/cluster/agglomerative.py:agglomerative.process"]}
{"id": "C21", "title": "single-link clusters are separated by more than the last merge distance", "statement": "With SINGLE_LINK, any two points joined into one cluster are linked by a chain of hops none longer than any distance between points of different final clusters.", "quantifier": "every data set and requested number of clusters", "why_tests_cant": "quantifies over all pairs and all chains", "anchors": ["pyclustering/cluster/agglomerative.py:agglomerative.__merge_by_signle_link"]}
{"id": "C22", "title": "ROCK output is a partition of linked objects", "statement": "rock.process() terminates, clusters partition the indices, none is empty, at least number_clusters of them remain (if there are that many points), each cluster is connected in the eps-neighbourhood graph, and if more than number_clusters remain then no two of them are linked by a pair within eps.", "quantifier": "every data set, eps, number of clusters, threshold in [0,1)", "why_tests_cant": "stop condition depends on global link structure", "anchors": ["pyclustering/cluster/rock.py:rock.process", "pyclustering/cluster/rock.py:rock.__find_pair_clusters"]}
{"id": "C23", "title": "CF-tree conserves the clustering feature", "statement": "After any sequence of insertions, the root feature and every node's feature equal the sum of the features below it; in particular the number of points, linear sum and square sum of the root equal those of everything inserted.", "quantifier": "every sequence of inserted entries, every branching factor, entry limit, threshold and measure", "why_tests_cant": "splits, merges and pushes to new roots must each conserve the sums in every shape", "anchors": ["pyclustering/container/cftree.py:cftree.insert", "pyclustering/container/cftree.py:cftree.__insert_for_leaf_node", "pyclustering/container/cftree.py:cftree.__split_nonleaf_node"]}
{"id": "C24", "title": "CF-tree structural limits", "statement": "After any sequence of insertions every leaf holds between one and max_entries entries, every inner node has at most branch_factor children, all leaves are on the same level, height/amount_nodes/amount_entries report the true values and the leafes list is exactly the set of leaves.", "quantifier": "every sequence of inserted entries and parameters", "why_tests_cant": "counters are maintained incrementally over splits and merges", "anchors": ["pyclustering/container/cftree.py:cftree"]}
{"id": "C25", "title": "BIRCH assigns every point to exactly one cluster", "statement": "After process() every point index is in exactly one cluster and there are at most number_clusters clusters.", "quantifier": "every data set and parameter choice", "why_tests_cant": "tree rebuilds may in principle lose or duplicate points", "anchors": ["pyclustering/cluster/birch.py:birch.process", "pyclustering/cluster/birch.py:birch.__rebuild_tree"]}
{"id": "C26", "title": "CLIQUE clusters are the connected groups of dense cells", "statement": "After process() every point is in exactly one cluster or in noise; a point is noise iff its cell holds at most density_threshold points; two points are in one cluster iff their cells are linked by a chain of face-adjacent dense cells.", "quantifier": "every data set (not degenerate), number of intervals and density threshold", "why_tests_cant": "quantifies over all cell graphs of all dimensions", "anchors": ["pyclustering/cluster/clique.py:clique.process", "pyclustering/cluster/clique.py:clique.__expand_cluster", "pyclustering/cluster/clique.py:spatial_block"]}
{"id": "C27", "title": "k-means++ returns distinct points of the data", "statement": "kmeans_plusplus_initializer.initialize(return_index=True) returns exactly the requested number of distinct valid indices for every outcome of the random draws, for both the candidate-sampling and the farthest variants, also with duplicate points.", "quantifier": "every data set, amount of centres, amount of candidates and every sequence of random numbers", "why_tests_cant": "only rare random outcomes could return an already chosen index", "anchors": ["pyclustering/cluster/center_initializer.py:kmeans_plusplus_initializer"]}
{"id": "C28", "title": "random initializer returns distinct points", "statement": "random_center_initializer.initialize(return_index=True) returns the requested number of distinct valid indices for every sequence of random integers.", "quantifier": "every data set, amount and random stream", "why_tests_cant": "collision handling is hit only for particular random streams", "anchors": ["pyclustering/cluster/center_initializer.py:random_center_initializer"]}
{"id": "C29", "title": "reservoir sampling returns items from distinct positions", "statement": "reservoir_r(data, n) and reservoir_x(data, n) return n elements taken from n distinct positions of the data for every outcome of the random draws, and raise ValueError when n exceeds the data size.", "quantifier": "every data list, every n and every random stream", "why_tests_cant": "skips and replacements depend on random draws", "anchors": ["pyclustering/utils/sampling.py:reservoir_r", "pyclustering/utils/sampling.py:reservoir_x"]}
{"id": "C30", "title": "silhouette scores lie in [-1, 1]", "statement": "silhouette.process().get_score() gives, for every point in a cluster with two or more points when at least two clusters exist, the value (b-a)/max(a,b) for mean own-cluster distance a and smallest mean other-cluster distance b, which lies in [-1, 1].", "quantifier": "every data set and every clustering with at least two clusters", "why_tests_cant": "range claim over all inputs", "anchors": ["pyclustering/cluster/silhouette.py:silhouette.process"]}
{"id": "C31", "title": "elbow picks an interior k", "statement": "elbow.process() returns an amount of clusters kmin + i*kstep strictly between kmin and kmax whose elbow length is the largest.", "quantifier": "every sequence of within-cluster errors and every kmin, kmax, kstep accepted by the constructor", "why_tests_cant": "index arithmetic must hold for all sequences", "anchors": ["pyclustering/cluster/elbow.py:elbow.process", "pyclustering/cluster/elbow.py:elbow.__calculate_elbows", "pyclustering/cluster/elbow.py:elbow.__find_optimal_kvalue"]}
{"id": "C32", "title": "fuzzy c-means memberships of a point sum to one", "statement": "After each update the memberships of every point are non-negative and sum to 1.", "quantifier": "every data set, centres and fuzzifier m > 1", "why_tests_cant": "normalisation identity over reals, with special handling of coinciding points", "anchors": ["pyclustering/cluster/fcm.py:fcm.__update_membership"]}
{"id": "C33", "title": "CLARANS returns a partition around distinct medoids", "statement": "After process() with numlocal >= 1 the medoids are distinct valid indices and the clusters partition the data, each point being assigned to a nearest medoid.", "quantifier": "every data set, number of clusters not larger than the data, numlocal, maxneighbor and random stream", "why_tests_cant": "random restarts and swaps", "anchors": ["pyclustering/cluster/clarans.py:clarans.process", "pyclustering/cluster/clarans.py:clarans.__optimize_configuration"]}
{"id": "C34", "title": "BANG covers all points and clusters are disjoint", "statement": "After process() every point is in a cluster or noise and no point is in two of them.", "quantifier": "every data set, number of levels and thresholds", "why_tests_cant": "points on block borders", "anchors": ["pyclustering/cluster/bang.py:bang.process", "pyclustering/cluster/bang.py:bang_block", "pyclustering/cluster/bang.py:spatial_block"]}
{"id": "C35", "title": "distance functions are metrics", "statement": "Euclidean, Manhattan, Chebyshev and Canberra distances are non-negative, zero exactly on equal points, symmetric and satisfy the triangle inequality; they have the values of their formulas and squared Euclidean is the square of Euclidean. (Minkowski, chi square and Gower are C80-C82.)", "quantifier": "every pair/triple of points of every dimension", "why_tests_cant": "universally quantified inequalities", "anchors": ["pyclustering/utils/metric.py:euclidean_distance", "pyclustering/utils/metric.py:manhattan_distance", "pyclustering/utils/metric.py:chebyshev_distance", "pyclustering/utils/metric.py:minkowski_distance"]}
{"id": "C36", "title": "X-means respects kmax and returns a partition", "statement": "After process() with at most kmax initial centres there are at most kmax clusters, they partition the data, and there are as many centres as clusters.", "quantifier": "every data set, initial centres, kmax and outcome of local splits", "why_tests_cant": "splitting decisions are data dependent", "anchors": ["pyclustering/cluster/xmeans.py:xmeans.process", "pyclustering/cluster/xmeans.py:xmeans.__improve_structure"]}
{"id": "C37", "title": "G-means respects k_max and reports the error of its clusters", "statement": "After process() the number of clusters does not exceed k_max (when k_init does not) and get_total_wce() is the error of the returned clustering.", "quantifier": "every data set, k_init, k_max and split outcomes", "why_tests_cant": "depends on control flow through the statistical test", "anchors": ["pyclustering/cluster/gmeans.py:gmeans.process", "pyclustering/cluster/gmeans.py:gmeans.get_total_wce"]}
{"id": "C38", "title": "SOM grid topology", "statement": "For grid_four / grid_eight / honeycomb connections of a rows x cols map the neighbours of each neuron are exactly the cells adjacent in the two-dimensional grid, so the relation is symmetric and irreflexive.", "quantifier": "every rows, cols >= 1 and every neuron", "why_tests_cant": "border wrap-around errors show only on particular shapes", "anchors": ["pyclustering/nnet/som.py:som._create_connections"]}
{"id": "C39", "title": "oscillatory network grid topology", "statement": "For GRID_FOUR / GRID_EIGHT / LIST_BIDIR / ALL_TO_ALL structures has_connection(i, j) holds exactly when i and j are neighbours in the described structure.", "quantifier": "every height, width and every pair of oscillators, both representations", "why_tests_cant": "row-boundary arithmetic must hold for every index", "anchors": ["pyclustering/nnet/__init__.py:network._create_structure", "pyclustering/nnet/__init__.py:network.has_connection"]}
{"id": "C40", "title": "sync ensembles partition the oscillators", "statement": "allocate_sync_ensembles on a non-empty dynamic returns non-empty, disjoint groups covering all oscillators, each new member being within the tolerance (on the circle) of an earlier member of its group.", "quantifier": "every final phase vector and tolerance", "why_tests_cant": "greedy grouping for every vector", "anchors": ["pyclustering/nnet/sync.py:sync_dynamic.allocate_sync_ensembles"]}
{"id": "C41", "title": "hysteresis ensembles group equal oscillators", "statement": "hysteresis_dynamic.allocate_sync_ensembles partitions the oscillators, and oscillators with identical recent output are put in the same ensemble.", "quantifier": "every dynamic, tolerance and number of analysed steps", "why_tests_cant": "depends on the order in which ensembles are tried", "anchors": ["pyclustering/nnet/hysteresis.py:hysteresis_dynamic.allocate_sync_ensembles"]}
{"id": "C42", "title": "PCNN ensembles describe the recorded spikes", "statement": "allocate_sync_ensembles groups are disjoint and contain exactly the oscillators that fired after the initial state; spike ensembles list exactly the firing oscillators of each active step; the time signal is the number of firing oscillators of each step.", "quantifier": "every recorded output dynamic", "why_tests_cant": "claims over all dynamics", "anchors": ["pyclustering/nnet/pcnn.py:pcnn_dynamic"]}
{"id": "C43", "title": "genetic algorithm returns a valid best solution", "statement": "Every chromosome of every generation assigns each point a cluster in range; get_clusters() partitions the data into count_clusters lists; the reported best fitness equals the fitness of the reported best chromosome and never increases over generations.", "quantifier": "every data set, parameters and random stream", "why_tests_cant": "random operators", "anchors": ["pyclustering/cluster/ga.py:genetic_algorithm.process", "pyclustering/cluster/ga_maths.py:ga_math"]}
{"id": "C44", "title": "EM responsibilities and clusters are consistent", "statement": "When densities are positive, responsibilities of each point sum to one after the expectation step, mixture weights sum to one after the maximisation step, and extracted clusters partition the data without empty clusters, each point being in a cluster of maximal responsibility.", "quantifier": "every data set and all positive density values", "why_tests_cant": "normalisation identity for all values", "anchors": ["pyclustering/cluster/ema.py:ema.__expectation_step", "pyclustering/cluster/ema.py:ema.__extract_clusters"]}
{"id": "C45", "title": "core package codec round trip", "statement": "Extracting a package built from any nested list of numbers returns the same nested list.", "quantifier": "every nested list with uniform element type at each level", "why_tests_cant": "nesting and empty sublists", "anchors": ["pyclustering/core/pyclustering_package.py:package_builder.create", "pyclustering/core/pyclustering_package.py:package_extractor.extract"]}
{"id": "C46", "title": "CURE produces exactly the requested clusters without failing", "statement": "cure.process() never fails, returns min(n, k) non-empty clusters partitioning the indices, each mean is the arithmetic mean of its cluster's points, and at most number_represent_points representatives are kept per cluster.", "quantifier": "every data set and parameter choice", "why_tests_cant": "queue, closest pointers and the kd-tree must stay mutually consistent through every merge", "anchors": ["pyclustering/cluster/cure.py:cure.process", "pyclustering/cluster/cure.py:cure.__closest_cluster"]}
{"id": "C47", "title": "phase normalisation", "statement": "Phase normalisation terminates and returns a phase in [0, 2*pi] that differs from the argument by an integer multiple of 2*pi.", "quantifier": "every real phase", "why_tests_cant": "loop termination and range over all reals", "anchors": ["pyclustering/nnet/sync.py:sync_network._phase_normalization"]}
{"id": "C48", "title": "bounding boxes are tight", "statement": "data_corners / dimension_info report, per coordinate, the exact minimum and maximum over the data, width = max - min, and the centre as midpoint.", "quantifier": "every non-empty data set", "why_tests_cant": "single-pass min/max updates over every order of data", "anchors": ["pyclustering/utils/__init__.py:data_corners", "pyclustering/utils/dimension.py:dimension_info"]}
{"id": "C49", "title": "reprocessing is idempotent", "statement": "Calling process() a second time on the same DBSCAN, BSAS or CLIQUE object leaves the reported clusters unchanged (a partition of the data).", "quantifier": "every data set and parameters", "why_tests_cant": "accumulation of state across calls", "anchors": ["pyclustering/cluster/dbscan.py:dbscan.process", "pyclustering/cluster/bsas.py:bsas.process", "pyclustering/cluster/clique.py:clique.process"]}
{"id": "C50", "title": "graph representation is recognised", "statement": "A graph object built without an explicit type reports the matrix representation exactly when its data is a square matrix of zeros and ones (the empty graph counts as a matrix), and the vector representation otherwise.", "quantifier": "every list of integer rows", "why_tests_cant": "type auto-detection must hold for every content", "anchors": ["pyclustering/utils/graph.py:graph.__init__"]}
{"id": "C51", "title": "DSATUR follows the saturation order", "statement": "The colouring returned by dsatur is the greedy colouring along some ordering of the vertices in which every next vertex has, among the vertices not coloured yet, the largest number of distinct neighbouring colours, ties going to the largest row sum; each vertex takes the least colour not used by its already coloured neighbours.", "quantifier": "every symmetric non-negative adjacency matrix, every iteration order of the internal set", "why_tests_cant": "saturation counters are updated incrementally; a wrong update still gives a proper colouring that small tests accept", "anchors": ["pyclustering/gcolor/dsatur.py:dsatur.process"]}
{"id": "C52", "title": "DSATUR is optimal on bipartite graphs", "statement": "On every bipartite graph dsatur uses at most two colours.", "quantifier": "every bipartite graph of every size, connected or not", "why_tests_cant": "a statement over all bipartite graphs; greedy colouring in another order can use arbitrarily many colours", "anchors": ["pyclustering/gcolor/dsatur.py:dsatur.process"]}
{"id": "C53", "title": "index-list to labels round trip is unconditional", "statement": "Converting any clustering (noise points and empty clusters included) from index lists to labels and back returns it unchanged.", "quantifier": "every data size and every clustering", "why_tests_cant": "which points are noise decides whether the conversion fails", "anchors": ["pyclustering/cluster/encoder.py:cluster_encoder.set_encoding"]}
{"id": "C54", "title": "encoder conversions commute", "statement": "Converting labels to object lists directly gives the same result (or the same error) as converting to index lists first, and converting object lists to labels gives the same as going through index lists.", "quantifier": "every data list, every label vector and every object clustering, valid or not", "why_tests_cant": "equality of two code paths over all inputs including failing ones", "anchors": ["pyclustering/cluster/encoder.py:cluster_encoder.set_encoding"]}
{"id": "C55", "title": "OPTICS finds the density components", "statement": "The clusters of optics.process() are grown from core points (listed by their lowest index); the core points of a cluster are exactly one density-connected component, every other member is a neighbour of a core point of its cluster, and noise consists exactly of the non-core points that no core point processed earlier has as a neighbour.", "quantifier": "every data set, radius and minpts >= 1", "why_tests_cant": "relates an ordering-based algorithm to the density definition over all point configurations", "anchors": ["pyclustering/cluster/optics.py:optics.process"]}
{"id": "C56", "title": "OPTICS allocates the requested amount of clusters", "statement": "When amount_clusters is given and a radius for it is found, process() succeeds and get_clusters() has that many clusters.", "quantifier": "every distance matrix, radius, minpts and requested amount", "why_tests_cant": "the amount is estimated from the ordering diagram, then the clustering is redone with another radius", "anchors": ["pyclustering/cluster/optics.py:ordering_analyser.calculate_connvectivity_radius", "pyclustering/cluster/optics.py:optics.process"]}
{"id": "C57", "title": "OPTICS ordering describes the final objects", "statement": "get_ordering() lists the reachability distances of the objects in the final clusters.", "quantifier": "every distance matrix, radius, minpts and requested amount", "why_tests_cant": "a stale cache is only visible after the second allocation", "anchors": ["pyclustering/cluster/optics.py:optics.get_ordering"]}
{"id": "C58", "title": "plain oscillator structures and dynamic connections", "statement": "For ALL_TO_ALL, LIST_BIDIR, NONE and DYNAMIC structures has_connection(i, j) holds exactly for the described pairs in both representations; connections set on a dynamic network are exactly those reported, in both directions; get_neighbors agrees with has_connection.", "quantifier": "every number of oscillators, every pair, every sequence of set_connection calls", "why_tests_cant": "quantifies over all sizes, pairs and histories", "anchors": ["pyclustering/nnet/__init__.py:network._create_structure", "pyclustering/nnet/__init__.py:network.set_connection"]}
{"id": "C59", "title": "sync ensembles: what is guaranteed", "statement": "sync_dynamic.allocate_sync_ensembles (without indexes) partitions the oscillators into non-empty ordered groups; each later member is accepted by an earlier member of its group and by no earlier member of a previous group; oscillators near on the circle are never separated that way; allocate_phase_matrix is the row-major reshape and fails exactly when sizes do not fit.", "quantifier": "every recorded dynamic, tolerance, iteration, matrix size", "why_tests_cant": "quantifies over all phase vectors and tolerances", "anchors": ["pyclustering/nnet/sync.py:sync_dynamic.allocate_sync_ensembles", "pyclustering/nnet/sync.py:sync_dynamic.allocate_phase_matrix"]}
{"id": "C60", "title": "pulses of an oscillator are counted and grouped", "statement": "extract_number_oscillations counts the falls below the threshold (not the first one when the record starts above it); utils.allocate_sync_ensembles returns disjoint non-empty groups of exactly the not ignored oscillators that have a pulse after the first step which ended; the last pulses of the members of a group are within the tolerance of the one of its first member and of no first member of an earlier group.", "quantifier": "every recorded dynamic, threshold, tolerance and ignore list", "why_tests_cant": "quantifies over all signals", "anchors": ["pyclustering/utils/__init__.py:extract_number_oscillations", "pyclustering/utils/__init__.py:allocate_sync_ensembles"]}
{"id": "C61", "title": "total dynamic weight of a LEGION oscillator is bounded by Wt", "statement": "The sum of the weights of the dynamic connections to a single oscillator does not exceed Wt (as documented for legion_parameters.Wt).", "quantifier": "every network structure and stimulus", "why_tests_cant": "quantifies over all structures and stimuli", "anchors": ["pyclustering/nnet/legion.py:legion_network.__create_dynamic_connections", "pyclustering/nnet/legion.py:legion_parameters"]}
{"id": "C62", "title": "order parameters lie in [0, 1]", "statement": "calculate_sync_order of phases that are not all zero lies in [0, 1] and is 1 for equal phases; calculate_local_sync_order lies in (0, 1] when there is a connection and is 1 exactly when connected oscillators have equal phases; the correlation matrix is symmetric with zero diagonal and entries in [0, 1].", "quantifier": "every phase vector and every connection structure", "why_tests_cant": "quantifies over all real phase vectors", "anchors": ["pyclustering/nnet/sync.py:order_estimator", "pyclustering/nnet/sync.py:sync_dynamic.allocate_correlation_matrix"]}
{"id": "C63", "title": "k-means with zero tolerance stops in a local optimum", "statement": "With tolerance 0 (exact arithmetic) k-means stops by itself after finitely many iterations, and then every point is assigned to a nearest centre and every centre is the mean of its cluster.", "quantifier": "every data set of one dimension and every list of initial centres", "why_tests_cant": "termination of an iterative scheme is a statement about all inputs", "anchors": ["pyclustering/cluster/kmeans.py:kmeans.process"]}
{"id": "C64", "title": "k-medoids labels agree with the clusters", "statement": "get_labels()[i] is the number of the cluster in get_clusters() that contains point i.", "quantifier": "every data set or distance matrix and initial medoids", "why_tests_cant": "labels are stale only when a medoid loses all its points", "anchors": ["pyclustering/cluster/kmedoids.py:kmedoids.__update_clusters", "pyclustering/cluster/kmedoids.py:kmedoids.__erase_empty_clusters"]}
{"id": "C65", "title": "k-medoids: what a run does", "statement": "process() partitions the points over nearest medoids; the run is a sequence of best exchanges, each except possibly the last lowering the total deviation by more than the tolerance, bounded by itermax.", "quantifier": "every distance matrix, initial medoids, tolerance and iteration limit", "why_tests_cant": "quantifies over all runs", "anchors": ["pyclustering/cluster/kmedoids.py:kmedoids.process", "pyclustering/cluster/kmedoids.py:kmedoids.__find_optimal_swap"]}
{"id": "C66", "title": "reservoir_r is uniform", "statement": "Over all equally likely random draws every position of the data is included in the sample returned by reservoir_r(data, n) with probability n / len(data).", "quantifier": "every data size, sample size and position", "why_tests_cant": "a distribution cannot be settled by examples", "anchors": ["pyclustering/utils/sampling.py:reservoir_r"]}
{"id": "C67", "title": "TTSAS may be processed again", "statement": "A second process() of a TTSAS object leaves clusters and representatives unchanged.", "quantifier": "every data set and thresholds", "why_tests_cant": "state carried between calls", "anchors": ["pyclustering/cluster/ttsas.py:ttsas.process"]}
{"id": "C68", "title": "average link compares average distances", "statement": "With AVERAGE_LINK every merge joins the pair of clusters with the least average distance between their objects.", "quantifier": "every data set and requested number of clusters", "why_tests_cant": "clusters of different sizes have to compete for the divisor to matter", "anchors": ["pyclustering/cluster/agglomerative.py:agglomerative.__merge_by_average_link"]}
{"id": "C69", "title": "agglomerative clustering may be processed again", "statement": "With single, complete and average link a second process() returns the same clusters.", "quantifier": "every data set and requested number of clusters", "why_tests_cant": "state carried between calls", "anchors": ["pyclustering/cluster/agglomerative.py:agglomerative.process"]}
{"id": "C70", "title": "every threshold accepted by ROCK can be processed", "statement": "Whenever the rock constructor accepts its arguments, process() returns normally.", "quantifier": "every data set and accepted parameters", "why_tests_cant": "only one accepted threshold value is bad", "anchors": ["pyclustering/cluster/rock.py:rock.__verify_arguments", "pyclustering/cluster/rock.py:rock.__calculate_goodness"]}
{"id": "C71", "title": "CURE merges the two closest clusters", "statement": "In every step the two merged clusters have the least distance between representatives among all pairs of clusters.", "quantifier": "every data set and parameters", "why_tests_cant": "the queue is left unsorted only when several neighbours lose their closest cluster at once", "anchors": ["pyclustering/cluster/cure.py:cure.__process_by_python", "pyclustering/cluster/cure.py:cure.__insert_cluster"]}
{"id": "C72", "title": "statistics of clustering features are exact", "statement": "For a clustering feature built from points, get_centroid() is the mean of the points, get_radius() squared the mean squared distance to it, get_diameter() squared the average squared distance of pairs (zero when the total is below 1e-9), and get_distance() for average inter, average intra and variance increase the quantity of that name over the points themselves.", "quantifier": "every two non-empty groups of points", "why_tests_cant": "algebraic identities over all point sets", "anchors": ["pyclustering/container/cftree.py:cfentry.get_radius", "pyclustering/container/cftree.py:cfentry.get_diameter", "pyclustering/container/cftree.py:cfentry.get_distance"]}
{"id": "C73", "title": "inserting points into a CF-tree never fails", "statement": "cftree.insert_point() returns normally for every sequence of points of one dimension and every non-negative threshold; hence birch.process() returns.", "quantifier": "every sequence of points, measurement, branching factor, maximum of entries and threshold", "why_tests_cant": "a split fails only when all features of a node are at distance zero", "anchors": ["pyclustering/container/cftree.py:cftree.insert_point", "pyclustering/container/cftree.py:leaf_node.get_farthest_entries", "pyclustering/container/cftree.py:non_leaf_node.get_farthest_successors"]}
{"id": "C74", "title": "BIRCH keeps the entry limit", "statement": "After process() the amount of extracted CF-entries does not exceed entry_size_limit.", "quantifier": "every data set and parameters", "why_tests_cant": "needs data that stay apart after the threshold is increased", "anchors": ["pyclustering/cluster/birch.py:birch.__rebuild_tree"]}
{"id": "C75", "title": "BIRCH returns no empty cluster", "statement": "Every cluster returned by get_clusters() has at least one point.", "quantifier": "every data set and parameters", "why_tests_cant": "an entry may be nearest to none of the points it was made of", "anchors": ["pyclustering/cluster/birch.py:birch.process"]}
{"id": "C76", "title": "BANG clusters are connected unions of dense blocks", "statement": "Every cluster is a non-empty duplicate-free list; it holds exactly the points of its leaf blocks, which are above the density threshold and can be reached from each other through neighbouring blocks of the same cluster; every leaf block above both thresholds belongs to a cluster.", "quantifier": "every data set, number of levels, thresholds and iteration order of sets", "why_tests_cant": "depends on the order in which blocks are taken from a set", "anchors": ["pyclustering/cluster/bang.py:bang.process", "pyclustering/cluster/bang.py:bang_directory"]}
{"id": "C77", "title": "BANG dendrogram", "statement": "get_dendrogram() has one list per cluster with every block of the cluster once, sorted by decreasing density.", "quantifier": "every data set, number of levels and thresholds", "why_tests_cant": "each batch of neighbours is sorted separately", "anchors": ["pyclustering/cluster/bang.py:bang.get_dendrogram"]}
{"id": "C78", "title": "BANG: neighbouring dense blocks share a cluster", "statement": "Two leaf blocks above both thresholds that are neighbours belong to the same cluster.", "quantifier": "every data set, number of levels and thresholds", "why_tests_cant": "more than eight neighbours only exist from three dimensions on", "anchors": ["pyclustering/cluster/bang.py:bang.process"]}
{"id": "C79", "title": "BANG directory height", "statement": "get_height() of the directory equals the requested number of levels.", "quantifier": "every data set and number of levels", "why_tests_cant": "off-by-one between levels and stored levels", "anchors": ["pyclustering/cluster/bang.py:bang_directory.get_height"]}
{"id": "C80", "title": "Minkowski distance is a metric for every degree", "statement": "minkowski_distance(p, q, degree) is the degree-norm of p - q for every degree >= 1: non-negative, zero exactly on equal points, symmetric, with the triangle inequality; degree 2 is Euclidean and degree 1 is Manhattan.", "quantifier": "every pair/triple of points of every dimension and every degree", "why_tests_cant": "universally quantified inequalities; odd degrees keep signs", "anchors": ["pyclustering/utils/metric.py:minkowski_distance"]}
{"id": "C81", "title": "chi square distance is a metric", "statement": "chi_square_distance is non-negative, zero exactly on equal points, symmetric and satisfies the triangle inequality.", "quantifier": "every pair/triple of points of every dimension", "why_tests_cant": "universally quantified inequalities", "anchors": ["pyclustering/utils/metric.py:chi_square_distance"]}
{"id": "C82", "title": "Gower distance is a normalised metric on its data", "statement": "With the range taken from the data, gower_distance is a metric on the points of the data with values in [0, 1], also when a column is constant.", "quantifier": "every data set of every dimension", "why_tests_cant": "universally quantified inequalities", "anchors": ["pyclustering/utils/metric.py:gower_distance", "pyclustering/utils/metric.py:distance_metric"]}
{"id": "C83", "title": "numpy_usage does not change distances", "statement": "distance_metric gives the same value with and without numpy_usage for every metric type and all points of one length.", "quantifier": "every metric type, every pair of points of one dimension", "why_tests_cant": "two implementations of eight formulas", "anchors": ["pyclustering/utils/metric.py:distance_metric.enable_numpy_usage", "pyclustering/utils/metric.py:gower_distance_numpy"]}
{"id": "C84", "title": "distance matrices are symmetric with zeros exactly at equal points", "statement": "calculate_distance_matrix returns an n x n matrix of non-negative numbers that is symmetric and zero exactly where the two points are equal (all metrics but Gower and Minkowski of odd degree).", "quantifier": "every sample", "why_tests_cant": "universally quantified", "anchors": ["pyclustering/utils/__init__.py:calculate_distance_matrix"]}
{"id": "C85", "title": "every silhouette score is a number in [-1, 1]", "statement": "silhouette.process gives every point of every clustering without empty clusters a number between -1 and 1, also when a cluster has one point or there is only one cluster.", "quantifier": "every data set or distance matrix, every clustering", "why_tests_cant": "nan and out-of-range values appear only for degenerate clusterings and then spoil every average", "anchors": ["pyclustering/cluster/silhouette.py:silhouette.process"]}
{"id": "C86", "title": "silhouette_ksearch returns the best amount in [kmin, kmax]", "statement": "get_amount() of a processed silhouette_ksearch is an amount from kmin to kmax inclusive whose mean silhouette score is not exceeded by that of any other amount of the interval.", "quantifier": "every data set, every interval and every outcome of the clustering algorithm", "why_tests_cant": "the interval boundary matters only when the best amount is the boundary", "anchors": ["pyclustering/cluster/silhouette.py:silhouette_ksearch.process"]}
{"id": "C87", "title": "silhouette_ksearch amount agrees with its scores", "statement": "After every process() the amount and the score reported by silhouette_ksearch are those of the largest entry of get_scores().", "quantifier": "every sequence of process() calls and random outcomes", "why_tests_cant": "stale state shows only when a later run scores lower than an earlier one", "anchors": ["pyclustering/cluster/silhouette.py:silhouette_ksearch.process"]}
{"id": "C88", "title": "the elbow is measured to the documented segment", "statement": "The amount returned by elbow is the one whose (K, error) point is farthest from the segment between the kmin-point and the kmax-point.", "quantifier": "every data set, interval and initialisation", "why_tests_cant": "an end point shifted by one changes the answer only on particular error curves", "anchors": ["pyclustering/cluster/elbow.py:elbow.process"]}
{"id": "C89", "title": "fuzzy c-means centres stay inside the data", "statement": "After at least one iteration every coordinate of every centre returned by fcm lies between the smallest and the largest value of this coordinate in the data.", "quantifier": "every data set, initial centres, m > 1, tolerance and iteration limit", "why_tests_cant": "an averaging error that leaves the convex hull is invisible on symmetric samples", "anchors": ["pyclustering/cluster/fcm.py:fcm.process"]}
{"id": "C90", "title": "fuzzy c-means uses the documented formulas", "statement": "The memberships computed by fcm are 1 / sum_k (|x - c_j| / |x - c_k|)^(2/(m-1)), and the centres are the means of the points weighted by the memberships to the power m.", "quantifier": "every data set, centres and m > 1", "why_tests_cant": "a wrong exponent still converges to plausible clusters", "anchors": ["pyclustering/cluster/fcm.py:fcm.process"]}
{"id": "C91", "title": "fuzzy c-means clusters follow the memberships", "statement": "The clusters of fcm partition the data; each point is in the first cluster with its largest membership, and the centre of that cluster (before the last update of the centres) is a nearest one.", "quantifier": "every data set, initial centres, m > 1, at least one iteration", "why_tests_cant": "ties and coincidences between points and centres are rare in samples", "anchors": ["pyclustering/cluster/fcm.py:fcm.process"]}
{"id": "C92", "title": "CLARANS returns the best of its local results", "statement": "The medoids clarans returns have the least total distance (of every point to its nearest medoid) among the results of all numlocal local searches of the run.", "quantifier": "every data set, number of clusters, numlocal >= 1, maxneighbor and random draw, for runs that finish", "why_tests_cant": "the local results are not observable and the searches are random, a test sees one result only", "anchors": ["pyclustering/cluster/clarans.py:clarans.process"]}
{"id": "C93", "title": "CLARANS moves to a neighbour only if it is better", "statement": "The local search of clarans replaces a medoid by a candidate only if that lowers the total distance.", "quantifier": "every data set, state of the search and candidate", "why_tests_cant": "each accepted step is internal; a test compares sizes of final clusters on separated blobs", "anchors": ["pyclustering/cluster/clarans.py:clarans.process"]}
{"id": "C94", "title": "CLARANS finishes", "statement": "clarans.process() finishes after finitely many steps for every data set.", "quantifier": "every data set, number of clusters, numlocal, maxneighbor and random draw", "why_tests_cant": "a test cannot observe that no run terminates for some data", "anchors": ["pyclustering/cluster/clarans.py:clarans.process"]}
{"id": "C95", "title": "X-means and G-means finish", "statement": "process() of xmeans and of gmeans finishes for every data set, within a number of passes that depends only on the number of points and on kmax, whatever the random seeds and the outcomes of the splitting tests.", "quantifier": "every data set of points of one dimension, initial centres / k_init, kmax, repeat >= 1, seeds and splitting decisions", "why_tests_cant": "k-means may drop clusters and the structure step adds some, so non-termination cannot be excluded by samples", "anchors": ["pyclustering/cluster/xmeans.py:xmeans.process", "pyclustering/cluster/gmeans.py:gmeans.process"]}
{"id": "C96", "title": "X-means judges clusters of two points by the data", "statement": "Whether xmeans splits a cluster of two different points depends on how far they are apart relative to the data: a tight pair far from all other points is kept as one cluster.", "quantifier": "every data set and cluster of two points, both criteria", "why_tests_cant": "tests use large blobs, where the case that each child has one point does not occur", "anchors": ["pyclustering/cluster/xmeans.py:xmeans.__improve_structure", "pyclustering/cluster/xmeans.py:xmeans.__bayesian_information_criterion"]}
{"id": "C97", "title": "the splitting scores of X-means are the documented ones", "statement": "The BIC and MNDL scores that decide about splitting are defined (no root of a negative number) and equal the formulas in the documentation of splitting_type.", "quantifier": "every data set, clustering with more points than clusters, alpha and beta", "why_tests_cant": "scores are internal and logarithmic, a test sees only the final number of clusters", "anchors": ["pyclustering/cluster/xmeans.py:splitting_type", "pyclustering/cluster/xmeans.py:xmeans.__bayesian_information_criterion", "pyclustering/cluster/xmeans.py:xmeans.__minimum_noiseless_description_length"]}
{"id": "C98", "title": "genetic algorithm selects by fitness", "statement": "_select copies the chromosome in whose segment of [0, 1) the random number falls; the segments are consecutive, cover [0, 1), and the length of each is the share of exp(-select_coeff * fitness), so a better chromosome has a larger probability.", "quantifier": "every non-empty list of fitness values, coefficient and random number in [0, 1)", "why_tests_cant": "quantifies over all real fitness values and random numbers", "anchors": ["pyclustering/cluster/ga.py:genetic_algorithm._select", "pyclustering/cluster/ga_maths.py:ga_math.calc_probability_vector", "pyclustering/cluster/ga_maths.py:ga_math.get_uniform"]}
{"id": "C99", "title": "crossover and mutation of the genetic algorithm change what they should", "statement": "_crossover only exchanges labels of the same point between chromosomes (the multiset of labels of each point over the population is unchanged); _mutation changes at most the given share of the chromosomes and at most count_mutation_gens labels in each.", "quantifier": "every population, shuffle and mask", "why_tests_cant": "quantifies over all random permutations and masks", "anchors": ["pyclustering/cluster/ga.py:genetic_algorithm._crossover", "pyclustering/cluster/ga.py:genetic_algorithm._mutation"]}
{"id": "C100", "title": "EMA density is the multivariate normal density", "statement": "gaussian(data, mean, covariance) returns for every point the value of the normal density with the given mean and covariance.", "quantifier": "for every mean, every positive definite covariance and every point", "why_tests_cant": "The tests only check cluster sizes; the value of the density is never compared with the normal density.", "anchors": ["pyclustering/cluster/ema.py:29-61"]}
{"id": "C101", "title": "EMA centres and covariances are weighted moments of the data", "statement": "Every centre returned by ema lies inside the bounding box of the data and is a weighted mean of the points with positive weights; every covariance is the weighted covariance about that centre, so it is symmetric and positive semi-definite.", "quantifier": "for every data set, every initial means and covariances, every tolerance and number of iterations, for positive densities", "why_tests_cant": "Tests check cluster lengths on a few data sets; they cannot check moments over all inputs.", "anchors": ["pyclustering/cluster/ema.py:518-544", "pyclustering/cluster/ema.py:668-713"]}
{"id": "C102", "title": "EMA drops an impossible cluster consistently", "statement": "When the densities of a cluster are zero at every point (the exponential underflows) the cluster is removed and every other cluster keeps its points, centre and probabilities.", "quantifier": "for every data set and initial means and covariances", "why_tests_cant": "The situation needs a centre far from all points; random initialisation in the tests picks points of the data.", "anchors": ["pyclustering/cluster/ema.py:668-686", "pyclustering/cluster/ema.py:619-629"]}
{"id": "C103", "title": "CF-tree inserts towards the nearest leaf", "statement": "insert(entry) stores the entry in the leaf that is reached by going to the child nearest to the entry at every node, the one find_nearest_leaf(entry) returns; an entry within the threshold of the nearest leaf entry is absorbed by it.", "quantifier": "for every tree built by insertions and every entry", "why_tests_cant": "Tests count entries and nodes; which leaf received an entry is not observed.", "anchors": ["pyclustering/container/cftree.py:964-1014", "pyclustering/container/cftree.py:926-961"]}
{"id": "C104", "title": "CF-tree queries: nearest leaf and levels", "statement": "find_nearest_leaf(entry) returns a leaf reached by going to a child nearest to the entry at every node; get_level_nodes(level) returns exactly the nodes that many steps below the root, which together hold every leaf entry once, and nothing for a level below the leaves.", "quantifier": "for every tree built by insertions, every entry and every level", "why_tests_cant": "Trees of all shapes; tests look at node counts of a few trees.", "anchors": ["pyclustering/container/cftree.py:880-902", "pyclustering/container/cftree.py:803-839"]}
{"id": "C105", "title": "SOM training captures every object exactly once", "statement": "After train(data, epochs, autostop) with at least one epoch the capture_objects of the neurons split the indexes of the data: every index is captured by exactly one neuron, indexes of a neuron are ascending, awards[i] is the number of objects neuron i has captured, get_winner_number() is the number of neurons that captured something; the returned number of epochs is between 1 and epochs and equals epochs without autostop. Training again starts afresh: the result does not depend on what the network learnt before.", "quantifier": "for every map size, connection type, initialisation, data set, number of epochs >= 1, values of rate, radius and influence, with and without autostop, from every earlier state", "why_tests_cant": "Statistics are cleared in different places with and without autostop; tests sum the awards for a few maps.", "anchors": ["pyclustering/nnet/som.py:580-640", "pyclustering/nnet/som.py:685-701"]}
{"id": "C106", "title": "SOM weights stay inside the box of the data", "statement": "With the uniform grid or random surface initialisation every weight vector has the dimension of the data and every coordinate stays between the smallest and largest coordinate of the data in that dimension during the whole training.", "quantifier": "for every data set of one dimension, map, connection type, number of epochs, and every rate and influence between 0 and 1", "why_tests_cant": "Every update must be a convex combination; tests never check the weights.", "anchors": ["pyclustering/nnet/som.py:383-440", "pyclustering/nnet/som.py:543-578"]}
{"id": "C107", "title": "SOM simulate and SOM-SC predict return a nearest neuron", "statement": "simulate(pattern) returns the index of a neuron whose weights have the least Euclidean distance to the pattern; predict(points) of SOM-SC returns one such index per point, in order.", "quantifier": "for every network state with at least one neuron and every list of points", "why_tests_cant": "All weights and points.", "anchors": ["pyclustering/nnet/som.py:522-541", "pyclustering/nnet/som.py:642-658", "pyclustering/cluster/somsc.py:102-118"]}
{"id": "C108", "title": "SOM-SC prediction agrees with the clusters", "statement": "For every training point predict() returns the cluster in which get_clusters() lists the point.", "quantifier": "for every data set, amount of clusters and number of epochs", "why_tests_cant": "Needs a point that changes its nearest neuron after it was captured.", "anchors": ["pyclustering/nnet/som.py:619-629", "pyclustering/cluster/somsc.py:83-129"]}
{"id": "C109", "title": "SOM distance matrix is the mean squared distance to the neighbours", "statement": "get_distance_matrix() has one row per row of neurons, and entry [i][j] is the mean of the squared Euclidean distances between the weights of neuron (i, j) and the weights of the neurons adjacent to it in the grid (of eight neighbours when the connection type is a functional neighbourhood).", "quantifier": "for every map of at least two neurons, every connection type and all weights", "why_tests_cant": "All shapes of the grid, borders included; tests only check the size of the matrix.", "anchors": ["pyclustering/nnet/som.py:717-749"]}
{"id": "C110", "title": "SOM density matrix counts the covered points", "statement": "get_density_matrix(divider) entry [i][j] is the number of data points that differ from the weights of neuron (i, j) in every dimension by at most the extent of all weights in that dimension divided by the divider.", "quantifier": "for every map, weights, data and divider other than zero", "why_tests_cant": "All weights and data; tests only check the size of the matrix.", "anchors": ["pyclustering/nnet/som.py:767-816"]}
{"id": "C111", "title": "Maps of every size can be inspected", "statement": "After training a map of any size its distance matrix can be computed.", "quantifier": "for every map size", "why_tests_cant": "Tests never look at the map of one neuron.", "anchors": ["pyclustering/nnet/som.py:743-747"]}
{"id": "C112", "title": "The uniform grid covers the surface of the data", "statement": "With the uniform grid initialisation the weights form an equidistant grid whose borders are the borders of the data in the first two dimensions, for every shape of the map and dimension of the data.", "quantifier": "for every map and data set", "why_tests_cant": "Special cases for one row or one column; SOM-SC always uses one row.", "anchors": ["pyclustering/nnet/som.py:383-425", "pyclustering/cluster/somsc.py:96-97"]}
{"id": "C113", "title": "SOM-SC returns a partition into the requested number of clusters", "statement": "With at least one epoch process() gives exactly amount_clusters clusters which split the indexes of the data; empty data, a non-positive amount of clusters and a negative number of epochs are rejected with ValueError.", "quantifier": "for every data set, amount >= 1 and epochs >= 1", "why_tests_cant": "Tests compare sizes for a few samples.", "anchors": ["pyclustering/cluster/somsc.py:54-159"]}
{"id": "C114", "title": "SOM-SC clusters are not empty and the documented edge cases hold", "statement": "get_clusters() returns non-empty clusters; zero epochs, which the constructor accepts, still give clusters; predict() before process() returns an empty collection as documented.", "quantifier": "for every data set with more points than clusters", "why_tests_cant": "Needs data for which a neuron is starved, or unusual call sequences.", "anchors": ["pyclustering/cluster/somsc.py:83-159"]}
{"id": "C115", "title": "The default SOM radius depends only on the size of the map", "statement": "When the parameters leave the initial radius open, the radius is 2.0 if rows + columns exceed four, 1.5 for the two by two map and 1.0 for smaller ones - for every map built with these parameters.", "quantifier": "for every sequence of maps built with one parameter object", "why_tests_cant": "The constructor writes the radius into the parameter object of the caller; tests use a new object per map.", "anchors": ["pyclustering/nnet/som.py:258-261", "pyclustering/nnet/som.py:325-344"]}
{"id": "C116", "title": "Distances between clusters are what their names say", "statement": "average_inter_cluster_distance and average_intra_cluster_distance are (the root of) the mean squared distance over all pairs of points of the two clusters and of their union; variance_increase_distance is the growth of the sum of squared deviations, n*m/(n+m) times the squared distance of the two means; clusters given by points or by indexes agree, and so does a clustering feature computed with linear_sum and square_sum. Empty clusters are rejected.", "quantifier": "for all non-empty clusters of points of one dimension", "why_tests_cant": "An algebraic identity over all data; tests check a few pairs of clusters.", "anchors": ["pyclustering/utils/__init__.py:300-448", "pyclustering/utils/__init__.py:1148-1195"]}
{"id": "C117", "title": "Average neighbour distance", "statement": "average_neighbor_distance(points, k) is the mean over all points of the distances to their k nearest other points; more neighbours than other points is a NameError.", "quantifier": "for all points and 1 <= k < len(points)", "why_tests_cant": "Sorting and skipping the zero self distance in the presence of ties and duplicates.", "anchors": ["pyclustering/utils/__init__.py:199-229"]}
{"id": "C118", "title": "The average neighbour distance grows with the number of neighbours", "statement": "Asking for more neighbours never gives a smaller average distance.", "quantifier": "for all points and all numbers of neighbours", "why_tests_cant": "Comparison of two calls.", "anchors": ["pyclustering/utils/__init__.py:199-229", "pyclustering/cluster/hsyncnet.py:151-164"]}
{"id": "C119", "title": "hsyncnet returns at most the requested number of clusters", "statement": "process() always ends; connection radii never shrink from level to level, at each level the connections are exactly the pairs within the radius, all earlier levels had more clusters than asked for, and the final clusters, at most number_clusters of them, partition the data and are what the analyser returns for tolerance 0.05.", "quantifier": "for every data set and number of clusters, any behaviour of the simulation", "why_tests_cant": "Relates all levels of a run whose phases are random.", "anchors": ["pyclustering/cluster/hsyncnet.py:54-184"]}
{"id": "C120", "title": "syncnet connects exactly the points within the radius", "statement": "After construction two oscillators are connected iff their points are at different positions of the data and at most radius apart, in matrix and in list representation, with and without weights; no neighbour is listed twice, without radius there is no connection, and empty data is a ValueError.", "quantifier": "for every data set, radius and representation", "why_tests_cant": "All pairs of points of any data set; ties at the radius.", "anchors": ["pyclustering/cluster/syncnet.py:185-285"]}
{"id": "C121", "title": "syncnet connection weights are scaled distances", "statement": "With enabled weights the weight of every pair lies in [0, 1], symmetric and ordered like the distance; all connected pairs are coupled with a positive weight.", "quantifier": "for every data set with at least two points", "why_tests_cant": "Degenerate data: all distances equal; the closest pair.", "anchors": ["pyclustering/cluster/syncnet.py:243-285"]}
{"id": "C122", "title": "Oscillators of a connected group stay together", "statement": "If the phases of a group that no connection leaves lie within an arc shorter than a half circle, they stay within this arc in all later states; a synchronised group keeps its phase for ever; recorded phases lie in [0, 2 pi].", "quantifier": "for every network, weight in [0, 1], connection weights in [0, 1], zero frequencies, and every number of steps of the FAST solver", "why_tests_cant": "Unbounded executions of a nonlinear dynamical system.", "anchors": ["pyclustering/nnet/sync.py:820-838", "pyclustering/nnet/sync.py:976-1023", "pyclustering/cluster/syncnet.py:308-335"]}
{"id": "C123", "title": "simulate_dynamic records all states until the order is reached", "statement": "The recorded dynamic starts with the initial state, each state follows from the previous one by one step, time advances by the step, no earlier state had the requested order, and the run ends when the order is reached or stops changing; without collecting only the last state is returned. A network already ordered is not simulated.", "quantifier": "for every network and parameters of simulate_dynamic", "why_tests_cant": "Executions of any length.", "anchors": ["pyclustering/nnet/sync.py:861-925"]}
{"id": "C124", "title": "syncsom returns a partition of the objects", "statement": "After process() get_clusters(eps) gives non-empty clusters in which every object occurs exactly once and objects captured by one neuron stay together; get_som_clusters() lists each neuron that captured something exactly once; two oscillators are connected iff their weights coincide or two of their objects are within the radius.", "quantifier": "for every data set, map size, radius, training parameters and behaviour of the simulation", "why_tests_cant": "Two layers with random phases; all data sets.", "anchors": ["pyclustering/cluster/syncsom.py:72-220"]}
{"id": "C125", "title": "syncsom clusters of objects and of neurons agree", "statement": "get_clusters() consists of the objects captured by the neurons of get_som_clusters(), cluster by cluster.", "quantifier": "for every processed network", "why_tests_cant": "The two methods use different default tolerances, which matters for phases that differ by 0.01 to 0.1.", "anchors": ["pyclustering/cluster/syncsom.py:169-220", "pyclustering/cluster/syncnet.py:59-71"]}
{"id": "C126", "title": "Colour maps describe the ensembles", "statement": "allocate_map_coloring() of both colouring networks gives every vertex the number of its ensemble: equal colours iff same ensemble, all colours below the number of ensembles are used; vertices with equal output get equal colours.", "quantifier": "for every output dynamic and tolerance", "why_tests_cant": "All dynamics; tests count colours for a few graphs.", "anchors": ["pyclustering/gcolor/sync.py:36-68", "pyclustering/gcolor/hysteresis.py:33-76", "pyclustering/nnet/hysteresis.py:74-118"]}
{"id": "C127", "title": "syncgcolor couples adjacent vertices negatively", "statement": "In the network of syncgcolor two oscillators are connected iff one of the two entries of the graph matrix is positive.", "quantifier": "for every square graph matrix", "why_tests_cant": "All graphs, including directed and weighted matrices.", "anchors": ["pyclustering/gcolor/sync.py:77-112"]}
{"id": "C128", "title": "hysteresisgcolor can be built for every graph", "statement": "The constructor accepts every graph; the weights of the neighbours of a vertex sum up to -alpha, the own weight is -alpha - eps, the initial states are pairwise different and lie in (-1, 1].", "quantifier": "for every square graph matrix, alpha and eps", "why_tests_cant": "All graphs; tests have no graph with an isolated vertex.", "anchors": ["pyclustering/gcolor/hysteresis.py:114-143"]}
{"id": "C129", "title": "Static simulation makes the requested number of steps", "statement": "simulate_static(steps, time) makes exactly steps steps at equidistant times up to time; it returns the initial state and all states when collect_dynamic is set and the last state only otherwise, for phase oscillators and for hysteresis networks.", "quantifier": "for every network, steps >= 1 and time > 0", "why_tests_cant": "All numbers of steps; the branch without collecting.", "anchors": ["pyclustering/nnet/sync.py:928-973", "pyclustering/nnet/hysteresis.py:286-332"]}
{"id": "C130", "title": "DBSCAN on points and on their distance matrix agree", "statement": "Clustering points and clustering the matrix of their euclidean distances (data_type='distance_matrix') give the same noise and, cluster by cluster, the same members.", "quantifier": "for every non-empty data set, radius >= 0 and number of neighbours", "why_tests_cant": "Two different search paths (kd-tree, row scan) have to agree for all inputs; tests compare cluster sizes on a few samples.", "anchors": ["pyclustering/cluster/dbscan.py:120-155", "pyclustering/cluster/dbscan.py:213-288"]}
{"id": "C131", "title": "A larger radius or fewer required neighbours never breaks up a DBSCAN cluster", "statement": "Raising eps or lowering the number of neighbours never turns a clustered point into noise and never separates two core points that were in one cluster.", "quantifier": "for every data set and every two parameter pairs", "why_tests_cant": "Relates two runs, for all data sets and parameters.", "anchors": ["pyclustering/cluster/dbscan.py:120-155", "pyclustering/cluster/dbscan.py:213-288"]}
{"id": "C132", "title": "DBSCAN core structure does not depend on the order of points", "statement": "Reordering the input points changes neither the number of clusters, nor which points are noise, nor which core points are grouped together.", "quantifier": "for every data set and permutation", "why_tests_cant": "All permutations of all data sets.", "anchors": ["pyclustering/cluster/dbscan.py:120-155", "pyclustering/cluster/dbscan.py:213-288"]}
{"id": "C133", "title": "DBSCAN grouping does not depend on the order of points", "statement": "Reordering the input points does not change which points share a cluster.", "quantifier": "for every data set and permutation", "why_tests_cant": "All permutations; only data with border points between clusters show the difference.", "anchors": ["pyclustering/cluster/dbscan.py:120-155", "pyclustering/cluster/dbscan.py:213-288"]}
{"id": "C134", "title": "One simulation step is the Kuramoto equation", "statement": "A FAST step of sync_network or syncnet sets every phase, up to full turns and normalised to [0, 2 pi], to the old phase plus the own frequency plus the weighted mean of the sines of the phase differences to the connected oscillators; the step always ends.", "quantifier": "for every network, connection structure, weights, frequencies and phases", "why_tests_cant": "Equality of the computed and the specified phase for all real phases; tests only look at final ensembles.", "anchors": ["pyclustering/nnet/sync.py:820-838", "pyclustering/nnet/sync.py:976-1023", "pyclustering/cluster/syncnet.py:308-335"]}
{"id": "C135", "title": "syncpr.train stores the samples as Hebb couplings", "statement": "Training a new syncpr network gives symmetric couplings without self-coupling: two oscillators are coupled by the correlation of their features over the samples divided by the size of the network; neither the order nor the sign of the samples matters; samples of a wrong length or with other features than 1 and -1 raise NameError.", "quantifier": "for every network size and every list of samples", "why_tests_cant": "All sample sets; the couplings are not visible in the tests, which look at the recalled ensembles.", "anchors": ["pyclustering/nnet/syncpr.py:234", "pyclustering/nnet/syncpr.py:262-291", "pyclustering/nnet/syncpr.py:498-511"]}
{"id": "C136", "title": "syncpr can be trained incrementally", "statement": "Calling train() with further samples gives the same couplings as one call with all samples.", "quantifier": "for every two lists of samples", "why_tests_cant": "Needs the relation of two training histories.", "anchors": ["pyclustering/nnet/syncpr.py:262-291"]}
{"id": "C137", "title": "The memory order measures the agreement with a pattern", "statement": "memory_order() lies between 0 and 1; it is 1 exactly if oscillators with equal features are in phase and oscillators with different features in opposite phase; it is the same for the inverted pattern and does not change when all phases are shifted; right after loading a pattern it is at least sqrt(1/2).", "quantifier": "for every pattern and all phases", "why_tests_cant": "Equality case over all real phases.", "anchors": ["pyclustering/nnet/syncpr.py:420-464"]}
{"id": "C138", "title": "Recalled patterns are stationary and the mean phase is kept", "statement": "A state with phases 0 and pi is not changed by the simulation whatever was learned; in a trained network the changes of all phases in a step sum up to zero.", "quantifier": "for every size, training set, strengths and phases", "why_tests_cant": "Statement about the vector field for all states.", "anchors": ["pyclustering/nnet/syncpr.py:467-495", "pyclustering/nnet/sync.py:976-1003"]}
{"id": "C139", "title": "A returned syncpr dynamic does not change any more", "statement": "The dynamic returned by simulate() holds the initial state and the state after every step; later simulations of the same network do not change it.", "quantifier": "for every two patterns and numbers of steps", "why_tests_cant": "Only visible when an old result is read after a second simulation.", "anchors": ["pyclustering/nnet/syncpr.py:346-350", "pyclustering/nnet/syncpr.py:395-426", "pyclustering/nnet/sync.py:928-973"]}
{"id": "C140", "title": "One adaptation of a som moves exactly the neurons it should", "statement": "Presenting a point to a som moves the nearest neuron towards the point by the learning rate, every neuron connected to it whose squared grid distance is below the radius by the learning rate times the influence of that distance, and no other neuron; with func_neighbor all neurons within the radius move. An epoch presents all points in order.", "quantifier": "for every grid, type of connection, influence function, radius, rate, weights and data", "why_tests_cant": "Exact position of every weight for all parameters; tests look only at captured objects.", "anchors": ["pyclustering/nnet/som.py:522-578", "pyclustering/nnet/som.py:619-629"]}
{"id": "C141", "title": "som.train with autostop ends at the first settled epoch", "statement": "With autostop train() returns the number of the first epoch from the second on in which no coordinate of any weight changed by the adaptation threshold or more compared with the previous epoch, or the requested number of epochs if there is none; the weights are those of that epoch.", "quantifier": "for every grid, initialisation, data and positive threshold", "why_tests_cant": "Relates the returned epoch to all intermediate weights, which are not visible to a test.", "anchors": ["pyclustering/nnet/som.py:580-640", "pyclustering/nnet/som.py:660-683"]}
{"id": "C142", "title": "One step of a pulse coupled network follows its equations", "statement": "Without fast linking a step of pcnn_network adds to the decayed feeding of every oscillator its stimulus and the weighted number of its firing neighbours, to the decayed linking the weighted number of firing neighbours, lets exactly those oscillators fire whose activity exceeds their threshold and raises the decayed thresholds of those that fired; the step always ends.", "quantifier": "for every structure, parameters, stimulus and state", "why_tests_cant": "Exact relation of four state vectors which the tests cannot see; all parameters.", "anchors": ["pyclustering/nnet/pcnn.py:434-520"]}
{"id": "C143", "title": "Fast linking settles", "statement": "With FAST_LINKING a step ends with outputs that are consistent with each other: an oscillator fires exactly if its activity, computed with the number of neighbours that fire in this very step, exceeds its threshold; simulate() always returns.", "quantifier": "for every structure, parameters, stimulus and state", "why_tests_cant": "Termination for all states of the network; no test meets the states in which the loop does not end.", "anchors": ["pyclustering/nnet/pcnn.py:478-520", "pyclustering/nnet/pcnn.py:405-431"]}
{"id": "C144", "title": "The output dynamic of a pulse coupled network is complete and can be continued", "statement": "simulate(steps) returns max(1, steps) lists of outputs 0 and 1, beginning with the current outputs, each following from the one before; simulating twice gives the same as one longer simulation; a stimulus of a wrong length raises NameError.", "quantifier": "for every network, state, stimulus and numbers of steps", "why_tests_cant": "Relates the results of different calls for all numbers of steps.", "anchors": ["pyclustering/nnet/pcnn.py:405-431"]}
{"id": "C145", "title": "A pulse coupled network without stimulus stays silent", "statement": "A new pcnn_network that is given the stimulus zero never fires, whatever its random thresholds are, with and without fast linking.", "quantifier": "for every structure, thresholds, parameters with AT >= 0 and number of steps", "why_tests_cant": "All random thresholds and all numbers of steps.", "anchors": ["pyclustering/nnet/pcnn.py:376-380", "pyclustering/nnet/pcnn.py:405-520"]}
{"id": "C146", "title": "The output of a chaotic network is the weighted mean of the logistic maps of the others", "statement": "With ALL_TO_ALL connections simulate() returns max(1, steps) outputs and times 0, 1, ...; every next output of a neuron is the mean of 1 - 2y^2 over the outputs y of the other neurons, weighted with exp(-d^2/(2a)), where d is the distance of the points and a the average neighbour distance; with both kinds of connections outputs that start between -1 and 1 stay there.", "quantifier": "for every stimulus, number of neighbours, random initial outputs and number of steps", "why_tests_cant": "Chaotic dynamics: a test can only check the shape of the result.", "anchors": ["pyclustering/nnet/cnn.py:294-354", "pyclustering/nnet/cnn.py:357-434"]}
{"id": "C147", "title": "A synchronous chaotic network follows the logistic map", "statement": "If all neurons have the same output y then all have the output 1 - 2y^2 in the next step, for both kinds of connections.", "quantifier": "for every stimulus and output", "why_tests_cant": "Holds for all outputs or not at all; random initial outputs are never synchronous in a test.", "anchors": ["pyclustering/nnet/cnn.py:340-354", "pyclustering/nnet/cnn.py:372-419"]}
{"id": "C148", "title": "Ensembles of a chaotic network are the classes of equal activity", "statement": "allocate_sync_ensembles(steps) of cnn_dynamic partitions the neurons such that two neurons share an ensemble exactly if they are on and off together in the last steps states; the observation matrix has 1 exactly where the output is positive.", "quantifier": "for every output dynamic and every number of steps", "why_tests_cant": "All dynamics, including those longer and shorter than the steps.", "anchors": ["pyclustering/nnet/cnn.py:75-157"]}
{"id": "C149", "title": "simulate() of a chaotic network works for every stimulus", "statement": "simulate() returns for every stimulus with more points than amount_neighbors, and raises NameError for fewer.", "quantifier": "for every stimulus, number of neighbours and number of steps", "why_tests_cant": "The failing stimuli (equal points, isolated points whose weights underflow) are not in the tests.", "anchors": ["pyclustering/nnet/cnn.py:294-354", "pyclustering/nnet/cnn.py:422-434"]}
{"id": "C150", "title": "A simulation of phase oscillators covers the requested time", "statement": "Oscillators without connections rotate freely: simulate_static(steps, time, solution) of sync_network records at every time t the initial phase plus frequency * t up to whole turns, for each of the solvers FAST, RK4 and RKF45.", "quantifier": "for every network without connections, frequencies, initial phases, number of steps, time and solver", "why_tests_cant": "Tests look at the synchronisation at the end, not at the phase at a given time, and oscillators in the tests have the frequency 0.", "anchors": ["pyclustering/nnet/sync.py:928-973", "pyclustering/nnet/sync.py:976-1003"]}
{"id": "C151", "title": "LEGION oscillators follow the published equations", "statement": "In every step of legion_network the states of an oscillator are the solution at the end of the step of x' = 3x - x^3 + 2 - y + I H(p + exp(-alpha t) - teta) + S + noise, y' = eps (gamma (1 + tanh(x/beta)) - y), p' = lambda (1 - p) H(T * active neighbours - teta_p) - mu p (lateral potentials enabled); the coupling S is the dynamic weighted activity of the neighbours minus the weighted global inhibitor, the weights Wt being shared equally by the stimulated neighbours.", "quantifier": "for every network, state, stimulus, parameters and solver", "why_tests_cant": "A test sees only whether segments come out; a wrong term often leaves that unchanged.", "anchors": ["pyclustering/nnet/legion.py:308-332", "pyclustering/nnet/legion.py:398-445", "pyclustering/nnet/legion.py:501-532"]}
{"id": "C152", "title": "The global inhibitor and the potentials of a LEGION network stay between 0 and 1", "statement": "Along every simulation the global inhibitor and the potentials of the oscillators stay in [0, 1]; the inhibitor relaxes towards 1 while an oscillator is above the threshold and towards 0 otherwise.", "quantifier": "for every network, stimulus, parameters with non-negative rates and number of steps", "why_tests_cant": "An invariant over all steps and all states.", "anchors": ["pyclustering/nnet/legion.py:435-468", "pyclustering/nnet/legion.py:501-532"]}
{"id": "C153", "title": "simulate() of a LEGION network returns the dynamic with its times", "statement": "simulate(steps, time) returns the outputs and the inhibitor after every step; the property time holds the times of the simulation; with collect_dynamic=False the result holds the last values only and is usable as a legion_dynamic.", "quantifier": "for every network, stimulus, number of steps and time", "why_tests_cant": "The tests do not compare the property time with the requested time and use the result without dynamic only in parts.", "anchors": ["pyclustering/nnet/legion.py:97-175", "pyclustering/nnet/legion.py:335-395"]}
{"id": "C154", "title": "Only the signs of a LEGION stimulus matter", "statement": "Two stimuli that are positive at the same oscillators give the same network and the same simulation; a stimulus of another length than the number of oscillators and an unsupported solver are refused with NameError.", "quantifier": "for every network and pair of stimuli", "why_tests_cant": "Relates two runs for all stimuli.", "anchors": ["pyclustering/nnet/legion.py:290-305", "pyclustering/nnet/legion.py:351-366"]}
{"id": "C155", "title": "The equations of a Hodgkin-Huxley neuron are the published ones and defined for every potential", "statement": "hhn_network.hnn_state returns for every state of a peripheral or central neuron the derivatives of the Hodgkin-Huxley equations: the membrane is driven by the sodium, potassium and leak currents, the stimulus and the synapses, and each gate relaxes with a positive rate, depending on the membrane potential only, towards a value strictly between 0 and 1.", "quantifier": "for every network, neuron, state and time", "why_tests_cant": "The singular potentials are two isolated real numbers; gates between 0 and 1 are a property of the whole vector field.", "anchors": ["pyclustering/nnet/hhn.py:442-525"]}
{"id": "C156", "title": "Central elements inhibit the peripheral neurons, which excite the first central element", "statement": "Pulses that the central elements have generated never raise the derivative of the membrane potential of a peripheral neuron above the inhibitory reversal potential, pulses of the peripheral neurons never lower that of the first central element below the excitatory reversal potential; the second central element does not depend on pulses; this holds in every simulation of a network.", "quantifier": "for every network, pulse history, state and time", "why_tests_cant": "Tests never compare a network with and without its pulses, nor simulate the same network twice.", "anchors": ["pyclustering/nnet/hhn.py:473-509", "pyclustering/nnet/hhn.py:539-551", "pyclustering/nnet/hhn.py:307-324"]}
{"id": "C157", "title": "Pulses are recorded at the upward zero crossings of the membrane potential", "statement": "After the first simulation of a network the recorded pulse times of every peripheral neuron and central element are exactly the times of the returned dynamic at which its potential is not negative after being negative (or at the first step).", "quantifier": "for every network, stimulus, noise, solver behaviour, number of steps and time", "why_tests_cant": "The pulse times are internal and drive the synapses; a missed or repeated pulse only shifts the dynamic.", "anchors": ["pyclustering/nnet/hhn.py:397-403", "pyclustering/nnet/hhn.py:429-440"]}
{"id": "C158", "title": "The connection from the second central element is switched by the activity of the neuron", "statement": "The connection from the second central element to a peripheral neuron is off until the potential of the neuron has been above the threshold for 1/eps units of time in total; it is switched on with the weight w3 in the step in which this time is reached, stays on for deltah units of time, and is then switched off with the counter reset.", "quantifier": "for every network, stimulus, noise, solver behaviour and number of steps", "why_tests_cant": "Activation takes hundreds of steps; the tests do not look at the link weights.", "anchors": ["pyclustering/nnet/hhn.py:405-415"]}
{"id": "C159", "title": "simulate() of a Hodgkin-Huxley network returns the membrane dynamic from the current state on", "statement": "simulate(steps, time) returns steps + 1 times 0, time/steps, ..., time and for each time the potentials of all peripheral neurons and of both central elements, beginning with the current potentials and ending with those of the network afterwards; solvers other than RK4 raise NameError.", "quantifier": "for every network, number of steps and time", "why_tests_cant": "Only the first simulation of a network is tested.", "anchors": ["pyclustering/nnet/hhn.py:248-324"]}
{"id": "C160", "title": "The states of a hysteresis network follow their relaxation equation over the requested time", "statement": "In hysteresis_network.simulate(steps, time) every state follows x' = -x + I, where I is the neuron's own weighted output plus the weighted outputs of the neurons connected with it; the state recorded at time t is the solution at time t.", "quantifier": "for every network, weights, states, outputs, number of steps and time", "why_tests_cant": "Tests look at the ensembles at the end only, not at the value at a given time.", "anchors": ["pyclustering/nnet/hysteresis.py:240-267", "pyclustering/nnet/hysteresis.py:286-332", "pyclustering/nnet/hysteresis.py:335-355"]}
{"id": "C161", "title": "The outputs of a hysteresis network are binary and switch at +1 and -1", "statement": "Outputs that are 1 or -1 stay so; in every step the output of a neuron is kept unless its state leaves [-1, 1] in this step, and then it is the sign of the last state outside.", "quantifier": "for every network, weights, states and behaviour of the solver", "why_tests_cant": "Depends on every intermediate evaluation of the solver.", "anchors": ["pyclustering/nnet/hysteresis.py:264-265", "pyclustering/nnet/hysteresis.py:354-354"]}
{"id": "C162", "title": "The states of a hysteresis network stay bounded", "statement": "A state that is not larger in absolute value than the sum of the absolute weights of the neuron stays so for the whole simulation.", "quantifier": "for every network, weights, number of steps and time", "why_tests_cant": "An invariant over all steps, weights and states.", "anchors": ["pyclustering/nnet/hysteresis.py:240-267", "pyclustering/nnet/hysteresis.py:335-355"]}
{"id": "C163", "title": "A graph file of edges gives exactly the written edges", "statement": "If the vertices in the edge lines are exactly 1..n (and as many places are given as vertices, if any), read_graph returns an n by n matrix with 1 exactly where an edge is written in either direction and 0 elsewhere, with the comments and the places of the file; an edge file with any other set of vertices is never accepted.", "quantifier": "for every file with well-formed lines: any order of lines, repeated edges, loops, comments, blank lines", "why_tests_cant": "Tests read a handful of shipped files; the claim is about every file and numbering.", "anchors": ["pyclustering/utils/graph.py:118-208", "pyclustering/utils/graph.py:46-71", "pyclustering/utils/graph.py:91-99"]}
{"id": "C164", "title": "A graph file may describe isolated vertices", "statement": "A graph file whose edges join some of the vertices 1..n is read as a graph of n vertices.", "quantifier": "for every set of edges between 1..n", "why_tests_cant": "Shipped graphs are connected, so no test has a vertex without edges.", "anchors": ["pyclustering/utils/graph.py:162-177", "pyclustering/utils/graph.py:187-192"]}
{"id": "C165", "title": "A graph file of rows is read as written and descriptions are not mixed", "statement": "A file of matrix lines or of vector lines gives exactly these rows in their order with the matching type, comments and places; an accepted file has well-formed lines only, describes the graph by lines of one kind and gives no places or one for each vertex.", "quantifier": "for every file", "why_tests_cant": "Rejection of every malformed combination cannot be enumerated.", "anchors": ["pyclustering/utils/graph.py:118-208"]}
{"id": "C166", "title": "The type of a graph is recognised when it is not given", "statement": "A graph constructed from a square 0/1 matrix without a type is of matrix type.", "quantifier": "for every matrix of zeros and ones", "why_tests_cant": "Tests construct graphs with an explicit type only.", "anchors": ["pyclustering/utils/graph.py:60-71"]}
{"id": "C167", "title": "Answers of samples are a partition of the points with clusters by label", "statement": "If the answers can be read, every line is in exactly one cluster or in the noise, no cluster is empty, the noise is exactly the lines marked as noise, and later calls return the same; if the labels occur in order (each label after all smaller ones have occurred) the file is always read and cluster k is exactly the lines labelled k in increasing order.", "quantifier": "for every answer file", "why_tests_cant": "Tests compare with the shipped answers only, that is with the reader itself.", "anchors": ["pyclustering/samples/__init__.py:31-64", "pyclustering/samples/__init__.py:67-102"]}
{"id": "C168", "title": "Answers are grouped by label whatever the order, and a broken file is always refused", "statement": "Two points are in the same cluster exactly when they have the same label; a reader that refused a file does not return clusters of it later.", "quantifier": "for every answer file with non-negative labels, every sequence of calls", "why_tests_cant": "Shipped files have their labels in order and are well formed.", "anchors": ["pyclustering/samples/__init__.py:67-86", "pyclustering/samples/__init__.py:89-102"]}
{"id": "C169", "title": "The borders of a picture are the smallest box around its dark pixels", "statement": "For a picture with a dark pixel (grey value below 128) the returned box lies within the picture, contains every dark pixel and touches a dark pixel on each of its four sides.", "quantifier": "for every size and all pixels", "why_tests_cant": "The claim is about all pictures; tests use a few digits.", "anchors": ["pyclustering/utils/__init__.py:157-196"]}
{"id": "C170", "title": "Borders of a blank picture and grey values", "statement": "The borders of every picture enclose a part of the picture; the conversion to grey has one value per pixel, between the smallest and the largest primary, and keeps grey pixels.", "quantifier": "for every picture", "why_tests_cant": "Tests have no blank picture and compare grey values loosely.", "anchors": ["pyclustering/utils/__init__.py:103-129", "pyclustering/utils/__init__.py:157-196"]}
{"id": "C171", "title": "Colour segments of an image", "statement": "After processing a non-empty image, every pixel has exactly one colour of the first layer; allocate_colors(eps, noise_size) returns exactly the colours with more than noise_size pixels, no pixel twice, and for noise_size 0 every pixel.", "quantifier": "for every image, every dynamic of the network, tolerance and noise size", "why_tests_cant": "The phases of the network are random; tests check the number of segments of a few pictures.", "anchors": ["pyclustering/nnet/syncsegm.py:96-109", "pyclustering/nnet/syncsegm.py:190-230", "pyclustering/nnet/sync.py:174-235"]}
{"id": "C172", "title": "Coordinates of the pixels of a segment", "statement": "The second layer gets for the pixels of a colour segment pairwise different points (x, y) inside the image, in the order of the segment, with pixel = y * width + x.", "quantifier": "for every image size and segment", "why_tests_cant": "Only visible inside; an error shifts objects without a failure.", "anchors": ["pyclustering/nnet/syncsegm.py:284-301"]}
{"id": "C173", "title": "Objects of an image refine its colours", "statement": "allocate_objects returns disjoint sets of pixels, each within one colour segment, and together with noise size 0 all pixels; without an object radius, or if no colour is large enough, there are no objects.", "quantifier": "for every image and every dynamic of both layers", "why_tests_cant": "Tests of objects run the compiled library or accept any result of the expected length.", "anchors": ["pyclustering/nnet/syncsegm.py:112-134", "pyclustering/nnet/syncsegm.py:233-281", "pyclustering/nnet/sync.py:174-235"]}
{"id": "C174", "title": "fsync: the equation of an oscillator", "statement": "The derivative that fsync_network integrates for oscillator i is (i w_i + r_i^2 - |z|^2) z + K/N sum over the connected j of (z_j - z), with the frequency and radius given for i (one number for all or a list); outside its radius and not nearer to the origin than its neighbours an oscillator moves inwards; a list of factors that is too short is refused.", "quantifier": "for every network, connection type, factors, and at every time of the life of the network", "why_tests_cant": "Needs the field itself at all amplitudes; tests only see the outcome of simulations from random starts.", "anchors": ["pyclustering/nnet/fsync.py:193-216", "pyclustering/nnet/fsync.py:277-341"]}
{"id": "C175", "title": "fsync: amplitudes stay bounded", "statement": "If the initial amplitudes and all radii are at most B and the coupling is not negative, then no amplitude ever exceeds B in absolute value, in any sequence of simulations.", "quantifier": "for every network, number of steps, time and sequence of simulations", "why_tests_cant": "An invariant over all executions and random starts.", "anchors": ["pyclustering/nnet/fsync.py:219-274", "pyclustering/nnet/fsync.py:290-324"]}
{"id": "C176", "title": "fsync: an uncoupled oscillator rotates with its frequency", "statement": "Without coupling an oscillator that starts on its circle is recorded as r cos(w t) at every recorded time t.", "quantifier": "for every frequency, radius, number of steps and time", "why_tests_cant": "Tests do not compare with the exact solution.", "anchors": ["pyclustering/nnet/fsync.py:219-274"]}
{"id": "C177", "title": "fsync: shape of the recorded dynamic", "statement": "A simulation with collection records steps + 1 rows with a real number for every oscillator, first the initial and last the final amplitudes, at the times k * time / steps; without collection only the last state; also when the same network is simulated again.", "quantifier": "for every network and every sequence of simulations", "why_tests_cant": "Tests simulate a new network once.", "anchors": ["pyclustering/nnet/fsync.py:219-252"]}
{"id": "C178", "title": "Width and height of an ellipse are those of the data", "statement": "calculate_ellipse_description returns as width and height 2 * scale times the largest and the smallest standard deviation of the data over all directions; data without any variance in some direction give three zeros.", "quantifier": "for every 2x2 covariance matrix, every correct eigendecomposition of it and every scale", "why_tests_cant": "The extremum over all directions is not a finite check; tests only draw the ellipses.", "anchors": ["pyclustering/utils/__init__.py:451-472"]}
{"id": "C179", "title": "The angle of an ellipse is its main axis", "statement": "The angle returned by calculate_ellipse_description is the direction of the largest variance of the data.", "quantifier": "for every 2x2 covariance matrix with positive variances and every correct eigendecomposition", "why_tests_cant": "The description is only used for drawing; symmetric or axis-parallel examples do not show a wrong axis.", "anchors": ["pyclustering/utils/__init__.py:451-472"]}
{"id": "C180", "title": "Generated data follow the sizes, centres and widths", "statement": "data_generator.generate returns exactly the sum of the sizes many points, cluster after cluster; every point has the given dimension, and every coordinate is that of the centre of its cluster plus half of its width times its own normal deviate. Sizes for too few clusters raise IndexError.", "quantifier": "for every generator with complete arguments and every stream of random numbers", "why_tests_cant": "The data are random; tests check their number and the sample means.", "anchors": ["pyclustering/cluster/generator.py:22-96"]}
{"id": "C181", "title": "Default clusters are separated", "statement": "Without given centres the clusters lie along the diagonal: if no deviate exceeds b in absolute value, points of the clusters i < j differ in every coordinate by at least (4 (j - i) - 2 b) times the largest width, so they do not overlap for b < 2. Zero clusters raise ValueError.", "quantifier": "for every number of clusters, dimension, sizes, positive widths and bounded stream of deviates", "why_tests_cant": "Needs all random streams at once.", "anchors": ["pyclustering/cluster/generator.py:43-49", "pyclustering/cluster/generator.py:81-96"]}
{"id": "C182", "title": "Random initial means of EM are different data points", "statement": "ema_initializer with random initialisation returns the asked number of means, each a point of the data (up to a tenth of its coordinates when ten draws repeated earlier means), and the means are pairwise different when the data have enough different points.", "quantifier": "for every non-empty data set, amount and stream of random numbers", "why_tests_cant": "The repeated draws that lead to the perturbed means are rare in tests.", "anchors": ["pyclustering/cluster/ema.py:174-192"]}
{"id": "C183", "title": "Initial clusters and covariances of EM are valid", "statement": "The initial clusters partition the data by nearest mean; there is one covariance for each cluster, symmetric and without negative variances, the unbiased sample covariance for clusters of several points, and positive definite so that the density exists.", "quantifier": "for every data set, all means and every random stream", "why_tests_cant": "Definiteness is a statement about all directions.", "anchors": ["pyclustering/cluster/ema.py:137-171", "pyclustering/cluster/ema.py:195-212"]}
{"id": "C184", "title": "EM starts from the parameters it is given", "statement": "Initial means given by the user are the ones the algorithm starts from; otherwise the number of clusters equals the number of means and of covariances of the initialiser, even when k-means found fewer clusters than asked for.", "quantifier": "for every data set, amount, given parameters and initialiser result", "why_tests_cant": "Tests only look at the clusters found in the end.", "anchors": ["pyclustering/cluster/ema.py:475-515"]}
{"id": "C185", "title": "cluster_visualizer draws exactly what was appended", "statement": "After any sequence of successful calls, show draws one axis per canvas that has clusters, with its title, and on it one mark for every point of every appended cluster and attribute, in the colour, marker and size given or inherited; nothing else is drawn. It returns whenever the points have the coordinates of the canvas and the indexes are inside the data.", "quantifier": "for every number of canvases, every sequence of calls and every figure it is drawn on", "why_tests_cant": "Tests only check that show does not fail; nobody looks at the picture.", "anchors": ["pyclustering/cluster/__init__.py:515-595", "pyclustering/cluster/__init__.py:687-796"]}
{"id": "C186", "title": "A cluster refused by cluster_visualizer leaves no trace", "statement": "When append_cluster raises ValueError because of the dimension, the cluster is not drawn later, show still works, and later clusters are accepted as before.", "quantifier": "for every visualizer, cluster and canvas", "why_tests_cant": "Tests check that the exception is raised, not the state it leaves behind.", "anchors": ["pyclustering/cluster/__init__.py:540-559"]}
{"id": "C187", "title": "Canvases that do not exist are refused", "statement": "Appending a cluster to, or setting the title of, a canvas that does not exist raises the documented ValueError and changes nothing.", "quantifier": "for every visualizer and every integer canvas index", "why_tests_cant": "The borderline index and the faulty message format need the right index to be tried.", "anchors": ["pyclustering/cluster/__init__.py:533-534", "pyclustering/cluster/__init__.py:614-627"]}
{"id": "C188", "title": "Colours of clusters on a canvas", "statement": "append_cluster returns the place of the cluster on its canvas; the colour reported for that place is the colour given, or the default colour of the place; default colours of clusters fewer than 35 places apart are different, and they repeat after 35.", "quantifier": "for every visualizer after any successful calls, every canvas and every cluster", "why_tests_cant": "Tests use a few clusters only.", "anchors": ["pyclustering/cluster/__init__.py:536-541", "pyclustering/cluster/__init__.py:630-635", "pyclustering/utils/color.py:12-38"]}
{"id": "C189", "title": "Every canvas has a cell of its own in the figure", "statement": "The axes of cluster_visualizer are put into different cells of the grid, inside the grid, after the axes the figure already has, with no superfluous row.", "quantifier": "for every number of canvases, row size and number of axes in the figure", "why_tests_cant": "An arithmetic statement about all combinations of sizes.", "anchors": ["pyclustering/cluster/__init__.py:704-732"]}
{"id": "C190", "title": "cluster_visualizer_multidim shows every pair of coordinates once", "statement": "Without a filter there is exactly one axis for every pair of coordinates i < j, with one mark at (x_i, x_j) for every point of every cluster in the colour of the cluster; with a filter the axes are its pairs in its order; one-dimensional data are drawn on one line. It returns whenever all points have the coordinates.", "quantifier": "for all clusters, dimensions, filters and row sizes", "why_tests_cant": "Tests only check that show does not fail.", "anchors": ["pyclustering/cluster/__init__.py:237-286", "pyclustering/cluster/__init__.py:307-320", "pyclustering/cluster/__init__.py:368-423"]}
{"id": "C191", "title": "The grid of cluster_visualizer_multidim fits", "statement": "There is a cell for every axis, no row is longer than max_row_size and no row is empty.", "quantifier": "for all clusters, filters and row sizes for which show returns", "why_tests_cant": "An arithmetic statement about all combinations of sizes.", "anchors": ["pyclustering/cluster/__init__.py:289-304"]}
{"id": "C192", "title": "What cluster_visualizer_multidim accepts can be shown", "statement": "An empty cluster is refused with ValueError and changes nothing; any other cluster is stored with its marker, size and colour; showing nothing is refused; and whatever was accepted can be shown.", "quantifier": "for all sequences of clusters", "why_tests_cant": "Tests append clusters of one data set only.", "anchors": ["pyclustering/cluster/__init__.py:167-204", "pyclustering/cluster/__init__.py:256-264"]}
{"id": "C193", "title": "draw_clusters gives every cluster a colour of its own", "statement": "draw_clusters draws every point of cluster i in colour i and the noise in white; the colours of different clusters differ and none is white; more than 20 clusters are refused, and so are dimensions other than 1 to 3 unless axes are given, where nothing is drawn.", "quantifier": "for all clusters given as points or as indexes, all noise and markers", "why_tests_cant": "Tests only check that drawing does not fail.", "anchors": ["pyclustering/utils/__init__.py:696-795"]}
{"id": "C194", "title": "The coloured picture of segments shows every segment in a colour of its own", "statement": "draw_image_color_segments makes a picture of the size of the image where a pixel (x, y), that is index y*width+x, has the colour of its segment (of the last one if it is in several) and is white outside all segments; different segments have different colours.", "quantifier": "for all image sizes and all lists of segments", "why_tests_cant": "Tests only check that drawing does not fail; equal colours of two segments need a sixth segment and a look at the picture.", "anchors": ["pyclustering/utils/__init__.py:979-1029"]}
{"id": "C195", "title": "The masks of segments are in a grid, each black exactly on its segment", "statement": "draw_image_mask_segments puts the source in the first cell of a grid and the mask of every segment in a cell of its own inside the grid, row by row; a mask is black exactly on the pixels of its segment; the grid is nearly square and has no empty row.", "quantifier": "for all image sizes and all non-empty lists of segments with pixels of the image", "why_tests_cant": "Cell arithmetic goes wrong only at particular numbers of segments.", "anchors": ["pyclustering/utils/__init__.py:1032-1108"]}
{"id": "C196", "title": "draw_dynamics draws every dynamic on the plot asked for", "statement": "With separate False all dynamics are on one plot, with True dynamic i is on plot i, and with groups exactly the listed dynamics are drawn, each on the plot of its group; the x axis is the given one or runs from 0 to the last time.", "quantifier": "for all times and tables of values, all groups", "why_tests_cant": "Tests check only that drawing does not fail.", "anchors": ["pyclustering/utils/__init__.py:798-879"]}
{"id": "C197", "title": "draw_dynamics_set draws every set of dynamics in a cell of its own", "statement": "Every set of dynamics is drawn completely, in a cell of its own inside the grid, row by row; one set is drawn on a single plot.", "quantifier": "for all non-empty lists of dynamics", "why_tests_cant": "Cell arithmetic goes wrong only at particular numbers of sets.", "anchors": ["pyclustering/utils/__init__.py:932-976"]}
{"id": "C198", "title": "dynamic_visualizer.show draws on new axes, or on the given ones", "statement": "show() without an axis draws the dynamics on axes it creates; show(axis) draws them on the given axis.", "quantifier": "for all visualizers with at least one canvas and any calls before", "why_tests_cant": "The unit tests have no test of the visualizer.", "anchors": ["pyclustering/nnet/dynamic_visualizer.py:238-263", "pyclustering/nnet/dynamic_visualizer.py:290-297"]}
{"id": "C199", "title": "dynamic_visualizer puts every dynamic on the canvas asked for, in its colour", "statement": "A dynamic appended to a canvas is drawn on it once, dynamics appended with separate True from that canvas on, one each; those appended with groups are drawn on canvas, canvas+1, ... by group; they have the colour given.", "quantifier": "for all numbers of canvases and sequences of appended dynamics", "why_tests_cant": "The unit tests have no test of the visualizer.", "anchors": ["pyclustering/nnet/dynamic_visualizer.py:108-141", "pyclustering/nnet/dynamic_visualizer.py:192-224", "pyclustering/nnet/dynamic_visualizer.py:266-287"]}
{"id": "C200", "title": "The x axes of dynamic_visualizer cover the dynamics, or are as given", "statement": "Without borders given, the x axis of a canvas runs from 0 to at least the last time of every dynamic on it; borders given by the user are kept.", "quantifier": "for all numbers of canvases, borders and sequences of appended dynamics", "why_tests_cant": "The error depends on the sign of the left border and on the order of comparison of lists.", "anchors": ["pyclustering/nnet/dynamic_visualizer.py:301-309"]}
{"id": "C201", "title": "clique_visualizer.show_grid draws every cell where its points are", "statement": "There is one canvas for every pair of coordinates (one for data on a line), each with all points; every point is inside the rectangle of its cell; the rectangles cover the bounding box of the data and overlap only on borders unless the cells differ in other coordinates only; a rectangle is filled exactly if its cell has points, with an opacity of 0.6 times its relative number of points.", "quantifier": "for all data of one dimension D >= 1 and all numbers of intervals >= 1", "why_tests_cant": "The unit tests call the visualizer and check nothing it draws.", "anchors": ["pyclustering/cluster/clique.py:39-67", "pyclustering/cluster/clique.py:88-158"]}
{"id": "C202", "title": "bang_visualizer draws the leafs over their points, clusters filled, and the dendrogram cluster by cluster", "statement": "Every point is inside the rectangle of a leaf, a point of a cluster inside a filled one and a point of the noise inside an empty one; opacities are 0.6 times the density relative to the densest leaf. In the dendrogram the blocks of the clusters stand side by side with their densities as heights, one colour per cluster, and the x axis holds exactly the bars.", "quantifier": "for all data of one dimension D >= 1, levels, thresholds, iteration orders of sets; for all dendrograms", "why_tests_cant": "The unit tests call the visualizer and check nothing it draws.", "anchors": ["pyclustering/cluster/bang.py:37-97", "pyclustering/cluster/bang.py:117-202"]}
{"id": "C203", "title": "bang_animator animates the result of every clustering of points of the plane", "statement": "animate draws every block of every level in turn, then the densities of the leafs, the clusters, and the clusters alone.", "quantifier": "for all data of dimension 2, levels and thresholds", "why_tests_cant": "The unit tests animate only results without an empty level; with a threshold, or equal points, a level may be empty and animate raises IndexError.", "anchors": ["pyclustering/cluster/bang.py:235-286", "pyclustering/cluster/bang.py:347-402"]}
{"id": "C204", "title": "kmeans_observer records the run of k-means without changing it", "statement": "process returns what it returns without an observer. Entry 0 has the initial centres, every entry the clusters of the nearest centres of the entry before and, from entry 1 on, their means; from entry 1 on the error never grows; an observer used again keeps its entries. The last entry is the result, and every entry has one centre per cluster.", "quantifier": "for all data, initial centres, tolerances, iteration limits and metrics", "why_tests_cant": "The unit tests check lengths and types of the entries; with itermax = 0 the observer has clusters and the result has none, and a centre without points makes entry 0 have fewer clusters than centres.", "anchors": ["pyclustering/cluster/kmeans.py:29-108", "pyclustering/cluster/kmeans.py:412-437"]}
{"id": "C205", "title": "kmeans_visualizer shows clusters, centres and rays in the colours of the clusters, and animates every history", "statement": "Every point is marked in the colour of its cluster, every centre is a star and every point has a line to the centre of its cluster, all in the colour of the cluster. The frames of the animation are those of the entries of the observer.", "quantifier": "for all samples of dimension 1 to 3 and clusterings; for all observed runs", "why_tests_cant": "The unit tests only call the visualizer; animations of histories with an initial centre that attracts no point raise IndexError.", "anchors": ["pyclustering/cluster/kmeans.py:112-262"]}
{"id": "C206", "title": "ga_observer records each generation of the genetic algorithm without changing it", "statement": "process returns what it returns without an observer. Each list asked for has one entry per generation and the first population; entry g holds the best chromosome of generation g and its cost, the best of all generations up to g, and the mean cost. The last global best is the result.", "quantifier": "for all data, numbers of clusters and of generations, random choices and observers", "why_tests_cant": "The unit tests check the lengths of the lists.", "anchors": ["pyclustering/cluster/ga.py:23-135", "pyclustering/cluster/ga.py:428-480"]}
{"id": "C207", "title": "ga_visualizer shows the evolution and the clusters that were found", "statement": "The curves have the value of an iteration at that iteration, also if the first iteration to show is not 0; the clusters shown are those of the result; a frame shows the clusters of the best chromosome of the generation and of the best so far.", "quantifier": "for all observed runs, first and last iterations", "why_tests_cant": "The unit tests only call the visualizer; a later first iteration shifts the curves against the axis, and with the default observer show_clusters raises IndexError.", "anchors": ["pyclustering/cluster/ga.py:139-318"]}
{"id": "C208", "title": "The roulette of ga_math gives every chromosome its share of [0, 1)", "statement": "calc_probability_vector divides [0, 1) into segments in the order of the chromosomes, each as wide as the share of 1/fitness; get_uniform returns the chromosome whose segment holds the random number, and there always is one. A smaller fitness has a wider segment, a fitness of zero none; an infinite fitness is refused.", "quantifier": "for all vectors of non-negative fitness, not all zero; for all random numbers in [0, 1)", "why_tests_cant": "The unit tests never call these functions on given fitness values; the shares are a statement over all vectors.", "anchors": ["pyclustering/cluster/ga_maths.py:22-42", "pyclustering/cluster/ga_maths.py:128-164"]}
{"id": "C209", "title": "ema_observer records every iteration of EM without changing it", "statement": "process returns what it returns without an observer. Each of the three lists has one entry per iteration, at most as many as the limit; every entry is a partition of the data into clusters with points with a mean and a covariance matrix for each, those of the data under positive weights; the clusters never become more; the last entry is the result. An observer used again keeps its entries.", "quantifier": "for all data, numbers of clusters, initial means and variances, tolerances below 100000, positive limits and densities that are positive wherever the covariance is not zero", "why_tests_cant": "The unit tests check the lengths of the lists for a few samples.", "anchors": ["pyclustering/cluster/ema.py:216-316", "pyclustering/cluster/ema.py:518-544"]}
{"id": "C210", "title": "ema_visualizer draws the points and the ellipses of the clusters", "statement": "Points of the plane are marked in the colours of their clusters; each cluster with spread in all directions has an ellipse around its mean in its colour, four deviations long and wide, the long axis in the direction of the largest variance; other clusters have none. Data of dimension 1 and 3 are shown without ellipses. Every frame of the history of a run can be drawn.", "quantifier": "for all samples of dimension 1 to 3, clusterings without empty clusters, means and positive semi-definite covariances, and whatever eigenvectors numpy finds", "why_tests_cant": "The unit tests only call the visualizer. The angle of calculate_ellipse_description is the mirror image (C179), and only because it is negated once more is the picture right.", "anchors": ["pyclustering/cluster/ema.py:320-434", "pyclustering/utils/__init__.py:451-472"]}
{"id": "C211", "title": "The tolerance and the limit of iterations stop k-medians, fuzzy c-means and EM where the documentation says", "statement": "Allowing one more iteration changes nothing if some iteration before moved no median (k-medians) or centre (fuzzy c-means) by more than the tolerance; otherwise the result is that of one iteration from the result of the smaller limit. EM stops after an iteration that leaves a covariance without spread or changes the logarithm of the likelihood by at most the tolerance, and else records one more iteration. The move of a median is the distance of the metric, that of a fuzzy centre the squared Euclidean distance, and the likelihood before the first iteration of EM is taken to be -100000, so that a tolerance of 100000 stops it at once.", "quantifier": "for all data, initial medians, centres, means and covariances, tolerances and limits", "why_tests_cant": "A test sees that the result is good, not at which iteration the loop ended; a wrong comparison of the tolerance mostly shows only as a few wasted or missing iterations.", "anchors": ["pyclustering/cluster/kmedians.py:88-130", "pyclustering/cluster/fcm.py:205-226", "pyclustering/cluster/fcm.py:268-276", "pyclustering/cluster/ema.py:518-544", "pyclustering/cluster/ema.py:632-643", "pyclustering/cluster/ema.py:689-694"]}
{"id": "C212", "title": "Invalid arguments are refused", "statement": "Each algorithm raises ValueError for the arguments its checks describe (empty data, no initial centres, a negative tolerance, radius, amount or limit, an index outside the data, a density outside [0; 1], bounds of K out of order ...). k-means, k-medians, k-medoids, fuzzy c-means, DBSCAN, OPTICS, ROCK, elbow and silhouette return a result for all others. Data and initial medians of another dimension give NameError in k-medians, whose module does not import the name it uses.", "quantifier": "for all data and all arguments of k-means, k-medians, k-medoids, fuzzy c-means, DBSCAN, OPTICS, ROCK, BANG, BIRCH, CLARANS, the genetic algorithm, elbow, silhouette, X-means and G-means", "why_tests_cant": "The unit tests give one bad value for each argument; the border of each check (zero, equality, both bounds) and the success for every other argument are not tested.", "anchors": ["pyclustering/cluster/kmeans.py:613-630", "pyclustering/cluster/kmedians.py:322-345", "pyclustering/cluster/kmedoids.py:579-596", "pyclustering/cluster/fcm.py:287-296", "pyclustering/cluster/dbscan.py:201-211", "pyclustering/cluster/optics.py:759-776", "pyclustering/cluster/rock.py:221-237", "pyclustering/cluster/bang.py:1117-1135", "pyclustering/cluster/birch.py:218-232", "pyclustering/cluster/clarans.py:53-70", "pyclustering/cluster/ga.py:705-715", "pyclustering/cluster/elbow.py:215-240", "pyclustering/cluster/silhouette.py:323-333", "pyclustering/cluster/silhouette.py:556-567", "pyclustering/cluster/xmeans.py:638-663", "pyclustering/cluster/gmeans.py:406-430"]}
{"id": "C213", "title": "extract_cluster_amount counts the valleys of the diagram", "statement": "The amount for a radius is one more than the number of borders: bars where a hill not below the radius begins, or where a valley inside a hill ends. It is 0 if all bars are equal and above the radius. The borders are given in ascending order and never contain the first bar.", "quantifier": "for all ordering diagrams and radii", "why_tests_cant": "The tests compare the amount for a few diagrams of samples.", "anchors": ["pyclustering/cluster/optics.py:164-223"]}
{"id": "C214", "title": "G-means returns clusters that pass its test", "statement": "Unless there are as many clusters as k_max allows, every cluster returned is a single point, or k-means with two of its points as initial centres ends with one centre, or the hypothesis of one Gaussian is not rejected for the two centres found.", "quantifier": "for all data of one dimension, seeds, tests, amounts of repeats and limits", "why_tests_cant": "The tests compare sizes of clusters for samples; that no cluster is left that the test would split depends on the order of splits and the limit.", "anchors": ["pyclustering/cluster/gmeans.py:150-191", "pyclustering/cluster/gmeans.py:271-310", "pyclustering/cluster/gmeans.py:380-403"]}
{"id": "C215", "title": "X-means ends only when the criterion wants no more splits", "statement": "Unless there are as many centres as kmax allows, each cluster of the last round is a single point, or its halves are one cluster, or the splitting criterion does not prefer the halves; the result is that of k-means from the centres of that round. If k-means drops a centre in a round this fails: the amounts before k-means and after the splits are compared, so the search can end with one cluster though the criterion wants two and kmax allows them.", "quantifier": "for all data, metrics, seeds, criteria and initial centres, at most kmax", "why_tests_cant": "It needs an initial centre that gets no point, for example a duplicate; the samples of the tests have none.", "anchors": ["pyclustering/cluster/xmeans.py:243-261", "pyclustering/cluster/xmeans.py:459-507"]}
{"id": "C216", "title": "Metrics of tables of points are the metrics of their rows", "statement": "With numpy a metric gives for a table and a point, a point and a table, or two tables of equally many points the array of the distances of the rows, each as the function of python gives it for the two points.", "quantifier": "for all eight metrics, all tables, points and numbers of coordinates (for Gower distance coordinates without range must be equal, and there must be a row)", "why_tests_cant": "The tests compare a few tables of two rows; the algorithms (k-means, k-medians, X-means, silhouette, k-means++) use only these forms.", "anchors": ["pyclustering/utils/metric.py:321-334", "pyclustering/utils/metric.py:360-373", "pyclustering/utils/metric.py:401-414", "pyclustering/utils/metric.py:444-457", "pyclustering/utils/metric.py:484-498", "pyclustering/utils/metric.py:526-542", "pyclustering/utils/metric.py:568-584", "pyclustering/utils/metric.py:618-635"]}
{"id": "C217", "title": "What distances of points of different dimensions are", "statement": "The functions of python ignore the additional coordinates of the second point and raise IndexError if it has less; so they are not symmetric for such points. The functions of numpy raise ValueError, unless one point has a single coordinate, which then stands for all coordinates.", "quantifier": "for all metrics but Gower distance and all points of different lengths", "why_tests_cant": "The tests use points of one dimension.", "anchors": ["pyclustering/utils/metric.py:298-584"]}
{"id": "C218", "title": "distance_metric answers as its type and mode say, however often the mode was switched", "statement": "After any sequence of enable_numpy_usage and disable_numpy_usage every call gives what a metric made with the last mode gives; type, function and arguments stay. A metric is refused with ValueError exactly if the type is unknown or Gower distance has neither a range nor data. In both modes the distances of two points are the same.", "quantifier": "for all types, arguments, sequences of switches and objects given to a call, user defined functions included", "why_tests_cant": "The tests switch a metric once.", "anchors": ["pyclustering/utils/metric.py:95-132", "pyclustering/utils/metric.py:165-294"]}
{"id": "C219", "title": "A metric can be shared: after an algorithm has used it, it answers as before", "statement": "A metric without numpy that was given to k-means, X-means, k-medians, k-medoids, BSAS, MBSAS or TTSAS in any order answers every call as before; k-means and X-means work on copies and never change it. It fails for silhouette and k-means++, which switch the object of the caller to numpy: distances of lists then raise AttributeError, also inside k-medians. k-medians switches a metric back that an object of silhouette still uses, whose process then fails.", "quantifier": "for all types and arguments of the metric, all sequences of uses and all calls", "why_tests_cant": "Every test makes a new metric for each algorithm.", "anchors": ["pyclustering/cluster/kmeans.py:355-361", "pyclustering/cluster/kmedians.py:82-84", "pyclustering/cluster/kmedians.py:122", "pyclustering/cluster/kmedians.py:280-288", "pyclustering/cluster/xmeans.py:184", "pyclustering/cluster/xmeans.py:302-309", "pyclustering/cluster/silhouette.py:148-154", "pyclustering/cluster/silhouette.py:315-318", "pyclustering/cluster/center_initializer.py:202-205", "pyclustering/utils/metric.py:165-184"]}
{"id": "C220", "title": "A pickled self-organised map answers as the original", "statement": "A map that was pickled and loaded gives for any series of calls (weights, awards, captured objects, simulate, number of winners, distance matrix, training, density matrix after a training) the answers the original gives. The density matrix and the picture of the network before a new training fail with AttributeError, for the data are not part of the dump.", "quantifier": "for all maps that can be reached by any calls and picklings, all series of calls", "why_tests_cant": "The tests pickle a trained map and compare its attributes; they do not go on working with it.", "anchors": ["pyclustering/nnet/som.py:305-324", "pyclustering/nnet/som.py:948-991", "pyclustering/nnet/som.py:767-816"]}
{"id": "C221", "title": "What a self-organised map has reported stays as it was reported", "statement": "The list of weights handed out before a training is not changed by the training. The lists of awards and of captured objects are: they always show the last training, whenever they were asked for.", "quantifier": "for all maps and all sequences of trainings before and after the report", "why_tests_cant": "No test keeps a report over a second training.", "anchors": ["pyclustering/nnet/som.py:179-225", "pyclustering/nnet/som.py:599-601", "pyclustering/nnet/som.py:604", "pyclustering/nnet/som.py:614-617", "pyclustering/nnet/som.py:627-629"]}
{"id": "C222", "title": "The matrix of winners shows the awards of each neuron at its place", "statement": "The square in column x and row y has the colour of the awards of neuron (y, x). The number written in it is that of neuron (x, y): rows and columns are exchanged, so the numbers fit the squares exactly if the map is a square and its awards are symmetric.", "quantifier": "for all maps", "why_tests_cant": "The tests call show_winner_matrix and check that nothing is raised.", "anchors": ["pyclustering/nnet/som.py:818-845"]}
{"id": "C223", "title": "The picture of a self-organised map shows objects, neurons, connections and winners", "statement": "Each object and each neuron is drawn once at its place, a neuron green if it has won, otherwise yellow. In two and three dimensions each pair of neighbours is joined by one line. In one and two dimensions each object is labelled with the number of the neuron that captured it and each neuron with its awards, if asked for. In one dimension no connection and in three no number is drawn.", "quantifier": "for all trained maps of every size and connection type in spaces of one to three dimensions", "why_tests_cant": "The tests draw pictures without looking at them.", "anchors": ["pyclustering/nnet/som.py:847-946"]}
{"id": "C224", "title": "The picture of a kd-tree shows its division of the plane", "statement": "kdtree_visualizer draws one dot per stored point and one line per node. The line of a node consists exactly of the places within the limits that the searches reaching the node lead to and that have the coordinate at which the node divides; vertical lines are blue, horizontal ones red. The limits are the smallest box around the stored points. An empty tree and points that are not of the plane are refused.", "quantifier": "for all histories of insertions and removals of points of the plane", "why_tests_cant": "The tests check that nothing is raised for a few balanced trees.", "anchors": ["pyclustering/container/kdtree.py:62-160"]}
{"id": "C225", "title": "predict() answers the nearest representative with every metric", "statement": "predict() of k-means, k-medians, k-medoids, X-means and G-means returns for each point the index of its nearest centre, median or medoid (the first of several equally near), nearest by the metric given to the constructor, whichever its type and also when it is a function of the user; before process() it returns an empty list.", "quantifier": "every type of metric and function of the user, every list of representatives and of points", "why_tests_cant": "whether a user's function is called with points or with whole tables, and ties, depend on type and shape and are not seen with the default metric", "anchors": ["pyclustering/cluster/kmeans.py:kmeans.predict", "pyclustering/cluster/kmedians.py:kmedians.predict", "pyclustering/cluster/kmedoids.py:kmedoids.predict", "pyclustering/cluster/xmeans.py:xmeans.predict", "pyclustering/cluster/gmeans.py:gmeans.predict"]}
{"id": "C226", "title": "predict() of the training data agrees with the clusters", "statement": "After process() of k-means and k-medoids (of points or of a distance matrix), predict() of the data that was clustered gives each object the index of the cluster it is in.", "quantifier": "every data set, initial centres or medoids, tolerance and limit of iterations", "why_tests_cant": "the last movement of the centres changes the answer only for points near a border; distance matrices are not predicted in tests", "anchors": ["pyclustering/cluster/kmeans.py:kmeans.predict", "pyclustering/cluster/kmeans.py:kmeans.process", "pyclustering/cluster/kmedoids.py:kmedoids.predict", "pyclustering/cluster/kmedoids.py:kmedoids.process"]}
{"id": "C227", "title": "Order parameters of a range of iterations belong to these iterations", "statement": "calculate_order_parameter(start, stop) and calculate_local_order_parameter return one value per iteration from start up to and without stop, each the order of the recorded state and (globally) in [0, 1]; without arguments the value of the last state, with a start only that of this iteration; consecutive ranges can be computed separately; an iteration that was not recorded raises IndexError. show_order_parameter draws the points (time, order) of these iterations, of all by default.", "quantifier": "every recorded dynamic and range of iterations", "why_tests_cant": "the tests only check that values lie in [0, 1] for a simulated network; which iterations they belong to and negative numbers are not seen", "anchors": ["pyclustering/nnet/sync.py:317-408", "pyclustering/nnet/sync.py:490-531", "pyclustering/nnet/sync.py:645-663"]}
{"id": "C228", "title": "Matrices and animations of a dynamic show the recorded states", "statement": "allocate_phase_matrix lays the phases of the asked (by default last) iteration row by row into a matrix of the given sizes, or into a square one if a size is missing, and refuses sizes that do not fit; allocate_correlation_matrix is symmetric with values in [0, 1], 0 exactly for phases that differ by half turns; frame k of each animation shows the state recorded at iteration k.", "quantifier": "every recorded dynamic, size and iteration", "why_tests_cant": "pictures are not looked at by tests", "anchors": ["pyclustering/nnet/sync.py:238-314", "pyclustering/nnet/sync.py:534-709"]}
{"id": "C229", "title": "Initial phases of a network of phase oscillators", "statement": "RANDOM_GAUSSIAN gives every phase in [0, 2 pi) and frequencies below the multiplier; EQUIPARTITION gives oscillators equidistant from each other on the circle, independent of chance; a network that starts equipartitioned, without own frequencies and with a weight in [0, 1], keeps all phases within the half circle for ever, whatever its connections.", "quantifier": "every size, draw of random numbers, structure of connections and length of simulation", "why_tests_cant": "statements about all simulations of all structures; the gap between the last and the first oscillator is not tested", "anchors": ["pyclustering/nnet/sync.py:720-757", "pyclustering/nnet/__init__.py:15-25"]}
{"id": "C230", "title": "k-means++ chooses the next centre by distance", "statement": "The candidate for the next centre is point i with probability D(i) / sum D, where D(i) is the distance to the closest chosen centre; the farthest candidate is taken; with one candidate the next centre is point i with this probability; with FARTHEST_CENTER_CANDIDATE it is the first of the points that are farthest from their closest centre.", "quantifier": "every data set, set of chosen centres, amount of candidates and value of the random numbers", "why_tests_cant": "the distribution over all random numbers can not be observed by running; tests count centres", "anchors": ["pyclustering/cluster/center_initializer.py:227-340"]}
{"id": "C231", "title": "k-means++ of points and of distance matrices", "statement": "For points initialize() returns the points of different indexes, with return_index=True these indexes; for a distance matrix it returns different indexes and refuses return_index=False; the matrix of the squared distances gives the same centres as the points for the same random numbers; an unknown data type is refused.", "quantifier": "every data set or matrix, amount, candidates argument and draw of random numbers", "why_tests_cant": "equality of two runs for all random numbers", "anchors": ["pyclustering/cluster/center_initializer.py:167-224", "pyclustering/cluster/center_initializer.py:343-379"]}
{"id": "C232", "title": "Two simulations in a row are one longer simulation", "statement": "A simulation of m + 1 recorded states followed by one of k + 1 states from the state that was left records the same as one simulation of m + k + 1 states: the second record starts with the last state of the first. This holds for pulse coupled networks, chaotic networks with the same stimulus, and phase oscillators with the solver FAST (whatever the times); new networks start at rest.", "quantifier": "every network, stimulus, number of steps and state", "why_tests_cant": "equality of runs of every length from every state", "anchors": ["pyclustering/nnet/pcnn.py:405-444", "pyclustering/nnet/cnn.py:294-343", "pyclustering/nnet/sync.py:928-1000", "pyclustering/nnet/som.py:186-283"]}
{"id": "C233", "title": "A Hodgkin-Huxley network can be simulated further", "statement": "The record of simulate() starts with the states of the peripheral and of the central neurons; a new network is at rest; a second call continues the first: its record starts with the states that were left, and the pulses of both have increasing times.", "quantifier": "every network, solver of the equations, noise and number of steps", "why_tests_cant": "the state inside of the object and the times of old pulses are not visible in a record; tests simulate once", "anchors": ["pyclustering/nnet/hhn.py:248-324", "pyclustering/nnet/hhn.py:379-440"]}
{"id": "C234", "title": "The picture of a graph shows its vertices, connections and colours", "statement": "draw_graph draws one dot per vertex at its place, in its colour of the coloring, and exactly one line per connection, for graphs described by a matrix as well as by lists of neighbours, made by hand or read from a file; the axes leave half a unit around the vertices; a graph without places, a coloring of another length and more than 20 colours are refused, fewer colours are not.", "quantifier": "every graph with places in the plane and every coloring", "why_tests_cant": "pictures are not looked at by tests; files with lists of neighbours are never drawn there", "anchors": ["pyclustering/utils/graph.py:212-278"]}
{"id": "C235", "title": "Results with fewer clusters are made from results with more clusters", "statement": "For the same data, agglomerative clustering (every link), ROCK and CURE give nested results: every cluster of a result with more clusters lies in one cluster of the result with fewer clusters, and with one cluster less exactly two clusters are joined and all others kept.", "quantifier": "every data set, link, radius, threshold, compression, number of representatives and pair of cluster numbers", "why_tests_cant": "relates two runs with different arguments for all data", "anchors": ["pyclustering/cluster/agglomerative.py:agglomerative.process", "pyclustering/cluster/rock.py:rock.process", "pyclustering/cluster/cure.py:cure.process"]}
{"id": "C236", "title": "CLARANS can return any points as medoids of two clusters", "statement": "process() with two clusters searches all pairs of points: the medoids found do not depend on the positions of the points in the data, so that the best pair can be the result wherever it is.", "quantifier": "every data set of different points, every draw of random numbers and samples, numlocal and maxneighbor", "why_tests_cant": "which medoids are reachable for some random numbers can not be observed by running; tests use data in which any point will do", "anchors": ["pyclustering/cluster/clarans.py:173-243", "pyclustering/cluster/clarans.py:73-103"]}
{"id": "C237", "title": "A local search of CLARANS stops after maxneighbor rejected candidates in a row", "statement": "Every local search starts at its sample of medoids; a candidate is the first number drawn that is no medoid and replaces the drawn medoid exactly if the computed price is negative; after each replacement the rejected candidates are counted anew, and the search stops at the first medoids with maxneighbor rejected candidates in a row; numlocal searches are made and the returned medoids are those of one of them.", "quantifier": "every data set, stream of random numbers, sample, numlocal and maxneighbor", "why_tests_cant": "the counting restarts at unpredictable moments of a random run", "anchors": ["pyclustering/cluster/clarans.py:173-243"]}
{"id": "C238", "title": "The ordering diagram of OPTICS shows the distances, the radius and the clusters", "statement": "show_ordering_diagram draws every distance of the ordering once, in order; without a wanted amount in black and without a line; with an amount of clusters it draws a horizontal line at a radius that gives exactly this amount, and two bars have the same colour exactly if no border of clusters lies between them.", "quantifier": "every ordering and wanted amount of clusters", "why_tests_cant": "pictures are not looked at by tests; colours are taken from a list of fixed length and a radius need not exist", "anchors": ["pyclustering/cluster/optics.py:36-81", "pyclustering/cluster/optics.py:122-200", "pyclustering/utils/color.py:TITLES"]}
{"id": "C239", "title": "Pictures of networks show the objects and their connections", "statement": "syncnet.show_network draws each object once at its place and exactly one line per pair of objects within the connectivity radius, whether connections are kept as matrix or as lists; cnn.show_network draws each neuron once and one line per pair with a positive weight. Objects that are not of two or three dimensions, and a chaotic network before its first simulation, are not drawn.", "quantifier": "every data set, radius, representation and structure of weights", "why_tests_cant": "pictures are not looked at by tests", "anchors": ["pyclustering/cluster/syncnet.py:338-390", "pyclustering/nnet/cnn.py:437-465"]}
{"id": "C240", "title": "Animations of a pulse coupled network show who fires when", "statement": "animate_spike_ensembles shows one frame per recorded step; in it the pixel of a neuron is black exactly if the neuron fires at this step; show_time_signal draws the number of firing neurons of every step. A picture smaller than the network raises IndexError.", "quantifier": "every recorded output and size of the picture", "why_tests_cant": "pictures are not looked at by tests", "anchors": ["pyclustering/nnet/pcnn.py:225-292"]}
{"id": "C241", "title": "Pictures of pattern recognition show the states from the first to the final one", "statement": "show_pattern shows a recognition in at most fifty pictures in the order of time, each at its own place, all states if there are at most fifty, the last one being the final result of recognition; the pixel of an oscillator has the grey of its phase. animate_pattern_recognition shows every state.", "quantifier": "every recorded dynamic and size of the picture", "why_tests_cant": "pictures are not looked at by tests, which record few states", "anchors": ["pyclustering/nnet/syncpr.py:53-102", "pyclustering/nnet/syncpr.py:105-149", "pyclustering/nnet/syncpr.py:152-188"]}
{"id": "C242", "title": "Algorithms that look only at distances do not depend on the unit of distance", "statement": "If all distances between objects are multiplied by one factor, and radius and tolerance with them, k-medoids (points or matrix), BUILD and k-means++, DBSCAN, ROCK, agglomerative clustering (single, complete and average link) give the same clusters, medoids and centres, and silhouette scores are the same. DBSCAN may list the members of a cluster in another order.", "quantifier": "every data set, arguments and draw of random numbers, points of different dimensions included", "why_tests_cant": "relates two runs on different data for all data", "anchors": ["pyclustering/cluster/kmedoids.py:kmedoids.process", "pyclustering/cluster/center_initializer.py:kmeans_plusplus_initializer.initialize", "pyclustering/cluster/dbscan.py:dbscan.process", "pyclustering/cluster/rock.py:rock.process", "pyclustering/cluster/agglomerative.py:agglomerative.process", "pyclustering/cluster/silhouette.py:265-286"]}
{"id": "C243", "title": "Clusters do not depend on the unit and the origin of the coordinates", "statement": "If the same points are given in another unit and from another origin, and a tolerance or threshold is given in the new unit, k-means, k-medians, BSAS, MBSAS, TTSAS and agglomerative clustering with centroid link give the same clusters; centres and representatives are the old ones in the new coordinates and errors are multiplied. CLIQUE gives the same clusters and noise even if every coordinate has its own unit. With the default tolerance of the constructors the unit does not matter either.", "quantifier": "every data set, unit, origin, initial centres and arguments", "why_tests_cant": "relates two runs on different data for all data", "anchors": ["pyclustering/cluster/kmeans.py:kmeans.process", "pyclustering/cluster/kmedians.py:kmedians.process", "pyclustering/cluster/bsas.py:bsas.process", "pyclustering/cluster/mbsas.py:mbsas.process", "pyclustering/cluster/ttsas.py:ttsas.process", "pyclustering/cluster/agglomerative.py:agglomerative.process", "pyclustering/cluster/clique.py:clique.process"]}
{"id": "C244", "title": "Without a fitting C++ library pyclustering falls back on python", "statement": "ccore_library.workable() answers True exactly if the platform is known, the library file exists, describes its interface and has the version 0.11.0; otherwise it answers False and one warning is given, which names the version found if that is the reason. It never raises. The answer is decided by the first call and kept afterwards without further warnings.", "quantifier": "every machine (platform, file, description, version) and sequence of calls on machines that change in between", "why_tests_cant": "tests run on one machine with one library", "anchors": ["pyclustering/core/wrapper.py:24-114", "pyclustering/core/definitions.py:18-39"]}
{"id": "C245", "title": "The argument ccore decides which implementation is used", "statement": "With ccore=False, and with a metric of type USER_DEFINED where a metric can be given, objects work with python code and the C++ library is not even looked for (no warning). Otherwise they work with the library exactly if it fits. The library is asked for what the user asked for: elbow passes on the initializer of centres.", "quantifier": "every class with an argument ccore, every machine and every earlier use of the library", "why_tests_cant": "tests of the python code give ccore=False and do not see what the library is asked; a missing library and a user's metric are not combined", "anchors": ["pyclustering/cluster/kmeans.py:363-384", "pyclustering/cluster/elbow.py:101-149", "pyclustering/cluster/bsas.py:126-150", "pyclustering/cluster/silhouette.py:158-175", "pyclustering/nnet/sync.py:736-742", "pyclustering/nnet/som.py:263"]}
{"id": "C246", "title": "A stored DBSCAN object can be loaded and goes on as before", "statement": "After pickling and loading, a dbscan object has the same data, radius, number of neighbours, clusters and noise, and process() does what it would have done with the original, by the same code.", "quantifier": "every object before or after process(), every machine on which it is loaded", "why_tests_cant": "the tests compare clusters after loading on one machine and do not process again", "anchors": ["pyclustering/cluster/dbscan.py:95-117", "pyclustering/cluster/dbscan.py:120-153", "pyclustering/cluster/dbscan.py:290-301"]}
{"id": "C247", "title": "A balanced kd-tree of n points has at most log2(n) + 1 levels", "statement": "kdtree_balanced built from n points has no way from the root with more than log2(n) + 1 nodes, so searches and the recursion that builds the tree stay short.", "quantifier": "every number and dimension of points", "why_tests_cant": "the height is not visible in results; tests use small trees of different points", "anchors": ["pyclustering/container/kdtree.py:318-352", "pyclustering/utils/__init__.py:1111-1145"]}
{"id": "C248", "title": "Every iteration of fuzzy c-means lowers the fuzzy objective", "statement": "The memberships are those that minimise the sum of membership^m times squared distance for the given centres, and the centres those that minimise it for the given memberships; so more iterations never give a worse value.", "quantifier": "every data set, number of centres and hyper-parameter m > 1", "why_tests_cant": "the optimum is over all possible memberships and centres; tests only look at the clusters of well separated data", "anchors": ["pyclustering/cluster/fcm.py:229-265", "pyclustering/cluster/fcm.py:205-226"]}
{"id": "C249", "title": "The random seed reaches the C++ library", "statement": "A random_state given to gmeans, xmeans, elbow, silhouette_ksearch or som is the seed that the library gets; without one it gets -1, which stands for the current time. So equal seeds give equal requests and results can be repeated.", "quantifier": "every seed within 64 bits, all other arguments", "why_tests_cant": "results with random seeds are not compared; the falsy seed 0 looks like any other", "anchors": ["pyclustering/core/gmeans_wrapper.py:18-24", "pyclustering/core/xmeans_wrapper.py:19-31", "pyclustering/core/elbow_wrapper.py:31-45", "pyclustering/core/silhouette_wrapper.py:41-49", "pyclustering/core/som_wrapper.py:55-90"]}
{"id": "C250", "title": "Parameters of oscillatory networks reach the C++ library", "statement": "Every parameter of pcnn_parameters, legion_parameters and hhn_parameters arrives at the library under its name and with its value.", "quantifier": "every parameter object and network size", "why_tests_cant": "a parameter that is not passed on stays 0 and only changes the dynamic", "anchors": ["pyclustering/core/pcnn_wrapper.py:16-46", "pyclustering/core/legion_wrapper.py:16-63", "pyclustering/core/hhn_wrapper.py:16-72"]}
{"id": "C251", "title": "The C++ library gets what the user gave, and its answer becomes the result", "statement": "Clustering by the library asks it once, with packages that carry exactly the points, centres, medoids or clusters of the user and with their numbers, in the order of the C interface, and the parts of the answer become clusters, centres, errors and so on. OPTICS objects have None for the negative distances of the library; the search by silhouettes assigns the scores to kmin, kmin + 1, ...", "quantifier": "every data set, parameter and answer", "why_tests_cant": "tests with the library need its binary and only see its results on samples", "anchors": ["pyclustering/core/kmeans_wrapper.py:18-31", "pyclustering/core/kmedoids_wrapper.py:19-32", "pyclustering/core/optics_wrapper.py:30-44", "pyclustering/core/cure_wrapper.py:16-65", "pyclustering/core/clique_wrapper.py:23-40", "pyclustering/cluster/kmeans.py:391-410", "pyclustering/cluster/xmeans.py:224-245", "pyclustering/cluster/optics.py:440-460", "pyclustering/cluster/silhouette.py:465-485"]}
{"id": "C252", "title": "A message of the C++ library becomes a RuntimeError", "statement": "If the library answers with a message instead of results, the user gets a RuntimeError with it.", "quantifier": "every algorithm whose C interface can answer with a message, every message", "why_tests_cant": "the library only answers with a message for wrong or extreme input", "anchors": ["pyclustering/core/clique_wrapper.py:37-40", "pyclustering/core/elbow_wrapper.py:47-50", "pyclustering/core/pam_build_wrapper.py:30-33", "pyclustering/core/kmedoids_wrapper.py:24-32"]}
{"id": "C253", "title": "Noise of DBSCAN by the library is separated from the clusters", "statement": "From an answer that consists of clusters followed by the noise, process() makes exactly these clusters and this noise.", "quantifier": "every division of objects into clusters and noise, with or without noise", "why_tests_cant": "removal by value instead of position only matters for equal lists", "anchors": ["pyclustering/core/dbscan_wrapper.py:18-33", "pyclustering/cluster/dbscan.py:120-140"]}
{"id": "C254", "title": "The metric reaches the C++ library", "statement": "metric_wrapper.create_instance() gives the library the type of the metric and its arguments: the degree of Minkowski, the ranges of Gower.", "quantifier": "every metric of a type other than USER_DEFINED", "why_tests_cant": "results with unusual metrics are not compared between python and the library", "anchors": ["pyclustering/core/metric_wrapper.py:18-68", "pyclustering/utils/metric.py:20-60"]}
{"id": "C255", "title": "Memory of the C++ library is given back", "statement": "Every package that the library hands out is given back exactly once, whatever it contains, also if the answer is then refused; CURE data is destroyed after its three parts were read.", "quantifier": "every request and answer", "why_tests_cant": "leaks are not visible in results", "anchors": ["pyclustering/core/kmeans_wrapper.py:24-31", "pyclustering/core/cure_wrapper.py:16-65", "pyclustering/core/som_wrapper.py:170-235", "pyclustering/cluster/cure.py:150-170"]}
{"id": "C256", "title": "A network in the C++ library shows its connections", "statement": "get_neighbors() and has_connection() of a sync or syncnet network that lives in the library answer like those of a python network with the same connections, so that the local order, the picture of the network and its size are the same.", "quantifier": "every size and set of connections, every order of calls", "why_tests_cant": "with the library the answers are numbers instead of booleans, which tests of truth do not notice", "anchors": ["pyclustering/nnet/sync.py:1026-1054", "pyclustering/nnet/sync.py:63-89", "pyclustering/core/sync_wrapper.py:62-71", "pyclustering/cluster/syncnet.py:338-390", "pyclustering/cluster/hsyncnet.py:68-82", "pyclustering/nnet/__init__.py:394-409"]}
{"id": "C257", "title": "Ensembles of an output in the C++ library", "statement": "allocate_sync_ensembles() of an output in the library is about the state that the user asked for (as in python, negative numbers count from the end), or the last one, and with indexes every oscillator is replaced by its index: a division of the oscillators becomes a division of the indexes.", "quantifier": "every number of states, iteration, list of indexes and answer of the library", "why_tests_cant": "tests use neither indexes nor negative iterations with the library", "anchors": ["pyclustering/nnet/sync.py:174-205", "pyclustering/core/sync_wrapper.py:85-98"]}
{"id": "C258", "title": "k-means and k-medians do not depend on the order of the points", "statement": "If the same points are given in another order, or each of them several times (all the same number of times), k-means and k-medians started from the same centres give the same clusters (with all copies of their members), the same centres, and an error that is that many times as large.", "quantifier": "every data set of equal dimensions, order, number of copies, initial centres, tolerance and limit of iterations", "why_tests_cant": "relates two runs on different data for all data", "anchors": ["pyclustering/cluster/kmeans.py:kmeans.process", "pyclustering/cluster/kmedians.py:kmedians.process", "pyclustering/cluster/kmeans.py:520-571", "pyclustering/cluster/kmedians.py:232-319"]}
{"id": "C259", "title": "The order of the initial centres only numbers the clusters", "statement": "If the initial centres are given in another order, k-means and k-medians give the same clusters and centres in another order, and the same error.", "quantifier": "every data set, order of the initial centres, tolerance and limit of iterations", "why_tests_cant": "relates two runs for all data; it only fails with ties or when clusters are lost", "anchors": ["pyclustering/cluster/kmeans.py:520-571", "pyclustering/cluster/kmeans.py:590-610", "pyclustering/cluster/kmedians.py:118-126", "pyclustering/cluster/kmedians.py:232-258"]}
{"id": "C260", "title": "Networks in the C++ library are made, trained and simulated with what the user gave", "statement": "The library receives size, structure, data, stimulus, patterns and parameters as they were given to sync, syncnet, hsyncnet, syncpr, pcnn, legion and hhn_network, in the places it expects; arguments that the python code refuses are refused before the library is asked; an hhn recording is destroyed after it was read.", "quantifier": "every size, data set, stimulus, list of patterns and parameter that fits the types of C", "why_tests_cant": "arguments of other kinds (float patterns, empty data, no radius) take other ways with the library", "anchors": ["pyclustering/core/sync_wrapper.py:16-45", "pyclustering/core/syncnet_wrapper.py:15-33", "pyclustering/core/hsyncnet_wrapper.py:15-33", "pyclustering/core/syncpr_wrapper.py:16-69", "pyclustering/core/legion_wrapper.py:40-77", "pyclustering/core/pcnn_wrapper.py:30-59", "pyclustering/core/hhn_wrapper.py:80-143", "pyclustering/nnet/syncpr.py:262-275", "pyclustering/nnet/syncpr.py:498-511", "pyclustering/nnet/hhn.py:282-302", "pyclustering/cluster/hsyncnet.py:68-82"]}
{"id": "C261", "title": "Fuzzy c-means does not depend on the order of points and centres", "statement": "If the same points are given in another order, or each of them several times (all the same number of times), fuzzy c-means started from the same centres gives the same centres, the same memberships to every point and the same clusters. If the initial centres are given in another order, centres and memberships are the same in this order, and so are the clusters if every point has one largest membership.", "quantifier": "every data set of one dimension, order, number of copies, initial centres, fuzziness, tolerance and limit of iterations", "why_tests_cant": "relates two runs on different data for all data", "anchors": ["pyclustering/cluster/fcm.py:205-226", "pyclustering/cluster/fcm.py:229-284"]}
{"id": "C262", "title": "Silhouette scores depend neither on the order of the points nor on that of the clusters", "statement": "If points (or the rows and columns of a distance matrix), clusters and the members of clusters are given in another order, every point gets the same score.", "quantifier": "every data set, division into at least two clusters, and orders", "why_tests_cant": "relates two results for all data", "anchors": ["pyclustering/cluster/silhouette.py:146-165", "pyclustering/cluster/silhouette.py:192-302"]}
{"id": "C263", "title": "Single-link clusters do not depend on the order of the points", "statement": "If no two pairs of points have the same distance, agglomerative clustering by single link puts the same points together whatever their order; its result is the only division into that many clusters in which the members of each cluster are chained by steps that are no longer than any distance between clusters.", "quantifier": "every data set without equal distances, order and amount of clusters", "why_tests_cant": "relates two runs on different data for all data; the uniqueness is about all divisions", "anchors": ["pyclustering/cluster/agglomerative.py:process", "pyclustering/cluster/agglomerative.py:207-231", "pyclustering/cluster/agglomerative.py:299-338"]}
{"id": "C264", "title": "CLIQUE does not depend on the order of the points", "statement": "clique gives the same clusters, in the same sequence, and the same noise whatever the order in which the points are given: only the numbers of the points inside of each cluster change, as the order says. More generally, when every point is given m times, in any order, and the density threshold is multiplied by m, the clusters hold the m copies of the same points.", "quantifier": "for all data with points of one dimension, all amounts of intervals >= 1, all density thresholds, all m >= 1 and all orders of the m copies", "why_tests_cant": "tests give each sample in one order; the statement is about all permutations and multiplicities, including points on the borders of cells, which go to the first cell in the sequence of cells whatever their own place", "anchors": ["pyclustering/cluster/clique.py:595-603", "pyclustering/cluster/clique.py:623-660", "pyclustering/cluster/clique.py:684-708", "pyclustering/cluster/clique.py:329-343"]}
{"id": "C265", "title": "EM does not depend on the order of the points", "statement": "ema started from the same means and covariances ends after the same number of iterations with the same means, covariances and weights of the clusters whatever the order in which the points are given; the probabilities and the clusters go with the points. If one run raises an error, so does the other.", "quantifier": "for all data with points of one dimension, all orders, all amounts of clusters, initial means and covariances, tolerances and limits of iterations, and every density function of one point", "why_tests_cant": "relates two runs on different data for all data; covers runs in which clusters are lost, become empty or the covariances vanish", "anchors": ["pyclustering/cluster/ema.py:518-544", "pyclustering/cluster/ema.py:596-643", "pyclustering/cluster/ema.py:646-713", "pyclustering/cluster/ema.py:716-733"]}
{"id": "C266", "title": "BANG does not depend on the order of the points", "statement": "The result of bang does not depend on the order in which the points are listed: for every reordering of the data process() succeeds and gives the same clusters in the same sequence (as sets of points), the same noise, the same leaf blocks and the same dendrogram.  The same holds when every point is given m times and the density threshold and the amount threshold are multiplied by m.", "quantifier": "for all data with points of one dimension, all orders and numbers of copies, all levels and thresholds, and every iteration order of python's sets", "why_tests_cant": "relates two runs on different data for all data, including points on the borders of blocks that belong to two clusters; no finite set of shuffles decides it", "anchors": ["pyclustering/cluster/bang.py:496-585", "pyclustering/cluster/bang.py:884-941", "pyclustering/cluster/bang.py:1138-1269"]}
{"id": "C267", "title": "Numpy tables and encoded strings reach the C++ library unchanged", "statement": "The package builder packs numpy data like lists: a numpy.matrix or an array with one or two axes gives a package from which the same numbers come back row by row, whether or not a C type is given, as long as the numbers fit the type; an encoded string comes back as its bytes.", "quantifier": "for all tables, element types int64, float32 and float64, and C types", "why_tests_cant": "quantifies over all tables and over the combinations of container, element type and C type; the tests use float arrays with c_double only", "anchors": ["pyclustering/core/pyclustering_package.py:142-206", "pyclustering/core/pyclustering_package.py:209-229", "pyclustering/core/pyclustering_package.py:265-303"]}
{"id": "C268", "title": "K-medians with zero tolerance ends by itself in a local optimum", "statement": "With tolerance 0 process() of kmedians stops after finitely many iterations by itself: from some itermax on the answer is always the same, and in it no point is nearer (in the metric used) to the median of another cluster than to the median of its own.", "quantifier": "for all non-empty data and initial medians of one dimension, all large enough iteration limits; the Manhattan metric (true) and the default squared Euclidean metric (false)", "why_tests_cant": "a termination statement over all data: ties between medians could make the assignment cycle for ever, and the stopping rule compares medians by position although clusters may have been dropped", "anchors": ["pyclustering/cluster/kmedians.py:93-130", "pyclustering/cluster/kmedians.py:232-258", "pyclustering/cluster/kmedians.py:261-319"]}
{"id": "C269", "title": "BANG does not depend on the units and the origin of the coordinates", "statement": "If the same points are given in other units (each coordinate may have a unit of its own) and from another origin, bang gives the same clusters, noise and dendrogram and the same blocks in the new coordinates. A density threshold has to be divided by the unit of volume, the product of the units of the coordinates in which the points differ; the default threshold 0 stays, and so does every threshold when only the origin moves.", "quantifier": "for all data with points of one dimension, all units and origins, levels, thresholds and iteration orders of python's sets", "why_tests_cant": "relates two runs for all data and all units; flat data (equal in some coordinates) are included, for which the volume leaves coordinates out", "anchors": ["pyclustering/cluster/bang.py:496-585", "pyclustering/cluster/bang.py:676-738", "pyclustering/cluster/bang.py:884-897", "pyclustering/cluster/bang.py:1138-1269"]}
{"id": "C270", "title": "Fuzzy c-means does not depend on the unit and the origin of the coordinates", "statement": "If points and initial centres are given in another unit (one for all coordinates) and from another origin, fuzzy c-means gives the same clusters and memberships, and the centres are the same in the new coordinates, when the tolerance is multiplied by the square of the unit (changes are compared as squared distances). Moving the origin only needs no conversion.", "quantifier": "every data set of one dimension, initial centres, fuzziness, tolerance, limit of iterations, unit and origin", "why_tests_cant": "relates two runs on different data for all data; the memberships are real powers", "anchors": ["pyclustering/cluster/fcm.py:205-226", "pyclustering/cluster/fcm.py:229-284"]}
{"id": "C271", "title": "Output dynamics of sync and fsync can be indexed and unpacked as time and output", "statement": "dynamic[0] is the time, dynamic[1] the output, any other index is refused with the NameError that the code announces, and `time, output = dynamic` works.", "quantifier": "every dynamic and every index", "why_tests_cant": "all indexes; the unpacking depends on the kind of the exception for an index that no test uses", "anchors": ["pyclustering/nnet/sync.py:159-171", "pyclustering/nnet/fsync.py:72-83"]}
{"id": "C272", "title": "Clustering features compare up to a tolerance, and nodes of a CF-tree answer queries about the nearest", "statement": "cfentry == cfentry holds exactly when the numbers of points are equal and all sums differ by less than 0.00001; it is an equivalence. get_nearest_index_entry and get_nearest_entry give the first of the nearest entries of a leaf, get_nearest_successors the nearest pair of successors. Inserting or merging keeps the feature of a node the sum of the features that it holds.", "quantifier": "all features, nodes and measurements", "why_tests_cant": "all features and all lists of entries, including equal distances", "anchors": ["pyclustering/container/cftree.py:168-188", "pyclustering/container/cftree.py:449-475", "pyclustering/container/cftree.py:507-533", "pyclustering/container/cftree.py:590-614", "pyclustering/container/cftree.py:646-681"]}
{"id": "C273", "title": "X-means, G-means and the elbow method do not depend on the unit and the origin of the coordinates", "statement": "Measured in another unit and from another origin, with the tolerance converted, the data give the same clusters and the centres in the new coordinates: the decisions of X-means to split a cluster (both criteria) and those of G-means (for a test of normality that does not depend on the origin of a sample) are unchanged. The elbow method chooses the same amount for errors multiplied by one factor.", "quantifier": "all data, units, origins, draws of the initializer, limits, criteria parameters", "why_tests_cant": "relates two runs on different data for all data; the criteria use logarithms and roots", "anchors": ["pyclustering/cluster/xmeans.py:243-261", "pyclustering/cluster/xmeans.py:402-507", "pyclustering/cluster/xmeans.py:535-635", "pyclustering/cluster/gmeans.py:182-191", "pyclustering/cluster/gmeans.py:271-377", "pyclustering/cluster/elbow.py:186-212"]}
{"id": "C274", "title": "OPTICS does not depend on the unit of distance and the origin of the coordinates", "statement": "With all distances multiplied by one positive factor and the radius converted, OPTICS gives the same clusters, noise and order of the points, for points (also from another origin) and for distance matrices, with or without a requested amount of clusters; core and reachability distances, the final radius and the ordering are multiplied by the factor.", "quantifier": "all points or distance matrices, radii, numbers of neighbours, amounts and factors", "why_tests_cant": "relates two runs on different data for all data, including ties in the order of neighbours", "anchors": ["pyclustering/cluster/optics.py:122-223", "pyclustering/cluster/optics.py:460-505", "pyclustering/cluster/optics.py:629-756", "pyclustering/container/kdtree.py:318-352", "pyclustering/container/kdtree.py:459-500"]}
{"id": "C275", "title": "The graph colouring network of phase oscillators: adjacent vertices repel, others attract", "statement": "The phase of every vertex of syncgcolor follows the sum over the other vertices of the sine of the phase difference, weighted negatively for adjacent vertices and positively for the others; the equation treats vertices with the same neighbours and phase alike, does not depend on a common rotation of the phases and keeps their sum; whatever phases it starts from, it separates adjacent vertices.", "quantifier": "all graphs, weights and phases", "why_tests_cant": "a statement about the equation for all graphs and all real phases; tests run a few graphs from random phases", "anchors": ["pyclustering/gcolor/sync.py:77-136", "pyclustering/nnet/sync.py:976-1003"]}
{"id": "C276", "title": "Arithmetic of lists and lengths of vectors", "statement": "The list_math functions apply their operation entry by entry, subtraction undoes addition and division undoes multiplication, a zero divisor is reported; lists of different sizes are refused; norm_vector is a norm (positive, homogeneous, triangle inequality) and the norm of a difference is the Euclidean distance.", "quantifier": "all lists of real numbers", "why_tests_cant": "algebraic laws over all lists of all lengths", "anchors": ["pyclustering/utils/__init__.py:507-523", "pyclustering/utils/__init__.py:1197-1306"]}
{"id": "C277", "title": "Expectation-maximization does not depend on the units and the origin of the coordinates", "statement": "With the points, initial means and covariances given in another unit and from another origin, ema gives the same clusters and responsibilities, and means and covariances in the new coordinates; the same when only one coordinate is measured in another unit.", "quantifier": "all data, numbers of clusters, initial means and covariances, tolerances and numbers of iterations", "why_tests_cant": "relates two whole runs on different data, for all data and all units", "anchors": ["pyclustering/cluster/ema.py:29-61", "pyclustering/cluster/ema.py:518-544", "pyclustering/cluster/ema.py:596-733"]}
{"id": "C278", "title": "The region number and the level identify a BANG block", "statement": "After process() the pair (get_region(), level) is unique in the BANG directory: two blocks given out by get_leafs() or get_level() with the same pair are the same block, the leafs have pairwise different pairs, the blocks of one level have different region numbers, and every region number is below 2 to the power of the level.", "quantifier": "all data sets of one dimension, numbers of levels, thresholds and iteration orders of sets", "why_tests_cant": "the documented uniqueness is about all directories of any depth; tests look at sizes of clusters", "anchors": ["pyclustering/cluster/bang.py:746-798", "pyclustering/cluster/bang.py:863-881", "pyclustering/cluster/bang.py:496-585"]}
{"id": "C279", "title": "len() and get_level() of the BANG directory", "statement": "len() of the directory is the number of blocks stored in it, in particular it counts every leaf, and get_level(k) returns blocks of level k.", "quantifier": "all data sets of one dimension, numbers of levels, thresholds and iteration orders of sets", "why_tests_cant": "an accounting invariant of the construction for all directories", "anchors": ["pyclustering/cluster/bang.py:441-449", "pyclustering/cluster/bang.py:474-495", "pyclustering/cluster/bang.py:515-540"]}
{"id": "C280", "title": "CLARANS does not depend on the unit and the origin of the coordinates", "statement": "For the same random numbers clarans gives the same clusters and the same medoids when the points are given in another unit and from another origin.", "quantifier": "all data, random numbers, numbers of clusters, local searches and neighbours", "why_tests_cant": "relates two whole runs on different data, for all data and all random choices", "anchors": ["pyclustering/cluster/clarans.py:73-103", "pyclustering/cluster/clarans.py:147-284"]}
{"id": "C281", "title": "A self-organized map and SOM-SC do not depend on the unit and the origin of the coordinates", "statement": "Trained on the same points in another unit and from another origin, with the threshold of the automatic stop converted, a map stops after the same epoch, its neurons win the same points, its weights are the old ones in the new coordinates, and it answers the same for new points; SOM-SC gives the same clusters. This holds for every way of initialization.", "quantifier": "all data, sizes, connections, radii, rates, thresholds, numbers of epochs and random numbers", "why_tests_cant": "relates two whole trainings on different data, for all data and all units", "anchors": ["pyclustering/nnet/som.py:383-440", "pyclustering/nnet/som.py:522-658", "pyclustering/nnet/som.py:660-683", "pyclustering/cluster/somsc.py:54-129"]}
{"id": "C282", "title": "The dynamic simulation of a syncpr network records a recall from the given pattern to the requested memory order", "statement": "simulate_dynamic of syncpr starts from the phases 0 and pi/2 of the features 1 and -1, records states that follow one another, goes on exactly while the memory order is below the requested one and still changes by at least the threshold, and reports the times of the states. A pattern of equal features is returned at once. A pattern of a wrong size or with other features is refused.", "quantifier": "all networks, patterns, orders, steps and thresholds", "why_tests_cant": "a relation between all recorded states of a run of unknown length", "anchors": ["pyclustering/nnet/syncpr.py:316-392", "pyclustering/nnet/syncpr.py:452-473"]}
{"id": "C283", "title": "Clusters of CURE record the exact distance to a cluster at hand", "statement": "After every merge each cluster of CURE records as closest another cluster at hand, with the exact distance between the representatives. At the start these are nearest points. The head of the queue is merged with the cluster it records; the new cluster records a nearest of all others; a cluster whose recorded one was merged records a nearest of all others, or the new cluster when that is not farther than the merged one was; all other records are kept. The search in the tree of representatives finds every representative in the radius.", "quantifier": "all data, numbers of clusters and representatives, compressions, and merges", "why_tests_cant": "an invariant that relates the queue, the tree of representatives and the recorded neighbours at every merge", "anchors": ["pyclustering/cluster/cure.py:165-230", "pyclustering/cluster/cure.py:353-377", "pyclustering/cluster/cure.py:461-529", "pyclustering/container/kdtree.py:459-500"]}
{"id": "C284", "title": "CURE does not depend on the unit and the origin of the coordinates", "statement": "With all points given in another unit and from another origin, CURE gives the same clusters in the same order, and the means and representatives in the new coordinates; parameters that are refused are refused in both.", "quantifier": "all points, units, origins, numbers of clusters and representatives, and compressions", "why_tests_cant": "relates two whole runs on different data, including the shape of the two trees of representatives and ties between distances", "anchors": ["pyclustering/cluster/cure.py:102-128", "pyclustering/cluster/cure.py:165-230", "pyclustering/cluster/cure.py:325-529", "pyclustering/container/kdtree.py:270-352", "pyclustering/container/kdtree.py:459-500", "pyclustering/container/kdtree.py:583-740"]}
{"id": "C285", "title": "BIRCH does not depend on the origin and the unit of the coordinates", "statement": "With all points measured from another origin, or in another unit with the diameter converted, BIRCH gives the same clusters and the same groups of features, and every feature is that of the same points in the new coordinates.", "quantifier": "all points, measures, branching factors, numbers of entries and clusters, limits, multipliers and diameters", "why_tests_cant": "relates two whole runs on different data: two trees that are split, merged and rebuilt in step", "anchors": ["pyclustering/cluster/birch.py:97-163", "pyclustering/cluster/birch.py:218-304", "pyclustering/container/cftree.py:151-341", "pyclustering/container/cftree.py:854-1138"]}
{"id": "C286", "title": "The genetic algorithm does not depend on the origin and the unit of the coordinates", "statement": "With all points measured from another origin, or in another unit with the same parameters, the genetic algorithm fed with the same random numbers finds the same chromosome and clusters, and the fitness values given to the observer are multiplied by the factor of the unit.", "quantifier": "all points, units, origins, numbers of clusters, chromosomes and generations, mutation parameters, selection coefficients and random numbers", "why_tests_cant": "relates two whole randomised runs on different data, with an exponential of the fitness in the choice of the chromosomes", "anchors": ["pyclustering/cluster/ga.py:428-530", "pyclustering/cluster/ga.py:628-702", "pyclustering/cluster/ga_maths.py:54-165"]}
{"id": "C287", "title": "The answers of dimension_info do not depend on earlier calls", "statement": "However often and in which order the methods of dimension_info are called, every answer is the one the data give: the number of coordinates, the greatest and least coordinates, the width and the centre of the box of the points. A call that the data do not allow raises an exception every time.", "quantifier": "all data, all sequences of calls, with exceptions caught and changes of the data by their owner between the calls", "why_tests_cant": "tests make a few calls on new objects; what is stored by one call and returned by a later one depends on the whole history, including calls that raised", "anchors": ["pyclustering/utils/dimension.py:18-90"]}
{"id": "C288", "title": "The fitness of a chromosome depends on its partition only", "statement": "The fitness that the genetic algorithm gives a chromosome does not change when the clusters get other numbers or when the points are given in another order together with their genes, and the clusters read from the chromosome are the same sets of points.", "quantifier": "all points, chromosomes, numbers of clusters, renumberings and orders", "why_tests_cant": "an equality over all permutations of clusters and of points", "anchors": ["pyclustering/cluster/ga.py:671-702", "pyclustering/cluster/ga_maths.py:26-81"]}
{"id": "C289", "title": "The chaotic network does not depend on the origin and the unit of the coordinates", "statement": "With the stimuli measured from another origin or in another unit, a chaotic neural network that starts from the same outputs goes through the same outputs; the average distance to the neighbours is multiplied by the factor of the unit.", "quantifier": "all stimuli, origins, units, connections (all to all, or any triangles), numbers of neighbours and steps, and starting outputs", "why_tests_cant": "relates two whole simulations of a chaotic system on different data", "anchors": ["pyclustering/nnet/cnn.py:294-354", "pyclustering/nnet/cnn.py:357-434", "pyclustering/utils/__init__.py:199-229"]}
{"id": "C290", "title": "Fuzzy c-means stops when no centre moves by more than the tolerance", "statement": "The centres that fuzzy c-means returns are those of the first round in which no centre moved by more than the tolerance, or of the last round allowed, and the memberships are those the last centres were calculated from.", "quantifier": "all points, starting centres, values of m, tolerances from zero and numbers of rounds from one", "why_tests_cant": "a statement about every round of every run; tests look at the result of a few runs", "anchors": ["pyclustering/cluster/fcm.py:99-119", "pyclustering/cluster/fcm.py:205-226", "pyclustering/cluster/fcm.py:268-276"]}
