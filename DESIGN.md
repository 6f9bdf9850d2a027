# Formal model of pyclustering: design

Source: `/repo/pyclustering` (pure-Python paths; `ccore=False`).  Nothing was executed;
the models below were written by reading the text.

## Conventions

* One Coq library `Verif` (`rocq/theories`).  For each topic `X`:
  `X_Model.v` holds only definitions that mirror the Python functions (each with a
  `file:lines` citation), `X_Proofs.v` the independent specification at its head and the
  proofs, `X_Props.v` the property theorems, the concrete cases (`Example`) meeting their
  hypotheses, and `Print Assumptions`.
* Python exceptions are values (`Raise e`); loops without a structural measure run on
  explicit fuel whose exhaustion is the distinguished value `OutOfFuel` – the theorems show
  that it is not returned for an explicit amount of fuel.
* Numbers.  Python floats are modelled by exact rationals `Q` (computable, ordered) where the
  code only uses `+ - * /` and comparisons, and by the axiomatic reals `R` where it uses
  square roots, powers, exponentials.  Rounding, NaN, overflow and infinities produced by
  arithmetic are **not** modelled; `float('inf')`/`None`/`NaN` used as markers become `option`.
* Randomness is an explicit stream (oracle) argument; theorems quantify over all streams.
* Object identity (`is`, aliasing of lists) is modelled only where a property depends on it
  (C19: caller's data; CURE: cluster identity) by explicit identifiers.
* External numeric code (numpy reductions, scipy `odeint`, gaussian density) is a parameter.

## Trusted base

* The Coq 8.16.1 kernel (`coqchk` is run by the gate) and the definitions in `*_Model.v`
  being faithful to the cited lines – checked by reading only.
* `Print Assumptions` of every theorem is printed below the theorem.  Theorems over
  `nat`/`Z`/`Q` are closed under the global context.  Theorems over `R` list the standard
  library's `ClassicalDedekindReals.sig_forall_dec`, `ClassicalDedekindReals.sig_not_dec`
  and `FunctionalExtensionality.functional_extensionality_dep` (sometimes a subset,
  sometimes `Classical_Prop.classic` with logarithms/exponentials).  No other axiom is used.
* Not modelled: the C++ core (what it is asked and what is made of its answers is modelled for C244-C255), matplotlib (what it is told to draw is modelled for C185-C210), text parsing of files, numpy dtype conversion, logging,
  floating-point rounding, time and memory.

Properties that are false of the code are kept in `properties.jsonl`, refuted by a witness
(`…_refuted`), and the true part is proved next to it or characterised for all inputs.

## Per property

Model, specification and theorems of a property are in the files `X_Model.v`, `X_Proofs.v` and `X_Props.v` of the topic `X` named in the second column. The status is the one of MANIFEST.json; "partial" means that the statement as given is false of the code or proved only under an extra condition, and the note says which.

| Id | Topic | Status | What is modelled | How it is proved | Note |
|---|---|---|---|---|---|
| C01 kd-tree point lookup is exact for every history | Kd | proved | functional binary tree with a discriminator per node; construction, insert, remove, find, range and nearest search; points are lists of rationals | search-tree invariant (left <, right >= on the discriminator) preserved by every operation; every history of operations is a multiset of (point, payload); pruning shown sound | functional tree model of container/kdtree.py; all construction + insert/remove histories; exact rationals |
| C02 kd-tree range search is exact | Kd | proved | functional binary tree with a discriminator per node; construction, insert, remove, find, range and nearest search; points are lists of rationals | search-tree invariant (left <, right >= on the discriminator) preserved by every operation; every history of operations is a multiset of (point, payload); pruning shown sound | distance >= 0; exact rationals |
| C03 kd-tree nearest node within a distance | Kd | proved | functional binary tree with a discriminator per node; construction, insert, remove, find, range and nearest search; points are lists of rationals | search-tree invariant (left <, right >= on the discriminator) preserved by every operation; every history of operations is a multiset of (point, payload); pruning shown sound | distance >= 0; exact rationals |
| C04 kd-tree insert/remove change exactly one element | Kd | proved | functional binary tree with a discriminator per node; construction, insert, remove, find, range and nearest search; points are lists of rationals | search-tree invariant (left <, right >= on the discriminator) preserved by every operation; every history of operations is a multiset of (point, payload); pruning shown sound | parent pointers implicit in the model |
| C05 leftmost position search | Search | proved | binary search over a comparator with fuel | loop invariant; fuel `right_border` suffices; leftmost element with the property | strict weak order comparator; non-negative indices |
| C06 DSATUR yields a proper colouring with consecutive colours | Dsatur | proved | adjacency matrix, colouring loop, any iteration order of the set of uncoloured vertices | invariant: proper partial colouring with contiguous colours; saturation choice shown maximal; for bipartite graphs an invariant that the coloured part of a component is two-coloured | any iteration order of the python set; weighted matrices allowed |
| C07 label and index-list encodings are mutually inverse | Encoder | proved | the six conversions and set_encoding; object equality and str() are parameters | list induction; round trips for well-formed encodings; witnesses where a conversion drops or invents a cluster |  |
| C08 object-list encoding preserves the objects | Encoder | proved | the six conversions and set_encoding; object equality and str() are parameters | list induction; round trips for well-formed encodings; witnesses where a conversion drops or invents a cluster | for objects whose equality agrees with equality of str(); a witness shows the failure otherwise |
| C09 DBSCAN output is a partition | Dbscan | proved | neighbour search by the kd-tree model (points) or a row scan (matrix); visited and belonging flags, growing work list | the work-list invariant gives exact density-reachability; every non-noise point in one cluster; fuel bounded by the number of points | points of one dimension; square matrices |
| C10 DBSCAN clusters are the density-connected components | Dbscan | proved | neighbour search by the kd-tree model (points) or a row scan (matrix); visited and belonging flags, growing work list | the work-list invariant gives exact density-reachability; every non-noise point in one cluster; fuel bounded by the number of points | order of points inside a cluster is not specified beyond its first element |
| C11 OPTICS output is a partition and an ordering | Optics | proved | ordered seed list with reachability updates, extraction of clusters and noise | invariant: reachability is the least offer of the processed core points; the queue is sorted; components of the density graph | minpts >= 1 as stated; minpts = 0 is accepted by the constructor and fails (witness) |
| C12 OPTICS reachability and core distances are sound | Optics | proved | ordered seed list with reachability updates, extraction of clusters and noise | invariant: reachability is the least offer of the processed core points; the queue is sorted; components of the density graph | stronger: reachability is the least offer of earlier core points and the order is by least reachability; point mode keeps squared distances |
| C13 k-means returns a partition whose centres are the means | Kmeans | proved | first-minimum assignment, means, erasing of empty clusters, loop on fuel | argmin lemmas, variance decomposition, finitely many partitions with decreasing error | itermax >= 1; without an iteration no clusters are produced (last theorem) |
| C14 k-means never increases the within-cluster error | Kmeans | proved | first-minimum assignment, means, erasing of empty clusters, loop on fuel | argmin lemmas, variance decomposition, finitely many partitions with decreasing error | squared Euclidean metric for the error |
| C15 k-medians centres are coordinate-wise medians and minimise Manhattan error | Kmeans | proved | assignment, coordinate-wise medians, loop, predict | median minimises the sum of absolute deviations; partition invariant |  |
| C16 k-medoids swap cost and monotonicity | Kmedoids | partial | swap cost, main loop and cluster update of k-medoids | case analysis of the swap cost against recomputation; witness of a worsening swap; invariant of a run | swap cost proved exact; 'only improving swaps are applied' is false of the code (witness); what a run does is C65 |
| C17 PAM BUILD picks distinct, greedily optimal medoids | Kmedoids | proved | PAM BUILD | greedy choice shown optimal at each step |  |
| C18 BSAS / MBSAS / TTSAS produce bounded partitions with mean representatives | Bsas | proved | BSAS, MBSAS, TTSAS with a heap of point objects | loop invariant: partition, representatives are means; aliasing witnesses | the data entries are different list objects (the last theorem shows that means are wrong otherwise); in addition the run is shown to follow the textbook scheme |
| C19 sequential clustering leaves the caller's data unchanged | Bsas | partial | BSAS, MBSAS, TTSAS with a heap of point objects | loop invariant: partition, representatives are means; aliasing witnesses | false of the code: the founder of each cluster is overwritten by the mean; nothing else changes (second theorem) |
| C20 agglomerative clustering yields exactly the requested partition size | Aggl | proved | four links with pairwise search over all clusters | partition invariant; single link: cut property of the minimum spanning forest | the average link value is the one of the code, the sum of squared distances over the number of points of both clusters (see C68) |
| C21 single-link clusters are separated by more than the last merge distance | Aggl | proved | four links with pairwise search over all clusters | partition invariant; single link: cut property of the minimum spanning forest | distances are squared euclidean distances, which order the pairs as distances do |
| C22 ROCK output is a partition of linked objects | Rock | proved | adjacency, links, goodness over the reals | every merge joins a pair of greatest positive goodness; clusters are connected; witness at threshold 1 | in addition every merge is shown to join a pair with the greatest positive goodness; uses the axioms of the real numbers |
| C23 CF-tree conserves the clustering feature | Birch | partial | functional CF-tree with object identifiers, all five measures, splitting, threshold increase; BIRCH extraction | conservation and shape invariants of insertions; statistics against sums over the points; witnesses with zero diameters and shared objects; the amount of entries never shrinks under insertion, so a tree within the limit is never rebuilt | proved for every sequence of insertions in which the caller does not insert one entry object twice (every sequence of insert_point calls is one); false otherwise, as a leaf split then drops a copy (second theorem) |
| C24 CF-tree structural limits | Birch | partial | functional CF-tree with object identifiers, all five measures, splitting, threshold increase; BIRCH extraction | conservation and shape invariants of insertions; statistics against sums over the points; witnesses with zero diameters and shared objects; the amount of entries never shrinks under insertion, so a tree within the limit is never rebuilt | proved for max_entries >= 1; 0 is accepted by the code and cannot be kept (second theorem) |
| C25 BIRCH assigns every point to exactly one cluster | Birch | proved | functional CF-tree with object identifiers, all five measures, splitting, threshold increase; BIRCH extraction | conservation and shape invariants of insertions; statistics against sums over the points; witnesses with zero diameters and shared objects; the amount of entries never shrinks under insertion, so a tree within the limit is never rebuilt | for max_node_entries >= 1; also shows that the features stand for groups of the points which together are the data, and that every point follows a nearest feature; that process() returns is C73 |
| C26 CLIQUE clusters are the connected groups of dense cells | Clique | proved | grid, location of points, neighbours, expansion of dense blocks | mixed radix enumeration is a bijection; clusters are the components of dense blocks | exact arithmetic; points of one dimension |
| C27 k-means++ returns distinct points of the data | Init | proved | k-means++ and random initialisers with explicit random stream | distinctness invariant over all streams | a freshly constructed initialiser; the last theorem shows that a second initialize() can raise KeyError |
| C28 random initializer returns distinct points | Init | proved | k-means++ and random initialisers with explicit random stream | distinctness invariant over all streams | a freshly constructed initialiser; repeated calls use the indexes up |
| C29 reservoir sampling returns items from distinct positions | Init | proved | reservoir_r and reservoir_x with explicit random stream | distinct positions of the data; for reservoir_r a counting argument gives the uniform distribution | reservoir_x needs n >= 1 and positive random thresholds; for n = 0 it does not return (last theorem) |
| C30 silhouette scores lie in [-1, 1] | Silhouette | partial | silhouette scores over a distance table | means over other clusters; bounds by order reasoning; cases that give nan | proved for any square distance table (also data_type='distance_matrix') and any disjoint non-empty clusters, except for a point that coincides with all points of its own and of another cluster, whose score is nan |
| C31 elbow picks an interior k | Elbow | proved | elbow method with errors as an oracle | distance to the line by algebra, first maximum | the elbow length is the distance to the line the code uses, through (0, first error) and (number of errors, last error); the documented line is C88 |
| C32 fuzzy c-means memberships of a point sum to one | Fcm | partial | memberships, centres and loop over the reals | algebra of the membership quotient; convex combination; witnesses | the exact sum is proved for every point; it is 1 unless the point is one of the centres |
| C33 CLARANS returns a partition around distinct medoids | Clarans | proved | CLARANS with random stream and fuel | partition and local-optimum invariants; closed form of the cost for one cluster shows non-termination | for runs that finish; see C94 |
| C34 BANG covers all points and clusters are disjoint | Bang | partial | block directory, splitting by level, neighbourhood and dendrogram | blocks cover the data box by induction on the levels; clusters by expansion; in one and two dimensions leaf blocks lie on a grid, so that a block has at most eight neighbours and the allocation visits all of them; witnesses on faces of blocks | coverage and totality proved; disjointness is false of the code for points on faces of blocks (refuted), and shared points are shown to lie on a common face of two leaf blocks |
| C35 distance functions are metrics | Metric | proved | distance functions over the reals, python and numpy versions | Cauchy-Schwarz and Minkowski inequalities, order reasoning; witnesses of failed axioms | real arithmetic, points of one length |
| C36 X-means respects kmax and returns a partition | Xmeans | proved | k-means calls as oracles obeying the proved contract; splitting criteria and the Anderson-Darling answer as parameters or real formulas | counting of free centres; bound of the number of rounds; algebra of the criteria | for every metric, criterion and seeds |
| C37 G-means respects k_max and reports the error of its clusters | Xmeans | partial | k-means calls as oracles obeying the proved contract; splitting criteria and the Anderson-Darling answer as parameters or real formulas | counting of free centres; bound of the number of rounds; algebra of the criteria | k_max and partition proved; the error is 0.0 when no split is accepted, otherwise right |
| C38 SOM grid topology | Topology | proved | neighbour lists of the four SOM structures as index arithmetic | coordinates (row, column) |  |
| C39 oscillatory network grid topology | Topology | partial | connection structures of nnet | coordinates; witnesses for the grids; all sizes characterised | false of the code for the grids (math.ceil instead of floor); what is built is characterised for all sizes; the other structures are C58 |
| C40 sync ensembles partition the oscillators | Ensembles | partial | sync ensembles, phase matrix, order parameters | loop invariants; trigonometric identities over the reals | false of the code: abs(phase - 2*pi) reflects the phase, so antiphase oscillators are joined; the indexes argument is applied to joining members only.  The true part is C59 |
| C41 hysteresis ensembles group equal oscillators | Ensembles | partial | allocation of hysteresis ensembles | loop invariant characterising the output | false of the code: the captured flag is not reset for each group; the exact output is characterised for all inputs, including that it is a partition |
| C42 PCNN ensembles describe the recorded spikes | Ensembles | proved | PCNN ensemble extraction and time signal | list invariants |  |
| C43 genetic algorithm returns a valid best solution | Ga | proved | population of chromosomes, selection, crossover, mutation with random oracle | permutation and length invariants; measure of an interval for the roulette wheel | mutation coefficient at most one (above one the code raises IndexError), shuffles are permutations |
| C44 EM responsibilities and clusters are consistent | Ema | proved | expectation and maximization steps, extraction, loop, normalisation over the reals; the density is a parameter | algebra of sums; alignment invariant of means, covariances, weights, responsibilities and clusters | densities are a parameter assumed positive and finite for non-zero covariances (C44_gaussian_regular shows it of gaussian() in exact arithmetic); returned probabilities add up to one up to the 0.000001 of the code; tolerance below 100000 so that the loop is entered |
| C45 core package codec round trip | Codec | proved | nested lists and packages as trees of memory | structural induction | numbers must fit the C type (the third theorem shows what happens otherwise); strings and numpy matrices are not modelled |
| C46 CURE produces exactly the requested clusters without failing | Cure | proved | queue with cluster identifiers, kd-tree of representatives given by its proved contract | consistency invariant of queue and store; witness that the merged pair is not the closest | the radius of the kd-tree search is a square root; comparisons with it are made between squares in the model (C46_le_sqrt, C46_lt_sqrt) |
| C47 phase normalisation | Small | proved | phase normalisation loop with fuel | fuel bound; period invariant | exact arithmetic; 2*pi is any positive rational; for floats of huge magnitude the python loop may not progress, which is rounding and not modelled |
| C48 bounding boxes are tight | Small | proved | data corners and dimension info | fold invariants |  |
| C49 reprocessing is idempotent | Aggl, Bang, Bsas, Clique, Dbscan, Elbow | partial | second process() on one object | state is carried over in the models; witnesses | false of the code; refuted for DBSCAN, BSAS, CLIQUE, BANG (dendrogram), centroid-link agglomerative and the elbow method; positive cases are C67 and C69 |
| C50 graph representation is recognised | Small | partial | graph representation detection | closed form of the answer | false of the code: `(e != 0) or (e != 1)` always holds; what is reported is characterised for all inputs |
| C51 DSATUR follows the saturation order | Dsatur | proved | adjacency matrix, colouring loop, any iteration order of the set of uncoloured vertices | invariant: proper partial colouring with contiguous colours; saturation choice shown maximal; for bipartite graphs an invariant that the coloured part of a component is two-coloured | non-negative entries |
| C52 DSATUR is optimal on bipartite graphs | Dsatur | proved | adjacency matrix, colouring loop, any iteration order of the set of uncoloured vertices | invariant: proper partial colouring with contiguous colours; saturation choice shown maximal; for bipartite graphs an invariant that the coloured part of a component is two-coloured |  |
| C53 index-list to labels round trip is unconditional | Encoder | partial | the six conversions and set_encoding; object equality and str() are parameters | list induction; round trips for well-formed encodings; witnesses where a conversion drops or invents a cluster | the statement is false of the code: refuted by witnesses, failures characterised exactly |
| C54 encoder conversions commute | Encoder | proved | the six conversions and set_encoding; object equality and str() are parameters | list induction; round trips for well-formed encodings; witnesses where a conversion drops or invents a cluster |  |
| C55 OPTICS finds the density components | Optics | proved | ordered seed list with reachability updates, extraction of clusters and noise | invariant: reachability is the least offer of the processed core points; the queue is sorted; components of the density graph | symmetric matrices |
| C56 OPTICS allocates the requested amount of clusters | Optics | partial | the ordering analyser: number of clusters for a radius, connectivity radius search | soundness of an answer; two witnesses where the requested amount is not produced | false of the code (two witnesses); what holds of the analyser is proved |
| C57 OPTICS ordering describes the final objects | Descent, Optics | partial | ordered seed list with reachability updates, extraction of clusters and noise | invariant: reachability is the least offer of the processed core points; the queue is sorted; components of the density graph | false when the radius is changed to reach the amount of clusters; proved instead: get_ordering() always describes the run with the radius given to the constructor, so it is right whenever that run already has the amount |
| C58 plain oscillator structures and dynamic connections | Topology | proved | connection structures of nnet | coordinates; witnesses for the grids; all sizes characterised | the last theorem shows that repeated set_connection duplicates list entries |
| C59 sync ensembles: what is guaranteed | Ensembles | proved | sync ensembles, phase matrix, order parameters | loop invariants; trigonometric identities over the reals |  |
| C60 pulses of an oscillator are counted and grouped | Ensembles | proved | oscillation counting and pulse ensembles | list invariants over output dynamics |  |
| C61 total dynamic weight of a LEGION oscillator is bounded by Wt | Ensembles | partial | LEGION weights | closed form of the matrix | false of the code: the weight Wt / (stimulated neighbours) is given to all neighbours; the matrix that is built is characterised |
| C62 order parameters lie in [0, 1] | Order | proved | sync ensembles, phase matrix, order parameters | loop invariants; trigonometric identities over the reals | all-zero phases raise ZeroDivisionError (last theorem) |
| C63 k-means with zero tolerance stops in a local optimum | Kmeans | proved | first-minimum assignment, means, erasing of empty clusters, loop on fuel | argmin lemmas, variance decomposition, finitely many partitions with decreasing error |  |
| C64 k-medoids labels agree with the clusters | Kmedoids | partial | get_labels / predict against returned clusters | exact agreement when no cluster was erased; witness otherwise | false of the code when a cluster is erased; proved when none is |
| C65 k-medoids: what a run does | Kmedoids | proved | swap cost, main loop and cluster update of k-medoids | case analysis of the swap cost against recomputation; witness of a worsening swap; invariant of a run |  |
| C66 reservoir_r is uniform | Init | proved | reservoir_r and reservoir_x with explicit random stream | distinct positions of the data; for reservoir_r a counting argument gives the uniform distribution | reservoir_x is not covered |
| C67 TTSAS may be processed again | Bsas | proved | BSAS, MBSAS, TTSAS with a heap of point objects | loop invariant: partition, representatives are means; aliasing witnesses |  |
| C68 average link compares average distances | Aggl | partial | four links with pairwise search over all clusters | partition invariant; single link: cut property of the minimum spanning forest | false of the code: the sum is divided by the sum of the sizes; true between pairs of equal sizes (second theorem) |
| C69 agglomerative clustering may be processed again | Aggl | proved | four links with pairwise search over all clusters | partition invariant; single link: cut property of the minimum spanning forest |  |
| C70 every threshold accepted by ROCK can be processed | Rock | partial | adjacency, links, goodness over the reals | every merge joins a pair of greatest positive goodness; clusters are connected; witness at threshold 1 | false of the code at threshold = 1; below 1 it is C22 |
| C71 CURE merges the two closest clusters | Cure, Nested | partial | queue with cluster identifiers, kd-tree of representatives given by its proved contract | consistency invariant of queue and store; witness that the merged pair is not the closest | true of the first merge (C71_first_merge), false of later ones: the merged cluster and the relocated ones are inserted into a queue whose keys have changed, which leaves it unsorted |
| C72 statistics of clustering features are exact | Birch | proved | functional CF-tree with object identifiers, all five measures, splitting, threshold increase; BIRCH extraction | conservation and shape invariants of insertions; statistics against sums over the points; witnesses with zero diameters and shared objects; the amount of entries never shrinks under insertion, so a tree within the limit is never rebuilt | squared quantities; the last theorem shows the effect of the cut at 1e-9 |
| C73 inserting points into a CF-tree never fails | Birch | partial | functional CF-tree with object identifiers, all five measures, splitting, threshold increase; BIRCH extraction | conservation and shape invariants of insertions; statistics against sums over the points; witnesses with zero diameters and shared objects; the amount of entries never shrinks under insertion, so a tree within the limit is never rebuilt | Proved for all five measures, max_entries >= 1 and thresholds t >= 0 with t*t >= 1e-9 (and multiplier >= 1 for birch). False for smaller thresholds: because diameters with numerator below 1e-9 are reported as 0, three points around 0 with threshold 0 make the split fail with AttributeError. |
| C74 BIRCH keeps the entry limit | Birch, Birchlimit | partial | functional CF-tree with object identifiers, all five measures, splitting, threshold increase; BIRCH extraction | conservation and shape invariants of insertions; statistics against sums over the points; witnesses with zero diameters and shared objects; the amount of entries never shrinks under insertion, so a tree within the limit is never rebuilt | false of the code: the loop that increases the threshold runs once only; proved when the first threshold already keeps the limit |
| C75 BIRCH returns no empty cluster | Birch, Birchlimit | partial | functional CF-tree with object identifiers, all five measures, splitting, threshold increase; BIRCH extraction | conservation and shape invariants of insertions; statistics against sums over the points; witnesses with zero diameters and shared objects; the amount of entries never shrinks under insertion, so a tree within the limit is never rebuilt | false of the code; proved when every entry has its centre in a point of the data and the centres are distinct |
| C76 BANG clusters are connected unions of dense blocks | Bang | proved | block directory, splitting by level, neighbourhood and dendrogram | blocks cover the data box by induction on the levels; clusters by expansion; in one and two dimensions leaf blocks lie on a grid, so that a block has at most eight neighbours and the allocation visits all of them; witnesses on faces of blocks | exact arithmetic; the neighbourhood test is the one of the code (upper corners, 0.01 % slack) |
| C77 BANG dendrogram | Bang | partial | block directory, splitting by level, neighbourhood and dendrogram | blocks cover the data box by induction on the levels; clusters by expansion; in one and two dimensions leaf blocks lie on a grid, so that a block has at most eight neighbours and the allocation visits all of them; witnesses on faces of blocks | every block once per cluster is proved; the decreasing order is false of the code |
| C78 BANG: neighbouring dense blocks share a cluster | Bang, Bangplane | partial | block directory, splitting by level, neighbourhood and dendrogram | blocks cover the data box by induction on the levels; clusters by expansion; in one and two dimensions leaf blocks lie on a grid, so that a block has at most eight neighbours and the allocation visits all of them; witnesses on faces of blocks | proved for data of one or two coordinates none of which is constant; false in three dimensions |
| C79 BANG directory height | Bang | partial | block directory, splitting by level, neighbourhood and dendrogram | blocks cover the data box by induction on the levels; clusters by expansion; in one and two dimensions leaf blocks lie on a grid, so that a block has at most eight neighbours and the allocation visits all of them; witnesses on faces of blocks | false of the code for levels >= 2; the height is max 1 (levels - 1) |
| C80 Minkowski distance is a metric for every degree | Metric | partial | distance functions over the reals, python and numpy versions | Cauchy-Schwarz and Minkowski inequalities, order reasoning; witnesses of failed axioms | proved for even integer degrees; false for odd degrees, as the code takes no absolute values: degree 1 is negative and degree 3 gives complex numbers |
| C81 chi square distance is a metric | Metric | partial | distance functions over the reals, python and numpy versions | Cauchy-Schwarz and Minkowski inequalities, order reasoning; witnesses of failed axioms | everything but the triangle inequality is proved; the triangle inequality is false |
| C82 Gower distance is a normalised metric on its data | Metric | proved | distance functions over the reals, python and numpy versions | Cauchy-Schwarz and Minkowski inequalities, order reasoning; witnesses of failed axioms |  |
| C83 numpy_usage does not change distances | Metric | partial | distance functions over the reals, python and numpy versions | Cauchy-Schwarz and Minkowski inequalities, order reasoning; witnesses of failed axioms | proved for all types, for Gower when the points agree in the columns of range zero; false otherwise (numpy gives the largest double) |
| C84 distance matrices are symmetric with zeros exactly at equal points | Metric | proved | distance functions over the reals, python and numpy versions | Cauchy-Schwarz and Minkowski inequalities, order reasoning; witnesses of failed axioms |  |
| C85 every silhouette score is a number in [-1, 1] | Silhouette | partial | silhouette scores over a distance table | means over other clusters; bounds by order reasoning; cases that give nan | false of the code: nan for a cluster of one point, below -1 for every point of a single cluster; C85_silhouette_cases covers all clusterings |
| C86 silhouette_ksearch returns the best amount in [kmin, kmax] | Silhouette | partial | silhouette_ksearch with the clustering algorithm as an oracle | first maximum of a fold; witness for kmax | proved for kmin .. kmax-1; kmax itself is never tried |
| C87 silhouette_ksearch amount agrees with its scores | Silhouette | partial | silhouette_ksearch with the clustering algorithm as an oracle | first maximum of a fold; witness for kmax | holds for the first process() (C86); false for later ones |
| C88 the elbow is measured to the documented segment | Elbow, Further | partial | elbow method with errors as an oracle | distance to the line by algebra, first maximum | false of the code, witness computed with the k-means model; proved instead: for errors below the segment the returned amount is never less than the documented one, and equal under a stated lead; proved for three amounts |
| C89 fuzzy c-means centres stay inside the data | Fcm | proved | memberships, centres and loop over the reals | algebra of the membership quotient; convex combination; witnesses |  |
| C90 fuzzy c-means uses the documented formulas | Fcm | partial | memberships, centres and loop over the reals | algebra of the membership quotient; convex combination; witnesses | false of the code; the memberships are the documented ones for (m+1)/2, the centres are weighted by the plain memberships |
| C91 fuzzy c-means clusters follow the memberships | Fcm | partial | memberships, centres and loop over the reals | algebra of the membership quotient; convex combination; witnesses | partition and largest membership proved; nearest centre proved for points that are no centre, false for a point that is a centre |
| C92 CLARANS returns the best of its local results | Clarans | partial | CLARANS with random stream and fuel | partition and local-optimum invariants; closed form of the cost for one cluster shows non-termination | proved for data without coinciding points; false with coinciding points, whose emptied clusters misalign clusters and medoids in the estimation |
| C93 CLARANS moves to a neighbour only if it is better | Clarans, Claranscost | partial | CLARANS with random stream and fuel | partition and local-optimum invariants; closed form of the cost for one cluster shows non-termination | false of the code; for one cluster every candidate is accepted while the medoid is not point 0; for more clusters, unless a medoid's index equals the number of the replaced one, the price counts only the points that gain, and only those of two clusters, so candidates from these clusters are always accepted |
| C94 CLARANS finishes | Clarans | partial | CLARANS with random stream and fuel | partition and local-optimum invariants; closed form of the cost for one cluster shows non-termination | false of the code; a finished run for one cluster always returns medoid 0, and where point 0 is the worst medoid no run finishes |
| C95 X-means and G-means finish | Xmeans | proved | k-means calls as oracles obeying the proved contract; splitting criteria and the Anderson-Darling answer as parameters or real formulas | counting of free centres; bound of the number of rounds; algebra of the criteria | squared Euclidean metric |
| C96 X-means judges clusters of two points by the data | Xmeans | partial | k-means calls as oracles obeying the proved contract; splitting criteria and the Anderson-Darling answer as parameters or real formulas | counting of free centres; bound of the number of rounds; algebra of the criteria | false of the code: BIC always splits a pair of different points, MNDL never |
| C97 the splitting scores of X-means are the documented ones | Xmeans | partial | k-means calls as oracles obeying the proved contract; splitting criteria and the Anderson-Darling answer as parameters or real formulas | counting of free centres; bound of the number of rounds; algebra of the criteria | MNDL proved; the code's BIC subtracts the penalty once per cluster, which changes decisions; a split is accepted exactly where the score that the code computes improves. |
| C98 genetic algorithm selects by fitness | Gasel | proved | population of chromosomes, selection, crossover, mutation with random oracle | permutation and length invariants; measure of an interval for the roulette wheel | real arithmetic |
| C99 crossover and mutation of the genetic algorithm change what they should | Ga | proved | population of chromosomes, selection, crossover, mutation with random oracle | permutation and length invariants; measure of an interval for the roulette wheel |  |
| C100 EMA density is the multivariate normal density | Ema | partial | gaussian() with the pseudo-inverse as a parameter | field computation against the textbook density | true in one dimension; in two dimensions the code divides by the square root of the Frobenius norm instead of the determinant: the value is the density times sqrt(determinant/norm), and differs already for the standard normal distribution |
| C101 EMA centres and covariances are weighted moments of the data | Ema | proved | expectation and maximization steps, extraction, loop, normalisation over the reals; the density is a parameter | algebra of sums; alignment invariant of means, covariances, weights, responsibilities and clusters | for positive densities, exact real arithmetic |
| C102 EMA drops an impossible cluster consistently | Ema, Emalost | partial | expectation and maximization steps, extraction, loop, normalisation over the reals; the density is a parameter | algebra of sums; alignment invariant of means, covariances, weights, responsibilities and clusters | false: the maximization step removes the cluster from the means, covariances and weights but not from the responsibilities, so extraction reads the wrong row and a populated cluster gets lost.  C102_rows says for every input which row is read; C102_last_removed: the claim holds when the removed clusters are the last ones |
| C103 CF-tree inserts towards the nearest leaf | Cfquery, Descent | partial | functional CF-tree with object identifiers, all five measures, splitting, threshold increase; BIRCH extraction | conservation and shape invariants of insertions; statistics against sums over the points; witnesses with zero diameters and shared objects; the amount of entries never shrinks under insertion, so a tree within the limit is never rebuilt | false of the code beyond a single leaf; proved instead: whatever the entry, it goes to the one leaf that the tree itself singles out, and there to the nearest entry or becomes a new one |
| C104 CF-tree queries: nearest leaf and levels | Cfquery | proved | functional CF-tree with object identifiers, all five measures, splitting, threshold increase; BIRCH extraction | conservation and shape invariants of insertions; statistics against sums over the points; witnesses with zero diameters and shared objects; the amount of entries never shrinks under insertion, so a tree within the limit is never rebuilt | no entry object inserted twice by the caller (see C23) |
| C105 SOM training captures every object exactly once | Som | proved | initial weights, competition, adaptation, training loop with autostop, simulate; SOM-SC on top of it; rate, radius and influence are parameters | invariant of statistics over the pass and over the epochs; updates are convex combinations; witnesses by computation | rate, radius and influence are arbitrary functions |
| C106 SOM weights stay inside the box of the data | Som | proved | initial weights, competition, adaptation, training loop with autostop, simulate; SOM-SC on top of it; rate, radius and influence are parameters | invariant of statistics over the pass and over the epochs; updates are convex combinations; witnesses by computation | exact rationals; rate and influence in [0, 1] (exp of a non-positive number; init_learn_rate <= 1) |
| C107 SOM simulate and SOM-SC predict return a nearest neuron | Som | proved | initial weights, competition, adaptation, training loop with autostop, simulate; SOM-SC on top of it; rate, radius and influence are parameters | invariant of statistics over the pass and over the epochs; updates are convex combinations; witnesses by computation |  |
| C108 SOM-SC prediction agrees with the clusters | Further, Som | partial | initial weights, competition, adaptation, training loop with autostop, simulate; SOM-SC on top of it; rate, radius and influence are parameters | invariant of statistics over the pass and over the epochs; updates are convex combinations; witnesses by computation | false: the weights keep moving after a point was captured; witness with one epoch and rate 1/2; proved for the last point of the data when the rate is less than one |
| C109 SOM distance matrix is the mean squared distance to the neighbours | Som | proved | distance and density matrices over the connection lists of C38 | exact neighbour sets of C38; counting lemma for the nested loops |  |
| C110 SOM density matrix counts the covered points | Som | proved | distance and density matrices over the connection lists of C38 | exact neighbour sets of C38; counting lemma for the nested loops |  |
| C111 Maps of every size can be inspected | Som | partial | distance and density matrices over the connection lists of C38 | exact neighbour sets of C38; counting lemma for the nested loops | false: the neuron of a 1x1 map has no neighbours and the division by their number raises ZeroDivisionError; see C109 for all other sizes |
| C112 The uniform grid covers the surface of the data | Som | partial | uniform grid formula; default radius and the parameter object | algebra; witnesses | proved for at least two rows and two columns; false for one row and one-dimensional data (SOM-SC), where all neurons start at the centre |
| C113 SOM-SC returns a partition into the requested number of clusters | Som | proved | initial weights, competition, adaptation, training loop with autostop, simulate; SOM-SC on top of it; rate, radius and influence are parameters | invariant of statistics over the pass and over the epochs; updates are convex combinations; witnesses by computation |  |
| C114 SOM-SC clusters are not empty and the documented edge cases hold | Som | partial | initial weights, competition, adaptation, training loop with autostop, simulate; SOM-SC on top of it; rate, radius and influence are parameters | invariant of statistics over the pass and over the epochs; updates are convex combinations; witnesses by computation | false in each part: zero epochs leave all clusters empty, a neuron may win nothing, predict before process raises AttributeError.  True part: with one cluster and at least one epoch the cluster has all points (and C113 for the partition) |
| C115 The default SOM radius depends only on the size of the map | Som | partial | uniform grid formula; default radius and the parameter object | algebra; witnesses | proved for a fresh parameter object; false when the object is used again because the constructor stores the radius in it |
| C116 Distances between clusters are what their names say | Cldist | proved | utils functions on groups given by points or indexes; the euclidean distance is a function parameter for C117 | algebra against the clustering features of C64; counting lemmas on the sorted rows; monotone averages of sorted lists | exact rationals; the functions that take the square root are stated for the value under the root |
| C117 Average neighbour distance | Cldist | proved | utils functions on groups given by points or indexes; the euclidean distance is a function parameter for C117 | algebra against the clustering features of C64; counting lemmas on the sorted rows; monotone averages of sorted lists | the distance (a float) is a function parameter with non-negative values |
| C118 The average neighbour distance grows with the number of neighbours | Cldist | proved | utils functions on groups given by points or indexes; the euclidean distance is a function parameter for C117 | algebra against the clustering features of C64; counting lemmas on the sorted rows; monotone averages of sorted lists |  |
| C119 hsyncnet returns at most the requested number of clusters | Syncnet, Tight | partial | syncnet construction on the network of C38; hsyncnet loop with fuel, the simulation a function parameter | boolean equations for the connections; loop invariant over the levels; witnesses by computation | all but termination proved for at least two points, whatever the simulation does; false for a single point (ZeroDivisionError) and for number_clusters = 0 (never ends) |
| C120 syncnet connects exactly the points within the radius | Syncnet | proved | syncnet construction on the network of C38; hsyncnet loop with fuel, the simulation a function parameter | boolean equations for the connections; loop invariant over the levels; witnesses by computation |  |
| C121 syncnet connection weights are scaled distances | Syncnet | partial | syncnet construction on the network of C38; hsyncnet loop with fuel, the simulation a function parameter | boolean equations for the connections; loop invariant over the levels; witnesses by computation | scaled weights proved when two distances differ; false when all distances are equal (weight is the distance itself), and the closest pair always gets weight 0, so it is not coupled |
| C122 Oscillators of a connected group stay together | Kuramoto | proved | one FAST step of both Kuramoto equations and simulate_dynamic over the reals | sin x <= x and the arc shorter than pi bound the mean of the couplings; loop invariant with the chain of states | real numbers instead of floats; FAST solver |
| C123 simulate_dynamic records all states until the order is reached | Kuramoto | proved | one FAST step of both Kuramoto equations and simulate_dynamic over the reals | sin x <= x and the arc shorter than pi bound the mean of the couplings; loop invariant with the chain of states | local order and step are functions of the phases |
| C124 syncsom returns a partition of the objects | Syncsom | proved | training of C105, awarded neurons, second layer on syncnet of C120, decoding; the simulation a function parameter | captured objects partition the data (C105), ensembles partition the oscillators (C39); witness by computation | training parameters, initial phases and the simulation are arbitrary |
| C125 syncsom clusters of objects and of neurons agree | Syncsom | partial | training of C105, awarded neurons, second layer on syncnet of C120, decoding; the simulation a function parameter | captured objects partition the data (C105), ensembles partition the oscillators (C39); witness by computation | proved for eps = 0.01; false with the default arguments (0.1 and 0.01) |
| C126 Colour maps describe the ensembles | Gcolor | partial | colour maps, construction of both colouring networks, static simulation loops with numpy.arange in exact arithmetic | painting invariant; connection equations of C38; algebra; witnesses | colours are ensembles for both networks; for the hysteresis network vertices with identical output can get different colours, exactly characterised |
| C127 syncgcolor couples adjacent vertices negatively | Gcolor | proved | colour maps, construction of both colouring networks, static simulation loops with numpy.arange in exact arithmetic | painting invariant; connection equations of C38; algebra; witnesses |  |
| C128 hysteresisgcolor can be built for every graph | Gcolor | partial | colour maps, construction of both colouring networks, static simulation loops with numpy.arange in exact arithmetic | painting invariant; connection equations of C38; algebra; witnesses | weights and states proved when no row sums up to zero; otherwise, e.g. for an isolated vertex, ZeroDivisionError (exact characterisation) |
| C129 Static simulation makes the requested number of steps | Gcolor | partial | colour maps, construction of both colouring networks, static simulation loops with numpy.arange in exact arithmetic | painting invariant; connection equations of C38; algebra; witnesses | exact arithmetic instead of float arange; the hysteresis network without collecting always raises AttributeError (None.append) |
| C130 DBSCAN on points and on their distance matrix agree | Dbmeta | proved | two runs of the DBSCAN model of C09 | the result of C10 is unique up to the order inside clusters; density links are monotone and invariant under renaming; witness by computation | the matrix holds exact distances, i.e. non-negative numbers whose squares are the squared distances |
| C131 A larger radius or fewer required neighbours never breaks up a DBSCAN cluster | Dbmeta | proved | two runs of the DBSCAN model of C09 | the result of C10 is unique up to the order inside clusters; density links are monotone and invariant under renaming; witness by computation |  |
| C132 DBSCAN core structure does not depend on the order of points | Dbmeta | proved | two runs of the DBSCAN model of C09 | the result of C10 is unique up to the order inside clusters; density links are monotone and invariant under renaming; witness by computation |  |
| C133 DBSCAN grouping does not depend on the order of points | Dbmeta | partial | two runs of the DBSCAN model of C09 | the result of C10 is unique up to the order inside clusters; density links are monotone and invariant under renaming; witness by computation | false for border points in reach of two clusters, they go to the cluster met first; C132 is the part that holds |
| C134 One simulation step is the Kuramoto equation | Kuramoto | proved | one FAST step of both Kuramoto equations and simulate_dynamic over the reals | sin x <= x and the arc shorter than pi bound the mean of the couplings; loop invariant with the chain of states | real numbers instead of floats; FAST solver |
| C135 syncpr.train stores the samples as Hebb couplings | Syncpr | proved | training over rationals, memory order and phase equation over the reals, list objects as references into a memory | invariant over the visited pairs; the squared order as a double sum of cosines; antisymmetric double sums; reference arithmetic; witnesses |  |
| C136 syncpr can be trained incrementally | Syncpr | partial | training over rationals, memory order and phase equation over the reals, list objects as references into a memory | invariant over the visited pairs; the squared order as a double sum of cosines; antisymmetric double sums; reference arithmetic; witnesses | false: a second call divides the old couplings by the size of the network once more; exact couplings proved |
| C137 The memory order measures the agreement with a pattern | Syncpr | proved | training over rationals, memory order and phase equation over the reals, list objects as references into a memory | invariant over the visited pairs; the squared order as a double sum of cosines; antisymmetric double sums; reference arithmetic; witnesses | real numbers instead of floats |
| C138 Recalled patterns are stationary and the mean phase is kept | Syncpr | proved | training over rationals, memory order and phase equation over the reals, list objects as references into a memory | invariant over the visited pairs; the squared order as a double sum of cosines; antisymmetric double sums; reference arithmetic; witnesses | real numbers instead of floats; FAST solver for the step, the vector field for the others |
| C139 A returned syncpr dynamic does not change any more | Syncpr | partial | training over rationals, memory order and phase equation over the reals, list objects as references into a memory | invariant over the visited pairs; the squared order as a double sum of cosines; antisymmetric double sums; reference arithmetic; witnesses | the returned states are right until the next simulation, which writes its pattern into the list object that is the last state of the old result |
| C140 One adaptation of a som moves exactly the neurons it should | Somstep | proved | adaptation and training loop of C105 | updates at pairwise different indexes (connection lists of C38 have no duplicates); loop invariant with the list of the weights after every epoch | exact arithmetic; the influence is any function of the distance and the radius |
| C141 som.train with autostop ends at the first settled epoch | Somstep | proved | adaptation and training loop of C105 | updates at pairwise different indexes (connection lists of C38 have no duplicates); loop invariant with the list of the weights after every epoch | exact arithmetic; radius and rate any functions of the epoch |
| C142 One step of a pulse coupled network follows its equations | Pcnn | proved | one step with both loops (fast linking with fuel) and simulate over exact rationals on the networks of C58 | equations by unfolding the sums to counts of firing neighbours; the first fast-linking run is an increasing chain; a two-cycle of the pass for the endless loop; induction over the steps | exact arithmetic; neighbours are those reported by get_neighbors (C58) |
| C143 Fast linking settles | Pcnn | partial | one step with both loops (fast linking with fuel) and simulate over exact rationals on the networks of C58 | equations by unfolding the sums to counts of firing neighbours; the first fast-linking run is an increasing chain; a two-cycle of the pass for the endless loop; induction over the steps | consistency of the result proved; the first step of a new network ends for non-negative stimuli and couplings; later steps may loop for ever (two connected oscillators taking turns) |
| C144 The output dynamic of a pulse coupled network is complete and can be continued | Pcnn | proved | one step with both loops (fast linking with fuel) and simulate over exact rationals on the networks of C58 | equations by unfolding the sums to counts of firing neighbours; the first fast-linking run is an increasing chain; a two-cycle of the pass for the endless loop; induction over the steps |  |
| C145 A pulse coupled network without stimulus stays silent | Pcnn | proved | one step with both loops (fast linking with fuel) and simulate over exact rationals on the networks of C58 | equations by unfolding the sums to counts of firing neighbours; the first fast-linking run is an increasing chain; a two-cycle of the pass for the endless loop; induction over the steps |  |
| C146 The output of a chaotic network is the weighted mean of the logistic maps of the others | Cnn | proved | weights, one step and the simulation loop over exact rationals; the exponential a function parameter, the triangles of scipy an argument; ensembles and observation matrix | invariant over the connected pairs (symmetric entries, row sums); bounds by weighted means; classes by the invariant of the joining loop; witnesses | exact arithmetic; exp(-x) any non-negative function |
| C147 A synchronous chaotic network follows the logistic map | Cnn | partial | weights, one step and the simulation loop over exact rationals; the exponential a function parameter, the triangles of scipy an argument; ensembles and observation matrix | invariant over the connected pairs (symmetric entries, row sums); bounds by weighted means; classes by the invariant of the joining loop; witnesses | proved for ALL_TO_ALL; false for TRIANGULATION_DELAUNAY, where edges shared by two triangles are counted twice in the normalising sum |
| C148 Ensembles of a chaotic network are the classes of equal activity | Cnn | proved | weights, one step and the simulation loop over exact rationals; the exponential a function parameter, the triangles of scipy an argument; ensembles and observation matrix | invariant over the connected pairs (symmetric entries, row sums); bounds by weighted means; classes by the invariant of the joining loop; witnesses |  |
| C149 simulate() of a chaotic network works for every stimulus | Cnn | partial | weights, one step and the simulation loop over exact rationals; the exponential a function parameter, the triangles of scipy an argument; ensembles and observation matrix | invariant over the connected pairs (symmetric entries, row sums); bounds by weighted means; classes by the invariant of the joining loop; witnesses | false: equal points or a point whose weights all underflow to zero raise ZeroDivisionError; NameError for too few points proved |
| C150 A simulation of phase oscillators covers the requested time | Odesync | partial | phase steps of all three solvers and the static simulation over the reals; odeint a function parameter | the integration grid of numpy.arange has ten points and ends one tenth before the step; induction over the steps; witness | false: RK4 and RKF45 integrate over 9/10 of every step (numpy.arange leaves the end out), FAST advances one unit of time per step whatever the step is; the exact phases are proved; odeint is a parameter that is exact for constant derivatives |
| C151 LEGION oscillators follow the published equations | Legion, Tight | proved | construction, one step and simulate over the reals; odeint a function parameter, parameters rational | unfolding of the equations, counting stimulated neighbours; relaxation towards 0 or 1 keeps [0,1]; induction over the steps; witnesses | neighbour lists without duplicates (always so for the matrix representation); odeint is a parameter |
| C152 The global inhibitor and the potentials of a LEGION network stay between 0 and 1 | Legion | proved | construction, one step and simulate over the reals; odeint a function parameter, parameters rational | unfolding of the equations, counting stimulated neighbours; relaxation towards 0 or 1 keeps [0,1]; induction over the steps; witnesses | odeint is a parameter that solves the relaxation equation exactly |
| C153 simulate() of a LEGION network returns the dynamic with its times | Legion | partial | construction, one step and simulate over the reals; odeint a function parameter, parameters rational | unfolding of the equations, counting stimulated neighbours; relaxation towards 0 or 1 keeps [0,1]; induction over the steps; witnesses | the values are proved; false: the property time gives 0, 1, 2, ... instead of the times, and without collecting len() and time raise TypeError |
| C154 Only the signs of a LEGION stimulus matter | Legion | proved | construction, one step and simulate over the reals; odeint a function parameter, parameters rational | unfolding of the equations, counting stimulated neighbours; relaxation towards 0 or 1 keeps [0,1]; induction over the steps; witnesses |  |
| C155 The equations of a Hodgkin-Huxley neuron are the published ones and defined for every potential | Hhn | partial | derivatives of one neuron, pulse and link bookkeeping, one step and simulate over the reals with rational times and parameters; odeint an arbitrary function, the noise drawn | positivity of x/(exp x - 1); signs of the alfa function; chains over the steps for the pulse lists and the link counter; witnesses with constant solvers | equations proved; false for every potential: v = vRest + 25 and v = vRest + 10 (exactly these) raise ZeroDivisionError (nan for numpy operands) although the limits exist; real numbers instead of floats |
| C156 Central elements inhibit the peripheral neurons, which excite the first central element | Hhn | partial | derivatives of one neuron, pulse and link bookkeeping, one step and simulate over the reals with rational times and parameters; odeint an arbitrary function, the noise drawn | positivity of x/(exp x - 1); signs of the alfa function; chains over the steps for the pulse lists and the link counter; witnesses with constant solvers | proved when all pulses are in the past; false in a second simulation, where the time starts at 0 again and the kept pulse times of the first lie in the future, so they excite |
| C157 Pulses are recorded at the upward zero crossings of the membrane potential | Hhn | proved | derivatives of one neuron, pulse and link bookkeeping, one step and simulate over the reals with rational times and parameters; odeint an arbitrary function, the noise drawn | positivity of x/(exp x - 1); signs of the alfa function; chains over the steps for the pulse lists and the link counter; witnesses with constant solvers | odeint is an arbitrary function |
| C158 The connection from the second central element is switched by the activity of the neuron | Hhn | proved | derivatives of one neuron, pulse and link bookkeeping, one step and simulate over the reals with rational times and parameters; odeint an arbitrary function, the noise drawn | positivity of x/(exp x - 1); signs of the alfa function; chains over the steps for the pulse lists and the link counter; witnesses with constant solvers | odeint is an arbitrary function; the first activation of a new network, and every activation for the time it stays on; exact times |
| C159 simulate() of a Hodgkin-Huxley network returns the membrane dynamic from the current state on | Hhn | partial | derivatives of one neuron, pulse and link bookkeeping, one step and simulate over the reals with rational times and parameters; odeint an arbitrary function, the noise drawn | positivity of x/(exp x - 1); signs of the alfa function; chains over the steps for the pulse lists and the link counter; witnesses with constant solvers | proved except the first row of the central elements, which is always zero, also in later simulations |
| C160 The states of a hysteresis network follow their relaxation equation over the requested time | Hyst | partial | derivative, switching of the buffered outputs and the steps over the reals; odeint and the points at which it evaluates the derivative are parameters | the input is constant during a step; last evaluation outside [-1,1]; induction over the steps; witness by the exact formula | the equation is proved; false for the time: every step is integrated over 9/10 of its length only (numpy.arange leaves the end out); odeint is a parameter that solves the relaxation equation exactly |
| C161 The outputs of a hysteresis network are binary and switch at +1 and -1 | Hyst | proved | derivative, switching of the buffered outputs and the steps over the reals; odeint and the points at which it evaluates the derivative are parameters | the input is constant during a step; last evaluation outside [-1,1]; induction over the steps; witness by the exact formula | the states at which odeint evaluates the derivative are a parameter |
| C162 The states of a hysteresis network stay bounded | Hyst | proved | derivative, switching of the buffered outputs and the steps over the reals; odeint and the points at which it evaluates the derivative are parameters | the input is constant during a step; last evaluation outside [-1,1]; induction over the steps; witness by the exact formula | odeint is a parameter that solves the relaxation equation exactly |
| C163 A graph file of edges gives exactly the written edges | Files | proved | read_graph line by line on parsed lines with the dictionary of neighbours, and the constructor of graph | invariant of the dictionary (keys = ends of edges, values = neighbours) over the lines; n different keys containing 1..n are 1..n; refutation by witness | lines are modelled after splitting and parsing of numbers |
| C164 A graph file may describe isolated vertices | Files | partial | read_graph line by line on parsed lines with the dictionary of neighbours, and the constructor of graph | invariant of the dictionary (keys = ends of edges, values = neighbours) over the lines; n different keys containing 1..n are 1..n; refutation by witness | false: a vertex without an edge (or a vertex 0) makes read_graph raise KeyError |
| C165 A graph file of rows is read as written and descriptions are not mixed | Files | proved | read_graph line by line on parsed lines with the dictionary of neighbours, and the constructor of graph | invariant of the dictionary (keys = ends of edges, values = neighbours) over the lines; n different keys containing 1..n are 1..n; refutation by witness | lines are modelled after splitting and parsing of numbers |
| C166 The type of a graph is recognised when it is not given | Files | partial | read_graph line by line on parsed lines with the dictionary of neighbours, and the constructor of graph | invariant of the dictionary (keys = ends of edges, values = neighbours) over the lines; n different keys containing 1..n are 1..n; refutation by witness | false: the test (element != 0) or (element != 1) always holds, so every graph with a vertex is of vector type |
| C167 Answers of samples are a partition of the points with clusters by label | Files | proved | the reader with its cached state; a line is noise, a label or unreadable | permutation invariant of the loop; with labels in order the clusters are the label classes of the prefix; witnesses | lines are modelled after parsing |
| C168 Answers are grouped by label whatever the order, and a broken file is always refused | Files | partial | the reader with its cached state; a line is noise, a label or unreadable | permutation invariant of the loop; with labels in order the clusters are the label classes of the prefix; witnesses | false for labels out of order (a new label takes the next free cluster) and after an error (the clusters read before it are returned by the next call) |
| C169 The borders of a picture are the smallest box around its dark pixels | Files | proved | the double counter loop over the pixels with exact grey values | invariant: the four borders are tight for the dark pixels met so far | exact arithmetic for the grey value |
| C170 Borders of a blank picture and grey values | Files | partial | the double counter loop over the pixels with exact grey values | invariant: the four borders are tight for the dark pixels met so far | false: a picture without dark pixels gives (width, height, 1, 1), and the weights sum to 0.9999, so grey v becomes 0.9999 v; the range is proved with that factor |
| C171 Colour segments of an image | Segm | proved | both layers of syncsegm over the ensembles of C40/C59; the simulations of the networks are function parameters | the ensembles of the first layer are a partition (C59) and filtering keeps disjointness; division with remainder; witnesses with two colours | the simulation is a parameter that records states of the right size; python path of the ensembles |
| C172 Coordinates of the pixels of a segment | Segm | proved | both layers of syncsegm over the ensembles of C40/C59; the simulations of the networks are function parameters | the ensembles of the first layer are a partition (C59) and filtering keeps disjointness; division with remainder; witnesses with two colours | exact division instead of the float division of the code |
| C173 Objects of an image refine its colours | Segm | partial | both layers of syncsegm over the ensembles of C40/C59; the simulations of the networks are function parameters | the ensembles of the first layer are a partition (C59) and filtering keeps disjointness; division with remainder; witnesses with two colours | false for more than one colour: the python path of the ensembles mixes positions in the segment with indexes of pixels, so objects contain pixels of other colours, lose pixels, or an IndexError is raised; proved for one colour, without radius, and below the noise size |
| C174 fsync: the equation of an oscillator | Fsync | proved | construction, field, one step and simulate over pairs of reals with rational times; odeint a function parameter | the coupling sum by components; inner product with the field is not positive outside the disc; induction over the steps and the simulations; addition theorems for the rotation; witness solver that rotates | real numbers instead of floats |
| C175 fsync: amplitudes stay bounded | Fsync | proved | construction, field, one step and simulate over pairs of reals with rational times; odeint a function parameter | the coupling sum by components; inner product with the field is not positive outside the disc; induction over the steps and the simulations; addition theorems for the rotation; witness solver that rotates | odeint is a parameter that does not leave a disc whose outside the field points away from, as no exact solution does |
| C176 fsync: an uncoupled oscillator rotates with its frequency | Fsync | partial | construction, field, one step and simulate over pairs of reals with rational times; odeint a function parameter | the coupling sum by components; inner product with the field is not positive outside the disc; induction over the steps and the simulations; addition theorems for the rotation; witness solver that rotates | false for the time: every step is integrated over 9/10 of its length only; the rotation by w * 9/10 t is proved for a solver that is exact on rotations |
| C177 fsync: shape of the recorded dynamic | Fsync | partial | construction, field, one step and simulate over pairs of reals with rational times; odeint a function parameter | the coupling sum by components; inner product with the field is not positive outside the disc; induction over the steps and the simulations; addition theorems for the rotation; witness solver that rotates | proved for the first simulation of a network; in a second one the first row consists of complex arrays instead of real parts |
| C178 Width and height of an ellipse are those of the data | Ellipse | proved | the permutations of the values and rows, the first column, arctan2 and the axes over reals; eigh is any result with its documented properties | expansion of a unit vector in the eigenbasis; arctan2 by quadrants from atan; the mirrored axis is orthogonal to the first column | numpy.linalg.eigh is any decomposition with the promised properties (ascending values, orthonormal columns) |
| C179 The angle of an ellipse is its main axis | Ellipse | partial | the permutations of the values and rows, the first column, arctan2 and the axes over reals; eigh is any result with its documented properties | expansion of a unit vector in the eigenbasis; arctan2 by quadrants from atan; the mirrored axis is orthogonal to the first column | false: the rows of the eigenvector matrix are permuted instead of its columns, the axis is mirrored; for (2 1; 1 2) the returned angle is the direction of the smallest variance whichever eigenvectors are found. Proved: it is the mirrored main axis in general, and right for uncorrelated coordinates |
| C180 Generated data follow the sizes, centres and widths | Generator | proved | constructor, centres and generate with positions in a stream of standard normal deviates, exact rationals | closed form of the point lists by induction over the clusters; interval arithmetic for the separation |  |
| C181 Default clusters are separated | Generator | proved | constructor, centres and generate with positions in a stream of standard normal deviates, exact rationals | closed form of the point lists by induction over the clusters; interval arithmetic for the separation |  |
| C182 Random initial means of EM are different data points | Emainit | partial | random and k-means initialisation and the constructor with streams of draws; numpy.cov is the unbiased sample covariance | induction over the means with the retry loop; the form of the covariance is a sum of squares after exchanging sums; witnesses | number and closeness are proved; the means are different only if fewer than ten draws in a row repeat: the perturbation leaves zero coordinates alone, so two equal means can come out |
| C183 Initial clusters and covariances of EM are valid | Emainit | partial | random and k-means initialisation and the constructor with streams of draws; numpy.cov is the unbiased sample covariance | induction over the means with the retry loop; the form of the covariance is a sum of squares after exchanging sums; witnesses | all proved except definiteness: a mean with at most one point starts with a matrix of equal entries, singular in two or more dimensions |
| C184 EM starts from the parameters it is given | Emainit | partial | random and k-means initialisation and the constructor with streams of draws; numpy.cov is the unbiased sample covariance | induction over the means with the retry loop; the form of the covariance is a sum of squares after exchanging sums; witnesses | means given without covariances are ignored; the other parts are proved |
| C185 cluster_visualizer draws exactly what was appended | Canvas | proved | the visualizer as a state with its exceptions and what they leave behind; show returns the axes with their marks | invariant over the calls that relates the descriptors of every canvas to the requests; loops that draw are flat maps when they return; witnesses for the refused clusters |  |
| C186 A cluster refused by cluster_visualizer leaves no trace | Canvas | partial | the visualizer as a state with its exceptions and what they leave behind; show returns the axes with their marks | invariant over the calls that relates the descriptors of every canvas to the requests; loops that draw are flat maps when they return; witnesses for the refused clusters | false: the descriptor is stored before the checks, so a refused cluster is drawn, can break show, and a first cluster with a wrong dimension blocks the canvas for good; the theorems without suffix say this holds always |
| C187 Canvases that do not exist are refused | Canvas | partial | the visualizer as a state with its exceptions and what they leave behind; show returns the axes with their marks | invariant over the calls that relates the descriptors of every canvas to the requests; loops that draw are flat maps when they return; witnesses for the refused clusters | refusal without change is proved; the exception is never the ValueError (IndexError for the first missing canvas, TypeError from the message format otherwise), and titles accept negative indexes |
| C188 Colours of clusters on a canvas | Canvas | proved | the visualizer as a state with its exceptions and what they leave behind; show returns the axes with their marks | invariant over the calls that relates the descriptors of every canvas to the requests; loops that draw are flat maps when they return; witnesses for the refused clusters |  |
| C189 Every canvas has a cell of its own in the figure | Canvas | proved | the visualizer as a state with its exceptions and what they leave behind; show returns the axes with their marks | invariant over the calls that relates the descriptors of every canvas to the requests; loops that draw are flat maps when they return; witnesses for the refused clusters |  |
| C190 cluster_visualizer_multidim shows every pair of coordinates once | Multivis | proved | pairs, grid and marks of the multi-dimensional visualizer; draw_clusters | same picture lemmas as C185; counting of combinations; division with remainder; distinct colours by computation |  |
| C191 The grid of cluster_visualizer_multidim fits | Multivis | proved | pairs, grid and marks of the multi-dimensional visualizer; draw_clusters | same picture lemmas as C185; counting of combinations; division with remainder; distinct colours by computation |  |
| C192 What cluster_visualizer_multidim accepts can be shown | Multivis | partial | pairs, grid and marks of the multi-dimensional visualizer; draw_clusters | same picture lemmas as C185; counting of combinations; division with remainder; distinct colours by computation | clusters of another dimension are accepted and make show fail; the other parts are proved |
| C193 draw_clusters gives every cluster a colour of its own | Marks, Multivis | proved | pairs, grid and marks of the multi-dimensional visualizer; draw_clusters | same picture lemmas as C185; counting of combinations; division with remainder; distinct colours by computation |  |
| C194 The coloured picture of segments shows every segment in a colour of its own | Draw | partial | the colouring of the flat list of pixels, reshape, the grid arithmetic with exact square roots | induction over segments with the last writer winning; division with remainder for the cells, which are pairwise different | segments 2 and 5 have the same colour, the only pair; everything else is proved, for up to 19 segments (IndexError beyond) |
| C195 The masks of segments are in a grid, each black exactly on its segment | Draw | proved | the colouring of the flat list of pixels, reshape, the grid arithmetic with exact square roots | induction over segments with the last writer winning; division with remainder for the cells, which are pairwise different |  |
| C196 draw_dynamics draws every dynamic on the plot asked for | Draw | partial | number of plots, groups, curves drawn in order; matplotlib refuses lists of different length | closed form of the loop as a flat map; first group by induction | false for a single group, where all dynamics are drawn; proved otherwise (a dynamic in several groups is drawn with the first) |
| C197 draw_dynamics_set draws every set of dynamics in a cell of its own | Draw | proved | number of plots, groups, curves drawn in order; matplotlib refuses lists of different length | closed form of the loop as a flat map; first group by induction |  |
| C198 dynamic_visualizer.show draws on new axes, or on the given ones | Draw | partial | the visualizer as a state with its exceptions; show returns the owner of the axes, borders, and curves | invariant over the calls; witnesses for the refuted parts | false: the test for a given axis is inverted; C198_always shows that it fails for all visualizers |
| C199 dynamic_visualizer puts every dynamic on the canvas asked for, in its colour | Draw | partial | the visualizer as a state with its exceptions; show returns the owner of the axes, borders, and curves | invariant over the calls; witnesses for the refuted parts | proved without groups; with groups the canvas is ignored and unlisted dynamics go to canvas 0; colours are ignored |
| C200 The x axes of dynamic_visualizer cover the dynamics, or are as given | Draw | partial | the visualizer as a state with its exceptions; show returns the owner of the axes, borders, and curves | invariant over the calls; witnesses for the refuted parts | automatic borders are proved; given borders are kept when they start after 0, replaced when they start below 0 |
| C201 clique_visualizer.show_grid draws every cell where its points are | Blocks | proved | the rectangles, opacities and marks given to matplotlib, over the cells of C71-C75 (CLIQUE) and the leafs of C34/C76 (BANG) | projection of the cell or block of a point; existence of a slot for every coordinate; the sorted leafs end with the densest; induction over the clusters for the bars |  |
| C202 bang_visualizer draws the leafs over their points, clusters filled, and the dendrogram cluster by cluster | Blocks | proved | the rectangles, opacities and marks given to matplotlib, over the cells of C71-C75 (CLIQUE) and the leafs of C34/C76 (BANG) | projection of the cell or block of a point; existence of a slot for every coordinate; the sorted leafs end with the densest; induction over the clusters for the bars |  |
| C203 bang_animator animates the result of every clustering of points of the plane | Blocks | partial | the state machine of the frames over the levels stored in the directory | induction over the blocks left; invariant of a block with a point and a positive side for the default thresholds; witness with a sparse level | false: IndexError exactly if a level of the directory is empty (C203_animation); with the default thresholds it is complete exactly if not all points are equal |
| C204 kmeans_observer records the run of k-means without changing it | Kmobs | partial | the loop of process with the calls of the observer; marks, stars and lines given to matplotlib | the recorded lists are the chain of updates of C01-C05, by induction over the iterations; picture lemmas of C185; witnesses for the refuted parts | all but the last sentence is proved; the last is false for itermax = 0 and for initial centres without points |
| C205 kmeans_visualizer shows clusters, centres and rays in the colours of the clusters, and animates every history | Kmobs | partial | the loop of process with the calls of the observer; marks, stars and lines given to matplotlib | the recorded lists are the chain of updates of C01-C05, by induction over the iterations; picture lemmas of C185; witnesses for the refuted parts | pictures are proved; an animation is complete exactly if every initial centre got a cluster |
| C206 ga_observer records each generation of the genetic algorithm without changing it | Gaobs | proved | the loop over generations with the observer as a state; curves as lists of (x, value); the roulette over exact rationals | induction over the generations with the reachable populations of the model of C57; prefix sums for the roulette |  |
| C207 ga_visualizer shows the evolution and the clusters that were found | Gaobs | partial | the loop over generations with the observer as a state; curves as lists of (x, value); the roulette over exact rationals | induction over the generations with the reachable populations of the model of C57; prefix sums for the roulette | false for a first iteration after 0 and for observers without the global best; proved otherwise |
| C208 The roulette of ga_math gives every chromosome its share of [0, 1) | Gaobs | proved | the loop over generations with the observer as a state; curves as lists of (x, value); the roulette over exact rationals | induction over the generations with the reachable populations of the model of C57; prefix sums for the roulette |  |
| C209 ema_observer records every iteration of EM without changing it | Emaobs | proved | the loop of process with the observer as a state; crosses and ellipses given to matplotlib, numpy.linalg.eigh as any function with the documented result (C210_eigh_example shows one) | the trace of the loop is a chain of steps, each of which keeps the invariant of C44/C101; C178 and C179 for the ellipses | the densities are a parameter, as for C44 |
| C210 ema_visualizer draws the points and the ellipses of the clusters | Emaobs | proved | the loop of process with the observer as a state; crosses and ellipses given to matplotlib, numpy.linalg.eigh as any function with the documented result (C210_eigh_example shows one) | the trace of the loop is a chain of steps, each of which keeps the invariant of C44/C101; C178 and C179 for the ellipses |  |
| C211 The tolerance and the limit of iterations stop k-medians, fuzzy c-means and EM where the documentation says | Stop | proved | the loops of the three algorithms as modelled for k-medians (Kmeans_Model.v), C32/C89 and C44/C209 | each loop is an instance of a loop with a limit that goes on while a test holds; two lemmas of that loop give both directions, the tests are unfolded to the moves of single centres and to the likelihood |  |
| C212 Invalid arguments are refused | Refuse | proved | the checks of the arguments as the first branches of each modelled process | each check is unfolded for both directions; the success of the rest is the totality lemma of the algorithm | for X-means, G-means, BIRCH, CLARANS, the genetic algorithm and BANG the theorem states the refusal; the success for other arguments is that of the termination theorems of these algorithms |
| C213 extract_cluster_amount counts the valleys of the diagram | Diagram | proved | the loop over the diagram with its flags | induction over the bars with the state of the loop as a function of the bars seen (Diagram_Props.v); the borders are described by a separate predicate on positions |  |
| C214 G-means returns clusters that pass its test | Settled | proved | the loops of Xmeans_Model.v (C36, C37) with the test and the criterion as parameters | induction over the clusters of a round: the amount of centres stays only if none was split; the witness of C215 is computed, with all 16 pairs of initial points of the halves |  |
| C215 X-means ends only when the criterion wants no more splits | Settled | partial | the loops of Xmeans_Model.v (C36, C37) with the test and the criterion as parameters | induction over the clusters of a round: the amount of centres stays only if none was split; the witness of C215 is computed, with all 16 pairs of initial points of the halves | refuted: two equal initial centres make X-means return one cluster although the criterion prefers its halves and kmax is 4 (xmeans.py:250-257 compares with the amount before k-means dropped a centre); proved for last rounds where k-means drops no centre |
| C216 Metrics of tables of points are the metrics of their rows | Nmetric | proved | arrays of one and two axes with the broadcasting of numpy; lists and arrays are told apart because lists have no shape (Nmetric_Model.v) | broadcasting of a table and a point is a map over the rows; each row is reduced to the one-dimensional case of C83 |  |
| C217 What distances of points of different dimensions are | Nmetric | proved | arrays of one and two axes with the broadcasting of numpy; lists and arrays are told apart because lists have no shape (Nmetric_Model.v) | broadcasting of a table and a point is a map over the rows; each row is reduced to the one-dimensional case of C83 |  |
| C218 distance_metric answers as its type and mode say, however often the mode was switched | Nmetric | proved | objects of distance_metric with mode, arguments and calculator; programs as lists of uses of one object in a heap, each use being the switches the algorithm makes | the invariant that an object is as newly made with its mode is kept by both switches; copies live at new positions of the heap |  |
| C219 A metric can be shared: after an algorithm has used it, it answers as before | Nmetric | partial | objects of distance_metric with mode, arguments and calculator; programs as lists of uses of one object in a heap, each use being the switches the algorithm makes | the invariant that an object is as newly made with its mode is kept by both switches; copies live at new positions of the heap | refuted for silhouette and k-means++, which do not copy the metric; proved for the other algorithms |
| C220 A pickled self-organised map answers as the original | Sompic | partial | a map as an object whose attributes may be missing, __getstate__ and __setstate__, calls as a list with their answers; a heap with the addresses of the three lists for C221 (Sompic_Model.v, on Som_Model.v) | maps that differ at most in the remembered data give the same answers and stay alike under every call; the address of the awards never changes, that of the weights is new after each training | refuted for the density matrix and the picture before the next training; proved for all other series of calls |
| C221 What a self-organised map has reported stays as it was reported | Sompic | partial | a map as an object whose attributes may be missing, __getstate__ and __setstate__, calls as a list with their answers; a heap with the addresses of the three lists for C221 (Sompic_Model.v, on Som_Model.v) | maps that differ at most in the remembered data give the same answers and stay alike under every call; the address of the awards never changes, that of the weights is new after each training | true for weights; refuted for awards and captured objects, whose lists are changed in place |
| C222 The matrix of winners shows the awards of each neuron at its place | Sompic | partial | the things matplotlib is told to draw as a list; imshow shows element [y][x] at (x, y) | the picture is filtered by kind; the connections are those of C38, the captured objects those of C105 | refuted: the texts are placed with row and column exchanged; when they fit is characterised |
| C223 The picture of a self-organised map shows objects, neurons, connections and winners | Sommarks, Sompic | partial | the things matplotlib is told to draw as a list; imshow shows element [y][x] at (x, y) | the picture is filtered by kind; the connections are those of C38, the captured objects those of C105 | refuted for connections in one dimension and numbers in three, where nothing is drawn; proved for the other cases |
| C224 The picture of a kd-tree shows its division of the plane | Kdvis | proved | the visualizer over the trees of C01: levels of nodes, limits, recursive drawing with copied borders (Kdvis_Model.v) | the search-tree invariant of C01 keeps the borders in order, so that replacing one border adds one inequality; induction over the tree with the path of a node |  |
| C225 predict() answers the nearest representative with every metric | Predict | partial | `Predict_Model.v`: the five predict functions with the metric objects of `Nmetric_Model.v`: what is given to the metric (a point and a table of centres, or one centre at a time), how a number or an array is put into a row of the table of differences, numpy.argmin. Numbers are real; nan and arrays with one element in a list are simplified as said there. | `Predict_Props.v`: rows hold the distances (C216_point_table for tables), argmin of a row is the first least element. The specification `first_nearest` is about the distances that the metric in the mode of python gives. Refuted for X-means with `lambda a, b: abs(a[0] - b[0])`. | true of k-means, k-medians, k-medoids and G-means, and of X-means with the built-in metrics; false of X-means with a user-defined metric, whose function is given the table of all centres |
| C226 predict() of the training data agrees with the clusters | Predtrain | partial | `kmeans_predict`, `kmeans_process` (`Kmeans_Model.v`), `kmedoids_process` (`Kmedoids_Model.v`), `kmedoids_predict` (`Predict_Model.v`), with rational numbers and, for k-means, squared Euclidean distance. | `Predtrain_Props.v`: the scan of k-medoids is argmin; leaving out empty clusters keeps the order, so the first nearest remaining medoid is the one of the cluster. For k-means: when the last iteration moved no centre, the assignment to the previous centres is the assignment to the last ones (termination as for C63). Witnesses by computation. | true of k-medoids of points for all parameters and of k-means with zero tolerance and enough iterations; false of k-means with the default tolerance (the centres moved after the last assignment) and of k-medoids of a distance matrix (rows are compared as points) |
| C227 Order parameters of a range of iterations belong to these iterations | Syncview | partial | `Syncview_Model.v`: sync_dynamic and sync_visualizer of `nnet/sync.py` (python branches) with the indexing, range and slices of python, on `Order_Model.v`; an animation is the list of its frames, a picture the points given to matplotlib | `Syncview_Props.v`: loops that append are described by `collect_ok`; the order of a state is that of C62; the matrices are described by their concatenation and entry by entry | true as stated for states with a phase other than 0 (C227_asleep: a state with all phases 0 raises ZeroDivisionError); the documentation calls stop the last iteration that is used, which is refuted, as is a negative start for the picture |
| C228 Matrices and animations of a dynamic show the recorded states | Syncview | partial | `Syncview_Model.v`: sync_dynamic and sync_visualizer of `nnet/sync.py` (python branches) with the indexing, range and slices of python, on `Order_Model.v`; an animation is the list of its frames, a picture the points given to matplotlib | `Syncview_Props.v`: loops that append are described by `collect_ok`; the order of a state is that of C62; the matrices are described by their concatenation and entry by entry | true as stated; that a value 0 of the correlation matrix means oscillators in phase is refuted (opposite phases) |
| C229 Initial phases of a network of phase oscillators | Syncview | partial | `Syncview_Model.v`: the loop of sync_network.__init__ with the stream of random numbers; steps of the simulation from `Kuramoto_Model.v` | induction over the indexes of the loop; C122_arc_kept_sync with the arc from 0 to (n - 1) / n of pi | false for EQUIPARTITION on the circle: only half of it is filled; the rest is proved |
| C230 k-means++ chooses the next centre by distance | Plus | partial | `Init_Model.v` and `Plus_Model.v`: shortest distances, cumulated probabilities, candidates, the set of free indexes (any choice of an element), arguments of constructor and initialize(); squared Euclidean metric, or the rows of the matrix | `Plus_Props.v`: cumulated shares of [0, 1) (`falls_on`), the scan over the probabilities finds the share a number falls on, the fold over the candidates keeps the farthest; equality of runs by induction over the loop, as it reads distances only between valid indexes | the candidates have the documented probabilities, but point 0 always competes with them: with one candidate a point not farther than point 0 is never chosen (refuted) |
| C231 k-means++ of points and of distance matrices | Plus | partial | `Init_Model.v` and `Plus_Model.v`: shortest distances, cumulated probabilities, candidates, the set of free indexes (any choice of an element), arguments of constructor and initialize(); squared Euclidean metric, or the rows of the matrix | `Plus_Props.v`: cumulated shares of [0, 1) (`falls_on`), the scan over the probabilities finds the share a number falls on, the fold over the candidates keeps the farthest; equality of runs by induction over the loop, as it reads distances only between valid indexes | true of points and matrices; an unknown data type is not refused but counts all distances as 0 |
| C232 Two simulations in a row are one longer simulation | Contin | proved | the loops of `Pcnn_Model.v`, `Cnn_Model.v` and `Odesync_Model.v`; for cnn the state left behind is the last recorded output (Cnn_Model), for sync `last d1` | `Contin_Props.v`: a loop of m + k rounds is a loop of m followed by one of k; the solver FAST does not look at the times, their number is that of the steps; `continues` says what one record is to two |  |
| C233 A Hodgkin-Huxley network can be simulated further | Contin | partial | `Hhn_Model.v` hhn_simulate with any odeint and noise | `Contin_Props.v`: unfolding of one simulation, the state left is the last of the networks; witness: a solver that turns the membrane potential to 1 and -1 in turn | true of the peripheral neurons; the first recorded state of the central elements is [0, 0] even in a second run, and the times start anew while old pulses keep theirs, so pulse times repeat (refuted, for a solver that lets the potential change its sign at every step) |
| C234 The picture of a graph shows its vertices, connections and colours | Gdraw | partial | `Gdraw_Model.v`: draw_graph, the shapes given to matplotlib in order, python's indexing with whole numbers, negative numbers and floats; graphs read by `Files_Model.v` have floats | `Gdraw_Props.v`: lines are the segments of a duplicate-free list of exactly the connected pairs; induction over vertices; for files: the first vertex with a smaller neighbour raises | true for matrices and for lists of whole numbers in which both ends name the connection; false for files with lists of neighbours (numbers are read as floats, which can not index a list: TypeError), for one-sided lists, and colorings of more than 20 vertices are refused however few colours they use |
| C235 Results with fewer clusters are made from results with more clusters | Nested | proved | the loops of `Aggl_Model.v`, `Rock_Model.v` and `Cure_Model.v` | `Nested_Props.v`: the loop for fewer clusters passes through the state at which the one for more clusters stops; every step joins two clusters |  |
| C236 CLARANS can return any points as medoids of two clusters | Claranscost | partial | `Clarans_Model.v` as for C33 | `Claranscost_Props.v`: __find_another_nearest_medoid returns the first other medoid (another_first), labels of medoids are their positions; the price is a sum of non-positive gains; runs described by an inductive relation of rejected and taken swaps | false of the code, proved instead: for different points every finished run for two clusters returns point 0 or point 1 as a medoid, since a medoid's index is compared with the number of a cluster |
| C237 A local search of CLARANS stops after maxneighbor rejected candidates in a row | Claranscost | proved | `Clarans_Model.v` as for C33 | `Claranscost_Props.v`: __find_another_nearest_medoid returns the first other medoid (another_first), labels of medoids are their positions; the price is a sum of non-positive gains; runs described by an inductive relation of rejected and taken swaps | for finished runs; what the price measures is C93_price |
| C238 The ordering diagram of OPTICS shows the distances, the radius and the clusters | Opticspic | partial | `Opticspic_Model.v`: the bars and lines given to matplotlib, over the analyser of `Optics_Model.v`/`Diagram_Model.v` | `Opticspic_Props.v`: the loop over distances changes the colour exactly at a border; colours of the list are distinct; the radius is that of C213 | proved for amounts up to 35 for which a radius exists; else TypeError (no radius) or IndexError (more clusters than colours), with witnesses |
| C239 Pictures of networks show the objects and their connections | Netpic | proved | `Netpic_Model.v`: dots and lines given to matplotlib as a list | `Netpic_Props.v`: the lines are those of a duplicate-free list of exactly the connected pairs |  |
| C240 Animations of a pulse coupled network show who fires when | Spikepic | proved | `Spikepic_Model.v`: pictures as lists of rows; windows and colour maps left out | `Spikepic_Props.v`: blackening of a list of indexes, reshaping by division and remainder | for a record with at most as many neurons as pixels |
| C241 Pictures of pattern recognition show the states from the first to the final one | Patpic | partial | `Patpic_Model.v`: places, iterations and grey pixels; phases are real numbers, the step between pictures is exact (a float in the code), conversion to uint8 as remainder | `Patpic_Props.v`: invariant of the loop: picture k is shown at the first iteration not before k steps; greys by the integer part; witnesses: a hundred states; the phases 0 and 2 pi | which states are shown, where and how is proved; that the last picture is the final state is false for more than fifty states, and 0 and 2 pi have different greys |
| C242 Algorithms that look only at distances do not depend on the unit of distance | Samedist | partial | the models of C03, C05, C08, C18, C21, C22, C24 and C230 run on two data sets; `resized s` says that all squared distances of the second are s * s times those of the first | `Scaled_Proofs.v`: comparisons, sums, minima, sorting and loops of multiplied values; `Samedist_Props.v`: induction over the loops; DBSCAN by uniqueness of its result (C05) | false only for silhouettes of a single cluster, whose distance to other clusters is the constant -1; with two or more clusters proved |
| C243 Clusters do not depend on the unit and the origin of the coordinates | Unit, Unitmore | partial | the models of C01, C04, C16, C20 and C21 run on two data sets; `moved s v` says that a point has the coordinates s * x + v, `rescaled` that every coordinate has its own factor; sequential algorithms work on the caller's lists in a memory that is moved as a whole | `Unit_Props.v`, `Unitmore_Props.v`: means and medians of moved points are moved, squared distances are multiplied, so every comparison has the same result; induction over the loops; witness: five points in metres and kilometres | proved with the tolerance in the new unit; with the fixed default tolerance 0.001 metres and kilometres give different clusters |
| C244 Without a fitting C++ library pyclustering falls back on python | Ccore | partial | `Ccore_Model.v`: attributes of ccore_library, loading and checks with their warnings, over a record of what the machine offers; per class the expression that decides about ccore (booleans only); the library itself is not modelled | `Ccore_Props.v`: case distinction over the machine; `fits` is the independent description; sequences of calls by induction | proved if the file that exists can be loaded; a broken file raises OSError once and is silently replaced by python afterwards; the version found is never named |
| C245 The argument ccore decides which implementation is used | Ccore | partial | `Ccore_Model.v`: attributes of ccore_library, loading and checks with their warnings, over a record of what the machine offers; per class the expression that decides about ccore (booleans only); the library itself is not modelled | `Ccore_Props.v`: case distinction over the machine; `fits` is the independent description; sequences of calls by induction | false only for elbow: a class given as initializer (also the default) is not recognised and the library is asked for random centres; an object given as initializer overrides ccore=False |
| C246 A stored DBSCAN object can be loaded and goes on as before | Ccore | partial | `Ccore_Model.v`: attributes written and read by pickle, and which code process() runs; the python code is that of `Dbscan_Model.v` | `Ccore_Props.v`: the restored record; witness: a machine with a fitting library | attributes and, where there is no library, process() are kept; an object made with ccore=False uses the library after loading |
| C247 A balanced kd-tree of n points has at most log2(n) + 1 levels | Kdheight | partial | create_tree and build of `Kd_Model.v` | `Kdheight_Props.v`: without equal coordinates the leftmost position is the median itself, so both halves have at most half of the points; equal points: the leftmost position is 0 | proved for points without common coordinates; n equal points make a chain of n nodes, so that python's limit of recursion (1000) is reached with a thousand equal points |
| C248 Every iteration of fuzzy c-means lowers the fuzzy objective | Fcmopt | partial | `Fcm_Model.v` | `Fcmopt_Props.v`: t^a lies above its tangent at the membership, whose slope times the squared distance is the same for all centres; the weighted mean minimises the weighted sum of squares coordinate by coordinate; witness computed with exact fractions | the two half-steps minimise two different sums: the memberships for the exponent (m + 1) / 2, the centres for the exponent 1; so with m = 2 the documented objective can rise at the update of the centres and from one iteration to the next (witness: four points on a line) |
| C249 The random seed reaches the C++ library | Wrapper | partial | `Wrapper_Model.v`: core/*_wrapper.py function by function; the library is any function from a name and arguments to an answer; wrappers return the log of calls and releases with the result or exception; packages are those of `Codec_Model.v` (C41); structures of parameters are lists of named fields; the C++ code behind the interface is not modelled | `Wrapper_Props.v`, `Wrapmore_Props.v`: a package carries a value if the extractor of C41 reads it back; requests and results by computation after the packages are known to exist; numbers in range survive the C types; removal by value finds the last list because clusters share nothing with the noise | proved for seeds other than 0; `random_state or -1` turns the seed 0 into -1, the current time |
| C250 Parameters of oscillatory networks reach the C++ library | Wrapper | partial | `Wrapper_Model.v`: core/*_wrapper.py function by function; the library is any function from a name and arguments to an answer; wrappers return the log of calls and releases with the result or exception; packages are those of `Codec_Model.v` (C41); structures of parameters are lists of named fields; the C++ code behind the interface is not modelled | `Wrapper_Props.v`, `Wrapmore_Props.v`: a package carries a value if the extractor of C41 reads it back; requests and results by computation after the packages are known to exist; numbers in range survive the C types; removal by value finds the last list because clusters share nothing with the noise | proved for all parameters except B of pcnn and teta_zx of legion, which are never assigned, so that the library works with 0 |
| C251 The C++ library gets what the user gave, and its answer becomes the result | Wrapmore | partial | `Wrapper_Model.v`: core/*_wrapper.py function by function; the library is any function from a name and arguments to an answer; wrappers return the log of calls and releases with the result or exception; packages are those of `Codec_Model.v` (C41); structures of parameters are lists of named fields; the C++ code behind the interface is not modelled | `Wrapper_Props.v`, `Wrapmore_Props.v`: a package carries a value if the extractor of C41 reads it back; requests and results by computation after the packages are known to exist; numbers in range survive the C types; removal by value finds the last list because clusters share nothing with the noise | proved for numbers within the C types (and seeds other than 0, C249); numbers outside are not refused but taken modulo 2^64 |
| C252 A message of the C++ library becomes a RuntimeError | Wrapmore | partial | `Wrapper_Model.v`: core/*_wrapper.py function by function; the library is any function from a name and arguments to an answer; wrappers return the log of calls and releases with the result or exception; packages are those of `Codec_Model.v` (C41); structures of parameters are lists of named fields; the C++ code behind the interface is not modelled | `Wrapper_Props.v`, `Wrapmore_Props.v`: a package carries a value if the extractor of C41 reads it back; requests and results by computation after the packages are known to exist; numbers in range survive the C types; removal by value finds the last list because clusters share nothing with the noise | proved for clique, pam_build and elbow; k-medoids, whose C interface also sends messages, takes the message for results and raises TypeError or IndexError |
| C253 Noise of DBSCAN by the library is separated from the clusters | Netreq, Wrapmore | proved | `Wrapper_Model.v`: core/*_wrapper.py function by function; the library is any function from a name and arguments to an answer; wrappers return the log of calls and releases with the result or exception; packages are those of `Codec_Model.v` (C41); structures of parameters are lists of named fields; the C++ code behind the interface is not modelled | `Wrapper_Props.v`, `Wrapmore_Props.v`: a package carries a value if the extractor of C41 reads it back; requests and results by computation after the packages are known to exist; numbers in range survive the C types; removal by value finds the last list because clusters share nothing with the noise | the request and its answer, for non-empty clusters that share no object with each other and the noise |
| C254 The metric reaches the C++ library | Wrapmore | partial | `Wrapper_Model.v`: core/*_wrapper.py function by function; the library is any function from a name and arguments to an answer; wrappers return the log of calls and releases with the result or exception; packages are those of `Codec_Model.v` (C41); structures of parameters are lists of named fields; the C++ code behind the interface is not modelled | `Wrapper_Props.v`, `Wrapmore_Props.v`: a package carries a value if the extractor of C41 reads it back; requests and results by computation after the packages are known to exist; numbers in range survive the C types; removal by value finds the last list because clusters share nothing with the noise | false only for a Minkowski metric without degree, which python takes as 2 and the library cannot be asked for (TypeError) |
| C255 Memory of the C++ library is given back | Wrapmore | partial | `Wrapper_Model.v`: core/*_wrapper.py function by function; the library is any function from a name and arguments to an answer; wrappers return the log of calls and releases with the result or exception; packages are those of `Codec_Model.v` (C41); structures of parameters are lists of named fields; the C++ code behind the interface is not modelled | `Wrapper_Props.v`, `Wrapmore_Props.v`: a package carries a value if the extractor of C41 reads it back; requests and results by computation after the packages are known to exist; numbers in range survive the C types; removal by value finds the last list because clusters share nothing with the noise | proved for all algorithms and the getters of oscillatory networks; the four getters of self-organised maps never give their packages back |
| C256 A network in the C++ library shows its connections | Libnet | partial | `Libnet_Model.v`: attributes of objects whose network is in the library (those that no constructor assigns keep the values of the class), the matrix of numbers that the library sends, `is True` and `== True` on numbers and booleans; order and picture are the functions of `Order_Model.v` and `Netpic_Model.v` | `Libnet_Props.v`: lookups in the matrix; induction over rows, places and ensembles; witness: two connected oscillators | neighbours, sizes of sync and syncnet, and has_connection() compared with == are proved; but 1.0 is not the object True, so the local order of such a network is always 0 and its picture has no lines; hsyncnet has length 0, and height, width and structure of grids are lost |
| C257 Ensembles of an output in the C++ library | Libnet | partial | `Libnet_Model.v`: attributes of objects whose network is in the library (those that no constructor assigns keep the values of the class), the matrix of numbers that the library sends, `is True` and `== True` on numbers and booleans; order and picture are the functions of `Order_Model.v` and `Netpic_Model.v` | `Libnet_Props.v`: lookups in the matrix; induction over rows, places and ensembles; witness: two connected oscillators | proved for iterations that are not negative; -1 becomes 2^64 - 1 |
| C258 k-means and k-medians do not depend on the order of the points | Reorder | proved | `Kmeans_Model.v` run on two data sets or with two lists of initial centres; `copies m n ord` says that the list of positions ord has each of n positions m times | `Reorder_Props.v`: the groups of the rewritten data are those of the old one read through ord; sums of permuted lists; the value of rank r among m copies is that of rank r / m, by counting the values below; for C259 a group without ties depends on its centre and the set of centres only; induction over the loops | for the default metric and the manhattan distance |
| C259 The order of the initial centres only numbers the clusters | Reorder | partial | `Kmeans_Model.v` run on two data sets or with two lists of initial centres; `copies m n ord` says that the list of positions ord has each of n positions m times | `Reorder_Props.v`: the groups of the rewritten data are those of the old one read through ord; sums of permuted lists; the value of rank r among m copies is that of rank r / m, by counting the values below; for C259 a group without ties depends on its centre and the set of centres only; induction over the loops | proved for k-means, any metric, as long as no point has two nearest centres in any round; false with ties (witness: three points), and false for k-medians when a cluster is lost, because medians are then compared with those of other clusters |
| C260 Networks in the C++ library are made, trained and simulated with what the user gave | Netreq | partial | `Netreq_Model.v`: the requests of the networks as logs of calls with their arguments; packages as in `Codec_Model.v`; what the python objects check before they ask | `Netreq_Props.v`: numbers in range pass ctypes unchanged; packages are read back (`carries`) by induction over patterns; a float in a pattern cannot be stored as c_int; witnesses by computation | proved for data that is not empty, a radius and patterns of integers; false for patterns with floats (accepted by the check, TypeError from ctypes), for hsyncnet with empty data (the library is asked for 2^32 - 1 neighbours) and for syncnet without a radius (TypeError) |
| C261 Fuzzy c-means does not depend on the order of points and centres | Fcmorder | proved | `Fcm_Model.v` run on two data sets or with two lists of initial centres | `Fcmorder_Props.v`: memberships are computed point by point; sums over copies; sums and maxima of permuted lists; induction over the loop; the place of the only largest entry of a permuted row | real arithmetic; clusters follow the order of the centres for points with one largest membership |
| C262 Silhouette scores depend neither on the order of the points nor on that of the clusters | Silorder | proved | `Silhouette_Model.v` for two tables and two lists of clusters; `same_groups` says that clusters are the same but for order and numbers | `Silorder_Props.v`: both results satisfy the specification of C30 and C85, which determines the score; clusters are matched one to one | for clusterings (disjoint, not empty) with at least two clusters; scores equal as numbers, nan or infinite alike |
| C263 Single-link clusters do not depend on the order of the points | Linkorder | proved | `Aggl_Model.v` run on two data sets | `Linkorder_Props.v`: C20 and C21 characterise the result; of two different divisions into as many groups neither refines the other (counting), so chains of each cross the other; the closest pair across the first is also joined in it, a contradiction when distances differ | C263_ties_refuted: with equal distances the order decides |
| C264 CLIQUE does not depend on the order of the points | Cliqorder | proved | The whole python branch of CLIQUE (Clique_Model, as for C26): corners of the data, cells in the sequence of the iterator, capture of points by the first cell that contains them, expansion of clusters over neighbouring cells. | A simulation: both runs visit the same cells in the same sequence (the corners and with them the borders of the cells are equal), each cell captures the copies of the same points because a copy is free exactly when the point is, so that the same cells are dense. The groups are compared with `same_members` (Reorder_Props), which is a permutation after translating the numbers. | C264_copies compares two runs of the model: data and the m copies of its points in any order, with the threshold multiplied by m. C264_order is the case m = 1. Both runs are shown to succeed. Exact arithmetic. |
| C265 EM does not depend on the order of the points | Emaorder | proved | `Ema_Model.v` (C44, C100-C102) run on two data sets | `Emaorder_Props.v`: a simulation of the loop. Densities, mixtures and responsibilities are computed point by point; the sums of the maximization step and the log-likelihood (which may be infinite) are invariant under permutation, so that both runs stop together and drop the same clusters. | real arithmetic; the initial means and covariances are given (the random initializer draws positions and is outside of the claim). C265_gaussian: with the densities of the library and covariances that do not vanish both runs succeed. |
| C266 BANG does not depend on the order of the points | Bangorder | proved | `Bang_Model.v` (C34, C76-C79) run on two data sets | `Bangorder_Props.v`: a simulation. The root corners are equal as numbers, hence all blocks are; a block of the second run covers the copies of the points of the first, so amounts and densities are multiplied by m, all comparisons with the thresholds agree and the stable sorting by density gives the same sequence. The allocation works on positions of blocks and is literally the same; the clusters are sets, compared with `same_members`. | C266_copies compares two runs of the model on new objects: data and the m copies of its points in any order, thresholds multiplied by m; both runs are shown to succeed. C266_order is the case m = 1. Exact arithmetic; a second process() on the same object is C49. |
| C267 Numpy tables and encoded strings reach the C++ library unchanged | Npack | partial | `Npack_Model.v` on top of the packages of `Codec_Model.v` (C45): the branches of the builder for numpy.matrix, arrays and bytes; which numpy numbers are python ints or floats and which numbers ctypes accepts is written down from their documentation. Python str (not encoded) is not modelled: the address of memory that is freed at once goes into the package | `Npack_Props.v`: induction over rows and elements, with `extract` of Codec_Model as the reader; refutations by computation. | proved for matrices and arrays with a C type, for arrays of float64 without one, and for bytes (which come back as a list of integers); false without a C type for a numpy.matrix (None * cols, TypeError) and for arrays of integers (numpy integers are not instances of int, NameError) |
| C268 K-medians with zero tolerance ends by itself in a local optimum | Kmedconv | partial | `kmedians_loop`, `kmedians_update_clusters`, `kmedians_update_medians`, `kmedians_changes` of `Kmeans_Model.v` (C15) | `Kmedconv_Props.v`: the error never increases and there are finitely many assignments. While number of medians and error stay equal every point keeps its distance and the first nearest median is taken, so labels can only become smaller; a return to an earlier assignment therefore means two equal assignments in a row, after which the change is zero. At the end the medians are as good as the nearest ones of the step before, point by point. Refutation by computation. | proved for the Manhattan metric, also when clusters are dropped on the way. False for the default metric (squared Euclid): after a drop the remaining medians are compared with the old ones by position, and when they coincide the run ends although points are nearer to the other median. Whether runs with the default metric always end is not claimed. |
| C269 BANG does not depend on the units and the origin of the coordinates | Bangunit | proved | `Bang_Model.v` (C34, C76-C79) run on two data sets | `Bangunit_Props.v`: a simulation. Corners of all blocks are moved with the coordinates, containment and neighbourhood compare coordinate by coordinate and agree; every block is flat in the same coordinates as the data, so all volumes are multiplied by one factor, all densities divided by it, and comparisons and sorting agree. | both runs are shown to succeed; exact arithmetic. C269_threshold_refuted shows that the conversion of a positive threshold is needed. |
| C270 Fuzzy c-means does not depend on the unit and the origin of the coordinates | Fcmunit | proved | `Fcm_Model.v` (C19, C20) run on two data sets | `Fcmunit_Props.v`: differences are multiplied by the square of the unit, which cancels in every ratio under the power; the weighted means move with the points because the sum of the weights is positive; the loop makes the same decisions. | real arithmetic. C270_tolerance_refuted shows that the conversion of the tolerance is needed: with the same tolerance the run stops at another iteration. |
| C271 Output dynamics of sync and fsync can be indexed and unpacked as time and output | Dynindex | partial | `Dynindex_Model.v`: `__getitem__` with its message, python's unpacking of objects without an iterator | `Dynindex_Props.v`: by cases on the index. The library branch gives the same attributes and is not distinguished. | indexes 0 and 1 as stated. Refuted: the message adds an integer to a string, so every other integer raises TypeError; python's iteration expects IndexError, so no unpacking succeeds. |
| C272 Clustering features compare up to a tolerance, and nodes of a CF-tree answer queries about the nearest | Cfentry | partial | `Cfentry_Model.v`: `__eq__`, queries and updates of nodes, over the features of `Cftree_Model.v`; links to parents are not kept | `Cfentry_Props.v`: inductions on the lists of sums, entries and successors. | equality is reflexive and, for one dimension, symmetric. Refuted: it is not transitive and features of different dimensions can be equal; get_nearest_successors returns the first two successors because of a return inside the loop. |
| C273 X-means, G-means and the elbow method do not depend on the unit and the origin of the coordinates | Xunit | proved | `Xmeans_Model.v`, `Xcrit_Model.v`, `Elbow_Model.v` and `Gproj_Model.v` (the projection and the test of G-means; scipy's test is a parameter) run on two data sets | `Xunit_Props.v`: the Bayesian criterion of parent and children changes by the same amount (number of points times the logarithm of the factor), the other criterion is multiplied by the factor; projections of G-means are shifted by a constant; lengths of elbows are multiplied by one positive factor. The searches follow by inductions over repetitions, clusters and rounds from the invariance of k-means (C243). | exact arithmetic for points, reals for the criteria; the draws of the initializer are the same indices in both runs; scipy's test is a parameter assumed to give the same answer for a sample shifted by a constant. C273_tolerance_refuted shows that the conversion of the tolerance is needed. The elbow's own k-means runs have a fixed tolerance, so only the choice from the errors is claimed. |
| C274 OPTICS does not depend on the unit of distance and the origin of the coordinates | Opticsunit | proved | `Optics_Model.v` with the tree of `Kd_Model.v` (C11, C12, C56) run on two data sets | `Opticsunit_Props.v`: the kd-trees of both runs have the same shape and payloads, so neighbours come in the same order; a simulation of the traversal keeps the states of the objects in step; the scan for an amount of clusters and the bisection of the radius make the same decisions. | exact arithmetic; the distances kept for points are squares in the model. Points with a requested amount of clusters are not modelled. C274_radius_refuted shows that the conversion of the radius is needed. |
| C275 The graph colouring network of phase oscillators: adjacent vertices repel, others attract | Gkur | partial | `Gkur_Model.v`: _phase_kuramoto of syncgcolor, the reduction of the network and one step of the FAST solver, on the network of `Gcolor_Model.v` (C103) | `Gkur_Props.v`: the loop over neighbours and the loop over the others are put together into one sum with weights; rotation and twins by comparing sums, conservation of the sum because the action of i on k is the opposite of that of k on i. Refuted with a state of equal phases. | real arithmetic, only the FAST solver's step. Refuted: any state in which all phases agree up to half a turn is stationary, so two adjacent vertices may keep one colour for ever. |
| C276 Arithmetic of lists and lengths of vectors | Listmath | partial | `Listmath_Model.v`: the eight list_math functions and norm_vector | `Listmath_Props.v`: inductions over the lists; the triangle inequality and the distance from the Euclidean metric of C46. Refuted with lists of one and two numbers. | real arithmetic. Refuted: a longer second list is accepted and its rest ignored; only a shorter one raises IndexError. |
| C277 Expectation-maximization does not depend on the units and the origin of the coordinates | Emaunit | partial | `Ema_Model.v` (C44, C100-C102) run on two data sets; numpy.linalg.pinv is a parameter | `Emaunit_Props.v`: every density is divided by the factor, whatever the dimension, because the norm of the covariance is multiplied by its square; so responsibilities are the same, means and covariances are converted, and the logarithm of the likelihood changes by a constant that disappears in differences. Only the first comparison, with a constant, is absolute. Refuted for one coordinate with covariances diag(3, 4) and diag(4, 3). | real arithmetic; numpy's pseudo-inverse is a parameter with its scaling law as hypothesis. C277_unit is for one unit of all coordinates and for runs that are not ended by the comparison of the first likelihood with the constant -100000 of the code. Refuted for the unit of one coordinate: the density is divided by the root of the norm of the covariance instead of its determinant. |
| C278 The region number and the level identify a BANG block | Bangregion | proved | `Bang_Model.v` (C34, C76-C79): split, the construction of the directory, process | `Bangregion_Props.v`: every block is the one place that its level and region number name, by following the binary digits of the number from the root; the numbers of the two halves of a block differ by 2^level. The size is summed up along the levels. Refuted with eight points on a line: a root below the amount threshold, and three levels. | exact arithmetic |
| C279 len() and get_level() of the BANG directory | Bangregion | partial | `Bang_Model.v` (C34, C76-C79): split, the construction of the directory, process | `Bangregion_Props.v`: every block is the one place that its level and region number name, by following the binary digits of the number from the root; the numbers of the two halves of a block differ by 2^level. The size is summed up along the levels. Refuted with eight points on a line: a root below the amount threshold, and three levels. | len() counts exactly the blocks that get_level returns. Refuted: with more than one level the root is stored nowhere, so len() is 0 where the root is the only leaf, and get_level(k) returns blocks of level k + 1. |
| C280 CLARANS does not depend on the unit and the origin of the coordinates | Claransunit | proved | `Clarans_Model.v` (C92-C94) run on two data sets with the same random numbers | `Claransunit_Props.v`: all distances are multiplied by one factor, so every comparison has the same answer; inductions over the loops of the search. | exact arithmetic; random.sample and random.randint are arguments of the run |
| C281 A self-organized map and SOM-SC do not depend on the unit and the origin of the coordinates | Somunit | partial | `Som_Model.v` (C112-C118) run on two data sets; the influence of the distance on the map is a parameter | `Somunit_Props.v`: the winner is the same because distances are multiplied by one factor, the step towards a point commutes with the change of coordinates, and the largest change of a weight is multiplied by the factor; the corners of the data are converted with the data. Refuted for random_centroid with three points on a line. | exact arithmetic; the exponential is a parameter. Proved for uniform_grid and random_surface. Refuted for random_centroid (and random is alike): the drawn numbers are added to the centre without regard to the spread of the data. |
| C282 The dynamic simulation of a syncpr network records a recall from the given pattern to the requested memory order | Syncprdyn | proved | `Syncpr_Model.v` (C137-C139): `syncpr_simulate_dynamic` over the loop of `Kuramoto_Model.v`; the integrator is a parameter | `Syncprdyn_Props.v`: the loop of C123 applied to the memory order, which is the value that memory_order() returns for the recorded state (what that value is, is C137). | real arithmetic; one step of the phases (the integrator) is a parameter; that a run ends is not claimed |
| C283 Clusters of CURE record the exact distance to a cluster at hand | Curenear | proved | `Cure_Model.v` (C46, C71); the radius of the search is compared by squares | `Curenear_Props.v`: the search in an ordered tree returns exactly the points in the radius; the tree holds the representatives of the clusters of the queue (invariant of C46), so the search gives a nearest cluster; induction over the loop over the queue and over the merges. `turn` says what one merge does to the records. | exact arithmetic; that a record may be out of date although it is exact is why C71 is refuted |
| C284 CURE does not depend on the unit and the origin of the coordinates | Cureunit | proved | `Cure_Model.v` (C46, C71, C283), `Kd_Model.v` | `Cureunit_Props.v`: the two runs are related state by state: clusters with moved points, means and representatives and multiplied squared distances, the same queue, and trees of the same shape. Insertion, deletion (with the replacement by a minimal node) and the search in the tree keep the relation; so do the choice of the farthest points, the shrinking, the loop over the queue and the merges. | exact arithmetic; points of at least one coordinate |
| C285 BIRCH does not depend on the origin and the unit of the coordinates | Birchunit | partial | `Birch_Model.v`, `Cftree_Model.v` (C23-C25, C72, C73) | `Birchunit_Props.v`: the two runs are related entry by entry; all five measures, the diameter and the merging of features are shown not to depend on the origin, so both trees choose the same children, split alike and are rebuilt at the same points; then C242 for the single link of the centroids. For the unit two refutations with three points each. | exact arithmetic. Proved for another origin. Refuted for another unit: a diameter is taken as zero when the expression under its root is below 1e-9, and a diameter of zero becomes 1 on rebuilding, whatever the unit is. |
| C286 The genetic algorithm does not depend on the origin and the unit of the coordinates | Gaunit | partial | `Ga_Model.v` (C43, C98) for the run, with the roulette of `Gasel_Model.v` (C99) as the choice of the chromosomes | `Gaunit_Props.v`: the fitness of a chromosome is the cost of its labels, in which the origin cancels and the unit is a factor; so the exponents of the roulette are equal when the coefficient is converted, and the populations are equal generation by generation. The refutation uses 2 < e <= 3. | exact rationals for the coordinates, reals for the exponential; the overflow of the exponential is left out. Proved for another origin, and for another unit when select_coeff is divided by its factor. Refuted for another unit with the same select_coeff: the other chromosome is selected. |
| C287 The answers of dimension_info do not depend on earlier calls | Diminfo | partial | `Diminfo_Model.v`: dimension_info as an object with its stored answers; a call that raises keeps the state reached | `Diminfo_Props.v`: invariant over the calls: what is stored is right; the scan of the points is proved coordinate by coordinate. The refutations are computed. | exact arithmetic. Proved for points of the same number of coordinates and for no points. Refuted for points of different numbers of coordinates (after the exception the next call returns what was stored halfway: a width of zero, a maximum that a point exceeds) and for data changed by their owner between the calls. |
| C288 The fitness of a chromosome depends on its partition only | Gaorder | proved | `Ga_Model.v` (C43, C98): `fitness`, `calc_centers`, `get_clusters_representation` | `Gaorder_Props.v`: the fitness is the cost of the labels (lemma of C43); the points with a label are the same under the new number, and a permutation of the old ones in the new order, so the means and sums agree. | exact arithmetic; points of the same number of coordinates for the order of the points |
| C289 The chaotic network does not depend on the origin and the unit of the coordinates | Cnnunit | partial | `Cnn_Model.v` (C146-C149), `average_neighbor_distance` of `Cldist_Model.v` | `Cnnunit_Props.v`: the matrix of distances, its sorting and the average follow the unit; then the weights, the states and the loop of steps are equal for the same unit. The refutation holds for every function within 1/100 of exp(-x): bounds of exp from 1 + x < exp x and exp 1 <= 3. | exact arithmetic; exp is a parameter that respects equality. Proved for another origin. Refuted for another unit, for exp rounded in any way: the exponent of the weights is the square of a distance divided by a distance, so it grows with the unit. |
| C290 Fuzzy c-means stops when no centre moves by more than the tolerance | Fcmstop | partial | `Fcm_Model.v` (C32, C89-C91): `fcm_loop`, `calculate_changes` | `Fcmstop_Props.v`: induction over the rounds left; the maximum of the squared moves exceeds the tolerance exactly when one of them does. The refutation has one point and one centre. | real arithmetic. Proved with the square of the distance a centre moved compared with the tolerance. Refuted for the distance itself, which the documentation calls the change of the centres: for every tolerance below 1 a run stops after a longer move. |

## What Print Assumptions lists

Every property theorem is followed by `Print Assumptions`. The answers fall into these groups.

* closed under the global context (648 theorems): C01_kdtree_lookup_exact, C02_kdtree_range_exact, C03_kdtree_nearest_exact, C04_kdtree_multiset, C05_find_left_element_leftmost, C05_find_left_element_rejects, C06_dsatur_proper, C07_index_label_index_roundtrip, C07_index_to_label_describes, C07_label_index_label_roundtrip, C07_label_to_index_describes, C07_set_encoding_indices, C07_set_encoding_labels, C08_equal_with_different_text_refuted, C08_object_roundtrip, C08_object_roundtrip_distinct, C08_set_encoding_objects, C09_dbscan_partition_matrix, C09_dbscan_partition_points, C103_nearest_leaf_refuted, C103_same_leaf, C103_single_leaf, C104_find_nearest_leaf, C104_level_nodes, C105_train_captures_all, C105_train_forgets, C106_weights_in_box, C107_predict_nearest, C107_simulate_nearest, C108_last_point_partial, C108_predict_agrees_refuted, C109_distance_matrix, C10_dbscan_density_matrix, C10_dbscan_density_points, C110_density_matrix, C111_single_neuron, C111_single_neuron_refuted, C112_grid_1d, C112_grid_1d_refuted, C112_grid_covers_partial, C113_arguments, C113_somsc_partition, C114_empty_cluster_refuted, C114_one_cluster, C114_predict_before_process_refuted, C114_zero_epochs, C114_zero_epochs_refuted, C115_default_radius_partial, C115_shared_parameters_refuted, C116_averages, C116_empty_cluster, C116_features_agree, C116_variance_increase, C117_amount_of_neighbours, C117_average_of_nearest, C118_monotone_in_neighbours, C119_hsyncnet, C119_radii, C119_single_point_refuted, C119_zero_clusters_never_end, C119_zero_clusters_refuted, C11_optics_minpts_zero_refuted, C11_optics_partition_matrix, C11_optics_partition_points, C120_connections_within_radius, C120_no_radius_and_no_data, C121_closest_not_coupled_refuted, C121_equal_distances_refuted, C121_weights_scaled, C124_oscillator_connections, C124_syncsom, C125_default_tolerances_refuted, C125_same_tolerance_partial, C126_hysteresis_coloring, C126_same_output_refuted, C126_sync_coloring, C127_adjacency, C128_isolated_vertex_refuted, C128_weights, C128_zero_row, C129_hysteresis_no_collect_refuted, C129_hysteresis_static, C129_sync_static, C12_optics_order_matrix, C12_optics_order_points, C130_points_matrix_agree, C131_monotone, C132_order_independent, C133_border_order_refuted, C135_bad_samples, C135_order_and_signs, C135_train_hebb, C136_incremental_training, C136_incremental_training_refuted, C13_kmeans_no_iteration_refuted, C13_kmeans_partition, C13_kmeans_total, C140_adaptation, C140_epoch, C141_autostop, C142_step_ends, C142_step_equations, C143_fast_linking, C143_first_step_ends, C143_simulate_ends_refuted, C144_bad_stimulus, C144_continuation, C144_simulate, C145_silence, C146_bounded, C146_mean_field, C147_delaunay_refuted, C147_synchronous, C148_observation, C148_sync_ensembles, C149_any_points_refuted, C149_isolated, C149_too_few_points, C14_kmeans_centers_optimal, C14_kmeans_error_decreases, C14_kmeans_not_worse_than_initial, C14_predict_nearest, C15_kmedians_error_decreases, C15_kmedians_partition, C15_predict_nearest, C163_matrix, C163_requires_numbering, C164_from_zero, C164_isolated_refuted, C165_one_kind, C165_rows, C166_guess, C166_guess_refuted, C167_in_order, C167_partition, C168_after_error_refuted, C168_labels_refuted, C169_box, C16_deviation_meaning, C16_swap_cost_exact, C16_swap_only_improving_refuted, C170_blank, C170_blank_refuted, C170_gray, C170_gray_refuted, C170_gray_value, C171_colors, C172_coordinates, C173_objects_fail_refuted, C173_objects_refuted, C173_one_colour, C173_skipped, C17_build_greedy, C17_build_refuses, C180_constructor, C180_points, C180_short, C181_no_clusters, C181_separated, C182_distinct_refuted, C182_fresh, C182_means, C182_redrawn, C183_clusters, C183_covariances, C183_definite_refuted, C183_unbiased, C184_given, C184_kmeans, C184_means_alone_refuted, C184_random, C184_refused, C185_append_clusters, C185_drawn, C185_shows, C186_blocked, C186_not_shown_refuted, C186_stays, C186_still_works_refuted, C187_empty, C187_refused, C187_titles, C187_value_error_refuted, C188_distinct, C188_index, C188_repeat, C188_reported, C189_cells, C18_bsas, C18_mbsas, C18_refused, C18_shared_object_refuted, C18_ttsas, C190_all_pairs, C190_filter, C190_line, C190_shows, C191_grid, C192_append, C192_append_all, C192_dimension_refuted, C192_nothing, C193_colours, C193_drawn, C193_points, C193_refused, C194_colours, C194_distinct_refuted, C194_other_colours, C194_works, C195_grid, C195_masks, C196_apart, C196_groups, C196_limits, C196_one_group_refuted, C196_single, C196_together, C197_cells, C197_few, C198_always, C198_default_refuted, C198_given_refuted, C199_colour_refuted, C199_groups, C199_groups_refuted, C199_placed, C19_caller_data_refuted, C19_only_founders, C200_covers, C200_given, C200_given_refuted, C201_grid, C201_tiles, C202_blocks, C202_dendrogram, C203_animation, C203_animation_refuted, C203_default_thresholds, C203_plane_only, C204_error, C204_first_entry_refuted, C204_history, C204_last_refuted, C204_same_result, C204_used_again, C205_animation, C205_animation_refuted, C205_more_centers, C205_shown, C206_history, C206_lengths, C206_same_result, C207_clusters, C207_curves, C207_default_refuted, C207_frames, C207_from_later_refuted, C207_from_the_start, C207_not_collected, C207_visible, C208_fitter, C208_refused, C208_roulette, C208_zero, C20_agglomerative_partition, C20_refused, C211_kmedians, C212_bang, C212_birch, C212_clarans, C212_density, C212_ga, C212_gmeans, C212_kmeans, C212_kmedians, C212_kmedoids, C212_silhouette, C212_xmeans, C213_amount, C214_gmeans, C215_xmeans_partial, C215_xmeans_refuted, C21_single_link, C220_data_lost, C220_loaded_partial, C220_loaded_refuted, C221_reports_stay_refuted, C221_statistics_shared, C221_weights_stay, C222_squares_partial, C222_texts_fit, C222_texts_refuted, C222_texts_transposed, C223_awards_partial, C223_belongs_partial, C223_line_connections_refuted, C223_lines_partial, C223_marks, C223_places, C223_space_numbers_refuted, C224_picture, C224_refused, C226_kmeans, C226_kmeans_default_refuted, C226_kmedoids, C226_kmedoids_matrix_refuted, C230_farthest, C230_next_center, C230_probability_refuted, C230_shares, C231_matrix, C231_other_type_refuted, C231_points, C231_same_centers, C232_cnn, C232_new_map, C232_pcnn, C232_pcnn_at_rest, C234_colors_refuted, C234_file_refuted, C234_limits, C234_matrix, C234_one_sided_refuted, C234_refused, C234_vector, C234_vector_file, C235_agglomerative, C235_cure, C236_any_point_refuted, C236_first_points, C237_local_search, C238_diagram, C238_every_amount_refuted, C238_plain, C239_cnn, C239_not_shown, C239_syncnet, C23_cftree_conserves, C23_same_object_refuted, C240_animation, C240_time_signal, C240_too_small, C242_agglomerative, C242_dbscan, C242_initializers, C242_kmedoids, C242_kmedoids_matrix, C242_one_cluster_refuted, C242_silhouette, C243_bsas, C243_centroid_link, C243_clique, C243_default_tolerance_refuted, C243_kmeans, C243_kmedians, C243_ttsas, C244_broken_file_refuted, C244_kept, C244_version_refuted, C244_workable, C245_elbow_ignores_initializer_refuted, C245_elbow_object_refuted, C245_library, C245_python, C246_restored, C246_same_code_refuted, C247_balanced, C247_equal_points, C247_height_refuted, C249_seed, C249_zero, C249_zero_refuted, C24_cftree_structure, C24_zero_max_entries_refuted, C250_linking_refuted, C250_lost, C250_parameters, C250_teta_zx_refuted, C251_clique, C251_cure, C251_elbow, C251_fcm, C251_gmeans, C251_kmeans, C251_kmedians, C251_kmedoids, C251_ksearch, C251_lists, C251_negative_refuted, C251_optics, C251_optics_objects, C251_pam_build, C251_scores, C251_sequential, C251_silhouette, C251_xmeans, C252_kmedoids, C252_message_refuted, C252_raised, C253_dbscan, C253_split, C254_metric, C254_minkowski_refuted, C255_given_back, C255_som_refuted, C256_again, C256_dots_only, C256_grid_refuted, C256_hsyncnet_refuted, C256_length, C256_neighbors, C256_picture_refuted, C256_value, C257_division, C257_names, C257_negative_refuted, C257_state, C258_kmeans, C258_kmedians, C259_kmedians_refuted, C259_ties_refuted, C259_untied, C25_birch_partition, C260_empty_refuted, C260_float_pattern, C260_float_pattern_refuted, C260_hhn, C260_hsyncnet, C260_legion, C260_pcnn, C260_radius_refuted, C260_recognition, C260_simulation, C260_sizes, C260_sync, C260_syncnet, C260_train, C260_wrong_pattern, C262_matrix, C262_points, C263_order, C263_ties_refuted, C263_unique, C264_copies, C264_order, C266_copies, C266_order, C267_bytes, C267_doubles, C267_integer_types, C267_integers_refuted, C267_typed, C267_untyped_matrix_refuted, C268_euclid_refuted, C268_manhattan, C269_default, C269_origin, C269_threshold_refuted, C269_units, C26_clique_dense_components, C26_clique_refuses, C271_integer, C271_kind_refuted, C271_pair_refuted, C271_protocol, C271_string, C271_unpack, C271_value, C272_dimension_refuted, C272_equal, C272_leaf_feature, C272_nearest, C272_nearest_empty, C272_nonleaf_feature, C272_reflexive, C272_successors, C272_successors_refuted, C272_symmetric, C272_transitive_refuted, C273_gmeans, C273_tolerance_refuted, C274_matrix, C274_points, C274_radius_refuted, C278_region_unique, C279_level_refuted, C279_size, C279_size_refuted, C27_plusplus_distinct, C27_plusplus_refuses, C27_plusplus_second_call_refuted, C280_clarans, C281_centroid_refuted, C281_simulate, C281_somsc, C281_train, C283_recorded, C283_start, C283_turn, C284_unit, C285_origin, C285_unit_refuted, C285_zero_diameter_refuted, C287_after_exception_refuted, C287_any_order, C287_changed_data_refuted, C287_no_points, C288_numbers, C288_order, C288_out_of_range, C289_average, C289_origin, C28_random_distinct, C28_random_exhausted, C28_random_refuses, C28_random_second_call_refuted, C29_reservoir_r, C29_reservoir_x, C29_reservoir_x_zero_refuted, C29_too_many, C30_coincident_refuted, C30_silhouette_score, C33_clarans_partition, C34_bang_covers, C34_disjoint_refuted, C36_xmeans_partition, C37_gmeans_kmax, C37_wce_partial, C37_wce_refuted, C38_som_neighbours_exact, C38_som_neighbours_symmetric, C39_grid_eight_actual, C39_grid_eight_refuted, C39_grid_four_actual, C39_grid_four_refuted, C40_sync_antiphase, C40_sync_circle_refuted, C40_sync_indexes_fail_refuted, C40_sync_indexes_refuted, C41_hysteresis_actual, C41_hysteresis_equal_refuted, C42_pcnn_spike_ensembles, C42_pcnn_sync_ensembles, C42_pcnn_time_signal, C43_best_reported, C43_chromosomes_valid, C43_clusters_partition, C45_codec_overflow_refuted, C45_codec_round_trip, C45_codec_total, C45_mixed_refused, C46_cure, C46_refused, C47_phase_idempotent, C47_phase_normalised, C48_data_corners_tight, C48_dimension_info_tight, C49_agglomerative_centroid_reprocess_refuted, C49_bang_reprocess_refuted, C49_bsas_reprocess_refuted, C49_clique_reprocess_refuted, C49_dbscan_reprocess_appends, C49_dbscan_reprocess_refuted, C50_graph_actual, C50_graph_recognised_refuted, C50_matrix_sound, C51_dsatur_saturation_order, C52_dsatur_bipartite_two_colors, C53_index_roundtrip_refuted, C53_label_to_index_failures, C53_trailing_empty_refuted, C54_label_object_commutes, C54_object_label_commutes, C54_set_encoding_path, C55_optics_components_matrix, C55_optics_components_points, C56_connectivity_radius_sound, C56_optics_requested_amount_fails_refuted, C56_optics_requested_amount_refuted, C57_given_radius, C57_optics_stale_ordering_refuted, C58_dynamic_connections, C58_dynamic_duplicate_refuted, C58_neighbors_agree, C58_plain_structures, C59_phase_matrix, C59_sync_ensembles_partition, C59_sync_near_not_separated, C60_groups_near, C60_oscillations_counted, C60_pulse_ensembles, C61_legion_weights_actual, C61_legion_weights_refuted, C63_kmeans_converges, C64_labels_agree, C64_labels_refuted, C65_kmedoids_partition, C65_kmedoids_run, C65_pam_improves, C66_reservoir_r_uniform, C67_ttsas_reprocess, C68_average_link_refuted, C68_average_same_sizes, C69_agglomerative_reprocess, C71_cure_closest_pair_refuted, C71_first_merge, C72_feature_diameter, C72_feature_distances, C72_feature_statistics, C72_small_diameter_refuted, C73_birch_total, C73_insert_points_total, C73_zero_threshold_refuted, C74_entry_limit_refuted, C74_limit_partial, C75_empty_cluster_refuted, C75_no_empty_partial, C76_bang_clusters, C77_bang_dendrogram, C77_batches_sorted, C77_dendrogram_order_refuted, C78_neighbours_partial, C78_neighbours_refuted, C79_bang_height, C79_height_is_levels_refuted, C85_silhouette_cases, C85_single_cluster, C85_single_cluster_refuted, C85_singleton_refuted, C86_kmax_refuted, C86_ksearch_best, C86_ksearch_none, C86_ksearch_scores, C86_score_is_mean, C87_reprocess_refuted, C92_best_local_partial, C92_best_local_refuted, C93_accepts_everything, C93_price, C93_swap_refuted, C94_finishes_refuted, C94_never_finishes, C94_single_cluster_medoid, C95_gmeans_finishes, C95_xmeans_finishes, C99_crossover_exchanges, C99_mutation_bounded.
* `sig_forall_dec` (7 theorems): C174_short, C228_animated_phases, C228_missing_size, C228_phase_matrix, C276_lists, C276_numbers, C276_sizes_refuted.
* `functional_extensionality_dep`, `sig_forall_dec` (19 theorems): C101_box_and_definite, C102_last_removed, C102_rows, C123_already_ordered, C123_simulate_dynamic, C160_weights, C161_in_use, C161_outputs, C218_refused, C219_copied, C276_division, C276_division_number, C276_inverse, C35_canberra, C35_chebyshev, C35_manhattan, C81_chi_square, C81_chi_square_triangle_refuted, C82_gower.
* `functional_extensionality_dep`, `sig_forall_dec`, `sig_not_dec` (95 theorems): C122_phases_normalised, C134_step_ends, C134_sync_equation, C134_syncnet_equation, C137_initial_order, C137_memory_order, C137_symmetries, C138_mean_phase_kept, C138_patterns_stationary, C139_later_simulation, C139_result_changes_refuted, C139_simulate_static, C150_free_rotation, C151_first_step, C151_step_equations, C151_without_potentials, C153_simulate, C153_time_refuted, C154_only_signs, C154_refused, C155_membrane, C155_without_stimulus, C156_cn2_independent, C156_excitation, C156_future_pulses, C156_inhibition, C157_pulses, C158_stays_on, C158_switched_on, C159_central_start_refuted, C159_refused, C159_simulate, C160_relaxation, C174_equation, C174_inwards, C175_bounded, C176_rotation, C176_time_refuted, C177_last, C177_rows, C177_second_refuted, C212_elbow, C227_asleep, C227_from_end, C227_split, C228_animations, C228_correlation_matrix, C228_in_phase_refuted, C229_equidistant_refuted, C229_equipartition, C229_other, C229_random, C232_sync, C233_at_rest, C233_continued_refuted, C233_first_row, C233_peripherals_continue, C241_animation, C241_final_refuted, C241_not_shown, C241_one_grey_refuted, C241_pictures, C256_order_refuted, C256_order_zero, C273_elbow, C273_mndl, C273_xmeans_mndl, C275_equation, C275_rotation, C275_sum, C275_twins, C275_two_colours, C276_difference, C276_norm, C276_triangle, C282_dynamic, C282_equal_features, C282_refused, C286_origin, C286_unit, C31_elbow, C35_euclidean, C44_responsibilities_sum, C44_weights_sum, C49_elbow_reprocess_refuted, C62_correlation_matrix, C62_sync_order_zero, C62_sync_order_zero_refuted, C88_documented_elbow_refuted, C88_not_fewer, C88_three_amounts_partial, C96_mndl_keeps_pairs, C97_mndl_decision, C97_mndl_documented, C98_selection_proportional.
* `classic`, `functional_extensionality_dep`, `sig_forall_dec`, `sig_not_dec` (112 theorems): C100_density_refuted, C100_gaussian_1d, C100_gaussian_2d, C101_moments, C102_lost_cluster_refuted, C122_arc_kept_sync, C122_arc_kept_syncnet, C122_step_succeeds, C122_synchronised_stays, C150_simulated_time_refuted, C152_inhibitor, C152_potentials, C155_defined, C155_every_potential_refuted, C155_gating, C156_second_simulation_refuted, C160_time_refuted, C162_bounded, C178_axes, C178_flat, C179_angle_refuted, C179_mirrored, C179_uncorrelated, C209_history, C209_same_result, C209_used_again, C210_frames, C210_points_only, C210_shown, C211_em, C211_fcm, C212_fcm, C212_rock, C216_point_table, C216_table_point, C216_tables, C217_numpy, C217_python, C218_same_distances, C218_switched, C219_left_in_numpy, C219_left_in_numpy_others, C219_still_works_partial, C219_still_works_refuted, C219_switched_back_refuted, C225_gmeans, C225_kmeans, C225_kmedians, C225_kmedoids, C225_unprocessed, C225_user_metric_refuted, C225_xmeans_partial, C227_beyond, C227_defaults, C227_negative_refuted, C227_range, C227_shown, C227_stop_refuted, C229_half_circle, C22_rock, C235_rock, C242_rock, C248_centres, C248_memberships, C248_objective_refuted, C261_centers, C261_points, C265_gaussian, C265_order, C270_origin, C270_tolerance_refuted, C270_unit, C273_bic, C273_xmeans_bic, C275_separates_refuted, C277_densities, C277_one_coordinate_refuted, C277_origin, C277_unit, C286_coefficient_refuted, C289_unit_refuted, C290_distance_refuted, C290_stop, C32_membership_sum_partial, C32_membership_sum_refuted, C44_clusters, C62_local_order_in_unit, C62_sync_order_in_unit, C62_sync_order_one, C70_rock_threshold_one_fails, C70_rock_threshold_refuted, C80_minkowski_even, C80_minkowski_odd_refuted, C80_minkowski_two, C83_gower_refuted, C83_gower_zero_range, C83_numpy_agrees_partial, C84_distance_matrix, C89_centres_in_box, C90_centres, C90_centres_refuted, C90_membership_formula, C90_membership_refuted, C91_clusters, C91_nearest_partial, C91_nearest_refuted, C96_bic_splits_pairs, C96_pairs_refuted, C97_bic_decision, C97_bic_penalty, C97_bic_refuted, C98_better_is_likelier.

## Parts of the code that are modelled

The line ranges are those cited in the comments of the model files; everything else in `/repo` is not modelled.

* `Aggl_Model.v`: `agglomerative.py` 23-39, 102-129, 146-152, 150-152, 207-231, 219-224, 234-254, 257-275, 288-296, 299-317, 330-338, 341-358, 361-371; `cluster/agglomerative.py` 102-154, 330-392.
* `Bang_Model.v`: `bang.py` 412-440, 496-512, 515-524, 528-538, 543-564, 567-585, 579, 597-607, 620-631, 656-673, 676-694, 697-717, 720-738, 732, 746-766, 777-782, 828-838, 863-881, 884-897, 900-941, 1014-1020, 1016-1020, 1117-1135, 1138-1158, 1149-1156, 1161-1185, 1180-1185, 1188-1206, 1209-1224, 1227-1254, 1239-1249, 1242, 1257-1269.
* `Birch_Model.v`: `birch.py` 97-163, 156-161, 218-232, 235-251, 254-267, 270-304.
* `Blocks_Model.v`: `clique.py` 39-67, 51-59, 61-64, 99-103, 108-133, 122-125, 138-147, 552-561; `bang.py` 39-66, 50-58, 60-63, 70-97, 82-89, 130-134, 139-181, 170-173, 185-203, 235-255, 245-253, 266-272, 275-286, 347-396, 367-387.
* `Bsas_Model.v`: `bsas.py` 163-176, 165, 167-176, 214-232, 235-247, 250-264; `ttsas.py` 75-79, 106-112, 115-124, 122-124, 138-143, 146-151, 148; `mbsas.py` 97-118, 103-111, 113-118; `cluster/bsas.py` 107-155; `cluster/mbsas.py` 73-89; `cluster/ttsas.py` 82-98, 142-143.
* `Canvas_Model.v`: `color.py` 19-28, 32-38; `cluster/__init__.py` 28-52, 54-55, 459-512, 502-509, 515-567, 515, 530, 544, 570-595, 598-611, 614-627, 630-635, 687-758, 721-753, 737-741, 761-796, 779-796, 780-796.
* `Ccore_Model.v`: `core/wrapper.py` 21, 25-27, 30-34, 38-42, 46-79, 50-53, 57-60, 66-69, 75-77, 82-94, 97-114; `core/definitions.py` 18-39; `cluster/agglomerative.py` 124-126; `cluster/bsas.py` 126, 126-132; `mbsas.py` 73; `ttsas.py` 75; `cluster/clique.py` 489-491; `cluster/cure.py` 124-126; `cluster/dbscan.py` 74-92, 95-104, 107-117, 120-153, 131-153, 299-301; `cluster/elbow.py` 101-103, 101-106, 136-149, 141-144; `cluster/fcm.py` 121-123; `cluster/gmeans.py` 137-145; `cluster/hsyncnet.py` 73; `cluster/kmeans.py` 363, 363-365, 384; `cluster/kmedians.py` 86, 86-88; `cluster/kmedoids.py` 108-110, 108, 402-404; `cluster/optics.py` 405-410; `cluster/rock.py` 72-74; `cluster/silhouette.py` 158-160, 158, 446-448; `cluster/somsc.py` 72-78; `cluster/syncnet.py` 206; `cluster/xmeans.py` 199-201, 199; `nnet/hhn.py` 221; `nnet/legion.py` 245; `nnet/pcnn.py` 356; `nnet/som.py` 263; `nnet/sync.py` 736; `nnet/syncpr.py` 228; `nnet/syncsegm.py` 185-187.
* `Cfentry_Model.v`: `cftree.py` 168-188, 180, 183, 185-186, 449-460, 463-475, 507-533, 521-533, 590-599, 602-614, 646-666, 658-666, 669-681, 681.
* `Cftree_Model.v`: `utils/__init__.py` 277-297, 1148-1195; `cftree.py` 23-44, 66-123, 126-131, 151-165, 190-221, 224-237, 240-260, 263-282, 275, 285-297, 300-317, 320-341, 344-366, 400-430, 478-504, 536-566, 617-643, 773-800, 786-788, 803-817, 820-839, 842-851, 854-877, 880-902, 905-923, 926-961, 945, 964-1014, 1017-1041, 1051-1057, 1059-1072, 1075-1105, 1095-1103, 1108-1138, 1128-1136; `container/cftree.py` 842-851, 854-877; `cluster/birch.py` 253-304.
* `Clarans_Model.v`: `clarans.py` 43-45, 73-103, 86-100, 147-170, 155-167, 173-243, 185-188, 191-230, 246-266, 269-284.
* `Cldist_Model.v`: `utils/__init__.py` 199-229, 214-221, 300-328, 331-379, 351-374, 382-448, 399-405, 407-417, 430-437, 439-446, 1148-1172, 1175-1195, 1225-1236, 1253-1264, 1295-1306.
* `Clique_Model.v`: `clique.py` 182-193, 329-343, 346-368, 400-412, 469-499, 595-603, 606-620, 623-630, 633-660, 652-658, 663-681, 692, 697-708, 699-703, 710-720, 723-746, 749-774.
* `Cnn_Model.v`: `cnn.py` 28-40, 75-93, 96-113, 116-157, 146-155, 283, 294-320, 314-318, 323-337, 340-354, 357-419, 385-386, 387-393, 407-411, 413-419, 422-434; `utils/__init__.py` 526-539.
* `Codec_Model.v`: `core/pyclustering_package.py` 20-34, 44-53, 55-66, 131-132, 142-206, 165-194, 205, 265-303.
* `Cure_Model.v`: `cure.py` 33-64, 102-128, 165-230, 173, 174-225, 195-220, 228-230, 305-322, 325-338, 341-350, 353-377, 380-389, 392-401, 404-458, 421-427, 423, 431-449, 432-446, 451-456, 461-489, 492-508, 511-529; `kdtree.py` 459-500; `cluster/cure.py` 228-230.
* `Dbscan_Model.v`: `dbscan.py` 134-153, 136, 141, 143-147, 201-211, 228-260, 247-258, 263-273, 276-287; `cluster/dbscan.py` 58-92, 120-153, 201-210.
* `Diminfo_Model.v`: `dimension.py` 18-28, 30-62, 30-34, 34, 37-41, 41, 44-48, 51-55, 58-62, 65-66, 66, 69-78, 70-71, 70, 73-78, 74-78, 81-84, 82, 83-84, 84, 87-90, 88, 89-90, 90.
* `Draw_Model.v`: `utils/__init__.py` 798-879, 819-823, 825-835, 846-871, 847, 857-860, 932-976, 952-953, 955-959, 964-973, 965, 968-973, 979-1029, 998-1004, 1008-1010, 1009-1010, 1012-1014, 1032-1108, 1054-1055, 1057-1061, 1080-1105, 1081-1083, 1085-1088, 1100-1105; `dynamic_visualizer.py` 64-93, 108-141, 121-124, 123-124, 152-171, 169-171, 192-224, 238-263, 257-258, 266-287, 274-282, 277, 301-309, 308, 312-321.
* `Dsatur_Model.v`: `dsatur.py` 18-30, 32-108, 39-65, 47-56, 51, 67-108, 69-72, 70, 75, 77-85, 89-97, 110-121, 123-139, 142-152.
* `Dynindex_Model.v`: `nnet/sync.py` 159-171, 159, 171; `nnet/fsync.py` 72-83, 72, 83.
* `Elbow_Model.v`: `elbow.py` 112-114, 152-165, 157-162, 157, 158, 186-203, 196-203, 206-212, 211-212, 215-240; `cluster/elbow.py` 112-114.
* `Ellipse_Model.v`: `utils/__init__.py` 4-472, 451-472.
* `Ema_Model.v`: `ema.py` 29-61, 49-52, 58, 475-515, 518-544, 526-541, 531-536, 596-611, 619-629, 632-643, 637-638, 646-654, 648-649, 657-665, 668-686, 689-694, 697-704, 707-713, 716-733.
* `Emainit_Model.v`: `cluster/ema.py` 166, 180-182.
* `Emaobs_Model.v`: `ema.py` 254-261, 264-277, 304-316, 328-361, 393-405, 418-426, 429-434, 432-434, 475-544, 526-541.
* `Encoder_Model.v`: `encoder.py` 14-47, 147-184, 187-197, 192-193, 200-207, 210-228, 217-223, 231-245, 236-243, 248-256, 251-254, 259-267; `cluster/encoder.py` 121-126.
* `Ensembles_Model.v`: `nnet/sync.py` 174-235, 212-233, 214-230, 216-219, 238-278; `utils/__init__.py` 26, 561-597, 579-595, 600-693, 618-655, 622-638, 640-649, 654, 662-691, 668, 677-681; `nnet/hysteresis.py` 74-118, 92-116, 94-113, 97-109, 107; `nnet/pcnn.py` 141-170, 159-168, 161-165, 173-198, 201-216; `nnet/legion.py` 303-305, 319-332.
* `Fcm_Model.v`: `fcm.py` 119, 205-226, 218-224, 229-245, 238, 243, 248-265, 256, 260, 262-265, 268-276, 279-284, 281.
* `Files_Model.v`: `utils/graph.py` 118-208, 133, 188-192; `samples/__init__.py` 18-27; `utils/__init__.py` 5-127.
* `Fsync_Model.v`: `nnet/fsync.py` 193-216, 208-216, 210-211, 235, 240-245, 290-301, 304-324.
* `Ga_Model.v`: `ga.py` 428-480, 450-474, 453-459, 491-501, 505-530, 524, 534-558, 562-585, 589-603, 628-640, 644-667, 671-702; `ga_maths.py` 26-42, 54-81, 74-75.
* `Gaobs_Model.v`: `ga.py` 29-51, 54-63, 66-79, 82-95, 98-109, 183-226, 229-255, 248, 278-297, 428-480, 445-447, 450-474, 453-459, 472-474; `ga_maths.py` 22-23, 26-42, 84-121, 92-103, 106-113, 145-164; `cluster/ga_maths.py` 145-165.
* `Gasel_Model.v`: `cluster/ga.py` 505-530; `cluster/ga_maths.py` 84-165; `ga.py` 518, 528; `ga_maths.py` 84-121, 95-104, 98, 110-114, 138, 144-165.
* `Gcolor_Model.v`: `gcolor/sync.py` 49-68, 62-68, 77-98, 101-112; `gcolor/hysteresis.py` 52-76, 70-76, 114-143, 127-129, 137-143, 146-159; `nnet/sync.py` 928-973; `nnet/hysteresis.py` 286-332.
* `Gdraw_Model.v`: `graph.py` 4-256, 6-71, 9-261; `utils/graph.py` 235-241.
* `Generator_Model.v`: `cluster/generator.py` 22-49, 92-94.
* `Gkur_Model.v`: `gcolor/sync.py` 70-136, 89-92, 115-136; `nnet/sync.py` 976-1003.
* `Gproj_Model.v`: `gmeans.py` 313-330, 323, 334-350.
* `Hhn_Model.v`: `hhn.py` 25-110, 113-143, 193-238, 226-238, 248-324, 314-321, 326-377, 346-352, 360-366, 379-415, 398-403, 406-415, 417-440, 435-440, 442-525, 473-506, 539-551; `nnet/hhn.py` 25-110.
* `Hyst_Model.v`: `nnet/hysteresis.py` 189-207, 201-207, 210-237, 224-237, 255-260, 262, 264-265, 286-332, 319-326, 335-355, 350-352.
* `Init_Model.v`: `center_initializer.py` 54-74, 77-92; `cluster/center_initializer.py` 254-275, 270, 296-311; `sampling.py` 15-54, 49-52, 57-107, 82-83, 85-89, 98-105.
* `Kd_Model.v`: `kdtree.py` 164-203, 270-298, 279-284, 318-352, 334, 351, 369-396, 398-414, 412-413, 416-430, 432-457, 459-474, 476-500, 583-624, 603-624, 626-666, 668-710, 712-740, 725-738; `container/kdtree.py` 270-298, 416-430, 429, 570-581, 583-666, 583-624, 626-666; `cure.py` 392-401.
* `Kdvis_Model.v`: `kdtree.py` 62-89, 70, 91-102, 104-117, 119-133, 127-131, 135-150, 140-148, 152-160, 228-240.
* `Kmeans_Model.v`: `kmeans.py` 370-389, 412-437, 425-435, 440-462, 519-539, 542-557, 560-571, 590-610, 613-630; `kmedians.py` 93-130, 118-126, 122, 133-175, 232-258, 246-251, 292-319, 306-317.
* `Kmedoids_Model.v`: `kmedoids.py` 139-151, 148-149, 176-190, 193-219, 204-211, 409-455, 440-449, 619-652, 635-643, 655-681, 667-676, 684-706, 709-739; `cluster/kmedoids.py` 629, 645.
* `Kmobs_Model.v`: `kmeans.py` 37-44, 47-52, 55-64, 77-86, 99-108, 123-162, 176-182, 185-196, 190-196, 192-196, 199-208, 204-208, 211-220, 223-262, 240-251, 370-389, 412-437, 425-435, 613-630; `cluster/kmeans.py` 224-262.
* `Kuramoto_Model.v`: `sync.py` 820-838, 861-925, 899-918, 976-1003, 1006-1023; `syncnet.py` 308-335.
* `Legion_Model.v`: `legion.py` 26-94, 128-137, 140-153, 167-175, 252-265, 335-395, 381-393, 398-445, 417-424, 427-433, 449-468, 471-498, 501-532; `nnet/legion.py` 26-94; `utils/__init__.py` 526-539.
* `Libnet_Model.v`: `nnet/__init__.py` 89-96, 99-126, 168-173, 176-316, 351-360, 360, 394-409, 407; `core/sync_wrapper.py` 62-71, 85-98; `nnet/sync.py` 63-89, 80-84, 82, 196-205, 200-203, 734-739, 736-739, 835, 1026-1039, 1036-1037, 1042-1054, 1051-1052; `cluster/syncnet.py` 200-210, 338-390, 369; `cluster/hsyncnet.py` 68-76.
* `Listmath_Model.v`: `utils/__init__.py` 507-523, 1197-1208, 1208, 1211-1222, 1222, 1225-1236, 1239-1250, 1253-1264, 1264, 1267-1278, 1281-1292, 1295-1306.
* `Metric_Model.v`: `utils/metric.py` 17-48, 200-236, 239-255, 258-294, 317-318, 334, 353-357, 373, 392-398, 414, 435-441, 457, 477-481, 481, 498, 515-523, 536-542, 559-565, 578-584, 587-615, 611-613, 629-635; `utils/__init__.py` 84-85.
* `Multivis_Model.v`: `cluster/__init__.py` 167-189, 192-204, 237-286, 282-283, 289-304, 307-320, 368-383, 386-423; `utils/__init__.py` 696-795, 711-718, 713-716, 721-724, 740-762, 743-760, 764-781.
* `Netpic_Model.v`: `syncnet.py` 338-390, 346-349, 362, 364-387, 365-387, 367-374, 379-387; `cnn.py` 437-465, 443-445, 449-463, 449, 450-463, 451-463, 452-455, 460-463.
* `Netreq_Model.v`: `core/syncnet_wrapper.py` 15-22, 20, 30-33; `core/sync_wrapper.py` 16-22, 36-39, 42-45; `nnet/sync.py` 736-739, 880-882, 945-947; `cluster/syncnet.py` 203-208, 236-250, 300-302; `core/hsyncnet_wrapper.py` 15-22, 30-33; `cluster/hsyncnet.py` 70-76, 108-110; `core/syncpr_wrapper.py` 16-17, 20-26, 40-44, 47-52, 55-60, 63-69; `nnet/syncpr.py` 228-229, 255-256, 262-275, 271-272, 340-344, 414-418, 440-443, 498-511, 510-511; `core/legion_wrapper.py` 71-77; `nnet/legion.py` 351-353; `core/pcnn_wrapper.py` 54-59; `nnet/pcnn.py` 399-400, 416-421; `nnet/hhn.py` 282-302; `core/hhn_wrapper.py` 80-89, 92-94, 97-106, 109-143; `nnet/__init__.py` 35; `core/dbscan_wrapper.py` 18-33.
* `Nmetric_Model.v`: `utils/metric.py` 17-48, 95-119, 122-132, 165-184, 165-173, 176-184, 187-236, 239-255, 258-294, 321-334, 331, 353-357, 360-373, 401-414, 444-457, 484-498, 526-542, 537, 568-584, 618-635; `cluster/kmeans.py` 355-361; `cluster/xmeans.py` 184; `cluster/silhouette.py` 151-154.
* `Npack_Model.v`: `core/pyclustering_package.py` 142-162, 165-178, 165-194, 197-206, 205, 209-229, 214-226, 222-223.
* `Odesync_Model.v`: `sync.py` 928-973, 959-966, 976-1003, 997-998.
* `Optics_Model.v`: `optics.py` 122-161, 135, 164-223, 188-221, 226-260, 460-476, 479-505, 493-505, 501-503, 540-564, 629-673, 648-649, 655-670, 665-666, 676-694, 697-728, 717-723, 731-742, 745-756, 759-776.
* `Opticspic_Model.v`: `optics.py` 36-81, 62-68, 66, 122-161, 144-161.
* `Order_Model.v`: `nnet/sync.py` 35-60, 63-89, 80-84, 281-314.
* `Patpic_Model.v`: `syncpr.py` 53-102, 63-66, 63-67, 69-70, 72-76, 83-99, 94-99, 105-149, 123-137, 139, 152-188, 168-173, 172, 175.
* `Pcnn_Model.v`: `pcnn.py` 29-73, 376-380, 405-431, 426-429, 434-520, 452-457, 466-472, 483-509, 486-502, 487-491, 496-502; `nnet/pcnn.py` 29-73.
* `Plus_Model.v`: `center_initializer.py` 167-224, 191-196, 203, 238-245, 343-379, 358-364.
* `Predict_Model.v`: `cluster/kmeans.py` 355-361, 440-462, 451-462, 457-460; `cluster/kmedians.py` 133-175, 168-175, 172-173, 280-288; `cluster/kmedoids.py` 458-501, 493-501, 496-499; `cluster/xmeans.py` 264-311, 298-311; `cluster/gmeans.py` 204-215.
* `Rock_Model.v`: `rock.py` 53-81, 78, 84-111, 103-110, 140-162, 155-160, 165-183, 186-200, 204-218, 216, 221-237, 229.
* `Search_Model.v`: `utils/__init__.py` 1111-1145, 1136-1145.
* `Segm_Model.v`: `cluster/syncnet.py` 41-57; `syncsegm.py` 65-75, 96-109, 112-134, 126-131, 190-213, 227-228, 253-256, 262-281, 278-279, 284-301.
* `Silhouette_Model.v`: `silhouette.py` 146-165, 192-199, 197-199, 198-199, 212-230, 244-247, 261-262, 265-286, 276-281, 298-302, 305-320, 316, 323-333, 440-442, 484-503, 491-503, 499, 542-553; `cluster/silhouette.py` 416-448.
* `Small_Model.v`: `nnet/sync.py` 1006-1023; `utils/__init__.py` 475-504, 497-502, 498-502; `utils/dimension.py` 69-78, 75-78, 81-84, 87-90; `utils/graph.py` 46-71, 64-71.
* `Som_Model.v`: `som.py` 48-63, 260-261, 270-277, 325-345, 346-362, 364-381, 383-440, 407-425, 522-541, 543-578, 559, 561-564, 567-568, 575-578, 580-640, 599-601, 608-640, 610-611, 614-617, 619-629, 642-658, 660-683, 685-701, 717-749, 743-747, 767-816, 785-794, 803-808; `somsc.py` 54-99, 102-118, 121-129, 145-159.
* `Sompic_Model.v`: `som.py` 165-225, 227-284, 239-284, 271-277, 305-314, 316-324, 346-362, 580-640, 604, 610-611, 642-658, 685-701, 717-749, 767-816, 818-845, 847-946, 882, 891-897, 899-908, 913-922, 924-929, 935-941, 948-961, 969-991; `nnet/som.py` 205-225, 580-930.
* `Spikepic_Model.v`: `pcnn.py` 225-238, 258-292, 274-287, 278-279, 284.
* `Syncnet_Model.v`: `syncnet.py` 185-220, 234-240, 243-285, 260-270, 280-285; `hsyncnet.py` 54-82, 94-149, 120-122, 125-144, 151-165, 167-184.
* `Syncpr_Model.v`: `syncpr.py` 234, 262-291, 283-291, 316-392, 346-350, 395-426, 420-424, 429-446, 449-464, 467-495, 498-511; `sync.py` 899-911, 928-973, 949-956; `nnet/sync.py` 100-108.
* `Syncsom_Model.v`: `syncsom.py` 96-125, 114-119, 128-144, 147-166, 169-192, 195-220; `syncnet.py` 59.
* `Syncview_Model.v`: `nnet/sync.py` 122-134, 146-155, 238-278, 259-261, 281-314, 299-302, 317-357, 360-389, 392-408, 490-509, 512-531, 534-566, 569-602, 605-642, 645-663, 666-709, 741-757, 746-757; `nnet/__init__.py` 15-25.
* `Topology_Model.v`: `nnet/som.py` 27-45; `som.py` 442-520, 452-520; `nnet/__init__.py` 44-66; `__init__.py` 129-165, 176-180, 183-316, 189-196, 207-210, 214-231, 244-265, 295-316, 319-348, 351-369, 372-391, 394-409.
* `Wrapper_Model.v`: `core/kmeans_wrapper.py` 18-31, 19, 19-20, 22-25, 22-29, 24-29, 24-26, 25-31, 31; `core/pyclustering_package.py` 265-303; `core/som_wrapper.py` 33-37, 40-66, 57-61, 61, 170-235, 178-184; `core/gmeans_wrapper.py` 17-29, 18, 24; `core/xmeans_wrapper.py` 18-33, 19, 27; `core/elbow_wrapper.py` 30-51, 31, 47-48; `core/silhouette_wrapper.py` 25-37, 40-53, 41; `core/kmedoids_wrapper.py` 19-32, 21, 32; `core/clique_wrapper.py` 26-45, 37-38; `core/pam_build_wrapper.py` 19-33, 30-31; `core/converter.py` 15-18; `core/kmedians_wrapper.py` 18-30; `core/bsas_wrapper.py` 18-29; `core/mbsas_wrapper.py` 18-29; `core/ttsas_wrapper.py` 18-29; `core/dbscan_wrapper.py` 30-33, 31; `elbow.py` 141-144; `core/optics_wrapper.py` 28-50; `core/agglomerative_wrapper.py` 16-26; `core/rock_wrapper.py` 17-41; `core/fcm_wrapper.py` 24-36; `cluster/cure.py` 155-162; `core/cure_wrapper.py` 17-65; `cluster/kmeans.py` 396-409; `cluster/xmeans.py` 230-240; `cluster/fcm.py` 198-202; `cluster/optics.py` 446-456; `cluster/silhouette.py` 477-480; `utils/metric.py` 18-48, 24-48, 94-124, 246-253; `core/metric_wrapper.py` 25-34, 28, 57-66, 57-68; `core/pcnn_wrapper.py` 15-27, 30-46, 33-42, 34, 34-42, 73-130; `core/legion_wrapper.py` 15-35, 38-63, 42-58, 91-124; `core/hhn_wrapper.py` 15-39, 42-72, 45-66, 108-141; `nnet/som.py` 75-94; `core/sync_wrapper.py` 62-161, 86-92, 101-108; `core/syncpr_wrapper.py` 82-115.
* `Xcrit_Model.v`: `xmeans.py` 480-494, 510-635, 535-584, 587-635; `cluster/xmeans.py` 480-494.
* `Xmeans_Model.v`: `xmeans.py` 206-223, 243-261, 249-259, 371-399, 402-434, 437-456, 459-507, 480-494; `gmeans.py` 150-191, 182-189, 271-286, 289-310, 313-330, 352-377.
