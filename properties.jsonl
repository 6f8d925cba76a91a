{"id": "C01", "title": "so2 angle product is rotation composition", "statement": "For all angles a,b: so2.angle_to_matrix(so2.left_apply_angle(a,b)) is the matrix product angle_to_matrix(a) @ angle_to_matrix(b); each such matrix is orthogonal with determinant 1, and the returned angle lies in [0, 2pi). so2.left_apply_to_angle(A,B)[n,m] is that product of A[n] and B[m] for every n, m.", "quantifier": "all real angles; all lists of angles", "why_tests_cant": "The domain is a continuum; a test samples finitely many values and compares with a tolerance, so it cannot establish the identity for every input.", "anchors": ["gconv/geometry/groups/so2.py:angle_to_matrix", "gconv/geometry/groups/so2.py:left_apply_angle", "gconv/geometry/groups/so2.py:left_apply_to_angle"]}
{"id": "C02", "title": "so2 inverse and group laws", "statement": "For all angles: composing with inverse_angle on either side gives angle 0; composition is associative, commutative, and 0 is neutral modulo 2pi; inverse_matrix(angle_to_matrix(a)) equals angle_to_matrix(inverse_angle(a)) and is a two-sided matrix inverse.", "quantifier": "all real angles", "why_tests_cant": "The domain is a continuum; a test samples finitely many values and compares with a tolerance, so it cannot establish the identity for every input.", "anchors": ["gconv/geometry/groups/so2.py:inverse_angle", "gconv/geometry/groups/so2.py:inverse_matrix", "gconv/geometry/groups/so2.py:left_apply_angle"]}
{"id": "C03", "title": "so2.uniform_grid is the cyclic rotation group", "statement": "For every size n, so2.uniform_grid(n) has exactly n pairwise distinct angles in [0,2pi), entry i being 2*pi*i/n, and it is closed under left_apply_angle (entry i times entry j is entry (i+j) mod n) and under inversion modulo 2pi.", "quantifier": "all natural n, all index pairs", "why_tests_cant": "n is unbounded and closure is a statement about every pair of entries.", "anchors": ["gconv/geometry/groups/so2.py:uniform_grid", "gconv/geometry/groups/so2.py:left_apply_angle"]}
{"id": "C04", "title": "so2 geodesic distance", "statement": "so2.geodesic_distance(a,b) is symmetric, depends only on the rotation difference (invariant under composing both arguments with any common rotation and under 2pi shifts), lies in [acos(1-eps), acos(-1+eps)], and equals the length of the shorter arc between the two angles whenever that arc lies in this range.", "quantifier": "all real angles, all 0<eps<1", "why_tests_cant": "The domain is a continuum; a test samples finitely many values and compares with a tolerance, so it cannot establish the identity for every input.", "anchors": ["gconv/geometry/groups/so2.py:geodesic_distance", "gconv/geometry/groups/so2.py:geodesic_distance_euclid", "gconv/geometry/groups/so2.py:angle_to_euclid"]}
{"id": "C05", "title": "so2.nearest_neighbour_distance returns the self-distance (defect)", "statement": "Documented: the distance of each element to its nearest neighbour. Actual: for every non-empty grid every entry of the result is the clamped self-distance acos(1-1e-12), whatever the other elements are (and an empty grid raises); so the documented contract fails for every grid whose elements are more than that apart.", "quantifier": "all non-empty lists of angles", "why_tests_cant": "A test on one grid sees a small positive number; that the value never depends on the grid is a statement about all grids.", "anchors": ["gconv/geometry/groups/so2.py:nearest_neighbour_distance"]}
{"id": "C06", "title": "so2 action on the plane", "statement": "left_apply_angle_to_R2 is a left group action (acting by b then a equals acting by the product of a and b), the zero angle acts trivially, and every angle preserves dot products (hence norms and distances); result[n,w,h] is rotation n applied to grid[w,h].", "quantifier": "all angles, all planar grids of any size", "why_tests_cant": "The domain is a continuum; a test samples finitely many values and compares with a tolerance, so it cannot establish the identity for every input.", "anchors": ["gconv/geometry/groups/so2.py:left_apply_angle_to_R2", "gconv/geometry/groups/so2.py:left_apply_matrix_to_R2"]}
{"id": "C07", "title": "o2 product and inverse satisfy the group laws", "statement": "On elements (c, theta) with c in {1,-1}: left_apply_angle is associative, (1,0) is neutral mod 2pi, inverse(R) composed with R on either side is (1,0), the coefficient of a product is the product of coefficients (det multiplicative), coefficients stay in {1,-1}, and left_apply_to_angle(A,B)[n,m] is the product of A[n] and B[m].", "quantifier": "all o2 elements and all grids", "why_tests_cant": "The domain is a continuum; a test samples finitely many values and compares with a tolerance, so it cannot establish the identity for every input.", "anchors": ["gconv/geometry/groups/o2.py:left_apply_angle", "gconv/geometry/groups/o2.py:left_apply_to_angle", "gconv/geometry/groups/o2.py:inverse", "gconv/geometry/groups/o2.py:det"]}
{"id": "C08", "title": "o2 action; o2 'reflections' are rotations (defect)", "statement": "left_apply_to_R2 is a left action of the o2 product and preserves norms. But an element with coefficient -1 and angle t acts on R2 exactly as the rotation (1, t+pi): the matrix by which it acts always has determinant +1, so o2.det disagrees with the determinant of the action for every coefficient -1 element, no o2 element acts as a mirror reflection, and the o2 product is commutative (O(2) is not).", "quantifier": "all o2 elements, all planar vectors", "why_tests_cant": "Tests only check shapes and that det returns the stored coefficient.", "anchors": ["gconv/geometry/groups/o2.py:left_apply_to_R2", "gconv/geometry/groups/o2.py:det"]}
{"id": "C09", "title": "o2.uniform_grid layout", "statement": "For every (n,m), o2.uniform_grid((n,m)) has n+m rows; the first n carry coefficient 1 and the n-point uniform angles, the last m carry coefficient -1 and the m-point uniform angles; for n=m the grid is closed under the o2 product and inverse mod 2pi.", "quantifier": "all natural n, m", "why_tests_cant": "unbounded sizes", "anchors": ["gconv/geometry/groups/o2.py:uniform_grid"]}
{"id": "C10", "title": "o2.grid_sample restores the input order", "statement": "For every query grid of o2 elements with coefficients +-1 in any interleaving, row i of o2.grid_sample is the so2 sample of element i taken from the rotation half of the signal if its coefficient is 1 and from the reflection half if it is -1; the number of rows equals the number of queries. Queries of a kind for which the signal has no half raise IndexError.", "quantifier": "all interleavings, all signals, all sampler modes/widths", "why_tests_cant": "The permutation bookkeeping must be right for every interleaving; tests use rotations-first grids where a wrong permutation is invisible.", "anchors": ["gconv/geometry/groups/o2.py:grid_sample"]}
{"id": "C11", "title": "o3.grid_sample restores the input order", "statement": "Same as C10 for o3.grid_sample with so3 sampling of the 3x3 matrix part.", "quantifier": "all interleavings, all signals, all sampler modes/widths", "why_tests_cant": "as C10", "anchors": ["gconv/geometry/groups/o3.py:grid_sample"]}
{"id": "C12", "title": "o3 elements form O(3)", "statement": "For (c,R), c in {1,-1}, R a rotation: left_apply_O3 corresponds to the product of the matrices c*R, inverse to their inverse, det to their determinant; results again have coefficient +-1 and a rotation part; left_apply_to_O3(A,B)[n,m] is the product of A[n], B[m].", "quantifier": "all o3 elements and grids", "why_tests_cant": "The domain is a continuum; a test samples finitely many values and compares with a tolerance, so it cannot establish the identity for every input.", "anchors": ["gconv/geometry/groups/o3.py:left_apply_O3", "gconv/geometry/groups/o3.py:left_apply_to_O3", "gconv/geometry/groups/o3.py:inverse", "gconv/geometry/groups/o3.py:det"]}
{"id": "C13", "title": "so3/o3 action on R3", "statement": "so3.left_apply_to_R3 and o3.left_apply_to_R3 are left actions of their products, the identity acts trivially, every element acts isometrically, and coefficient -1 reverses orientation (determinant of the acting matrix is o3.det).", "quantifier": "all rotations / o3 elements, all vectors, all grids", "why_tests_cant": "The domain is a continuum; a test samples finitely many values and compares with a tolerance, so it cannot establish the identity for every input.", "anchors": ["gconv/geometry/groups/so3.py:left_apply_to_R3", "gconv/geometry/groups/o3.py:left_apply_to_R3", "gconv/geometry/groups/o3.py:det"]}
{"id": "C14", "title": "axis rotations are one-parameter subgroups of SO(3)", "statement": "matrix_x, matrix_y, matrix_z return rotations (orthogonal, determinant 1) fixing their axis, with matrix_*(a) @ matrix_*(b) = matrix_*(a+b) and matrix_inverse(matrix_*(a)) = matrix_*(-a); matrix_inverse is the two-sided inverse of every rotation and reverses products.", "quantifier": "all real angles, all rotations", "why_tests_cant": "The domain is a continuum; a test samples finitely many values and compares with a tolerance, so it cannot establish the identity for every input.", "anchors": ["gconv/geometry/groups/so3.py:matrix_x", "gconv/geometry/groups/so3.py:matrix_y", "gconv/geometry/groups/so3.py:matrix_z", "gconv/geometry/groups/so3.py:matrix_inverse"]}
{"id": "C15", "title": "cyclic_x/y/z return cyclic groups", "statement": "For every n and axis, so3.cyclic(n, axis) returns n unit quaternions, the i-th representing the rotation by 2*pi*i/n about the axis; the represented rotations are closed under composition; axis is case-insensitive and every other axis string raises ValueError.", "quantifier": "all n, all strings", "why_tests_cant": "unbounded n, all strings", "anchors": ["gconv/geometry/groups/so3.py:cyclic", "gconv/geometry/groups/so3.py:cyclic_x", "gconv/geometry/groups/so3.py:cyclic_y", "gconv/geometry/groups/so3.py:cyclic_z"]}
{"id": "C16", "title": "tabulated polyhedral groups are groups", "statement": "klein_group and tetrahedral: exact unit quaternions, pairwise distinct rotations, containing the identity, closed under quaternion product and inverse up to sign. octahedral and icosahedral: the same up to 1e-7 per coordinate (the tables hold 8-digit decimals).", "quantifier": "every pair of tabulated elements", "why_tests_cant": "finite: 60*60 products each compared with 60 elements and both signs; the repository has no such test", "anchors": ["gconv/geometry/groups/so3.py:klein_group", "gconv/geometry/groups/so3.py:tetrahedral", "gconv/geometry/groups/so3.py:octahedral", "gconv/geometry/groups/so3.py:icosahedral"]}
{"id": "C17", "title": "quat_to_matrix is the double cover", "statement": "For unit q the result is a rotation matrix; it maps quaternion products to matrix products and quat_inverse to matrix_inverse; two unit quaternions give the same matrix iff they are equal up to sign. For arbitrary q the result is |q|^2 times a rotation.", "quantifier": "all quaternions", "why_tests_cant": "The domain is a continuum; a test samples finitely many values and compares with a tolerance, so it cannot establish the identity for every input.", "anchors": ["gconv/geometry/groups/so3.py:quat_to_matrix", "gconv/geometry/groups/so3.py:quat_inverse"]}
{"id": "C18", "title": "matrix_to_quat inverts quat_to_matrix", "statement": "For every rotation matrix R (including every tie in the pivot choice and half-turns) matrix_to_quat(R) is a unit quaternion with quat_to_matrix(matrix_to_quat(R)) = R, with no division by zero; for every unit q, matrix_to_quat(quat_to_matrix(q)) is q or -q.", "quantifier": "all rotation matrices, all unit quaternions", "why_tests_cant": "Four pivot branches with boundaries on measure-zero sets random tests never hit.", "anchors": ["gconv/geometry/groups/so3.py:matrix_to_quat", "gconv/geometry/groups/so3.py:quat_to_matrix"]}
{"id": "C19", "title": "euler_to_matrix is extrinsic ZYZ", "statement": "Before thresholding euler_to_matrix(alpha,beta,gamma) = matrix_z(gamma) @ matrix_y(beta) @ matrix_z(alpha); the returned matrix differs from it by at most eps per entry, is exactly it when no non-zero entry has magnitude <= eps (in particular eps=0), and never contains a non-zero entry of magnitude <= eps.", "quantifier": "all angle triples, all eps >= 0", "why_tests_cant": "The domain is a continuum; a test samples finitely many values and compares with a tolerance, so it cannot establish the identity for every input.", "anchors": ["gconv/geometry/groups/so3.py:euler_to_matrix"]}
{"id": "C20", "title": "matrix_to_euler inverts ZYZ", "statement": "For every rotation R that is not inside the eps gimbal zone, and for every exactly gimbal-locked R (R33 = +-1), the angles returned by matrix_to_euler reproduce R under ZYZ composition and lie in [-pi, pi); in the gimbal zone the third angle is 0. Strictly inside the zone (0 < beta < eps) the docstring's 'still results in the correct rotation' is false in general, with an error of at most 2*eps per entry.", "quantifier": "all rotation matrices, all 0 < eps < 1", "why_tests_cant": "gimbal-locked and near-locked matrices have measure ~0 under random testing", "anchors": ["gconv/geometry/groups/so3.py:matrix_to_euler"]}
{"id": "C21", "title": "gimbal-lock warning is only issued when every element is locked (defect)", "statement": "matrix_to_euler warns iff warnings are enabled and no element of the batch is safe; so a batch with at least one safe element never warns about its locked elements.", "quantifier": "all batches", "why_tests_cant": "needs mixed batches", "anchors": ["gconv/geometry/groups/so3.py:matrix_to_euler"]}
{"id": "C22", "title": "so3.left_apply_quat always raises (defect)", "statement": "Documented: returns the quaternion product. Actual: for every pair of inputs the call raises (a tuple is assigned to a tensor slice), so no input yields a product.", "quantifier": "all inputs", "why_tests_cant": "A negative universal; no test calls it.", "anchors": ["gconv/geometry/groups/so3.py:left_apply_quat"]}
{"id": "C23", "title": "so3 geodesic distance", "statement": "geodesic_distance(p,q) on unit quaternions is symmetric, insensitive to the sign of either argument (so a function of rotations), invariant under left and right composition with any rotation, in [acos(1-eps), pi/2], and, outside the clamp, half the angle of the relative rotation.", "quantifier": "all unit quaternions, all 0<eps<1", "why_tests_cant": "The domain is a continuum; a test samples finitely many values and compares with a tolerance, so it cannot establish the identity for every input.", "anchors": ["gconv/geometry/groups/so3.py:geodesic_distance"]}
{"id": "C24", "title": "so3 nearest-neighbour distance", "statement": "For a grid of N>=2 unit quaternions, entry i of nearest_neighbour_distance is the minimum of the geodesic distances from element i to the other elements; for N<2 the call raises IndexError.", "quantifier": "all grids of any size", "why_tests_cant": "any size, ties, duplicated rotations", "anchors": ["gconv/geometry/groups/so3.py:nearest_neighbour_distance"]}
{"id": "C25", "title": "so3_log", "statement": "For every rotation R whose angle t is within the clamp range, so3_log(R) is the rotation vector: its norm is t and the Rodrigues rotation of it is R; the log of the identity is 0. For every half-turn the result is the zero vector, i.e. wrong (the special-case branches are unreachable because of the clamp).", "quantifier": "all rotation matrices, all 0<eps<1", "why_tests_cant": "The domain is a continuum; a test samples finitely many values and compares with a tolerance, so it cannot establish the identity for every input.", "anchors": ["gconv/geometry/groups/so3.py:so3_log"]}
{"id": "C26", "title": "quaternion_log", "statement": "For every non-zero quaternion with non-zero vector part quaternion_log returns (ln|q|, angle * axis), whose quaternion exponential is q; for positive real quaternions it returns (ln|q|,0,0,0).", "quantifier": "all quaternions with the stated guards", "why_tests_cant": "The domain is a continuum; a test samples finitely many values and compares with a tolerance, so it cannot establish the identity for every input.", "anchors": ["gconv/geometry/groups/so3.py:quaternion_log"]}
{"id": "C27", "title": "so3.uniform_grid and the grid cache over call histories", "statement": "size 0 returns an empty tensor and unknown parameterizations raise ValueError. Without cache_grid and without in-place writes, uniform_grid never changes any later result, and tabulated sizes always return the table. Defects: with cache_grid=True the Euler angles are stored under the requested parameterization, so the next call returns Euler angles instead of quaternions/matrices; cache_grid=True with 'euler' always raises KeyError; results for tabulated sizes alias the cache, so an in-place write by one caller changes the result of all later calls; size 1 'matrix' has shape (3,3) instead of (1,3,3).", "quantifier": "all finite histories of calls and in-place writes", "why_tests_cant": "A history property: needs arbitrary sequences of calls and writes.", "anchors": ["gconv/geometry/groups/so3.py:uniform_grid", "gconv/geometry/groups/_grid_cache.py:save_grid", "gconv/geometry/groups/_grid_cache.py:load_grid"]}
{"id": "C28", "title": "RBF interpolation reproduces the signal on its grid", "statement": "Whenever the linear solve succeeds, interpolate_RBF evaluated at a grid node returns exactly the signal there; the result is linear in the signal, each output row depends only on its own query node, and it is unchanged when nodes and grid are moved by any map preserving dist_fn.", "quantifier": "all grids, signals, dist_fn and rbf; all sizes", "why_tests_cant": "arbitrary user-supplied metrics and rbf", "anchors": ["gconv/geometry/interpolation.py:interpolate_RBF"]}
{"id": "C29", "title": "nearest-neighbour interpolation", "statement": "Every row of interpolate_NN is the signal at a grid node attaining the minimal dist_fn to the query; at a query whose distance to one node is strictly smallest it returns that node's signal; invariant under distance-preserving maps.", "quantifier": "all grids, signals, metrics", "why_tests_cant": "Unbounded sizes/shapes: a test fixes a handful of shapes (often all equal, which hides axis mix-ups).", "anchors": ["gconv/geometry/interpolation.py:interpolate_NN"]}
{"id": "C30", "title": "barycentric interpolation weights are convex", "statement": "When the clipped barycentric coordinates have non-zero sum, the weights used by interpolate_BCC are >= 0 and sum to 1, so outputs lie between the min and max of the three signals; within eps of a node it returns that node's signal. It works only for nodes with at least three coordinates and grids of at least three nodes; everything else (angles, spherical coordinates) raises RuntimeError.", "quantifier": "all least-squares outputs, all signals", "why_tests_cant": "The domain is a continuum; a test samples finitely many values and compares with a tolerance, so it cannot establish the identity for every input.", "anchors": ["gconv/geometry/interpolation.py:interpolate_BCC"]}
{"id": "C31", "title": "Gaussian RBF", "statement": "For width > 0 (the guard without which the code divides by zero): RBF_gauss(x,width) is in (0,1], is 1 only at 0, even, strictly decreasing in |x|, and its value at |x|=width is within 1e-8 of one half.", "quantifier": "all real x, all positive widths", "why_tests_cant": "The domain is a continuum; a test samples finitely many values and compares with a tolerance, so it cannot establish the identity for every input.", "anchors": ["gconv/geometry/interpolation.py:RBF_gauss"]}
{"id": "C32", "title": "spherical coordinates round trip", "statement": "spherical_to_euclid always returns a unit vector; spherical_to_euclid(euclid_to_spherical(x)) = x for every unit vector x including the poles; euclid_to_spherical(spherical_to_euclid(b,g)) = (b,g) for 0<b<pi, -pi<g<=pi.", "quantifier": "all unit vectors / angles", "why_tests_cant": "The domain is a continuum; a test samples finitely many values and compares with a tolerance, so it cannot establish the identity for every input.", "anchors": ["gconv/geometry/groups/s2.py:spherical_to_euclid", "gconv/geometry/groups/s2.py:euclid_to_spherical"]}
{"id": "C33", "title": "s2 grid parameterization dispatch", "statement": "spherical_to_euler prepends alpha=0. Defects: spherical_to_euler_neg_gamma raises for every non-empty grid (and does not negate); an unknown parameterization of uniform_grid_s2 raises UnboundLocalError after the whole optimization instead of a ValueError.", "quantifier": "all strings, all non-empty grids", "why_tests_cant": "negative universals", "anchors": ["gconv/geometry/groups/s2.py:spherical_to_euler", "gconv/geometry/groups/s2.py:spherical_to_euler_neg_gamma", "gconv/geometry/groups/s2.py:uniform_grid_s2"]}
{"id": "C34", "title": "coordinate grids", "statement": "create_grid_R3(s)[i,j,k] = (x_k,x_j,x_i) and create_grid_R2(s)[i,j] = (x_i,x_j) with x_i=-1+2i/(s-1) for s>=2 (x_0=-1 for s=1); for s>=2 they are symmetric under index reversal and closed under every signed coordinate permutation, realised by the corresponding permutation/reversal of indices. (R2 is row-first whereas R3 is x-first: the two conventions differ.)", "quantifier": "all sizes, all indices, all signed permutations", "why_tests_cant": "Unbounded sizes/shapes: a test fixes a handful of shapes (often all equal, which hides axis mix-ups).", "anchors": ["gconv/gnn/functional/grid.py:create_grid_R3", "gconv/gnn/functional/grid.py:create_grid_R2"]}
{"id": "C35", "title": "spherical masks", "statement": "The masks are 0/1, 1 exactly where the grid point has norm < 1.1, invariant under all signed coordinate permutations; for odd s>=3 the centre and the face centres are kept and for all s>=2 the corners are dropped. Defect: for kernel sizes 1 and 2 the mask is identically zero (so a masked layer outputs only its bias), for every other size it is not.", "quantifier": "all sizes and indices", "why_tests_cant": "Tests use sizes 3 and 5 only.", "anchors": ["gconv/gnn/functional/mask.py:create_spherical_mask_R2", "gconv/gnn/functional/mask.py:create_spherical_mask_R3"]}
{"id": "C36", "title": "lifting kernel formula", "statement": "For every number of group elements, channels, groups, kernel size, mask and determinant option, the weights returned by a lifting kernel have shape (out, |H|, in/groups, *kernel) and entry (o,h,c,x) is mask(x) * S(weight[o,c], h^-1 x) / det h, where S is the spatial sampler.", "quantifier": "all shapes, all group ops obeying their documented shapes, all samplers", "why_tests_cant": "repeat_interleave/repeat/view index arithmetic must agree for every shape.", "anchors": ["gconv/gnn/kernels/kernel.py:GLiftingKernel.forward"]}
{"id": "C37", "title": "full group kernel formula", "statement": "The weights returned by GKernel have shape (out, |out_H|, in/groups, |in_H|, *kernel) and entry (o,g,c,h,x) is mask(x) * S(V_{o,c}(g^-1 h), g^-1 x) / det g where V is the group-sampled weight; group elements are paired correctly also when |in_H| != |out_H|. Defect: the channel axes are relabelled: the parameter used for (output o, input c) is weight[:, o', c'] with o'*(in/groups)+c' = c*out+o, so it is weight[:, o, c] only in degenerate cases (transposed when square).", "quantifier": "all shapes incl. |in_H| != |out_H|, all group ops and samplers", "why_tests_cant": "Unbounded sizes/shapes: a test fixes a handful of shapes (often all equal, which hides axis mix-ups).", "anchors": ["gconv/gnn/kernels/kernel.py:GKernel.forward"]}
{"id": "C38", "title": "separable kernel formula (and |in_H| != |out_H| defect)", "statement": "For |in_H| = |out_H| the group weights returned by GSeparableKernel have entry (o,g,c,h) = V_{o,c}(g^-1 h) (same channel relabelling as C37) and the spatial weights have entry (o,g,0,x) = mask(x)*S(weight[o,0], g^-1 x)/det g. For |in_H| != |out_H| the returned group weight has the two group axes exchanged in its shape; read as the layer reads it, its values are still paired correctly with one input channel per group, but with two or more some entry holds the value of a different (channel, g, h).", "quantifier": "all shapes", "why_tests_cant": "tests use |in_H| = |out_H|", "anchors": ["gconv/gnn/kernels/kernel.py:GSeparableKernel.forward"]}
{"id": "C39", "title": "subgroup kernel formula", "statement": "GSubgroupKernel returns, for |in_H| = |out_H|, entry (o,g,c,h,0..) = V_{o,c}(g^-1 h); the group axes are exchanged in the shape otherwise, as in C38; it raises unless the spatial kernel is one cell; det_H is ignored.", "quantifier": "all shapes", "why_tests_cant": "Unbounded sizes/shapes: a test fixes a handful of shapes (often all equal, which hides axis mix-ups).", "anchors": ["gconv/gnn/kernels/kernel.py:GSubgroupKernel.forward", "gconv/gnn/kernels/kernel_sen/kernel_so3.py"]}
{"id": "C40", "title": "group weights depend only on relative group elements", "statement": "For SE2, E2, SE3, E3 kernels, multiplying in_H and out_H on the left by the same group element leaves the sampled group weights unchanged, because out^-1 in is unchanged as a stored element.", "quantifier": "all group elements and grids of the four groups", "why_tests_cant": "The domain is a continuum; a test samples finitely many values and compares with a tolerance, so it cannot establish the identity for every input.", "anchors": ["gconv/gnn/kernels/kernel.py:GKernel.forward", "gconv/gnn/kernels/kernel.py:GSeparableKernel.forward", "gconv/geometry/groups/so2.py", "gconv/geometry/groups/o2.py", "gconv/geometry/groups/so3.py", "gconv/geometry/groups/o3.py"]}
{"id": "C41", "title": "default RBF widths (defects)", "statement": "Documented: width 0.0 is replaced by 0.8 times the mean nearest-neighbour distance of the reference grid. SE3 does this. SE2 and E2 use the constant 0.8*acos(1-1e-12) for every grid. E3 feeds the 10-vectors (coefficient + flattened matrix) to the quaternion metric, so the value is not the neighbour distance. E2/E3 with zero rotations or zero reflections raise, and SE3/E3 with one raises.", "quantifier": "all grids", "why_tests_cant": "tests only look at shapes", "anchors": ["gconv/gnn/kernels/kernel_sen/kernel_se2.py", "gconv/gnn/kernels/kernel_sen/kernel_se3.py", "gconv/gnn/kernels/kernel_en/kernel_e2.py", "gconv/gnn/kernels/kernel_en/kernel_e3.py"]}
{"id": "C42", "title": "mask option", "statement": "For SE3, E2 and E3 kernels mask=False yields unmasked weights. Defect: SE2 kernels ignore the option and always mask.", "quantifier": "all kernel sizes, both option values", "why_tests_cant": "tests never pass mask=False to SE2", "anchors": ["gconv/gnn/kernels/kernel_sen/kernel_se2.py", "gconv/gnn/kernels/kernel_sen/kernel_se3.py", "gconv/gnn/kernels/kernel_en/kernel_e2.py", "gconv/gnn/kernels/kernel_en/kernel_e3.py"]}
{"id": "C43", "title": "constructor validation", "statement": "A group-convolution constructor accepts its hyper-parameters iff: group_kernel_size, if a tuple, has no negative entry and positive sum; groups>0 divides in and out channels; a string padding is 'same' or 'valid' and 'same' only with unit strides; padding_mode is one of zeros/reflect/replicate/circular; otherwise ValueError.", "quantifier": "all hyper-parameter combinations", "why_tests_cant": "combinatorial input space", "anchors": ["gconv/gnn/modules/gconv.py:GroupConvNd.__init__"]}
{"id": "C44", "title": "padding configuration", "statement": "For padding='same' (stride 1, any dilation and kernel size, any supported padding mode) a single convolution preserves every spatial size; the left/right amounts differ by at most one; 'valid' pads nothing; explicit paddings apply the same amount on both sides of their own axis.", "quantifier": "all sizes, dilations, kernel sizes, dims", "why_tests_cant": "unbounded sizes, even/odd interplay", "anchors": ["gconv/gnn/modules/gconv.py:GroupConvNd.__init__", "gconv/gnn/modules/gconv.py:GroupConvNd._conv2d_forward", "gconv/gnn/modules/gconv.py:GroupConvNd._conv3d_forward"]}
{"id": "C45", "title": "lifting convolution forward", "statement": "The output of a lifting convolution has shape (N, out, |H|, *spatial) and entry (n,o,h,y) is bias[o] plus the sum over the input channels c of o's channel group and kernel offsets x of W(o,h,c,x)*input[n,c,y*stride+x*dilation-pad] with W as in C36; the H returned is the H used.", "quantifier": "all shapes, groups, strides, paddings, dilations", "why_tests_cant": "Unbounded sizes/shapes: a test fixes a handful of shapes (often all equal, which hides axis mix-ups).", "anchors": ["gconv/gnn/modules/gconv.py:GLiftingConvNd.forward"]}
{"id": "C46", "title": "group convolution forward", "statement": "The output of a full group convolution has shape (N,out,|out_H|,*spatial) and entry (n,o,g,y) is bias[o] plus the sum over c, h in in_H, x of W(o,g,c,h,x)*input[n,c,h,y*stride+x*dilation-pad] with W as in C37.", "quantifier": "all shapes", "why_tests_cant": "Unbounded sizes/shapes: a test fixes a handful of shapes (often all equal, which hides axis mix-ups).", "anchors": ["gconv/gnn/modules/gconv.py:GConvNd.forward"]}
{"id": "C47", "title": "separable convolution forward (double stride/padding defect)", "statement": "With unit stride and zero explicit padding (or 'same' with zeros) and |in_H|=|out_H|, the separable convolution equals the full group convolution whose kernel is the product of its group weight and spatial weight. Defect: stride, padding are applied in both stages: with padding p the output is larger by 2p per axis than that of the equivalent full convolution, with stride s it is subsampled by s*s, and 'same' with a non-zeros padding mode does not preserve the spatial size when dilation*(kernel-1) > 0.", "quantifier": "all shapes", "why_tests_cant": "Unbounded sizes/shapes: a test fixes a handful of shapes (often all equal, which hides axis mix-ups).", "anchors": ["gconv/gnn/modules/gconv.py:GSeparableConvNd.forward"]}
{"id": "C48", "title": "translation equivariance", "statement": "Lifting and group convolutions with stride 1 commute with spatial translations on the interior: if the input is shifted by t, each output position whose receptive field stays inside both images has the shifted value.", "quantifier": "all inputs, translations, kernels", "why_tests_cant": "all shifts and inputs", "anchors": ["gconv/gnn/modules/gconv.py:GLiftingConvNd.forward", "gconv/gnn/modules/gconv.py:GConvNd.forward"]}
{"id": "C49", "title": "lifting convolution is equivariant under grid symmetries", "statement": "For every grid symmetry g (2D: quarter turns; 3D: the 24 rotations of the cube) lifting the rotated input with grid g*H gives the rotated output of lifting the input with H (stride 1, symmetric padding), for every sampler.", "quantifier": "all inputs, weights, H, symmetries, odd/even sizes, dilations, samplers", "why_tests_cant": "tests/test_equivariance.py only plots", "anchors": ["gconv/gnn/modules/gconv_sen/gconv_se2.py:GLiftingConvSE2", "gconv/gnn/modules/gconv_sen/gconv_se3.py:GLiftingConvSE3"]}
{"id": "C50", "title": "group convolution is equivariant under grid symmetries", "statement": "For every such g, group convolution of the rotated feature map on g*in_H to g*out_H is the rotated output of the original.", "quantifier": "as C49", "why_tests_cant": "The domain is a continuum; a test samples finitely many values and compares with a tolerance, so it cannot establish the identity for every input.", "anchors": ["gconv/gnn/modules/gconv_sen/gconv_se2.py:GConvSE2", "gconv/gnn/modules/gconv_sen/gconv_se3.py:GConvSE3"]}
{"id": "C51", "title": "E(n) layers are equivariant only up to the sign of the determinant (defect)", "statement": "For the E2/E3 lifting convolution, transforming the input by g and the grid to g*H yields det(g) times the transformed output: because the weights are divided by det rather than |det|, an inversion flips the sign of every feature.", "quantifier": "all inputs, weights, grids", "why_tests_cant": "needs inverted inputs; untested", "anchors": ["gconv/gnn/kernels/kernel.py:GLiftingKernel.forward", "gconv/geometry/groups/o3.py:det"]}
{"id": "C52", "title": "networks are equivariant and their pooled features invariant", "statement": "Take any network of lifting, group and separable convolutions, batch/instance normalizations and activations (SE(2), SE(3), E(2), E(3)). For every grid rotation g (2D: quarter turns; 3D: the 24 rotations of the cube), whenever it runs on an image it runs on the image moved by g, the output features are the same feature maps moved by g and living on the group elements g*h, the running statistics left in the normalization modules are identical, and the global average and maximum pools are identical. The random draws of permute_output_grid correspond: in SE(2) the lifting draw u becomes u + q/4 mod 1 and later draws stay; in SE(3) q0 becomes p q0 and later draws p q p^-1; in E(n) every draw is multiplied by g. Without permutation the grid must be mapped to itself by g, as uniform grids of 4m angles are.", "quantifier": "all networks, inputs, weights, symmetries, draws, kernel sizes >= 2, strides that cover the image, symmetric paddings", "why_tests_cant": "README promises invariance; no test", "anchors": ["README.md", "gconv/gnn/modules/pooling.py:GAvgGlobalPool", "gconv/gnn/modules/pooling.py:GMaxGlobalPool", "gconv/gnn/modules/gconv_sen/gconv_se2.py", "gconv/gnn/modules/gconv_sen/gconv_se3.py", "gconv/gnn/modules/gconv_en/gconv_e2.py", "gconv/gnn/modules/gconv_en/gconv_e3.py", "gconv/gnn/modules/normalization.py", "gconv/gnn/modules/activations.py"]}
{"id": "C53", "title": "permute_output_grid only moves the grid rigidly", "statement": "With permute_output_grid the returned grid is r*H for one group element r, so it has the same number of elements and the same relative elements h1^-1 h2; with it off, the returned grid is the given (or default) one.", "quantifier": "all random draws r, all grids, four groups", "why_tests_cant": "random draws", "anchors": ["gconv/gnn/modules/gconv_sen/gconv_se2.py", "gconv/gnn/modules/gconv_sen/gconv_se3.py", "gconv/gnn/modules/gconv_en/gconv_e2.py", "gconv/gnn/modules/gconv_en/gconv_e3.py"]}
{"id": "C54", "title": "group and global pooling", "statement": "GAvgGroupPool / GAvgGlobalPool return the means over the group axis / group and spatial axes and are invariant under any permutation of them. Defect: GMaxGroupPool and GMaxGlobalPool return a (values, indices) pair instead of a tensor; its values component is the maximum and invariant.", "quantifier": "all tensors, all permutations", "why_tests_cant": "Unbounded sizes/shapes: a test fixes a handful of shapes (often all equal, which hides axis mix-ups).", "anchors": ["gconv/gnn/modules/pooling.py"]}
{"id": "C55", "title": "spatial pooling modules raise unless everything is pooled to one cell (defect)", "statement": "GMaxSpatialPool*, GAvgSpatialPool*, GAdaptive*SpatialPool* succeed iff the pooled spatial extent has exactly one cell, i.e. one window of the given size, stride, padding, dilation and rounding fits on every axis, and then return shape (N,C,|H|) without the spatial axes, holding the maximum, or the sum over the divisor, of the entries that window reads; otherwise RuntimeError.", "quantifier": "all shapes and pooling parameters", "why_tests_cant": "negative universal", "anchors": ["gconv/gnn/modules/pooling.py"]}
{"id": "C56", "title": "batch/instance normalization respects the group axis", "statement": "GBatchNorm* normalizes each channel by its mean and variance over batch, group and space, GInstanceNorm* per sample and channel over group and space; both preserve the shape and commute with any permutation of group elements and positions.", "quantifier": "all tensors and permutations", "why_tests_cant": "Unbounded sizes/shapes: a test fixes a handful of shapes (often all equal, which hides axis mix-ups).", "anchors": ["gconv/gnn/modules/normalization.py"]}
{"id": "C57", "title": "activations pass the grid through; GWrap cannot be constructed (defect)", "statement": "GReLU/GGELU/GLeakyReLU act entrywise, keep the shape, commute with any rearrangement of entries, and return H unchanged. GWrap(module) raises AttributeError for every module because the base initialiser is not called.", "quantifier": "all tensors", "why_tests_cant": "Unbounded sizes/shapes: a test fixes a handful of shapes (often all equal, which hides axis mix-ups).", "anchors": ["gconv/gnn/modules/activations.py", "gconv/gnn/modules/wrappers.py:GWrap"]}
{"id": "C58", "title": "repulse only writes to its argument when in_place", "statement": "repulse returns the result of `steps` noisy gradient steps; with in_place=False the caller's tensor is unchanged for every energy, metric and noise; with in_place=True the caller's tensor holds the returned values; with steps=0 the grid is returned unchanged.", "quantifier": "all grids, gradient functions, noises, step counts", "why_tests_cant": "all histories of steps", "anchors": ["gconv/geometry/repulsion.py:repulse"]}
{"id": "C59", "title": "kernels at the identity element", "statement": "With nearest sampling and border padding the 3D kernel sampled at the identity is the stored weight (times the mask, if any), for every kernel size >= 1; the 2D kernel is its transpose (defect: row/column order of the 2D grid). With bilinear sampling the same holds for kernel sizes up to 3, and from size 4 on the stored weight is not reproduced in general (align_corners mismatch).", "quantifier": "all kernel sizes, all weights", "why_tests_cant": "Unbounded sizes/shapes: a test fixes a handful of shapes (often all equal, which hides axis mix-ups).", "anchors": ["gconv/gnn/functional/grid.py:create_grid_R2", "gconv/gnn/functional/grid.py:create_grid_R3", "gconv/gnn/kernels/kernel.py:GLiftingKernel.forward"]}
{"id": "C60", "title": "bias initialisation bound", "statement": "reset_parameters leaves every bias entry within 1/sqrt(fan_in) of 0 where fan_in is computed from the kernel parameter: (in/groups)*volume for lifting, volume for separable, but out*(in/groups)*volume for the full kernel (not its number of inputs); no write when fan_in = 0.", "quantifier": "all shapes and random draws", "why_tests_cant": "Unbounded sizes/shapes: a test fixes a handful of shapes (often all equal, which hides axis mix-ups).", "anchors": ["gconv/gnn/modules/gconv.py:GroupConvNd.reset_parameters"]}
{"id": "C61", "title": "o3.uniform_grid needs at least two rotations of each kind it uses (defect)", "statement": "o3.uniform_grid((n,m)) raises RuntimeError whenever n or m is 1 (the tabulated size-1 matrix grid has shape (3,3)), and IndexError for (0,0); for n,m each 0 or at least 2, not both 0, it returns n rows with coefficient 1 followed by m rows with coefficient -1. Caching an untabulated so3 matrix grid of size n makes a later o3.uniform_grid((n,n)) raise.", "quantifier": "all pairs (n,m)", "why_tests_cant": "the failing sizes are never exercised", "anchors": ["gconv/geometry/groups/o3.py:uniform_grid", "gconv/geometry/groups/so3.py:uniform_grid", "gconv/geometry/groups/_grid_cache.py"]}
{"id": "C62", "title": "so3 sampling is invariant under left and right translation", "statement": "Composing all queries and all grid rotations with one common rotation, on the left or on the right, does not change the result of so3.grid_sample on matrices, in either mode.", "quantifier": "all rotations, grids, signals, widths", "why_tests_cant": "The domain is a continuum; a test samples finitely many values and compares with a tolerance, so it cannot establish the identity for every input.", "anchors": ["gconv/geometry/groups/so3.py:grid_sample"]}
{"id": "C63", "title": "random group elements are valid", "statement": "For every draw with non-zero norm random_quat is a unit quaternion, random_matrix a rotation, and o3.random_grid an element with coefficient 1 or -1 and a rotation part; so2/o2.random_grid return angles in [0, 2 pi) and coefficients 1 or -1. Every element of SO(2), O(2), SO(3), O(3) (angles in [0, 2 pi)) is returned for some draw. Intervals of angles are hit exactly by the proportional interval of draws; the coefficient is 1 exactly when its draw exceeds 1/2; the rotation depends only on the direction of its draw and rotating the draw rotates the result.", "quantifier": "all random draws, all group elements", "why_tests_cant": "random draws", "anchors": ["gconv/geometry/groups/so2.py:random_grid", "gconv/geometry/groups/o2.py:random_grid", "gconv/geometry/groups/so3.py:random_quat", "gconv/geometry/groups/so3.py:random_matrix", "gconv/geometry/groups/o3.py:random_grid"]}
{"id": "C64", "title": "so3 sampling at grid points", "statement": "rbf sampling at a grid rotation returns exactly the signal stored there; nearest sampling returns the signal of a grid rotation of minimal geodesic distance.", "quantifier": "all grids, signals, queries", "why_tests_cant": "The domain is a continuum; a test samples finitely many values and compares with a tolerance, so it cannot establish the identity for every input.", "anchors": ["gconv/geometry/groups/so3.py:grid_sample"]}
{"id": "C65", "title": "the tabulated so3 grids are valid and consistent", "statement": "For every size 1..24 the quaternion and the matrix table have that many elements, every quaternion has squared norm within 2e-4 of 1, different elements have |dot| <= 0.74, every matrix is orthogonal within 2e-4 and the matrix table is the quaternion table converted, within 2.5e-4.", "quantifier": "all 300 tabulated elements and all pairs", "why_tests_cant": "data spread over 2000 lines that no test reads", "anchors": ["gconv/geometry/groups/_grid_cache.py:_grid_cache"]}
{"id": "C66", "title": "s2 metric and its relation to so3", "statement": "geodesic_distance_s2 is symmetric, within [acos(1-eps), acos(-1+eps)], the angle between unit vectors outside the clamped region and invariant under rotations and reflections; the rotation made from spherical_to_euler maps the north pole to the point.", "quantifier": "all vectors, rotations, coordinates", "why_tests_cant": "The domain is a continuum; a test samples finitely many values and compares with a tolerance, so it cannot establish the identity for every input.", "anchors": ["gconv/geometry/groups/s2.py:geodesic_distance_s2", "gconv/geometry/groups/s2.py:spherical_to_euler"]}
{"id": "C67", "title": "the repulsion energy counts every ordered pair of different grid elements once", "statement": "Sorting each row and dropping its first entry removes exactly the self-distance, so the minimised energy is the mean of energy(d_ij/const) over i != j, for both metrics used by the library and every grid.", "quantifier": "all grids", "why_tests_cant": "holds for all inputs", "anchors": ["gconv/geometry/repulsion.py:repulse", "gconv/geometry/repulsion.py:columb_energy"]}
{"id": "C68", "title": "kernel parameter initialisation", "statement": "reset_parameters fills the group kernels (full, subgroup and both separable parameters) with values (2u-1)/sqrt(fan_in), u the unit draws, hence within 1/sqrt(fan_in) of 0, where fan_in is the product of all axes of the parameter after the first (for the full kernel out*(in/groups)*volume), and the lifting kernel with z/sqrt(3*fan_in), z the normal draws; shapes are kept.", "quantifier": "all shapes, all random draws", "why_tests_cant": "random draws", "anchors": ["gconv/gnn/kernels/kernel.py:reset_parameters"]}
{"id": "C69", "title": "public layer constructors", "statement": "Each of the twelve public layer classes can be constructed exactly for the documented configurations (and, for group layers, when the default kernel width is defined or a width is given: a non-empty grid for SE(2), non-empty halves for E(2), two elements for SE(3), two per half for E(3)); the resulting layer stores the given or default grid and its parameters have the documented shapes, so the forward contracts apply. Rejections: ZeroDivisionError for groups = 0, RuntimeError for groups < 0 (not the documented ValueError), ValueError otherwise. Defect: the E(2)/E(3) classes do not set group_kernel_size to the size of a given grid_H as documented.", "quantifier": "all constructor arguments, all call histories for the default grids", "why_tests_cant": "Unbounded sizes/shapes: a test fixes a handful of shapes (often all equal, which hides axis mix-ups).", "anchors": ["gconv/gnn/modules/gconv_sen/gconv_se2.py", "gconv/gnn/modules/gconv_sen/gconv_se3.py", "gconv/gnn/modules/gconv_en/gconv_e2.py", "gconv/gnn/modules/gconv_en/gconv_e3.py"]}
{"id": "C70", "title": "the order in which group elements are listed does not matter", "statement": "Lifting: if the output grid is re-listed by any selection, the output is the old output selected the same way along its group axis. Full group layer: the same for the output grid, and permuting the input group axis together with the input grid leaves the output unchanged. Separable layer: the same with both permuted, for equally long input and output grids. All strides, paddings, dilations, groups, bias.", "quantifier": "all grids, selections, inputs, weights, configurations", "why_tests_cant": "Unbounded sizes/shapes: a test fixes a handful of shapes (often all equal, which hides axis mix-ups).", "anchors": ["gconv/gnn/modules/gconv.py", "gconv/gnn/kernels/kernel.py"]}
{"id": "C71", "title": "sampling signals on SO(2), O(2), O(3)", "statement": "grid_sample in rbf mode returns, at a query equal to an element of the signal grid (angles up to full turns, O(n) elements of the same determinant), exactly the signal stored there. In nearest mode so2.grid_sample returns one row per query, the signal of a grid angle closest to the query up to 2e-6 rad (exactly the stored signal at an isolated grid angle); o2/o3.grid_sample return the signal of a closest element among those of the same determinant. Rotating queries and signal grid together changes nothing. Any other mode raises ValueError.", "quantifier": "all query lists, signals, signal grids, widths, modes and rotations", "why_tests_cant": "infinitely many grids and queries; tie and clamp behaviour", "anchors": ["gconv/geometry/groups/so2.py:grid_sample", "gconv/geometry/groups/o2.py:grid_sample", "gconv/geometry/groups/o3.py:grid_sample", "gconv/geometry/groups/so3.py:grid_sample"]}
{"id": "C72", "title": "saving, loading and sharing layers", "statement": "In every program, load_state_dict of a checkpoint into an SE(3) layer made with equal arguments and an equally long grid succeeds, every entry then holds the saved value and the layer computes the outputs (and raises the errors) of the saved layer on every call, unless a bandwidth derived from the construction grid is used: the bandwidth is not in the state_dict (defect; a concrete rbf layer with other outputs). A layer saved and later restored in the same program is restored in all cases. Loading any file stores exactly the entries present with the right shape, even when it raises, and raises RuntimeError exactly if an entry is missing, has another shape, or is unknown. A checkpoint has exactly the entries bias (if any), weight_H (separable layers), weight, grid_H, grid_Rn and mask (if any), with shapes given by the arguments and the grid length; a training step replaces bias and weights and nothing else (grids and mask are not trained). Making, training, loading or overwriting anything else does not change a layer, except loading into, or overwriting, the grid tensor it shares. Sharing (defect): a given grid_H is used, not copied; default layers of sizes 2..24 use the tensor of the module-level grid cache itself, so a load into one of them changes the grid of all of them and what so3.uniform_grid returns from then on; larger default grids are private.", "quantifier": "all programs (sequences of constructions, loads, training steps, tensor creations and in-place writes, grid requests), all arguments, all inputs", "why_tests_cant": "all histories of a process; aliasing through a module-level cache", "anchors": ["gconv/gnn/kernels/kernel.py:GroupKernel", "gconv/geometry/groups/so3.py:uniform_grid", "gconv/gnn/kernels/kernel_sen/kernel_se3.py", "gconv/gnn/modules/gconv_sen/gconv_se3.py", "gconv/gnn/modules/gconv.py"]}
{"id": "C73", "title": "custom group convolutions need only a group", "statement": "(README: 'all that is required is implementing 5 (or less) group ops') For any user-supplied operations that apply, elementwise, an inverse, a product with normalised results, an action on R^2 or R^3 and a multiplicative determinant obeying the group laws, and any sampler treating queries one by one, the lifting, full and separable layers built from them are equivariant under every element g acting as a signed permutation of the axes: transforming the input by g and multiplying the grids by g on the left transforms the output by g (for det g = -1, additionally negates it before the bias). Any reference grid, kernel grid with or without spherical mask, stride, padding, dilation, groups, bias.", "quantifier": "all group operations meeting the contract, all configurations covering the image, inputs, weights, grids", "why_tests_cant": "Unbounded sizes/shapes: a test fixes a handful of shapes (often all equal, which hides axis mix-ups).", "anchors": ["README.md", "gconv/gnn/kernels/kernel.py", "gconv/gnn/modules/gconv.py", "gconv_tutorial.ipynb"]}
{"id": "C74", "title": "the tutorial's custom SE(2) layers", "statement": "The five operations written in gconv_tutorial.ipynb meet the contract of C73, its grids are those of the package, and its lifting and separable layers are equivariant to quarter turns for every configuration covering the image; every call answers with the documented shape exactly if the kernel fits into the padded image (separable: at least two rotations) and raises RuntimeError otherwise. Defects: its grid_sample_so2 combines the two grid rotations farthest from the query (not the neighbours), weighted by their cosines over the step; a constant signal 1 is sampled as a negative number on every uniform grid of three or more rotations; with group_kernel_size 1 the separable layer always raises.", "quantifier": "all configurations, inputs, weights, grids, group kernel sizes, query rotations", "why_tests_cant": "Unbounded sizes/shapes: a test fixes a handful of shapes (often all equal, which hides axis mix-ups).", "anchors": ["gconv_tutorial.ipynb"]}
{"id": "C75", "title": "convolution layers are affine, sample by sample and channel group by channel group", "statement": "If a lifting, full or separable layer accepts one batch of images of some size it accepts every batch (any batch size) of images of that size, and every number of an output item is a fixed linear combination of the numbers of the same input item in the channel group of its output channel, plus the bias of that channel. Hence superposition holds, items of a batch do not influence each other, and channel groups do not influence each other. Any stride, padding, padding mode, dilation, groups, bias; every group of the package and every custom one.", "quantifier": "all layers, batch sizes, image sizes, inputs, weights, grids", "why_tests_cant": "Unbounded sizes/shapes: a test fixes a handful of shapes (often all equal, which hides axis mix-ups).", "anchors": ["gconv/gnn/modules/gconv.py", "gconv/gnn/kernels/kernel.py"]}
{"id": "C76", "title": "resampling a kernel window", "statement": "For the modes grid_sample accepts (bilinear, nearest, bicubic in 2d; bilinear, nearest in 3d; zeros, border, reflection padding; nothing else), every sampled value is a fixed linear combination of the pixels, the coefficients depending on the point only. Unless the padding is zeros, constant windows are reproduced everywhere, so a weight constant over its window gives the same lifting kernel for every group element (divided by the determinant in E(n)). With bilinear or nearest the value stays within the range of the pixels (with 0 added for zeros padding), so transforming a kernel never makes a weight larger than the largest of its window. Bicubic leaves the range: an image of zeros and ones is sampled to a negative number. Outside the window: with reflection padding mirroring a coordinate in a border of the window changes nothing, in every mode; with border padding (bilinear, nearest) a point is read at the nearest point of the window, and reflection agrees with border inside it; with zeros padding everything half a pixel or more outside reads 0.", "quantifier": "all window sizes, images, points, modes, padding modes, group elements, weights", "why_tests_cant": "The domain is a continuum; a test samples finitely many values and compares with a tolerance, so it cannot establish the identity for every input.", "anchors": ["gconv/gnn/functional/grid.py:grid_sample", "gconv/gnn/kernels/kernel.py"]}
{"id": "C77", "title": "layers are linear in their parameters", "statement": "The output of a lifting, full or subgroup layer is linear in (weight, bias): parameters a w1 + b w2, a b1 + b b2 give a Y1 + b Y2, and if a call succeeds with one weight it succeeds with every weight of that shape. The separable layer is linear in (weight_H, bias) for a fixed weight and in (weight, bias) for a fixed weight_H. Holds for every kernel of the package in every sampling mode (E(n): grids of group_kernel_size elements) and every custom kernel with linear samplers; any input, grids, stride, padding, dilation, groups.", "quantifier": "all weights, biases, coefficients, inputs, grids, configurations", "why_tests_cant": "Unbounded sizes/shapes: a test fixes a handful of shapes (often all equal, which hides axis mix-ups).", "anchors": ["gconv/gnn/kernels/kernel.py", "gconv/gnn/modules/gconv.py", "gconv/geometry/interpolation.py"]}
{"id": "C78", "title": "moving images with the package's grids, and the equivariance experiment", "statement": "grid_sample(images, so3.left_apply_to_R3(H, create_grid_R3(n)), nearest) moves image b of the batch exactly by the inverse of H[b], for every symmetry of the cube, if the padding mode is border or reflection or the size n is odd; the identity changes nothing and two such steps are one with the product. With zeros padding and even n everything coming from the last slices becomes 0, even for the identity (defect). The equivariance test of the package: the lifting layer applied with grid H to the copies of an image moved by the elements of H returns, for the copy moved with h and position e, the response of the original at the position of h H[e], moved by the inverse of h. In the plane (create_grid_R2, so2) images come out transposed, so no angle rotates them (defect).", "quantifier": "all sizes, batches, images, symmetries, padding modes, layers", "why_tests_cant": "every image and every symmetry; the repository only plots the outcome", "anchors": ["gconv/tests/test_equivariance.py", "gconv/gnn/functional/grid.py:create_grid_R3", "gconv/gnn/functional/grid.py:create_grid_R2", "gconv/geometry/groups/so3.py:left_apply_to_R3", "gconv/geometry/groups/so2.py:left_apply_angle_to_R2"]}
{"id": "C79", "title": "devices and dtypes", "statement": "so2/o2.uniform_grid, so2.random_grid, so3.random_*, random_s2 and the coordinate grids and masks are created on the requested device. A layer moved to a device and dtype accepts only inputs there and then returns output and output grid there. Defects: so3.uniform_grid ignores its device argument for every size up to 24, and for larger cached sizes returns the tensor of the first caching call, wherever that is; o3.uniform_grid on a GPU raises unless both sizes exceed 24; the cyclic groups are always on the CPU, the tabulated groups, the empty grid and o2/o3.random_grid raise on every GPU. Hence with the default permute_output_grid=True no E(2) or E(3) layer runs on a GPU, no SE(3) or E(3) layer runs in a dtype other than the default one (double precision), and a default sampling width computed from a grid on a GPU pins the layer to that device.", "quantifier": "all devices, dtypes, module options, histories of moves and of uniform_grid calls", "why_tests_cant": "No test runs on a GPU or in double precision; the cache depends on the call history.", "anchors": ["gconv/geometry/groups/so3.py:uniform_grid", "gconv/geometry/groups/o2.py:random_grid", "gconv/geometry/groups/o3.py:uniform_grid", "gconv/geometry/groups/o3.py:random_grid", "gconv/geometry/groups/_grid_cache.py", "gconv/gnn/modules/gconv_en/gconv_e2.py:forward", "gconv/gnn/modules/gconv_en/gconv_e3.py:forward", "gconv/gnn/modules/gconv_sen/gconv_se3.py:forward", "gconv/gnn/kernels/kernel.py"]}
{"id": "C80", "title": "batches of rotations with other than one batch axis (defect)", "statement": "so3.matrix_to_quat, matrix_to_euler (and euler_to_quat, quat_to_euler, random_euler) are documented for any batch shape (..., 3, 3). They accept exactly the batch shapes (m, 3, 3, ..., 3), (m) among them; no batch axis and every two-axis batch (m, n), n != 3, raise IndexError. For accepted batches with two axes the results are wrong: for identity matrices of shape (m, 3) quaternion (i, j) is a half turn about axis j, Euler triple (i, 1) a quarter turn about Y, and beta of (i, 0) and (i, 2) is uninitialised memory, so any angle can be returned. random_quat and random_matrix take every size; o3.random_grid raises TypeError for every tuple although it documents one; so2.angle_to_matrix accepts exactly the batches with at least one axis.", "quantifier": "all batch shapes, sizes, batches, memory contents", "why_tests_cant": "all shapes; uninitialised memory", "anchors": ["gconv/geometry/groups/so3.py:matrix_to_quat", "gconv/geometry/groups/so3.py:matrix_to_euler", "gconv/geometry/groups/so3.py:random_euler", "gconv/geometry/groups/o3.py:random_grid", "gconv/geometry/groups/so2.py:angle_to_matrix"]}
{"id": "C81", "title": "inputs with one axis less (missing batch axis, or a 3d layer in a 2d network)", "statement": "torch layers take an input without batch axis as one item. The layers here do not, and do not refuse it either. GInstanceNorm* on features with one spatial axis less normalizes every item as a whole, over channels, group and space together (ValueError if affine and the batch size differs from num_features). The spatial pools pool the flattened channel-group axis as an image axis and succeed when the number of output cells happens to be C*n. A lifting layer called on one image (cin, h, *sp) returns, if its first output size happens to be cin, the memory of the batch-of-one result cut up as (cin, cout, |H|, *sizes), the bias added along the first axis; in all other cases it raises. Group and separable layers raise for every item with more than one group element, and for every input (A, B, h, *sp) unless A = B*h = cin*|H|. GBatchNorm* refuses every wrong rank.", "quantifier": "all inputs, sizes, layers, configurations, states", "why_tests_cant": "Unbounded sizes/shapes: a test fixes a handful of shapes (often all equal, which hides axis mix-ups).", "anchors": ["gconv/gnn/modules/gconv.py:forward", "gconv/gnn/modules/normalization.py", "gconv/gnn/modules/pooling.py"]}
{"id": "C82", "title": "images on a torus", "statement": "With padding_mode='circular' a lifting or full group layer, of any group and kernel, whose output goes around the image exactly once (output size times stride equals input size on every axis: padding='same', or padding=p with 2p=dilation*(kernel-1) and a size divisible by the stride) commutes with torch.roll: rolling the input by u*stride rolls the output by u, including across the border. A network of a lifting layer, full group layers, normalizations and activations with the same random draws: rolling the image by u times the product of all strides rolls the feature map by u, with the same output grid and module states; global pooling gives the identical result and group pooling the rolled one. Separable layers pad both of their stages and do not have this property (defect): with padding='same' their output is larger than the image by dilation*(kernel-1), and where padding is chosen to keep the size (5x5 box filter, padding=1) they wrap around with the wrong period.", "quantifier": "all images, sizes, rolls, strides, dilations, kernels, groups, depths of the network", "why_tests_cant": "holds for all inputs", "anchors": ["gconv/gnn/modules/gconv.py:GroupConvNd", "gconv/gnn/modules/gconv.py:GLiftingConvNd", "gconv/gnn/modules/gconv.py:GConvNd", "gconv/gnn/modules/gconv.py:GSeparableConvNd"]}
{"id": "C83", "title": "receptive fields, and samples that do not see each other", "statement": "In a network of a lifting layer, full and separable group layers, batch normalizations in evaluation mode, instance normalizations and activations, an output pixel of a sample depends on its receptive field in that sample only: two runs (same parameters, grids and draws) on inputs whose samples n and n' agree on the field of a set of output pixels give outputs that agree there, whatever the other samples, other pixels and the batch sizes are. The field is the composition of the sliding windows of the layers (two for a separable layer), for every padding mode; instance normalization by image statistics extends it to the whole image. With zero padding it lies, on every axis, in y*s-a .. y*s-a+r with s the product of the strides, a and r the accumulated paddings and dilated kernel sizes. In particular the result for a sample does not depend on the batch it is in. In training mode batch normalization couples the samples.", "quantifier": "all networks, inputs, batch sizes, pixels, configurations, groups, draws", "why_tests_cant": "Unbounded sizes/shapes: a test fixes a handful of shapes (often all equal, which hides axis mix-ups).", "anchors": ["gconv/gnn/modules/gconv.py", "gconv/gnn/modules/normalization.py", "gconv/gnn/modules/activations.py"]}
{"id": "C84", "title": "the printed form of a layer determines its configuration", "statement": "print(layer) shows the constructor arguments: two layers, of any classes and dimensions, have the same printed form exactly if they were configured alike (channels, kernel_size, group_kernel_size, stride, padding, dilation, groups, presence of a bias, padding_mode); omitted parts are the defaults. For the twelve public classes the text is given from the arguments. It shows neither the mask, the sampling modes, the permute flag nor the grid. Defects: with a grid given the printed group_kernel_size is the argument, not the number of grid elements as documented; SE(2) kernels print mask=True for mask=False.", "quantifier": "all layers, configurations, grids, masks", "why_tests_cant": "all configurations; no test prints a layer", "anchors": ["gconv/gnn/modules/gconv.py:extra_repr", "gconv/gnn/kernels/kernel.py:extra_repr", "gconv/gnn/modules/gconv_sen/gconv_se2.py", "gconv/gnn/modules/gconv_en/gconv_e2.py"]}
{"id": "C85", "title": "running statistics over the life of a normalization module", "statement": "Over every history of forward calls (raising ones included), train(), eval() and parameter updates of a GBatchNorm or GInstanceNorm module, the running statistics are the exponential averages, from 0 and 1 and in order, of the statistics of the batches taken in training mode; nothing else leaves a trace. The running variance stays nonnegative (an evaluation never divides by zero) and the running mean within the bounds of the training data. In evaluation mode calls change nothing, and a call normalizes with the averages of the history. With momentum=None batch normalization keeps plain averages over all training batches. Defects: a raising training call still counts as a batch, after which the plain averages are wrong for good (one refused call, one batch of average a: running mean a/2); instance normalization with momentum=None never moves its statistics and never counts.", "quantifier": "all histories of calls, modes, updates; all inputs, sizes, momenta", "why_tests_cant": "all histories", "anchors": ["gconv/gnn/modules/normalization.py:GBatchNorm2d", "gconv/gnn/modules/normalization.py:GBatchNorm3d", "gconv/gnn/modules/normalization.py:GInstanceNorm2d", "gconv/gnn/modules/normalization.py:GInstanceNorm3d"]}
{"id": "C86", "title": "whether a call succeeds depends on shapes only", "statement": "If one call of a lifting, full or separable layer succeeds, every call of every layer of the same configuration succeeds on inputs of the same channels and spatial size, whatever numbers are in the parameters, grids and inputs and whatever the batch size; the output has the same channels and spatial size and one entry per element of the output grid. The same for whole networks with normalizations and activations, and for histories: if the first iteration of a training loop succeeds then every later one does, whatever the optimizer, the running statistics and the random draws do, as long as the batches keep channels and spatial size (batches of one only where the previous batch was one). For the E(n) classes this needs at least one reflection in the kernel: with group_kernel_size (n, 0) and the default permute_output_grid=True a call succeeds when a rotation is drawn and raises IndexError when a reflection is drawn, with everything else equal (defect).", "quantifier": "all parameters, inputs, grids, draws, batch sizes, networks, training histories", "why_tests_cant": "all numbers and all histories; a failing draw is random", "anchors": ["gconv/gnn/modules/gconv.py", "gconv/gnn/kernels/kernel.py", "gconv/geometry/interpolation.py", "gconv/geometry/groups/o2.py:grid_sample", "gconv/geometry/groups/o3.py:grid_sample", "gconv/gnn/modules/gconv_en/gconv_e2.py:forward", "gconv/gnn/modules/gconv_en/gconv_e3.py:forward"]}
{"id": "C87", "title": "a small change of the input stays small", "statement": "In evaluation mode the output of a network (lifting layer, group and separable convolutions, normalizations by running statistics, ReLU/LeakyReLU/GELU) is Lipschitz continuous in the input: one constant serves all pairs of inputs of a shape, and the network that accepts one of them accepts them all and returns the same grid. The constant is the product of the layers' gains: the largest sum of absolute sampled kernel weights per output channel and group element for convolutions, |weight|/sqrt(running_var+eps) for normalizations, 1 for ReLU, max(1,|slope|) for LeakyReLU, 2 for GELU. For the library's kernels (nearest or (bi)linear sampling) these sums are at most channels x |in_H| x kernel volume x largest stored weight, whatever the grids.", "quantifier": "all layers, parameters, grids, padding, strides, dilations, group counts, programs of modules, pairs of inputs", "why_tests_cant": "a bound over all pairs of inputs and all parameters; tests compare single outputs", "anchors": ["gconv/gnn/modules/gconv.py", "gconv/gnn/modules/activations.py", "gconv/gnn/modules/normalization.py", "gconv/gnn/kernels/kernel.py"]}
{"id": "C88", "title": "inputs of the wrong shape", "statement": "A lifting layer raises RuntimeError unless the channel axis of its input has in_channels entries and the rank is right. The group layers check the product of the channel and group axes only: an input (N, A, B, *sp) with A*B = in_channels*|in_H| is treated exactly as the input of shape (N, in_channels, |in_H|, *sp) with the same numbers in memory order, whatever A and B are (defect: features with the channel and group axes exchanged, or a grid of another length with matching product, are accepted and misread without an error); every other product, and every wrong number of spatial axes (C81 aside), raises RuntimeError, fewer than three axes ValueError. So a wrong grid length alone, or a wrong channel count alone, is always refused.", "quantifier": "all inputs of all shapes, all layers, grids, configurations", "why_tests_cant": "all shapes", "anchors": ["gconv/gnn/modules/gconv.py:GLiftingConvNd", "gconv/gnn/modules/gconv.py:GSeparableConvNd", "gconv/gnn/modules/gconv.py:GConvNd"]}
{"id": "C89", "title": "nearby group elements give nearby outputs", "statement": "With sampling_mode='bilinear' (any padding mode) the responses of a lifting layer depend continuously on the group element, with an explicit constant: weights bounded by M and an image bounded by B give responses that differ by at most (channels per group) x s^d x K s M delta x B for two elements within delta (2d: angles, K=4; 3d: rotation matrices entrywise, K=9; E(n): same reflection), whether they belong to one grid or to the grids of two calls. It rests on the same bound for grid_sample itself: the values at two points differ by at most M times the sum over the axes of size x distance. Consequence for the tabulated octahedral group (so3.octahedral(), 8 decimals): rotating the image by any rotation of the cube permutes the 24 responses and rotates them, up to 2e-8 x 9 s M x (channels per group) s^3 B. With sampling_mode='nearest' there is no such bound: without the mask the corner weight is lost at every angle in (0, pi/2), however small.", "quantifier": "all pairs of group elements, grids, images, weights, sizes, paddings, strides; all 24 rotations of the cube", "why_tests_cant": "a bound over all pairs of elements; tests see single grids", "anchors": ["gconv/gnn/kernels/kernel.py", "gconv/gnn/functional/grid.py", "gconv/gnn/modules/gconv.py:GLiftingConvNd", "gconv/geometry/groups/so3.py:octahedral"]}
{"id": "C90", "title": "the default group layers always answer", "statement": "The group interpolation of the default group layers is well posed: for the default SE(3) grids (2 to 24 elements, whatever grids were requested before) and both halves of the default E(3) grids, with group_sampling_mode='rbf' and the bandwidth derived from the grid (group_sampling_width=0), the bandwidth is positive and the interpolation system has exactly one solution for every signal, at most 120 times as large as the signal; the same (factor 18) for SE(2) and both halves of E(2) on every grid of up to 100000 angles at least 4.5e-5 rad apart, the uniform grids among them (exact arithmetic). Hence the program of the README runs: with the default arguments both layers are constructed, and for all parameter values, all random draws and all batches of volumes with sides of at least 9 the three calls return features of shapes (N,16,4,a-4,...), (N,32,4,a-8,...) and (N,32,1); smaller volumes raise RuntimeError. A grid with a repeated element is never usable in mode 'rbf', whatever the bandwidth: every call raises.", "quantifier": "all sizes, histories of grid requests, parameters, draws, batches, volumes; all angle grids", "why_tests_cant": "the tabulated grids of 23 sizes and all signals on them; a random draw is made in every call", "anchors": ["README.md", "gconv/gnn/kernels/kernel_sen/kernel_se3.py", "gconv/gnn/kernels/kernel_en/kernel_e3.py", "gconv/gnn/kernels/kernel_sen/kernel_se2.py", "gconv/geometry/interpolation.py:interpolate_RBF", "gconv/geometry/groups/_grid_cache.py", "gconv/geometry/groups/so3.py:nearest_neighbour_distance"]}
{"id": "C91", "title": "the contract of a call of every public class", "statement": "For each of the twelve public classes, constructed with positive sizes and any valid configuration, and called with parameters of its shapes on an input (N, in_channels, [|in_H|,] *sp): the call succeeds exactly if the dilated kernel fits into the padded image and the padding mode admits the padding (for the separable layers at both of their stages, whose paddings differ), and then returns the output grid (given, or else the kernel's grid, or for the SE(n) group layers the input grid; as long as that grid after the random move) and features (N, out_channels, |out_H|, *sizes) with the sizes of torch's convolution formula; otherwise it raises RuntimeError. For the group layers the group interpolation has to be well posed (mode 'nearest' on a non-empty grid, or 'rbf' with a nonsingular system) and, for E(n), the kernel has to have both rotations and reflections and all grids coefficients 1 or -1.", "quantifier": "all classes, configurations, parameters, inputs, grids, draws", "why_tests_cant": "Unbounded sizes/shapes: a test fixes a handful of shapes (often all equal, which hides axis mix-ups).", "anchors": ["gconv/gnn/modules/gconv.py", "gconv/gnn/modules/gconv_sen/gconv_se2.py", "gconv/gnn/modules/gconv_sen/gconv_se3.py", "gconv/gnn/modules/gconv_en/gconv_e2.py", "gconv/gnn/modules/gconv_en/gconv_e3.py"]}
{"id": "C92", "title": "what an optimised grid consists of", "statement": "so3.uniform_grid(n) for n > 24 (nothing cached before) and s2.uniform_grid_s2 return the conversions of the angles reached by gradient descent with noise: there is a sequence of angle tensors, starting at Euler angles in [-pi, pi) of the drawn random rotations (exact up to 2e-5 near the poles), resp. at the spherical coordinates of the drawn directions, in which every step e changes every angle by -lr times (gradient + (steps-e)/steps * 0.001 * noise); element i of the result is the quaternion, matrix, Euler triple (direction, ...) of row i of the last tensor. With n_steps = 0 the grid is the random start.", "quantifier": "all sizes above the tables, draws, gradients, noises, step counts, learning rates, parameterizations, earlier calls", "why_tests_cant": "the draws, noises and gradients are arbitrary; tests only look at shapes", "anchors": ["gconv/geometry/groups/so3.py:uniform_grid", "gconv/geometry/groups/s2.py:uniform_grid_s2", "gconv/geometry/repulsion.py:repulse"]}
{"id": "C93", "title": "single precision: the guard of the SO(2) distance is void (defect)", "statement": "On float32 tensors the clamp to [-1+1e-12, 1-1e-12] before acos in so2.geodesic_distance changes no number of [-1, 1], 1 included. So if the float32 squared coordinates of each grid element add up to at least 1 (for instance for the quarter turns, whose cosine or sine is rounded to 1 or -1), every self distance, hence so2.nearest_neighbour_distance and the default width of the SE(2) group kernels, is 0 and the diagonal of the RBF matrix is NaN. The 1e-7 guard of SO(3) works: every non-NaN inner product is moved into [-(1-2^-23), 1-2^-23], so the distance is positive. The inner products of elements with coordinates in [-1, 1] are finite and within 2^-21 (SO(2)) and 2^-20 (SO(3)) of the exact ones.", "quantifier": "all float32 numbers, all grids of angles with that rounding, all platform implementations of cos, sin, acos, exp with correct ranges", "why_tests_cant": "float rounding depends on every input bit pattern and on the platform's libm; a test sees one platform", "anchors": ["gconv/geometry/groups/so2.py:geodesic_distance", "gconv/geometry/groups/so2.py:nearest_neighbour_distance", "gconv/geometry/groups/so3.py:geodesic_distance", "gconv/geometry/interpolation.py:RBF_gauss"]}
{"id": "C94", "title": "saving, loading and sharing the SE(2), E(2) and E(3) layers", "statement": "In every program, load_state_dict of a checkpoint into a layer of these nine classes made with equal arguments and an equally long grid succeeds, every entry then holds the saved value, and every call gives the outputs and errors of the saved layer: in SE(2) and E(2) always, in E(3) for lifting layers, nearest interpolation, or equal bandwidths (a bandwidth derived from the construction grid is not in the state_dict; defect, with two concrete layers). A layer saved and restored in the same program is restored always. Any file: the entries whose name is in the file with the same shape take the value of the file, even if the load raises, all other tensors are unchanged, and it raises RuntimeError exactly if an entry is missing, has another shape, or the file has an unknown name. Making, training, loading or overwriting anything else does not change a layer, except through a grid tensor it was given and shares; default grids are private, as are parameters, spatial grid and mask. Training changes bias and weights only. A checkpoint has exactly the documented names and shapes (SE(2): always a mask, whatever the argument; E(n): weights sized by group_kernel_size, not by the given grid).", "quantifier": "all programs (constructions, loads of any file, training steps, tensor creations, in-place writes), all arguments, all inputs", "why_tests_cant": "all histories of a process", "anchors": ["gconv/gnn/kernels/kernel.py:GroupKernel", "gconv/gnn/modules/gconv.py", "gconv/gnn/modules/gconv_sen/gconv_se2.py", "gconv/gnn/modules/gconv_en/gconv_e2.py", "gconv/gnn/modules/gconv_en/gconv_e3.py", "gconv/gnn/kernels/kernel_en/kernel_e3.py"]}
{"id": "C95", "title": "memory layouts", "statement": "The convolution layers, the spatial pools and GLayerNorm give the same values and raise the same errors for an input in every memory layout (transposed, permuted, sliced, expanded, channels_last) as for its contiguous copy, whatever layouts torch gives the intermediate results. GBatchNorm2d/3d and GInstanceNorm2d/3d do so exactly if the group axis and the first spatial axis of the input lie in memory as one axis (stride of the group axis = size times stride of the spatial axis, or an axis of size one, or an empty tensor) and raise RuntimeError otherwise. They never raise for this reason after a convolution layer with contiguous results; after a bias-free convolution layer with channels_last results they always do (two or more group elements and rows). Tensor.view itself accepts a shape exactly if some strides address it in the same memory, and then is the row-major reshape.", "quantifier": "all shapes, strides, offsets and memories of the input, all layouts of intermediate results, all layers, parameters and statistics", "why_tests_cant": "a test fixes a memory layout, almost always the contiguous one", "anchors": ["gconv/gnn/modules/normalization.py:GBatchNorm2d", "gconv/gnn/modules/normalization.py:GBatchNorm3d", "gconv/gnn/modules/normalization.py:GInstanceNorm2d", "gconv/gnn/modules/normalization.py:GInstanceNorm3d", "gconv/gnn/modules/normalization.py:GLayerNorm", "gconv/gnn/modules/pooling.py:GMaxSpatialPool2d", "gconv/gnn/modules/gconv.py:GLiftingConvNd", "gconv/gnn/modules/gconv.py:GConvNd", "gconv/gnn/modules/gconv.py:GSeparableConvNd"]}
{"id": "C96", "title": "the repulsion on the sphere and on SO(3) is gradient descent", "statement": "In s2.uniform_grid_s2 the gradient that backward() leaves at the spherical coordinates is the gradient of the mean pair energy, for every number of points and all coordinates (poles included), unless two points are exactly at the distance where the 1e-7 guard sets in. So every short enough step lowers the energy unless gradient and noise oppose each other, and two points outside the guard always move apart. Points within the guard of each other do not repel; points with equal coordinates stay equal through all steps unless their noise differs. The documented default step 0.1 is not always short enough: from some pairs it raises the energy. On SO(3) (so3.uniform_grid) the same holds at all Euler angles at which no branch of the code is about to change (the 1e-6 threshold of the matrix entries, the pivot of matrix_to_quat, the sign of an inner product, the guard): gradient, descent, guarded and equal elements. There the identity, given by zero angles, never moves without noise, and the default step n ** (1 / 3) raises the energy of some pair.", "quantifier": "all numbers of points, all coordinate tables, exponents, noise, epochs and small step sizes", "why_tests_cant": "a test evaluates finitely many grids and steps with finite differences; the claim is about derivatives at every configuration and about every small step", "anchors": ["gconv/geometry/repulsion.py:repulse", "gconv/geometry/groups/s2.py:uniform_grid_s2", "gconv/geometry/groups/s2.py:geodesic_distance_s2", "gconv/geometry/groups/s2.py:spherical_to_euclid", "gconv/geometry/groups/so3.py:uniform_grid", "gconv/geometry/groups/so3.py:euler_to_quat", "gconv/geometry/groups/so3.py:geodesic_distance"]}
{"id": "C97", "title": "training on moved images", "statement": "Train a network of the library's modules with any loss on the globally pooled (average and maximum) features and any optimizer that uses the loss as a function of the weights (so its value and all its derivatives). Move every batch by a grid rotation of its own (2D: quarter turns; 3D: the 24 rotations of the cube), with draws of permute_output_grid that correspond. After any number of iterations the weights, the running statistics and the optimizer state are exactly the same. In particular, with permute_output_grid off and uniform grids of 4m rotations, augmenting the data with quarter turns changes nothing.", "quantifier": "all networks, losses, optimizers, histories of batches, rotations per batch, initial weights", "why_tests_cant": "a test trains one network for a few steps and compares up to rounding; the claim is about every optimizer, every loss and every history", "anchors": ["gconv/gnn/modules/gconv.py:GLiftingConvNd.forward", "gconv/gnn/modules/gconv.py:GConvNd.forward", "gconv/gnn/modules/gconv.py:GSeparableConvNd.forward", "gconv/gnn/modules/pooling.py:GAvgGlobalPool", "gconv/gnn/modules/pooling.py:GMaxGlobalPool", "gconv/gnn/modules/normalization.py"]}
{"id": "C98", "title": "a network that draws its grids at random is equivariant in distribution", "statement": "With permute_output_grid (the default) every convolution of a call draws a random group element. The globally pooled features (average and maximum) and the new running statistics of a call on a moved image are then equally distributed to those of a call on the image itself: under quarter turns for SE(2) and E(2) (torch.rand with N values, N divisible by 4, as in its single precision with N = 2^24), under the rotations of the cube for SE(3) and E(3) (for normalized torch.randn replaced by any law on the quaternions unchanged by left multiplication and conjugation). Training with fresh draws in every iteration on batches turned by quarter turns of their own ends in equally distributed weights, running statistics and optimizer states. The mean over the draws of the group-averaged output of a lifting layer with n rotations is the output averaged over the uniform grid of N rotations, for every divisor n of N: the number of rotations does not change what is estimated. Without averaging over the draws the features are not invariant: the default lifting layer gives features 0 and 1 for one and the same image and two draws (defect: the README promises features invariant to the group).", "quantifier": "all networks, weights, images, quarter turns / rotations of the cube, laws of the draws, losses, optimizers, data sets", "why_tests_cant": "a statement about distributions over all draws; a test fixes a seed or compares a few samples", "anchors": ["README.md", "gconv/gnn/modules/gconv_sen/gconv_se2.py", "gconv/gnn/modules/gconv_sen/gconv_se3.py", "gconv/gnn/modules/gconv_en/gconv_e2.py", "gconv/gnn/modules/gconv_en/gconv_e3.py", "gconv/geometry/groups/so2.py:random_grid", "gconv/geometry/groups/o2.py:random_grid", "gconv/geometry/groups/so3.py:random_matrix", "gconv/geometry/groups/o3.py:random_grid", "gconv/gnn/modules/pooling.py:GAvgGlobalPool", "gconv/gnn/modules/pooling.py:GMaxGlobalPool"]}
{"id": "C99", "title": "which entries of a kernel window matter", "statement": "With the spherical mask (SE(2) kernels always have it; SE(3), E(2), E(3) with mask=True) and sampling_mode 'bilinear' or 'nearest' (any padding mode) a layer's outputs do not depend on the weight entries of window cells out of reach of the ball of radius 1.1: cells whose box of side 4/size around their centre misses the ball. Two layers whose weights agree on the other entries answer every input, on every grid, alike (lifting, full and separable spatial weights). Corner entries are such dead parameters from size 14 on in 2D and 9 on in 3D. With the default size 3 and grids of quarter turns (2D) or of rotations of the cube (3D), with or without inversion, and no random permutation of the output grid, only the entries on the axes through the middle matter: 5 of 9, respectively 7 of 27; for an eighth of a turn the corners of a 3 x 3 window do matter.", "quantifier": "all weights, layers, strides, paddings, biases, inputs, grids, group sampling modes and widths", "why_tests_cant": "independence of an entry is a statement about all weights, inputs and grids", "anchors": ["gconv/gnn/kernels/kernel.py:GLiftingKernel.forward", "gconv/gnn/kernels/kernel.py:GKernel.forward", "gconv/gnn/kernels/kernel.py:GSeparableKernel.forward", "gconv/gnn/functional/mask.py:create_spherical_mask_R2", "gconv/gnn/functional/mask.py:create_spherical_mask_R3"]}
{"id": "C100", "title": "barycentric interpolation of rotations and the sign of quaternions", "statement": "interpolate_BCC on quaternions with so3.geodesic_distance (default eps) averages the signal of the three nearest grid rotations with the positive ones of the least-squares coefficients. The distance does not tell q from -q but the coefficients change sign, so the two quaternions of one rotation get answers from complementary coefficients, and NaN where the other answer used all three (defect). At the rotations of the grid itself: the signal when asked with the quaternion of the grid, NaN with the other one. The tolerance eps that should catch this never applies: 1e-6 is below every value of the distance. Multiplying nodes and grid by one unit quaternion, on either side, does not change the answer (this includes -1 for both). With any distance function, a query that has a grid element within eps gets exactly the signal of a nearest one, never NaN. so3.grid_sample ('nearest' and 'rbf') does not depend on the signs of the quaternions in the query or in the grid.", "quantifier": "all grids of quaternions of which any three are linearly independent, queries, signals, tie-breaking rules and genuine least-squares solvers", "why_tests_cant": "a test would have to try both quaternions of every rotation; the claim is about all grids and queries", "anchors": ["gconv/geometry/interpolation.py:interpolate_BCC", "gconv/geometry/interpolation.py:interpolate_NN", "gconv/geometry/interpolation.py:interpolate_RBF", "gconv/geometry/groups/so3.py:geodesic_distance", "gconv/geometry/groups/so3.py:grid_sample"]}
{"id": "C101", "title": "E(n) layers on rotations are SE(n) layers", "statement": "Called on grids of rotations (coefficient 1), with a positive drawn sign, an E(2) or E(3) lifting layer answers exactly like the SE(2) (mask=True) or SE(3) layer made with the same arguments and given the same weight: same features, same errors, and the same grid. A full or separable E(n) group layer, whatever its reflections and their weights are, gives, whenever it answers, the features of the SE(n) layer whose grid is the rotation half of its kernel grid and whose group weight is the rotation half of its own; so the reflection half of the weights plays no part there. The interpolation widths agree by default in 2D; in 3D the width has to be given, or the mode 'nearest'. The default 2D grids fit together for all numbers of rotations and reflections.", "quantifier": "all inputs, weights, grids of rotations, draws, strides, paddings, biases, channel groups, sampling modes, numbers of rotations and reflections", "why_tests_cant": "an identity between two families of classes for all weights, inputs and grids; the tests treat the classes separately", "anchors": ["gconv/gnn/modules/gconv_en/gconv_e2.py", "gconv/gnn/modules/gconv_en/gconv_e3.py", "gconv/gnn/modules/gconv_sen/gconv_se2.py", "gconv/gnn/modules/gconv_sen/gconv_se3.py", "gconv/gnn/kernels/kernel_en/kernel_e2.py", "gconv/gnn/kernels/kernel_en/kernel_e3.py", "gconv/geometry/groups/o2.py:grid_sample", "gconv/geometry/groups/o3.py:grid_sample"]}
{"id": "C102", "title": "E(n) lifting layers are signed SE(n) layers, and E(2) does not see mirror images (defect)", "statement": "Without the random turn, every feature of an E(2) lifting layer at a group element (its bias subtracted) is the coefficient of the element, 1 or -1, times that of the SE(2) layer with the same weight at a turn of the plane: by the angle of the element, and by half a turn more for the coefficient -1. The reflections of E(2) thus add no responses to mirror images (a point reflection of the plane is a half turn). Defect: for the default grid there are a kernel and an image such that one feature of the mirror image is larger than the absolute value of all features of the image, so no exchange of group elements relates the two, with or without signs, and the features pooled over the group by maximum differ (4 and 5). With sampling_mode 'bilinear' (every padding mode) the features of E(2) and E(3) lifting layers at an element of coefficient -1 are minus those of the SE(n) layer at its rotation with the weight flipped along all axes of its window (torch.flip); those of E(3) at an element of coefficient 1 are those of the SE(3) layer with the same weight. Both layers raise alike.", "quantifier": "all inputs, weights, grids, strides, paddings, dilations, biases, channel groups, masks, sampling modes (inversion: bilinear), mask=True for E(2)", "why_tests_cant": "all of them; tests compare single shapes", "anchors": ["gconv/gnn/modules/gconv_en/gconv_e2.py", "gconv/gnn/modules/gconv_en/gconv_e3.py", "gconv/gnn/kernels/kernel_en/kernel_e2.py", "gconv/gnn/kernels/kernel_en/kernel_e3.py", "gconv/geometry/groups/o2.py", "gconv/geometry/groups/o3.py"]}
{"id": "C103", "title": "average pooling after an E(n) lifting layer (defect)", "statement": "On the default grid of an E(2) lifting layer with 2m rotations and 2m reflections, in every state of the draws, the features come in pairs of opposite sign (the bias subtracted): each group element has a partner whose feature is minus its own in every channel and pixel. Hence average pooling over the group returns the bias, and global average pooling too, for every image and every weight: all information is lost (defect). Maximum pooling over the group returns the largest absolute value, plus the bias. An E(3) lifting layer on default grids of n rotations and n reflections (2 <= n <= 24, in every state of the grid cache), with sampling_mode 'bilinear' and every padding mode: average pooling over the group or globally depends on the odd part w(x) - w(-x) of the weights only; with weights symmetric about the centre of their windows the group average is the bias.", "quantifier": "all images, weights, numbers of rotations and reflections, draws, strides, paddings, dilations, biases, channel groups, masks, sampling modes (E(3): bilinear), cache states", "why_tests_cant": "all images and all weights; the repository's tests do not pool", "anchors": ["gconv/gnn/modules/gconv_en/gconv_e2.py", "gconv/gnn/modules/gconv_en/gconv_e3.py", "gconv/gnn/kernels/kernel_en/kernel_e2.py", "gconv/gnn/kernels/kernel_en/kernel_e3.py", "gconv/gnn/modules/pooling.py:GAvgGroupPool", "gconv/gnn/modules/pooling.py:GAvgGlobalPool", "gconv/geometry/groups/o2.py:uniform_grid", "gconv/geometry/groups/o3.py:uniform_grid"]}
{"id": "C104", "title": "so3.uniform_grid called from several threads", "statement": "Whatever the schedule (dictionary accesses atomic, as in CPython; everything between two accesses to the cache can be interleaved): every call returns or raises after a bounded number of steps of its own; tabulated sizes (up to 24) get the table; a call raises exactly what it would raise alone, and otherwise returns what it would return alone or the Euler angles of another, caching call for the same size and parameterization (always, if it begins after such a call has returned); what was returned never changes. A cache entry is the table or the Euler angles of a caching call for its key, is never removed, and stays the same as long as no call for its key is between finding nothing and writing. Defect: two calls with cache_grid=True can both find nothing; then both return their own quaternions, which happens in no order of calls one after the other, and the second overwrites the grid saved by the first although overwrite=False, so that later callers get different grids. Calls that are not interrupted behave as in one thread (C27).", "quantifier": "all sets of calls, all schedules, all draws, sizes and parameterizations", "why_tests_cant": "a race shows in few schedules; no test calls from two threads", "anchors": ["gconv/geometry/groups/so3.py:uniform_grid", "gconv/geometry/groups/_grid_cache.py:save_grid", "gconv/geometry/groups/_grid_cache.py:load_grid"]}
{"id": "C105", "title": "repulse interrupted at any point, and in every gradient mode (defects)", "statement": "repulse succeeds exactly on floating point tensors with a learning rate >= 0, gradients enabled (unless steps=0), and a leaf (in_place) or a tensor that requires no gradient (not in place); otherwise it raises RuntimeError, or ValueError for the rate. The result is the last iterate of the documented update, whatever gradient was stored before; it shares its storage with the argument exactly if in_place, and requires no gradient. Interrupted at any point (Ctrl-C, an exception of the metric), it has changed no tensor if not in_place; if in_place only the argument, which holds the iterate after some whole number of epochs. Defects: an interrupted or refused in-place call leaves the caller's tensor requiring a gradient, and from then on repulse not in place raises on it (in place it resumes); a completed in-place call switches requires_grad off, even of a parameter, and leaves a gradient behind. so3.uniform_grid and s2.uniform_grid_s2 behave as in C27/C33 while gradients are recorded; under torch.no_grad(), whatever such calls came before, tabulated grids are still served, but every grid that must be optimised (more than 24 rotations, 'euler' of any size, every s2 grid) raises RuntimeError", "quantifier": "all argument tensors and memories with aliases, all arguments, gradient functions and noise, every interruption point, both gradient modes, all histories of calls under no_grad", "why_tests_cant": "Interruptions come at every instruction; a test interrupts at a few; the leak shows only in a later, unrelated call.", "anchors": ["gconv/geometry/repulsion.py:repulse", "gconv/geometry/groups/so3.py:uniform_grid", "gconv/geometry/groups/s2.py:uniform_grid_s2"]}
{"id": "C106", "title": "leaving out metric_fn or dist_fn (defects)", "statement": "metric_fn of repulse has a default, the difference of the elements. With it, every grid of at least two elements has infinite mean energy from the start, and the repulsion destroys it: after the first epoch every coordinate of every element but the first is NaN, after the second every coordinate (any numbers, dimension, normalization constant > 0, learning rate, noise), because the difference has an entry per coordinate, so dropping the first column removes grid element 0 instead of each element's distance to itself. interpolate_NN and interpolate_BCC have a default dist_fn too: without the argument every call raises TypeError; with it none does", "quantifier": "all finite grids, sizes, dimensions, rates, noise, numbers of epochs; all nodes, grids and signals", "why_tests_cant": "A test passes the arguments; NaN arises only through the interplay of the sort, the slice and the derivative of a power at 0, on every grid.", "anchors": ["gconv/geometry/repulsion.py:repulse", "gconv/geometry/interpolation.py:interpolate_NN", "gconv/geometry/interpolation.py:interpolate_BCC"]}
{"id": "C107", "title": "how uniform the random group elements are", "statement": "so2.random_grid(n) returns every list of n of the N angles 2 pi k/N (N values of torch.rand, 2^24 in single precision) for exactly one of the N^n draws, so its law does not change when all rows are turned by a step, from either side, or inverted. The n rows of o2.random_grid(n) and o3.random_grid(n) are independent, coefficient and rotation are independent of each other, and the rotation part is as uniform as in SO(2) and SO(3). Defect: (N-1)/2 (rounded down) of the N draws of the coefficient give 1 and the others -1, so the mean determinant is -2/N (N even) and not 0, and multiplying by any element of determinant -1 changes the law: no 'uniform' sample of O(2) or O(3). On the plane an O(2) element acts as a uniform random rotation and never as a reflection (N even). so3.random_quat, random_matrix and s2.random_s2: every multiplication (left or right; inversion; orthogonal matrix) that leaves the law of the normal draws unchanged leaves the law of the n results unchanged.", "quantifier": "all numbers of rows, all N, all steps, all laws of normal draws, all quaternions and matrices", "why_tests_cant": "a statement about the distribution over all draws; an excess of 2 draws in 2^24 shows in no sample", "anchors": ["gconv/geometry/groups/so2.py:random_grid", "gconv/geometry/groups/o2.py:random_grid", "gconv/geometry/groups/so3.py:random_quat", "gconv/geometry/groups/so3.py:random_matrix", "gconv/geometry/groups/o3.py:random_grid", "gconv/geometry/groups/s2.py:random_s2"]}
{"id": "C108", "title": "angles of SO(2) and O(2) in single precision (defects)", "statement": "On float32 angles (sums up to 1000) the product of two elements is the float nearest to the exact remainder of the rounded sum modulo tau, the float32 of 2 pi, which is above 2 pi by less than 1/4000000. Products are finite and lie in [0, tau]; exactly those of negative sums whose remainder is within 2^-22 of tau are tau itself. Defect: the product of 0 with any angle in (-2^-22, 0) is tau, outside the documented [0, 2 pi), and multiplying by 0 again gives 0. The product is commutative on all floats, 0 is neutral on [0, tau), an element times its inverse is 0, the inverse is an involution; it is not associative: two bracketings of three angles give an angle next to 2 pi and 0 (defect). A product of any number of angles of [0, tau] is, up to full turns, within 2^-19 per factor of the exact sum. In O(2) the coefficients multiply without error, inverses are exact, products commute, and a random row has coefficient 1 exactly if its draw exceeds 1/2, else -1. so2.random_grid stays in [0, 2 pi), within 2^-20 of 2 pi u, nondecreasing in u.", "quantifier": "all float32 angles, products of any length, all float32 draws in [0,1)", "why_tests_cant": "all floats; the failures need sums within 2^-22 of a full turn, which random tests do not draw", "anchors": ["gconv/geometry/groups/so2.py:left_apply_angle", "gconv/geometry/groups/so2.py:left_apply_to_angle", "gconv/geometry/groups/so2.py:inverse_angle", "gconv/geometry/groups/so2.py:random_grid", "gconv/geometry/groups/o2.py:left_apply_angle", "gconv/geometry/groups/o2.py:left_apply_to_angle", "gconv/geometry/groups/o2.py:inverse", "gconv/geometry/groups/o2.py:random_grid"]}
