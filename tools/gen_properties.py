#!/usr/bin/env python3
"""Writes /verif/properties.jsonl (one JSON object per line)."""
import json, os
P=[]
def p(id,title,statement,quant,why,anchors):
    P.append(dict(id=id,title=title,statement=statement,quantifier=quant,why_tests_cant=why,anchors=anchors))
G="gconv/geometry/groups/"
K="gconv/gnn/kernels/"
M="gconv/gnn/modules/"
CONT="The domain is a continuum; a test samples finitely many values and compares with a tolerance, so it cannot establish the identity for every input."
ALL="Unbounded sizes/shapes: a test fixes a handful of shapes (often all equal, which hides axis mix-ups)."
p("C01","so2 angle product is rotation composition","For all angles a,b: so2.angle_to_matrix(so2.left_apply_angle(a,b)) is the matrix product angle_to_matrix(a) @ angle_to_matrix(b); each such matrix is orthogonal with determinant 1, and the returned angle lies in [0, 2pi). so2.left_apply_to_angle(A,B)[n,m] is that product of A[n] and B[m] for every n, m.","all real angles; all lists of angles",CONT,[G+"so2.py:angle_to_matrix",G+"so2.py:left_apply_angle",G+"so2.py:left_apply_to_angle"])
p("C02","so2 inverse and group laws","For all angles: composing with inverse_angle on either side gives angle 0; composition is associative, commutative, and 0 is neutral modulo 2pi; inverse_matrix(angle_to_matrix(a)) equals angle_to_matrix(inverse_angle(a)) and is a two-sided matrix inverse.","all real angles",CONT,[G+"so2.py:inverse_angle",G+"so2.py:inverse_matrix",G+"so2.py:left_apply_angle"])
p("C03","so2.uniform_grid is the cyclic rotation group","For every size n, so2.uniform_grid(n) has exactly n pairwise distinct angles in [0,2pi), entry i being 2*pi*i/n, and it is closed under left_apply_angle (entry i times entry j is entry (i+j) mod n) and under inversion modulo 2pi.","all natural n, all index pairs","n is unbounded and closure is a statement about every pair of entries.",[G+"so2.py:uniform_grid",G+"so2.py:left_apply_angle"])
p("C04","so2 geodesic distance","so2.geodesic_distance(a,b) is symmetric, depends only on the rotation difference (invariant under composing both arguments with any common rotation and under 2pi shifts), lies in [acos(1-eps), acos(-1+eps)], and equals the length of the shorter arc between the two angles whenever that arc lies in this range.","all real angles, all 0<eps<1",CONT,[G+"so2.py:geodesic_distance",G+"so2.py:geodesic_distance_euclid",G+"so2.py:angle_to_euclid"])
p("C05","so2.nearest_neighbour_distance returns the self-distance (defect)","Documented: the distance of each element to its nearest neighbour. Actual: for every non-empty grid every entry of the result is the clamped self-distance acos(1-1e-12), whatever the other elements are (and an empty grid raises); so the documented contract fails for every grid whose elements are more than that apart.","all non-empty lists of angles","A test on one grid sees a small positive number; that the value never depends on the grid is a statement about all grids.",[G+"so2.py:nearest_neighbour_distance"])
p("C06","so2 action on the plane","left_apply_angle_to_R2 is a left group action (acting by b then a equals acting by the product of a and b), the zero angle acts trivially, and every angle preserves dot products (hence norms and distances); result[n,w,h] is rotation n applied to grid[w,h].","all angles, all planar grids of any size",CONT,[G+"so2.py:left_apply_angle_to_R2",G+"so2.py:left_apply_matrix_to_R2"])
p("C07","o2 product and inverse satisfy the group laws","On elements (c, theta) with c in {1,-1}: left_apply_angle is associative, (1,0) is neutral mod 2pi, inverse(R) composed with R on either side is (1,0), the coefficient of a product is the product of coefficients (det multiplicative), coefficients stay in {1,-1}, and left_apply_to_angle(A,B)[n,m] is the product of A[n] and B[m].","all o2 elements and all grids",CONT,[G+"o2.py:left_apply_angle",G+"o2.py:left_apply_to_angle",G+"o2.py:inverse",G+"o2.py:det"])
p("C08","o2 action; o2 'reflections' are rotations (defect)","left_apply_to_R2 is a left action of the o2 product and preserves norms. But an element with coefficient -1 and angle t acts on R2 exactly as the rotation (1, t+pi): the matrix by which it acts always has determinant +1, so o2.det disagrees with the determinant of the action for every coefficient -1 element, no o2 element acts as a mirror reflection, and the o2 product is commutative (O(2) is not).","all o2 elements, all planar vectors","Tests only check shapes and that det returns the stored coefficient.",[G+"o2.py:left_apply_to_R2",G+"o2.py:det"])
p("C09","o2.uniform_grid layout","For every (n,m), o2.uniform_grid((n,m)) has n+m rows; the first n carry coefficient 1 and the n-point uniform angles, the last m carry coefficient -1 and the m-point uniform angles; for n=m the grid is closed under the o2 product and inverse mod 2pi.","all natural n, m","unbounded sizes",[G+"o2.py:uniform_grid"])
p("C10","o2.grid_sample restores the input order","For every query grid of o2 elements with coefficients +-1 in any interleaving, row i of o2.grid_sample is the so2 sample of element i taken from the rotation half of the signal if its coefficient is 1 and from the reflection half if it is -1; the number of rows equals the number of queries. Queries of a kind for which the signal has no half raise IndexError.","all interleavings, all signals, all sampler modes/widths","The permutation bookkeeping must be right for every interleaving; tests use rotations-first grids where a wrong permutation is invisible.",[G+"o2.py:grid_sample"])
p("C11","o3.grid_sample restores the input order","Same as C10 for o3.grid_sample with so3 sampling of the 3x3 matrix part.","all interleavings, all signals, all sampler modes/widths","as C10",[G+"o3.py:grid_sample"])
p("C12","o3 elements form O(3)","For (c,R), c in {1,-1}, R a rotation: left_apply_O3 corresponds to the product of the matrices c*R, inverse to their inverse, det to their determinant; results again have coefficient +-1 and a rotation part; left_apply_to_O3(A,B)[n,m] is the product of A[n], B[m].","all o3 elements and grids",CONT,[G+"o3.py:left_apply_O3",G+"o3.py:left_apply_to_O3",G+"o3.py:inverse",G+"o3.py:det"])
p("C13","so3/o3 action on R3","so3.left_apply_to_R3 and o3.left_apply_to_R3 are left actions of their products, the identity acts trivially, every element acts isometrically, and coefficient -1 reverses orientation (determinant of the acting matrix is o3.det).","all rotations / o3 elements, all vectors, all grids",CONT,[G+"so3.py:left_apply_to_R3",G+"o3.py:left_apply_to_R3",G+"o3.py:det"])
p("C14","axis rotations are one-parameter subgroups of SO(3)","matrix_x, matrix_y, matrix_z return rotations (orthogonal, determinant 1) fixing their axis, with matrix_*(a) @ matrix_*(b) = matrix_*(a+b) and matrix_inverse(matrix_*(a)) = matrix_*(-a); matrix_inverse is the two-sided inverse of every rotation and reverses products.","all real angles, all rotations",CONT,[G+"so3.py:matrix_x",G+"so3.py:matrix_y",G+"so3.py:matrix_z",G+"so3.py:matrix_inverse"])
p("C15","cyclic_x/y/z return cyclic groups","For every n and axis, so3.cyclic(n, axis) returns n unit quaternions, the i-th representing the rotation by 2*pi*i/n about the axis; the represented rotations are closed under composition; axis is case-insensitive and every other axis string raises ValueError.","all n, all strings","unbounded n, all strings",[G+"so3.py:cyclic",G+"so3.py:cyclic_x",G+"so3.py:cyclic_y",G+"so3.py:cyclic_z"])
p("C16","tabulated polyhedral groups are groups","klein_group and tetrahedral: exact unit quaternions, pairwise distinct rotations, containing the identity, closed under quaternion product and inverse up to sign. octahedral and icosahedral: the same up to 1e-7 per coordinate (the tables hold 8-digit decimals).","every pair of tabulated elements","finite: 60*60 products each compared with 60 elements and both signs; the repository has no such test",[G+"so3.py:klein_group",G+"so3.py:tetrahedral",G+"so3.py:octahedral",G+"so3.py:icosahedral"])
p("C17","quat_to_matrix is the double cover","For unit q the result is a rotation matrix; it maps quaternion products to matrix products and quat_inverse to matrix_inverse; two unit quaternions give the same matrix iff they are equal up to sign. For arbitrary q the result is |q|^2 times a rotation.","all quaternions",CONT,[G+"so3.py:quat_to_matrix",G+"so3.py:quat_inverse"])
p("C18","matrix_to_quat inverts quat_to_matrix","For every rotation matrix R (including every tie in the pivot choice and half-turns) matrix_to_quat(R) is a unit quaternion with quat_to_matrix(matrix_to_quat(R)) = R, with no division by zero; for every unit q, matrix_to_quat(quat_to_matrix(q)) is q or -q.","all rotation matrices, all unit quaternions","Four pivot branches with boundaries on measure-zero sets random tests never hit.",[G+"so3.py:matrix_to_quat",G+"so3.py:quat_to_matrix"])
p("C19","euler_to_matrix is extrinsic ZYZ","Before thresholding euler_to_matrix(alpha,beta,gamma) = matrix_z(gamma) @ matrix_y(beta) @ matrix_z(alpha); the returned matrix differs from it by at most eps per entry, is exactly it when no non-zero entry has magnitude <= eps (in particular eps=0), and never contains a non-zero entry of magnitude <= eps.","all angle triples, all eps >= 0",CONT,[G+"so3.py:euler_to_matrix"])
p("C20","matrix_to_euler inverts ZYZ","For every rotation R that is not inside the eps gimbal zone, and for every exactly gimbal-locked R (R33 = +-1), the angles returned by matrix_to_euler reproduce R under ZYZ composition and lie in [-pi, pi); in the gimbal zone the third angle is 0. Strictly inside the zone (0 < beta < eps) the docstring's 'still results in the correct rotation' is false in general, with an error of at most 2*eps per entry.","all rotation matrices, all 0 < eps < 1","gimbal-locked and near-locked matrices have measure ~0 under random testing",[G+"so3.py:matrix_to_euler"])
p("C21","gimbal-lock warning is only issued when every element is locked (defect)","matrix_to_euler warns iff warnings are enabled and no element of the batch is safe; so a batch with at least one safe element never warns about its locked elements.","all batches","needs mixed batches",[G+"so3.py:matrix_to_euler"])
p("C22","so3.left_apply_quat always raises (defect)","Documented: returns the quaternion product. Actual: for every pair of inputs the call raises (a tuple is assigned to a tensor slice), so no input yields a product.","all inputs","A negative universal; no test calls it.",[G+"so3.py:left_apply_quat"])
p("C23","so3 geodesic distance","geodesic_distance(p,q) on unit quaternions is symmetric, insensitive to the sign of either argument (so a function of rotations), invariant under left and right composition with any rotation, in [acos(1-eps), pi/2], and, outside the clamp, half the angle of the relative rotation.","all unit quaternions, all 0<eps<1",CONT,[G+"so3.py:geodesic_distance"])
p("C24","so3 nearest-neighbour distance","For a grid of N>=2 unit quaternions, entry i of nearest_neighbour_distance is the minimum of the geodesic distances from element i to the other elements; for N<2 the call raises IndexError.","all grids of any size","any size, ties, duplicated rotations",[G+"so3.py:nearest_neighbour_distance"])
p("C25","so3_log","For every rotation R whose angle t is within the clamp range, so3_log(R) is the rotation vector: its norm is t and the Rodrigues rotation of it is R; the log of the identity is 0. For every half-turn the result is the zero vector, i.e. wrong (the special-case branches are unreachable because of the clamp).","all rotation matrices, all 0<eps<1",CONT,[G+"so3.py:so3_log"])
p("C26","quaternion_log","For every non-zero quaternion with non-zero vector part quaternion_log returns (ln|q|, angle * axis), whose quaternion exponential is q; for positive real quaternions it returns (ln|q|,0,0,0).","all quaternions with the stated guards",CONT,[G+"so3.py:quaternion_log"])
p("C27","so3.uniform_grid and the grid cache over call histories","size 0 returns an empty tensor and unknown parameterizations raise ValueError. Without cache_grid and without in-place writes, uniform_grid never changes any later result, and tabulated sizes always return the table. Defects: with cache_grid=True the Euler angles are stored under the requested parameterization, so the next call returns Euler angles instead of quaternions/matrices; cache_grid=True with 'euler' always raises KeyError; results for tabulated sizes alias the cache, so an in-place write by one caller changes the result of all later calls; size 1 'matrix' has shape (3,3) instead of (1,3,3).","all finite histories of calls and in-place writes","A history property: needs arbitrary sequences of calls and writes.",[G+"so3.py:uniform_grid",G+"_grid_cache.py:save_grid",G+"_grid_cache.py:load_grid"])
p("C28","RBF interpolation reproduces the signal on its grid","Whenever the linear solve succeeds, interpolate_RBF evaluated at a grid node returns exactly the signal there; the result is linear in the signal, each output row depends only on its own query node, and it is unchanged when nodes and grid are moved by any map preserving dist_fn.","all grids, signals, dist_fn and rbf; all sizes","arbitrary user-supplied metrics and rbf",["gconv/geometry/interpolation.py:interpolate_RBF"])
p("C29","nearest-neighbour interpolation","Every row of interpolate_NN is the signal at a grid node attaining the minimal dist_fn to the query; at a query whose distance to one node is strictly smallest it returns that node's signal; invariant under distance-preserving maps.","all grids, signals, metrics",ALL,["gconv/geometry/interpolation.py:interpolate_NN"])
p("C30","barycentric interpolation weights are convex","When the clipped barycentric coordinates have non-zero sum, the weights used by interpolate_BCC are >= 0 and sum to 1, so outputs lie between the min and max of the three signals; within eps of a node it returns that node's signal. It works only for nodes with at least three coordinates and grids of at least three nodes; everything else (angles, spherical coordinates) raises RuntimeError.","all least-squares outputs, all signals",CONT,["gconv/geometry/interpolation.py:interpolate_BCC"])
p("C31","Gaussian RBF","For width > 0 (the guard without which the code divides by zero): RBF_gauss(x,width) is in (0,1], is 1 only at 0, even, strictly decreasing in |x|, and its value at |x|=width is within 1e-8 of one half.","all real x, all positive widths",CONT,["gconv/geometry/interpolation.py:RBF_gauss"])
p("C32","spherical coordinates round trip","spherical_to_euclid always returns a unit vector; spherical_to_euclid(euclid_to_spherical(x)) = x for every unit vector x including the poles; euclid_to_spherical(spherical_to_euclid(b,g)) = (b,g) for 0<b<pi, -pi<g<=pi.","all unit vectors / angles",CONT,[G+"s2.py:spherical_to_euclid",G+"s2.py:euclid_to_spherical"])
p("C33","s2 grid parameterization dispatch","spherical_to_euler prepends alpha=0. Defects: spherical_to_euler_neg_gamma raises for every non-empty grid (and does not negate); an unknown parameterization of uniform_grid_s2 raises UnboundLocalError after the whole optimization instead of a ValueError.","all strings, all non-empty grids","negative universals",[G+"s2.py:spherical_to_euler",G+"s2.py:spherical_to_euler_neg_gamma",G+"s2.py:uniform_grid_s2"])
p("C34","coordinate grids","create_grid_R3(s)[i,j,k] = (x_k,x_j,x_i) and create_grid_R2(s)[i,j] = (x_i,x_j) with x_i=-1+2i/(s-1) for s>=2 (x_0=-1 for s=1); for s>=2 they are symmetric under index reversal and closed under every signed coordinate permutation, realised by the corresponding permutation/reversal of indices. (R2 is row-first whereas R3 is x-first: the two conventions differ.)","all sizes, all indices, all signed permutations",ALL,["gconv/gnn/functional/grid.py:create_grid_R3","gconv/gnn/functional/grid.py:create_grid_R2"])
p("C35","spherical masks","The masks are 0/1, 1 exactly where the grid point has norm < 1.1, invariant under all signed coordinate permutations; for odd s>=3 the centre and the face centres are kept and for all s>=2 the corners are dropped. Defect: for kernel sizes 1 and 2 the mask is identically zero (so a masked layer outputs only its bias), for every other size it is not.","all sizes and indices","Tests use sizes 3 and 5 only.",["gconv/gnn/functional/mask.py:create_spherical_mask_R2","gconv/gnn/functional/mask.py:create_spherical_mask_R3"])
p("C36","lifting kernel formula","For every number of group elements, channels, groups, kernel size, mask and determinant option, the weights returned by a lifting kernel have shape (out, |H|, in/groups, *kernel) and entry (o,h,c,x) is mask(x) * S(weight[o,c], h^-1 x) / det h, where S is the spatial sampler.","all shapes, all group ops obeying their documented shapes, all samplers","repeat_interleave/repeat/view index arithmetic must agree for every shape.",[K+"kernel.py:GLiftingKernel.forward"])
p("C37","full group kernel formula","The weights returned by GKernel have shape (out, |out_H|, in/groups, |in_H|, *kernel) and entry (o,g,c,h,x) is mask(x) * S(V_{o,c}(g^-1 h), g^-1 x) / det g where V is the group-sampled weight; group elements are paired correctly also when |in_H| != |out_H|. Defect: the channel axes are relabelled: the parameter used for (output o, input c) is weight[:, o', c'] with o'*(in/groups)+c' = c*out+o, so it is weight[:, o, c] only in degenerate cases (transposed when square).","all shapes incl. |in_H| != |out_H|, all group ops and samplers",ALL,[K+"kernel.py:GKernel.forward"])
p("C38","separable kernel formula (and |in_H| != |out_H| defect)","For |in_H| = |out_H| the group weights returned by GSeparableKernel have entry (o,g,c,h) = V_{o,c}(g^-1 h) (same channel relabelling as C37) and the spatial weights have entry (o,g,0,x) = mask(x)*S(weight[o,0], g^-1 x)/det g. For |in_H| != |out_H| the returned group weight has the two group axes exchanged in its shape; read as the layer reads it, its values are still paired correctly with one input channel per group, but with two or more some entry holds the value of a different (channel, g, h).","all shapes","tests use |in_H| = |out_H|",[K+"kernel.py:GSeparableKernel.forward"])
p("C39","subgroup kernel formula","GSubgroupKernel returns, for |in_H| = |out_H|, entry (o,g,c,h,0..) = V_{o,c}(g^-1 h); the group axes are exchanged in the shape otherwise, as in C38; it raises unless the spatial kernel is one cell; det_H is ignored.","all shapes",ALL,[K+"kernel.py:GSubgroupKernel.forward",K+"kernel_sen/kernel_so3.py"])
p("C40","group weights depend only on relative group elements","For SE2, E2, SE3, E3 kernels, multiplying in_H and out_H on the left by the same group element leaves the sampled group weights unchanged, because out^-1 in is unchanged as a stored element.","all group elements and grids of the four groups",CONT,[K+"kernel.py:GKernel.forward",K+"kernel.py:GSeparableKernel.forward",G+"so2.py",G+"o2.py",G+"so3.py",G+"o3.py"])
p("C41","default RBF widths (defects)","Documented: width 0.0 is replaced by 0.8 times the mean nearest-neighbour distance of the reference grid. SE3 does this. SE2 and E2 use the constant 0.8*acos(1-1e-12) for every grid. E3 feeds the 10-vectors (coefficient + flattened matrix) to the quaternion metric, so the value is not the neighbour distance. E2/E3 with zero rotations or zero reflections raise, and SE3/E3 with one raises.","all grids","tests only look at shapes",[K+"kernel_sen/kernel_se2.py",K+"kernel_sen/kernel_se3.py",K+"kernel_en/kernel_e2.py",K+"kernel_en/kernel_e3.py"])
p("C42","mask option","For SE3, E2 and E3 kernels mask=False yields unmasked weights. Defect: SE2 kernels ignore the option and always mask.","all kernel sizes, both option values","tests never pass mask=False to SE2",[K+"kernel_sen/kernel_se2.py",K+"kernel_sen/kernel_se3.py",K+"kernel_en/kernel_e2.py",K+"kernel_en/kernel_e3.py"])
p("C43","constructor validation","A group-convolution constructor accepts its hyper-parameters iff: group_kernel_size, if a tuple, has no negative entry and positive sum; groups>0 divides in and out channels; a string padding is 'same' or 'valid' and 'same' only with unit strides; padding_mode is one of zeros/reflect/replicate/circular; otherwise ValueError.","all hyper-parameter combinations","combinatorial input space",[M+"gconv.py:GroupConvNd.__init__"])
p("C44","padding configuration","For padding='same' (stride 1, any dilation and kernel size, any supported padding mode) a single convolution preserves every spatial size; the left/right amounts differ by at most one; 'valid' pads nothing; explicit paddings apply the same amount on both sides of their own axis.","all sizes, dilations, kernel sizes, dims","unbounded sizes, even/odd interplay",[M+"gconv.py:GroupConvNd.__init__",M+"gconv.py:GroupConvNd._conv2d_forward",M+"gconv.py:GroupConvNd._conv3d_forward"])
p("C45","lifting convolution forward","The output of a lifting convolution has shape (N, out, |H|, *spatial) and entry (n,o,h,y) is bias[o] plus the sum over the input channels c of o's channel group and kernel offsets x of W(o,h,c,x)*input[n,c,y*stride+x*dilation-pad] with W as in C36; the H returned is the H used.","all shapes, groups, strides, paddings, dilations",ALL,[M+"gconv.py:GLiftingConvNd.forward"])
p("C46","group convolution forward","The output of a full group convolution has shape (N,out,|out_H|,*spatial) and entry (n,o,g,y) is bias[o] plus the sum over c, h in in_H, x of W(o,g,c,h,x)*input[n,c,h,y*stride+x*dilation-pad] with W as in C37.","all shapes",ALL,[M+"gconv.py:GConvNd.forward"])
p("C47","separable convolution forward (double stride/padding defect)","With unit stride and zero explicit padding (or 'same' with zeros) and |in_H|=|out_H|, the separable convolution equals the full group convolution whose kernel is the product of its group weight and spatial weight. Defect: stride, padding are applied in both stages: with padding p the output is larger by 2p per axis than that of the equivalent full convolution, with stride s it is subsampled by s*s, and 'same' with a non-zeros padding mode does not preserve the spatial size when dilation*(kernel-1) > 0.","all shapes",ALL,[M+"gconv.py:GSeparableConvNd.forward"])
p("C48","translation equivariance","Lifting and group convolutions with stride 1 commute with spatial translations on the interior: if the input is shifted by t, each output position whose receptive field stays inside both images has the shifted value.","all inputs, translations, kernels","all shifts and inputs",[M+"gconv.py:GLiftingConvNd.forward",M+"gconv.py:GConvNd.forward"])
p("C49","lifting convolution is equivariant under grid symmetries","For every grid symmetry g (2D: quarter turns; 3D: the 24 rotations of the cube) lifting the rotated input with grid g*H gives the rotated output of lifting the input with H (stride 1, symmetric padding), for every sampler.","all inputs, weights, H, symmetries, odd/even sizes, dilations, samplers","tests/test_equivariance.py only plots",[M+"gconv_sen/gconv_se2.py:GLiftingConvSE2",M+"gconv_sen/gconv_se3.py:GLiftingConvSE3"])
p("C50","group convolution is equivariant under grid symmetries","For every such g, group convolution of the rotated feature map on g*in_H to g*out_H is the rotated output of the original.","as C49",CONT,[M+"gconv_sen/gconv_se2.py:GConvSE2",M+"gconv_sen/gconv_se3.py:GConvSE3"])
p("C51","E(n) layers are equivariant only up to the sign of the determinant (defect)","For the E2/E3 lifting convolution, transforming the input by g and the grid to g*H yields det(g) times the transformed output: because the weights are divided by det rather than |det|, an inversion flips the sign of every feature.","all inputs, weights, grids","needs inverted inputs; untested",[K+"kernel.py:GLiftingKernel.forward",G+"o3.py:det"])
p("C52","networks are equivariant and their pooled features invariant","Take any network of lifting, group and separable convolutions, batch/instance normalizations and activations (SE(2), SE(3), E(2), E(3)). For every grid rotation g (2D: quarter turns; 3D: the 24 rotations of the cube), whenever it runs on an image it runs on the image moved by g, the output features are the same feature maps moved by g and living on the group elements g*h, the running statistics left in the normalization modules are identical, and the global average and maximum pools are identical. The random draws of permute_output_grid correspond: in SE(2) the lifting draw u becomes u + q/4 mod 1 and later draws stay; in SE(3) q0 becomes p q0 and later draws p q p^-1; in E(n) every draw is multiplied by g. Without permutation the grid must be mapped to itself by g, as uniform grids of 4m angles are.","all networks, inputs, weights, symmetries, draws, kernel sizes >= 2, strides that cover the image, symmetric paddings","README promises invariance; no test",["README.md",M+"pooling.py:GAvgGlobalPool",M+"pooling.py:GMaxGlobalPool",M+"gconv_sen/gconv_se2.py",M+"gconv_sen/gconv_se3.py",M+"gconv_en/gconv_e2.py",M+"gconv_en/gconv_e3.py",M+"normalization.py",M+"activations.py"])
p("C53","permute_output_grid only moves the grid rigidly","With permute_output_grid the returned grid is r*H for one group element r, so it has the same number of elements and the same relative elements h1^-1 h2; with it off, the returned grid is the given (or default) one.","all random draws r, all grids, four groups","random draws",[M+"gconv_sen/gconv_se2.py",M+"gconv_sen/gconv_se3.py",M+"gconv_en/gconv_e2.py",M+"gconv_en/gconv_e3.py"])
p("C54","group and global pooling","GAvgGroupPool / GAvgGlobalPool return the means over the group axis / group and spatial axes and are invariant under any permutation of them. Defect: GMaxGroupPool and GMaxGlobalPool return a (values, indices) pair instead of a tensor; its values component is the maximum and invariant.","all tensors, all permutations",ALL,[M+"pooling.py"])
p("C55","spatial pooling modules raise unless everything is pooled to one cell (defect)","GMaxSpatialPool*, GAvgSpatialPool*, GAdaptive*SpatialPool* succeed iff the pooled spatial extent has exactly one cell, i.e. one window of the given size, stride, padding, dilation and rounding fits on every axis, and then return shape (N,C,|H|) without the spatial axes, holding the maximum, or the sum over the divisor, of the entries that window reads; otherwise RuntimeError.","all shapes and pooling parameters","negative universal",[M+"pooling.py"])
p("C56","batch/instance normalization respects the group axis","GBatchNorm* normalizes each channel by its mean and variance over batch, group and space, GInstanceNorm* per sample and channel over group and space; both preserve the shape and commute with any permutation of group elements and positions.","all tensors and permutations",ALL,[M+"normalization.py"])
p("C57","activations pass the grid through; GWrap cannot be constructed (defect)","GReLU/GGELU/GLeakyReLU act entrywise, keep the shape, commute with any rearrangement of entries, and return H unchanged. GWrap(module) raises AttributeError for every module because the base initialiser is not called.","all tensors",ALL,[M+"activations.py",M+"wrappers.py:GWrap"])
p("C58","repulse only writes to its argument when in_place","repulse returns the result of `steps` noisy gradient steps; with in_place=False the caller's tensor is unchanged for every energy, metric and noise; with in_place=True the caller's tensor holds the returned values; with steps=0 the grid is returned unchanged.","all grids, gradient functions, noises, step counts","all histories of steps",["gconv/geometry/repulsion.py:repulse"])
p("C59","kernels at the identity element","With nearest sampling and border padding the 3D kernel sampled at the identity is the stored weight (times the mask, if any), for every kernel size >= 1; the 2D kernel is its transpose (defect: row/column order of the 2D grid). With bilinear sampling the same holds for kernel sizes up to 3, and from size 4 on the stored weight is not reproduced in general (align_corners mismatch).","all kernel sizes, all weights",ALL,["gconv/gnn/functional/grid.py:create_grid_R2","gconv/gnn/functional/grid.py:create_grid_R3",K+"kernel.py:GLiftingKernel.forward"])
p("C60","bias initialisation bound","reset_parameters leaves every bias entry within 1/sqrt(fan_in) of 0 where fan_in is computed from the kernel parameter: (in/groups)*volume for lifting, volume for separable, but out*(in/groups)*volume for the full kernel (not its number of inputs); no write when fan_in = 0.","all shapes and random draws",ALL,[M+"gconv.py:GroupConvNd.reset_parameters"])
exec(open(os.path.join(os.path.dirname(__file__),'more_properties.py')).read()) if os.path.exists(os.path.join(os.path.dirname(__file__),'more_properties.py')) else None
out=os.path.join(os.path.dirname(__file__),'..','properties.jsonl')
with open(out,'w') as f:
    for o in P: f.write(json.dumps(o)+"\n")
print(len(P))
