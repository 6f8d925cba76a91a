p("C61","o3.uniform_grid needs at least two rotations of each kind it uses (defect)","o3.uniform_grid((n,m)) raises RuntimeError whenever n or m is 1 (the tabulated size-1 matrix grid has shape (3,3)), and IndexError for (0,0); for n,m each 0 or at least 2, not both 0, it returns n rows with coefficient 1 followed by m rows with coefficient -1. Caching an untabulated so3 matrix grid of size n makes a later o3.uniform_grid((n,n)) raise.","all pairs (n,m)","the failing sizes are never exercised",[G+"o3.py:uniform_grid",G+"so3.py:uniform_grid","gconv/geometry/groups/_grid_cache.py"])
p("C62","so3 sampling is invariant under left and right translation","Composing all queries and all grid rotations with one common rotation, on the left or on the right, does not change the result of so3.grid_sample on matrices, in either mode.","all rotations, grids, signals, widths",CONT,[G+"so3.py:grid_sample"])
p("C63","random group elements are valid","For every draw with non-zero norm random_quat is a unit quaternion, random_matrix a rotation, and o3.random_grid an element with coefficient 1 or -1 and a rotation part; so2/o2.random_grid return angles in [0, 2 pi) and coefficients 1 or -1. Every element of SO(2), O(2), SO(3), O(3) (angles in [0, 2 pi)) is returned for some draw. Intervals of angles are hit exactly by the proportional interval of draws; the coefficient is 1 exactly when its draw exceeds 1/2; the rotation depends only on the direction of its draw and rotating the draw rotates the result.","all random draws, all group elements","random draws",[G+"so2.py:random_grid",G+"o2.py:random_grid",G+"so3.py:random_quat",G+"so3.py:random_matrix",G+"o3.py:random_grid"])
p("C64","so3 sampling at grid points","rbf sampling at a grid rotation returns exactly the signal stored there; nearest sampling returns the signal of a grid rotation of minimal geodesic distance.","all grids, signals, queries",CONT,[G+"so3.py:grid_sample"])

p("C65","the tabulated so3 grids are valid and consistent","For every size 1..24 the quaternion and the matrix table have that many elements, every quaternion has squared norm within 2e-4 of 1, different elements have |dot| <= 0.74, every matrix is orthogonal within 2e-4 and the matrix table is the quaternion table converted, within 2.5e-4.","all 300 tabulated elements and all pairs","data spread over 2000 lines that no test reads",["gconv/geometry/groups/_grid_cache.py:_grid_cache"])
p("C66","s2 metric and its relation to so3","geodesic_distance_s2 is symmetric, within [acos(1-eps), acos(-1+eps)], the angle between unit vectors outside the clamped region and invariant under rotations and reflections; the rotation made from spherical_to_euler maps the north pole to the point.","all vectors, rotations, coordinates",CONT,[G+"s2.py:geodesic_distance_s2",G+"s2.py:spherical_to_euler"])
p("C67","the repulsion energy counts every ordered pair of different grid elements once","Sorting each row and dropping its first entry removes exactly the self-distance, so the minimised energy is the mean of energy(d_ij/const) over i != j, for both metrics used by the library and every grid.","all grids","holds for all inputs",["gconv/geometry/repulsion.py:repulse","gconv/geometry/repulsion.py:columb_energy"])
p("C68","kernel parameter initialisation","reset_parameters fills the group kernels (full, subgroup and both separable parameters) with values (2u-1)/sqrt(fan_in), u the unit draws, hence within 1/sqrt(fan_in) of 0, where fan_in is the product of all axes of the parameter after the first (for the full kernel out*(in/groups)*volume), and the lifting kernel with z/sqrt(3*fan_in), z the normal draws; shapes are kept.","all shapes, all random draws","random draws",["gconv/gnn/kernels/kernel.py:reset_parameters"])
p("C69","public layer constructors","Each of the twelve public layer classes can be constructed exactly for the documented configurations (and, for group layers, when the default kernel width is defined or a width is given: a non-empty grid for SE(2), non-empty halves for E(2), two elements for SE(3), two per half for E(3)); the resulting layer stores the given or default grid and its parameters have the documented shapes, so the forward contracts apply. Rejections: ZeroDivisionError for groups = 0, RuntimeError for groups < 0 (not the documented ValueError), ValueError otherwise. Defect: the E(2)/E(3) classes do not set group_kernel_size to the size of a given grid_H as documented.","all constructor arguments, all call histories for the default grids",ALL,[M+"gconv_sen/gconv_se2.py",M+"gconv_sen/gconv_se3.py",M+"gconv_en/gconv_e2.py",M+"gconv_en/gconv_e3.py"])
p("C70","the order in which group elements are listed does not matter","Lifting: if the output grid is re-listed by any selection, the output is the old output selected the same way along its group axis. Full group layer: the same for the output grid, and permuting the input group axis together with the input grid leaves the output unchanged. Separable layer: the same with both permuted, for equally long input and output grids. All strides, paddings, dilations, groups, bias.","all grids, selections, inputs, weights, configurations",ALL,[M+"gconv.py",K+"kernel.py"])
p("C71","sampling signals on SO(2), O(2), O(3)","grid_sample in rbf mode returns, at a query equal to an element of the signal grid (angles up to full turns, O(n) elements of the same determinant), exactly the signal stored there. In nearest mode so2.grid_sample returns one row per query, the signal of a grid angle closest to the query up to 2e-6 rad (exactly the stored signal at an isolated grid angle); o2/o3.grid_sample return the signal of a closest element among those of the same determinant. Rotating queries and signal grid together changes nothing. Any other mode raises ValueError.","all query lists, signals, signal grids, widths, modes and rotations","infinitely many grids and queries; tie and clamp behaviour",[G+"so2.py:grid_sample",G+"o2.py:grid_sample",G+"o3.py:grid_sample",G+"so3.py:grid_sample"])
p("C72","saving, loading and sharing layers","In every program, load_state_dict of a checkpoint into an SE(3) layer made with equal arguments and an equally long grid succeeds, every entry then holds the saved value and the layer computes the outputs (and raises the errors) of the saved layer on every call, unless a bandwidth derived from the construction grid is used: the bandwidth is not in the state_dict (defect; a concrete rbf layer with other outputs). A layer saved and later restored in the same program is restored in all cases. Loading any file stores exactly the entries present with the right shape, even when it raises, and raises RuntimeError exactly if an entry is missing, has another shape, or is unknown. A checkpoint has exactly the entries bias (if any), weight_H (separable layers), weight, grid_H, grid_Rn and mask (if any), with shapes given by the arguments and the grid length; a training step replaces bias and weights and nothing else (grids and mask are not trained). Making, training, loading or overwriting anything else does not change a layer, except loading into, or overwriting, the grid tensor it shares. Sharing (defect): a given grid_H is used, not copied; default layers of sizes 2..24 use the tensor of the module-level grid cache itself, so a load into one of them changes the grid of all of them and what so3.uniform_grid returns from then on; larger default grids are private.","all programs (sequences of constructions, loads, training steps, tensor creations and in-place writes, grid requests), all arguments, all inputs","all histories of a process; aliasing through a module-level cache",[K+"kernel.py:GroupKernel","gconv/geometry/groups/so3.py:uniform_grid",K+"kernel_sen/kernel_se3.py",M+"gconv_sen/gconv_se3.py",M+"gconv.py"])
p("C73","custom group convolutions need only a group","(README: 'all that is required is implementing 5 (or less) group ops') For any user-supplied operations that apply, elementwise, an inverse, a product with normalised results, an action on R^2 or R^3 and a multiplicative determinant obeying the group laws, and any sampler treating queries one by one, the lifting, full and separable layers built from them are equivariant under every element g acting as a signed permutation of the axes: transforming the input by g and multiplying the grids by g on the left transforms the output by g (for det g = -1, additionally negates it before the bias). Any reference grid, kernel grid with or without spherical mask, stride, padding, dilation, groups, bias.","all group operations meeting the contract, all configurations covering the image, inputs, weights, grids",ALL,["README.md",K+"kernel.py",M+"gconv.py","gconv_tutorial.ipynb"])
p("C74","the tutorial's custom SE(2) layers","The five operations written in gconv_tutorial.ipynb meet the contract of C73, its grids are those of the package, and its lifting and separable layers are equivariant to quarter turns for every configuration covering the image; every call answers with the documented shape exactly if the kernel fits into the padded image (separable: at least two rotations) and raises RuntimeError otherwise. Defects: its grid_sample_so2 combines the two grid rotations farthest from the query (not the neighbours), weighted by their cosines over the step; a constant signal 1 is sampled as a negative number on every uniform grid of three or more rotations; with group_kernel_size 1 the separable layer always raises.","all configurations, inputs, weights, grids, group kernel sizes, query rotations",ALL,["gconv_tutorial.ipynb"])
p("C75","convolution layers are affine, sample by sample and channel group by channel group","If a lifting, full or separable layer accepts one batch of images of some size it accepts every batch (any batch size) of images of that size, and every number of an output item is a fixed linear combination of the numbers of the same input item in the channel group of its output channel, plus the bias of that channel. Hence superposition holds, items of a batch do not influence each other, and channel groups do not influence each other. Any stride, padding, padding mode, dilation, groups, bias; every group of the package and every custom one.","all layers, batch sizes, image sizes, inputs, weights, grids",ALL,[M+"gconv.py",K+"kernel.py"])
p("C76","resampling a kernel window","For the modes grid_sample accepts (bilinear, nearest, bicubic in 2d; bilinear, nearest in 3d; zeros, border, reflection padding; nothing else), every sampled value is a fixed linear combination of the pixels, the coefficients depending on the point only. Unless the padding is zeros, constant windows are reproduced everywhere, so a weight constant over its window gives the same lifting kernel for every group element (divided by the determinant in E(n)). With bilinear or nearest the value stays within the range of the pixels (with 0 added for zeros padding), so transforming a kernel never makes a weight larger than the largest of its window. Bicubic leaves the range: an image of zeros and ones is sampled to a negative number. Outside the window: with reflection padding mirroring a coordinate in a border of the window changes nothing, in every mode; with border padding (bilinear, nearest) a point is read at the nearest point of the window, and reflection agrees with border inside it; with zeros padding everything half a pixel or more outside reads 0.","all window sizes, images, points, modes, padding modes, group elements, weights",CONT,["gconv/gnn/functional/grid.py:grid_sample",K+"kernel.py"])
p("C77","layers are linear in their parameters","The output of a lifting, full or subgroup layer is linear in (weight, bias): parameters a w1 + b w2, a b1 + b b2 give a Y1 + b Y2, and if a call succeeds with one weight it succeeds with every weight of that shape. The separable layer is linear in (weight_H, bias) for a fixed weight and in (weight, bias) for a fixed weight_H. Holds for every kernel of the package in every sampling mode (E(n): grids of group_kernel_size elements) and every custom kernel with linear samplers; any input, grids, stride, padding, dilation, groups.","all weights, biases, coefficients, inputs, grids, configurations",ALL,[K+"kernel.py",M+"gconv.py","gconv/geometry/interpolation.py"])
p("C78","moving images with the package's grids, and the equivariance experiment","grid_sample(images, so3.left_apply_to_R3(H, create_grid_R3(n)), nearest) moves image b of the batch exactly by the inverse of H[b], for every symmetry of the cube, if the padding mode is border or reflection or the size n is odd; the identity changes nothing and two such steps are one with the product. With zeros padding and even n everything coming from the last slices becomes 0, even for the identity (defect). The equivariance test of the package: the lifting layer applied with grid H to the copies of an image moved by the elements of H returns, for the copy moved with h and position e, the response of the original at the position of h H[e], moved by the inverse of h. In the plane (create_grid_R2, so2) images come out transposed, so no angle rotates them (defect).","all sizes, batches, images, symmetries, padding modes, layers","every image and every symmetry; the repository only plots the outcome",["gconv/tests/test_equivariance.py","gconv/gnn/functional/grid.py:create_grid_R3","gconv/gnn/functional/grid.py:create_grid_R2",G+"so3.py:left_apply_to_R3",G+"so2.py:left_apply_angle_to_R2"])
p("C79","devices and dtypes","so2/o2.uniform_grid, so2.random_grid, so3.random_*, random_s2 and the coordinate grids and masks are created on the requested device. A layer moved to a device and dtype accepts only inputs there and then returns output and output grid there. Defects: so3.uniform_grid ignores its device argument for every size up to 24, and for larger cached sizes returns the tensor of the first caching call, wherever that is; o3.uniform_grid on a GPU raises unless both sizes exceed 24; the cyclic groups are always on the CPU, the tabulated groups, the empty grid and o2/o3.random_grid raise on every GPU. Hence with the default permute_output_grid=True no E(2) or E(3) layer runs on a GPU, no SE(3) or E(3) layer runs in a dtype other than the default one (double precision), and a default sampling width computed from a grid on a GPU pins the layer to that device.","all devices, dtypes, module options, histories of moves and of uniform_grid calls","No test runs on a GPU or in double precision; the cache depends on the call history.",[G+"so3.py:uniform_grid",G+"o2.py:random_grid",G+"o3.py:uniform_grid",G+"o3.py:random_grid",G+"_grid_cache.py","gconv/gnn/modules/gconv_en/gconv_e2.py:forward","gconv/gnn/modules/gconv_en/gconv_e3.py:forward","gconv/gnn/modules/gconv_sen/gconv_se3.py:forward",K+"kernel.py"])
p("C80","batches of rotations with other than one batch axis (defect)","so3.matrix_to_quat, matrix_to_euler (and euler_to_quat, quat_to_euler, random_euler) are documented for any batch shape (..., 3, 3). They accept exactly the batch shapes (m, 3, 3, ..., 3), (m) among them; no batch axis and every two-axis batch (m, n), n != 3, raise IndexError. For accepted batches with two axes the results are wrong: for identity matrices of shape (m, 3) quaternion (i, j) is a half turn about axis j, Euler triple (i, 1) a quarter turn about Y, and beta of (i, 0) and (i, 2) is uninitialised memory, so any angle can be returned. random_quat and random_matrix take every size; o3.random_grid raises TypeError for every tuple although it documents one; so2.angle_to_matrix accepts exactly the batches with at least one axis.","all batch shapes, sizes, batches, memory contents","all shapes; uninitialised memory",[G+"so3.py:matrix_to_quat",G+"so3.py:matrix_to_euler",G+"so3.py:random_euler",G+"o3.py:random_grid",G+"so2.py:angle_to_matrix"])
p("C81","inputs with one axis less (missing batch axis, or a 3d layer in a 2d network)","torch layers take an input without batch axis as one item. The layers here do not, and do not refuse it either. GInstanceNorm* on features with one spatial axis less normalizes every item as a whole, over channels, group and space together (ValueError if affine and the batch size differs from num_features). The spatial pools pool the flattened channel-group axis as an image axis and succeed when the number of output cells happens to be C*n. A lifting layer called on one image (cin, h, *sp) returns, if its first output size happens to be cin, the memory of the batch-of-one result cut up as (cin, cout, |H|, *sizes), the bias added along the first axis; in all other cases it raises. Group and separable layers raise for every item with more than one group element, and for every input (A, B, h, *sp) unless A = B*h = cin*|H|. GBatchNorm* refuses every wrong rank.","all inputs, sizes, layers, configurations, states",ALL,[M+"gconv.py:forward",M+"normalization.py",M+"pooling.py"])

p("C82","images on a torus","With padding_mode='circular' a lifting or full group layer, of any group and kernel, whose output goes around the image exactly once (output size times stride equals input size on every axis: padding='same', or padding=p with 2p=dilation*(kernel-1) and a size divisible by the stride) commutes with torch.roll: rolling the input by u*stride rolls the output by u, including across the border. A network of a lifting layer, full group layers, normalizations and activations with the same random draws: rolling the image by u times the product of all strides rolls the feature map by u, with the same output grid and module states; global pooling gives the identical result and group pooling the rolled one. Separable layers pad both of their stages and do not have this property (defect): with padding='same' their output is larger than the image by dilation*(kernel-1), and where padding is chosen to keep the size (5x5 box filter, padding=1) they wrap around with the wrong period.","all images, sizes, rolls, strides, dilations, kernels, groups, depths of the network","holds for all inputs",[M+"gconv.py:GroupConvNd",M+"gconv.py:GLiftingConvNd",M+"gconv.py:GConvNd",M+"gconv.py:GSeparableConvNd"])
p("C83","receptive fields, and samples that do not see each other","In a network of a lifting layer, full and separable group layers, batch normalizations in evaluation mode, instance normalizations and activations, an output pixel of a sample depends on its receptive field in that sample only: two runs (same parameters, grids and draws) on inputs whose samples n and n' agree on the field of a set of output pixels give outputs that agree there, whatever the other samples, other pixels and the batch sizes are. The field is the composition of the sliding windows of the layers (two for a separable layer), for every padding mode; instance normalization by image statistics extends it to the whole image. With zero padding it lies, on every axis, in y*s-a .. y*s-a+r with s the product of the strides, a and r the accumulated paddings and dilated kernel sizes. In particular the result for a sample does not depend on the batch it is in. In training mode batch normalization couples the samples.","all networks, inputs, batch sizes, pixels, configurations, groups, draws",ALL,[M+"gconv.py",M+"normalization.py",M+"activations.py"])
p("C84","the printed form of a layer determines its configuration","print(layer) shows the constructor arguments: two layers, of any classes and dimensions, have the same printed form exactly if they were configured alike (channels, kernel_size, group_kernel_size, stride, padding, dilation, groups, presence of a bias, padding_mode); omitted parts are the defaults. For the twelve public classes the text is given from the arguments. It shows neither the mask, the sampling modes, the permute flag nor the grid. Defects: with a grid given the printed group_kernel_size is the argument, not the number of grid elements as documented; SE(2) kernels print mask=True for mask=False.","all layers, configurations, grids, masks","all configurations; no test prints a layer",[M+"gconv.py:extra_repr",K+"kernel.py:extra_repr","gconv/gnn/modules/gconv_sen/gconv_se2.py","gconv/gnn/modules/gconv_en/gconv_e2.py"])
p("C85","running statistics over the life of a normalization module","Over every history of forward calls (raising ones included), train(), eval() and parameter updates of a GBatchNorm or GInstanceNorm module, the running statistics are the exponential averages, from 0 and 1 and in order, of the statistics of the batches taken in training mode; nothing else leaves a trace. The running variance stays nonnegative (an evaluation never divides by zero) and the running mean within the bounds of the training data. In evaluation mode calls change nothing, and a call normalizes with the averages of the history. With momentum=None batch normalization keeps plain averages over all training batches. Defects: a raising training call still counts as a batch, after which the plain averages are wrong for good (one refused call, one batch of average a: running mean a/2); instance normalization with momentum=None never moves its statistics and never counts.","all histories of calls, modes, updates; all inputs, sizes, momenta","all histories",[M+"normalization.py:GBatchNorm2d",M+"normalization.py:GBatchNorm3d",M+"normalization.py:GInstanceNorm2d",M+"normalization.py:GInstanceNorm3d"])
p("C86","whether a call succeeds depends on shapes only","If one call of a lifting, full or separable layer succeeds, every call of every layer of the same configuration succeeds on inputs of the same channels and spatial size, whatever numbers are in the parameters, grids and inputs and whatever the batch size; the output has the same channels and spatial size and one entry per element of the output grid. The same for whole networks with normalizations and activations, and for histories: if the first iteration of a training loop succeeds then every later one does, whatever the optimizer, the running statistics and the random draws do, as long as the batches keep channels and spatial size (batches of one only where the previous batch was one). For the E(n) classes this needs at least one reflection in the kernel: with group_kernel_size (n, 0) and the default permute_output_grid=True a call succeeds when a rotation is drawn and raises IndexError when a reflection is drawn, with everything else equal (defect).","all parameters, inputs, grids, draws, batch sizes, networks, training histories","all numbers and all histories; a failing draw is random",[M+"gconv.py",K+"kernel.py","gconv/geometry/interpolation.py",G+"o2.py:grid_sample",G+"o3.py:grid_sample",M+"gconv_en/gconv_e2.py:forward",M+"gconv_en/gconv_e3.py:forward"])
p("C87","a small change of the input stays small","In evaluation mode the output of a network (lifting layer, group and separable convolutions, normalizations by running statistics, ReLU/LeakyReLU/GELU) is Lipschitz continuous in the input: one constant serves all pairs of inputs of a shape, and the network that accepts one of them accepts them all and returns the same grid. The constant is the product of the layers' gains: the largest sum of absolute sampled kernel weights per output channel and group element for convolutions, |weight|/sqrt(running_var+eps) for normalizations, 1 for ReLU, max(1,|slope|) for LeakyReLU, 2 for GELU. For the library's kernels (nearest or (bi)linear sampling) these sums are at most channels x |in_H| x kernel volume x largest stored weight, whatever the grids.","all layers, parameters, grids, padding, strides, dilations, group counts, programs of modules, pairs of inputs","a bound over all pairs of inputs and all parameters; tests compare single outputs",[M+"gconv.py",M+"activations.py",M+"normalization.py",K+"kernel.py"])
p("C88","inputs of the wrong shape","A lifting layer raises RuntimeError unless the channel axis of its input has in_channels entries and the rank is right. The group layers check the product of the channel and group axes only: an input (N, A, B, *sp) with A*B = in_channels*|in_H| is treated exactly as the input of shape (N, in_channels, |in_H|, *sp) with the same numbers in memory order, whatever A and B are (defect: features with the channel and group axes exchanged, or a grid of another length with matching product, are accepted and misread without an error); every other product, and every wrong number of spatial axes (C81 aside), raises RuntimeError, fewer than three axes ValueError. So a wrong grid length alone, or a wrong channel count alone, is always refused.","all inputs of all shapes, all layers, grids, configurations","all shapes",[M+"gconv.py:GLiftingConvNd",M+"gconv.py:GSeparableConvNd",M+"gconv.py:GConvNd"])
p("C89","nearby group elements give nearby outputs","With sampling_mode='bilinear' (any padding mode) the responses of a lifting layer depend continuously on the group element, with an explicit constant: weights bounded by M and an image bounded by B give responses that differ by at most (channels per group) x s^d x K s M delta x B for two elements within delta (2d: angles, K=4; 3d: rotation matrices entrywise, K=9; E(n): same reflection), whether they belong to one grid or to the grids of two calls. It rests on the same bound for grid_sample itself: the values at two points differ by at most M times the sum over the axes of size x distance. Consequence for the tabulated octahedral group (so3.octahedral(), 8 decimals): rotating the image by any rotation of the cube permutes the 24 responses and rotates them, up to 2e-8 x 9 s M x (channels per group) s^3 B. With sampling_mode='nearest' there is no such bound: without the mask the corner weight is lost at every angle in (0, pi/2), however small.","all pairs of group elements, grids, images, weights, sizes, paddings, strides; all 24 rotations of the cube","a bound over all pairs of elements; tests see single grids",[K+"kernel.py","gconv/gnn/functional/grid.py",M+"gconv.py:GLiftingConvNd",G+"so3.py:octahedral"])
p("C90","the default group layers always answer","The group interpolation of the default group layers is well posed: for the default SE(3) grids (2 to 24 elements, whatever grids were requested before) and both halves of the default E(3) grids, with group_sampling_mode='rbf' and the bandwidth derived from the grid (group_sampling_width=0), the bandwidth is positive and the interpolation system has exactly one solution for every signal, at most 120 times as large as the signal; the same (factor 18) for SE(2) and both halves of E(2) on every grid of up to 100000 angles at least 4.5e-5 rad apart, the uniform grids among them (exact arithmetic). Hence the program of the README runs: with the default arguments both layers are constructed, and for all parameter values, all random draws and all batches of volumes with sides of at least 9 the three calls return features of shapes (N,16,4,a-4,...), (N,32,4,a-8,...) and (N,32,1); smaller volumes raise RuntimeError. A grid with a repeated element is never usable in mode 'rbf', whatever the bandwidth: every call raises.","all sizes, histories of grid requests, parameters, draws, batches, volumes; all angle grids","the tabulated grids of 23 sizes and all signals on them; a random draw is made in every call",["README.md",K+"kernel_sen/kernel_se3.py",K+"kernel_en/kernel_e3.py",K+"kernel_sen/kernel_se2.py","gconv/geometry/interpolation.py:interpolate_RBF",G+"_grid_cache.py",G+"so3.py:nearest_neighbour_distance"])
p("C91","the contract of a call of every public class","For each of the twelve public classes, constructed with positive sizes and any valid configuration, and called with parameters of its shapes on an input (N, in_channels, [|in_H|,] *sp): the call succeeds exactly if the dilated kernel fits into the padded image and the padding mode admits the padding (for the separable layers at both of their stages, whose paddings differ), and then returns the output grid (given, or else the kernel's grid, or for the SE(n) group layers the input grid; as long as that grid after the random move) and features (N, out_channels, |out_H|, *sizes) with the sizes of torch's convolution formula; otherwise it raises RuntimeError. For the group layers the group interpolation has to be well posed (mode 'nearest' on a non-empty grid, or 'rbf' with a nonsingular system) and, for E(n), the kernel has to have both rotations and reflections and all grids coefficients 1 or -1.","all classes, configurations, parameters, inputs, grids, draws",ALL,[M+"gconv.py",M+"gconv_sen/gconv_se2.py",M+"gconv_sen/gconv_se3.py",M+"gconv_en/gconv_e2.py",M+"gconv_en/gconv_e3.py"])
p("C92","what an optimised grid consists of","so3.uniform_grid(n) for n > 24 (nothing cached before) and s2.uniform_grid_s2 return the conversions of the angles reached by gradient descent with noise: there is a sequence of angle tensors, starting at Euler angles in [-pi, pi) of the drawn random rotations (exact up to 2e-5 near the poles), resp. at the spherical coordinates of the drawn directions, in which every step e changes every angle by -lr times (gradient + (steps-e)/steps * 0.001 * noise); element i of the result is the quaternion, matrix, Euler triple (direction, ...) of row i of the last tensor. With n_steps = 0 the grid is the random start.","all sizes above the tables, draws, gradients, noises, step counts, learning rates, parameterizations, earlier calls","the draws, noises and gradients are arbitrary; tests only look at shapes",[G+"so3.py:uniform_grid",G+"s2.py:uniform_grid_s2","gconv/geometry/repulsion.py:repulse"])
p("C93","single precision: the guard of the SO(2) distance is void (defect)","On float32 tensors the clamp to [-1+1e-12, 1-1e-12] before acos in so2.geodesic_distance changes no number of [-1, 1], 1 included. So if the float32 squared coordinates of each grid element add up to at least 1 (for instance for the quarter turns, whose cosine or sine is rounded to 1 or -1), every self distance, hence so2.nearest_neighbour_distance and the default width of the SE(2) group kernels, is 0 and the diagonal of the RBF matrix is NaN. The 1e-7 guard of SO(3) works: every non-NaN inner product is moved into [-(1-2^-23), 1-2^-23], so the distance is positive. The inner products of elements with coordinates in [-1, 1] are finite and within 2^-21 (SO(2)) and 2^-20 (SO(3)) of the exact ones.","all float32 numbers, all grids of angles with that rounding, all platform implementations of cos, sin, acos, exp with correct ranges","float rounding depends on every input bit pattern and on the platform's libm; a test sees one platform",[G+"so2.py:geodesic_distance",G+"so2.py:nearest_neighbour_distance",G+"so3.py:geodesic_distance","gconv/geometry/interpolation.py:RBF_gauss"])
p("C94","saving, loading and sharing the SE(2), E(2) and E(3) layers","In every program, load_state_dict of a checkpoint into a layer of these nine classes made with equal arguments and an equally long grid succeeds, every entry then holds the saved value, and every call gives the outputs and errors of the saved layer: in SE(2) and E(2) always, in E(3) for lifting layers, nearest interpolation, or equal bandwidths (a bandwidth derived from the construction grid is not in the state_dict; defect, with two concrete layers). A layer saved and restored in the same program is restored always. Any file: the entries whose name is in the file with the same shape take the value of the file, even if the load raises, all other tensors are unchanged, and it raises RuntimeError exactly if an entry is missing, has another shape, or the file has an unknown name. Making, training, loading or overwriting anything else does not change a layer, except through a grid tensor it was given and shares; default grids are private, as are parameters, spatial grid and mask. Training changes bias and weights only. A checkpoint has exactly the documented names and shapes (SE(2): always a mask, whatever the argument; E(n): weights sized by group_kernel_size, not by the given grid).","all programs (constructions, loads of any file, training steps, tensor creations, in-place writes), all arguments, all inputs","all histories of a process",[K+"kernel.py:GroupKernel",M+"gconv.py",M+"gconv_sen/gconv_se2.py",M+"gconv_en/gconv_e2.py",M+"gconv_en/gconv_e3.py",K+"kernel_en/kernel_e3.py"])
p("C95","memory layouts","The convolution layers, the spatial pools and GLayerNorm give the same values and raise the same errors for an input in every memory layout (transposed, permuted, sliced, expanded, channels_last) as for its contiguous copy, whatever layouts torch gives the intermediate results. GBatchNorm2d/3d and GInstanceNorm2d/3d do so exactly if the group axis and the first spatial axis of the input lie in memory as one axis (stride of the group axis = size times stride of the spatial axis, or an axis of size one, or an empty tensor) and raise RuntimeError otherwise. They never raise for this reason after a convolution layer with contiguous results; after a bias-free convolution layer with channels_last results they always do (two or more group elements and rows). Tensor.view itself accepts a shape exactly if some strides address it in the same memory, and then is the row-major reshape.","all shapes, strides, offsets and memories of the input, all layouts of intermediate results, all layers, parameters and statistics","a test fixes a memory layout, almost always the contiguous one",[M+"normalization.py:GBatchNorm2d",M+"normalization.py:GBatchNorm3d",M+"normalization.py:GInstanceNorm2d",M+"normalization.py:GInstanceNorm3d",M+"normalization.py:GLayerNorm",M+"pooling.py:GMaxSpatialPool2d",M+"gconv.py:GLiftingConvNd",M+"gconv.py:GConvNd",M+"gconv.py:GSeparableConvNd"])

p("C96","the repulsion on the sphere and on SO(3) is gradient descent","In s2.uniform_grid_s2 the gradient that backward() leaves at the spherical coordinates is the gradient of the mean pair energy, for every number of points and all coordinates (poles included), unless two points are exactly at the distance where the 1e-7 guard sets in. So every short enough step lowers the energy unless gradient and noise oppose each other, and two points outside the guard always move apart. Points within the guard of each other do not repel; points with equal coordinates stay equal through all steps unless their noise differs. The documented default step 0.1 is not always short enough: from some pairs it raises the energy. On SO(3) (so3.uniform_grid) the same holds at all Euler angles at which no branch of the code is about to change (the 1e-6 threshold of the matrix entries, the pivot of matrix_to_quat, the sign of an inner product, the guard): gradient, descent, guarded and equal elements. There the identity, given by zero angles, never moves without noise, and the default step n ** (1 / 3) raises the energy of some pair.","all numbers of points, all coordinate tables, exponents, noise, epochs and small step sizes","a test evaluates finitely many grids and steps with finite differences; the claim is about derivatives at every configuration and about every small step",["gconv/geometry/repulsion.py:repulse",G+"s2.py:uniform_grid_s2",G+"s2.py:geodesic_distance_s2",G+"s2.py:spherical_to_euclid",G+"so3.py:uniform_grid",G+"so3.py:euler_to_quat",G+"so3.py:geodesic_distance"])
p("C97","training on moved images","Train a network of the library's modules with any loss on the globally pooled (average and maximum) features and any optimizer that uses the loss as a function of the weights (so its value and all its derivatives). Move every batch by a grid rotation of its own (2D: quarter turns; 3D: the 24 rotations of the cube), with draws of permute_output_grid that correspond. After any number of iterations the weights, the running statistics and the optimizer state are exactly the same. In particular, with permute_output_grid off and uniform grids of 4m rotations, augmenting the data with quarter turns changes nothing.","all networks, losses, optimizers, histories of batches, rotations per batch, initial weights","a test trains one network for a few steps and compares up to rounding; the claim is about every optimizer, every loss and every history",[M+"gconv.py:GLiftingConvNd.forward",M+"gconv.py:GConvNd.forward",M+"gconv.py:GSeparableConvNd.forward",M+"pooling.py:GAvgGlobalPool",M+"pooling.py:GMaxGlobalPool",M+"normalization.py"])
p("C98","a network that draws its grids at random is equivariant in distribution","With permute_output_grid (the default) every convolution of a call draws a random group element. The globally pooled features (average and maximum) and the new running statistics of a call on a moved image are then equally distributed to those of a call on the image itself: under quarter turns for SE(2) and E(2) (torch.rand with N values, N divisible by 4, as in its single precision with N = 2^24), under the rotations of the cube for SE(3) and E(3) (for normalized torch.randn replaced by any law on the quaternions unchanged by left multiplication and conjugation). Training with fresh draws in every iteration on batches turned by quarter turns of their own ends in equally distributed weights, running statistics and optimizer states. The mean over the draws of the group-averaged output of a lifting layer with n rotations is the output averaged over the uniform grid of N rotations, for every divisor n of N: the number of rotations does not change what is estimated. Without averaging over the draws the features are not invariant: the default lifting layer gives features 0 and 1 for one and the same image and two draws (defect: the README promises features invariant to the group).","all networks, weights, images, quarter turns / rotations of the cube, laws of the draws, losses, optimizers, data sets","a statement about distributions over all draws; a test fixes a seed or compares a few samples",["README.md",M+"gconv_sen/gconv_se2.py",M+"gconv_sen/gconv_se3.py",M+"gconv_en/gconv_e2.py",M+"gconv_en/gconv_e3.py",G+"so2.py:random_grid",G+"o2.py:random_grid",G+"so3.py:random_matrix",G+"o3.py:random_grid",M+"pooling.py:GAvgGlobalPool",M+"pooling.py:GMaxGlobalPool"])
p("C99","which entries of a kernel window matter","With the spherical mask (SE(2) kernels always have it; SE(3), E(2), E(3) with mask=True) and sampling_mode 'bilinear' or 'nearest' (any padding mode) a layer's outputs do not depend on the weight entries of window cells out of reach of the ball of radius 1.1: cells whose box of side 4/size around their centre misses the ball. Two layers whose weights agree on the other entries answer every input, on every grid, alike (lifting, full and separable spatial weights). Corner entries are such dead parameters from size 14 on in 2D and 9 on in 3D. With the default size 3 and grids of quarter turns (2D) or of rotations of the cube (3D), with or without inversion, and no random permutation of the output grid, only the entries on the axes through the middle matter: 5 of 9, respectively 7 of 27; for an eighth of a turn the corners of a 3 x 3 window do matter.","all weights, layers, strides, paddings, biases, inputs, grids, group sampling modes and widths","independence of an entry is a statement about all weights, inputs and grids",[K+"kernel.py:GLiftingKernel.forward",K+"kernel.py:GKernel.forward",K+"kernel.py:GSeparableKernel.forward","gconv/gnn/functional/mask.py:create_spherical_mask_R2","gconv/gnn/functional/mask.py:create_spherical_mask_R3"])
p("C100","barycentric interpolation of rotations and the sign of quaternions","interpolate_BCC on quaternions with so3.geodesic_distance (default eps) averages the signal of the three nearest grid rotations with the positive ones of the least-squares coefficients. The distance does not tell q from -q but the coefficients change sign, so the two quaternions of one rotation get answers from complementary coefficients, and NaN where the other answer used all three (defect). At the rotations of the grid itself: the signal when asked with the quaternion of the grid, NaN with the other one. The tolerance eps that should catch this never applies: 1e-6 is below every value of the distance. Multiplying nodes and grid by one unit quaternion, on either side, does not change the answer (this includes -1 for both). With any distance function, a query that has a grid element within eps gets exactly the signal of a nearest one, never NaN. so3.grid_sample ('nearest' and 'rbf') does not depend on the signs of the quaternions in the query or in the grid.","all grids of quaternions of which any three are linearly independent, queries, signals, tie-breaking rules and genuine least-squares solvers","a test would have to try both quaternions of every rotation; the claim is about all grids and queries",["gconv/geometry/interpolation.py:interpolate_BCC","gconv/geometry/interpolation.py:interpolate_NN","gconv/geometry/interpolation.py:interpolate_RBF",G+"so3.py:geodesic_distance",G+"so3.py:grid_sample"])
p("C101","E(n) layers on rotations are SE(n) layers","Called on grids of rotations (coefficient 1), with a positive drawn sign, an E(2) or E(3) lifting layer answers exactly like the SE(2) (mask=True) or SE(3) layer made with the same arguments and given the same weight: same features, same errors, and the same grid. A full or separable E(n) group layer, whatever its reflections and their weights are, gives, whenever it answers, the features of the SE(n) layer whose grid is the rotation half of its kernel grid and whose group weight is the rotation half of its own; so the reflection half of the weights plays no part there. The interpolation widths agree by default in 2D; in 3D the width has to be given, or the mode 'nearest'. The default 2D grids fit together for all numbers of rotations and reflections.","all inputs, weights, grids of rotations, draws, strides, paddings, biases, channel groups, sampling modes, numbers of rotations and reflections","an identity between two families of classes for all weights, inputs and grids; the tests treat the classes separately",[M+"gconv_en/gconv_e2.py",M+"gconv_en/gconv_e3.py",M+"gconv_sen/gconv_se2.py",M+"gconv_sen/gconv_se3.py",K+"kernel_en/kernel_e2.py",K+"kernel_en/kernel_e3.py",G+"o2.py:grid_sample",G+"o3.py:grid_sample"])
p("C102","E(n) lifting layers are signed SE(n) layers, and E(2) does not see mirror images (defect)","Without the random turn, every feature of an E(2) lifting layer at a group element (its bias subtracted) is the coefficient of the element, 1 or -1, times that of the SE(2) layer with the same weight at a turn of the plane: by the angle of the element, and by half a turn more for the coefficient -1. The reflections of E(2) thus add no responses to mirror images (a point reflection of the plane is a half turn). Defect: for the default grid there are a kernel and an image such that one feature of the mirror image is larger than the absolute value of all features of the image, so no exchange of group elements relates the two, with or without signs, and the features pooled over the group by maximum differ (4 and 5). With sampling_mode 'bilinear' (every padding mode) the features of E(2) and E(3) lifting layers at an element of coefficient -1 are minus those of the SE(n) layer at its rotation with the weight flipped along all axes of its window (torch.flip); those of E(3) at an element of coefficient 1 are those of the SE(3) layer with the same weight. Both layers raise alike.","all inputs, weights, grids, strides, paddings, dilations, biases, channel groups, masks, sampling modes (inversion: bilinear), mask=True for E(2)","all of them; tests compare single shapes",[M+"gconv_en/gconv_e2.py",M+"gconv_en/gconv_e3.py",K+"kernel_en/kernel_e2.py",K+"kernel_en/kernel_e3.py","gconv/geometry/groups/o2.py","gconv/geometry/groups/o3.py"])
p("C103","average pooling after an E(n) lifting layer (defect)","On the default grid of an E(2) lifting layer with 2m rotations and 2m reflections, in every state of the draws, the features come in pairs of opposite sign (the bias subtracted): each group element has a partner whose feature is minus its own in every channel and pixel. Hence average pooling over the group returns the bias, and global average pooling too, for every image and every weight: all information is lost (defect). Maximum pooling over the group returns the largest absolute value, plus the bias. An E(3) lifting layer on default grids of n rotations and n reflections (2 <= n <= 24, in every state of the grid cache), with sampling_mode 'bilinear' and every padding mode: average pooling over the group or globally depends on the odd part w(x) - w(-x) of the weights only; with weights symmetric about the centre of their windows the group average is the bias.","all images, weights, numbers of rotations and reflections, draws, strides, paddings, dilations, biases, channel groups, masks, sampling modes (E(3): bilinear), cache states","all images and all weights; the repository's tests do not pool",[M+"gconv_en/gconv_e2.py",M+"gconv_en/gconv_e3.py",K+"kernel_en/kernel_e2.py",K+"kernel_en/kernel_e3.py",M+"pooling.py:GAvgGroupPool",M+"pooling.py:GAvgGlobalPool",G+"o2.py:uniform_grid",G+"o3.py:uniform_grid"])
p("C104","so3.uniform_grid called from several threads","Whatever the schedule (dictionary accesses atomic, as in CPython; everything between two accesses to the cache can be interleaved): every call returns or raises after a bounded number of steps of its own; tabulated sizes (up to 24) get the table; a call raises exactly what it would raise alone, and otherwise returns what it would return alone or the Euler angles of another, caching call for the same size and parameterization (always, if it begins after such a call has returned); what was returned never changes. A cache entry is the table or the Euler angles of a caching call for its key, is never removed, and stays the same as long as no call for its key is between finding nothing and writing. Defect: two calls with cache_grid=True can both find nothing; then both return their own quaternions, which happens in no order of calls one after the other, and the second overwrites the grid saved by the first although overwrite=False, so that later callers get different grids. Calls that are not interrupted behave as in one thread (C27).","all sets of calls, all schedules, all draws, sizes and parameterizations","a race shows in few schedules; no test calls from two threads",[G+"so3.py:uniform_grid",G+"_grid_cache.py:save_grid",G+"_grid_cache.py:load_grid"])

p("C105","repulse interrupted at any point, and in every gradient mode (defects)","repulse succeeds exactly on floating point tensors with a learning rate >= 0, gradients enabled (unless steps=0), and a leaf (in_place) or a tensor that requires no gradient (not in place); otherwise it raises RuntimeError, or ValueError for the rate. The result is the last iterate of the documented update, whatever gradient was stored before; it shares its storage with the argument exactly if in_place, and requires no gradient. Interrupted at any point (Ctrl-C, an exception of the metric), it has changed no tensor if not in_place; if in_place only the argument, which holds the iterate after some whole number of epochs. Defects: an interrupted or refused in-place call leaves the caller's tensor requiring a gradient, and from then on repulse not in place raises on it (in place it resumes); a completed in-place call switches requires_grad off, even of a parameter, and leaves a gradient behind. so3.uniform_grid and s2.uniform_grid_s2 behave as in C27/C33 while gradients are recorded; under torch.no_grad(), whatever such calls came before, tabulated grids are still served, but every grid that must be optimised (more than 24 rotations, 'euler' of any size, every s2 grid) raises RuntimeError","all argument tensors and memories with aliases, all arguments, gradient functions and noise, every interruption point, both gradient modes, all histories of calls under no_grad","Interruptions come at every instruction; a test interrupts at a few; the leak shows only in a later, unrelated call.",["gconv/geometry/repulsion.py:repulse","gconv/geometry/groups/so3.py:uniform_grid","gconv/geometry/groups/s2.py:uniform_grid_s2"])

p("C106","leaving out metric_fn or dist_fn (defects)","metric_fn of repulse has a default, the difference of the elements. With it, every grid of at least two elements has infinite mean energy from the start, and the repulsion destroys it: after the first epoch every coordinate of every element but the first is NaN, after the second every coordinate (any numbers, dimension, normalization constant > 0, learning rate, noise), because the difference has an entry per coordinate, so dropping the first column removes grid element 0 instead of each element's distance to itself. interpolate_NN and interpolate_BCC have a default dist_fn too: without the argument every call raises TypeError; with it none does","all finite grids, sizes, dimensions, rates, noise, numbers of epochs; all nodes, grids and signals","A test passes the arguments; NaN arises only through the interplay of the sort, the slice and the derivative of a power at 0, on every grid.",["gconv/geometry/repulsion.py:repulse","gconv/geometry/interpolation.py:interpolate_NN","gconv/geometry/interpolation.py:interpolate_BCC"])

p("C107","how uniform the random group elements are","so2.random_grid(n) returns every list of n of the N angles 2 pi k/N (N values of torch.rand, 2^24 in single precision) for exactly one of the N^n draws, so its law does not change when all rows are turned by a step, from either side, or inverted. The n rows of o2.random_grid(n) and o3.random_grid(n) are independent, coefficient and rotation are independent of each other, and the rotation part is as uniform as in SO(2) and SO(3). Defect: (N-1)/2 (rounded down) of the N draws of the coefficient give 1 and the others -1, so the mean determinant is -2/N (N even) and not 0, and multiplying by any element of determinant -1 changes the law: no 'uniform' sample of O(2) or O(3). On the plane an O(2) element acts as a uniform random rotation and never as a reflection (N even). so3.random_quat, random_matrix and s2.random_s2: every multiplication (left or right; inversion; orthogonal matrix) that leaves the law of the normal draws unchanged leaves the law of the n results unchanged.","all numbers of rows, all N, all steps, all laws of normal draws, all quaternions and matrices","a statement about the distribution over all draws; an excess of 2 draws in 2^24 shows in no sample",[G+"so2.py:random_grid",G+"o2.py:random_grid",G+"so3.py:random_quat",G+"so3.py:random_matrix",G+"o3.py:random_grid",G+"s2.py:random_s2"])

p("C108","angles of SO(2) and O(2) in single precision (defects)","On float32 angles (sums up to 1000) the product of two elements is the float nearest to the exact remainder of the rounded sum modulo tau, the float32 of 2 pi, which is above 2 pi by less than 1/4000000. Products are finite and lie in [0, tau]; exactly those of negative sums whose remainder is within 2^-22 of tau are tau itself. Defect: the product of 0 with any angle in (-2^-22, 0) is tau, outside the documented [0, 2 pi), and multiplying by 0 again gives 0. The product is commutative on all floats, 0 is neutral on [0, tau), an element times its inverse is 0, the inverse is an involution; it is not associative: two bracketings of three angles give an angle next to 2 pi and 0 (defect). A product of any number of angles of [0, tau] is, up to full turns, within 2^-19 per factor of the exact sum. In O(2) the coefficients multiply without error, inverses are exact, products commute, and a random row has coefficient 1 exactly if its draw exceeds 1/2, else -1. so2.random_grid stays in [0, 2 pi), within 2^-20 of 2 pi u, nondecreasing in u.","all float32 angles, products of any length, all float32 draws in [0,1)","all floats; the failures need sums within 2^-22 of a full turn, which random tests do not draw",[G+"so2.py:left_apply_angle",G+"so2.py:left_apply_to_angle",G+"so2.py:inverse_angle",G+"so2.py:random_grid",G+"o2.py:left_apply_angle",G+"o2.py:left_apply_to_angle",G+"o2.py:inverse",G+"o2.py:random_grid"])
