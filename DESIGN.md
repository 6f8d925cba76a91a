# Formal model of ThijsKuipers1995/gconv in Rocq (Coq 8.16.1)

## 1. What is modelled, and how

**Numbers.** torch float tensors are modelled over the classical real numbers of the Coq standard library (`Reals`). Rounding, overflow, NaN
and infinities are **not** modelled, except in `Float32.v` (C93); wherever the float behaviour departs qualitatively from the real one (division by a zero width, acos
outside [-1,1], 1-1e-12 rounding to 1 in float32) the theorem carries an explicit guard or the text says so. Exceptions are values:
`result A := Ok a | Err e`, `e` naming the Python exception class.

**Tensors** (`Tensor.v`). A tensor is a shape (`list nat`) and its row-major list of entries; `at_ t idx` reads an entry, `has_shape t s` says the
shape is `s` and the data has that many entries. `view/reshape/flatten/transpose/repeat/repeat_interleave` and right-aligned broadcasting are
defined on shapes of any rank by row-major ravel/unravel, as torch specifies. Contiguity (`view` on a strided tensor) is modelled in `Strides.v` only (C95: the views of inputs and of results of the layers; not the views inside the kernels); aliasing is not
modelled except in the grid-cache model. Group elements and spatial vectors are packed into the entry type (`tensor E`): the trailing `(1)`,
`(2)`, `(3,3)`, `(10)` axes of group grids are one entry.

**torch primitives** are in the model as *definitions* (linspace, clamp, argmax, sort, topk, where, argsort, convN, pad, grid_sample with all its modes and padding modes,
meshgrid, max/avg pooling and their adaptive versions, batch/instance/layer norm, ...) or as *parameters* quantified universally in the
theorems (linalg.solve: any function returning a solution whenever it returns; lstsq: any function; argsort tie-breaking; random draws; autograd
gradients; the error function in GELU; the spatial sampler in the kernel formulas). The record `torch_env` holds the parameters, `torch_ok` the
assumptions about them; `InterpExample.v` exhibits an environment meeting them.

| file | models |
|---|---|
| `Prelude.v`, `RMath.v` | results, Python `%`, clamp, linspace, acos/atan2 facts |
| `Tensor.v` | tensor operations |
| `Mat.v` | 2x2/3x3 matrices, vectors, quaternions: *specification*-side linear algebra |
| `SO2.v` `O2.v` `SO3.v` `O3.v` `S2.v`, `OSplit.v` | `gconv/geometry/groups/*.py` (`OSplit.v`: the common part of `o2/o3.grid_sample`) |
| `Interp.v` | `gconv/geometry/interpolation.py` |
| `GridTables.v`, `GridCache.v` | the grid tables, and `so3.uniform_grid` + `_grid_cache.py` as a state machine with a heap |
| `Repulse.v` | `gconv/geometry/repulsion.py` |
| `AutogradRun.v` | the same with torch's gradient flags, gradient modes, exceptions and interruption points; `so3.uniform_grid`, `s2.uniform_grid_s2` on top of it |
| `RandElem.v` | batched `so3.random_quat`, `random_matrix`, `o3.random_grid`, `s2.random_s2` |
| `Angle32.v` | `so2.left_apply_angle`, `left_apply_to_angle`, `inverse_angle`, `random_grid` and `o2.left_apply_angle`, `left_apply_to_angle`, `inverse`, `random_grid` (one entry or pair) on float32 tensors; fmodf and torch.remainder |
| `Threads.v` | `so3.uniform_grid` + `_grid_cache.py` cut into the steps between which threads interleave |
| `Functional.v` | `gconv/gnn/functional/*.py` and torch `grid_sample` |
| `Kernel.v` | `gconv/gnn/kernels/kernel.py` and the constructors of `kernel_en`, `kernel_sen` |
| `Conv.v` | torch convN/pad and `gconv/gnn/modules/gconv.py` |
| `Layers.v` | pooling, normalization, activations, wrappers |
| `NormHistory.v` | a normalization module as an object over time: construction, modes, updates, calls, raising calls |
| `Public.v` | constructors and forwards of the classes in `gconv_sen`, `gconv_en` |
| `Repr.v` | `extra_repr` of layers and kernels; values inside the sampling dictionaries as already printed text |
| `Network.v` | modules called one after the other, as in README.md |
| `Checkpoint.v` | the SE(3) layers as objects on a heap: registered buffers and parameters, `state_dict`, `load_state_dict`, histories |
| `Tutorial.v` | gconv_tutorial.ipynb cells 5-24: the hand-written group operations, grids, kernels and modules |
| `Resample.v` | gconv/tests/test_equivariance.py: moving images with the package's grids and actions |
| `Placement.v` | a second, coarse reading of grids, kernels and layers: the device and dtype of every tensor (the value model has neither; half precision and integer images are left out) |
| `BatchShape.v` | the SO(3) conversions on tensors with any number of batch axes: shapes (all), values (two batch axes) |
| `Saving.v` | the SE(2), E(2) and E(3) layers as objects on a heap, as `Checkpoint.v` |
| `Float32.v` | the SO(2)/SO(3) distances, the default SE(2) width and the RBF matrix in IEEE single precision (Flocq's binary32) |
| `Bary.v` | `interpolation.py` `interpolate_BCC` with IEEE division (0/0 = NaN) |
| `RandomSpec.v`, `TrainSpec.v` | laws of the random draws; optimizers and training iterations (not part of the package: arbitrary functions) |
| `RepulseGrad*.v` | the backward passes of the two repulsions |
| `LiveSpec.v` | which window cells a masked kernel reads |
| `CustomSpec.v` | the contract for user-supplied group operations (README.md:36) |
| `*Spec.v`, `NetworkCond.v`, the heads of `KernelFacts.v`, `PublicFacts.v`, `ConvInit.v`, `EquiLayer.v` | small specifications the theorems are stated with (see section 3) |
| `*Facts.v` and the other files | proofs |
| `Prop_*.v` | the property theorems, `Print Assumptions` under each, non-vacuity examples |

**Not modelled:** tqdm output, autograd (except the backward passes of the two repulsions, C96, and the flags of the tensors it works on, C105), TorchScript, plotting in tests, the notebook's plotting cells,
`torch.nn.Module` bookkeeping (except buffers, parameters and state_dict of the layers, in `Checkpoint.v` and `Saving.v`), the *distribution* of random draws (theorems hold for every draw; C98 assumes that float32 torch.rand is uniform on k/2^24, and of normalized torch.randn only the invariance stated in its theorems), and the
`__init__.py` re-exports.  Mutation of tensors is modelled only for `repulse`, the grid cache, `Checkpoint.v` and `Saving.v`.

**Simplifications** are stated in the comment of the definition concerned. The main ones: sizes given to constructors are natural numbers
(`groups` and `group_kernel_size` are integers because the validation compares them with 0); `kernel_size`, `stride`, `dilation` of the
public classes are the single int of their signatures; the lists of draws are arguments; `GELU` takes erf as a parameter. The version of torch assumed is 2.1 or later (unbatched inputs of circular `F.pad`).

## 2. Trusted base

* Coq 8.16.1's kernel (no kernel check switched off, no `vm_compute`-related flags; `vm_compute` is used for finite tables and is part of the kernel).
* Axioms, all from the standard library. `ASSUMPTIONS.md` (generated by `tools/assumptions.py`) lists them theorem by theorem; in total:
  - `ClassicalDedekindReals.sig_not_dec`, `ClassicalDedekindReals.sig_forall_dec`, `FunctionalExtensionality.functional_extensionality_dep`: the standard construction of the reals;
  - `Classical_Prop.classic`: real analysis lemmas (intermediate values, `acos`) and case distinctions;
  - `ClassicalEpsilon.constructive_indefinite_description`: only through `InterpExample.v`, where a solver is chosen for non-vacuity examples and concrete refutations.
  No axiom is declared in this development. Flocq is used (definitions of binary32/64 and lemmas) by the three `Float32` files; it brings no axioms.
* The model: that the definitions cited in their comments say what the Python code and the torch primitives do. torch's documented behaviour is
  taken for the primitives listed above; nothing here was executed.
* For C93: float32 operations round to nearest even, a Python literal is the nearest binary64 number, bounds of `clamp` are converted to float32; cos, sin, acos, exp of the platform are unknown functions with the properties `libm_ok` (ranges, acos 1 = 0, exp NaN = NaN).
* Hypotheses on the environment (`torch_ok`): a solver that returns, returns a solution; sort/argsort return a sorted permutation.

## 3. How the properties are stated

Property theorems are named `Cnn_...`. They are stated with: group and matrix algebra of `Mat.v`; entries `at_` and `has_shape`; and
the following specifications, none of which mentions the model's helpers:
`ConvSpec.v` (what a padded strided dilated convolution reads: `image_at`, `read_pos`, `conv_size`, `fits`), `EquiSpec.v` (`moved2/3`, `carried2/3`:
an image moved by a matrix about its centre), `LayersSpec.v` (`rearranged`, averages and variances of entries), `RegridSpec.v` (`regrid`, `regrouped`: relisted group
elements), `NetworkSpec.v` (`same_up_to`), `ConvInit.v` (`constructed`: what a layer object holds), `PublicFacts.v` (`usable`, `built`, `rigidly_moved`), `EquiLayer.v` (`padded_by`, `covered`).
`NetworkCond.v` collects the conditions of the network theorems (every call is made with suitable shapes; which draws correspond).

Properties whose title says "(defect)" are contracts the code does not meet: the theorems characterise what the code does for all inputs and a
`_refuted` or witness theorem shows the failure of the expected contract.

## 4. Plan and proof per property

| id | model part | theorems in | proof |
|---|---|---|---|
| C01,C02,C06 | SO2 | Prop_SO2 | trig identities, periodicity of `Rmod` |
| C03 | SO2.uniform_grid | Prop_SO2 | `nth` of `linspace`, `Rmod` of `2 pi (i+j)/n` |
| C04 | SO2 distances | Prop_SO2 | cos(a-b), acos of cos on [0,pi] |
| C05 | SO2.nearest_neighbour_distance | Prop_SO2 | minimum of a row containing the global lower bound |
| C07-C09 | O2 | Prop_O2 | field + trig; counterexample to `det` |
| C10,C11 | `split_sample` shared by O2/O3 | Prop_O2, Prop_O3 | argsort of a concatenation of two increasing index lists inverts it |
| C12-C14 | O3/SO3 | Prop_O3, Prop_SO3 | polynomial identities modulo orthogonality |
| C15 | cyclic | Prop_SO3 | C14 + C18 |
| C16 | tables as rationals | Prop_SO3 | finite: `forallb ... = true` by `vm_compute`, lifted with `forallb_forall` |
| C17,C18 | quaternions | Prop_SO3 | polynomial identities; pivot lower bounds from the trace |
| C19,C20 | Euler | Prop_SO3 | trig identities, atan2 polar decomposition |
| C21,C22,C33,C55,C57 | control flow | Prop_SO3, Prop_Grid, Prop_Layers | case analysis over all inputs |
| C23,C24 | so3 metric | Prop_SO3 | quaternion algebra; second element of a sorted list containing the minimum |
| C25,C26 | logs | Prop_SO3 | Rodrigues formula as specification |
| C27 | cache state machine | Prop_Grid | invariant over operation lists + refutations |
| C28-C31 | interpolation | Prop_Interp | matrix algebra over lists with `solve` as any solution; exp bounds |
| C32,C66 | S2 | Prop_Grid | atan2/acos |
| C34,C35 | grids, masks | Prop_Functional | arithmetic of linspace |
| C36-C39 | kernels | Prop_Kernel, Prop_Kernel2 | row-major index arithmetic for all shapes |
| C40 | group ops | Prop_Kernel2 | algebra |
| C41,C42 | constructors | Prop_Kernel2 | unfolding + witnesses |
| C43,C44 | GroupConvNd.__init__ | Prop_Conv | decision procedure iff, `lia` |
| C45-C47 | forwards | Prop_Conv, Prop_Equi2 | index arithmetic + finite sums; witnesses for the defects |
| C48 | translations | Prop_Conv2 | re-indexing of the sums |
| C49-C51 | equivariance of layers | Prop_Equi, Prop_Equi2 | grid symmetries are signed permutations of the axes (`SignedPerm.v`); kernels sampled at g h are the moved kernels (needs a sampler that commutes with them: proved for nearest and bilinear), re-indexing of sums. Kernel size >= 2 (linspace(-1,1,1) = [-1] is not symmetric), same padding on both sides, strides that cover the padded image |
| C52 | networks | Prop_Network | induction over the modules from C49-C51, C54, C56, C57, C70 |
| C53 | permute_output_grid | Prop_Public | group laws |
| C54,C56 | pooling/norm | Prop_Layers | finite sums invariant under permutation |
| C58,C67 | repulse | Prop_Grid | heap model, induction over steps; sums over ordered pairs |
| C59 | grid_sample nearest/bilinear | Prop_Kernel2 | rounding of i*s/(s-1)-1/2 |
| C60,C68 | reset_parameters | Prop_Conv2 | shape arithmetic |
| C61 | o3.uniform_grid | Prop_Grid | case analysis |
| C62,C64 | so3 sampling | Prop_SO3 | isometry invariance of C28/C29 |
| C63 | random elements | Prop_SO3, Prop_Sampling | normalized quaternions are unit; explicit preimages of every element; intervals of draws |
| C65 | grid tables | Prop_Grid | interval bounds on rational tables by `vm_compute` |
| C69 | constructors of the public classes | Prop_Public | C43 + kernel constructors |
| C70 | order of group elements | Prop_Regrid | the sampled weights depend on the pair of elements only; re-indexing of sums |
| C71 | sampling on SO(2), O(2), O(3) | Prop_Sampling | exact solve at the nodes; argmin of the clamped arc, clamp loses < 2e-6; split by determinant via C10/C11 |
| C72 | saving, loading, sharing | Checkpoint, Prop_Checkpoint, Prop_Checkpoint2 | heap of tensors, layers hold locations; invariant over all operation sequences (typed slots, private slots disjoint, cache table unchanged); defects: concrete rbf layer, aliasing of the cache |
| C73 | custom group convolutions | CustomSpec, Prop_Custom | contract record for user operations; group axioms give the kernel transport lemma used for C34-C36/C51; instance: the mirrorings of the plane |
| C74 | tutorial notebook | Tutorial, Prop_Tutorial, Prop_TutorialTotal | notebook cells modelled; instance of C73; torch.topk is an argument of the model, any function meeting its documented specification, sums of cosines over uniform grids for the sampler defect |
| C75 | affine layers | LinSpec, LinFacts, Prop_Linear | linear functionals closed under sums, scaling and padded reads; kernel shapes from success alone; C45, C46 and the two-stage form of the separable layer |
| C76 | resampling windows | SampleRn, ReflectFacts, Prop_SampleRn, Prop_Outside | every sampler as a list of (coefficient, cell) independent of the image; mass 1, cells inside after clipping/reflection, coefficients non-negative except bicubic; C36 for the kernels; the reflected coordinate is an even periodic wave |
| C77 | linear in parameters | WeightSpec, WeightFacts, Prop_Weights | every operation between parameter and output (reshape, group and spatial resampling, mask, determinant, convolution, bias) preserves entrywise linear combinations and its success depends on shapes only; rbf via uniqueness of solve |
| C78 | moving images, equivariance test | Resample, ResampleSpec, ResampleFacts, Prop_Resample | cell read by nearest sampling at every grid coordinate (half-even rounding at the border), symmetries permute the cells; then C49, C70, C75. Exact reals: in floating point the border coordinate n - 1/2 may round either way |
| C79 | devices and dtypes | Placement, PlacementFacts, Prop_Placement | every tensor reduced to (device, dtype), the code's operations to torch's placement rules; case analysis per operation, induction over histories of moves and of cached calls; cross-checked against the value model's exceptions |
| C80 | batch shapes of the SO(3) conversions | BatchShape, BatchShapeFacts, Prop_BatchShape | torch's indexing rules on shapes (lists of numbers); induction over the batch shape; entry-level model of the (m, 3) case with the uninitialised tensor as an arbitrary function |
| C81 | inputs with one axis less | NoBatchFacts, Prop_NoBatch | convolution, pooling and instance normalization dispatch on the rank of their input as torch does; reduction to the batch-of-one call, then reshaping arithmetic |
| C82 | images on a torus | CyclicSpec, CyclicFacts, CyclicNet, Prop_Cyclic | positions wrapped modulo the size; reads of a rolled output position are the rolled reads; from the sums of C45/C46; networks by induction over the modules, rolling being a rearrangement (C54, C56); separable layers refuted from C47_two_stages |
| C83 | receptive fields, independent samples | LocalSpec, LocalFacts, Prop_Local | the sums of C45/C46 and the two stages of C47 read only the shown pixels; networks by induction over the modules with the field computed backwards from sizes and windows; box bound by induction over the windows; training-mode batch norm refuted on two one-pixel samples |
| C84 | printed form | Repr, ReprFacts, Prop_Repr | the text is read back from the left: numerals end where no digit follows, tuples at their parenthesis, each optional part starts with its own keyword; public classes by unfolding the constructors |
| C85 | running statistics over histories | NormHistory, NormHistSpec, NormHistFacts, Prop_NormHistory | one event at a time (C56), induction over the history with the list of training calls; closed forms of the recursions; the state after a raising call is torch's order of rank check, counter, size check; histories contain no empty tensors |
| C86 | success depends on shapes only | AcceptSpec, AcceptFacts, Prop_Accept | a relation "alike" between modules (same class, configuration and shapes, other numbers); samplers answer for all signals and queries or for none (linear solves: torch fails or succeeds by the matrix, not the right-hand side: `ok_solve_any`); convolutions by the fits conditions of C45-C47; induction over the network and over the history; E(n) without reflections refuted |
| C87 | a small change of the input stays small | StableSpec, GeluFacts, StableFacts, StableMore, Prop_Stable | sums of absolute sampled weights bound every output difference (formulas of C45-C47); both GELUs by the mean value theorem; gains multiply (induction over the network) and depend on the shape only; existence by finiteness; library bounds from C76 and C37 |
| C88 | inputs of the wrong shape | ShapesFacts, Prop_Shapes | success of the model's convolution forces rank and channel count; `reshape` keeps the memory order, so the forward is a function of the re-read input |
| C89 | nearby group elements give nearby outputs | LipFacts, LipLayer, OctaFacts, Prop_Lipschitz | grid_sample is nested linear interpolation between integers, whose slope is bounded by the range of the values; placement of coordinates (clamp, reflection) is 1-Lipschitz; formulas of C36 and C45; the 24 exact cube rotations by computation over Z and signed permutations (C49) |
| C90 | the default group layers always answer | LinAlg, RbfCert, RbfSound, RbfGrid, RbfHints, RbfRun, RbfSO2, ReadyFacts, Prop_Answer | a matrix with an approximate inverse B (norm of I - BA below 1) is nonsingular with a bounded inverse; for the tables, certificates (integer enclosures of the cosines, of acos, of the width and of exp, and a rounded inverse) with distances and inverses supplied as hints (RbfHints) and checked by a verified function evaluated by the kernel for every size 2..24; for SO(2) the matrix is nearly diagonal |
| C91 | the contract of a call of every public class | SolveSpec, RbfSpec, AnswerSpec, AnswerFacts, ContractFacts, Prop_Answer | constructors (C69), kernel formulas (C36, C37), C45-C47; a sampler that answers for all signals of the right shape makes the kernel, hence the call, succeed; the solver raises for singular matrices only (`solver_complete`, a hypothesis about torch.linalg.solve in exact arithmetic) |
| C92 | what an optimised grid consists of | Repulse, GridCache, S2, Prop_GridStart | the trajectory lemma of repulse (C32) with the rows read back as angles; C20 for the start |
| C93 | single precision: the guard of the SO(2) distance is void (defect) | Float32, Float32Facts, Prop_Float32 | Flocq binary32 arithmetic; the bounds are computed exactly, the order of floats by Bcompare_correct; libm is a record of unknown functions |
| C94 | saving, loading and sharing the SE(2), E(2) and E(3) layers | Saving, SavingSpec, SavingFacts, SavingMade, SavingClaims, Prop_Saving | the heap of C72, generic over the class; invariant of every reachable process (entries typed, own tensors apart), frame lemmas, inversion of the three constructors |
| C95 | memory layouts | Strides, StridesSpec, StridesFacts, StridesLayers, Prop_Layout | tensors as windows with strides on a memory; torch's stride computation for `view` transcribed and proved sound and complete (it accepts a shape exactly if some strides address it: induction over the chunks); splitting an axis is always addressable, merging two exactly if they are one axis; the layers with an arbitrary choice of layouts for results are related to the value-level layers |
| C96 | the repulsion on the sphere and on SO(3) is gradient descent | RepulseGrad, RepulseGradSO3, RepulseGradSpec, RepulseGradFacts, RepulseGradSO3Facts, RepulseGradSO3Step, Prop_Descent, Prop_DescentSO3 | torch's backward rules of mean, power, division, acos, clamp, inner product and spherical_to_euclid transcribed; `is_gradient` is the directional derivative in every direction (`derivable_pt_lim`); chain rule through the guard's three pieces, sums over ordered pairs swapped; descent from the sign of the derivative; two points: the four partial derivatives vanish together only if the points coincide or are antipodal; counterexample for the default step with rough bounds on pi. SO(3): the backward of abs, normalisation, the indexed writes of matrix_to_quat, the threshold mask and the Euler entries; each is shown adjoint to the derivative of the forward curve, branches are locally constant in general position; turns about one axis computed through for the counterexample |
| C97 | training on moved images | TrainSpec, Prop_Train | a training loop as a fold of an arbitrary optimizer over batches, the optimizer seeing the loss as a function of the weights; per batch C52 gives equal pools and equal statistics for all weights, hence equal loss functions; induction over the history |
| C98 | networks that draw their grids at random | RandomSpec, RandomFacts, RandomMean, Prop_Random | a random quantity is the list of its equally likely values, equal in distribution = permutation of these lists; torch.rand with N values k/N; C52_random_* pairs every draw with a draw of the moved call, and the pairing permutes the law; training by an elementwise pairing of the draws of every batch (C97); the mean response by re-listing the uniform grid of N rotations (C70); a concrete 3 x 3 image for the pathwise refutation |
| C99 | which entries of a kernel window matter | LiveSpec, LiveFacts, Prop_Live | linear interpolation reads cells closer than one pixel on every axis (padding modes only move a coordinate inwards); rotations keep the norm, so a masked-in point reads only cells in reach of the ball; for group kernels the interpolation over the group works column by column (uniqueness of the solution of the system); size 3 and signed permutations: a masked-in point has at most one nonzero coordinate; corner sizes by arithmetic; an explicit eighth turn for the converse |
| C100 | barycentric interpolation of rotations and the sign of quaternions | Bary, BarySpec, BaryFacts, BaryExample, Prop_Bary | second model of `interpolate_BCC` with 0/0 = NaN (agreement lemma `ieee_agrees`); the least-squares minimiser is unique (parallelogram law), hence odd in the query and equal to (1,0,0) at a vertex; the distance is at least acos(1-1e-7) > 1e-6; isometries keep distances and residuals; Cramer's rule shows that a least-squares solver exists |
| C101 | E(n) layers on rotations are SE(n) layers | RotOnlySpec, RotOnlyFacts, RotOnlyLayers, Prop_RotOnly | simulation between the kernel records of the two classes: same sampler, mask and moved spatial grid, division by the coefficient 1; `split_sample` on queries with coefficient 1 is the rotation sampler on the first rows; layers and constructors by inversion |
| C102 | E(n) lifting layers are signed SE(n) layers; E(2) and mirror images | SignSpec, SignFacts, SignLayers, Prop_Sign | two layers with entrywise related kernels give entrywise related features (C45); the action of O(2) as a turn; `gs_linear` at -u is `gs_linear` of the flipped window at u (clamping, parity of reflections and corner weights are symmetric); the refutation computes the 8 + 8 features of a 3 x 3 image and its mirror image |
| C103 | averages of the features of E(n) lifting layers | SignAvg, Prop_Average | every feature is a response of its element plus the bias; the response of the E(2) element (-1, a + pi) is minus that of (1, a), and the default grid, moved or not, splits into such pairs; in 3D rotations and reflections use the same tabulated matrices, so the sum over the group is a sum of w(x) - w(-x) |
| C104 | `so3.uniform_grid` in several threads | Threads, ThreadsFacts, Prop_Threads | a small-step model of a call (lookup, optimise, check, store, convert) over the heap of C27; schedules are lists of call numbers; invariants over steps (tables stay, entries come from caching calls that have stored, what each phase knows about its tensor); uninterrupted calls refine the sequential model; the race is an explicit schedule for every n > 24 and all draws |
| C105 | repulse interrupted at any point, in every gradient mode | AutogradRun, AutogradFacts, Prop_Autograd | a small-step model of one call with torch's flags (leaf, requires_grad, grad), the gradient mode and every exception; the exact memory after any number of steps by induction on epochs; the grid constructors call it; histories under no_grad by an invariant on the cache |
| C106 | leaving out metric_fn or dist_fn | Defaults, DefaultsFacts, Prop_Defaults | numbers with infinities and NaN; the difference tensor of shape (N, N, D), the slice, the derivative of d**-2 and both occurrences of the grid transcribed; sums with an infinite summand of one sign |
| C107 | how uniform the random group elements are | RandElem, RandElemFacts, Prop_RandElem | finite laws as lists up to permutation (RandomSpec); cyclic shifts permute the values of torch.rand, counting the draws above 1/2, means over independent rows; SO(3), S2: invariance of the law of the normal draws carried over |
| C108 | angles of SO(2), O(2) in single precision | Angle32, Angle32Facts, Prop_Angle32 | Flocq binary32; fmod is computed on integers and exact; ATen's remainder adds the divisor to negative remainders, one rounding; the rounding next to tau is analysed in the binade [4, 8); PI enclosed by Machin's formula; induction over the factors |

Every property of the list is expressed in the model; none is declared not applicable.
`seeded/LOG.jsonl` records the edits ("mutants") of the model against which the theorems were tested.
