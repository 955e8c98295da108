# SynthPix formal model: design

The model is written in Rocq/Coq 8.16.1 under `rocq/theories`.  It is a
function-by-function transcription of the Python source in `/repo` (read as
text; nothing is executed) into total Gallina functions and, for threads,
labelled transition systems.  Properties are in `properties.jsonl`; the map
from properties to theorems is `MANIFEST.json`.

## Layout

* `Model/*.v`      executable definitions, each citing the lines it models
* `Spec/*.v`       small specifications that do not use the model's helpers
* `Proofs/*.v`     lemmas
* `Properties/*.v` the property theorems `Cnn_...` (some with a short proof that
  assembles lemmas), each followed by `Print Assumptions`, with `Example`s
  showing that hypotheses are satisfiable

## Modelling conventions

* Python exceptions are values (`Err e`), loops that need not terminate are
  fuelled with an explicit out-of-fuel value; theorems about termination give
  the fuel, theorems about divergence hold for every fuel.
* Real-valued code (JAX/NumPy floats) is modelled over exact rationals `Q`.
  The exponential and the square root of the image generator are parameters
  `ex`, `sq : Q -> Q`; theorems name the laws they need (`respects`,
  `exp_like`, `sqrt_like`) as hypotheses.  The Gaussian kernel is written once
  over a record of operations and instantiated with `Q` and with Coq's `R` and
  real `exp`.  The constructor geometry of the synthetic sampler is written
  once over a record of numeric operations and instantiated with `Q` and with
  IEEE binary64 (Flocq).  The clipping bound of the particle patches also has a
  binary32 version.  Bilinear interpolation is written once over a record of
  operations and instantiated with `Q` (equal to the definition used elsewhere),
  with binary32, and with reals where each operation has its own rounding.
  The whole image generator (sampling and moving of the particles, drawing,
  noise, mask, histogram matching) and the flow field adapter also have versions
  in binary32 and, for the arithmetic done by Python, binary64 (`Model/*Float.v`).
  There the exponential is any function within a relative `eps` of the exact
  one, and what the compiler may choose is left open: the order of additions to
  a pixel, products fused with sums, division as product with the reciprocal.
  Unit draws and `jnp.linspace` follow JAX's definitions, which are not part of
  the repository.
  Other float32 rounding inside JAX is not modelled.
* JAX gather clamps indices after wrapping negative ones, scatter drops
  out-of-range updates; both are modelled, and in-range-ness is proved
  separately where claimed.
* The PRNG.  Schedulers: an abstract record (permutation, choice) with the
  property its documentation gives (a permutation is a permutation, a choice is
  in range).  Samplers and generator: keys are symbolic terms (`Seed`, `Child`),
  draws are arbitrary functions of key, array size and index (`generator`),
  unit draws in [0,1) (`lawful`).  Distribution of the draws is not modelled.
* Files: a directory tree is a finite map; loading a path yields an array or an
  exception.  Contents of files do not change during an execution.
* Threads: interleaving semantics, one atomic step per queue/event/attribute
  operation (CPython's GIL, `queue.Queue` and `threading.Event` are trusted to
  be linearizable); timeouts fire nondeterministically.
* When a natural property is false of the code, the property is stated with
  the exact condition under which it holds (theorem) and the failure without it
  is proved by a witness (theorem named `..._refuted`).

## Trusted base

Coq's kernel (`coqchk` re-checks), and the correspondence between the Python
text and the model definitions.  No axiom of our own is added.
`Print Assumptions` is run after every property theorem and prints "Closed
under the global context" for all of them except:

* `C52_covariance` (reals): `ClassicalDedekindReals.sig_not_dec`,
  `ClassicalDedekindReals.sig_forall_dec`,
  `FunctionalExtensionality.functional_extensionality_dep`;
* `C52_bounds`, `C52_peak`, `C52_ray` (reals), and through Flocq
  `C40_float_crop_refuted`, `C40_power_of_two`, `C69_float_division`,
  `C108_mat_configs`, `C108_jhtdb` (binary64), `C53_float_refuted`, `C103_*`,
  `C104_float`, `C105_*`, `C110_*`, `C111_*`, `C112_*`, `C113_*`, `C114_*`,
  `C115_*`, `C116_*`, `C117_*`, `C118_*` (binary32 and binary64): the same three and `Classical_Prop.classic`.

All four are axioms of Coq's standard library (Coq.Reals and Coq.Logic).

## Plan per property

| id | model | proof |
|----|-------|-------|
| C01 | base scheduler state machine (`_get_next`, `get_batch`) over abstract loader/slicer | refinement to a list stream by an invariant "remaining epoch" |
| C02 | same | invariant of exhausted states |
| C03 | `get_batch` collection, mask and padding | induction on batch size |
| C04 | same, rows as slices | list lemmas over the collected prefix |
| C05 | same with loop | periodic stream refinement |
| C06 | abstract PRNG with permutation law | invariant over call histories |
| C07 | `reset` | state equality |
| C08 | epoch specification | induction on list, via C01 refinement |
| C09 | fuelled `_get_next` | fuel bound from list length; divergence by induction on fuel |
| C10 | epoch specification with collapsing | refinement without the distinctness hypothesis |
| C11 | slicer that raises | invariant of wedged states |
| C12 | HDF5 loader over shaped arrays | induction on the slice index |
| C13 | MAT loader over shaped arrays | case analysis on shapes |
| C14 | NumPy loader with RGB images, padding by 3-axis pad | case analysis |
| C15 | constructors over a file-system model | induction on the input list |
| C16 | `_calculate_starts` | list comprehension characterisation, NoDup |
| C17 | episodic wrapper | invariant on the step counter over histories |
| C18 | episodic over base | interleaving arithmetic plus C01 refinement; witness by computation |
| C19 | same with shuffle | witness permutation; Permutation lemma |
| C20 | `discover_leaf_dirs` with explicit set order | function extensional argument; witness |
| C21-C29 | prefetcher as a labelled transition system | inductive invariants over all executions; witnesses as explicit label sequences parametric in the buffer size |
| C30 | two-caller start race | invariant; witness |
| C31 | sampler base over abstract episodic scheduler | invariant |
| C32, C33, C36, C37 | synthetic sampler control state | invariant on counters, coinduction-free prefix statements |
| C34, C35 | index arithmetic of vmap/shard_map/tile | modular arithmetic |
| C38 | split tree paths | injectivity of path assignment |
| C39, C41-C43 | constructor geometry over Q | linear arithmetic, floor/ceil lemmas |
| C40 | constructor geometry over binary64 | computation on the witness; power-of-two family proved by scaling |
| C44 | adapter + particle flow for uniform flows | algebra over Q |
| C45, C46 | interpolation over Q | convexity algebra |
| C47 | adapter over Q | uses C45 |
| C48, C49 | splatting and gather warp over Q | finite sums |
| C50 | array generation versus callable | pointwise; witness |
| C51 | particle update | uses C45 |
| C52 | kernel over R | exp monotonicity, positive definiteness |
| C53, C54 | patch drawing | floor/clip arithmetic |
| C55, C56 | noise, clip, crop, mask, histogram pipeline | interval reasoning |
| C57, C58 | histogram matching | cumulative sums and searchsorted |
| C59, C60 | parameter sampling pipeline | clip lemmas, floor monotonicity |
| C61, C62 | Python values, validation function | decision-procedure correctness, both directions |
| C63-C65 | `make` over configuration dictionaries | case analysis, composition with scheduler models |
| C66 | speed scan | fold invariants |
| C67, C68 | dictionary merge, sequence of writes with crash points | list lemmas; witness |
| C69 | split arithmetic | take/skip lemmas |
| C70-C77 | found while modelling: warping, key use, geometry limits | as the modules they belong to |
| C78 | generator with arbitrary draws | amplitudes vanish, image sums |
| C79 | generator, uniform flow | translation of every patch, integer shift of the kernel argument |
| C80 | generator, zero flow | pointwise equality through noise, mask and histogram |
| C81 | `make` | inversion of the constructor |
| C82 | keys of base and episodic schedulers | invariant on the current key |
| C85-C88 | dataset preparation: names, distribution, .flo bytes, resizing | string lemmas, NoDup and Permutation arguments, composition with the MAT loader |
| C89 | conversion of record files | last-writer lemmas over names |
| C90, C91 | all layers from files to batches | composition of C03-C08, C30, C65 lemmas; invariant of the prefetcher between calls |
| C92 | all layers, in episodes | the episodic scheduler satisfies the interface assumed in C31; C18 for the contents |
| C93 | constructor of the synthetic sampler with adapter and generator filled in | extensional dependence on keys, C38 |
| C94 | the same, uniform flow | composition of C44, C79, C90 |
| C95 | configuration entries to constructor arguments, entry by entry | both readings of an entry agree; composition with C63 |
| C96 | all layers from the configuration to the images, all four stacks | composition of C90, C92, C94, C95 |
| C97 | the whole constructor and `from_config` | every check in turn decides one condition (`verdict`); the conjunction is the separate record `fits` |
| C98 | real-image sampler: constructor, consumer calls, all layers from the configuration | induction over wrappers; the interfaces of C90 and C92 with images carried along |
| C99 | batches after `shutdown` | potential: queued batches plus what the thread still owes, under a set stop event; calls of the samplers as executions; frame of the wrapped scheduler for `reset` |
| C100 | debug mode | the two argument checks decided from the geometry facts of C39; one-device sampler equal state by state |
| C101 | assigning `file_list` | place of the last slice read off the state after a delivery; then the pending-slices invariant of C01 and the passes of C05 |
| C102 | assigning `file_list` under a prefetcher | conservation of batches from any state; the loop of `_get_next` with one list per read |
| C103 | `bilinear_interpolate` over a record of operations, in binary32 and with a rounding per operation | forward error analysis ("k roundings of a number of size S"), weights exact by Sterbenz; binary32 results related to rounded reals operation by operation |
| C104 | `bilinear_interpolate` | one axis: telescoping over the cells between two points; both axes by transposition |
| C105 | `match_histogram` in binary32, sums bracketed in any way | counts and their sums are exact up to 2^24; quotients of different counts by one total are more than an ulp apart, so rounding keeps their order |
| C106 | `src/main.py` after `make` | trace of effects; induction over the loop with every way to end; names by cutting at the first non-digit; composed with C90, C92 and C98 |
| C107 | prefetching stacks under two timings | bisimulation: two background threads on the same deterministic way, one ahead of the other; taking from the queue commutes with the way; lifted through both samplers and the program; witnesses for reset |
| C108 | `make` in any arithmetic; the configurations in config/ and docs/ | verdict of each check of the constructor (accept or ValueError), generic in the number record; the binary64 geometry of closed configurations by computation, the shape of the stored fields (JHTDB) by the lemma that it enters only through the padding |
| C109 | `generate_images_from_flow` as a whole | the spec (Spec/PairSpec.v) describes a scene: a list of particle pairs tied to named draws, a pixel formula; the proof exhibits the first floor(area * density) particles (the others are dark) and a key schedule without repetitions |
| C110 | `img_gen_from_data` in binary32 (Model/DrawFloat.v) | a drawn image is a relation: at each pixel some bracketing of some permutation of the updates; error bound by induction on the sum tree (additions of floats have no underflow error, additions of zero none at all); clipping of centres and patch origins computed exactly |
| C111 | `gaussian_2d_correlated` in binary32 against the real Gaussian | rounding analysis in two layers: relative errors of each rounded operation on real numbers (Proofs/KernelError.v), then ranges that keep every intermediate result clear of underflow and overflow (Proofs/KernelFloatProofs.v); exp is 1-Lipschitz on non-positive numbers; sums with C110. The exponential of the library is a parameter with a stated error |
| C112 | scaling, moving and unscaling of positions in binary32 (Model/MoveFloat.v) | error propagation on real numbers normalised to pixels (`move_error`), the interpolation bound of C103, ranges clear of overflow; exactness for powers of two; the counterexample combines a computed position with the image bound of C111 |
| C113 | sampling of particles in binary32 (Model/SampleFloat.v) | a product with a unit draw below one stays under the exact width although the width is rounded up (one ulp against 2^-23 of it); monotone rounding between floats; clipping of anything that is not NaN; floors commute with rounding up to one; composed with C111 and C112 |
| C114 | the generator in binary32 (Model/FinishFloat.v) | rounding errors of the noise added up linearly; clipping is 1-Lipschitz and turns anything but NaN into a level; a mask of zeros and ones multiplies exactly; histogram by C105; composed with C111, C112, C113; existence by summing left to right |
| C115 | the adapter in binary64 and binary32 (Model/AdaptFloat.v) | absolute errors of the grid ends in units of 2^-53 times the farthest coordinate, of the grid in units of 2^-24 times it; interpolation by the error of C103 and the slopes of C104; sizes by comparing floors of nearby numbers; the refutation evaluates the constructor, the adapter and the movement of a particle in floats |
| C116 | the adapter feeding the generator, in floats (Model/SceneFloat.v) | composition of C114 and C115: the position of a particle in grid steps by the slopes of the flow, its move by the error of C112 and of the narrowed arguments, the factor by comparing the number of grid steps with the size of the particle flow |
| C117 | the constructor in binary64 (Model/Geometry.v with `float64`) feeding the batch of C116 | inversion of the constructor, one error bound per float operation of an axis, truncation and rounding up as inequalities over R |
| C118 | apply.py:11-112 in binary32 (Model/WarpFloat.v), fused or not | invariant over the fold of the deposits: each adds a bounded error to a bounded sum; Lipschitz bounds of C104 for the backward warp |
| C119 | constructor, adapter and motion of the particles in exact arithmetic, non-uniform flows | both fields are interpolated from the same padded field: distance of the two places read in grid steps, Lipschitz bound of C104; bilinear interpolation of bilinear samples on a matching grid; affine flows are reproduced exactly |
| C120 | `len`, `iter` and truth of the schedulers | the file list is permuted at most; counting of the flow fields of C01, C06 and C12; the counter of C17 |
| C121 | two samplers with the same calls | relation between the runs: equal states, answers equal but for the images, pixelwise relations of the finishing steps |
| C122 | trees of HDF5 files, variables of older .mat files, the dictionaries load_file makes of them (Model/MatFile.v) | induction on trees; names without slashes make paths injective |
| C123 | what can happen after the last reference of the user is gone: worker steps, then `__del__` (Model/Abandon.v) | accessibility of the step relation; count of stored, held and coming batches as invariant |
| C124 | the argument checks with their type tests, on any Python value or jax array (Model/Checks.v) | case analysis: each check decides a specification; agreement with the untyped checks on embedded values |
| C125 | the constructors and from_config methods of the schedulers on any Python value (Model/Construct.v) | case analysis against an independent description of names, paths and directories (Spec/ConstructSpec.v); induction on decimal numbers and on the file list |
| C126 | get_batch of the three schedulers on any Python value (Model/BatchSize.v) | case analysis; simulation of runs with and without the refused calls |
| C127 | get_batch called by any number of threads, unlocked accesses one by one (Model/Readers.v) | inductive invariants over executions |
| C128 | shutdown called by another thread while any number of threads are in get_batch (Model/Stopper.v) | inductive invariants over executions |
| C129 | reset called by another thread while any number of threads are in get_batch, assignment by assignment (Model/Resetter.v) | inductive invariants over executions; witnesses |
| C130 | next_episode called by another thread while any number of threads are in get_batch, access by access (Model/Skipper.v) | inductive invariants over executions; witness |
| C131 | trilinear_interpolate in binary32, each operation rounded (Model/TriFloat.v) | Flocq: exactness of floor, absolute error of the weights and of the running sum; 0/1 weights at voxels |
| C132 | `_update_position_3d` in binary32, each operation rounded (Model/Move3Float.v) | C131 and the rounding errors of two products and a sum; zero terms stay exact |
| C83, C84 | dialogue as a function of file text and answers | case analysis, the rewriting theorem of C67 |

## What is modelled

| source file | modelled | in | left out |
|-------------|----------|----|----------|
| scheduler/base.py | all | Base.v, Files.v, Construct.v, BatchSize.v, Make.v, Length.v | |
| scheduler/hdf5.py, numpy.py, mat.py | constructors, loading, slicing, shapes, `from_config` | Files.v, Loaders.v, Make.v | contents of the file formats, resampling values |
| scheduler/episodic.py | all | Episodic.v, BatchSize.v, Reassign.v, Length.v | |
| scheduler/prefetch.py | all | Prefetch.v, StartRace.v, Stack.v, BatchSize.v, Reassign.v, Abandon.v | wall-clock lengths of timeouts; a list assigned during a shuffling reset |
| scheduler/protocol.py | which classes are instances of which protocol | Sampler.v, Stack.v | |
| sampler/base.py, real.py | all | Sampler.v, Real.v, Shutdown.v | |
| sampler/synthetic.py | constructor checks and geometry, `from_config`, batch loop | Make.v, Geometry.v, Sampler.v, Synthetic.v, Configured.v, Debug.v | mesh construction, jit, logging |
| make.py | all | Make.v, Stack.v, Keys.v | |
| types.py | all | Types.v | |
| data_generate.py | all | DataGen.v (exact), MoveFloat.v, SampleFloat.v and FinishFloat.v (binary32), Keys.v, Debug.v, Checks.v | |
| generate.py | all | Render.v (exact), DrawFloat.v and FinishFloat.v (binary32) | |
| apply.py | all | Apply.v (exact), MoveFloat.v and Move3Float.v (two- and three-dimensional positions in binary32), WarpFloat.v (images in binary32), Checks.v | |
| sanity.py | all | Sanity.v | conversion of NumPy values in `update_config_file`, argument parsing |
| scripts/download_piv_1.py, scripts/utils.py | `fetch_splits`, `read_flow`, `resize_flow`, `pack_triplet`, `convert`, `load_split_file`, `perform_split`, `read_list`, `write_list`, ratio check | Scripts.v | downloads, unzipping, image reading, .flo files of negative size, non-ASCII text |
| scripts/download_piv_2.py | `process_tfrecord`, loop of `main` | Records.v | download, unzipping, record framing, protobuf parsing (success or failure only), errors when writing |
| utils.py | all | Interp.v, InterpFloat.v, TriFloat.v, AdaptFloat.v, Hist.v, HistFloat.v, Episodic.v, Debug.v, Checks.v | |
| config/*.yaml, docs/examples, docs/tutorials.md | the configurations, as dictionaries | Shipped.v | the YAML reader (numbers are read as the decimal fractions written, then rounded to binary64) |
| src/main.py | `main` and `visualize_and_save` as a sequence of effects | Main.v | what matplotlib draws, the log, the argument parser (`--devices` is parsed and never used) |

The YAML reader is a parameter; theorems about rewritten configurations assume
that it agrees, on the texts written, with `yaml_read` (`Spec/SanitySpec.v`), a
reader for lines `key: scalar`, `key:` and `  - scalar` over an arbitrary scalar
reader.

Python values in configurations (`Model/PyVal.v`): None, bool, int, float, str,
list, tuple and dict with string keys; bool is an int; a finite float is a
rational, NaN and the infinities are values of their own.  The outside world of
`make` is one record (`world` in `Model/Make.v`): file system, readers, random
generator, number of devices, float arithmetic.  Simplifications in `make`: the
text that `str()` gives for a non-string is left out (it is never equal to
anything it is compared with); where several checks raise ValueError their order
is not kept; `int(inf)` raises ValueError instead of OverflowError; a NaN
resolution is rejected earlier than in Python, with the same exception; a list of
devices with repetitions is accepted.

A prefetching scheduler under a sampler (`Model/Stack.v`) carries a timing: what
the background thread does before and during each action of the consumer.
`Proofs/StackProofs.v` proves that every timing is an execution of the transition
system in `Model/Prefetch.v`.  Theorems quantify over timings; `prompt` timings
are those in which the thread keeps up and no deadline expires.

## Not modelled

JAX compilation, device placement, dtype conversion and float32 rounding
(except where stated), logging, plotting/visualisation scripts, network
download, PIL/matplotlib resampling values (only the shape of a resized array
is modelled), the exit of the interpreter, process signals.
