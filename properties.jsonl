{"id": "C01", "title": "A finite scheduler delivers every readable slice once, in order", "statement": "With loop=False, on a scheduler whose neighbouring file-list entries are distinct and whose slices extract without error and share one shape (flows with three axes, images with two), the valid (mask=True) rows of successive get_batch calls, concatenated, are exactly the slices of the readable files in file-list order, each exactly once and nothing else, whatever positive batch sizes are requested; only after all of them have been delivered does get_batch raise StopIteration.", "quantifier": "every file list, every assignment of contents (readable or not, any number of slices) to paths, every sequence of positive batch sizes", "why_tests_cant": "Tests fix one or two files and one batch size; the cursor/cache/slice-index interplay and the batch boundary depend on the relation between all file sizes and all batch sizes.", "anchors": [{"file": "src/synthpix/scheduler/base.py", "symbols": ["BaseFlowFieldScheduler._get_next", "BaseFlowFieldScheduler.get_batch"]}]}
{"id": "C02", "title": "Exhaustion is permanent until reset", "statement": "With loop=False, once get_batch has raised StopIteration every later get_batch with any batch size raises StopIteration, until reset() is called.", "quantifier": "every scheduler state reachable by any sequence of get_batch calls, every later batch size", "why_tests_cant": "A test can only try finitely many further calls from a few states.", "anchors": [{"file": "src/synthpix/scheduler/base.py", "symbols": ["BaseFlowFieldScheduler._get_next", "BaseFlowFieldScheduler.get_batch"]}]}
{"id": "C03", "title": "Mask and padding describe exactly the real rows", "statement": "Every batch returned by get_batch(n) has n flow rows and n mask entries; mask[i] is True exactly when row i is a slice read from disk; the True entries form a prefix; every row with mask False is all zeros and its file name is the empty string. With loop=True every mask entry is True.", "quantifier": "every reachable scheduler state, every batch size n>=1, loop on or off", "why_tests_cant": "Tests check one partial batch; the claim is about every ratio of remaining data to batch size.", "anchors": [{"file": "src/synthpix/scheduler/base.py", "symbols": ["BaseFlowFieldScheduler.get_batch"]}]}
{"id": "C04", "title": "Flow, images and file name of a row belong together", "statement": "In every returned batch, row i of flow_fields, of images1, of images2 (when present) and files[i] all come from one and the same slice; padding never shifts them relative to one another; images are present in the batch exactly when every delivered slice has them.", "quantifier": "every reachable state, every batch size, slices with or without images", "why_tests_cant": "Misalignment shows only for particular mixtures of slices and partial batches.", "anchors": [{"file": "src/synthpix/scheduler/base.py", "symbols": ["BaseFlowFieldScheduler.get_batch"]}]}
{"id": "C05", "title": "A looping scheduler repeats the epoch forever", "statement": "With loop=True and randomize=False, the k-th slice delivered since construction or reset is slice number k modulo E of the epoch, where the epoch is the list of the E>0 slices of the readable files in list order (neighbouring entries distinct, no extraction errors); batches are never short and StopIteration is never raised.", "quantifier": "every k, every file list and contents with a non-empty epoch, every sequence of batch sizes", "why_tests_cant": "An unbounded history; tests run a couple of wrap-arounds.", "anchors": [{"file": "src/synthpix/scheduler/base.py", "symbols": ["BaseFlowFieldScheduler._get_next", "BaseFlowFieldScheduler.get_batch", "BaseFlowFieldScheduler.reset"]}]}
{"id": "C06", "title": "Shuffling never loses or duplicates a file", "statement": "With randomize=True, after construction and after any sequence of get_batch and reset calls the file list is a permutation of the expanded input list, and each pass over it delivers the slices of the readable files of that permutation (with neighbouring entries distinct) exactly once.", "quantifier": "every shuffle outcome the random generator may produce, every call sequence", "why_tests_cant": "Depends on all permutations drawn over an unbounded history.", "anchors": [{"file": "src/synthpix/scheduler/base.py", "symbols": ["BaseFlowFieldScheduler.__init__", "BaseFlowFieldScheduler.reset", "BaseFlowFieldScheduler._get_next"]}]}
{"id": "C07", "title": "reset() restarts the epoch from the beginning", "statement": "With randomize=False, after reset() the scheduler behaves exactly like a freshly constructed one on the same file list: every later sequence of get_batch calls returns the same results.", "quantifier": "every state reachable by any call sequence (including states left by StopIteration or by an error), every later call sequence", "why_tests_cant": "Leftover cursor or cache state shows only after particular histories.", "anchors": [{"file": "src/synthpix/scheduler/base.py", "symbols": ["BaseFlowFieldScheduler.reset"]}]}
{"id": "C08", "title": "Unreadable files are skipped without disturbing the rest", "statement": "A file whose loading raises contributes no slice and does not change the slices contributed by any other file: the epoch of l1 ++ [bad] ++ l2 is the epoch of l1 followed by the epoch of l2.", "quantifier": "every position of the bad file, every number of bad files, every contents", "why_tests_cant": "Tests place one bad file at one position.", "anchors": [{"file": "src/synthpix/scheduler/base.py", "symbols": ["BaseFlowFieldScheduler._get_next"]}]}
{"id": "C09", "title": "Liveness of looping delivery", "statement": "With loop=True, get_batch returns for every batch size n>=1 whenever the file list holds at least one readable slice, the slices have one shape and no file raises while a slice is extracted (C11 is the other case); if the list holds no readable slice (all files unreadable or empty) the call never returns, whatever amount of work is allowed.", "quantifier": "every file list and contents; for divergence, every step budget", "why_tests_cant": "Non-termination cannot be observed by a test, and termination must hold for every layout of bad files.", "anchors": [{"file": "src/synthpix/scheduler/base.py", "symbols": ["BaseFlowFieldScheduler._get_next"]}]}
{"id": "C10", "title": "Adjacent equal entries are served only once", "statement": "Listing the same path in two neighbouring positions does not deliver it twice: the epoch of a list equals the epoch of the list with runs of equal neighbours collapsed. Hence the claim 'each list entry is served' is false, with a concrete witness.", "quantifier": "every file list with any pattern of repetitions", "why_tests_cant": "No test lists a path twice in a row; the effect depends on the cached path surviving across entries.", "anchors": [{"file": "src/synthpix/scheduler/base.py", "symbols": ["BaseFlowFieldScheduler._get_next"]}, {"file": "src/synthpix/scheduler/episodic.py", "symbols": ["EpisodicFlowFieldScheduler._sample_new_episodes"]}]}
{"id": "C11", "title": "An extraction error is not skipped and blocks the stream", "statement": "If extracting a slice from a loaded file raises anything other than the end-of-file signal, get_batch propagates it, the rows already collected in that call are lost, and every later get_batch raises the same error until reset(), in every mode (looping or not, shuffled or not) and after any history of calls.", "quantifier": "every position of the faulty file, every number of rows collected before it, every number of later calls", "why_tests_cant": "Requires a faulty file to be hit mid-batch and the behaviour of all later calls.", "anchors": [{"file": "src/synthpix/scheduler/base.py", "symbols": ["BaseFlowFieldScheduler._get_next", "BaseFlowFieldScheduler.get_batch"]}, {"file": "src/synthpix/scheduler/hdf5.py", "symbols": ["HDF5FlowFieldScheduler.get_next_slice"]}, {"file": "src/synthpix/scheduler/numpy.py", "symbols": ["NumpyFlowFieldScheduler.get_next_slice"]}]}
{"id": "C12", "title": "HDF5 files are sliced completely along their second axis", "statement": "A file holding an array of shape (X,Y,Z,C) yields exactly Y slices, the y-th being the (X,Z,C) plane at index y; the shape announced by get_flow_fields_shape, (X,Z,2), equals the delivered shape exactly when C=2.", "quantifier": "every 4-D array shape, including empty axes", "why_tests_cant": "Shape-dependent; tests use C=2 or one C only.", "anchors": [{"file": "src/synthpix/scheduler/hdf5.py", "symbols": ["HDF5FlowFieldScheduler.load_file", "HDF5FlowFieldScheduler.get_next_slice", "HDF5FlowFieldScheduler.get_flow_fields_shape"]}]}
{"id": "C13", "title": "MAT flows always have the announced shape; MAT images only for square targets", "statement": "Every flow delivered by the MAT scheduler has shape output_shape+(2,), whatever the stored layout ((H,W,2) or (2,H,W)) and size, and equals the stored array when no resize is needed. A delivered image has shape output_shape if it already had it or if output_shape is square; for every non-square output_shape an image of any other stored shape is delivered with height and width exchanged. A resized flow is the resized channel multiplied by the size ratio along that channel's own axis (first component: width, second: height).", "quantifier": "every stored array shape, every output_shape", "why_tests_cant": "Tests only use square targets.", "anchors": [{"file": "src/synthpix/scheduler/mat.py", "symbols": ["MATFlowFieldScheduler.load_file", "MATFlowFieldScheduler.get_next_slice", "MATFlowFieldScheduler.get_flow_fields_shape"]}]}
{"id": "C14", "title": "A short last batch with JPEG images raises instead of being padded", "statement": "With the .npy scheduler and include_images=True, loop=False, a call that collects fewer slices than requested (but at least one) raises ValueError and the collected slices are lost, whereas without images the same call returns a padded batch.", "quantifier": "every number of remaining files below the batch size, every image size", "why_tests_cant": "Needs partial batch combined with RGB images; tests cover each separately.", "anchors": [{"file": "src/synthpix/scheduler/numpy.py", "symbols": ["NumpyFlowFieldScheduler.get_next_slice"]}, {"file": "src/synthpix/scheduler/base.py", "symbols": ["BaseFlowFieldScheduler.get_batch"]}]}
{"id": "C15", "title": "A constructed file scheduler has a non-empty list of existing files of its kind", "statement": "If construction succeeds, the expanded file list is non-empty, every entry is an existing regular file, plain files appear in input order and a directory is replaced in place by its sorted matching files; for .npy and .mat every entry has the right extension. The HDF5 scheduler rejects a list containing a directory whose name does not end in .h5, although it documents directories as accepted.", "quantifier": "every input list and every directory tree", "why_tests_cant": "Ranges over all directory trees and list shapes.", "anchors": [{"file": "src/synthpix/scheduler/base.py", "symbols": ["BaseFlowFieldScheduler.__init__"]}, {"file": "src/synthpix/scheduler/hdf5.py", "symbols": ["HDF5FlowFieldScheduler.__init__"]}, {"file": "src/synthpix/scheduler/numpy.py", "symbols": ["NumpyFlowFieldScheduler.__init__"]}, {"file": "src/synthpix/scheduler/mat.py", "symbols": ["MATFlowFieldScheduler.__init__"]}]}
{"id": "C16", "title": "Episodes are exactly the admissible windows", "statement": "The set of start positions an episode may be drawn from is exactly the set of windows of episode_length consecutive files (in sorted order) inside one leaf directory, each listed once; construction fails if some leaf directory is shorter than episode_length.", "quantifier": "every set of leaf directories and sizes, every episode length", "why_tests_cant": "Off-by-one at the window end shows only at particular sizes.", "anchors": [{"file": "src/synthpix/scheduler/episodic.py", "symbols": ["EpisodicFlowFieldScheduler._calculate_starts", "EpisodicFlowFieldScheduler._sample_new_episodes"]}, {"file": "src/synthpix/utils.py", "symbols": ["discover_leaf_dirs"]}]}
{"id": "C17", "title": "An episode has exactly episode_length steps", "statement": "From the start of an episode, the first episode_length calls of get_batch are forwarded to the file scheduler and every later call raises EpisodeEnd and consumes nothing, until next_episode/reset; steps_remaining() equals episode_length minus the number of steps taken and is never negative.", "quantifier": "every sequence of get_batch, next_episode, reset and steps_remaining calls", "why_tests_cant": "Unbounded call histories.", "anchors": [{"file": "src/synthpix/scheduler/episodic.py", "symbols": ["EpisodicFlowFieldScheduler.get_batch", "EpisodicFlowFieldScheduler.steps_remaining", "EpisodicFlowFieldScheduler.next_episode"]}]}
{"id": "C18", "title": "Step t of a batch is step t of every parallel episode", "statement": "If the file scheduler does not randomize, every file of the sampled episodes loads with one slice, and no two neighbouring entries of the interleaved order are equal, then the t-th get_batch of the episode returns in row e the t-th file of episode e. Without the last condition it is false: two equal (or one-step-shifted, wrapping) starts make rows of different time steps, or padding, appear in one batch without any error.", "quantifier": "every choice of starts the generator may draw, every batch size and episode length", "why_tests_cant": "Starts are drawn with replacement, so the failing draws are rare for small tests and frequent in production.", "anchors": [{"file": "src/synthpix/scheduler/episodic.py", "symbols": ["EpisodicFlowFieldScheduler._sample_new_episodes", "EpisodicFlowFieldScheduler.get_batch"]}, {"file": "src/synthpix/scheduler/base.py", "symbols": ["BaseFlowFieldScheduler._get_next"]}]}
{"id": "C19", "title": "A randomizing file scheduler destroys episode order", "statement": "When the wrapped scheduler was built with randomize=True, starting an episode re-shuffles the interleaved order, so the files served at step t are an arbitrary permutation: the time-order claim of an episode is false for some shuffle outcome, while the multiset of files of the episode is still preserved.", "quantifier": "every shuffle outcome", "why_tests_cant": "Depends on the drawn permutation.", "anchors": [{"file": "src/synthpix/scheduler/episodic.py", "symbols": ["EpisodicFlowFieldScheduler._sample_new_episodes"]}, {"file": "src/synthpix/scheduler/base.py", "symbols": ["BaseFlowFieldScheduler.reset"]}]}
{"id": "C20", "title": "The episode chosen by a seed depends on directory enumeration order", "statement": "With a single leaf directory the sampled episodes are a function of the random draw and the files only. With two or more leaf directories they also depend on the iteration order of a hash set of strings: the same draw gives different episodes for different enumeration orders, so the seed alone does not make episodes reproducible across processes.", "quantifier": "every enumeration order of the directories, every draw", "why_tests_cant": "String hashing is fixed inside one test process.", "anchors": [{"file": "src/synthpix/utils.py", "symbols": ["discover_leaf_dirs"]}, {"file": "src/synthpix/scheduler/episodic.py", "symbols": ["EpisodicFlowFieldScheduler._calculate_starts", "EpisodicFlowFieldScheduler._sample_new_episodes"]}]}
{"id": "C21", "title": "Prefetching preserves order and never duplicates", "statement": "Under every interleaving of the background thread with the consumer, and every timing of timeouts, the sequence of batches handed to the consumer since construction or reset (returned or discarded) is a subsequence, in order and without repetition, of the sequence the wrapped scheduler produces; a batch is never handed out before it was produced.", "quantifier": "every schedule of the two threads, every timeout outcome, every buffer size, every sequence of consumer calls, every underlying scheduler", "why_tests_cant": "Thread interleavings cannot be enumerated by tests.", "anchors": [{"file": "src/synthpix/scheduler/prefetch.py", "symbols": ["PrefetchingFlowFieldScheduler.get_batch", "PrefetchingFlowFieldScheduler._worker", "PrefetchingFlowFieldScheduler.next_episode"]}]}
{"id": "C22", "title": "At most one batch is lost, and only at end of stream on a full queue", "statement": "Until the end-of-stream marker is forced into a full queue, no batch is lost: handed-out batches followed by the queued ones and the one being put are exactly the produced ones. Forcing the marker drops exactly the oldest queued batch, once, and only if the queue was full at some moment after the wrapped scheduler's StopIteration; so 'every produced batch reaches the consumer' is false, with a witness schedule for every buffer size.", "quantifier": "every schedule, buffer size and call sequence", "why_tests_cant": "Needs a consumer slower than the end-of-stream timeout at one precise moment.", "anchors": [{"file": "src/synthpix/scheduler/prefetch.py", "symbols": ["PrefetchingFlowFieldScheduler._worker"]}]}
{"id": "C23", "title": "The prefetch queue never exceeds buffer_size", "statement": "In every reachable state the queue holds at most buffer_size items (batches and end-of-stream markers together).", "quantifier": "every schedule, buffer size and call sequence", "why_tests_cant": "All interleavings, including the direct deque manipulation at end of stream.", "anchors": [{"file": "src/synthpix/scheduler/prefetch.py", "symbols": ["PrefetchingFlowFieldScheduler.__init__", "PrefetchingFlowFieldScheduler._worker", "PrefetchingFlowFieldScheduler.shutdown"]}]}
{"id": "C24", "title": "End of stream is delivered and permanent", "statement": "When the wrapped scheduler has raised StopIteration and the background thread has ended, the end-of-stream marker is queued or was read. Once get_batch or next_episode has consumed it, no batch is handed out until reset, under every schedule without shutdown; after shutdown, or after a StopIteration that came from a timeout, this is false (witness schedules). When the producer has finished, what the consumer can still receive is exactly the queued batches, in order.", "quantifier": "every schedule and every later call sequence", "why_tests_cant": "All interleavings.", "anchors": [{"file": "src/synthpix/scheduler/prefetch.py", "symbols": ["PrefetchingFlowFieldScheduler.get_batch", "PrefetchingFlowFieldScheduler._worker"]}]}
{"id": "C25", "title": "reset() of the prefetcher cannot deadlock and leaves no stale data", "statement": "Whenever reset() waits for the background thread, that thread can always take its next step and terminates after a bounded number of its own steps; there is never more than one live background thread; after reset() the queue is empty and every batch handed out afterwards was produced after the wrapped scheduler was reset.", "quantifier": "every schedule, every state at which reset is called, every buffer size", "why_tests_cant": "Absence of deadlock over all interleavings.", "anchors": [{"file": "src/synthpix/scheduler/prefetch.py", "symbols": ["PrefetchingFlowFieldScheduler.reset", "PrefetchingFlowFieldScheduler._worker"]}]}
{"id": "C26", "title": "shutdown() stops production but may leave the thread blocked", "statement": "After shutdown() has set the stop flag the background thread calls the wrapped scheduler's get_batch at most once more. The claim that the thread has terminated (or will terminate without further consumer calls) when shutdown returns is false: there is a schedule, for every buffer size, after which it is blocked for ever because the freed slot was refilled by the end-of-stream marker.", "quantifier": "every schedule; for the negative part a schedule for every buffer size", "why_tests_cant": "The losing race is scheduler dependent.", "anchors": [{"file": "src/synthpix/scheduler/prefetch.py", "symbols": ["PrefetchingFlowFieldScheduler.shutdown", "PrefetchingFlowFieldScheduler._worker"]}]}
{"id": "C27", "title": "Prefetched episodes stay aligned", "statement": "Over an episodic scheduler that yields L batches per episode, in every execution in which no wait of next_episode times out and no end of stream occurs, the batch returned by get_batch when s steps have been taken in the current episode is step s of an episode, all batches of one consumer episode come from the same producer episode, and next_episode moves to the first batch of the following one. If next_episode times out the claim is false (witness schedule).", "quantifier": "every schedule, every L and buffer size, every pattern of early next_episode calls", "why_tests_cant": "Ranges over thread schedules and skip patterns.", "anchors": [{"file": "src/synthpix/scheduler/prefetch.py", "symbols": ["PrefetchingFlowFieldScheduler.next_episode", "PrefetchingFlowFieldScheduler.get_batch", "PrefetchingFlowFieldScheduler._worker"]}]}
{"id": "C28", "title": "steps_remaining of the prefetcher is within the episode", "statement": "For an episodic wrapped scheduler steps_remaining() is always between 0 and episode_length, equals episode_length minus the number of queue items consumed by get_batch in this episode, and get_batch raises EpisodeEnd exactly when it is 0.", "quantifier": "every schedule and call sequence", "why_tests_cant": "All histories.", "anchors": [{"file": "src/synthpix/scheduler/prefetch.py", "symbols": ["PrefetchingFlowFieldScheduler.steps_remaining", "PrefetchingFlowFieldScheduler.get_batch"]}]}
{"id": "C29", "title": "A producer failure is reported as end of data", "statement": "If the wrapped scheduler raises an unexpected exception in the background thread, the wrapped scheduler is not called again, and the consumer receives all batches produced before it and then only StopIteration (never the exception, never a wrong batch).", "quantifier": "every schedule, every position of the failure", "why_tests_cant": "Silent failure across threads.", "anchors": [{"file": "src/synthpix/scheduler/prefetch.py", "symbols": ["PrefetchingFlowFieldScheduler._worker", "PrefetchingFlowFieldScheduler.get_batch"]}]}
{"id": "C30", "title": "Concurrent first calls can start the worker twice", "statement": "If two consumer threads call get_batch for the first time concurrently, there is an interleaving in which the thread is started twice (an error in Python); if the calls do not overlap in the check it is started exactly once.", "quantifier": "every interleaving of the two callers", "why_tests_cant": "Race on an unprotected flag.", "anchors": [{"file": "src/synthpix/scheduler/prefetch.py", "symbols": ["PrefetchingFlowFieldScheduler._start_worker"]}]}
{"id": "C31", "title": "done is set exactly on the last step, then EpisodeEnd", "statement": "For a sampler over an episodic scheduler, within one episode the done flag (one entry per batch row, all equal) is True exactly for the batch that exhausts the episode; afterwards next() raises EpisodeEnd without touching the scheduler until next_episode() or reset().", "quantifier": "every call sequence, every episode length and batch size", "why_tests_cant": "Unbounded histories.", "anchors": [{"file": "src/synthpix/sampler/base.py", "symbols": ["Sampler.__next__", "Sampler._make_done", "Sampler.next_episode"]}]}
{"id": "C32", "title": "Flow batches are reused exactly batches_per_flow_batch times", "statement": "Over a scheduler that always delivers, the m-th batch returned by the synthetic sampler since construction or reset uses flow batch number floor(m / batches_per_flow_batch); the scheduler is called exactly when m is a multiple of it, and mask and file names of the m-th batch are those of that flow batch.", "quantifier": "every m, every batches_per_flow_batch >= 1", "why_tests_cant": "Unbounded m and parameter.", "anchors": [{"file": "src/synthpix/sampler/synthetic.py", "symbols": ["SyntheticImageSampler._get_next"]}]}
{"id": "C33", "title": "After StopIteration the synthetic sampler resumes with stale data", "statement": "If the scheduler is exhausted, next() raises StopIteration, but the following batches_per_flow_batch calls return batches generated from the last flow batch again, and so on periodically: StopIteration is not permanent. For the real-image sampler it is permanent whenever it is for the scheduler.", "quantifier": "every batches_per_flow_batch, every number of calls after exhaustion", "why_tests_cant": "Tests stop at the first StopIteration.", "anchors": [{"file": "src/synthpix/sampler/synthetic.py", "symbols": ["SyntheticImageSampler._get_next"]}, {"file": "src/synthpix/sampler/real.py", "symbols": ["RealImageSampler._get_next"]}]}
{"id": "C34", "title": "Image i and flow i of a synthetic batch come from the same flow field", "statement": "For every number of devices d dividing the number of flow fields, with per-device batch b = batch_size/d, entry i of images1/images2 and entry i of flow_fields are both derived from the same input flow field, and every input flow field is used whenever the batch is at least as large as the number of flow fields. With one device it is field i mod flow_fields_per_batch; with more devices this formula is false.", "quantifier": "every batch size, number of flow fields, number of devices, index i", "why_tests_cant": "Tests run on one device.", "anchors": [{"file": "src/synthpix/data_generate.py", "symbols": ["generate_images_from_flow"]}, {"file": "src/synthpix/utils.py", "symbols": ["flow_field_adapter"]}, {"file": "src/synthpix/sampler/synthetic.py", "symbols": ["SyntheticImageSampler._get_next"]}]}
{"id": "C35", "title": "Mask and file names index flow fields, not images", "statement": "The mask and files of a synthetic batch have flow_fields_per_batch entries, one per input flow field; they have one entry per image, and entry i describes image i, exactly when flow_fields_per_batch equals the (device-rounded) batch size; otherwise lengths differ.", "quantifier": "every batch size, flow_fields_per_batch, device count", "why_tests_cant": "Relation between three sizes.", "anchors": [{"file": "src/synthpix/sampler/synthetic.py", "symbols": ["SyntheticImageSampler._get_next", "SyntheticImageSampler.__init__"]}, {"file": "src/synthpix/utils.py", "symbols": ["flow_field_adapter"]}]}
{"id": "C36", "title": "Episodes and flow reuse do not mix under prefetching", "statement": "Directly over an episodic scheduler the sampler uses every episode step exactly once (reuse is forced to 1). When the episodic scheduler is wrapped in the prefetcher the factor is not forced: with batches_per_flow_batch>1 the first batch after next_episode() is generated from a flow of the previous episode, and remaining reuses of the last step are never produced.", "quantifier": "every batches_per_flow_batch>1, every episode length", "why_tests_cant": "Needs a particular stack of wrappers plus a non-default parameter.", "anchors": [{"file": "src/synthpix/sampler/synthetic.py", "symbols": ["SyntheticImageSampler.__init__", "SyntheticImageSampler._get_next"]}, {"file": "src/synthpix/sampler/base.py", "symbols": ["Sampler.__next__", "Sampler.next_episode"]}]}
{"id": "C37", "title": "Sampler reset reproduces the same data", "statement": "If the scheduler restarts identically on reset, then after sampler.reset() the synthetic sampler returns the same sequence of batches (flows, random keys, masks, files) as when freshly constructed, from any earlier state; with scheduler_reset=False the random keys restart but the flow sequence continues where it was.", "quantifier": "every earlier call history, every later one", "why_tests_cant": "All histories.", "anchors": [{"file": "src/synthpix/sampler/base.py", "symbols": ["Sampler.reset"]}, {"file": "src/synthpix/sampler/synthetic.py", "symbols": ["SyntheticImageSampler._reset", "SyntheticImageSampler._get_next"]}]}
{"id": "C38", "title": "No random key is used twice", "statement": "Keys used to generate images for different batches, devices or image indices since reset are distinct nodes of the generator's split tree, so no two images share their random stream by construction; every subkey of one image is consumed by one purpose only.", "quantifier": "every pair of (batch, device, image, purpose) since reset, unbounded", "why_tests_cant": "Statistical tests cannot show key reuse absent for all indices.", "anchors": [{"file": "src/synthpix/sampler/synthetic.py", "symbols": ["SyntheticImageSampler._get_next"]}, {"file": "src/synthpix/data_generate.py", "symbols": ["generate_images_from_flow"]}, {"file": "src/synthpix/generate.py", "symbols": ["add_noise_to_image"]}]}
{"id": "C39", "title": "The cropped image always fits inside the simulated area (exact arithmetic)", "statement": "For every configuration the synthetic sampler accepts, in exact arithmetic the pixel crop [img_offset, img_offset+image_shape) lies inside the simulated area of position_bounds pixels on both axes, so images have exactly image_shape pixels.", "quantifier": "every accepted numeric configuration", "why_tests_cant": "Continuous parameter space.", "anchors": [{"file": "src/synthpix/sampler/synthetic.py", "symbols": ["SyntheticImageSampler.__init__"]}, {"file": "src/synthpix/data_generate.py", "symbols": ["generate_images_from_flow"]}]}
{"id": "C40", "title": "With float arithmetic the crop can lose a pixel", "statement": "With IEEE double arithmetic (as executed) the previous claim is false: there is an accepted configuration (image 256x256 at resolution 49 with zero speeds) for which the simulated area is one pixel smaller than image_shape, so the images do not have image_shape. For resolutions that are powers of two (up to 256) with integral offsets, speeds, time step and diameter (below 2^16) it holds, in IEEE arithmetic.", "quantifier": "witness, and every accepted configuration with power-of-two resolution and integral offsets, speeds, time step and diameter", "why_tests_cant": "Needs specific rounding coincidences.", "anchors": [{"file": "src/synthpix/sampler/synthetic.py", "symbols": ["SyntheticImageSampler.__init__"]}]}
{"id": "C41", "title": "Particles that can enter the image are simulated", "statement": "If flow speeds lie within the configured min/max speeds, every point whose displaced position after dt falls inside the image region lies inside the simulated region (in length units), and the image region itself lies inside it; the simulated region never extends beyond the bottom/right of the flow field. In the truncated pixel geometry this holds up to less than one pixel, and the claim without that pixel is refuted.", "quantifier": "every accepted configuration, every position and admissible velocity", "why_tests_cant": "Continuous space.", "anchors": [{"file": "src/synthpix/sampler/synthetic.py", "symbols": ["SyntheticImageSampler.__init__"]}]}
{"id": "C42", "title": "Sampling coordinates stay inside the (padded) flow field", "statement": "For every accepted configuration with at least one grid step per image side, all coordinates at which the adapter samples the flow, both for the reported flow and for the particle flow, lie within the index range of the padded flow field, so no value is extrapolated beyond the padding.", "quantifier": "every accepted configuration, every output grid point", "why_tests_cant": "Continuous space.", "anchors": [{"file": "src/synthpix/utils.py", "symbols": ["flow_field_adapter"]}, {"file": "src/synthpix/sampler/synthetic.py", "symbols": ["SyntheticImageSampler.__init__"]}]}
{"id": "C43", "title": "The reported flow is located at the image, up to one grid cell and one pixel", "statement": "The origin at which the adapter samples the reported flow differs from the physical image origin by less than one flow grid cell (ceil of the padding) plus the flow-grid length of one pixel (truncation of the pixel offset) on each axis, always towards the top left; without padding and with an integral pixel offset it is exact; with padding exactness is refuted.", "quantifier": "every accepted configuration", "why_tests_cant": "Continuous space.", "anchors": [{"file": "src/synthpix/sampler/synthetic.py", "symbols": ["SyntheticImageSampler.__init__"]}, {"file": "src/synthpix/utils.py", "symbols": ["flow_field_adapter"]}]}
{"id": "C44", "title": "Rendered displacement equals the reported flow only on commensurate grids", "statement": "For a uniform flow, the displacement in pixels applied to particles equals the reported flow (in pixels) exactly when the simulated area covers an integral number of flow grid steps; in general it is larger by the factor r/floor(r), r being that number of grid steps, hence by less than 1/floor(r) relative; the equality claim is refuted by a witness.", "quantifier": "every uniform flow, position, and geometry", "why_tests_cant": "Continuous space.", "anchors": [{"file": "src/synthpix/data_generate.py", "symbols": ["generate_images_from_flow"]}, {"file": "src/synthpix/utils.py", "symbols": ["flow_field_adapter"]}, {"file": "src/synthpix/apply.py", "symbols": ["apply_flow_to_particles"]}]}
{"id": "C45", "title": "Bilinear interpolation is a convex, clamped, grid-exact sampling", "statement": "For every image and every real coordinate, the result lies between the minimum and maximum pixel, equals the pixel at integer in-range coordinates, reproduces affine images exactly inside the range, and for coordinates outside equals the value at the nearest in-range coordinate; only in-range pixels are read.", "quantifier": "every image size and contents, every coordinate", "why_tests_cant": "Continuous inputs.", "anchors": [{"file": "src/synthpix/utils.py", "symbols": ["bilinear_interpolate"]}]}
{"id": "C46", "title": "Trilinear interpolation is a convex, grid-exact sampling", "statement": "Same for volumes: convex combination of in-range voxels, exact at grid points, exact on affine volumes inside the range.", "quantifier": "every volume and coordinate", "why_tests_cant": "Continuous inputs.", "anchors": [{"file": "src/synthpix/utils.py", "symbols": ["trilinear_interpolate"]}]}
{"id": "C47", "title": "The adapter returns batch_size flows with the range of the input", "statement": "flow_field_adapter returns exactly batch_size flows of the requested shape; flow j is the adaptation of input flow j mod n; in physical units every value lies within the range of the corresponding input channel, in pixel units it is scaled by resolution*dt; constant flows stay constant; with matching grids the adaptation is the identity.", "quantifier": "every batch of flows, every geometry", "why_tests_cant": "Continuous inputs, arbitrary n and batch_size.", "anchors": [{"file": "src/synthpix/utils.py", "symbols": ["flow_field_adapter"]}]}
{"id": "C48", "title": "Forward warping conserves intensity", "statement": "Bilinear splatting deposits in total exactly the sum, over source pixels, of the pixel value times the bilinear weight falling inside the image; each pixel receives from every source its value times the tent weight at the displaced position; hence total intensity is conserved when every displaced pixel stays within the pixel range, never increases for non-negative images, and zero flow is the identity.", "quantifier": "every image, every flow, every dt", "why_tests_cant": "Continuous inputs, all image sizes.", "anchors": [{"file": "src/synthpix/apply.py", "symbols": ["apply_flow_to_image_forward"]}]}
{"id": "C49", "title": "Backward warping is identity on zero flow, shifts on uniform integer flow and stays in range", "statement": "The backward warp of an image under zero flow is the image; under a uniform integer displacement each output pixel whose source is in range equals the source pixel; all outputs lie within the range of the input image. On integer in-range displacement forward and backward agree.", "quantifier": "every image and flow", "why_tests_cant": "Continuous inputs.", "anchors": [{"file": "src/synthpix/apply.py", "symbols": ["apply_flow_to_image_backward", "apply_flow_to_image_forward"]}]}
{"id": "C50", "title": "Sampling a flow function on a grid swaps its axes", "statement": "generate_array_flow_field stores at row i, column j the value of the function at (x=i, y=j), while the warping functions evaluate flow functions at (x=column, y=row): warping with the generated array is warping with the callable whose arguments are exchanged; it agrees with the callable for functions symmetric in x and y and disagrees otherwise (witness). At any time t, the forward warp moves each pixel by dt times both components of the function at (t, column, row), the backward warp reads the image at the place given by them.", "quantifier": "every flow function and image", "why_tests_cant": "Universally quantified over functions.", "anchors": [{"file": "src/synthpix/utils.py", "symbols": ["generate_array_flow_field"]}, {"file": "src/synthpix/apply.py", "symbols": ["apply_flow_to_image_callable"]}]}
{"id": "C51", "title": "Particle displacement is bounded by the flow", "statement": "A particle moves, in grid steps, by a vector whose components lie between resolution*dt times the minimum and maximum of the corresponding flow channel; x displacement uses the first channel and y the second; with zero flow or dt=0 particles do not move.", "quantifier": "every particle position, flow field, dt>=0 and resolutions", "why_tests_cant": "Continuous inputs.", "anchors": [{"file": "src/synthpix/apply.py", "symbols": ["apply_flow_to_particles"]}]}
{"id": "C52", "title": "Each particle contributes a positive bump of at most its intensity", "statement": "For |rho|<1, positive diameters and non-negative amplitude, the kernel value at every pixel is between 0 and the amplitude, equals the amplitude only at the centre, and a hidden particle (amplitude 0) contributes nothing.", "quantifier": "every real parameter in the accepted ranges", "why_tests_cant": "Continuous inputs.", "anchors": [{"file": "src/synthpix/generate.py", "symbols": ["gaussian_2d_correlated"]}]}
{"id": "C53", "title": "Particle patches stay inside the image", "statement": "If the image side is at least 2r+1 for patch radius r, then in exact arithmetic every pixel a particle is drawn to lies inside the image whatever the particle position; if the side is smaller, every particle position writes through an out-of-range index. In float32 the claim fails even for larger images: there is a size and a position for which the rounded upper bound equals the image side and the patch ends outside.", "quantifier": "every particle position, image size, max diameter", "why_tests_cant": "Continuous inputs.", "anchors": [{"file": "src/synthpix/generate.py", "symbols": ["img_gen_from_data"]}]}
{"id": "C54", "title": "Particles away from the border are drawn where they are", "statement": "A particle whose centre is at least r pixels from each border of the simulated area is drawn centred exactly at its position; a particle closer to (or beyond) the border is drawn displaced to distance r. Because the simulated area is extended only at the top and left, there are accepted configurations in which such displaced particles lie inside the cropped image.", "quantifier": "every particle position; every accepted configuration", "why_tests_cant": "Continuous inputs.", "anchors": [{"file": "src/synthpix/generate.py", "symbols": ["img_gen_from_data"]}, {"file": "src/synthpix/sampler/synthetic.py", "symbols": ["SyntheticImageSampler.__init__"]}]}
{"id": "C55", "title": "Pixel values are always within 0..255", "statement": "Every pixel of every generated image lies in [0,255], for all particle data, noise draws, binary masks and histograms.", "quantifier": "every particle set, noise draw, mask and histogram", "why_tests_cant": "All random draws.", "anchors": [{"file": "src/synthpix/generate.py", "symbols": ["add_noise_to_image"]}, {"file": "src/synthpix/data_generate.py", "symbols": ["generate_images_from_flow"]}, {"file": "src/synthpix/utils.py", "symbols": ["match_histogram"]}]}
{"id": "C56", "title": "Masked pixels are black unless a histogram is requested", "statement": "With a mask and no histogram, every pixel where the mask is 0 is 0 and every other pixel is unaffected by the mask. With a histogram the masked pixels can become non-zero (witness).", "quantifier": "every image, mask and noise", "why_tests_cant": "All inputs.", "anchors": [{"file": "src/synthpix/data_generate.py", "symbols": ["generate_images_from_flow"]}]}
{"id": "C57", "title": "Histogram matching is monotone and matches the target distribution from below", "statement": "For a non-negative target histogram with positive sum, match_histogram is order preserving on pixel levels, yields integer levels 0..255, and a pixel of level p is mapped to a level at most k exactly when the fraction of source pixels of level <= p is at most the target fraction up to k (k<255); hence the output's cumulative count never exceeds the target's.", "quantifier": "every image and target histogram", "why_tests_cant": "All images and histograms.", "anchors": [{"file": "src/synthpix/utils.py", "symbols": ["match_histogram"]}]}
{"id": "C58", "title": "Histogram matching to its own histogram is the identity", "statement": "For an image of integer levels 0..255, matching it to its own histogram (or any positive multiple) returns the image unchanged.", "quantifier": "every image", "why_tests_cant": "All images.", "anchors": [{"file": "src/synthpix/utils.py", "symbols": ["match_histogram"]}]}
{"id": "C59", "title": "Particle parameters stay in their configured ranges", "statement": "For both images of a pair, every particle's diameters, intensity and correlation lie within the range selected for that image, for all random draws and variances; the reported ranges are configured ranges; the reported seeding density lies within the configured range and never exceeds the maximum.", "quantifier": "every random draw, every configuration", "why_tests_cant": "All random draws.", "anchors": [{"file": "src/synthpix/data_generate.py", "symbols": ["generate_images_from_flow"]}]}
{"id": "C60", "title": "The number of drawn particles follows the sampled density", "statement": "The number of particles made visible for an image (before random hiding) is floor(area * density), which never exceeds the number allocated from the maximum density; in exact arithmetic.", "quantifier": "every density, area", "why_tests_cant": "Continuous inputs.", "anchors": [{"file": "src/synthpix/data_generate.py", "symbols": ["generate_images_from_flow"]}]}
{"id": "C61", "title": "An accepted generation specification satisfies the documented constraints, NaN excepted", "statement": "If ImageGenerationSpecification accepts numeric fields that are not NaN, all documented constraints hold (positive batch size and image shape, probabilities in [0,1], ordered ranges, correlation strictly inside (-1,1), non-negative variances and noise, positive dt), and conversely such values are accepted; a rejection is a ValueError, or a TypeError when a hiding probability or a range entry is not a number; an accepted specification with finite values meets what the image generator relies on. NaN is accepted for dt and for noise_gaussian_std, refuting the unconditional claim; infinities and booleans are accepted as numbers.", "quantifier": "every combination of Python values for the fields", "why_tests_cant": "All combinations of types and special floats.", "anchors": [{"file": "src/synthpix/types.py", "symbols": ["ImageGenerationSpecification.__post_init__"]}]}
{"id": "C62", "title": "update() never produces an invalid or unrelated value", "statement": "Any chain of update() calls on an accepted specification yields an accepted specification or raises the exception of the first unacceptable member; each field has the last value given for it, or the old one; names that are not fields are silently ignored (so a misspelt name changes nothing); the same field preservation holds for batches and scheduler data, and flattening then unflattening a batch (or parameters) gives it back.", "quantifier": "every chain of updates, every field values", "why_tests_cant": "All chains.", "anchors": [{"file": "src/synthpix/types.py", "symbols": ["ImageGenerationSpecification.update", "SynthpixBatch.update", "SchedulerData.update", "SynthpixBatch.tree_flatten", "SynthpixBatch.tree_unflatten"]}]}
{"id": "C63", "title": "make() builds exactly the configured stack", "statement": "If make succeeds: the sampler is the real-image one iff include_images; the file scheduler class is the configured one; it is wrapped episodically iff episode_length>0 and in the prefetcher (outermost) iff buffer_size>0, with batch_size and the given lengths; make fails with an error for a missing/unknown scheduler class, missing or non-positive batch size, non-boolean include_images, negative buffer or episode length, missing flow_fields_per_batch, images with a non-.mat class, missing batches_per_flow_batch for synthetic data.", "quantifier": "every configuration dictionary", "why_tests_cant": "All combinations of keys and value types.", "anchors": [{"file": "src/synthpix/make.py", "symbols": ["make"]}]}
{"id": "C64", "title": "The seed does not reach the file shuffle", "statement": "make() with any two seeds builds file schedulers with the same file order for randomize=True (the shuffle key is always the default), although distinct seeds give distinct keys to the episodic wrapper and the sampler.", "quantifier": "every pair of seeds, every configuration", "why_tests_cant": "Needs comparison over all seeds.", "anchors": [{"file": "src/synthpix/make.py", "symbols": ["make"]}, {"file": "src/synthpix/scheduler/mat.py", "symbols": ["MATFlowFieldScheduler.from_config"]}, {"file": "src/synthpix/scheduler/hdf5.py", "symbols": ["HDF5FlowFieldScheduler.from_config"]}, {"file": "src/synthpix/scheduler/numpy.py", "symbols": ["NumpyFlowFieldScheduler.from_config"]}]}
{"id": "C65", "title": "make() accepts configurations that can never produce a batch", "statement": "For synthetic data with an episodic or prefetching wrapper, if flow_fields_per_batch differs from batch_size make succeeds but every next() raises ValueError; if they are equal, or no wrapper is configured, no size mismatch is ever raised.", "quantifier": "every such configuration, every number of calls", "why_tests_cant": "All configurations; failure only after construction.", "anchors": [{"file": "src/synthpix/make.py", "symbols": ["make"]}, {"file": "src/synthpix/sampler/synthetic.py", "symbols": ["SyntheticImageSampler._get_next"]}, {"file": "src/synthpix/scheduler/episodic.py", "symbols": ["EpisodicFlowFieldScheduler.get_batch"]}, {"file": "src/synthpix/scheduler/prefetch.py", "symbols": ["PrefetchingFlowFieldScheduler.get_batch"]}]}
{"id": "C66", "title": "Computed speed bounds are tight", "statement": "For a non-empty list of valid non-empty files without NaN in a component, the maximum and minimum returned by calculate_min_and_max_speeds for it bound that component of every vector of every file and each bound is attained. In general the files with a NaN in the component are silently ignored, so that a value of the data may lie outside of the bounds (witness). Files that are not four-axis, or three-axis with two components, or are empty, are refused.", "quantifier": "every list of files and contents", "why_tests_cant": "All contents.", "anchors": [{"file": "src/synthpix/sanity.py", "symbols": ["calculate_min_and_max_speeds"]}]}
{"id": "C67", "title": "Rewriting the configuration keeps every entry except a non-list file_list and null values", "statement": "After update_config_file, every key of the old configuration and of the updates is present with the updated value if given and the old one otherwise, in the order old keys, new keys, file_list last, provided the text of each value is read back as that value; a file_list that is not a non-empty list is dropped (witness); a null value becomes the string None, after which make may reject a configuration that it accepted (witness).", "quantifier": "every configuration and update dictionary", "why_tests_cant": "All dictionaries.", "anchors": [{"file": "src/synthpix/sanity.py", "symbols": ["update_config_file"]}, {"file": "src/synthpix/make.py", "symbols": ["make"]}]}
{"id": "C68", "title": "Rewriting the configuration is not crash safe", "statement": "Whenever the process stops during update_config_file, the file holds its old contents or a prefix of the new ones; there are moments at which it is empty, and at which exactly the first n lines are there, so an existing key may be lost while neither the old nor the new configuration is present (witness). When the call returns the file holds the new contents.", "quantifier": "every crash point", "why_tests_cant": "Crash points cannot be enumerated by unit tests.", "anchors": [{"file": "src/synthpix/sanity.py", "symbols": ["update_config_file"]}]}
{"id": "C69", "title": "Data splits partition the training list", "statement": "For accepted split ratios (exactly the lists of three integers summing to 100) without a negative one, the lists written to train.txt, val.txt and tune.txt by fetch_splits together are a rearrangement of the downloaded list; the sizes of the last two are rounded down, the remainder goes to train. The float division used for the sizes makes no difference below 2^52. With a negative ratio, which is accepted, the three lists hold the positions of the shuffled list that Python's slices with the (possibly negative) bounds select, and a sample can be in train and tune (witness).", "quantifier": "every list, shuffle outcome and ratios", "why_tests_cant": "All lists and ratios.", "anchors": [{"file": "scripts/download_piv_1.py", "symbols": ["fetch_splits"]}, {"file": "scripts/utils.py", "symbols": ["read_list", "write_list"]}]}
{"id": "C70", "title": "A batch mixing slices of different shapes raises and loses them", "statement": "With loop=False, a get_batch whose slices do not all have the same flow shape raises ValueError; the slices collected for it are skipped: the following calls continue behind them, and every call whose own slices are of one shape still returns exactly its slices.", "quantifier": "every file list and contents, every assignment of shapes, every sequence of batch sizes", "why_tests_cant": "Which calls mix shapes depends on how batch boundaries fall relative to the files; tests use files of equal shape.", "anchors": [{"file": "src/synthpix/scheduler/base.py", "symbols": ["BaseFlowFieldScheduler.get_batch"]}]}
{"id": "C71", "title": "JPEG images are paired with their flow file", "statement": "With include_images=True, a file <d>/flow_<t>.npy (any t, decimal) is delivered with the images <d>/img_<t-1>.jpg and <d>/img_<t>.jpg of the same folder, in this order.", "quantifier": "every folder name, every time index t of any number of digits", "why_tests_cant": "The path arithmetic is over all decimal numbers and folder names (9 -> 10, names containing digits or 'flow_').", "anchors": [{"file": "src/synthpix/scheduler/numpy.py", "symbols": ["NumpyFlowFieldScheduler.get_next_slice"]}]}
{"id": "C72", "title": "iter() on an episodic scheduler rewinds the counter, not the data", "statement": "With a non-looping, non-randomizing file scheduler and spread windows: after t steps of an episode, iter(scheduler) sets steps_remaining() back to episode_length, but the following get_batch calls continue at step t; after the remaining episode_length - t batches they raise StopIteration (not EpisodeEnd) until episode_length calls have been made.", "quantifier": "every episode length, every step t at which iter() is called, every number of later calls", "why_tests_cant": "The discrepancy between the counter and the data cursor depends on t and on the number of later calls.", "anchors": [{"file": "src/synthpix/scheduler/episodic.py", "symbols": ["EpisodicFlowFieldScheduler.__iter__", "EpisodicFlowFieldScheduler.get_batch"]}]}
{"id": "C73", "title": "Episodes are drawn from whole directories, not from the file list", "statement": "Every file an episodic scheduler serves is a .mat file of a leaf directory that contains one of the listed files; it need not itself be in the list given to the wrapped scheduler (a scheduler restricted to some files of a directory serves the others too).", "quantifier": "every file list, directory layout, and sequence of calls", "why_tests_cant": "Tests list every file of the directory, so the difference cannot show.", "anchors": [{"file": "src/synthpix/scheduler/episodic.py", "symbols": ["EpisodicFlowFieldScheduler._calculate_starts", "EpisodicFlowFieldScheduler._sample_new_episodes"]}, {"file": "src/synthpix/utils.py", "symbols": ["discover_leaf_dirs"]}]}
{"id": "C74", "title": "A waiting get_batch is always served", "statement": "While get_batch waits on an empty queue, the background thread, as long as it is alive, always has a next step, and after at most five of its own steps it has put an item or ended; so a wait on the queue is never blocked by the prefetcher itself, only by the wrapped scheduler's own run time.", "quantifier": "every schedule, buffer size, call history and underlying scheduler that does not raise EpisodeEnd twice in a row", "why_tests_cant": "Liveness over all interleavings.", "anchors": [{"file": "src/synthpix/scheduler/prefetch.py", "symbols": ["PrefetchingFlowFieldScheduler.get_batch", "PrefetchingFlowFieldScheduler._worker"]}]}
{"id": "C75", "title": "make() shares random keys between the episodic wrapper and the sampler", "statement": "make() derives the episodic wrapper's key from the same seed the synthetic sampler starts from. Their key streams are not disjoint: the key the wrapper draws its second set of windows from is the key batch number 1 (from 0) draws its seeding densities from on the first device, and the fourth set of windows shares its key with a hiding mask of that batch; there is no other coincidence.", "quantifier": "every seed, every number of window draws, every batch, device, image and purpose", "why_tests_cant": "the collision concerns symbolic keys of components created in different files; no output value is wrong in itself", "anchors": [{"file": "src/synthpix/make.py", "symbols": ["make"]}, {"file": "src/synthpix/scheduler/episodic.py", "symbols": ["EpisodicFlowFieldScheduler._sample_new_episodes"]}, {"file": "src/synthpix/sampler/synthetic.py", "symbols": ["SyntheticImageSampler._get_next"]}, {"file": "src/synthpix/data_generate.py", "symbols": ["generate_images_from_flow"]}]}
{"id": "C76", "title": "A flow count the devices do not divide makes every batch fail", "statement": "The synthetic sampler accepts a flow_fields_per_batch that is not a multiple of the number of devices; then every next() since construction or reset raises ValueError and the scheduler is asked for data exactly once, by the first of them.", "quantifier": "every size, device count, number of calls", "why_tests_cant": "needs every number of calls and several devices", "anchors": [{"file": "src/synthpix/sampler/synthetic.py", "symbols": ["SyntheticImageSampler.__init__", "SyntheticImageSampler._get_next"]}]}
{"id": "C77", "title": "The 3-D particle update fails on every input its check accepts", "statement": "For particles with three coordinates, every flow shape accepted by input_check_apply_flow makes apply_flow_to_particles raise ValueError, and every flow shape on which it works is rejected by the check; in two dimensions every accepted shape works. On a (D,H,W,3) field the 3-D update itself moves particles within the bounds of the three channels.", "quantifier": "all shapes, all volumes and positions", "why_tests_cant": "Tests try a few shapes; that no accepted 3-D shape can work is a universal statement.", "anchors": [{"file": "src/synthpix/apply.py", "symbols": ["input_check_apply_flow", "apply_flow_to_particles"]}, {"file": "src/synthpix/utils.py", "symbols": ["trilinear_interpolate"]}]}
{"id": "C78", "title": "Hiding every particle leaves a black image", "statement": "With hide probability 1 for an image of the pair and no noise, every pixel of that image is 0, whatever the flow, mask and other parameters; the other image is unaffected (it can be lit).", "quantifier": "every specification with that probability, every random draw", "why_tests_cant": "a test sees a handful of seeds; the claim is over every outcome of the random draws, including draws equal to an end of the unit interval", "anchors": [{"file": "src/synthpix/data_generate.py", "symbols": ["generate_images_from_flow"]}, {"file": "src/synthpix/generate.py", "symbols": ["img_gen_from_data"]}]}
{"id": "C79", "title": "A whole-pixel displacement shifts the image exactly", "statement": "For a uniform flow whose displacement in simulated pixels is a whole number of pixels (dy,dx), without noise and parameter variation, pixel (r+dy,c+dx) of the second image equals pixel (r,c) of the first, for every pixel which, before and after, is farther from the border of the simulated area than the patches reach.", "quantifier": "every uniform flow, particle population, image size, offset and pixel", "why_tests_cant": "the particle positions are random and real valued; tests compare images at a tolerance for a few seeds", "anchors": [{"file": "src/synthpix/data_generate.py", "symbols": ["generate_images_from_flow"]}, {"file": "src/synthpix/generate.py", "symbols": ["img_gen_from_data"]}, {"file": "src/synthpix/apply.py", "symbols": ["apply_flow_to_particles"]}]}
{"id": "C80", "title": "Zero flow gives two equal images", "statement": "For zero flow, without noise, hiding and parameter variation, both images of every pair are equal, with or without mask and target histogram.", "quantifier": "every batch, mask, histogram, random draw", "why_tests_cant": "equality must hold for every draw of the particle population, not for the sampled seeds", "anchors": [{"file": "src/synthpix/data_generate.py", "symbols": ["generate_images_from_flow"]}, {"file": "src/synthpix/utils.py", "symbols": ["match_histogram"]}]}
{"id": "C81", "title": "Synthetic configurations need a seed", "statement": "make() never accepts a configuration for synthetic images without the entry \"seed\", although the documentation lists it as optional with default 0; only the real-image sampler does without it.", "quantifier": "every configuration dictionary, every file system and device set", "why_tests_cant": "absence of success over all configurations; the default is applied in make and missed in the sampler", "anchors": [{"file": "src/synthpix/make.py", "symbols": ["make"]}, {"file": "src/synthpix/sampler/synthetic.py", "symbols": ["SyntheticImageSampler.from_config"]}]}
{"id": "C82", "title": "Every shuffle and every new episode uses its own random key", "statement": "With randomize=True and loop=True the order of each pass is obtained from the order of the previous one by a permutation drawn with a key no other pass uses; the episodes in use after any calls are those drawn with a key no other episode of the object uses. The keys depend on the seed (and the number of passes or episodes started) only.", "quantifier": "every seed, generator, data set, number of passes and sequence of calls", "why_tests_cant": "A repeated key shows only as an undue correlation between epochs, for some generators and sizes.", "anchors": [{"file": "src/synthpix/scheduler/base.py", "symbols": ["BaseFlowFieldScheduler.__init__", "BaseFlowFieldScheduler.reset"]}, {"file": "src/synthpix/scheduler/episodic.py", "symbols": ["EpisodicFlowFieldScheduler._sample_new_episodes"]}]}
{"id": "C83", "title": "Missing speeds are filled in once and only on request", "statement": "missing_speeds_panel changes the file only if a speed is missing, the first answer is 1 and the speeds can be computed; the new contents are then the old configuration with the computed speeds, even if the user declines to continue afterwards. If it returns, the speeds returned are those in the file afterwards, and running it again returns the same without any question or change. Infinite speeds are the exception: they are written as inf, which is read as a string, so the next run asks again.", "quantifier": "every configuration, file contents and answers", "why_tests_cant": "All configurations and all sequences of answers.", "anchors": [{"file": "src/synthpix/sanity.py", "symbols": ["missing_speeds_panel", "update_config_file"]}]}
{"id": "C84", "title": "The check succeeds only for a configuration that was complete from the start", "statement": "If the sanity script ends with the message that the configuration is valid, then no speed was missing, nothing was asked and the file is unchanged. After computing the speeds it checks the configuration read before, so that run fails though the same file is then accepted by the next run (witness).", "quantifier": "every configuration, world and answers", "why_tests_cant": "All configurations; needs the interplay of dialogue, rewriting and constructor.", "anchors": [{"file": "src/synthpix/sanity.py", "symbols": ["main", "missing_speeds_panel"]}, {"file": "src/synthpix/sampler/synthetic.py", "symbols": ["SyntheticImageSampler.from_config"]}]}
{"id": "C85", "title": "Packed files are distributed to the splits that list them", "statement": "perform_split copies a packed file to exactly the splits whose list has a line for its name, never overwriting another copy; a line stands for the sample whose first or second image or flow it begins with. A line that names a file without one of the three markers stands for its name without extension. The copy goes below the split to the directory the file had, and there to Re<number> if its name contains _Re<number>_ (the first, if there are several). If the names in the downloaded list are distinct, each packed sample of the list ends up in exactly one of train, val and tune. The directory in a line is ignored, so that samples of the same name in different directories leak between train and test (witness).", "quantifier": "every set of lists, shuffle outcome and packed files", "why_tests_cant": "All lists and names; needs the interplay of splitting, canonical names and copying.", "anchors": [{"file": "scripts/download_piv_1.py", "symbols": ["perform_split", "load_split_file", "fetch_splits"]}]}
{"id": "C86", "title": "Packing and splitting agree on names", "statement": "Every packed file is made of the flow and the two images of its own name and directory, and the name under which a sample is packed is the one that its lines in the lists stand for, provided the sample name contains no marker (_img1, _img2, _flow). With a marker in the name they differ, and two flow files of one sample overwrite each other (witnesses).", "quantifier": "every name, directory and line format", "why_tests_cant": "All names.", "anchors": [{"file": "scripts/download_piv_1.py", "symbols": ["convert", "load_split_file"]}]}
{"id": "C87", "title": "Flow files are read as they are stored", "statement": "read_flow returns the width, height and vectors that a .flo file holds, whatever bytes follow. It accepts exactly these files and, because NumPy reads a negative count as 'everything' and one negative size as 'what fits', files whose width or height (not both, the other being positive) is negative: then the whole rest is read and the size is found from the number of bytes. Nothing is accepted without the magic number, or with fewer bytes than the returned field has. From a .mat file it returns the flow stored under the first of the names V, flow, u, uv, F under which there is an array with two components on the last or the first axis, with the components last; without any it raises ValueError.", "quantifier": "every size and contents", "why_tests_cant": "All sizes and contents.", "anchors": [{"file": "scripts/download_piv_1.py", "symbols": ["read_flow"]}]}
{"id": "C88", "title": "Conversion and loading preserve the displacement relative to the image", "statement": "A uniform displacement field converted to any target shape by resize_flow and then loaded at any output shape by the MAT scheduler is uniform, with x scaled by output width over original width and y by output height over original height, independent of the target shape.", "quantifier": "every field size, target shape, output shape, displacement, and resampling that keeps constants", "why_tests_cant": "All sizes; composition of two programs.", "anchors": [{"file": "scripts/download_piv_1.py", "symbols": ["resize_flow", "pack_triplet"]}, {"file": "src/synthpix/scheduler/mat.py", "symbols": ["MATFlowFieldScheduler.load_file"]}]}
{"id": "C89", "title": "Converting record files keeps every readable sample only while each directory is fed by one record file", "statement": "download_piv_2 writes the i-th readable record of a record file to sample_i of the directory chosen by the file's name, with the flow as stored and the two images de-interleaved, under distinct names. After all record files, file i of a directory holds the i-th sample of the last record file of that directory that has more than i samples; so nothing is lost when each directory is fed by one record file, and samples are overwritten when it is fed by two.", "quantifier": "all record files, records (readable or not), names and numbers of record files; any image size", "why_tests_cant": "Unbounded numbers of records and files, arbitrary contents; the loss shows only with several record files of one kind.", "anchors": [{"file": "scripts/download_piv_2.py", "symbols": ["process_tfrecord", "main"]}]}
{"id": "C90", "title": "What is on disk is what the batches show", "statement": "A sampler over usable files (readable slices of one shape) shows the slices of the files in list order, or in a new order per pass when shuffling: with loop off every slice exactly once and then StopIteration, with loop on for ever. Image and reported flow of entry i of batch m, its mask entry and its file name all belong to one and the same slice, namely the source(i)-th of flow batch m/bpf; entries without a slice show a zero field, mask false and an empty name. The same holds with a prefetcher in between whose thread keeps up, for real images, and for every sampler make returns, over the files its list stands for.", "quantifier": "all file lists, contents, random orders, sizes, numbers of devices, buffer sizes, prompt timings, configurations accepted by make", "why_tests_cant": "Composition of file loading, batching, padding, buffering, sharding and tiling over arbitrary numbers of files and calls; tests check each layer on one small case.", "anchors": [{"file": "src/synthpix/make.py", "symbols": ["make"]}, {"file": "src/synthpix/scheduler/base.py", "symbols": ["BaseFlowFieldScheduler.get_batch"]}, {"file": "src/synthpix/scheduler/prefetch.py", "symbols": ["PrefetchingFlowFieldScheduler.get_batch"]}, {"file": "src/synthpix/sampler/synthetic.py", "symbols": ["SyntheticImageSampler._get_next"]}, {"file": "src/synthpix/sampler/real.py", "symbols": ["RealImageSampler._get_next"]}]}
{"id": "C91", "title": "A prefetcher makes a scheduler without episodes look like one endless episode", "statement": "Over a file scheduler a sampler leaves done unset and next_episode raises AttributeError. With a prefetcher in between, for any buffer and any timing, next_episode succeeds, every batch carries done flags that are all false, and EpisodeEnd never occurs; calls of next_episode change nothing about the batches.", "quantifier": "all schedulers without episodes, buffer sizes, timings, interleavings of next, reset and next_episode", "why_tests_cant": "Arbitrary interleavings of calls and thread timings.", "anchors": [{"file": "src/synthpix/scheduler/prefetch.py", "symbols": ["PrefetchingFlowFieldScheduler.steps_remaining", "PrefetchingFlowFieldScheduler.next_episode"]}, {"file": "src/synthpix/scheduler/protocol.py", "symbols": ["PrefetchedSchedulerProtocol"]}, {"file": "src/synthpix/sampler/base.py", "symbols": ["Sampler.__next__", "Sampler.next_episode"]}]}
{"id": "C92", "title": "In episodes, batch after batch shows the consecutive files of the drawn windows", "statement": "A sampler over an episodic scheduler (list not shuffled, one slice per file): there are windows drawn for each episode, each L consecutive files of a leaf directory, such that however next and next_episode are interleaved, the t-th batch since the start of episode e shows in entry i (image, reported flow, mask, file name) file t of window source(i) of episode e, done is set exactly on the L-th batch, and further calls raise EpisodeEnd; for every episode whose windows are spread (C18). The same with a prefetcher whose thread keeps up, except that a next_episode before the first batch does not advance. The same for every sampler make returns for such a configuration.", "quantifier": "all directories, file contents, random draws, sizes, numbers of devices, buffer sizes, prompt timings, interleavings of next and next_episode", "why_tests_cant": "Composition of window drawing, list interleaving, file loading, step counting, buffering, sharding over arbitrary call sequences.", "anchors": [{"file": "src/synthpix/make.py", "symbols": ["make"]}, {"file": "src/synthpix/scheduler/episodic.py", "symbols": ["EpisodicFlowFieldScheduler.get_batch", "EpisodicFlowFieldScheduler.next_episode", "EpisodicFlowFieldScheduler._sample_new_episodes"]}, {"file": "src/synthpix/scheduler/prefetch.py", "symbols": ["PrefetchingFlowFieldScheduler.next_episode", "PrefetchingFlowFieldScheduler.get_batch"]}, {"file": "src/synthpix/sampler/base.py", "symbols": ["Sampler.__next__", "Sampler.next_episode"]}, {"file": "src/synthpix/sampler/synthetic.py", "symbols": ["SyntheticImageSampler._get_next"]}]}
{"id": "C93", "title": "Each image pair depends on its own random numbers only", "statement": "In every batch of the synthetic sampler the reported flows and the images are what flow_field_adapter and generate_images_from_flow return on the devices, device d being given the d-th consecutive part of the scheduler's flow fields and the key number d of that batch, put one after the other. If the random numbers behind the keys of one pair (batch m0, device d0, its pair j0) change, nothing else changes: flows, mask, file names, and every pixel and reported parameter of every other pair of every batch stay the same. What is drawn for one image of a pair only (hidden particles and noise of the first; hidden particles, noise and parameter variations of the second) does not influence the other image nor the reported parameters.", "quantifier": "all generators, schedulers, numbers of devices, sizes, batches, entries, masks, histograms, flows", "why_tests_cant": "A test compares a few seeds; independence is about which keys every pixel depends on, for all batches and devices.", "anchors": [{"file": "src/synthpix/sampler/synthetic.py", "symbols": ["SyntheticImageSampler.__init__", "SyntheticImageSampler._get_next"]}, {"file": "src/synthpix/data_generate.py", "symbols": ["generate_images_from_flow"]}, {"file": "src/synthpix/utils.py", "symbols": ["flow_field_adapter"]}, {"file": "src/synthpix/generate.py", "symbols": ["add_noise_to_image"]}]}
{"id": "C94", "title": "A uniform flow is reported and shown by every batch, from the files to the images", "statement": "For an accepted configuration without noise, hiding, parameter variations, mask or histogram, output in pixels, whose flow grid fits the simulated area a whole number of times (C44), and a flow that is the same velocity (u, v) everywhere with u*resolution*dt and v*resolution*dt whole numbers dx, dy: every entry of every batch reports exactly (dx, dy) at every point of the flow grid, and its second image at (r+dy, c+dx) equals its first image at (r, c), for all pixels more than two patch radii from the borders of the simulated area. With a file scheduler whose files all hold such a flow this holds of every entry whose place is filled (mask true), for ever when looping, otherwise until the files are used up.", "quantifier": "all configurations, generators, exponentials, seeds, batches, entries, pixels, file lists, numbers of devices", "why_tests_cant": "Combines geometry, resampling, drawing, batching and file reading; a test sees one configuration with rounding noise.", "anchors": [{"file": "src/synthpix/sampler/synthetic.py", "symbols": ["SyntheticImageSampler.__init__", "SyntheticImageSampler._get_next"]}, {"file": "src/synthpix/data_generate.py", "symbols": ["generate_images_from_flow"]}, {"file": "src/synthpix/utils.py", "symbols": ["flow_field_adapter"]}, {"file": "src/synthpix/apply.py", "symbols": ["apply_flow_to_particles"]}, {"file": "src/synthpix/scheduler/base.py", "symbols": ["BaseFlowFieldScheduler.get_batch"]}]}
{"id": "C95", "title": "Every configuration entry reaches the argument of its name", "statement": "If synthpix.make accepts a configuration whose numbers are finite (integers, floats, and lists or tuples of them), the synthetic sampler it returns is the one the constructor makes of the arguments read entry by entry: image shape, offset, density, diameter, intensity and correlation ranges, variations, hiding probabilities, dt, noise, flow field size, resolution, velocities per pixel, speed limits, output units, seed, mask and histogram each come from the entry of that name (pairs in y, x order; x and y speeds not exchanged), the shape of the flow fields from the scheduler, and the number of images per batch is rounded up to the devices.", "quantifier": "all configurations, worlds (files, devices, arithmetic of the images), schedulers, generators", "why_tests_cant": "There are some thirty entries that travel through three layers under different names; a test that exchanges two of them notices only if its values differ there.", "anchors": [{"file": "src/synthpix/make.py", "symbols": ["make"]}, {"file": "src/synthpix/sampler/synthetic.py", "symbols": ["SyntheticImageSampler.from_config", "SyntheticImageSampler.__init__"]}, {"file": "src/synthpix/types.py", "symbols": ["ImageGenerationSpecification"]}]}
{"id": "C96", "title": "A uniform flow in the files is shown by every batch, from the configuration to the images", "statement": "For a configuration accepted by synthpix.make (numbers finite; no noise, hiding, variations, mask or histogram; output in pixels; flow grid fitting the simulated area a whole number of times) and files that all hold the same uniform velocity amounting to (dx, dy) whole pixels: whichever of the four stacks make builds (plain, prefetched, episodic, both), every filled entry of every batch reports (dx, dy) everywhere and its second image is the first moved by (dx, dy) away from the borders of the simulated area. Plain and prefetched samplers do so for ever when looping and until the files are used up otherwise; with episodes it holds of every step of every episode whose windows are spread (C18), in whatever order next and next_episode are called.", "quantifier": "all configurations, worlds, file contents, generators, timings, sequences of calls, batches, entries, pixels", "why_tests_cant": "The composition of every layer of the library; a test sees one configuration, a few batches, with rounding noise.", "anchors": [{"file": "src/synthpix/make.py", "symbols": ["make"]}, {"file": "src/synthpix/sampler/synthetic.py", "symbols": ["SyntheticImageSampler.from_config", "SyntheticImageSampler._get_next"]}, {"file": "src/synthpix/sampler/base.py", "symbols": ["Sampler.__next__", "Sampler.next_episode"]}, {"file": "src/synthpix/scheduler/base.py", "symbols": ["BaseFlowFieldScheduler.get_batch"]}, {"file": "src/synthpix/scheduler/episodic.py", "symbols": ["EpisodicFlowFieldScheduler"]}, {"file": "src/synthpix/scheduler/prefetch.py", "symbols": ["PrefetchingFlowFieldScheduler"]}, {"file": "src/synthpix/data_generate.py", "symbols": ["generate_images_from_flow"]}, {"file": "src/synthpix/utils.py", "symbols": ["flow_field_adapter"]}]}
{"id": "C97", "title": "synthpix.make accepts exactly the configurations that fit together", "statement": "Take a configuration whose numbers are finite and whose entries have the expected types, and a scheduler that can be built from it (class, file list, buffer size, episode length, 64-bit seed). synthpix.make returns the synthetic sampler on that scheduler if and only if: the specification obeys the documented ranges; flow_fields_per_batch <= batch_size; all entries of flow_field_size are positive numbers; the flow fields have positive height and width and two or three components; resolution and velocities_per_pixel are positive; the seed is not negative; minimum speeds do not exceed maximum speeds; on both axes max(0, max_speed)*dt <= img_offset and img_offset + image_shape/resolution + max(0, -min_speed)*dt <= flow_field_size; a mask has the shape of the image and only zeros and ones; a histogram has 256 entries summing to the number of pixels within the documented tolerance. In all other cases it raises ValueError.", "quantifier": "all configurations with finite numbers, file systems, numbers of devices, stacks of schedulers", "why_tests_cant": "A test rejects a handful of bad values one at a time; this says there is no further hidden condition and no combination that slips through.", "anchors": [{"file": "src/synthpix/make.py", "symbols": ["make"]}, {"file": "src/synthpix/sampler/synthetic.py", "symbols": ["SyntheticImageSampler.__init__", "SyntheticImageSampler.from_config"]}, {"file": "src/synthpix/types.py", "symbols": ["ImageGenerationSpecification.__post_init__"]}]}
{"id": "C98", "title": "RealImageSampler shows the images of the files, from the configuration to the batches", "statement": "RealImageSampler accepts a scheduler exactly if batch_size is a positive integer (1 if the configuration has none) and the file scheduler inside the episodic and prefetching wrappers was built with include_images; otherwise ValueError. If synthpix.make returns a real-image sampler from a configuration with include_images, entry i of batch m shows slice m*batch_size + i of the listed files with its flow field, its own two images and its name (zeros, mask false and an empty name past the end), for ever or until StopIteration; with episodes, entry i of step t shows file t of window i, only the last step is marked done, and EpisodeEnd follows; a buffer in between changes nothing. reset() without shuffling starts from the first slice again; reset(scheduler_reset=False) has no effect.", "quantifier": "all configurations, .mat files, stacks of schedulers, batch sizes, episode lengths, sequences of next and next_episode calls, thread timings of a prompt prefetcher", "why_tests_cant": "Tests check a single batch of one or two tiny files; pairing of images, flows and names over whole runs, epochs and episodes and through the background thread is a statement about all runs.", "anchors": [{"file": "src/synthpix/sampler/real.py", "symbols": ["RealImageSampler.__init__", "RealImageSampler._get_next", "RealImageSampler.from_config"]}, {"file": "src/synthpix/sampler/base.py", "symbols": ["Sampler.__next__", "Sampler.reset", "Sampler.next_episode"]}, {"file": "src/synthpix/make.py", "symbols": ["make"]}, {"file": "src/synthpix/scheduler/mat.py", "symbols": ["MATFlowFieldScheduler.load_file"]}]}
{"id": "C99", "title": "What still comes after shutdown()", "statement": "After shutdown() has returned on a prefetching scheduler, get_batch and next_episode together hand over at most buffer_size more batches before the next reset(), whatever the thread does and whatever is called; so many do come under some schedule for every buffer size (the thread refills the slot that shutdown freed). Accordingly a real-image sampler over a prefetcher returns at most buffer_size batches after shutdown() and every other next() raises; a synthetic sampler returns at most batches_per_flow_batch * (buffer_size + 1) batches before next() raises, but that is not the end: after each exception it goes on with its last flow fields. reset() after any calls, shutdown() among them, makes a sampler over an unshuffled file scheduler behave like a new one.", "quantifier": "all wrapped schedulers, buffer sizes, interleavings with the thread, call sequences before and after", "why_tests_cant": "How many batches survive shutdown() depends on where the thread stands at that moment; tests see one interleaving.", "anchors": [{"file": "src/synthpix/sampler/base.py", "symbols": ["Sampler.shutdown"]}, {"file": "src/synthpix/scheduler/prefetch.py", "symbols": ["PrefetchingFlowFieldScheduler.shutdown", "PrefetchingFlowFieldScheduler.get_batch", "PrefetchingFlowFieldScheduler._worker"]}, {"file": "src/synthpix/sampler/synthetic.py", "symbols": ["SyntheticImageSampler._get_next"]}]}
{"id": "C100", "title": "What debug mode changes", "statement": "With DEBUG_JIT set, the constructor of the synthetic sampler (over exact arithmetic) accepts exactly what it accepts otherwise, except that it also asks the scheduler for one batch and raises if that raises, if the flow fields do not have exactly two components, or if image size times velocities_per_pixel is below 1 in one direction. The batch taken is never shown: on one device, batch number m shows the flow fields that follow those of batch number m without debug mode. On several devices every call answers as a one-device sampler with the batch size of one device would, so a batch has batch_size / ndevices pairs, while done still has batch_size entries. All this holds while the image and its offset in pixels stay within 512 x 512; beyond that no call ever returns a batch (the generator checks itself against its default position bounds), although the constructor agrees and the sampler works without debug mode.", "quantifier": "all constructor arguments, schedulers, random numbers, numbers of devices and call sequences", "why_tests_cant": "Debug mode is a module constant that the tests never set; the 512-pixel limit shows only for large images and the skipped batch only when the two modes are compared.", "anchors": [{"file": "src/synthpix/utils.py", "symbols": ["DEBUG_JIT", "input_check_flow_field_adapter"]}, {"file": "src/synthpix/sampler/synthetic.py", "symbols": ["SyntheticImageSampler.__init__", "SyntheticImageSampler._get_next"]}, {"file": "src/synthpix/data_generate.py", "symbols": ["generate_images_from_flow", "input_check_gen_img_from_flow"]}]}
{"id": "C101", "title": "Assigning file_list to a scheduler in use", "statement": "Let an unshuffled scheduler have delivered some slices, the last one from the file at place i of its list, and let another list then be assigned to file_list. If the new list has the same path at place i, the scheduler goes on with the next slice of that file; otherwise it shows the new list from the start of the file at place i (the place reached, not the one after). The files before place i do not come in this pass and the remaining slices of the old file are lost; a looping scheduler then makes passes over the whole new list. Before the first batch, or after reset, it behaves like a new scheduler over the assigned list. Once StopIteration has been raised, nothing of a list that is no longer than the old one is shown before a reset. An episodic scheduler hands the list down, where the same rule holds until the episode ends: after next_episode or reset everything is as if nothing had been assigned.", "quantifier": "all lists, contents, batch sizes, call sequences and moments of the assignment", "why_tests_cant": "The effect depends on the moment of the assignment and on which paths agree at one place; the tests always reset right after an assignment.", "anchors": [{"file": "src/synthpix/scheduler/base.py", "symbols": ["BaseFlowFieldScheduler.file_list", "BaseFlowFieldScheduler._get_next", "BaseFlowFieldScheduler.reset"]}, {"file": "src/synthpix/scheduler/episodic.py", "symbols": ["EpisodicFlowFieldScheduler.file_list", "EpisodicFlowFieldScheduler._sample_new_episodes"]}]}
{"id": "C102", "title": "Assigning file_list to a prefetching scheduler", "statement": "After an assignment to file_list of a prefetching scheduler, the batches its thread has already fetched still come first, unchanged and in order; there are at most buffer_size + 1 of them, and that many are possible for every buffer size. Then come the batches the wrapped scheduler fetches from then on. If the thread is inside get_batch at that moment, the batch being fetched consists of slices of files of both lists and, if the new list is not shorter, nothing is raised but the usual StopIteration. With a shorter list the fetch can raise IndexError, which ends the thread and is reported as end of data, or start over from the first file of the new list although looping is off, depending on the moment.", "quantifier": "all wrapped schedulers, buffer sizes, interleavings and moments of the assignment; lists, contents and batch sizes", "why_tests_cant": "Depends on how far the thread is ahead and on which of three reads of the list the assignment comes before; a test sees one interleaving.", "anchors": [{"file": "src/synthpix/scheduler/prefetch.py", "symbols": ["PrefetchingFlowFieldScheduler.file_list", "PrefetchingFlowFieldScheduler._worker"]}, {"file": "src/synthpix/scheduler/base.py", "symbols": ["BaseFlowFieldScheduler._get_next", "BaseFlowFieldScheduler.get_batch"]}]}
{"id": "C103", "title": "Interpolation in float arithmetic", "statement": "bilinear_interpolate run in binary32 on an image of at most 2^24 rows and columns, at finite coordinates, with finite neighbouring pixels of size at most M <= 2^126, returns a finite number within 2^-21 M + 2^-144 of the exact interpolation of those floats; so it leaves the range of those pixels by no more than that. The same form of bound holds whatever rounding each single operation uses, fused multiply-adds included. Non-negative pixels give a non-negative result, and at the place of a pixel the result is that pixel exactly. If one of the (up to) four pixels read is infinite or NaN the result is not finite, also when its weight is zero, and that is the only cause. A constant image is not always reproduced exactly.", "quantifier": "all images, coordinates, magnitudes and per-operation roundings", "why_tests_cant": "Rounding errors depend on every bit of the inputs and on how the compiler fuses operations; a test with a tolerance checks the inputs it happens to use.", "anchors": [{"file": "src/synthpix/utils.py", "symbols": ["bilinear_interpolate"]}]}
{"id": "C104", "title": "Continuity of interpolation", "statement": "If neighbouring pixels of an image differ by at most Dx along rows and Dy along columns, the interpolated values at two points differ by at most Dx times their distance in x plus Dy times their distance in y, also across cells and outside the image. Hence a float sample taken near the intended point is off by the rounding error of C103 plus the slopes times the displacement of the point.", "quantifier": "all images, pairs of points and slopes", "why_tests_cant": "A claim about every pair of points, including pairs in different cells and outside the image.", "anchors": [{"file": "src/synthpix/utils.py", "symbols": ["bilinear_interpolate", "flow_field_adapter"]}, {"file": "src/synthpix/apply.py", "symbols": ["apply_flow_to_image_backward", "apply_flow_to_particles"]}]}
{"id": "C105", "title": "Histogram matching in float arithmetic", "statement": "match_histogram on an image with intensities in [0, 255] and at most 2^24 pixels, with a histogram of whole counts that add up to the number of pixels, returns in binary32 exactly the levels of exact arithmetic, in whatever order the library adds up; so what C57 and C58 say holds for the floats. With whole counts of another total up to 2^24 the rounding can only lower a level, and it can do so.", "quantifier": "all images, histograms, sizes up to 2^24 pixels and bracketings of the sums", "why_tests_cant": "The result depends on comparing rounded quotients; one pair that ties where it should not changes whole levels, and no test covers all pairs of counts.", "anchors": [{"file": "src/synthpix/utils.py", "symbols": ["match_histogram"]}]}
{"id": "C106", "title": "What the command-line program writes and how it ends", "statement": "src/main.py, once make has returned: the files written are, in order, image 1, image 2 and the arrows of the first num_images_to_display samples of every batch next returned, under names of their own; the program goes on after a batch exactly if the number is not positive or the answer is y or Y; it ends normally at StopIteration or at another answer, and otherwise with the exception of the sampler, the disk or the input; in every case shutdown is called exactly once and last. Over files without episodes it ends normally after the last batch, or never if looping. With episodes it ends with an uncaught EpisodeEnd after the first episode. The mask is ignored: padding is shown like an image of a file.", "quantifier": "all samplers, sequences of batches, answers, failing writes, numbers of images and configurations", "why_tests_cant": "Runs differ in length, in what fails and in what the user types; a test sees a few short runs with everything working.", "anchors": [{"file": "src/main.py", "symbols": ["main", "visualize_and_save"]}, {"file": "src/synthpix/sampler/base.py", "symbols": ["Sampler.__next__", "Sampler.shutdown"]}, {"file": "src/synthpix/scheduler/protocol.py", "symbols": ["EpisodeEnd"]}]}
{"id": "C107", "title": "A run with a prefetch buffer does not depend on how its threads are timed", "statement": "For every configuration make accepts, and for any wrapped scheduler whose episodes are not over when they begin: as long as the background thread keeps up (each waiting call gets its item before its timeout), the batches, exceptions and episode ends a consumer sees through next and next_episode, and everything the command-line program writes and how it ends, are the same whatever the threads' timing and however far the buffer has been filled. reset(scheduler_reset=True) keeps this only over unshuffled files without episodes: with shuffling and looping the order after the reset depends on whether the thread had already passed the end of the list, and with episodes the episode after the reset depends on whether the thread had already drawn the next one.", "quantifier": "all wrapped schedulers, buffer sizes, sequences of calls, pairs of timings that keep up, configurations", "why_tests_cant": "Timing varies from run to run and machine to machine; a test observes one interleaving at a time and cannot compare all of them.", "anchors": [{"file": "src/synthpix/scheduler/prefetch.py", "symbols": ["PrefetchingFlowFieldScheduler.get_batch", "PrefetchingFlowFieldScheduler.next_episode", "PrefetchingFlowFieldScheduler.reset", "PrefetchingFlowFieldScheduler._worker"]}, {"file": "src/synthpix/sampler/base.py", "symbols": ["Sampler.__next__", "Sampler.reset", "Sampler.next_episode"]}, {"file": "src/synthpix/make.py", "symbols": ["make"]}, {"file": "src/main.py", "symbols": ["main"]}]}
{"id": "C108", "title": "What make does with the configurations in the repository and its documentation", "statement": "In the arithmetic Python uses (and in any other), a configuration with finite numbers is accepted exactly when its scheduler can be built, its entries fit together and the geometry can be computed in that arithmetic; otherwise make raises ValueError. config/main.yaml, cylinder.yaml and Jassal.yaml are accepted exactly when their directory holds .mat files, and cut their images 7 pixels inside an area 7 pixels larger; JHTDB.yaml exactly when its eight files are there and the first one opens with positive sides, whatever these are. The documentation's examples for .mat and .npy images, the tutorial's full configuration and config/test_data.yaml are refused on every machine; a file_list that is a string, .npy files with images and the tutorial's spelling measure_units_per_second never give a (synthetic) sampler; with the file_list repaired the tutorial's configuration raises KeyError. The image example with list and missing entry repaired is accepted exactly when the directory holds .mat files; with one file each batch repeats its pair ten times, for ever.", "quantifier": "all machines (file systems, file contents, number of devices, arithmetic), all configurations with finite numbers, all further entries", "why_tests_cant": "A test runs a configuration on one file system; that a shipped configuration is accepted on every machine with the files, and that a documented one is refused on all, needs a statement over all of them.", "anchors": [{"file": "config/main.yaml", "symbols": []}, {"file": "config/cylinder.yaml", "symbols": []}, {"file": "config/Jassal.yaml", "symbols": []}, {"file": "config/JHTDB.yaml", "symbols": []}, {"file": "config/test_data.yaml", "symbols": []}, {"file": "docs/examples/mat/config.yaml", "symbols": []}, {"file": "docs/examples/npy/config.yaml", "symbols": []}, {"file": "docs/tutorials.md", "symbols": []}, {"file": "src/synthpix/make.py", "symbols": ["make"]}, {"file": "src/synthpix/sampler/synthetic.py", "symbols": ["SyntheticImageSampler.__init__", "SyntheticImageSampler.from_config"]}, {"file": "src/synthpix/scheduler/base.py", "symbols": ["BaseFlowFieldScheduler.__init__"]}]}
{"id": "C109", "title": "An image pair shows one set of particles twice", "statement": "Every pair of a generated batch is the picture of one list of particles, as many as the reported density allows in the simulated area. In the first image particle j has a uniformly drawn position, diameters, correlation and brightness in the reported ranges; in the second it is moved by dt times the interpolated velocity of the pair's flow (number i modulo the number of flows) and its parameters have changed by the square root of the variance times a normal draw of their own, clipped to the same ranges; in each image it is hidden when its own draw says so. Each pixel is the sum of the particles' contributions (with patches sized by the largest diameter of all ranges) plus uniform noise plus mean plus deviation times normal noise, clipped to 0..255 and masked; a histogram is matched last. All draws have different keys, fixed by the key of the batch and the number of the pair alone, so the noise settings do not change the particles: noise only adds to the noise-free pair before clipping, and without its normal part it brightens by at most range plus mean.", "quantifier": "every random generator, exponential and square root; all specifications with valid ranges, windows inside the area, areas holding a patch; all batches, flows, masks, histograms, keys and pixels", "why_tests_cant": "A test sees finitely many seeds and cannot recover the particles from the pixels; the claim is an existential over scenes for every seed, setting and pixel, including that no two draws share a key.", "anchors": [{"file": "src/synthpix/data_generate.py", "symbols": ["generate_images_from_flow"]}, {"file": "src/synthpix/generate.py", "symbols": ["img_gen_from_data", "add_noise_to_image"]}, {"file": "src/synthpix/apply.py", "symbols": ["apply_flow_to_particles"]}]}
{"id": "C110", "title": "Drawn images do not depend on the order of the additions beyond rounding", "statement": "In the float arithmetic actually used, a pixel of a drawn image is the sum of what the particles whose patch covers it add (patches of the documented radius around the position clipped to the image, the kernel taken at the once-rounded offset), in whatever order and bracketing the scatter adds them up: the result is within ((1 + 2^-24)^(n-1) - 1) times the sum of the sizes of the n contributions from the exact sum, clipped to 0..255 if asked for. So two drawings of the same particles differ by at most twice that, are equal where at most two particles meet (zero where none does), and in a clipped image with at most 1024 particles on a pixel rounding stays below a sixty-fourth of a grey level. Where three particles meet, the order can make a difference.", "quantifier": "every exponential function; all image sizes with room for a patch below 2^24; all finite positions, any other float parameters whose contributions are finite and sum below 2^126; all orders and bracketings of up to 2^23 additions per pixel", "why_tests_cant": "The order of a scatter-add is chosen by the device at run time: a test sees one order per run, and the claim is about all of them for all particle lists.", "anchors": [{"file": "src/synthpix/generate.py", "symbols": ["img_gen_from_data", "gaussian_2d_correlated"]}]}
{"id": "C111", "title": "Float images agree with the mathematical picture", "statement": "What a particle adds to a pixel in float arithmetic is amp * exp(-m/2), m the quadratic form of the correlated Gaussian at the exact offset from the clipped centre, up to amp * (11 * 2^-24 * spread / (1 - rho^2)^2 + eps + 2^-23) + 2^-150, where spread is the squared distance in standard deviations and eps the error of the library's exponential; it is never negative and never above the peak. A pixel of the image is the clipped sum of these Gaussians over the particles whose patch covers it, up to the sum of those tolerances and the rounding of the additions. With an exponential good to 2^-20, at most sixteen particles on a pixel, peaks up to 255, correlations up to a half in size and patches within eight standard deviations, every pixel is within a third of a grey level of the mathematical picture.", "quantifier": "every exponential within eps on non-positive numbers (and between 0 and 1 for the statement on images); all image sizes with room for a patch below 2^24; patch radius at least 1; all finite positions; diameters between 2^-20 and 2^20, correlations up to 1023/1024 in size, brightness between 0 and 2^20; up to 2^23 particles; all orders of additions", "why_tests_cant": "A test compares a few pixels with a reference computed in the same kind of arithmetic; the claim bounds the distance to the real-valued picture for all parameters and all orders of summation.", "anchors": [{"file": "src/synthpix/generate.py", "symbols": ["img_gen_from_data", "gaussian_2d_correlated"]}]}
{"id": "C112", "title": "Particles moved in float arithmetic", "statement": "The position of a particle in the second image, computed in float arithmetic (position times the grid steps per pixel, flow sampled by interpolation, times resolution and time step, added, divided by the grid steps per pixel), is finite and equals x + dt*res*U(q)/alpha up to 5*2^-24*|x| + 2^-20*M*|res*dt|/alpha + 2^-70, where q is within 3*2^-24 relative of the exact position in grid steps and M bounds the speeds; this holds whether the division is done as such or by the reciprocal. In a uniform flow on images of up to 4096 pixels with displacements of up to 128 pixels, every particle moves by the displacement to within 1/500 of a pixel. Without flow nothing moves at all when the grid steps per pixel are powers of two. With other ratios it may: on 14 by 14 pixels over a 2 by 2 field of zeros, a particle in the middle is drawn in another patch in the second image, and a pixel that has more than two grey levels in the first image has none in the second.", "quantifier": "all flow fields of finite floats up to 2^20 in size with sides below 2^24, all position bounds with sides below 2^24, all finite positions up to 2^24 and time steps and resolutions up to 2^20 in size; both ways to divide; for the counterexample every exponential good to 2^-20 and every order of additions", "why_tests_cant": "A test compares a few positions with a tolerance chosen by hand; the claim bounds the error for every field, scale and position, and shows that equality of the two images without flow depends on the scale.", "anchors": [{"file": "src/synthpix/data_generate.py", "symbols": ["generate_images_from_flow"]}, {"file": "src/synthpix/apply.py", "symbols": ["apply_flow_to_particles"]}]}
{"id": "C113", "title": "Particles sampled in float arithmetic", "statement": "A number drawn from a range [lo, hi] in float arithmetic (unit draw times hi - lo plus lo, with or without a fused product, then not below lo) always lies in [lo, hi] and differs from the exact one by at most 2*2^-24*(hi-lo) + 2^-24*max(|lo|,|hi|) + 2^-149; the upper end can be hit. A position lies in [0, H) strictly, so no particle starts outside the area. Diameters, correlations and intensities of all particles in both images, noise and clipping included, lie in one range of each list; a particle shines in an image exactly when it is switched on and its draw is below the chance to be shown, with a brightness from the range, and is dark otherwise. The number switched on is the floor of area times density or one more, capped by the array; the array holds floor(area * max density) particles or one more; at most one fewer than the minimum density asks for are switched on. With a fixed density all or all but one of the array are on, and all but one happens: density 0.009 on 100 by 100 pixels allocates 90 and shows 89. Consequently, whatever is drawn, every pixel of both images is within the bound of C111 of the mathematical picture of the sampled particles.", "quantifier": "all generators of 23-bit unit draws and finite normal draws; all ranges with diameters in [2^-20, 2^20], intensities in [0, 2^20], correlations in [-1023/1024, 1023/1024] (the draws themselves: any finite ends up to 2^126 in size); all finite noise levels; areas below 2^24 pixels with up to 2^23 particles; fused and unfused products, both ways to divide, all orders of additions; the flows of C112", "why_tests_cant": "A test draws a few samples; staying inside the range at the very last unit draw, the strict bound on positions and the count being off by one at particular densities depend on the rounding of single numbers that random draws practically never hit.", "anchors": [{"file": "src/synthpix/data_generate.py", "symbols": ["generate_images_from_flow"]}, {"file": "src/synthpix/generate.py", "symbols": ["img_gen_from_data"]}]}
{"id": "C114", "title": "Generated images in float arithmetic, end to end", "statement": "generate_images_from_flow run in float arithmetic returns as many pairs as asked for. Both images of each pair have the asked shape and every pixel is finite and in [0, 255], with any finite noise deviation, mask and histogram. Pixel (r, c), before a histogram is matched, is the mask times the clipped sum of (i) the Gaussians, with the real exponential, of the particles sampled for this pair (the second image: moved by the flow number i mod n) at (r + offset_y, c + offset_x), (ii) a unit draw times noise_uniform, the mean, and a normal draw times the deviation, from a key of this image only - up to the bound of C111 plus 2^-21 times (twice the sum of the peaks plus the size of the noise) plus 2^-147. With brightness up to 255, correlations up to a half, diameters at least 5/14 of the patch radius plus one, noise up to 1000 and at most sixteen particles on the pixel this is within half a grey level. Without noise the pixel is exactly clipped. With a histogram of as many counts as pixels (at most 2^24), the output is exactly the exact matching of that image. There is a result for every non-empty list of flows.", "quantifier": "all settings of C113, all finite noise amplitudes and means up to 2^100 and all finite deviations, all masks of zeros and ones, all offsets and shapes inside the simulated area, all batches, all lists of flows up to 2^20 in speed, all draws, all exponentials within eps and between 0 and 1 on non-positive numbers, fused and unfused products, both ways to divide, all orders of additions", "why_tests_cant": "A test compares a handful of images with a reference drawn by the same library; that no draw, rounding, order of additions or overflow of the noise yields a NaN or a level outside the range, and how far any pixel of any batch can be from the mathematical picture, is about all inputs and all executions the compiler may choose.", "anchors": [{"file": "src/synthpix/data_generate.py", "symbols": ["generate_images_from_flow"]}, {"file": "src/synthpix/generate.py", "symbols": ["add_noise_to_image", "img_gen_from_data"]}, {"file": "src/synthpix/utils.py", "symbols": ["match_histogram"]}]}
{"id": "C115", "title": "The flow field adapter in float arithmetic", "statement": "flow_field_adapter as it runs - Python floats up to the ends of the sampling grids, binary32 from jnp.linspace on - returns batch_size flows, the i-th for field i mod n, and one particle flow per field, none with a non-finite entry. Each entry of the reported flow differs from that of exact arithmetic by at most |resolution * dt| (1 for speeds) times (2^-20 times the largest speed plus 13 * 2^-24 times the distance of the grid from the origin times the change of the flow per grid step), plus 2^-100; each entry of the particle flow by the same without the factor, for the size it has. A uniform flow is reported to within 2^-20 of itself wherever the grid lies. The size of the particle flow is the integer below the number of grid steps covered, or one next to it; the former whenever no integer is within 2^-50 of that number, relatively, or both operations are exact. It is not always the former: with 25 pixels and 25 grid steps per unit of length the constructor accepts a configuration whose 116 pixels get a particle flow of 115 rows and columns; a flow reported as 8 pixels then moves the particles by more than 8.06 (refuted).", "quantifier": "all argument values with resolutions between 2^-20 and 2^20, offsets up to 2^20, counts below 2^24 and paddings that keep the field below 2^24 rows and columns, all lists of finite flow fields with speeds up to 2^40, all units, both renderings of the division and all three of the sum of products in linspace", "why_tests_cant": "A test compares one or two fields of one geometry with a tolerance; how the error grows with the distance of the crop from the origin, and that int(pb / res * res_y) loses a whole row only for some integers, is about all geometries.", "anchors": [{"file": "src/synthpix/utils.py", "symbols": ["flow_field_adapter", "bilinear_interpolate"]}, {"file": "src/synthpix/sampler/synthetic.py", "symbols": ["SyntheticImageSampler.__init__"]}]}
{"id": "C116", "title": "Images show the motion that is reported, in float arithmetic", "statement": "One batch of the synthetic sampler run in float arithmetic - the adapter, then the generator on what the adapter returns - (which gets the image shape, offset and time step of the adapter) consists of batch_size image pairs and as many reported flows. For every pair the two images show (in the sense of C114) the sampled particles before and after a motion, and the flow reported with the pair is that motion: each particle ends, per axis, within 6 * 2^-24 of its coordinate plus three times the error of C115 (in pixels) plus 2^-50 of where exact arithmetic moves it in the exact particle flow of the same field, and the reported flow is the exact crop of that field to the error of C115. For uniform flows reported in pixels every particle moves rho times the reported displacement, to within 6 * 2^-24 of its coordinate plus 2^-17 of the displacement, with one factor rho per axis that depends on the configuration only: rho is at least 1 - 2^-50, at most 1 + 1/(x - 1) for x grid steps, and exactly 1 when x is whole and computed without rounding. In that case a particle in an area of up to 4096 pixels moves what is reported to a four-hundredth of a pixel for displacements up to 128 pixels. A batch is generated for every non-empty list of fields.", "quantifier": "all configurations of C114 and C115 with at most 2^23 grid steps per axis, all non-empty lists of flow fields with speed plus error at most 2^19, all draws, all exponentials within eps, all the renderings of products, divisions and sums the compiler may choose, all particles", "why_tests_cant": "The images and the reported flow come out of two computations that share only the configuration; a test that estimates the motion from images has an error of a tenth of a pixel and covers one configuration, so it can neither see a factor close to 1 between what is shown and what is reported nor bound it.", "anchors": [{"file": "src/synthpix/sampler/synthetic.py", "symbols": ["SyntheticImageSampler._get_next"]}, {"file": "src/synthpix/utils.py", "symbols": ["flow_field_adapter"]}, {"file": "src/synthpix/data_generate.py", "symbols": ["generate_images_from_flow"]}, {"file": "src/synthpix/apply.py", "symbols": ["apply_flow_to_particles"]}]}
{"id": "C117", "title": "The constructed geometry is sound in float arithmetic", "statement": "Whenever the constructor of the synthetic sampler accepts its arguments, what it computes in doubles is sound up to rounding to whole pixels: per axis the offset of the image in the simulated area is not negative and exceeds the distance particles can come from upstream less 1 + 2^-20 pixels; the pixels beyond the image exceed the distance particles can come from downstream less 1 + 2^-20; the image sticks out of the area by at most one pixel; the area is no larger than image, distances and the patch of the largest particle (3 * diameter) together, plus 3 pixels; the image starts within 3/2 grid steps and one pixel of the configured offset in the flow field that is read. All numbers handed to the flow field adapter meet the conditions of C115 and C116, with everything within 4 * shape + 2 grid steps. So, from the configuration to the images, every particle of a batch of uniform flows moves what is reported, up to the factor and the rounding of C116.", "quantifier": "all accepted arguments of usual size: flow fields of up to 2^19 length units, 2^21 pixels and 2^20 grid points per axis, with offset, displacements, image and patch not larger than the field, resolutions between 2^-20 and 2^20; then all flows, draws and renderings as in C116", "why_tests_cant": "C40 shows that rounding can cost a pixel; whether it can cost two, or turn an offset negative, depends on the last bit of a chain of ten float operations followed by truncation, which no set of sample configurations decides.", "anchors": [{"file": "src/synthpix/sampler/synthetic.py", "symbols": ["SyntheticImageSampler.__init__"]}, {"file": "src/synthpix/utils.py", "symbols": ["flow_field_adapter"]}]}
{"id": "C118", "title": "Warping an image is right up to rounding in float arithmetic", "statement": "Forward warping in floats gives, at every pixel, a finite number that differs from the exact splat (C48) by at most (1 + 2^-24)^(n+4) - 1 plus what the two coordinates may be off, times the light of the n pixels that land within two pixels of it, plus an underflow term; pixels that land elsewhere have no influence; an image without negative pixels stays so. The light of the whole image is that of the exact warp up to the same relative error times 25, hence nearly conserved when nothing leaves the image. Backward warping differs from the exact one by the rounding of the interpolation (C103) plus, per axis, what the coordinate is off times the steepest change between neighbours; it leaves the range of the pixels by rounding only and makes none negative. A displacement of whole pixels is applied by both without any error: forward moves every pixel and blackens what nothing reaches, backward copies. Whether the compiler fuses products with sums makes no difference to any of this. Exact conservation fails in floats, and one velocity that is not a number, even at a black pixel, spoils a pixel elsewhere.", "quantifier": "all image sizes with side plus three displacements up to 2^23 (backward: sides below 2^24, displacements up to 2^100), all finite images and flow fields of that size, all time steps, all choices of fused operations", "why_tests_cant": "The error depends on how many pixels pile up on one and in which order they are added; a test sees one flow and one compiler.", "anchors": [{"file": "src/synthpix/apply.py", "symbols": ["apply_flow_to_image_forward", "apply_flow_to_image_backward"]}]}
{"id": "C119", "title": "The reported flow against the motion of particles for flows that vary in space", "statement": "For a flow that changes by at most Dx and Dy per grid step, a particle anywhere in the simulated area moves what is reported as vector (i, j), up to the factor of C44 and the change of the flow over reach(i) and reach(j) grid steps, where reach is 2 + |1 - grid steps per vector| plus the distance of the particle from the place of the vector; below 3 at that place if the field is no finer than the vectors. With one grid step and one vector per pixel, any flow is reported exactly: a particle in the image moves what is reported there, interpolated between the pixels. Otherwise the reported field is misregistered: vector k of w is read k/(w-1) * (1 - a/w) grid steps before its place (a is the number of grid steps under the image), so that for an affine flow the motion differs from the reported vector by exactly the gradient times that, and a flow that changes along an axis is reported as it moves the particles if and only if a = w. With eight pixels to the grid step a particle at the centre of a pixel moves 31/4 pixels where 6 are reported.", "quantifier": "all accepted configurations with an image of at least one grid step, all flows (all affine flows without padding for the exact difference), all particle positions in the simulated area and all vectors of the reported field", "why_tests_cant": "Tests compare the reported field with uniform flows, or check shapes; the misregistration vanishes for uniform flows and for one vector per grid step, and else grows towards the bottom right corner of the image.", "anchors": [{"file": "src/synthpix/utils.py", "symbols": ["flow_field_adapter"]}, {"file": "src/synthpix/data_generate.py", "symbols": ["generate_images_from_flow"]}, {"file": "src/synthpix/apply.py", "symbols": ["apply_flow_to_particles"]}, {"file": "src/synthpix/sampler/synthetic.py", "symbols": ["SyntheticImageSampler.__init__"]}]}
{"id": "C120", "title": "The length of a scheduler, and loops over it", "statement": "len of a file scheduler is the number of its files and stays that whatever is called. For files listed once with one flow field each, it is the number of flow fields of a pass, shuffled or not, and calls of size B return exactly ceil(len / B) batches before StopIteration. For HDF5 files it is not: they give as many flow fields as their second axes are long in sum. len of an episodic scheduler is the length of an episode, the steps taken and remaining always add up to it, and the scheduler underneath has L * B files. A prefetcher has no len, but passes on episode_length. No scheduler can be looped over: the loop raises TypeError and leaves a file scheduler and a prefetcher as they were, but gives an episodic scheduler all its steps back while its files stay where they are. A scheduler is false only if it is a file scheduler without files.", "quantifier": "all file lists, contents, seeds, batch sizes and sequences of calls; all episodic schedulers that can be constructed", "why_tests_cant": "Tests take the length of a fresh scheduler over a handful of files; that it stays the same under all calls and counts the batches of a pass for all files and sizes is a statement about all runs.", "anchors": [{"file": "src/synthpix/scheduler/base.py", "symbols": ["BaseFlowFieldScheduler.__len__", "BaseFlowFieldScheduler.__iter__"]}, {"file": "src/synthpix/scheduler/episodic.py", "symbols": ["EpisodicFlowFieldScheduler.__len__", "EpisodicFlowFieldScheduler.__iter__", "EpisodicFlowFieldScheduler.episode_length"]}, {"file": "src/synthpix/scheduler/prefetch.py", "symbols": ["PrefetchingFlowFieldScheduler.episode_length"]}]}
{"id": "C121", "title": "What the settings of the images change of a whole run", "statement": "Give two synthetic samplers over the same scheduler the same calls. If their settings differ at most in variances, intensity and correlation ranges, noise, mask and histogram, and whatever random numbers they draw, all answers agree but for the images: the same reported flows, done flags, masks, file names, end of iteration and errors, and the scheduler is left in the same state. If they differ only in a mask, every pixel of every image is the pixel without the mask times the entry of the array at that row and column, also when the mask is a file of the configuration. If they differ only in a histogram, the pixels become grey levels in the order they have without it. If they differ only in uniform noise of amplitude n, every pixel is brighter by between 0 and n. The reported parameters agree in all three cases.", "quantifier": "all settings, schedulers, generators of random numbers and sequences of calls (next, reset, next_episode); masks of any values, histograms of non-negative entries", "why_tests_cant": "Tests apply a mask to one image; that no setting of the images reaches the flows, the labels or the progress of the scheduler is a statement about pairs of runs of any length.", "anchors": [{"file": "src/synthpix/sampler/synthetic.py", "symbols": ["SyntheticImageSampler.__init__", "SyntheticImageSampler._get_next"]}, {"file": "src/synthpix/data_generate.py", "symbols": ["generate_images_from_flow"]}, {"file": "src/synthpix/utils.py", "symbols": ["match_histogram"]}, {"file": "src/synthpix/generate.py", "symbols": ["add_noise_to_image"]}]}
{"id": "C122", "title": "What is read from a .mat file depends on its format", "statement": "A .mat file in HDF5 format is flattened: every dataset is found under the names on the way to it joined by slashes, and nothing else is found. The file is loaded only if V (and I0, I1 when images are asked for) are arrays at the top of the tree; the same names inside a group do not count. Variables of a file up to v7.2, and arrays written with h5py, arrive exactly as they were stored when they have the size asked for; but a flow with one row or one column can never be read from a file up to v7.2. The same MATLAB variables saved as v7.3 arrive with rows and columns of flow and images exchanged and the two components of the flow not exchanged. So a pair of images that moves as its flow says still does after loading from v7.2, and after loading from v7.3 moves by the components in the other order.", "quantifier": "all trees with proper distinct names at any depth, all variables and sizes, all image resampling functions", "why_tests_cant": "The tests of the repository write .mat files from Python with h5py or SciPy, where nothing is exchanged; none comes from MATLAB in v7.3, and fixtures are noise without motion.", "anchors": [{"file": "src/synthpix/scheduler/mat.py", "symbols": ["MATFlowFieldScheduler.load_file", "MATFlowFieldScheduler._path_is_hdf5"]}]}
{"id": "C123", "title": "What becomes of a prefetching scheduler that is dropped", "statement": "The background thread refers to the prefetching scheduler, so its __del__ is called only after the thread has ended. Dropped between calls while the thread is at work, everything comes to rest after finitely many steps, and the scheduler is eventually collected exactly if the batches stored, in hand and still to come from the wrapped scheduler together fit into the buffer; otherwise the thread waits for room for ever, holding a full queue, one more batch and the wrapped scheduler. Over a scheduler that never runs out (a file scheduler with loop on, for instance) it is never collected. A prefetcher never started, or whose thread met the end of the data, is collected. One told to stop is collected if its queue has room; a completed shutdown() does not guarantee that, since its end marker can take the place it had freed.", "quantifier": "all wrapped schedulers, buffer sizes, moments of dropping (every reachable state) and all continuations of the background thread", "why_tests_cant": "Whether an object is ever collected concerns all continuations of a background thread; a test can only wait for some time, and the tests of the repository call shutdown() themselves.", "anchors": [{"file": "src/synthpix/scheduler/prefetch.py", "symbols": ["PrefetchingFlowFieldScheduler.__del__", "PrefetchingFlowFieldScheduler.shutdown", "PrefetchingFlowFieldScheduler._worker"]}]}
{"id": "C124", "title": "What the argument checks accept, for arguments of any type", "statement": "input_check_apply_flow and input_check_flow_field_adapter accept exactly the arguments they document (arrays of the right rank and last dimension, tuples of two integers or numbers of the right sign, one of the two units), except that NaN passes wherever the test is written `v <= 0`; on anything else, whatever its type, they raise ValueError and nothing else. input_check_gen_img_from_flow, for a validated specification, accepts exactly its documented arguments (NaN resolutions refused; the position bounds may be a list as well as a tuple; the bounds compared with the sum of size and offset as rounded), and raises ValueError otherwise, except TypeError for bounds that are no sequence or contain a non-number, and OverflowError for an infinite upper seeding density, which the specification accepts. On numbers and arrays all three agree with the checks used elsewhere in the model.", "quantifier": "all arguments (None, booleans, ints, floats with NaN and infinities, strings, lists, tuples, dictionaries, jax arrays of any shape), all validated specifications, any rounding of float addition", "why_tests_cant": "The combinations of types and values for thirteen arguments cannot be enumerated; the tests try a few wrong values per argument and never NaN.", "anchors": [{"file": "src/synthpix/apply.py", "symbols": ["input_check_apply_flow"]}, {"file": "src/synthpix/data_generate.py", "symbols": ["input_check_gen_img_from_flow"]}, {"file": "src/synthpix/utils.py", "symbols": ["input_check_flow_field_adapter"]}]}
{"id": "C125", "title": "What the scheduler constructors accept, for arguments of any type", "statement": "HDF5FlowFieldScheduler, MATFlowFieldScheduler and NumpyFlowFieldScheduler succeed exactly when the file list is a list of strings which stands (directories replaced by their matching files) for at least one file, all existing and with the extension of the class, randomize, loop and include_images are booleans and output_shape is a pair of positive integers; the result holds those files in order, shuffled by the key or by that of seed 0. For .h5 the extension is asked of the entries, so a directory not named *.h5 is refused. With images, NumpyFlowFieldScheduler further needs every file to be called flow_<digits>.npy (leading zeros allowed) with img_<t-1>.jpg and img_<t>.jpg in the same directory (t-1 may be -1), and raises FileNotFoundError when, in the shuffled order, a file without its images comes before any misnamed one; the pictures delivered later are read from those same paths. Every other refusal is a ValueError. EpisodicFlowFieldScheduler raises TypeError for a non-scheduler and otherwise succeeds exactly for positive sizes and leaf directories with enough files; PrefetchingFlowFieldScheduler succeeds exactly for positive sizes and positive (or NaN) timeouts. from_config passes on the configured settings; without an entry 'loop' a .mat scheduler does not loop while .h5 and .npy schedulers do.", "quantifier": "all argument values of any type, all file systems, all keys, all configuration dictionaries", "why_tests_cant": "The combinations of argument types, file names (any number of digits, any path) and file systems cannot be enumerated; tests try one wrong value per argument.", "anchors": [{"file": "src/synthpix/scheduler/base.py", "symbols": ["BaseFlowFieldScheduler.__init__"]}, {"file": "src/synthpix/scheduler/hdf5.py", "symbols": ["HDF5FlowFieldScheduler.__init__", "HDF5FlowFieldScheduler.from_config"]}, {"file": "src/synthpix/scheduler/mat.py", "symbols": ["MATFlowFieldScheduler.__init__", "MATFlowFieldScheduler.from_config"]}, {"file": "src/synthpix/scheduler/numpy.py", "symbols": ["NumpyFlowFieldScheduler.__init__", "NumpyFlowFieldScheduler.from_config", "NumpyFlowFieldScheduler.get_next_slice"]}, {"file": "src/synthpix/scheduler/episodic.py", "symbols": ["EpisodicFlowFieldScheduler.__init__"]}, {"file": "src/synthpix/scheduler/prefetch.py", "symbols": ["PrefetchingFlowFieldScheduler.__init__"]}]}
{"id": "C126", "title": "What get_batch does with batch sizes of any type", "statement": "For a file scheduler, get_batch(v) with a value v that is no non-negative integer raises (ValueError for negative integers, TypeError for everything that is no integer) without any effect: in every sequence of calls the other calls get what they would get without it. get_batch(0) raises StopIteration without effect if the scheduler does not loop; if it loops it raises ValueError and restarts the data as reset() does. The episodic scheduler refuses every value different from its batch size without effect, but a number equal to it that is no integer (2.0 for 2) raises TypeError and uses up one step of the episode: k such calls leave the later calls their data but bring EpisodeEnd k steps earlier, until next_episode() or reset(). The prefetching scheduler takes every number equal to its batch size like the integer and refuses all other values without starting its thread.", "quantifier": "all values, all scheduler states, all sequences of calls", "why_tests_cant": "The values and the moments of the calls cannot be enumerated; tests try one wrong batch size on a fresh scheduler and do not look at what the following calls return.", "anchors": [{"file": "src/synthpix/scheduler/base.py", "symbols": ["BaseFlowFieldScheduler.get_batch"]}, {"file": "src/synthpix/scheduler/episodic.py", "symbols": ["EpisodicFlowFieldScheduler.get_batch"]}, {"file": "src/synthpix/scheduler/prefetch.py", "symbols": ["PrefetchingFlowFieldScheduler.get_batch"]}]}
{"id": "C127", "title": "Several threads reading from one prefetching scheduler", "statement": "Any number of threads calling get_batch of one PrefetchingFlowFieldScheduler, in every interleaving with each other and the background thread: the batches they receive, in the order in which they are taken from the queue, are a subsequence of what the wrapped scheduler returns, so no batch goes to two of them; each thread returns what it took, in that order; nothing is lost except at most one batch dropped for the end marker. The marker reaches one thread only: afterwards nobody receives anything and the others stop by their timeouts. The step counter never exceeds the number of items read, so EpisodeEnd never comes too early; it is exact if no two updates of it overlap. If they overlap it falls behind, and calls run into the next episode without EpisodeEnd and without next_episode() (witness). If two threads make the first call together, one of them may get RuntimeError.", "quantifier": "every wrapped scheduler, buffer size, number of threads, interleaving and point in time", "why_tests_cant": "Interleavings cannot be enumerated, and a lost update of the counter needs two threads at the same bytecode.", "anchors": [{"file": "src/synthpix/scheduler/prefetch.py", "symbols": ["PrefetchingFlowFieldScheduler.get_batch", "PrefetchingFlowFieldScheduler._start_worker", "PrefetchingFlowFieldScheduler._worker"]}]}
{"id": "C128", "title": "Shutting a prefetching scheduler down while other threads read", "statement": "One thread calls shutdown() of a PrefetchingFlowFieldScheduler, any number of times, while any number of threads are inside get_batch, in every interleaving: what the readers receive is still a subsequence of what the wrapped scheduler returns, none twice, and each reader returns what it took; at most one batch per call of shutdown() is lost, and one for the end of the stream. Once shutdown() is called the wrapped scheduler is called at most once more, and after shutdown() has looked at the queue the readers together receive at most buffer_size more batches. From the moment shutdown() has put its marker until something is removed, every waiting reader can go on and none times out; but only one reader gets the marker: the others wait for their timeouts although shutdown() has returned (witness).", "quantifier": "every wrapped scheduler, buffer size, number of readers, number and moment of the calls of shutdown(), and interleaving", "why_tests_cant": "The interleavings of readers, background thread and the thread shutting down cannot be enumerated.", "anchors": [{"file": "src/synthpix/scheduler/prefetch.py", "symbols": ["PrefetchingFlowFieldScheduler.shutdown", "PrefetchingFlowFieldScheduler.get_batch", "PrefetchingFlowFieldScheduler._worker"]}]}
{"id": "C129", "title": "Resetting a prefetching scheduler while other threads read", "statement": "One thread calls reset() of a PrefetchingFlowFieldScheduler, any number of times, while any number of threads are inside get_batch, in every interleaving of their accesses: what the readers take from the queue after the wrapped scheduler was reset is, in order, among what it returns from its reset state on, and while no reset() is under way at most one batch fetched since is lost; each reader returns what it took. reset() returns: the thread it waits for ends by its own steps. If nobody calls get_batch while reset() assigns the new attributes, the next call gets the first batch of the reset scheduler. A reader that is waiting when reset() replaces the queue receives nothing any more and its call ends with the timeout, whatever is fetched afterwards. False, with witnesses: that no batch fetched before is returned after reset() has returned (a reader may hold one); that a waiting reader receives the new batches; that episodes have their full length afterwards (a reader that took an item before writes the step counter after it was cleared); that the scheduler delivers again after reset() (a call of get_batch in the middle of it tries to start the old thread, gets RuntimeError and leaves the flag set, and then no reader receives anything until the next reset()).", "quantifier": "every wrapped scheduler, buffer size, number of readers, number and moment of the calls of reset(), and interleaving (except that executions in which a thread that had never been started is started in the middle of reset() are not followed)", "why_tests_cant": "The interleavings of readers, background thread and the assignments of reset() cannot be enumerated.", "anchors": [{"file": "src/synthpix/scheduler/prefetch.py", "symbols": ["PrefetchingFlowFieldScheduler.reset", "PrefetchingFlowFieldScheduler.get_batch", "PrefetchingFlowFieldScheduler._start_worker", "PrefetchingFlowFieldScheduler._worker"]}]}
{"id": "C130", "title": "Skipping to the next episode while other threads read", "statement": "One thread calls next_episode() of a PrefetchingFlowFieldScheduler, any number of times, while any number of threads are inside get_batch, in every interleaving of their accesses: what the readers take together is, in order, among the batches of the wrapped scheduler, none twice; each reader returns what it took; every batch fetched is taken, discarded by next_episode() or still in the buffer, except at most one for the end of the stream; a call discards at most as many batches as an episode has. A call beside which no reader takes a batch or writes the step counter, and which meets neither its deadline nor the end of the stream, discards exactly what remained of the episode by the step counter, which is zero afterwards. After the end-of-stream marker or its deadline a call removes nothing more, and when a call returns the started flag is set and the background thread has been started or a reader is about to start it. False, with a witness: that the first batch read after next_episode() has returned is the first step of an episode (a reader that takes a step after the remaining number was read makes the call discard the first step of the next episode instead, and episodes stay shifted against the counter).", "quantifier": "every wrapped scheduler, buffer size, number of readers, number and moment of the calls of next_episode(), expiry of its deadline, and interleaving", "why_tests_cant": "The interleavings of readers, background thread and next_episode() cannot be enumerated.", "anchors": [{"file": "src/synthpix/scheduler/prefetch.py", "symbols": ["PrefetchingFlowFieldScheduler.next_episode", "PrefetchingFlowFieldScheduler.steps_remaining", "PrefetchingFlowFieldScheduler.get_batch", "PrefetchingFlowFieldScheduler._start_worker", "PrefetchingFlowFieldScheduler._worker"]}]}
{"id": "C131", "title": "Trilinear interpolation in float32", "statement": "trilinear_interpolate() in float32 (every operation rounded to nearest even): for a volume of any size and any finite point, inside or outside, if the corner voxels of its cell are finite and at most M in magnitude (M at most 2^126), the result is finite and within 2^-17 M + 2^-145 of the exact trilinear interpolation at that point, hence leaves the range of the corners by no more than that; corners that are not negative give a result that is not negative; at integer coordinates inside the volume the result is that voxel without any error, whatever the other voxels are; the result is finite exactly if all corner voxels are, a voxel that is not finite elsewhere having no effect. False, with a witness: that a volume which is 1 everywhere gives at most 1.", "quantifier": "every volume of floats with sides up to 2^31, every finite float triple of coordinates", "why_tests_cant": "The bound concerns all 2^96 coordinate triples and all volumes; sampled comparisons cannot exclude a worse case.", "anchors": [{"file": "src/synthpix/utils.py", "symbols": ["trilinear_interpolate"]}, {"file": "src/synthpix/apply.py", "symbols": ["apply_flow_to_particles"]}]}
{"id": "C132", "title": "Moving particles in three dimensions in float32", "statement": "The 3-D update of apply_flow_to_particles() in float32 (every operation rounded to nearest even): if the corner voxels of the particle's cell are finite and at most M in magnitude in every channel (M at most 2^20), the time step and the resolutions are at most 2^20 and the coordinates at most 2^24 in magnitude, each new coordinate is finite and within 2^-24 |c| + 2^-16 M |res| |dt| + 2^-100 of c + w res dt, with c the old coordinate and w the exact trilinear interpolation of its channel (third channel for z, second for y, first for x), so no particle moves further than M |res| |dt| plus that; where all corner voxels, the resolutions and the time step are not negative, no coordinate that stays finite decreases, without any tolerance; where all corner voxels are zero, or the time step is zero, the particle stays exactly where it is; a voxel that is not finite at a corner of the cell in one channel makes the coordinate of that channel not finite, and a coordinate depends on no other channel or resolution.", "quantifier": "every flow of floats with sides up to 2^31, every particle, time step and resolutions within the stated sizes (any finite ones for a particle in zero flow)", "why_tests_cant": "The bound concerns all positions, flows, time steps and resolutions; sampled comparisons cannot exclude a worse case.", "anchors": [{"file": "src/synthpix/apply.py", "symbols": ["apply_flow_to_particles"]}, {"file": "src/synthpix/utils.py", "symbols": ["trilinear_interpolate"]}]}
