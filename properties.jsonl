{"id": "C01", "title": "Saved matrices load back unchanged", "statement": "Saving any non-empty matrix of a supported numeric type to a .npy stream on a little-endian host and loading it again, into a matrix of either storage order, gives a matrix with the same dimensions and bit-identical entries, and the reader consumes exactly the bytes the writer produced.", "quantifier": "all dtypes, all row/column counts whose product fits in int32, all entry bit patterns, both storage orders on either side, any trailing bytes", "why_tests_cant": "the space of shapes and bit patterns is unbounded; a test samples a few sizes", "anchors": ["include/ldaplusplus/NumpyFormat.hpp:NumpyOutput::operator<<", "include/ldaplusplus/NumpyFormat.hpp:NumpyInput::operator>>", "include/ldaplusplus/NumpyFormat.hpp:NumpyInput::operator Eigen::Matrix", "include/ldaplusplus/NumpyFormat.hpp:save", "include/ldaplusplus/NumpyFormat.hpp:load"]}
{"id": "C02", "title": "A saved model file loads back as the same model", "statement": "Saving a trained model (alpha, beta, eta written one after the other) and loading the file returns the same three arrays, bit for bit; the same holds for any sequence of arrays written to one stream, such as the (documents, labels) input file.", "quantifier": "all non-empty model dimensions and contents; all finite sequences of arrays", "why_tests_cant": "alignment and parse errors depend on the exact lengths of headers, which vary with the dimensions", "anchors": ["src/applications/lda_io.cpp:save_lda", "src/applications/lda_io.cpp:load_lda", "src/applications/lda_io.cpp:parse_input_data", "include/ldaplusplus/NumpyFormat.hpp"]}
{"id": "C03", "title": "Written files are well-formed .npy version 1.0", "statement": "Every stream the writer emits for an array consists of the 8 magic/version bytes, a little-endian 16-bit header length, a header of exactly that length that ends with a newline, is padded with spaces, and makes the data start at a multiple of 16 bytes, followed by exactly (number of entries) x (entry size) data bytes.", "quantifier": "all dtypes, shapes (headers below 64 KiB) and contents", "why_tests_cant": "padding depends on the printed length of each dimension", "anchors": ["include/ldaplusplus/NumpyFormat.hpp:NumpyOutput::operator<<"]}
{"id": "C04", "title": "Files written by numpy load correctly", "statement": "A version 1.0 file whose header is numpy's canonical dictionary text for a matching dtype, C or Fortran order and any 1-D, 2-D or N-D shape, with any amount of padding, is read with the right shape, order and entries; entry (r,c) of the loaded 2-D matrix is the array's entry (r,c) in both orders; a 1-D array of length n loads as an n x 1 column.", "quantifier": "all shapes with at least one dimension and product in int32, all paddings, both orders", "why_tests_cant": "the parser scans text whose length depends on the shape", "anchors": ["include/ldaplusplus/NumpyFormat.hpp:NumpyInput::operator>>"]}
{"id": "C05", "title": "Wrong element type is rejected", "statement": "Loading a file whose header announces another element kind or size than the requested scalar type throws an exception and never reinterprets the bytes.", "quantifier": "every pair of distinct supported element types, every shape and content", "why_tests_cant": "all pairs and all header contents", "anchors": ["include/ldaplusplus/NumpyFormat.hpp:NumpyInput::operator>>", "include/ldaplusplus/NumpyFormat.hpp:dtype_for_scalar"]}
{"id": "C06", "title": "Files of the other byte order load with the same values", "statement": "Loading a file written on a host of the opposite byte order yields the same numeric values.", "quantifier": "all values and shapes, both host byte orders", "why_tests_cant": "needs hosts of both byte orders and all values", "anchors": ["include/ldaplusplus/NumpyFormat.hpp:swap_endianess", "include/ldaplusplus/NumpyFormat.hpp:NumpyInput::operator>>"]}
{"id": "C07", "title": "Truncated or foreign input is rejected", "statement": "Loading from an empty stream, from a stream that ends before the announced data is complete, or from a stream that does not carry the .npy magic throws instead of returning a matrix.", "quantifier": "every cut point of every file and every foreign prefix", "why_tests_cant": "every prefix length of every file is a separate crash point", "anchors": ["include/ldaplusplus/NumpyFormat.hpp:NumpyInput::operator>>"]}
{"id": "C08", "title": "A hostile shape cannot cause out-of-bounds reads", "statement": "Whatever shape a file's header announces, loading either throws or returns a matrix; it never reads outside the buffer it allocated.", "quantifier": "all header texts", "why_tests_cant": "requires adversarial headers", "anchors": ["include/ldaplusplus/NumpyFormat.hpp:NumpyInput::operator>>", "include/ldaplusplus/NumpyFormat.hpp:NumpyInput::operator Eigen::Matrix"]}
{"id": "C09", "title": "Shuffling never loses, duplicates or relabels documents", "statement": "After any number of shuffles with any random draws, enumerating a corpus by index visits every column of the input matrix exactly once, and in a labelled corpus every document is still paired with its own label. Reading a position that is not below the size is undefined.", "quantifier": "all matrices, labels, seeds and numbers of shuffles", "why_tests_cant": "all sequences of random draws", "anchors": ["src/ldaplusplus/Document.cpp:CorpusIndexes::shuffle", "src/ldaplusplus/Document.cpp:EigenCorpus::at", "src/ldaplusplus/Document.cpp:EigenClassificationCorpus::at"]}
{"id": "C10", "title": "Class priors are the label frequencies", "statement": "For labels that are non-negative, the prior of class c is the number of documents with label c divided by the number of documents, and the priors sum to one; shuffling does not change them.", "quantifier": "all non-empty vectors of non-negative labels", "why_tests_cant": "all label vectors", "anchors": ["src/ldaplusplus/Document.cpp:EigenClassificationCorpus::EigenClassificationCorpus", "src/ldaplusplus/Document.cpp:EigenClassificationCorpus::get_prior"]}
{"id": "C11", "title": "Queued events reach every listener exactly once, in order, under concurrency", "statement": "With a thread-safe dispatcher, whatever the interleaving of add, remove, dispatch and process calls from any number of threads, no event is lost or duplicated: every dispatched event is handed out by exactly one process call, in dispatch order, to exactly the listeners registered when that call takes its snapshot.", "quantifier": "all interleavings of any number of calls from any number of threads", "why_tests_cant": "interleavings", "anchors": ["src/ldaplusplus/events/Events.cpp:ThreadSafeEventDispatcher::process_events", "src/ldaplusplus/events/Events.cpp:ThreadSafeEventDispatcher::dispatch"]}
{"id": "C12", "title": "Removed listeners hear nothing more and others are unaffected", "statement": "Once remove_listener(l) has returned, a process call that starts afterwards does not notify l, and the other listeners keep their registration and relative order.", "quantifier": "all registration histories, including removal of the first, last, absent or repeatedly registered listener", "why_tests_cant": "histories", "anchors": ["src/ldaplusplus/events/Events.cpp:ThreadSafeEventDispatcher::remove_listener", "src/ldaplusplus/events/Events.cpp:ThreadSafeEventDispatcher::process_events", "src/ldaplusplus/events/Events.cpp:EventDispatcher::remove_listener"]}
{"id": "C13", "title": "Events from worker threads are delivered on the owner's thread", "statement": "With the dispatcher an LDA object installs, dispatching from the thread that created it delivers all pending events and this one before the call returns; dispatching from any other thread delivers nothing by itself, and the event waits for the owner's next dispatch or process call.", "quantifier": "all histories of dispatch calls from all threads", "why_tests_cant": "schedules", "anchors": ["src/ldaplusplus/events/Events.cpp:SameThreadEventDispatcher::dispatch"]}
{"id": "C14", "title": "Each document goes through the E step and the M step exactly once per epoch", "statement": "Whatever the number of workers (at least one) and the thread schedule, one partial_fit call computes the E step of every document of the corpus exactly once and feeds it to the M step exactly once, paired with that document's own variational parameters, and then finishes the E step and the M step once each, in this order, after all documents.", "quantifier": "all schedules, worker counts >= 1, corpus sizes", "why_tests_cant": "schedules", "anchors": ["src/ldaplusplus/LDA.cpp:LDA::partial_fit", "src/ldaplusplus/LDA.cpp:LDA::create_worker_pool", "src/ldaplusplus/LDA.cpp:LDA::extract_vp_from_queue", "src/ldaplusplus/LDA.cpp:LDA::destroy_worker_pool"]}
{"id": "C15", "title": "transform returns the same matrix for every schedule", "statement": "Column i of the result of transform is the gamma vector of column i of the input, whatever the number of workers (at least one) and the schedule, and the model is not changed.", "quantifier": "all schedules, worker counts >= 1, inputs", "why_tests_cant": "schedules", "anchors": ["src/ldaplusplus/LDA.cpp:LDA::transform"]}
{"id": "C16", "title": "Training and inference never deadlock", "statement": "With at least one worker, from every reachable state of partial_fit or transform some thread can make progress, every execution finishes after a bounded number of steps (not counting spurious wake-ups), all worker threads have been joined and both queues are empty on return.", "quantifier": "all schedules, worker counts, corpus sizes", "why_tests_cant": "schedules", "anchors": ["src/ldaplusplus/LDA.cpp:LDA::create_worker_pool", "src/ldaplusplus/LDA.cpp:LDA::extract_vp_from_queue", "src/ldaplusplus/LDA.cpp:LDA::destroy_worker_pool", "src/ldaplusplus/LDABuilder.cpp:LDABuilder::LDABuilder"]}
{"id": "C17", "title": "Progress events are complete before the epoch event", "statement": "A listener registered before partial_fit receives, on the calling thread, exactly one expectation event per document, each before that document's M-step contribution is made, and the epoch event after all of them as the last event of the call.", "quantifier": "all schedules, worker counts >= 1, corpus sizes, random likelihood sampling", "why_tests_cant": "schedules", "anchors": ["src/ldaplusplus/LDA.cpp:LDA::partial_fit", "src/ldaplusplus/LDA.cpp:LDA::process_worker_events", "src/ldaplusplus/events/Events.cpp"]}
{"id": "C18", "title": "Model parameters are not written while workers read them", "statement": "During partial_fit no thread writes the model parameters while another thread runs an E step that reads them.", "quantifier": "all schedules, all M steps of the library", "why_tests_cant": "data races show up only under particular schedules", "anchors": ["src/ldaplusplus/LDA.cpp:LDA::partial_fit", "src/ldaplusplus/em/FastOnlineSupervisedMStep.cpp:FastOnlineSupervisedMStep::doc_m_step"]}
{"id": "C19", "title": "Training does not depend on the number of workers or the schedule", "statement": "In exact arithmetic, with a batch M step, the model after partial_fit is the same for every schedule and number of workers.", "quantifier": "all schedules, worker counts >= 1, corpora", "why_tests_cant": "schedules", "anchors": ["src/ldaplusplus/LDA.cpp:LDA::partial_fit", "src/ldaplusplus/em/UnsupervisedMStep.cpp", "src/ldaplusplus/em/FastSupervisedMStep.cpp"]}
{"id": "C20", "title": "The builder refuses incomplete models, and only those", "statement": "Whatever sequence of builder calls was made, conversion to an LDA object throws exactly when the last topic initialisation (if any) left no topics, or when the E or M step was chosen last through the setter of a supervised step and no supervised parameters are present; initialising eta throws exactly when there are no topics; a built object carries the settings chosen last.", "quantifier": "all finite sequences of builder calls", "why_tests_cant": "histories", "anchors": ["src/ldaplusplus/LDABuilder.cpp:LDABuilder::operator LDA<Scalar>", "src/ldaplusplus/LDABuilder.cpp:LDABuilder::initialize_eta_zeros", "include/ldaplusplus/LDABuilder.hpp"]}
{"id": "C21", "title": "A built model is dimensionally consistent", "statement": "In an LDA object obtained from a builder the number of topics of the prior, of the topics and of the supervised parameters agree.", "quantifier": "all finite sequences of builder calls", "why_tests_cant": "histories", "anchors": ["src/ldaplusplus/LDABuilder.cpp"]}
{"id": "C22", "title": "Initial topics are probability distributions", "statement": "After seeded or random topic initialisation, alpha is uniform with entries 1/topics and each topic is a probability distribution over the vocabulary (seeded: with all entries positive, proportional to one plus the drawn documents; random: proportional to the draws, which must not all be zero). Initialising the supervised parameters gives, for every topic, zeros or the uniform distribution over the classes, and leaves the topics as they are.", "quantifier": "all corpora, topic counts >= 1, and random draws", "why_tests_cant": "random draws", "anchors": ["src/ldaplusplus/LDABuilder.cpp:LDABuilder::initialize_topics_seeded", "src/ldaplusplus/LDABuilder.cpp:LDABuilder::initialize_topics_random"]}
{"id": "C23", "title": "LDA objects built from one builder are independent", "statement": "Training one LDA object obtained from a builder does not change another LDA object obtained from the same builder.", "quantifier": "all builder call sequences and training histories", "why_tests_cant": "aliasing histories", "anchors": ["src/ldaplusplus/LDABuilder.cpp:LDABuilder::operator LDA<Scalar>", "include/ldaplusplus/LDABuilder.hpp"]}
{"id": "C24", "title": "The table-based exponential is accurate", "statement": "In exact arithmetic, the logarithm of the fast exponential of x differs from x by at most max(1,|x|)/1023 plus 10^-9 for |x| <= 100, and the result is always positive.", "quantifier": "all real x", "why_tests_cant": "continuum of inputs", "anchors": ["include/ldaplusplus/utils.hpp:fast_exp", "include/ldaplusplus/utils.hpp:exp_lut"]}
{"id": "C25", "title": "The table lookup of the fast exponential is in bounds", "statement": "For every finite or infinite floating-point argument the fast exponential reads inside its table and its halving loop ends.", "quantifier": "all binary64 and binary32 values", "why_tests_cant": "2^64 inputs", "anchors": ["include/ldaplusplus/utils.hpp:fast_exp"]}
{"id": "C26", "title": "The fast exponential is monotone", "statement": "In exact arithmetic the fast exponential is non-decreasing.", "quantifier": "all pairs of reals", "why_tests_cant": "continuum", "anchors": ["include/ldaplusplus/utils.hpp:fast_exp"]}
{"id": "C27", "title": "digamma is accurate and terminates for positive arguments", "statement": "For every positive argument the digamma routine terminates after at most seven recurrence steps and, in exact arithmetic, is within 10^-9 of the digamma function.", "quantifier": "all positive reals", "why_tests_cant": "continuum", "anchors": ["include/ldaplusplus/utils.hpp:digamma"]}
{"id": "C28", "title": "Normalisation helpers produce distributions or leave zero lines alone", "statement": "Normalising the rows (columns) of a matrix leaves rows (columns) whose sum is zero unchanged and makes every other row (column) sum to one, keeping all ratios within the line.", "quantifier": "all matrices", "why_tests_cant": "continuum", "anchors": ["include/ldaplusplus/utils.hpp:normalize_rows", "include/ldaplusplus/utils.hpp:normalize_cols"]}
{"id": "C29", "title": "Words that do not occur in a document do not influence its topic mixture", "statement": "The gamma computed for a document does not depend on the topics' entries for vocabulary words with count zero, even if those entries are NaN or infinite.", "quantifier": "all models, documents and scalar types", "why_tests_cant": "continuum and special values", "anchors": ["include/ldaplusplus/utils.hpp:sum_cols_scaled", "src/ldaplusplus/e_step_utils.cpp:compute_gamma"]}
{"id": "C30", "title": "The unsupervised E step returns a valid posterior", "statement": "In exact arithmetic, for positive alpha and non-negative beta, the returned phi has non-negative columns, each summing to one (or zero where no topic supports the word), gamma_i = alpha_i + sum_n X_n phi_in, and the entries of gamma sum to sum(alpha) plus the document length when every occurring word is supported by some topic.", "quantifier": "all models and documents, iteration limits, tolerances", "why_tests_cant": "continuum", "anchors": ["src/ldaplusplus/em/UnsupervisedEStep.cpp:doc_e_step", "src/ldaplusplus/e_step_utils.cpp:compute_unsupervised_phi", "src/ldaplusplus/e_step_utils.cpp:compute_gamma"]}
{"id": "C31", "title": "The supervised E-step variants return valid posteriors", "statement": "The same holds for the fast supervised, multinomial and correspondence E steps (and tau is a distribution over the vocabulary).", "quantifier": "all models, documents, labels in range, iteration limits, tolerances, weights", "why_tests_cant": "continuum", "anchors": ["src/ldaplusplus/em/FastSupervisedEStep.cpp", "src/ldaplusplus/em/MultinomialSupervisedEStep.cpp", "src/ldaplusplus/em/CorrespondenceSupervisedEStep.cpp", "src/ldaplusplus/e_step_utils.cpp"]}
{"id": "C32", "title": "The sLDA E step conserves mass and uses the documented h", "statement": "In exact arithmetic, for positive models, the sLDA E step keeps every phi column a distribution, keeps gamma = alpha + sum_n X_n phi_n through the incremental updates, keeps its running products equal to the full products, and the vector h it uses for word n is the documented sum over classes of products over the other words.", "quantifier": "all positive models, documents, labels, fixed-point and outer iteration counts", "why_tests_cant": "loop invariants over unbounded loops", "anchors": ["src/ldaplusplus/em/SupervisedEStep.cpp", "src/ldaplusplus/e_step_utils.cpp:compute_h", "src/ldaplusplus/e_step_utils.cpp:compute_supervised_phi_gamma"]}
{"id": "C33", "title": "E steps stop on convergence or at the iteration limit", "statement": "Every E step performs at most the configured number of iterations, and if it stops earlier the mean absolute change of gamma in the last iteration was below the configured tolerance.", "quantifier": "all models, documents, limits and tolerances", "why_tests_cant": "continuum", "anchors": ["src/ldaplusplus/em/AbstractEStep.cpp:converged", "src/ldaplusplus/em/MultinomialSupervisedEStep.cpp"]}
{"id": "C34", "title": "The phi update is optimal up to the exponential's error", "statement": "For fixed gamma the phi update maximises the document's evidence lower bound over all phi with simplex columns, up to twice the error of the fast exponential's logarithm per word.", "quantifier": "all models, documents and competing phi", "why_tests_cant": "continuum", "anchors": ["src/ldaplusplus/e_step_utils.cpp:compute_unsupervised_phi", "include/ldaplusplus/utils.hpp:fast_exp"]}
{"id": "C35", "title": "With zero supervised parameters the fast supervised E step is the plain E step", "statement": "When eta is zero (or the supervised weight is zero) the gamma returned by the fast supervised E step equals the one of the unsupervised E step with the same settings.", "quantifier": "all models, documents and labels in range", "why_tests_cant": "continuum", "anchors": ["src/ldaplusplus/em/FastSupervisedEStep.cpp", "src/ldaplusplus/e_step_utils.cpp:compute_supervised_approximate_phi"]}
{"id": "C36", "title": "The reported likelihood is the evidence lower bound", "statement": "The likelihood reported for a document by the unsupervised E step is the standard LDA evidence lower bound of the returned variational parameters.", "quantifier": "all models, documents (any counts) and variational parameters", "why_tests_cant": "continuum", "anchors": ["src/ldaplusplus/e_step_utils.cpp:compute_unsupervised_likelihood"]}
{"id": "C37", "title": "The M step returns the maximum-likelihood topics", "statement": "After a batch M step in which every topic received mass, each topic is a probability distribution proportional to the expected word counts accumulated since the previous M step, and no other row-stochastic matrix has a larger expected log likelihood.", "quantifier": "all sets of documents and variational parameters, all competing topics", "why_tests_cant": "continuum", "anchors": ["src/ldaplusplus/em/UnsupervisedMStep.cpp"]}
{"id": "C38", "title": "Batch M steps remember nothing from earlier epochs", "statement": "The topics produced by a batch M step depend only on the documents seen since the previous M step, for every history of earlier epochs.", "quantifier": "all histories of document updates and M steps", "why_tests_cant": "histories", "anchors": ["src/ldaplusplus/em/UnsupervisedMStep.cpp", "src/ldaplusplus/em/MultinomialSupervisedMStep.cpp", "src/ldaplusplus/em/CorrespondenceSupervisedMStep.cpp", "src/ldaplusplus/em/FastOnlineSupervisedMStep.cpp"]}
{"id": "C39", "title": "The logistic regression is trained on exactly the epoch's labelled documents", "statement": "When the (fast) supervised M step fits eta, its training set consists of exactly the labelled documents seen since the previous M step, in order, each with its own expected topic mixture and label, for every history of epochs with varying numbers of documents.", "quantifier": "all histories", "why_tests_cant": "buffer growth and reuse depends on the whole history", "anchors": ["src/ldaplusplus/em/FastSupervisedMStep.cpp", "src/ldaplusplus/em/SupervisedMStep.cpp", "src/ldaplusplus/em/SemiSupervisedMStep.cpp"]}
{"id": "C40", "title": "Multinomial and correspondence M steps return distributions", "statement": "For smoothing mu > 1 (mu >= 1 with mass in every topic), after the multinomial or correspondence M step every row of eta is a probability distribution over classes (strictly positive for mu > 1) and every topic with mass is a distribution.", "quantifier": "all document sets, mu", "why_tests_cant": "continuum", "anchors": ["src/ldaplusplus/em/MultinomialSupervisedMStep.cpp", "src/ldaplusplus/em/CorrespondenceSupervisedMStep.cpp"]}
{"id": "C41", "title": "Unlabelled documents influence only the topics", "statement": "In the semi-supervised M step documents with a negative label contribute to the topics exactly like in the unsupervised M step and do not influence eta.", "quantifier": "all histories of labelled and unlabelled documents", "why_tests_cant": "histories", "anchors": ["src/ldaplusplus/em/SemiSupervisedMStep.cpp", "src/ldaplusplus/em/SemiSupervisedEStep.cpp"]}
{"id": "C42", "title": "The online M step updates once per full mini-batch and keeps topics stochastic", "statement": "The online M step updates the model after exactly every minibatch_size documents counted across epochs, the end-of-epoch call changes nothing, and row-stochastic topics stay row-stochastic when every topic receives mass.", "quantifier": "all histories of documents and epochs", "why_tests_cant": "histories", "anchors": ["src/ldaplusplus/em/FastOnlineSupervisedMStep.cpp"]}
{"id": "C43", "title": "User-supplied class weights are honoured", "statement": "Changing the class weights given to the online M step changes the gradient steps accordingly.", "quantifier": "all weights and histories", "why_tests_cant": "needs all weights", "anchors": ["src/ldaplusplus/em/FastOnlineSupervisedMStep.cpp", "src/ldaplusplus/optimization/MultinomialLogisticRegression.cpp"]}
{"id": "C44", "title": "The logistic-regression gradient is the gradient of its objective", "statement": "For every training set, labels in range, penalty and eta, each entry of the computed gradient is the partial derivative of the computed objective value.", "quantifier": "all training sets and eta", "why_tests_cant": "continuum", "anchors": ["src/ldaplusplus/optimization/MultinomialLogisticRegression.cpp"]}
{"id": "C45", "title": "The second-order objective's gradient is its gradient", "statement": "The same for the second-order approximation used by the sLDA M step.", "quantifier": "all training sets, variances and eta", "why_tests_cant": "continuum", "anchors": ["src/ldaplusplus/optimization/SecondOrderLogisticRegressionApproximation.cpp"]}
{"id": "C46", "title": "Armijo line search terminates with sufficient decrease", "statement": "For a differentiable objective and its gradient direction the backtracking loop ends and the accepted step satisfies the sufficient-decrease inequality; the returned value is the objective at the returned point.", "quantifier": "all objectives differentiable at the start point, parameters in (0,1)", "why_tests_cant": "loop termination over a continuum", "anchors": ["include/ldaplusplus/optimization/GradientDescent.hpp:ArmijoLineSearch"]}
{"id": "C47", "title": "Fitting eta never makes the objective worse and is bounded", "statement": "Gradient descent as configured by the supervised M steps performs at most the configured number of iterations and never ends at a point with a larger objective than the starting eta; the reported sequence of log likelihoods is non-decreasing.", "quantifier": "all training sets, starting points, limits, tolerances", "why_tests_cant": "continuum", "anchors": ["include/ldaplusplus/optimization/GradientDescent.hpp:GradientDescent::minimize", "src/ldaplusplus/em/FastSupervisedMStep.cpp", "src/ldaplusplus/em/SupervisedMStep.cpp"]}
{"id": "C48", "title": "Class weighting is balanced", "statement": "The weights used by the logistic regression give every class present in the training set the same total weight D/C.", "quantifier": "all label vectors", "why_tests_cant": "all label vectors", "anchors": ["src/ldaplusplus/optimization/MultinomialLogisticRegression.cpp:MultinomialLogisticRegression", "src/applications/utils.cpp:create_class_weights"]}
{"id": "C49", "title": "predict returns the class with the largest score", "statement": "For every document with words, predict returns an index in range whose decision score is maximal (the first such), the scores are eta^T applied to the document's normalised expected topic proportions, and predict depends on nothing else.", "quantifier": "all gamma matrices and eta", "why_tests_cant": "continuum", "anchors": ["src/ldaplusplus/LDA.cpp:LDA::decision_function", "src/ldaplusplus/LDA.cpp:LDA::predict"]}
{"id": "C50", "title": "transform_predict agrees with transform and predict", "statement": "The pair returned by transform_predict is what transform and predict return separately.", "quantifier": "all inputs", "why_tests_cant": "schedules and inputs", "anchors": ["src/ldaplusplus/LDA.cpp:LDA::transform_predict"]}
{"id": "C51", "title": "Inference on unlabelled documents is well defined for every E step", "statement": "transform and predict, which take no labels, are well defined for every E step the builder offers.", "quantifier": "all E steps", "why_tests_cant": "undefined behaviour may go unnoticed in a test", "anchors": ["src/ldaplusplus/LDA.cpp:LDA::get_corpus", "src/ldaplusplus/em"]}
{"id": "C52", "title": "Snapshots are taken every N epochs under distinct names", "statement": "With a snapshot listener for every N >= 1 epochs (N an int, fewer than 2^31 epochs), exactly the epochs N, 2N, 3N, ... are saved, each under a different name, and each snapshot holds the model as it was when that epoch ended.", "quantifier": "all N, numbers of epochs", "why_tests_cant": "histories", "anchors": ["src/applications/SnapshotEvery.cpp"]}
{"id": "C53", "title": "The printed average likelihood is the average", "statement": "The per-document likelihood printed at the end of an epoch is the average of the epoch's reported finite likelihoods.", "quantifier": "all sequences of reported likelihoods", "why_tests_cant": "all sequences", "anchors": ["src/applications/EpochProgress.cpp"]}
{"id": "C54", "title": "Continuing from an unsupervised model uses the given file", "statement": "Training started with the option to continue from an unsupervised model loads that model's topics.", "quantifier": "all argument combinations", "why_tests_cant": "all option combinations", "anchors": ["src/applications/slda.cpp", "src/applications/fslda.cpp"]}
{"id": "C55", "title": "Partially labelled data can be passed to fit", "statement": "Semi-supervised training: passing a negative label for a document without a class (as the semi-supervised steps document) to fit or partial_fit is well defined, whatever the other labels.", "quantifier": "all label vectors with at least one negative label", "why_tests_cant": "undefined behaviour may go unnoticed in a test", "anchors": ["src/ldaplusplus/Document.cpp:EigenClassificationCorpus", "src/ldaplusplus/LDA.cpp:LDA::get_corpus", "include/ldaplusplus/em/SemiSupervisedEStep.hpp"]}
{"id": "C56", "title": "The document counter counts the documents of the epoch", "statement": "The progress listener that prints every N documents prints, in every epoch of fit, exactly N, 2N, 3N, ... up to the number of documents, for every number of workers and schedule.", "quantifier": "all corpora of fewer than 2^31 documents, N, worker counts, schedules", "why_tests_cant": "schedules", "anchors": ["src/applications/ExpectationProgress.cpp", "src/ldaplusplus/LDA.cpp:LDA::partial_fit"]}
{"id": "C57", "title": "The transform commands use the model of the file", "statement": "lda, slda and fslda transform build an inference object with exactly the topics and prior stored in the given model file (slda and fslda also its eta), and do so for every model with topics and all readable options.", "quantifier": "all models, option values", "why_tests_cant": "all option combinations", "anchors": ["src/applications/lda.cpp:create_lda_for_transform", "src/applications/slda.cpp:create_lda_for_transform", "src/applications/fslda.cpp:create_lda_for_transform"]}
{"id": "C58", "title": "Training with one worker is reproducible", "statement": "Two runs of fit with one worker, the same data, options, seed and starting model end with bit for bit the same model in float and double, and it is the model (or failure) of a plain loop over the documents in the corpus's order, whatever the two threads' schedule. (With more workers rounding may differ.)", "quantifier": "all corpora, batch M steps, E steps, epochs, seeds, schedules, scalar types", "why_tests_cant": "schedules; rerunning a test cannot show that every rerun agrees", "anchors": ["src/ldaplusplus/LDA.cpp:LDA::fit", "src/ldaplusplus/LDA.cpp:LDA::partial_fit", "src/ldaplusplus/Document.cpp:shuffle"]}
{"id": "C59", "title": "fit is the sum of its epochs", "statement": "Calling fit and partial_fit on the same object several times, in any sequence, gives in exact arithmetic the model that one fit with the total number of epochs gives.", "quantifier": "all sequences of calls, corpora, batch M steps, E steps, worker counts, schedules", "why_tests_cant": "histories of calls", "anchors": ["src/ldaplusplus/LDA.cpp:LDA::fit", "src/ldaplusplus/LDA.cpp:LDA::partial_fit"]}
{"id": "C60", "title": "Interrupted training can be continued", "statement": "Training stopped after any epoch and continued by a new process from the saved model, any number of times, gives in exact arithmetic the same model as uninterrupted training, with a batch M step and a supervised weight that does not change over the epochs.", "quantifier": "all splits of the epochs into sessions, corpora, batch M steps, E steps with constant weight, worker counts, schedules", "why_tests_cant": "crash points and histories", "anchors": ["src/ldaplusplus/LDA.cpp:LDA::fit", "src/applications/lda_io.cpp", "src/applications/slda.cpp:--continue", "src/ldaplusplus/em/FastSupervisedEStep.cpp:get_weight"]}
{"id": "C61", "title": "A model file cut short is not taken for a model", "statement": "If the process writing a model file is stopped, so that only the first bytes of the file exist, loading that file fails with an exception and never returns a model.", "quantifier": "all models, cut positions", "why_tests_cant": "crash points", "anchors": ["src/applications/lda_io.cpp:load_lda", "include/ldaplusplus/NumpyFormat.hpp:NumpyInput"]}
{"id": "C62", "title": "A stopped training run keeps its snapshots", "statement": "Training with snapshots that is stopped at any point while it saves leaves every snapshot saved before complete and every file it did not reach as it was; only the file being written can be incomplete.", "quantifier": "all runs, snapshot intervals, stop points", "why_tests_cant": "crash points", "anchors": ["src/applications/SnapshotEvery.cpp", "src/applications/lda_io.cpp:save_lda"]}
{"id": "C63", "title": "Inference does not depend on the numbering", "statement": "Renumbering the topics, the words and the classes of a model and of the documents consistently renumbers the posteriors, the transformed documents, the class scores and the predictions in the same way, and changes nothing else, in exact arithmetic. (A prediction may change only between classes with equal scores; with the sLDA E step, which updates the words one after the other, the words must keep their order.)", "quantifier": "all renumberings, models, documents, E steps, worker counts, schedules", "why_tests_cant": "all renumberings of all inputs", "anchors": ["src/ldaplusplus/LDA.cpp:LDA::transform", "src/ldaplusplus/LDA.cpp:LDA::predict", "src/ldaplusplus/LDA.cpp:LDA::decision_function", "src/ldaplusplus/em"]}
{"id": "C64", "title": "Training does not depend on the numbering of topics and words", "statement": "Training on renumbered words from a model with renumbered topics and words gives, in exact arithmetic, the same model in the new numbers, for every number of epochs, E step and batch M step. (With the sLDA E step the words must keep their order.)", "quantifier": "all renumberings, corpora, starting models, E steps, batch M steps, epochs, worker counts, schedules", "why_tests_cant": "all renumberings of all inputs", "anchors": ["src/ldaplusplus/LDA.cpp:LDA::fit", "src/ldaplusplus/em"]}
{"id": "C65", "title": "Training does not depend on the numbering of the classes", "statement": "Training on documents with renumbered classes from a model with renumbered classes gives, in exact arithmetic, the same model in the new numbers.", "quantifier": "all renumberings, corpora, starting models, E steps, batch M steps, epochs, worker counts, schedules", "why_tests_cant": "all renumberings of all inputs", "anchors": ["src/ldaplusplus/LDA.cpp:LDA::fit", "include/ldaplusplus/optimization/MultinomialLogisticRegression.hpp", "src/ldaplusplus/optimization/MultinomialLogisticRegression.cpp:MultinomialLogisticRegression"]}
{"id": "C66", "title": "Each supervised update optimises its objective", "statement": "Given the other variables, the topic assignments phi that the multinomial, correspondence and fast supervised E steps compute for a document are as good, up to the stated error of the fast exponential, as any other assignment: for the multinomial and correspondence models as measured by the variational bound (with the class term times the weight), for the fast one by the bound of LDA plus weight times the linearised log probability of the document's class (scaled by eta's largest entry). The correspondence model's tau is likewise optimal given phi.", "quantifier": "all documents, models, gammas, weights, competing assignments", "why_tests_cant": "all competitors on all inputs", "anchors": ["src/ldaplusplus/e_step_utils.cpp:compute_supervised_multinomial_phi", "src/ldaplusplus/e_step_utils.cpp:compute_supervised_correspondence_phi", "src/ldaplusplus/e_step_utils.cpp:compute_supervised_correspondence_tau", "src/ldaplusplus/e_step_utils.cpp:compute_supervised_approximate_phi"]}
{"id": "C67", "title": "Updating a word does not decrease the bound of sLDA", "statement": "When the sLDA E step updates the topic assignment of one word, the variational bound of sLDA, for the gamma at that moment, does not decrease by more than the error of the fast exponential, whatever the number of fixed point iterations.", "quantifier": "all documents, models, states within a pass, words, numbers of fixed point iterations", "why_tests_cant": "all reachable states of an iterative algorithm", "anchors": ["src/ldaplusplus/e_step_utils.cpp:compute_supervised_phi_gamma"]}
{"id": "C68", "title": "The supervised E steps report their bounds", "statement": "With likelihood computation on, the fast, multinomial and correspondence supervised E steps report the likelihood of LDA for the returned posterior plus the class terms of their models: the expected score of the document's class minus the log of the expected normaliser (fast); the expected log probability of the class, the class prior and the document's share of eta's prior (multinomial); the same with tau and tau's entropy (correspondence).", "quantifier": "all documents, models, settings", "why_tests_cant": "all inputs", "anchors": ["src/ldaplusplus/e_step_utils.cpp:compute_supervised_likelihood", "src/ldaplusplus/e_step_utils.cpp:compute_supervised_multinomial_likelihood", "src/ldaplusplus/e_step_utils.cpp:compute_supervised_correspondence_likelihood"]}
{"id": "C69", "title": "The E step climbs the bound", "statement": "The gamma update of the E steps maximises the variational bound of LDA given phi. The posterior that the unsupervised E step returns, unless it stops before its first iteration, is at least as good, as measured by the bound and up to the error of the fast exponential per word and iteration, as any assignment of the words to topics at the starting gamma; allowing it more iterations never gives a posterior that is worse by more than that error. The same holds for the multinomial supervised E step and its bound.", "quantifier": "all documents, models, settings, numbers of iterations, competing assignments", "why_tests_cant": "all inputs, all numbers of iterations", "anchors": ["src/ldaplusplus/em/UnsupervisedEStep.cpp:doc_e_step", "src/ldaplusplus/em/MultinomialSupervisedEStep.cpp:doc_e_step", "src/ldaplusplus/e_step_utils.cpp:compute_unsupervised_phi"]}
{"id": "C70", "title": "The matrix helpers ignore zeros and keep shapes", "statement": "Summing rows or columns scaled by weights adds the weighted sum to the result, and rows or columns with weight zero have no influence on it even if they contain infinities or NaNs; dividing a number by a matrix gives zero where the matrix is zero and makes no NaN of a finite number; the product of non-zeros is the product of the elements that are not zero; reshaping a matrix into a vector and back changes nothing, and needs a vector of at least the matrix's size.", "quantifier": "all matrices and vectors, any arithmetic (values: exact arithmetic)", "why_tests_cant": "all inputs, including NaN and infinity", "anchors": ["include/ldaplusplus/utils.hpp:sum_rows_scaled", "include/ldaplusplus/utils.hpp:sum_cols_scaled", "include/ldaplusplus/utils.hpp:product_of_nonzeros", "include/ldaplusplus/utils.hpp:CwiseScalarDivideByMatrix", "include/ldaplusplus/utils.hpp:reshape_into"]}
{"id": "C71", "title": "The shared generator deals out every random number once", "statement": "Threads that draw from copies of one thread-safe generator get, together, the first numbers of the wrapped engine's stream, each exactly once, whatever the schedule; the engine is never used by two threads at once and no thread waits forever. The E steps use it to decide whether to report a likelihood: with probability 0 they never do, with probability 1 they always do, and the posterior does not depend on it.", "quantifier": "all engines, seeds, numbers of threads and calls, schedules; all E steps, documents, models", "why_tests_cant": "schedules", "anchors": ["include/ldaplusplus/utils.hpp:ThreadSafePRNG", "include/ldaplusplus/em/AbstractEStep.hpp:get_prng", "src/ldaplusplus/em/UnsupervisedEStep.cpp:doc_e_step"]}
{"id": "C72", "title": "The M steps maximise the bound", "statement": "Given the posteriors that the E steps found for the documents of an epoch, no other topics give these documents a larger variational bound of LDA than those the M step computes (all M steps but the online and the correspondence one, provided every topic has some word); so an M step never lowers it. The multinomial M step's topics and class probabilities together maximise the bound of its own model with the Dirichlet prior.", "quantifier": "all corpora, posteriors, histories of epochs, competing topics and class probabilities", "why_tests_cant": "all competitors on all inputs", "anchors": ["src/ldaplusplus/em/UnsupervisedMStep.cpp:m_step", "src/ldaplusplus/em/FastSupervisedMStep.cpp:m_step", "src/ldaplusplus/em/SemiSupervisedMStep.cpp", "src/ldaplusplus/em/SupervisedMStep.cpp:m_step", "src/ldaplusplus/em/MultinomialSupervisedMStep.cpp:m_step"]}
{"id": "C73", "title": "The correspondence M step maximises its bound", "statement": "Given the posteriors of the epoch's documents, the topics and class probabilities that the correspondence M step computes maximise the variational bound that its E step reports, with the Dirichlet prior of the class probabilities, as its documentation says.", "quantifier": "all corpora, posteriors, histories of epochs, competing topics and class probabilities", "why_tests_cant": "all competitors on all inputs", "anchors": ["include/ldaplusplus/em/CorrespondenceSupervisedMStep.hpp:CorrespondenceSupervisedMStep", "src/ldaplusplus/em/CorrespondenceSupervisedMStep.cpp:m_step"]}
{"id": "C74", "title": "Training keeps the model's dimensions and prior", "statement": "A call of fit or partial_fit on a corpus with at least one document leaves a model with the same number of topics, words and classes as before, without short columns, and with the prior alpha untouched; this holds even if an epoch fails.", "quantifier": "all corpora, starting models, E steps, M steps, epochs, worker counts, schedules, arithmetics", "why_tests_cant": "all inputs and schedules", "anchors": ["src/ldaplusplus/LDA.cpp:LDA::fit", "src/ldaplusplus/LDA.cpp:LDA::partial_fit", "src/ldaplusplus/em/UnsupervisedMStep.cpp:m_step", "src/ldaplusplus/em/FastSupervisedMStep.cpp:m_step", "src/ldaplusplus/em/MultinomialSupervisedMStep.cpp:m_step", "src/ldaplusplus/em/FastOnlineSupervisedMStep.cpp:m_step"]}
{"id": "C75", "title": "transform writes the inferred topics and nothing else", "statement": "When DATA can be read, MODEL holds a model and the device takes what is written, lda, slda and fslda transform end normally and leave at OUTPUT an array that reads back as the matrix whose column i is the topic distribution inferred for document i under that model; no other file changes. This does not depend on the number of workers or the schedule.", "quantifier": "all files, models, options, worker counts, schedules", "why_tests_cant": "all schedules and inputs; the tests do not run the applications", "anchors": ["src/applications/lda.cpp:main", "src/applications/slda.cpp:main", "src/applications/fslda.cpp:main", "include/ldaplusplus/NumpyFormat.hpp:save"]}
{"id": "C76", "title": "A command that ends normally has written its output", "statement": "If a train or transform command exits with status 0, its output file exists and is complete.", "quantifier": "all commands, inputs, failures of the device", "why_tests_cant": "failures at every write", "anchors": ["src/applications/lda_io.cpp:save_lda", "include/ldaplusplus/NumpyFormat.hpp:save", "src/applications/lda.cpp:main"]}
{"id": "C77", "title": "Commands change only their own files", "statement": "A command changes no file but its output and, for a training with snapshots, the snapshots, whose names are never the output's; a command that ends with an exception leaves its output file as it was. This holds also when writes fail.", "quantifier": "all commands, inputs, options, failures of the device, schedules", "why_tests_cant": "failures at every point", "anchors": ["src/applications/lda.cpp:main", "src/applications/slda.cpp:main", "src/applications/fslda.cpp:main", "src/applications/SnapshotEvery.cpp:snapshot"]}
{"id": "C78", "title": "The model file of a training is the trained model", "statement": "After a training command has ended normally on a device without errors, the file at MODEL reads back as exactly the model of fit with the command's E and M step and their options on the documents (and labels) of DATA, starting from the model the options ask for; a transform with that file infers with that model.", "quantifier": "all four training commands, data, options, worker counts, schedules", "why_tests_cant": "all inputs, schedules; the tests do not run the applications", "anchors": ["src/applications/lda.cpp:main", "src/applications/slda.cpp:main", "src/applications/fslda.cpp:main", "src/applications/lda_io.cpp:save_lda", "src/applications/lda_io.cpp:load_lda"]}
{"id": "C79", "title": "In double precision the posterior is valid up to rounding", "statement": "With the double-precision arithmetic the program really uses, the unsupervised E step returns finite numbers: gamma is not below alpha, the topic probabilities of every word lie between 0 and 1 and, for the words of the document, sum to 1 up to a small multiple of 2^-50 times the number of topics; gamma is alpha plus the expected counts, and its mass is alpha's plus the document's, up to such errors.", "quantifier": "all documents, models (alpha at least 1/300), iteration limits, tolerances, orders of summation, mathematical libraries that are right within a factor of two", "why_tests_cant": "every input and every order of summation; errors of rounding", "anchors": ["src/ldaplusplus/em/UnsupervisedEStep.cpp:doc_e_step", "src/ldaplusplus/e_step_utils.cpp:compute_unsupervised_phi", "src/ldaplusplus/e_step_utils.cpp:compute_gamma", "include/ldaplusplus/utils.hpp:fast_exp", "include/ldaplusplus/utils.hpp:digamma"]}
{"id": "C80", "title": "In double precision training ends in a usable model", "statement": "With the double-precision arithmetic the program really uses, unsupervised training, for any number of epochs, leaves a model of finite numbers in which every topic is a distribution over the words up to a small multiple of 2^-50 times the size of the vocabulary, and which can be trained further; each epoch gives every word the share that the documents' posteriors give it, up to such relative errors.", "quantifier": "all corpora in which every document is a proper input (C79), models, numbers of epochs, workers, schedules, iteration limits, tolerances, orders of summation, mathematical libraries that are right within a factor of two", "why_tests_cant": "every input, schedule and order of summation; errors of rounding", "anchors": ["src/ldaplusplus/em/UnsupervisedMStep.cpp:doc_m_step", "src/ldaplusplus/em/UnsupervisedMStep.cpp:m_step", "src/ldaplusplus/LDA.cpp:LDA::fit", "src/ldaplusplus/em/UnsupervisedEStep.cpp:doc_e_step"]}
{"id": "C81", "title": "In double precision scores and predictions are right up to rounding", "statement": "With the double-precision arithmetic the program really uses, decision_function gives every document and class a finite score that differs from the linear model's exact score on the document's posterior by at most (K + V + 3) / 2^46 times the largest coefficient times the ratio of the mass of alpha and the document to that of the document; predict returns the first class with the largest score, whose exact score is the best up to twice that error.", "quantifier": "all documents, models, iteration limits, tolerances, worker counts, schedules, orders of summation, mathematical libraries that are right within a factor of two", "why_tests_cant": "every input, schedule and order of summation; errors of rounding", "anchors": ["src/ldaplusplus/LDA.cpp:LDA::transform", "src/ldaplusplus/LDA.cpp:LDA::decision_function", "src/ldaplusplus/LDA.cpp:LDA::predict"]}
{"id": "C82", "title": "In double precision a labelled document gets a valid posterior", "statement": "With the double-precision arithmetic the program really uses, the fast supervised E step (and, through it, the one for corpora with and without labels) returns, for every labelled document and every finite coefficients and weight, finite numbers: gamma is not below alpha, the topic probabilities of every word lie between 0 and 1 and, for the words of the document, sum to 1, gamma is alpha plus the expected counts, and its mass is alpha's plus the document's, all up to small multiples of 2^-50.", "quantifier": "all documents, classes, models, coefficients, weights, epochs, iteration limits, tolerances, orders of summation, mathematical libraries that are right within a factor of two", "why_tests_cant": "every input and every order of summation; errors of rounding", "anchors": ["src/ldaplusplus/em/FastSupervisedEStep.cpp:doc_e_step", "src/ldaplusplus/em/FastSupervisedEStep.cpp:get_weight", "src/ldaplusplus/em/SemiSupervisedEStep.cpp:doc_e_step", "src/ldaplusplus/e_step_utils.cpp:compute_supervised_approximate_phi"]}
{"id": "C83", "title": "In double precision class probabilities keep the posterior valid", "statement": "With the double-precision arithmetic the program really uses, the multinomial supervised E step returns, for every labelled document, every positive class probabilities and every finite weight, finite numbers: gamma is not below alpha, the topic probabilities of every word lie between 0 and 1 and, for the words of the document, sum to 1, gamma is alpha plus the expected counts, and its mass is alpha's plus the document's, all up to small multiples of 2^-50.", "quantifier": "all documents, classes, models, weights, smoothing, iteration limits, tolerances, orders of summation, mathematical libraries that are right within a factor of two", "why_tests_cant": "every input and every order of summation; errors of rounding", "anchors": ["src/ldaplusplus/em/MultinomialSupervisedEStep.cpp:doc_e_step", "src/ldaplusplus/e_step_utils.cpp:compute_supervised_multinomial_phi"]}
{"id": "C84", "title": "In double precision the correspondence E step gives valid posteriors", "statement": "With the double-precision arithmetic the program really uses, the correspondence E step returns, for every labelled document and every class probabilities, a posterior that is valid up to small multiples of 2^-50 (as for the multinomial E step), and shares of the words in the document's class that lie between 0 and 1 and sum to 1 up to such errors.", "quantifier": "all documents, classes, models, smoothing, iteration limits, tolerances, orders of summation, mathematical libraries that are right within a factor of two", "why_tests_cant": "every input and every order of summation; errors of rounding", "anchors": ["src/ldaplusplus/em/CorrespondenceSupervisedEStep.cpp:doc_e_step", "src/ldaplusplus/e_step_utils.cpp:compute_supervised_correspondence_phi", "src/ldaplusplus/e_step_utils.cpp:compute_supervised_correspondence_tau"]}
{"id": "C85", "title": "In double precision multinomial training ends in a usable model", "statement": "With the double-precision arithmetic the program really uses, training with the multinomial E and M steps, for any number of epochs and any finite weight, leaves a model of finite numbers in which every topic is a distribution over the words, and every topic's classes a distribution, up to small multiples of 2^-50, and which can be trained further; each epoch gives every word the share that the documents' posteriors give it, and every class the share of its expected count plus mu - 1, up to such relative errors.", "quantifier": "all corpora of labelled documents, models, weights, smoothing, numbers of epochs, workers, schedules, iteration limits, tolerances, orders of summation, mathematical libraries that are right within a factor of two", "why_tests_cant": "every input, schedule and order of summation; errors of rounding", "anchors": ["src/ldaplusplus/em/MultinomialSupervisedMStep.cpp:doc_m_step", "src/ldaplusplus/em/MultinomialSupervisedMStep.cpp:m_step", "src/ldaplusplus/LDA.cpp:LDA::fit", "src/ldaplusplus/em/MultinomialSupervisedEStep.cpp:doc_e_step"]}
{"id": "C86", "title": "In double precision correspondence training ends in a usable model", "statement": "With the double-precision arithmetic the program really uses, training with the correspondence E and M steps, for any number of epochs and any smoothing mu of at least 1, leaves a model of finite numbers in which every topic is a distribution over the words, and every topic's classes a distribution, up to small multiples of 2^-50, and which can be trained further; each epoch gives every word its share of the topic's expected counts, each weighted by the word's share in the document's class, and every class the share of its own total plus mu - 1, up to such relative errors.", "quantifier": "all corpora of labelled documents, models, smoothing, numbers of epochs, workers, schedules, iteration limits, tolerances, orders of summation, mathematical libraries that are right within a factor of two", "why_tests_cant": "every input, schedule and order of summation; errors of rounding", "anchors": ["src/ldaplusplus/em/CorrespondenceSupervisedMStep.cpp:doc_m_step", "src/ldaplusplus/em/CorrespondenceSupervisedMStep.cpp:m_step", "src/ldaplusplus/LDA.cpp:LDA::fit", "src/ldaplusplus/em/CorrespondenceSupervisedEStep.cpp:doc_e_step"]}
{"id": "C87", "title": "In double precision the fits of the supervised M steps end and do not lose ground", "statement": "With the double-precision arithmetic the program really uses, the line search and the gradient descent of the fast, semi-supervised and sLDA M steps end for every training set, coefficients, penalty, tolerance and limit, even with infinities and NaN in the posteriors; what they report never falls, and the objective at the coefficients they leave is the one reported last, not above the one at the start.", "quantifier": "all objectives, starts and directions; all epochs of documents with any posteriors, coefficients, penalties, tolerances, limits, orders of summation, mathematical libraries", "why_tests_cant": "a search that never ends, and every input; errors of rounding", "anchors": ["include/ldaplusplus/optimization/GradientDescent.hpp:ArmijoLineSearch::search", "include/ldaplusplus/optimization/GradientDescent.hpp:GradientDescent::minimize", "src/ldaplusplus/em/FastSupervisedMStep.cpp:m_step", "src/ldaplusplus/em/SupervisedMStep.cpp:m_step"]}
{"id": "C88", "title": "The settings of a builder take effect", "statement": "Whatever calls were made on a builder, the object built from it trains and infers with the E step and the M step chosen last, with the arguments given to their setters and the documented values for those left out, and with the numbers of epochs and workers set last. Every such argument has its documented effect: the tolerance of an E step decides when its iterations stop, and the class weights of the online M step account for class imbalance.", "quantifier": "all histories of builder calls with all arguments, documents, epochs, schedules, scalar types", "why_tests_cant": "every history of calls and every argument", "anchors": ["include/ldaplusplus/LDABuilder.hpp:LDABuilder::set_classic_e_step", "include/ldaplusplus/LDABuilder.hpp:LDABuilder::set_fast_supervised_online_m_step", "src/ldaplusplus/LDABuilder.cpp:LDABuilder::get_multinomial_supervised_e_step", "src/ldaplusplus/em/MultinomialSupervisedEStep.cpp:doc_e_step", "src/ldaplusplus/em/FastOnlineSupervisedMStep.cpp:m_step"]}
{"id": "C89", "title": "The listeners of an LDA object hear its training and nothing else", "statement": "Whatever builders, steps and LDA objects a program has made, every event that the training of an LDA object causes (for a document in the E step, also through nested semi-supervised E steps, in the M step, and at the end of an epoch) is heard by the listeners added to that object, by each once for every time it was added, in that order, and by no listener added to another object.", "quantifier": "all histories of creating builders, steps, semi-supervised steps and LDA objects and of adding listeners", "why_tests_cant": "every history of objects that share parts", "anchors": ["src/ldaplusplus/LDA.cpp:LDA::set_up_event_dispatcher", "include/ldaplusplus/events/Events.hpp:EventDispatcherComposition", "src/ldaplusplus/em/SemiSupervisedEStep.cpp:SemiSupervisedEStep", "include/ldaplusplus/LDABuilder.hpp:operator LDA"]}
{"id": "C90", "title": "The thread that calls fit does not matter", "statement": "Calling fit from a thread other than the one that created the LDA object, for which events are handed over through a queue, can end with exactly the models that calling it from the creating thread can: no document is lost or counted twice and no update is dropped because of the thread, for every E step and M step, even those whose result depends on the order of arrival.", "quantifier": "all calling threads, corpora, numbers of workers and epochs, schedules, E steps, M steps, scalar types", "why_tests_cant": "every schedule, and every thread the object may be handed to", "anchors": ["src/ldaplusplus/LDA.cpp:LDA::fit", "src/ldaplusplus/LDA.cpp:LDA::partial_fit", "include/ldaplusplus/events/Events.hpp:ThreadSafeEventDispatcher", "src/ldaplusplus/events/Events.cpp:SameThreadEventDispatcher"]}
{"id": "C91", "title": "The commands are the library programs that their options describe", "statement": "lda train, slda train, fslda train and fslda online_train, without snapshots and without --continue_from_unsupervised, can end exactly as the program can that makes the builder calls their options stand for (epochs, workers, E step, M step, starting topics, starting eta), fits the object to the documents and labels in DATA and saves its model: with the same models in MODEL, or with the same exceptions. The transform commands can end exactly as the program that builds an object from MODEL and transforms the documents, with the same matrices in OUTPUT.", "quantifier": "all files, option values, numbers of workers, schedules, orders of summation, mathematical libraries", "why_tests_cant": "every input, option value and schedule, in both directions", "anchors": ["src/applications/lda.cpp:create_lda_for_train", "src/applications/slda.cpp:create_lda_for_train", "src/applications/fslda.cpp:create_lda_for_train", "src/applications/fslda.cpp:create_lda_for_online_train", "src/applications/lda.cpp:create_lda_for_transform", "src/applications/lda.cpp:main"]}
{"id": "C92", "title": "The M step's reports reach the listener, all of them and in order", "statement": "During fit, a listener is told exactly the values that the M step reports while it is shown the documents and when it ends the epoch: none is lost, repeated or reordered, whatever the E step workers send in between, and each before the event that ends its epoch. The applications' MaximizationProgress prints exactly these values. When another thread than the builder's calls partial_fit, the values received and those still queued are together exactly the values reported, in that order.", "quantifier": "all M steps, E steps, numbers of workers, corpora, numbers of epochs, schedules and calling threads", "why_tests_cant": "every interleaving of the workers' events with those of the M step", "anchors": ["src/applications/MaximizationProgress.cpp:on_event", "src/ldaplusplus/LDA.cpp:partial_fit", "src/ldaplusplus/events/Events.cpp:ThreadSafeEventDispatcher"]}
{"id": "C93", "title": "Gradient descent with a constant step visits the points it should and descends", "statement": "GradientDescent::minimize with ConstantLineSearch(a) asks the callback about the start and then about each new point x - a grad f(x) in turn, with the objective's value there and the number of steps, and returns the point at which the callback first declines. If the gradient of the objective changes at most L times as fast as the point, each step of a size between 0 and 2 / L lowers the objective by at least a (1 - L a / 2) |grad|^2, and if the objective is bounded below, the smallest squared gradient of the first n points is at most a constant divided by n. The weighted logistic regression of the library is such an objective, with L the penalty plus the weighted sum of the squared features.", "quantifier": "all objectives with a gradient, matrices of all sizes, step sizes, callbacks and numbers of steps; all training sets (real arithmetic)", "why_tests_cant": "every objective, start and number of steps", "anchors": ["include/ldaplusplus/optimization/GradientDescent.hpp:ConstantLineSearch::search", "include/ldaplusplus/optimization/GradientDescent.hpp:GradientDescent::minimize", "src/ldaplusplus/optimization/MultinomialLogisticRegression.cpp:gradient"]}
{"id": "C94", "title": "lda train from scratch, and lda transform afterwards, work in double precision", "statement": "With a readable DATA file whose documents hold no negative counts, at most 2^31 - 1 words each and not only empty documents, at most 2^30 documents and words, between 1 and 300 topics, no --continue, readable other options, and, with --initialize_random, random numbers between 2^-200 and 1, every run of lda train ends normally, whatever the schedule of its workers, the number of iterations (also 0) and the snapshots. The file MODEL is then read back as K topics over the vocabulary: all entries finite, each topic summing to 1 up to rounding, the prior 1 / K. lda transform with that file, on any documents all of whose words occur in the training documents, ends normally as well, and each column of OUTPUT is a finite posterior of its document.", "quantifier": "all corpora, options, schedules and disks within the limits named; all library functions log, exp and sum with the stated accuracy", "why_tests_cant": "every corpus, schedule and rounding", "anchors": ["src/applications/lda.cpp:create_lda_for_train", "src/applications/lda.cpp:main", "src/ldaplusplus/LDABuilder.cpp:initialize_topics_seeded", "src/ldaplusplus/LDABuilder.cpp:initialize_topics_random", "src/ldaplusplus/em/UnsupervisedEStep.cpp:doc_e_step"]}
{"id": "C95", "title": "The snapshots of a training command are its models so far", "statement": "When a training command with --snapshot_every N (N at least 1) ends normally on a disk without errors, then for every multiple e of N up to the number of epochs there is a file named MODEL, an underscore and e in decimal; it reads back as the model after the first e epochs of that same run, from which the remaining epochs lead to the model in MODEL. No other files have changed. For lda train from scratch within the limits of C94 each snapshot is a usable model in double precision.", "quantifier": "all training commands, options, corpora, schedules and disks (fewer than 2^31 epochs)", "why_tests_cant": "every schedule and number of epochs", "anchors": ["src/applications/SnapshotEvery.cpp:SnapshotEvery::on_event", "src/applications/lda.cpp:main", "src/applications/slda.cpp:main", "src/applications/fslda.cpp:main"]}
{"id": "C96", "title": "lda train can be continued in double precision", "statement": "lda train --continue, from a model file or snapshot that a lda train on some documents left (within the limits of C94), on the same documents and perhaps further ones with no other words, ends normally in every run and leaves again a model with finite topics that sum to 1 up to rounding and the same prior, which can be continued in turn.", "quantifier": "all such models, documents, options, schedules and disks; any number of continuations", "why_tests_cant": "every history of trainings and every rounding", "anchors": ["src/applications/lda.cpp:create_lda_for_train", "include/ldaplusplus/LDABuilder.hpp:initialize_topics_from_model"]}
{"id": "C97", "title": "The accuracy printed is the fraction of right predictions", "statement": "evaluate and transform of the program in the root directory print, for every model, data file, number of workers and schedule, a score within n 2^-50 of the fraction of the n documents whose label is the class predicted for them (0 if none is; exactly the fraction in exact arithmetic). Labels beyond the documents do not matter. transform also writes the topics of the documents to OUTPUT and changes no other file. The printed score need not be 1 when all predictions are right: ten right predictions out of ten add up to less.", "quantifier": "all models, data files, options, schedules and disks; fewer than 2^31 documents", "why_tests_cant": "every number of documents and every schedule, and the rounding of a long sum", "anchors": ["slda.cpp:accuracy_score", "slda.cpp:main"]}
{"id": "C98", "title": "train of the root program is the library program its options describe", "statement": "On a disk without errors and without snapshots, the ways in which train of the program in the root directory can end (which model it leaves in MODEL, an exception, undefined behaviour) are those of the program that makes the builder calls the options stand for, fits the object to the corpus in DATA and takes its model; when several flags choose a step, the first of a fixed order decides. With --snapshot_every N a train that ends normally has also left the model of every N-th epoch of that run, and changed no other file.", "quantifier": "all options, data files, schedules, random draws and disks", "why_tests_cant": "every combination of options and every schedule", "anchors": ["slda.cpp:create_lda_for_training", "slda.cpp:main"]}
{"id": "C99", "title": "The likelihood printed during training is the average of its epoch", "statement": "During a training with any steps, corpus, number of workers and schedule, the progress listener prints for each epoch its number (from 1), the number of documents seen at every hundredth, every value the M step reports, and, if any document reported a negative likelihood, the average of these: exactly in exact arithmetic, and in double precision with a relative error of at most (n + 1) 2^-52, n their number, if none is below -2^900. Nothing is carried from one epoch to the next.", "quantifier": "all E and M steps, corpora, schedules; fewer than 2^31 documents, epochs and reports", "why_tests_cant": "every schedule and every number of epochs", "anchors": ["slda.cpp:TrainingProgress"]}
{"id": "C100", "title": "The durations printed during training are those of the steps", "statement": "For every epoch of a training the stopwatch prints the time from the first document to the first value reported by the M step, over the number of documents, and the time from there to the end of the epoch, over the number of values. It holds of every M step that reports a value in every epoch (all but the online one); with the online M step and fewer documents than a batch the first epoch shows a negative duration, and a division by 0.", "quantifier": "all steps, corpora that are not empty, schedules and clocks", "why_tests_cant": "every schedule and every clock", "anchors": ["slda.cpp:LdaStopwatch"]}
{"id": "C101", "title": "train with distributions of classes can be continued in double precision", "statement": "train --continue of the program in the root directory, with --correspondence or --multinomial, from a model file that suits its labelled documents (the limits of C86 and C85), ends normally in every run and leaves in MODEL a model of the same sizes, in which topics and classes are distributions up to rounding, and from which it can be continued in the same way; snapshots or not.", "quantifier": "all such models, documents, options, schedules and disks; any number of continuations", "why_tests_cant": "every schedule, rounding and history of trainings", "anchors": ["slda.cpp:create_lda_for_training", "slda.cpp:main", "src/ldaplusplus/em/MultinomialSupervisedMStep.cpp:m_step", "src/ldaplusplus/em/CorrespondenceSupervisedMStep.cpp:m_step"]}
{"id": "C102", "title": "train with distributions of classes works from scratch in double precision", "statement": "train of the program in the root directory without --continue, with --correspondence (at most 139 topics) or --multinomial (at most 100, the default), on a usual labelled corpus (at most 2^30 words in the vocabulary and documents, counts that are not negative, fewer than 2^31 words in a document, not all documents empty; labels from 0) with a smoothing mu above 1, ends normally in every run, whichever documents seed the topics, and leaves in MODEL topics and classes that are distributions up to rounding, from which training can be continued (C101). With --snapshot_every N the same is true of the file MODEL_e for every multiple e of N up to the number of iterations. Words that occur in no document do no harm.", "quantifier": "all such corpora, labels, options, random seeds, schedules and disks", "why_tests_cant": "every corpus, seed, schedule and rounding", "anchors": ["slda.cpp:create_lda_for_training", "slda.cpp:main", "src/ldaplusplus/LDABuilder.cpp:initialize_topics_seeded", "include/ldaplusplus/LDABuilder.hpp:initialize_eta_uniform"]}
{"id": "C103", "title": "evaluate and transform after train give the accuracy and the topics of the trained model", "statement": "After a training from scratch with distributions of classes (C102), of at least one iteration, evaluate of the program in the root directory, with the model file and labelled documents that have words, all of which occurred in training, ends normally; whatever the schedule it prints the same finite number, which is the fraction of right predictions of the trained model up to n 2^-50 for n documents. transform prints that fraction too, and the file it writes reads back as the topics of the documents, valid posteriors up to rounding. evaluate works in the same way with the files of --snapshot_every.", "quantifier": "all corpora and options of C102, all such documents and labels, all schedules of both commands", "why_tests_cant": "every training, schedule and rounding", "anchors": ["slda.cpp:main", "slda.cpp:accuracy_score", "slda.cpp:create_lda_for_training"]}
