{
 "claims": [
  {
   "property": "C01",
   "status": "proved",
   "theorems": [
    "C01_save_load_roundtrip",
    "C01_save_load_identity"
   ],
   "note": "Little-endian host, all ten element types, both storage orders, at least one entry and fewer than 2^31."
  },
  {
   "property": "C02",
   "status": "proved",
   "theorems": [
    "C02_model_roundtrip",
    "C02_input_roundtrip",
    "C02_sequence_roundtrip"
   ],
   "note": "Model file, input file, and any sequence of arrays of mixed element types."
  },
  {
   "property": "C03",
   "status": "proved",
   "theorems": [
    "C03_written_file_well_formed",
    "C03_matrix_header_short"
   ],
   "note": "For every shape, order and host; the header of any matrix is shown to be shorter than 200 bytes."
  },
  {
   "property": "C04",
   "status": "proved",
   "theorems": [
    "C04_numpy_files_load"
   ],
   "note": "Any header numpy writes: any number of dimensions >= 1, any padding, both orders."
  },
  {
   "property": "C05",
   "status": "proved",
   "theorems": [
    "C05_accepts_only_requested_type",
    "C05_wrong_type_rejected"
   ],
   "note": "For every stream (bytes 22-23), and for every saved matrix requested as another type."
  },
  {
   "property": "C06",
   "status": "partial",
   "theorems": [
    "C06_other_byte_order_refuted",
    "C06_big_endian_host_refuted",
    "C06_single_byte_types_partial"
   ],
   "note": "False of the code: swap_endianess does not write back. Refuted by a concrete file; what holds (bytes kept, so one-byte types agree) is the _partial theorem."
  },
  {
   "property": "C07",
   "status": "partial",
   "theorems": [
    "C07_short_input_throws_partial",
    "C07_empty_input_throws_partial",
    "C07_truncated_data_refuted",
    "C07_foreign_magic_refuted",
    "C07_truncated_header_refuted"
   ],
   "note": "False of the code: truncated data are accepted and zero-filled, the magic string is ignored, a cut header can be undefined behaviour. Streams under 24 bytes are proved to throw."
  },
  {
   "property": "C08",
   "status": "partial",
   "theorems": [
    "C08_hostile_shape_refuted",
    "C08_honest_shape_safe_partial",
    "C08_negative_count_partial",
    "C08_zero_count_refuted"
   ],
   "note": "False of the code: the element count is kept in an int, so 65536 x 65537 reads out of bounds, and a count that is 0 modulo 2^32 is undefined. Shapes whose product fits are proved safe, with complete or missing data; counts that are negative modulo 2^32 raise length_error."
  },
  {
   "property": "C09",
   "status": "proved",
   "theorems": [
    "C09_shuffle_keeps_documents",
    "C09_shuffle_keeps_labels",
    "C09_outside",
    "C09_outside_labelled"
   ],
   "note": "Plain and labelled corpus, any sequence of shuffles, any outcome of the random draws."
  },
  {
   "property": "C10",
   "status": "proved",
   "theorems": [
    "C10_priors_are_frequencies"
   ],
   "note": "Exact arithmetic. The code keeps the counts in float, which are exact below 2^24 documents per class; the float instance is not proved."
  },
  {
   "property": "C11",
   "status": "proved",
   "theorems": [
    "C11_no_event_lost_or_duplicated",
    "C11_deliveries",
    "C11_process_calls_complete",
    "C11_race_free",
    "C11_no_deadlock"
   ],
   "note": "Every interleaving of every set of programs over add, remove, dispatch and process calls, at the granularity of lock operations and list accesses."
  },
  {
   "property": "C12",
   "status": "partial",
   "theorems": [
    "C12_removed_listener_silent",
    "C12_other_listeners_unaffected",
    "C12_remove_first_refuted",
    "C12_readded_listener_lost_refuted",
    "C12_plain_removed_silent",
    "C12_plain_others_unaffected",
    "C12_plain_registered_twice_refuted"
   ],
   "note": "Silence after removal and undisturbed others are proved. Two parts are false of the code: removing the first listener decrements begin() (undefined by the standard), and a listener added again before the purge is lost. The plain dispatcher removes only one of two registrations."
  },
  {
   "property": "C13",
   "status": "partial",
   "theorems": [
    "C13_delivered_on_owner_thread",
    "C13_owner_dispatch_delivers",
    "C13_foreign_process_refuted"
   ],
   "note": "Delivery on the owner's thread for dispatch and owner-only process_events is proved; the documented restriction that only the owner may process events is not enforced (refuted)."
  },
  {
   "property": "C14",
   "status": "proved",
   "theorems": [
    "C14_each_document_once",
    "C14_paired_with_own_result",
    "C14_finished_once_in_order"
   ],
   "note": "All interleavings of the calling thread and any number of workers, condition variable and spurious wake-ups included; the E and M steps are arbitrary functions."
  },
  {
   "property": "C15",
   "status": "proved",
   "theorems": [
    "C15_transform_columns"
   ],
   "note": "Any interleaving; the gamma of a document is an arbitrary function of the parameters and the document."
  },
  {
   "property": "C16",
   "status": "proved",
   "theorems": [
    "C16_no_deadlock",
    "C16_bounded",
    "C16_can_complete",
    "C16_cleaned_up",
    "C16_joined_any_thread",
    "C16_no_workers_never_returns"
   ],
   "note": "Deadlock freedom, explicit step bound, completion from every reachable state, cleanup on return. With zero workers the call is shown never to return."
  },
  {
   "property": "C17",
   "status": "partial",
   "theorems": [
    "C17_one_event_per_document_partial",
    "C17_event_before_m_step_partial",
    "C17_epoch_event_last_partial",
    "C17_other_thread_refuted"
   ],
   "note": "False when partial_fit runs on another thread than the one that built the LDA: the epoch event is not delivered. Proved on the building thread; the per-document part is proved for every calling thread."
  },
  {
   "property": "C18",
   "status": "partial",
   "theorems": [
    "C18_batch_no_concurrent_write_partial",
    "C18_online_refuted"
   ],
   "note": "False for M steps that update the model in doc_m_step (online). Proved for all others: parameters are written only after all workers were joined."
  },
  {
   "property": "C19",
   "status": "proved",
   "theorems": [
    "C19_schedule_independent_partial",
    "C19_fit_independent",
    "C19_demands",
    "C19_returns",
    "C19_unsupervised"
   ],
   "note": "C19_fit_independent: every batch M step, every E step, n epochs of fit over the reals, any workers, schedules and shuffles. C19_schedule_independent_partial is the earlier version for abstract M steps."
  },
  {
   "property": "C20",
   "status": "proved",
   "theorems": [
    "C20_build_throws_iff_incomplete",
    "C20_eta_before_topics_throws",
    "C20_last_settings_win"
   ],
   "note": "All histories of builder calls, any scalar type. set_e/set_m with a supervised step do not set the requirement flag; that is what the code documents."
  },
  {
   "property": "C21",
   "status": "partial",
   "theorems": [
    "C21_refuted",
    "C21_consistent_partial"
   ],
   "note": "False: topics can be re-initialised after eta (C21_refuted). Proved when eta is initialised after the last topic initialisation."
  },
  {
   "property": "C22",
   "status": "proved",
   "theorems": [
    "C22_seeded",
    "C22_random",
    "C22_eta"
   ],
   "note": "Over the reals, for arbitrary draws."
  },
  {
   "property": "C23",
   "status": "partial",
   "theorems": [
    "C23_refuted",
    "C23_different_builders_partial"
   ],
   "note": "False: the parameters are shared through a shared_ptr (C23_refuted holds for every pair from one builder). Proved for objects from different builders."
  },
  {
   "property": "C24",
   "status": "proved",
   "theorems": [
    "C24_fast_exp_accurate"
   ],
   "note": "Over the reals, for every argument; the table entries are the decimals of utils.hpp."
  },
  {
   "property": "C25",
   "status": "proved",
   "theorems": [
    "C25_lookup_in_bounds_double",
    "C25_lookup_in_bounds_float",
    "C25_nan_undefined"
   ],
   "note": "Over Flocq's IEEE formats (binary32, binary64), every non-NaN argument. The NaN case is shown to be undefined behaviour (C25_nan_undefined)."
  },
  {
   "property": "C26",
   "status": "partial",
   "theorems": [
    "C26_monotone_partial",
    "C26_refuted"
   ],
   "note": "False at x = 100 (C26_refuted); C26_monotone_partial proves monotonicity on each side of the cut-off."
  },
  {
   "property": "C27",
   "status": "proved",
   "theorems": [
    "C27_digamma_accurate",
    "C27_digamma_exists",
    "C27_steps"
   ],
   "note": "Accuracy over the reals against Gauss's limit; at most seven recurrence steps."
  },
  {
   "property": "C28",
   "status": "proved",
   "theorems": [
    "C28_normalize_rows",
    "C28_normalize_cols"
   ],
   "note": "Over the reals."
  },
  {
   "property": "C29",
   "status": "partial",
   "theorems": [
    "C29_unsupervised",
    "C29_multinomial",
    "C29_slda",
    "C29_fast_double",
    "C29_fast_float",
    "C29_fast_exact",
    "C29_refuted"
   ],
   "note": "Proved for every scalar type (NaN and infinities included) for the unsupervised, multinomial and sLDA E steps, and for double, float and exact arithmetic for the fast supervised E step. False for the correspondence E step: tau is normalised over the whole vocabulary, so entries of absent words change gamma (C29_refuted)."
  },
  {
   "property": "C30",
   "status": "proved",
   "theorems": [
    "C30_valid_posterior"
   ],
   "note": "Exact arithmetic."
  },
  {
   "property": "C31",
   "status": "proved",
   "theorems": [
    "C31_fast",
    "C31_multinomial",
    "C31_correspondence"
   ],
   "note": "Exact arithmetic. For the fast supervised E step with likelihood computation the document needs a word (without one the code reads column -1); multinomial and correspondence assume positive eta entries for the class, because of their logarithms."
  },
  {
   "property": "C32",
   "status": "proved",
   "theorems": [
    "C32_valid_posterior",
    "C32_pass_consistent",
    "C32_word_documented_h",
    "C32_likelihood"
   ],
   "note": "Exact arithmetic, with the library's own exponential in place of exp. Also the reported likelihood, when at least one iteration runs."
  },
  {
   "property": "C33",
   "status": "partial",
   "theorems": [
    "C33_unsupervised",
    "C33_fast",
    "C33_correspondence",
    "C33_slda",
    "C33_multinomial_partial",
    "C33_refuted"
   ],
   "note": "Proved for every scalar type for the unsupervised, fast supervised, correspondence and sLDA E steps. False for the multinomial E step, which passes compute_likelihood as the tolerance (C33_refuted); what it does instead is C33_multinomial_partial."
  },
  {
   "property": "C34",
   "status": "proved",
   "theorems": [
    "C34_phi_optimal"
   ],
   "note": "Exact arithmetic; eps bounds the error of fast_exp and digamma."
  },
  {
   "property": "C35",
   "status": "proved",
   "theorems": [
    "C35_no_supervision"
   ],
   "note": "Exact arithmetic."
  },
  {
   "property": "C36",
   "status": "partial",
   "theorems": [
    "C36_partial",
    "C36_refuted"
   ],
   "note": "False when a word occurs more than once (C36_refuted: counts enter two of the four phi terms as 0/1). Proved, with explicit error terms, when all counts are at most one."
  },
  {
   "property": "C37",
   "status": "proved",
   "theorems": [
    "C37_maximum_likelihood"
   ],
   "note": "Over the reals, for the six batch M steps (unsupervised, fast supervised, semi-supervised, sLDA, multinomial, correspondence), after every history of complete epochs. Competitors must give positive probability to every word with expected counts, otherwise their likelihood is -infinity."
  },
  {
   "property": "C38",
   "status": "proved",
   "theorems": [
    "C38_memoryless",
    "C38_topics"
   ],
   "note": "Over every scalar type (so also float/double): same outcome, model and dispatched values as with a new object; the topics do not depend on the model either. An epoch must hold at least one document. The online M step is not a batch M step: C42 gives its topics from all documents since the start."
  },
  {
   "property": "C39",
   "status": "proved",
   "theorems": [
    "C39_fast",
    "C39_semi",
    "C39_slda",
    "C39_fast_improves",
    "C39_slda_improves"
   ],
   "note": "Exact training set over every scalar type; over the reals the fit succeeds given enough time and does not worsen the objective. sLDA: documents of at most 46340 words (beyond, N*N overflows int: C56)."
  },
  {
   "property": "C40",
   "status": "proved",
   "theorems": [
    "C40_multinomial",
    "C40_correspondence"
   ],
   "note": "Over the reals, after every history of complete epochs."
  },
  {
   "property": "C41",
   "status": "proved",
   "theorems": [
    "C41_eta",
    "C41_topics",
    "C41_no_labels_undefined"
   ],
   "note": "For whole histories, over every scalar type. Finding: an epoch without any labelled document is undefined behaviour (C41_no_labels_undefined)."
  },
  {
   "property": "C42",
   "status": "proved",
   "theorems": [
    "C42_updates",
    "C42_number",
    "C42_epochs",
    "C42_stochastic"
   ],
   "note": "Updates are given explicitly for every history, over every scalar type; stochasticity over the reals, if the first mini-batch gives every topic mass and 0 <= beta weight <= 1."
  },
  {
   "property": "C43",
   "status": "partial",
   "theorems": [
    "C43_refuted"
   ],
   "note": "False of the code: the run is the same for all weight vectors of equal length, because the three-argument constructor of the regression recomputes the weights from the mini-batch's labels."
  },
  {
   "property": "C44",
   "status": "proved",
   "theorems": [
    "C44_mlr_gradient"
   ],
   "note": "Exact arithmetic; also identifies the objective (balanced softmax log likelihood plus L2 penalty)."
  },
  {
   "property": "C45",
   "status": "proved",
   "theorems": [
    "C45_second_order_gradient",
    "C45_semi_definite"
   ],
   "note": "Exact arithmetic. The hypothesis (positive argument of the logarithm) holds for positive semi-definite variances (C45_semi_definite)."
  },
  {
   "property": "C46",
   "status": "proved",
   "theorems": [
    "C46_armijo",
    "C46_descent_direction"
   ],
   "note": "Exact arithmetic; any objective with a gradient (directional derivatives) at the start."
  },
  {
   "property": "C47",
   "status": "proved",
   "theorems": [
    "C47_fit",
    "C47_logistic",
    "C47_second_order"
   ],
   "note": "Exact arithmetic; C47_logistic and C47_second_order show the two M steps' problems meet its hypothesis."
  },
  {
   "property": "C48",
   "status": "proved",
   "theorems": [
    "C48_balanced"
   ],
   "note": "Exact arithmetic. Classes below the largest label that do not occur get D/0 (infinite in floats), a weight that is never used."
  },
  {
   "property": "C49",
   "status": "proved",
   "theorems": [
    "C49_scores",
    "C49_predict",
    "C49_predict_float",
    "C49_determined",
    "C49_draws",
    "C49_call"
   ],
   "note": "Scores over the reals; the first largest score is chosen over the reals and for finite IEEE numbers; the whole call for the classic E step; independence of schedule, workers and draws for every E step and scalar type."
  },
  {
   "property": "C50",
   "status": "proved",
   "theorems": [
    "C50_consistent",
    "C50_returns"
   ],
   "note": "Any scalar type, E step, schedule and number of workers."
  },
  {
   "property": "C51",
   "status": "partial",
   "theorems": [
    "C51_refuted",
    "C51_classic_partial"
   ],
   "note": "False of the code for every E step but the classic one: transform builds documents without labels and the other E steps cast them to labelled documents (undefined behaviour). C51_refuted; the classic case is proved."
  },
  {
   "property": "C52",
   "status": "proved",
   "theorems": [
    "C52_snapshots",
    "C52_is_fit",
    "C52_option",
    "C52_option_refuted"
   ],
   "note": "For every E step, M step, worker count, schedule and history: the snapshots are exactly those of epochs N, 2N, ..., with distinct names (also distinct from the final model file) and the model partial_fit left. C52_option_refuted: the command line takes a long and narrows it, so 2^32 passes the test and divides by zero."
  },
  {
   "property": "C53",
   "status": "partial",
   "theorems": [
    "C53_refuted",
    "C53_within_two_partial"
   ],
   "note": "False: the accumulator is an int (C53_refuted, binary64: two documents at -3/2 print -1, two at -1/2 print nothing, one at -3e9 is undefined behaviour). Proved: in exact arithmetic, for all sequences of epochs whose sums fit an int, the printed value is at least the average and less than two above it, epochs do not influence each other, and nothing is printed only if the average is above -1 or there is none."
  },
  {
   "property": "C54",
   "status": "partial",
   "theorems": [
    "C54_refuted",
    "C54_continue_partial"
   ],
   "note": "False: the branch for --continue_from_unsupervised reads --continue, which is then empty, so that no training starts (C54_refuted, all three training commands, every file). Proved: --continue loads the model's topics, prior and eta. docopt::value's conversions are modelled from the library's documentation."
  },
  {
   "property": "C55",
   "status": "partial",
   "theorems": [
    "C55_negative_label_refuted"
   ],
   "note": "False of the code for every label vector with a negative label: the constructor indexes its prior vector with it."
  },
  {
   "property": "C56",
   "status": "proved",
   "theorems": [
    "C56_document_counter"
   ],
   "note": "Every schedule, worker count, number of epochs."
  },
  {
   "property": "C57",
   "status": "proved",
   "theorems": [
    "C57_transform_model"
   ],
   "note": "All three applications; the hypotheses say that the options can be read and that the model has topics."
  },
  {
   "property": "C58",
   "status": "proved",
   "theorems": [
    "C58_reproducible",
    "C58_sequential",
    "C58_is_fit",
    "C58_two_workers_refuted"
   ],
   "note": "Any scalar type; batch M steps (for the online one see C18). C58_two_workers_refuted shows that the restriction to one worker is needed."
  },
  {
   "property": "C59",
   "status": "proved",
   "theorems": [
    "C59_calls",
    "C59_any"
   ],
   "note": "Exact arithmetic; C59_any is for every scalar type and M step."
  },
  {
   "property": "C60",
   "status": "proved",
   "theorems": [
    "C60_resume",
    "C60_exponential"
   ],
   "note": "Exact arithmetic. The saved model is read back bit for bit by C02; that the command line hands it to the training is C54. C60_exponential: with an exponential weight each session starts with weight 1 again."
  },
  {
   "property": "C61",
   "status": "partial",
   "theorems": [
    "C61_eta_refuted",
    "C61_before_eta_partial",
    "C61_data_partial",
    "C61_header_refuted"
   ],
   "note": "False once the eta array has begun: the last read is not checked, so a file cut inside eta's data loads with zeros (C61_eta_refuted), and one cut inside its header is undefined behaviour or gives a model of one class (C61_header_refuted). Proved for every cut before byte 24 of eta's array; cuts inside alpha's or beta's data throw (C61_data_partial)."
  },
  {
   "property": "C62",
   "status": "proved",
   "theorems": [
    "C62_snapshots_survive",
    "C62_overwrite_refuted"
   ],
   "note": "A save over an existing file of the same name is not covered by the property and can lose both versions (C62_overwrite_refuted)."
  },
  {
   "property": "C63",
   "status": "proved",
   "theorems": [
    "C63_estep",
    "C63_transform",
    "C63_decision",
    "C63_predict"
   ],
   "note": "E step, transform, decision function and predict, all E steps (sLDA: words keep their order), reals. The likelihood reported by the E step is compared for all but sLDA's and the fast supervised E step."
  },
  {
   "property": "C64",
   "status": "proved",
   "theorems": [
    "C64_fit"
   ],
   "note": "All batch M steps and all E steps (sLDA: words keep their order), reals; not the online M steps."
  },
  {
   "property": "C65",
   "status": "partial",
   "theorems": [
    "C65_refuted",
    "C65_fit_partial"
   ],
   "note": "False: C65_refuted (fast supervised algorithm, a class without documents; the class weights depend on the largest label). Proved if the largest label in use is the same, and for the M steps that do not weigh classes."
  },
  {
   "property": "C66",
   "status": "proved",
   "theorems": [
    "C66_multinomial",
    "C66_correspondence_phi",
    "C66_correspondence_tau",
    "C66_fast",
    "C66_fast_direction"
   ],
   "note": "Phi updates of the multinomial, correspondence and fast supervised E steps and tau, over the reals with fast_exp's proved error; C66_fast_direction: the linearisation is the gradient of the class's log probability."
  },
  {
   "property": "C67",
   "status": "partial",
   "theorems": [
    "C67_document_partial",
    "C67_refuted",
    "C67_once_partial"
   ],
   "note": "False for words that occur more than once: C67_refuted. Proved for words that occur once (C67_once_partial), from any state C32 shows reachable, and for the whole E step with its gamma updates when all words of the document occur at most once (C67_document_partial)."
  },
  {
   "property": "C68",
   "status": "proved",
   "theorems": [
    "C68_fast",
    "C68_multinomial",
    "C68_correspondence"
   ],
   "note": "Over the reals. Fast: every word supported by some topic and a document with words. sLDA's report is C32."
  },
  {
   "property": "C69",
   "status": "proved",
   "theorems": [
    "C69_gamma",
    "C69_unsupervised",
    "C69_unsupervised_more",
    "C69_multinomial",
    "C69_multinomial_more"
   ],
   "note": "Over the reals, with the logarithm of the gamma function and digamma given by their limits. C69_gamma is exact; the others up to twice the error of fast_exp per word and iteration. All words of the document have to occur in some topic."
  },
  {
   "property": "C70",
   "status": "proved",
   "theorems": [
    "C70_rows_skipped",
    "C70_cols_skipped",
    "C70_counts_skipped",
    "C70_sums",
    "C70_divide",
    "C70_divide_float",
    "C70_product",
    "C70_product_nonzero",
    "C70_reshape_vector",
    "C70_reshape_matrix",
    "C70_reshape_round"
   ],
   "note": "Skipping, the product and reshaping in any arithmetic; values over the reals; the division also in IEEE arithmetic."
  },
  {
   "property": "C71",
   "status": "proved",
   "theorems": [
    "C71_each_once",
    "C71_serial",
    "C71_exclusive",
    "C71_progress",
    "C71_likelihood"
   ],
   "note": "Interleavings of lock, read, write and return steps, sequentially consistent. Axiom free except for C71_likelihood (reals)."
  },
  {
   "property": "C72",
   "status": "proved",
   "theorems": [
    "C72_topics",
    "C72_climbs",
    "C72_multinomial"
   ],
   "note": "Over the reals; log gamma and digamma in the bound are arbitrary functions. The online M step moves the topics only part of the way and is not covered."
  },
  {
   "property": "C73",
   "status": "partial",
   "theorems": [
    "C73_refuted",
    "C73_classes_partial"
   ],
   "note": "False: the topics are computed from counts weighted by tau, which the bound uses for the class only (C73_refuted: they can be worse than the old topics). Proved: the class probabilities maximise the bound and the prior, for any topics."
  },
  {
   "property": "C74",
   "status": "proved",
   "theorems": [
    "C74_training_keeps_sizes",
    "C74_empty_corpus"
   ],
   "note": "All seven M steps, every E step, arithmetic, schedule; companion theorem: the demand for a document is needed (an epoch over no documents leaves the unsupervised M step's model without topics)."
  },
  {
   "property": "C75",
   "status": "proved",
   "theorems": [
    "C75_transform_command",
    "C75_documents_read",
    "C75_labels_read",
    "C75_documents"
   ],
   "note": "All three transform commands at IEEE double, every schedule; hypotheses met by a computed case (C75_case)."
  },
  {
   "property": "C76",
   "status": "partial",
   "theorems": [
    "C76_refuted",
    "C76_partial"
   ],
   "note": "False of the code: streams are never checked after opening or writing (C76_refuted, every command). Proved on a device without errors (C76_partial)."
  },
  {
   "property": "C77",
   "status": "proved",
   "theorems": [
    "C77_only_outputs_change",
    "C77_good_device"
   ],
   "note": "Every command, every device behaviour, every run that is not undefined behaviour."
  },
  {
   "property": "C78",
   "status": "proved",
   "theorems": [
    "C78_training_is_saved",
    "C78_train_then_transform",
    "C78_model_read",
    "C78_classes",
    "C78_labels"
   ],
   "note": "All four trainings at IEEE double, fresh and --continue starts, and train followed by transform; a run is exhibited in C78_case."
  },
  {
   "property": "C79",
   "status": "partial",
   "theorems": [
    "C79_refuted",
    "C79_partial"
   ],
   "note": "C79_partial: alpha at least 1/300, topics giving each word of the document at least 2^-250. Without a lower bound on alpha the property is false of the code (C79_refuted: exp overflows, all probabilities become zero)."
  },
  {
   "property": "C80",
   "status": "partial",
   "theorems": [
    "C80_refuted",
    "C80_partial",
    "C80_accuracy_partial"
   ],
   "note": "C80_partial, C80_accuracy_partial: every topic gives at least 2^-250 to a word of the corpus. Without that the property is false of the code (C80_refuted: a topic none of whose words occur is 0/0 after one epoch, and the next epoch has undefined behaviour)."
  },
  {
   "property": "C81",
   "status": "partial",
   "theorems": [
    "C81_refuted",
    "C81_partial"
   ],
   "note": "False in full: a document without words gets NaN scores for every class and class 0 as its prediction (C81_refuted, for every model). Proved for documents with words whose mass is not negligible beside alpha's (score_unit at most 1/2) and coefficients up to 2^900: finite scores with the stated error, first-best prediction, and its exact score within twice the error of the best."
  },
  {
   "property": "C82",
   "status": "partial",
   "theorems": [
    "C82_refuted",
    "C82_partial",
    "C82_semi_supervised_partial"
   ],
   "note": "False in full: with valid alpha and topics and finite coefficients of 2000 the softmax overflows (infinity / infinity), the exponent is NaN and the table access of fast_exp is undefined, for every weight (C82_refuted). Proved for alpha at least 1/250, coefficients at most 150 in absolute value and a weight that does not blow up their spread, for every number of iterations and tolerance, and the same for the semi-supervised E step. Not proved: the likelihood of a labelled document without words."
  },
  {
   "property": "C83",
   "status": "partial",
   "theorems": [
    "C83_refuted",
    "C83_partial"
   ],
   "note": "False of the code in full: with a weight of 5000 the weights of all topics underflow to zero and the document loses its words (C83_refuted). Proved: for class probabilities of at least 2^-100 and a weight w with |w| * -ln(eta) at most 20, the E step ends normally with a valid posterior up to rounding, for any library right within a factor of two and any order of summation."
  },
  {
   "property": "C84",
   "status": "partial",
   "theorems": [
    "C84_refuted",
    "C84_partial"
   ],
   "note": "False of the code in full: a topic that excludes the class of the document gives 0 * -infinity and undefined behaviour (C84_refuted). Proved: for class probabilities of at least 2^-100 the E step ends normally with a valid posterior and valid shares up to rounding."
  },
  {
   "property": "C85",
   "status": "partial",
   "theorems": [
    "C85_refuted",
    "C85_partial",
    "C85_accuracy_partial"
   ],
   "note": "False of the code in full: with a weight of 5000 one epoch leaves every topic without any probability (C85_refuted). C85_partial, C85_accuracy_partial: mu at least 1 + 2^-30, every topic gives at least 2^-250 to a word of the corpus, and the weight is at most 20 / ln (2 (N + C (mu - 1)) / (mu - 1)) for N words and C classes (weight 1, mu 2: 240 million words)."
  },
  {
   "property": "C86",
   "status": "partial",
   "theorems": [
    "C86_refuted",
    "C86_partial",
    "C86_accuracy_partial"
   ],
   "note": "False of the code in full: with mu = 1, after one epoch every topic of a corpus of two documents excludes a class, and no second epoch ends normally (C86_refuted). C86_partial, C86_accuracy_partial: mu at least 1 + 2^-30, class probabilities of at least 2^-30 at the start, every topic gives at least 2^-40 to a word of the corpus, and 2 (N + C (mu - 1)) is at most 2^30 (mu - 1) for N words and C classes (mu 2: 536 million words)."
  },
  {
   "property": "C87",
   "status": "partial",
   "theorems": [
    "C87_refuted",
    "C87_search_partial",
    "C87_fast_partial",
    "C87_semi_partial",
    "C87_slda_partial",
    "C87_fast_reports_partial",
    "C87_slda_reports_partial"
   ],
   "note": "False in full: C87_refuted (the search starts its loop with the value at the start, so when twice the decrease vanishes in rounding the first step of twice the gradient is taken without a test; an M step that leaves a larger objective and reports no change). Proved: the search ends for every objective, start without -0, gradient and direction (C87_search_partial); the fast, semi-supervised and sLDA M steps end after any number of epochs with any posteriors (C87_fast_partial, C87_semi_partial, C87_slda_partial); with a tolerance not below zero the reports never fall, and the objective left is the last report and not above the old one unless the last two reports are the same (C87_fast_reports_partial, C87_slda_reports_partial). Missing: coefficients with -0; negative tolerances for the reports."
  },
  {
   "property": "C88",
   "status": "partial",
   "theorems": [
    "C88_settings_partial",
    "C88_same_model_partial",
    "C88_tolerance_refuted",
    "C88_class_weights_refuted"
   ],
   "note": "False in full. Proved for every history of builder calls with arguments: the built object's E step, fit and transform are those of the setters called last, with the given arguments or the documented defaults (C88_settings_partial), and building succeeds or fails, and the starting model is, as for the calls without arguments (C88_same_model_partial, so C20-C22 apply). Refuted: the tolerance of the multinomial E step never has an effect (C88_tolerance_refuted), nor do the class weights of the online M step beyond their number (C88_class_weights_refuted). Left out: random_state, and one step object shared by several builders."
  },
  {
   "property": "C89",
   "status": "partial",
   "theorems": [
    "C89_partial",
    "C89_steps_partial",
    "C89_refuted",
    "C89_twice_refuted"
   ],
   "note": "False in full. Proved for every history of creating builders, steps, nested semi-supervised E steps, LDA objects and listeners in which no step object is used twice: each event is heard by exactly the listeners of the object that trains, in order (C89_partial). Refuted when two LDA objects are made from one builder (the second's listeners hear the first's training, C89_refuted) and when one step is both parts of a semi-supervised E step (events heard twice, C89_twice_refuted). Destruction and removal of listeners are not in this model."
  },
  {
   "property": "C90",
   "status": "proved",
   "theorems": [
    "C90_pass",
    "C90_fit",
    "C90_fit_call"
   ],
   "note": "Both directions, for one pass (C90_pass), for fit (C90_fit), and against the fit of all other theorems (C90_fit_call). Standard threads are interleavings, as for C14-C19."
  },
  {
   "property": "C91",
   "status": "proved",
   "theorems": [
    "C91_train",
    "C91_transform"
   ],
   "note": "Both directions for Ok, Throw and UB outcomes, with double-precision numbers. The sizes of the model must fit the file format (storable), as for C78. With --snapshot_every greater than 0 see C62 and C78; with --continue_from_unsupervised see C54."
  },
  {
   "property": "C92",
   "status": "proved",
   "theorems": [
    "C92_reports",
    "C92_any_thread"
   ],
   "note": "Pool-level invariant, any thread; the int counter of the listener is why the printed version needs fewer than 2^31 reports per epoch."
  },
  {
   "property": "C93",
   "status": "proved",
   "theorems": [
    "C93_run",
    "C93_decrease",
    "C93_gradient_vanishes",
    "C93_logistic"
   ],
   "note": "Real arithmetic; any callback; the regression of the M steps is shown to meet the curvature hypothesis."
  },
  {
   "property": "C94",
   "status": "proved",
   "theorems": [
    "C94_seeded",
    "C94_random",
    "C94_train",
    "C94_transform"
   ],
   "note": "Within the limits the statement names (300 topics, non-zero random numbers, words known from training); double precision with log, exp and sums of a stated accuracy."
  },
  {
   "property": "C95",
   "status": "proved",
   "theorems": [
    "C95_snapshots",
    "C95_usable"
   ],
   "note": "For all four training commands, on a disk without errors; C95_usable adds that the snapshots of lda train are usable in double precision."
  },
  {
   "property": "C96",
   "status": "proved",
   "theorems": [
    "C96_continue"
   ],
   "note": "Within the limits of C94, whose models (and snapshots, and this property's own results) meet its hypotheses."
  },
  {
   "property": "C97",
   "status": "proved",
   "theorems": [
    "C97_exact",
    "C97_right",
    "C97_evaluate",
    "C97_classified",
    "C97_transform",
    "C97_ten"
   ],
   "note": "The fraction is exact in exact arithmetic (C97_exact) and within n 2^-50 in double precision (C97_evaluate, C97_transform); C97_classified shows that the predictions exist for the inputs of C81."
  },
  {
   "property": "C98",
   "status": "proved",
   "theorems": [
    "C98_snapshots",
    "C98_train"
   ],
   "note": "Both directions, for every combination of options, without snapshots, on a good device (C98_train); with snapshots, the files left (C98_snapshots)."
  },
  {
   "property": "C99",
   "status": "proved",
   "theorems": [
    "C99_exact",
    "C99_double"
   ],
   "note": "Exact (C99_exact) and in double precision up to rounding (C99_double); counters below 2^31."
  },
  {
   "property": "C100",
   "status": "partial",
   "theorems": [
    "C100_partial",
    "C100_speaks",
    "C100_refuted"
   ],
   "note": "C100_partial covers the M steps that report a value in every epoch (C100_speaks: all but the online one); C100_refuted: the online M step with fewer documents than a batch makes the stopwatch print a negative duration."
  },
  {
   "property": "C101",
   "status": "proved",
   "theorems": [
    "C101_correspondence",
    "C101_multinomial"
   ],
   "note": "Within the limits of C85 and C86 (double_labelled, double_corresponding), which are needed (C85_refuted, C86_refuted)."
  },
  {
   "property": "C102",
   "status": "proved",
   "theorems": [
    "C102_correspondence",
    "C102_multinomial",
    "C102_snapshots_correspondence",
    "C102_snapshots_multinomial"
   ],
   "note": "Training from scratch with --correspondence (at most 139 topics) and --multinomial (at most 100 topics), for rough log and exp and any order of summation, as C85 and C86; the limits on documents, words, classes, mu and weight are in RootFreshSpec.v. C102_snapshots_*: the files of --snapshot_every are models of the same kind."
  },
  {
   "property": "C103",
   "status": "proved",
   "theorems": [
    "C103_snapshots",
    "C103_evaluate",
    "C103_transform"
   ],
   "note": "For both variants of C102; the documents classified meet the hypotheses of C81 (double_query 1), which gives the accuracy of the scores."
  }
 ]
}