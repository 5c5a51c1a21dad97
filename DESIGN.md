# Formal model of supervised-lda (LDA++) in Rocq/Coq 8.16

## Layout

| file (rocq/theories) | content |
|---|---|
| `Base.v` | outcome type (`Ok`/`Throw`/`UB`), list and permutation lemmas |
| `NumpyModel.v`, `NumpySpec.v`, `NumpyProofs.v`, `NumpyTheorems.v` | `NumpyFormat.hpp`, `lda_io.cpp` at byte level |
| `EventsModel.v` … `EventsTheorems.v` | the three event dispatchers, with interleavings |
| `CorpusModel.v` … | `Document.cpp` |
| `PoolModel.v`, `PoolSpec.v`, `PoolProofs.v`, `PoolDone.v`, `PoolTheorems.v` (and `PermTac.v`, a permutation solver) | worker pool of `LDA::partial_fit` / `LDA::transform` as a small-step transition system |
| `BuilderModel.v` … | `LDABuilder` as a state machine |
| `Scalar.v`, `Mat.v` | the scalar operations record and matrices over it |
| `UtilsModel.v` … | `utils.hpp` (`fast_exp`, `digamma`, normalisation, reductions) |
| `EStepModel.v`, `EStepSpec.v`, `EStepAny/Float/Real/Zero/Corr/Opt/Elbo/Stop/Slda.v`, `EStepTheorems.v` | `e_step_utils.cpp` and the E steps |
| `MStepModel.v`, `MStepSpec.v`, `MStepAny.v` (any scalar), `MStepBatch.v`, `MStepOnline.v`, `MStepReal.v`, `MStepTheorems.v` | the M steps |
| `OptModel.v`, `OptSpec.v`, `OptReal.v`, `OptProofs.v`, `OptTheorems.v` | logistic regressions, line search, gradient descent |
| `LdaModel.v`, `InferSpec.v`, `InferProofs.v`, `InferTheorems.v` | the `LDA` class: fit, partial_fit, transform, decision_function, predict, over the pool and the E and M steps |
| `TrainSpec.v`, `TrainSizes.v`, `TrainPerm.v`, `TrainProofs.v`, `TrainFit.v`, `TrainTheorems.v` | training calls: sizes, order of documents, fit |
| `ShapeSpec.v`, `ShapeProofs.v`, `ShapeTheorems.v` | the sizes of the model during training |
| `HostModel.v`, `HostProofs.v` | ints and doubles as bytes in memory |
| `CommandModel.v`, `CommandSpec.v`, `CommandProofs.v`, `CommandFiles.v`, `CommandCases.v`, `CommandTheorems.v` | the commands of lda, slda and fslda as programs on a disk |
| `DoubleSpec.v`, `DoubleArith.v`, `DoubleUtils.v`, `DoubleProofs.v`, `DoubleRefute.v`, `DoubleCases.v`, `DoubleTheorems.v`, `DoubleTrainSpec.v`, `DoubleTrain.v`, `DoubleTrainRefute.v`, `DoubleTrainTheorems.v`, `DoubleInferSpec.v`, `DoubleInfer.v`, `DoubleInferCases.v`, `DoubleInferTheorems.v`, `DoubleFastSpec.v`, `DoubleFast.v`, `DoubleFastRefute.v`, `DoubleFastCases.v`, `DoubleFastTheorems.v`, `DoubleClassSpec.v`, `DoubleMultinomial.v`, `DoubleMultinomialRefute.v`, `DoubleCorrespondence.v`, `DoubleCorrespondenceRefute.v`, `DoubleClassCases.v`, `DoubleClassTheorems.v` | rounding errors of the numeric code in double precision |
| `AppsModel.v`, `AppsSpec.v`, `AppsProofs.v`, `AppsPrint.v`, `AppsOptions.v`, `AppsTheorems.v` | progress listeners, snapshots, option handling |

`*Model.v` files hold only definitions, each with the lines of /repo it models.
`*Spec.v` files hold the vocabulary of the theorem statements and do not
mention the model. `*Proofs.v` hold lemmas. `*Theorems.v` hold only the property
theorems (closed by `exact`), the non-vacuity examples and `Print Assumptions`.

## Modelling decisions

* Numeric code is written once, parametric in a record of scalar operations
  (`Scalar.v`). It is instantiated with the real numbers (exact arithmetic) and
  with IEEE floats from Flocq. Theorems that need no algebra are proved for
  *every* scalar type, so they hold for `float` and `double` including NaN and
  infinities. Rounding is therefore visible only in the float instance; theorems about sums
  and optima are about exact arithmetic and say so, except C79 ff., which bound the rounding errors in double precision.
* Undefined behaviour, exceptions and divergence are distinct outcomes.
* Concurrency is interleaving of small steps; a critical section that touches one
  shared object under one lock may be one or several steps as documented in the file.
* Randomness is an arbitrary stream of draws (an argument of the function).
* Matrices carry their dimensions; entries are stored as a list of columns.

## Properties: what is modelled and how it is proved

C01–C08 (files): byte-level writer and reader. Round trip by symbolic execution of the
reader over the writer's output; decimal printing/parsing proved inverse by
induction. C06, C07 and C08 are false of the code as it stands: the refutations are concrete
files on which the reader's outcome is computed, and the true parts are proved
separately (`_partial`).

C09–C10 (corpus): Fisher–Yates with arbitrary draws yields a permutation; counts by
induction over the label vector.

C11–C13 (events): transition system whose labels are the public calls and the internal
phases of `process_events`; conservation invariant over all traces. The erase
loop's iterator arithmetic is modelled with positions so that decrementing the begin
iterator is visible.

C14–C19 (worker pool): transition system with locks, condition variable, queues and
joins. Inductive invariant: documents in the input queue, in the hands of workers, in
the output queue and consumed form a permutation of all documents. Deadlock freedom by
case analysis on the invariant; termination by a decreasing measure. C18 is false
for the online M step (refuted by a concrete schedule), true for batch M steps. C19 over
the reals: the pool feeds the M step a permutation of the documents with their E-step results
(`TrainProofs.v`), and an epoch of any batch M step, gradient descent included, does not depend on the
order (`TrainPerm.v`); induction over the epochs.

C20–C23 (builder): state machine over builder calls, induction over call lists. C21 and C23 are
false of the code (refutation witnesses), conditional versions proved.

C24–C26 (fast exponential): the 1024-entry table as exact decimals; table accuracy by
computation with rational enclosures of exp lifted to the reals; error
analysis over the reals; index bounds over Flocq floats. C26 is false at x = 100.

C27 (digamma): the recurrence and the asymptotic series; error bounded by telescoping
against the characterisation of digamma by its recurrence and growth.

C28 (normalisation): by computation of each entry.

C29–C36 (E steps): invariants of the loops over the reals (`EStepReal.v`, `EStepSlda.v`); a
relational argument over every scalar type for C29 (`EStepAny.v`), where the fast supervised
E step additionally needs 0/n = 0, proved for float, double and the reals (`EStepFloat.v`);
C29 is false for the correspondence E step (`EStepCorr.v`). C33: the loop as an inductive
relation `runs`; false for the multinomial E step (tolerance argument mix-up, `EStepStop.v`).
C34: Gibbs' inequality with an error term (`EStepOpt.v`). C35: `EStepZero.v`. C36 is false when
a word occurs more than once (`EStepElbo.v`).

C37–C43 (M steps): each M step object is a state machine over its calls (`doc_m_step`, `m_step`),
with the buffers it keeps (also uninitialised and stale entries). Invariants over histories give
the result of an epoch explicitly for every scalar type (`MStepAny.v`, `MStepOnline.v`);
`MStepBatch.v` collects the six batch M steps in one relation; `MStepReal.v` adds Gibbs'
inequality for C37 and the normalisation facts. C43 is false: the run is proved equal for all
weights.

C44–C48 (optimisation, over the reals): the objectives are written independently in `OptSpec.v`
(balanced softmax log likelihood; its second-order version); directional derivatives with
Coquelicot, partial derivatives from them (`OptReal.v`); the model computes these
(`OptProofs.v`). Armijo termination from the derivative at the start, minimality of the step
by the least exponent; C47 by induction on the iterations left, for any problem that
`computes` an objective and its gradient, then instantiated.

C49–C51 (inference): `LdaModel.v` composes the pool (any schedule, any number of workers) with the
E step; the gammas are proved to be a function of the E step, the model and the documents. Scores
and argmax against `InferSpec.v`, over the reals and for finite IEEE numbers. C51 is false for every E step
but the classic one (documents without labels are cast to labelled documents).

C58 (reproducibility): `fit_seeded` (`ReproModel.v`) is fit with the shuffles' draws as an argument. With one worker the pool hands
the documents back in order (invariant in `PoolOrder.v`), so every execution equals `plain_fit` (`ReproSpec.v`), a loop without threads;
this holds for every scalar type. A pair of schedules with two workers shows it is false for more (single precision).

C59, C60 (several calls, several sessions): `ResumeSpec.v`. `fit_same` (`TrainProofs.v`) compares two trainings whose M step objects have
different histories and whose epoch counters differ; between epochs a batch M step behaves as a new one (C38).

C61, C62 (crash while saving): `CrashProofs.v`, `DiskModel.v`, `DiskProofs.v`, `CrashTheorems.v`. A crash leaves a prefix of the bytes of the file being
written and all earlier saves (process stopped, operating system alive: no lost or reordered writes). The prefix is given to the model of
`load_lda`. C61 is false once eta's array has begun: every cut inside eta's data loads silently with zeros, and cuts in its header can be UB or a
model with one class. Proved: no cut before byte 24 of eta's array gives a model, and cuts inside alpha's or beta's data throw. C62 is proved for
distinct names; saving over an older model can lose both (`C62_overwrite_refuted`).

C63–C65 (numbering): `Rename*.v`. A naming is three permutations; [model_renamed] and so on say that two models, documents, posteriors are the same
in two namings. Every function of the E steps, M steps and optimisers is shown to respect it over the reals (a simulation: if the first succeeds, so does the second,
with renamed results), and the result is lifted to calls with C15 and C19. C65 is false: the class weights divide by the largest label plus one, not by
the number of classes, so a class without documents has a different effect if it is the last one (`C65_refuted`); it is proved when the largest label in use
is the same, and for the M steps without class weights. The online M steps are not covered.

C66–C68 (supervised objectives): `Update*.v`. C66: each update is a column of beta times weights, normalised, and the weights' logarithms are the worths of
the objective up to the error of `fast_exp` and a shift per word; Gibbs' inequality does the rest (`weights_optimal`). C67 compares the sLDA bound before and
after a fixed point step: the log normaliser is replaced by its tangent at the current phi, of which the step is the maximiser. This needs the word's count
to be one. With a larger count the code divides by the count where the bound does not, and the bound can go down by more than the
exponential's error (`C67_refuted`). For documents in which no word occurs twice the argument is carried through a whole run of the E step
(`C67_document_partial`, `AscentSlda.v`). C68 unfolds the likelihood functions to sums; the fast one needs `compute_h` to be the documented h, since it skips
absent words.

C69 (ascent): `Lgamma*.v`, `Ascent*.v`. The logarithm of the gamma function is specified by Gauss's limit, as digamma by its own; both exist. As a function of
gamma the bound is, up to a constant, the log normaliser of the Dirichlet plus a linear term, so that the gamma update is optimal iff the log normaliser is convex; this is proved
from the limits by moving one pseudo count at a time (`gap_nonneg`). With the optimality of the phi updates (C36, C66) each iteration loses at most the error of the
exponential; the loop is by induction. There is no such theorem for the correspondence model, whose tau update ignores the counts of the words that its phi update uses.

C70 (helpers): `Helper*.v`; folds over rows and columns, by induction, and the division in Flocq's arithmetic.

C71 (shared generator): `Prng*.v`. A call is four steps (lock, read the engine, write it, unlock and return) of any of any number of threads, around an arbitrary
engine. The invariant says that the calls that stored took effect in some order `who`, that the holder of the mutex is the one thread inside, and that what it
read is current. A Bernoulli draw is `u < p` for a number `u` in [0, 1); how `u` is made from the engine's numbers (two of them for a double, not drawn
atomically) is not modelled.

C52–C54, C56, C57 (applications): the listeners are state machines (`AppsModel.v`) fed with what the worker pool
delivers during fit (`fit_heard`); ints that overflow are undefined behaviour. C52 and C56 by induction over
epochs, from the pool theorems about events. C53 is false (the accumulator is an int); an error bound is
proved instead. Options are a function from keys to docopt values, and each application a sequence of builder
calls; C54 is false (the branch reads the wrong key).

C72, C73 (M steps and the bound): `Bound*.v`. Only one term of the bound of a document depends on the topics: its expected counts times the logarithms of the topics. Summed
over the epoch that is the log likelihood of the expected counts, which the normalised counts maximise (C37). The class terms of the multinomial bound and the
Dirichlet prior are the log likelihood of the smoothed class counts, which the rows of eta maximise by the same inequality. C73 is false: the correspondence M step weighs
the counts of the topics by tau, which belongs to the class only. `C73_refuted` runs its E step for one iteration on a document with two words and shows that the new topics are worse than the
old ones; that its class probabilities are optimal is proved.

C74 (sizes): `Shape*.v`. An invariant of the pool: the model has the given sizes and the M step's buffers are either new or of these sizes, and
from the first document on of these sizes; for each of the seven M steps it is preserved by a document and by the end of the epoch.

C75-C78 (commands): `Host*.v`, `Command*.v`. A command is a relation between the disk before, the outcome and the disk after, put together from the models of the
reader, the options, the builder, fit or transform over the pool, the listeners and the writer, with doubles as their eight bytes. What a device does with a
write is a parameter: one that takes everything (C75, C78) or one that may fail to open a file or to take some bytes (C76, C77). C75 uses that transform has one result (C49),
C78 that training keeps the sizes (C74) so that the model can be stored, and both the round trips of arrays (C01, C04). C76 is false, since no stream is ever checked.

C79 (double precision): `Double*.v`. The model of the E step, run with Flocq's binary64. std::log and std::exp are any functions right within a factor of two, `.sum()` any
floating-point sum of the elements, in any order and bracketing. digamma and fast_exp are bounded by following the range of each operation (alpha at least 1/300 keeps the exponential
away from overflow), sums by the standard relative error, and the loop by an invariant that is the property itself. Below 1/700 or so the exponential overflows and the property is false: refuted
with the builder's prior 1/K for K of some thousands.

C80 (training in double precision): `DoubleTrain*.v`. Over C79: the M step's counts are sums of products whose relative errors add up (a product with an integer cannot lose digits by underflow),
a topic that gives 2^-250 to a word of the corpus keeps a positive count, so no row sum is zero, and after the division the largest entry of the row is at least 1/(2V); hence the conditions
hold again after the epoch and induction over epochs goes through. Without the condition on topics the property is false: a topic whose words do not occur becomes 0/0, and the next E step converts a NaN to int in fast_exp.

C81 (inference in double precision): `DoubleInfer*.v`. decision_function recovers the expected counts as gamma - alpha, which cancels: the error of gamma, relative to alpha + counts, becomes an error
relative to the counts, hence the ratio of masses in the bound (`score_unit`). The normaliser is the computed sum of the differences, so the shares' errors are bounded through both. The sum over topics has
terms of any sign (`summed_signed`). first_best of the computed scores is exact, since comparisons are. A document without words has gamma = alpha exactly, so 0/0 for its shares: its scores are NaN and its class is 0 (`C81_refuted`).

C82 (fast supervised E step in double precision): `DoubleFast*.v`. The update of the word probabilities is C79's with a class term in the exponent; the proof bounds every intermediate number: the mean topics (sum at most 1.01), the scores (at most 152), the shares of the softmax (sum at most 1.001), their mean of the scaled coefficients and the exponent, so fast_exp stays in its table or in std::exp's range. `weights_sound` (`DoubleProofs.v`) then gives the posterior from any weights between 2^-497 and 2^256. Coefficients of 2000 make the softmax infinity / infinity: the exponent is NaN and the table access undefined (`C82_refuted`); nothing in the training bounds the coefficients that gradient steps produce.

C83 (multinomial E step in double precision): `DoubleMultinomial.v`. The exponent of the word update is digamma of gamma plus the weight times the logarithm of the class probability. The proof bounds the two terms (`class_range`, `mass_psi`), uses `fast_exp_range` for the exponential and `weights_range` (`DoubleProofs.v`), which turns weights between 2^-lo and 2^hi, lo + hi at most 794, into a valid posterior. With a weight of 5000 every weight of a word underflows to zero, the column is left unnormalised and the document loses its words (`C83_refuted`); the proved part asks for weight times -ln of the class probability at most 20.

C84 (correspondence E step in double precision): `DoubleCorrespondence.v`. The same bounds for the word update; the shares of the words are a normalised column of exponentials, so `normal_column` covers them (`double_shares`). A topic that excludes the class of the document makes phi times the logarithm 0 times minus infinity: the table access of fast_exp is undefined (`C84_refuted`). The smoothing mu = 1 lets the M step produce such a topic. The proved part asks for class probabilities of at least 2^-100.

C85 (multinomial training in double precision): `DoubleMultiTrain*.v`. Over C80 and C83: the class counts are sums over documents of the topic's words, with relative errors that add up (`heaped_d`, `mass_d`); adding mu and
taking 1 away multiplies the error by at most mu / (mu - 1) (`smooth_d`), so mu must stay away from 1. After the division every class probability is at least (mu - 1) / (2 (N + C (mu - 1))) for N words and C classes (`classes_low`), which gives
back C83's conditions on the class probabilities and the weight, so induction over epochs goes through. With a weight of 5000 the E step loses the words of the documents (C83) and the M step, which leaves rows that sum to zero alone, stores topics of zeros (`C85_refuted`).

C86 (correspondence training in double precision): `DoubleCorrTrain*.v`, `DoubleCorrEpoch.v`. As C85, with every expected count weighted by the word's share tau (three factors instead of two, `share_d`, `piled_d`). A share can be tiny, so a document's contribution to a
topic is bounded below through `correspondence_strong` (`DoubleCorrespondence.v`): where a topic gives a word 2^-40, and the classes have at least 2^-30, phi and tau stay far above the absolute error of an underflow (`part_d`, `topic_d`), which is why the error has the additive
term 2^-220. Smoothing keeps the class probabilities above 2^-30 (`shared_classes_low`), so induction over epochs goes through. With mu = 1 nothing does: on two documents with a word and a class each, the first epoch is exact (phi stays the identity and tau one half, `phi_exact`,
`tau_exact`, by an invariant of the loop) and ends in C84's model with excluded classes, in which the next E step is undefined (`C86_refuted`).

C87 (the line search in double precision): `DoubleSearch*.v`. The step sizes 2, 1, 1/2, ... are exact (`size_value`) and the 1076th is zero (`halving_dies`), where the test fails: if the direction is finite the step is the
start itself (which is why -0 is excluded: x - 0 turns it into +0; `sub_no_minus` shows that steps never make one), and otherwise the decrease is infinite or NaN (a sum with a number that is not finite is not finite,
`summed_not_finite`) and 0 times it is NaN. So the search ends for every objective and the M steps end for every epoch (`C87_fast_partial`, `C87_semi_partial`, `C87_slda_partial`, by C39's lemmas over any scalar type, by induction on the epochs).
The reports: signs show that the decrease is not negative (`decrease_sign`), so a tested step cannot raise the value (`test_falls`); with a tolerance not below zero an untested one ends the descent (`ratio_zero`).
False in full: the loop starts with the value of x0 itself, so the first step, 2 * gradient, is taken without a test when 2 * decrease vanishes in the rounding of the value (`swallow`, by the distance to the predecessor); the objective
there may be larger, and the value returned is that of the start (`C87_refuted`: two empty documents and a penalty of 1024). With -0 among the coefficients the search is not modelled by these theorems.

C88 (settings): `Settings*.v`. `SettingsModel.v` gives every setter its arguments (an option where there is a default value) and the object its steps with their constructor arguments, onto `LdaModel.v`; `SettingsSpec.v` reads what was asked for off the history. Proved by
induction over the calls (`C88_settings_partial`), and the model without arguments (BuilderModel.v) is its image (`C88_same_model_partial`), so C20-C22 carry over. False in full: the multinomial E step passes compute_likelihood where its tolerance belongs
(`C88_tolerance_refuted`) and the online M step keeps class_weights without ever reading them but for their number (`C88_class_weights_refuted`; `fslda online_train` computes them in vain). random_state and the sharing of step objects are left out.

C89 (who hears a training): `Route*.v`. `RouteModel.v` is a heap of steps, builders and LDA objects with the dispatchers they created and use; a forwarder of a semi-supervised E step dispatches again, and `delivered` relates an event to the listeners that hear it (no result: it
never ends). Invariant, as long as no step is used twice: an unused step uses its own dispatcher without listeners, a part its own with one forwarder, a step of an LDA object that object's (`inv`). False in full: one builder, two LDA objects (`C89_refuted`); one step
for both parts (`C89_twice_refuted`). Destruction and removal of listeners are not in this model (C11-C13 have removal), nor when events arrive (C13, C17).

C90 (the thread that calls fit): `Owner*.v`. The pool model (PoolModel.v) already has a flag for the calling thread: a foreign thread's events wait in the queue until process_events. A simulation in each direction between runs with the two values of the flag
(`owner_too`, `not_owner_too`) gives the same results, buffers and model for one pass, hence for fit (`fit_from`, OwnerSpec.v) by induction over the epochs.

C91 (the commands are library programs): `Program*.v`. `ProgramSpec.v` lists the builder calls (SettingsModel.v) that the options of each command stand for (`asks`), and the program that builds, fits and takes the model (`program`); the theorems say that the outcomes of the
commands (CommandModel.v) and of the programs are the same, in both directions (the one from the program to the command needs C90, since the commands call fit on the thread that built the object, and the program may not). Snapshots are C62, --continue_from_unsupervised is C54.

C92 (the M step's reports): `Print*.v`. `PrintSpec.v` says what an M step reports when it is shown the documents of an epoch one after the other and then ended; the proof is an invariant of the worker pool: the values received, those in the batch being delivered, those queued and those
the M step has yet to dispatch are together what the M step reported so far. The listener's int counter is why the printed version has a bound (2^31 reports in one epoch).

C93 (constant steps): `Descent*.v`. The callback is any function with a state; the run is given by the sequence of points x - a grad f(x). The decrease is the descent lemma (mean value theorem); `DescentLogistic.v` bounds the curvature of the library's logistic regression.

C94 (lda from scratch in doubles): `Fresh*.v`. The builder's first topics are bounded below by 2^-250 and are distributions up to rounding, so the corpus meets the demands of C80 and C79; the snapshots and the model file are written because the sizes are kept (C74). A random number 0 and more than 300 topics are excluded: C79 and C80 are refuted without such limits.

C95 (snapshots of the commands): `SnapshotProofs.v`. The models heard at the ends of the epochs split the fit in two; names are distinct (C52), so every file keeps what was written; sizes are kept (C74), so it reads back.

C96 (continued lda train in doubles): `More*.v`. A model that C94 or C96 leaves keeps the words of its corpus alive, so the corpus, extended by documents with those words, is again an input of C80.

C97 (the score): `RootModel.v`, `RootScore.v`, `RootQuery.v`. `slda.cpp` in the root directory is not built by CMake, but it is in the repository. It adds 1/n for every right prediction; each addition rounds once, so n of them are within n 2^-50 (`score_d`). The predictions are those of C49-C51, whatever the schedule.

C98 (its train): `RootProofs.v`. As for C91; `root_asks` (RootSpec.v) gives the builder calls for every combination of options. A model must fit a file (`storable`).

C99, C100 (its listeners): `RootListen.v`, `RootProgress.v`. The events of a training split into epochs (`heard_split`, from the invariant of C92); an invariant of the listener over the events of an epoch. Times are an arbitrary list of integers beside the events. C100 is false in full: the online M step
can be silent for an epoch (`C100_refuted`).

C98, with snapshots, and C101 (training with classes in doubles): `RootSnap*.v`. The fits are those of C85 and C86, all of which end normally; `train_with_ends` (C94) then gives the files.

C102 (training with classes from scratch in doubles): `RootFresh*.v`. The seeded topics are those of C94; C86 also asks that each topic gives 2^-40 to a word of the corpus, which holds because its most probable word has at least the mean, and a word outside the corpus keeps the one with which every word starts, so no word of the corpus has less. 1 / C and 1 / K are bounded after rounding (1 / 140 rounds down, hence 139 topics). Then as C101. For the snapshots (`RootSaveProofs.v`, `RootSaveTheorems.v`) C98_snapshots says which training each file is the result of, and C85 or C86 apply to it.

C103 (evaluate and transform after train): `RootScoreProofs.v`, `RootScoreTheorems.v`, with `query_known` of `RootFreshProofs.v`: a model of C102 and documents with known words are an input of C81 with coefficients of at most 1, and C97_classified and C97_transform apply. C103_snapshots (`RootSaveTheorems.v`): the same for the snapshots of C102.

## Trusted base

* Coq 8.16.1's kernel and `coqchk`.
* Axioms. The file, event, corpus and pool theorems (C01–C19, C55) that do not
  mention real numbers are closed under the global context, except where noted by
  `Print Assumptions` in their files. Theorems about real or floating point numbers use the four
  standard axioms behind Coq's classical reals:
  `ClassicalDedekindReals.sig_forall_dec`, `ClassicalDedekindReals.sig_not_dec`,
  `Classical_Prop.classic` and
  `FunctionalExtensionality.functional_extensionality_dep`. No others. Every
  `*Theorems.v` ends with the `Print Assumptions` of its theorems.
* Libraries used for lemmas only: Coquelicot (derivatives, limits), Flocq
  (`BinarySingleNaN`, IEEE arithmetic).
* The faithfulness of the hand-written model to the C++ code. Each definition cites its
  lines.

### Modelled

`NumpyFormat.hpp`, `lda_io.cpp`, `events/*`, `Document.cpp`, `LDA.cpp`, `utils.hpp`, `LDABuilder`, `e_step_utils.cpp` and
the E steps, the M steps, `optimization/*`, the applications' listeners, their translation of options to builder calls, and their commands from reading DATA to writing the output;
the same of `slda.cpp` in the root directory, which the build does not mention.

### Not modelled

Eigen's implementation (expressions are evaluated by their mathematical meaning, in the
order of evaluation only where aliasing matters; a `.sum()` is an arbitrary function of
the elements for floats), the C++ memory allocator, the standard library's
threads (modelled by interleaving, sequentially consistent), the distribution of
pseudo-random numbers (draws are arbitrary), signals and process death except where a
property speaks of truncated files, docopt parsing, and mixed-precision conversions
between `float` and `double` inside an expression (the model computes everything in
`Scalar`).
