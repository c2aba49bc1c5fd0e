# Formal model of glompo: design

Subject: the Python package in `/repo/glompo` (read as text, never executed).
Tool: Rocq/Coq 8.16.1, sources in `rocq/theories`, logical prefix `Verif`.

## 1. How the model is organised

Each component has up to four kinds of file:

* `X_Model.v`: executable Gallina, one definition per Python function, each with a comment that cites
  file and lines and says what was simplified.
* `X_Spec.v` (or a short section at the top of the properties file): the few definitions needed to
  *state* the properties, written without looking at the model's helpers.
* `X_Proofs.v`: lemmas.
* `X_Props.v`: the property theorems only. Each is closed by `exact lemma`, followed by
  `Print Assumptions` and accompanied by an `Example` showing a concrete case which meets its hypotheses.

Conventions

* Python floats: `num = NaN | NInf | Fin q | PInf` with `q : Q`. Comparisons follow IEEE/Python (any
  comparison with NaN is false). Every finite double is a rational, so comparisons are exact; where code
  *computes* with floats (hunters, generators, scaling) rounding is not modelled and this is said at the
  definition.
* Exceptions are values (`exn`); a method returns both an outcome and the state at the moment of the
  exception, because Python keeps the mutations made before a raise.
* Child processes, pipes, the results queue, the clock, the random generator, user plug-ins (selector,
  checker, hunter) and the file system are inputs: oracles that the theorems quantify over.
* `while` loops which Python does not bound take a fuel argument; running out of fuel is a separate outcome
  and invariants are proved for it as well (it stands for "the loop is still running").

## 2. Plan per property

| id | modelled as | proof |
|----|-------------|-------|
| C01-C04 | `Logger_Model`: BaseLogger with a heap of best records (the aliasing of `_best_iter` is explicit) | induction over operation lists against a "first minimum of the accepted list" specification |
| C05, C06 | `FileLogger_Model`: tables on disk + pending chunks + BaseLogger part | invariant rows ++ pending = accepted; simulation with BaseLogger |
| C07-C21 | `Manager_Model`: the manager methods over an explicit environment (children, pipes, queue, stop files), adversarial environment moves before every external read | invariants by a small Hoare logic for the state/exception monad, then induction over loop iterations; refutations by computed witness runs |
| C22-C25 | `Core_Model` (trees of checkers/hunters with `_last_result` store) and `Checkers_Model` | structural induction on trees; induction over runs |
| C26, C27 | `Hunters_Model` over Q; ValueAnnealing over R | case analysis; for C27 interval length of the killing draws |
| C28-C30 | `Selectors_Model` | induction over call sequences |
| C31-C33 | `Queue_Model`: ChunkingQueue with producers as small-step threads | invariant over all interleavings |
| C34, C35 | `ChkNames_Model`: name generation, pattern matching, counter, deletion | induction on format tokens / directory lists |
| C36 | `ChkFiles_Model`: file system steps of `checkpoint` with a crash or failure at any step | case analysis over crash points |
| C37, C38 | `Manager_Model` (manager's side), `Optimizer_Model` (optimizer's side) | invariants over runs |
| C39, C40 | `Restart_Model` | arithmetic; list induction |
| C41, C42 | `Optimizer_Model`: messaging wrapper, RandomOptimizer | induction over evaluations |
| C43-C46 | `Helpers_Model`, `Generators_Model` | induction |
| C47 | `Scope_Model` | induction over point streams |
| C48, C50-C53 | `Params_Model` over Q | field reasoning, list induction |
| C49, C54 | `Bench_Model` over the standard library reals | real analysis by hand; lists of any length |
| C55 | `Sync_Model`: manager and optimizers as threads with pipes, gates and the queue | an invariant giving every optimizer a stage relative to the manager's position; accounting of results; a decreasing measure for every fair schedule |
| C56 | `Ending_Model`: `_stop_all_children` above the threads of `Sync_Model` | invariants (who was told to stop; messages still to come), a measure that every effective step decreases |
| C57-C60 | `Setup_Model`: the attributes of the manager as a dictionary, arguments of any type | case analysis with outcome predicates; frame lemmas for writes by name |
| C61 | `Session_Model`: time stamps of sessions, checkpoints and loads | an invariant relating them to a diary of true times, over all sequences of events |
| C62 | `Reload_Model`: the log object as a dictionary of attributes | case analysis over classes, modes and methods; dictionary lemmas |
| C63 | `Wrappers_Model`: CMA loop and parallel map, GFLS evaluations; the algorithms are inputs | invariant over the loop; a permutation invariant for GFLS |
| C64 | as C63: result objects | fold invariant for the best of the told pairs; provenance of the success flag |
| C65 | as C63: incumbent and injections | provenance and spacing over the loop |
| C66 | `Wrappers_Model`: the Nevergrad callback object, its registration, saving and restart; scipy's callback | induction over the tells |
| C67 | `Streams_Model`: CustomThread, ThreadPrintRedirect, the wrapping by start_manager | simulation of a machine that knows where each thread belongs |
| C68 | `Streams_Model`: SplitOptimizerLogs with logger and handler levels | invariant over the records |
| C69 | `Streams_Model`: purge, opening and closing of a session as changes of a directory | specification of the glob patterns; composition of the phases |
| C70 | `Guard_Model`: counters, last_opt_spawn and opt_crashed under events; simulation of it by the runs of `Manager_Model` | history invariant: last_opt_spawn is a point of the past; every iteration of a run is a Fill followed by messages and evaluations |
| C71 | `Guard_Model`: AnnealingGenerator over an oracle for scipy | induction over the rounds of generate |
| C72 | `Finish_Model`: start_manager as a function of what each stage raises | case analysis against an independent account of the session |
| C73 | `Finish_Model`: the decorators | induction over series of calls |
| C74 | `Extras_Model`: infer_headers, conversion of rows, flush | induction over rows and columns; the broadcast of an array of the same shape is the identity |
| C75 | `Extras_Model`: setup_classic | pointwise description against the files |
| C76 | `Extras_Model`: scaled residuals over Q, reweigh | induction; the minimum of a quadratic by completing the square |
| C77 | `Hang_Model`: a timed transition system for _inspect_children | invariant linking the time stamps to the events that set them |
| C78 | `Plot_Model`: plot_optimizer_trials, plot_trajectory as lists of points and marks, the texts of the end conditions | induction over the calls to the log; substring reasoning for the marks |
| C79 | `Plot_Model`: pick_scale, sign_log | least and greatest value by induction over the log |
| C80 | `Kwargs_Model`: a heap of dictionaries and objects, deepcopy, setup and start of optimizers | invariant over all executions: freshness and aliasing of copies, own changes counted from the trace |
| C81 | `Usage_Model`: readings, the three histories, checkpoints, the summary over Q | invariant linking histories to the line of events; rounding of averages and square roots |
| C82 | `Usage_Model`: the text of the status message, the expected rows | sorting is unique for distinct numbers; induction over digits |
| C83 | `Summary_Model`: Python values as trees, PyYAML's nodes, the presenters, the data of the summary, the files | induction over values; equivalence of readability and reachable values |
| C84 | `Options_Model`: the options of CMA, GFLS, scipy and Nevergrad as dictionaries | induction over the items and over sequences of calls |
| C85 | `Manager_Model` | an invariant tying packs, graveyard, kills and log (Ends_Proofs), open while an end is being written; origin of interrupts by a second one (Ends_Intr) |
| C86 | `Manager_Model` | a relation kept by every method but the checkpoint (counters, request flag, kinds of new events), one case lemma for the checkpoint, induction over the turns of the loop (Due_Proofs) |
| C87 | `Resumed_Model` on top of `Manager_Model` and `Restart_Model` | the run invariants of the manager hold again in the loaded state (the log is the one written a little earlier, the best evaluation is determined by the history); induction over the sessions (Resumed_Proofs); a second, weaker invariant needs no assumption on evaluations that come in late (Always_Proofs) |
| C88 | `Manager_Model` with `Hunters_Model`, `Selectors_Model`, `Checkers_Model` and `Core_Model` in place of its oracles | invariant of all sessions: the log holds for each optimizer exactly its accepted evaluations (a subsequence of them if evaluations came in while a checkpoint was made) and its type; the best evaluation the log names is the least of them; every kill, setup and judgement was ordered by the object asked at that moment; then the specifications of C24-C28 apply to the events of the run |
| C89 | as C88 | the invariant of the manager includes that everything in the log can be read (type recorded, points and values of the same evaluations, a best evaluation of hunter and victim); each optimizer hunted has an evaluation, since its history is opened only together with the first one: the run is, state for state, the run with hunters which differ on optimizers without evaluations; each hunter but BestUnmoving(0) then has an answer; C18 and C87 need only hunters which do not raise in such states |
| C90 | as C88 | all methods but `_fill_optimizer_slots` leave the counter of optimizers and the flag of convergence alone; a fill adds at most max_jobs, by induction over the loop with the slots still free; induction over the turns of the loop with "either converged or fewer than n when the checker was asked" (Over_Proofs); the same argument for the evaluations of resumed runs, C17_resumed (Budget_Proofs) |

Where the faithful model violates a property we prove `..._refuted` with a witness and what remains true
as a separate theorem (`..._partial` or with the precise extra hypothesis).

## 3. What is and what is not modelled

Nowhere modelled: Python object identity beyond the aliasing named below, memory and performance, the
pickle format (a checkpoint is the set of values saved), PyTables internals (a table is a list of rows),
the external optimization libraries (cma, nevergrad, scipy, optsam), plotting, the text of log messages.

| component | modelled | left out |
|-----------|----------|----------|
| Logger | `BaseLogger` completely, with the sharing of the `_best_iter` dictionary | plots |
| FileLogger | tables, pending chunks, flush, opening and closing histories, reading back | compression, the concrete HDF5 types |
| Core, Checkers | `_CombiCore`, `_AndCore`, `_OrCore` with `_last_result`; all checkers | string forms of user checkers |
| Hunters | all hunters over Q, `ValueAnnealing` over R, the random draw an argument | rounding of floating point |
| Selectors | Random, Cycle, Chain, IterSpawnStop | construction from user classes beyond argument checks |
| Queue | `ChunkingQueue` with producers as threads, all interleavings | the inner `queue.Queue` is a bounded FIFO |
| Manager | `start_manager` and every method it calls, exceptions included, children as an environment that may move before every read | the text of the summary files, visualisation, CPU statistics |
| ChkNames | `CheckpointingControl`, `with_suffix`, the deletion of old checkpoints; a regular expression engine for the expressions that can arise | formats with a slash, characters beyond ASCII |
| ChkFiles | the file system operations of `checkpoint` as single steps, each of which may fail or be the last | what is inside the archive |
| Restart | division of slots and rebuilding in `load_checkpoint`, checking and rolling back of the log file in `start_manager`, the resumed log | float division of slot numbers, errors of HDF5 |
| Optimizer | messaging wrapper, `check_messages`, `message_manager`, `_prepare_checkpoint`, `checkpoint_save`/restart, `_minimize`, `RandomOptimizer.minimize`; messages, gate and random numbers come from streams | threads, pickling, other optimizers; floats of a random point are exact rationals |
| Helpers | `is_bounds_valid`, `rolling_min`, `unravel`, `present_memory` with the printed digits, `nested_string_formatting`, `bound_group_presenter` | rounding of integers above 2^53, objects containing themselves, the YAML text |
| Generators | Random, SinglePoint, Incumbent, Perturbation, ExploitExplore, BasinHopping; random numbers are arguments | AnnealingGenerator (internals of scipy), rounding |
| Scope | streams of points, `add_stream`, `update_optimizer`, the end markers (`update_kill` etc.), window, flush counter, elitism, axis limits | colours, legend, drawing, movie frames, saving of the plot state |
| Params | scaling, index conversion, `set_parameters`, both `toggle_parameter`, `detailed_call`/`headers`, choice of the loader | the engine and jobs of ParAMS (a list of parameters, an oracle), the classic file formats, rounding |
| Bench | the call, minimum and bounds of every benchmark function; the energy and jacobian of LennardJones; exact real arithmetic, random parts as arguments | steepness of Michalewicz other than natural numbers, rounding, the delay |
| Sync | the checkpoint protocol between threads: `_checkpoint_optimizers`, `check_messages`, `_prepare_checkpoint`, `_minimize`, RandomOptimizer as the optimizer; all interleavings, exceptions in evaluation or saving | what the messages carry, crashes of processes without a report, the timeouts |
| Ending | stop signals, purge of the queue, joins with and without timeout, termination of processes | the log entries (in Manager), exceptions of pipe and queue |
| Setup | `setup`, `load_checkpoint` up to the rebuilding of optimizers (Restart), `_checkpoint_manager`, `_checkpoint_task`; values are None, bool, int, float, str, bounds or an object with classes, truth value and callability | warnings, file systems, `int()` of strings, resolution of paths, what the objects do |
| Session | the five time variables, MaxSeconds, the durations in the summary; naive local time as true time plus an offset | rounding to microseconds |
| Reload | which attributes the log object has after loading and opening and which its methods read | their values beyond equality (Logger, FileLogger, Restart) |
| Wrappers | the loops of CMAOptimizer and GFLSOptimizer, the callback object of Nevergrad, the callback and result of the scipy wrapper | pycma, optsam, nevergrad and scipy themselves (their requests, stops and orders of completion are arbitrary inputs; pycma's result is taken to be the best told pair), exceptions of the task, files |
| Streams | ThreadPrintRedirect, CustomThread, SplitOptimizerLogs, _purge_old_results, which files a session writes | the content of the files of results, movies, checkpoints and images other than the trajectories; other attributes of the stream (isatty, encoding); two open handles of one file; process backend |
| Guard | the guard of _fill_optimizer_slots, AnnealingGenerator | the scipy chain and state (input: location, energy, evaluations per run), the temperature as a number (input: whether it is below the restart temperature), locations that are not finite, sharing of the returned array with the state |
| Finish | start_manager 895-1096 with the stages as inputs, which reason _save_log records | what the stages do (Manager, Streams, Session models); exceptions from the logger and from the warnings module (with the filter "error"); the other content of the summary |
| Resumed | which attributes a loaded manager has and from which moment, slots and packs of the restarted optimizers, the following run of `start_manager`, any number of times; the history goes on over sessions with an event `EvLoad` | reading and unpacking the archive, the task, the scope, time stamps and usage histories, the log file (C40) |
| Wired, NoCrash, Filled | no new code: the oracles for killing_conditions, opt_selector and convergence_checker are the modelled hunters, selectors, checkers and their combinations; members may remember anything between calls; the state of a CycleSelector is tied to o_counter (proved for every sequence of requests, `C88_cycle_state`), that of a ChainSelector to the thresholds reached (`C88_chain_state`) | the clock (MaxSeconds is asked at any time), TimeAnnealing and ValueAnnealing draw any number |
| Extras | infer_headers; numpy's conversion of scalars and arrays with broadcasting; the chunk and its flush; parameters in setup_reax_from_classic; residuals and weights | arrays of strings and objects, rounding, numbers written into string columns; the training set and the job collection; read_paramsfile is an arbitrary function; `p.x = ` is taken to set the value |
| Hang | time, results queue, signals, hunts, checkpoints that hold the optimizers, _inspect_children | that time passes within one inspection; processes that survive SIGTERM; the numbers sent at closing |
| Plot | which points are drawn and which mark ends a curve (in-memory log), choice of scale, texts of the end conditions | colours, legend, axes, the image file; the version for log files; log10 is an arbitrary monotone function |
| Kwargs | dictionaries and objects by reference, deepcopy with its memo, the copy of the memory in a process, backend and reserved names, what a resumed optimizer gets | objects that refer to objects; arguments that a class does not know; what constructors do with their arguments |
| Usage | readings with children that are gone or refuse access, histories over checkpoints and restarts, averages and deviations as exact rationals rounded as np.round does, the text of the status message, expected rows | floating point error in np.nanmean and np.nanstd; cpu_percent, children and getloadavg failing; the formats .3E and of the elapsed time |
| Summary | representers for exact types, multi representers, what getattr raises, the whole summary dictionary, the files of each level in the order they are opened | the text PyYAML makes of a node, aliases for objects reached twice or cyclic, failures of the file system, times as texts, `glompo_version` and the other numbers of the log's metadata |
| Options | sorting of options, defaults, samplers by name, copies per call, keywords of the scipy functions, slots of Nevergrad | extend_cma_options of the two samplers, the set of options cma knows and the parameters of the scipy functions (all arbitrary); deepcopy failing |

## 4. Findings

Each is a `..._refuted` theorem with a computed witness unless said otherwise.

* C06: extra columns are not kept in memory and cannot be read back once the cache of the optimizer was
  cleared; with the cache really cleared (no trajectory plot) the history cannot be read at all.
* C13: with a checkpoint, a killed optimizer which is still alive reports its normal end while the
  checkpoint waits, and is counted as killed and as converged.
* C15: the loop fills slots before it judges; a selector answering None for all slots in the last iteration
  raises RuntimeError and the run which should end normally is reported as crashed.
* C18: with histories not retained (`summary_files` below 2) the end marker of an optimizer may be taken from
  the queue before its completion signal is read.  Its log entry is discarded then, writing its end condition
  raises a KeyError and the run ends as a crash although the optimizer finished normally.
  With histories retained five exceptions can end a run (`C18_crash_causes`); each occurs.  Nothing between
  the manager and the pipes catches the OSError of a message to an optimizer which went after `is_alive` said
  it was there, nor the EOFError of `poll`/`recv` at a checkpoint, nor the `assert` that the queue is empty.
* C21: best value zero counts as "nothing shared yet" and is told again at every evaluation.
* C23: a member object used twice in a combination may show None although it was asked.
* C24: `KillsAfterConvergence` to the right of a lazily evaluated condition misses the moment of convergence.
* C26: `ParameterDistance(test_all=True)` compares ids up to `n_optimizers`, which is too small after
  histories were discarded.
* C27: `ValueAnnealing`: at twice the hunter value `med_kill_chance` is the chance of survival, not of death.
* C28: `CycleSelector` answers None although the next but one configuration would fit (documented otherwise
  by the base class).
* C30: `ChainSelector` hands out the type before last if two thresholds are passed between requests, and
  raises IndexError instead of ending the spawning when there are as many thresholds as types.
* C31: a non-blocking put may raise Full although its item is kept and delivered later.
* C33: the log is written before the queued evaluations are processed; the saved manager counts evaluations
  missing in the saved log.
* C34: the characters ? and backslash are not escaped, so that the control does not recognise its own names;
  number 1000 is given out for ever; a dot in the format makes all archives have one name; two counters
  raise re.error as soon as the directory has an entry.
* C35: anything beginning like a checkpoint name is counted and deleted; formats which do not sort by time
  delete the checkpoint just made; leftover directories take the place of archives.
* C36: while a checkpoint is overwritten any exception other than TarError and CheckpointingError (disk full,
  interrupt) deletes the earlier one; after a death in the middle the next process deletes or overwrites the
  only complete copy; a torn archive may be left under the final name; the history file may lose an entry.
* C37: an optimizer which dies after it reported to be paused is waited for for ever.
* C38: an optimizer killed before the checkpoint which is still alive is saved and comes back on restart.
* C39: (the property holds) the equal division may give an optimizer more slots than it had.
* C40: the evaluation counter is written only when the log is closed: after a crash the run cannot be
  resumed with its log (AttributeError), or, if an earlier session closed the file, nothing is rolled back
  and numbers are used twice; optimizers started after the checkpoint stay if there was no further
  evaluation, and the next start fails; the empty table of an optimizer which first evaluated after the
  checkpoint stays; with the log behind the manager (C33) a number is used twice; a checkpoint from before
  the last restart is refused because every start changes the checksum.
* C42: RandomOptimizer reads messages between an evaluation and the update of its result: a checkpoint made
  there counts the evaluation but forgets its value, and the resumed run can return a worse point.
* C44: ExploitExploreGenerator cannot be used in a manager: the new optimizer is already in the log with value
  infinity when its starting point is generated, which makes all probabilities NaN; SinglePointGenerator does
  not check its point; IncumbentGenerator returns the empty list when no evaluation was below infinity;
  BasinHoppingGenerator leaves the bounds, and its step exceeds the "maximum".
* C46: present_memory raises IndexError above 1024^9 and does not return for infinity; bounds written once with
  ints and once with equal floats make the summary file fail with KeyError; an iterator failing with
  TypeError in the middle makes unravel add the object itself.
* C47: points which left the window are removed only at the next redraw; in elitism mode the best value is
  forgotten when all points of the optimizer left the window, and after a NaN; end markers are never removed
  from the plot, and are not drawn for an optimizer without points in the window.
* C48: a parameter with equal limits scales to NaN and does not come back.
* C50: an empty list of parameters, and a ReaxFF call with only forbidden parameters, raise IndexError.
* C51: the warning compares the values of the active parameters with the ranges of the first parameters of
  all, and the values of all parameters with the ranges of the active ones.
* C52: an empty validation set gives more results than columns; a failed calculation gives vectors of length 1.
* C53: documented priority of the pickle; the yaml file is loaded after it.
* C49: ZeroSum has the minimum of Vincent (-d, never attained); the point documented for Alpine02 is below its
  documented minimum; Rana has lower values than documented in every dimension above one; Shekel with default
  arguments is lower at its documented point than its documented minimum and its shift does not make it
  positive; Shubert style 3 lacks a minus sign, and in one dimension no style comes near its minimum; training
  points of ExpLeastSquares can be given explicitly only in the number n_train; the point documented for
  Michalewicz is a maximum within the bounds, and its documented minimum is undercut when the steepness is 1.
* C54: the jacobian of LennardJones has wrong powers of sigma; atoms at the same place have no energy instead
  of an infinite one; the estimate of the minimum tests n*d = 3 instead of d = 3.
* C55: an exception in `checkpoint_save` of one optimizer lets the manager wait for ever for its gate to close;
  an exception of an optimizer whose report is unread when a checkpoint starts (or which is raised while it runs)
  ends the whole run with "Unhandled message"; results in the cache of the queue are in the states saved by the
  optimizers but not in the saved log (see C33); an optimizer whose normal end was already read, but which has
  not left its `minimize`, is saved and started again on a restart.  Proved on the other hand: the assertion on
  the empty queue and the error for a missing restart file cannot occur.
* C56: with threads (no timeout) the shutdown deadlocks as soon as the living optimizers have more than ten
  messages to put after the queue was emptied: six threads of which each has one evaluation under way
  suffice, the manager joins a thread which waits for the queue for ever.  After a crash during a checkpoint the
  threads preparing for it never end.  All results in the queue when the run converges are thrown away, also
  better ones than the one returned.
* C57: on a machine with one processor the default number of slots is zero; `max_jobs=0`, refused by the text of
  the error for negative numbers, and `end_timeout=0` silently become the default.
* C58: `share_best_solutions` is ignored while loading (the attribute is called `incumbent_sharing`);
  `backend='threads'` keeps the timeout of processes, after which the manager gives up waiting; an unknown
  backend means processes in setup and threads in load_checkpoint; nothing is checked (negative `max_jobs`).
* C59: a failing `task_loader` stops loading although "then only use task if that fails" is documented; so does
  a pickled task which cannot be read; a task whose pickling fails with TypeError (the usual error for locks and
  files) stops the checkpoint instead of using `checkpoint_save`; a task with truth value false is replaced.
* C60: `_is_restart` is among the saved variables, so that any failure of load_checkpoint after reading them
  (for instance a forgotten task) leaves a manager which counts as initialised: the corrected call only warns
  and returns, and the manager has no task.  A checkpoint failing at the end of setup leaves it initialised.
* C61: a checkpoint made after the end of a session, or between loading and starting, replaces the recorded end of the
  session by the present: the idle time counts as used; a second start of the same manager keeps the old `t_end` (negative
  duration) and does not count the first session; time stamps are local times, a change of summer time within a
  session changes `t_used` by an hour.
* C62: continuing a run with log file in a directory without one (documented: a new file is made) fails with
  AttributeError at the first new optimizer or evaluation, because `_tables` and `_groups` are made only in mode 'a';
  the same with `summary_files` raised to 3 while loading.
* C63: a GFLS optimizer with several workers restored from a checkpoint never learns the values of the vectors that were in
  progress; they remain counted in ncall.
* C64: `success` of CMA and GFLS is set in callstop only, so a run that converges by itself returns success False; CMA raises
  TypeError (`x[0]` of None) when the strategy stops before its first population; GFLSOptimizer never sets x and fx of its
  result (None and infinity are returned whatever was found); `general_opt` in the scipy wrapper is always False.
* C65: an incumbent sent by the manager while the first population is evaluated is overwritten by x0 (line 181);
  a second call of minimize ("can be called multiple times") keeps injection_counter and works with pycma's default population
  size instead of the number of workers, while `popsize` still says otherwise.
* C66: without a manager neither `zero` nor a diverging value nor a user callback ends a Nevergrad run (budget 4e50); a sequence
  of callbacks leaves the attribute unset (AttributeError at the first tell); restored from a checkpoint the attribute
  is None or a bare callable, so each restarted Nevergrad optimizer raises TypeError at its first tell, and the callback
  object is registered once more at each restart; the scipy wrapper iterates over `callbacks`, documented as one callable.
* C67: a redirected thread that outlives its manager keeps its file open for ever once another manager has wrapped the stream
  (close looks in the new table only: KeyError, warning); an unredirected thread with the recycled ident, or the main program, then
  prints into the file of the dead optimizer.  sys.stdout is never restored: each session adds a layer.
* C68: in the configuration shown in the docstring (logger DEBUG, handler INFO) DEBUG records before the first INFO record of
  an optimizer are in no file; the filter raises ValueError into the logging call for an optimizer without a number.
* C69: after any session with summary_files >= 1 the same run cannot be continued in its directory with the default
  overwrite_existing=False (FileExistsError: its own summary is an old result); print streams of an older run stay when that run
  left no other result; a restart next to the log of another run is refused by the checksum only after the results of that
  run were deleted; a directory whose name matches a pattern stops the purge midway.
* C70: last_opt_spawn starts as (0, 0) and is only moved when evaluations have arrived in between, so the optimizers of the first
  filling count as started after it: with max_jobs >= 6 a single crash before the first evaluation ends the whole run while the five others
  work (`C70_first_crash_refuted`, in the full manager).  opt_crashed is never reset within a session: after one old crash, ordinary turnover of
  six optimizers between two evaluations ends the run.  Optimizers that die without sending a traceback (killed, segmentation
  fault) are replaced for ever, as is everything with AnnealingGenerator, whose own evaluations hide that there are no others.
* C71: evaluations in state.reset (at construction and at each reset of the temperature) are not added to f_counter.  For bounds such as
  (1000000, 1000001) all points are close to each other for np.isclose, and the second call of generate loops for ever in the manager.
* C72: the `return` in the finally block swallows SystemExit (a SIGTERM handler that calls sys.exit): start_manager returns normally, the
  children were not stopped, and the reason is "No optimizers alive, spawning stopped.".  If the checker raises before the start, a session whose
  optimizers all finish gets the reason "None".  An exception while stopping the children turns a converged session into a "GloMPO Crash".  An exception
  in the finally block (movie, summary file, psutil.cpu_freq() is None on many virtual machines) loses the result and leaves the log open.
  In the summary file a user interrupt is a "Process Crash".
* C73: an ImportError raised by the decorated function itself (unpickling with a module missing) is reported as "without dill package installed" and None is
  returned; so BaseLogger.checkpoint_load may give a manager without log.  Ctrl-C during a call of the scope prints "Process stopping." and
  the run goes on.
* C74: the columns of the log file come from the first result of each optimizer.  An int followed by 0.9 is recorded as 0, a list of another
  length (or NaN in an int column) makes the flush raise ValueError and loses every result of the chunk, up to 100 MB; a list of one is repeated; None
  becomes NaN.  numpy integers and booleans raise TypeError at the first result, with or without a log file.  The docstring example promises shape (1, 3)
  for a list of three; it is (3,).  ParAMS: with an empty validation set detailed_call returns four fields and headers gives two.
* C75: ranges from a `params` file are not checked, so an active parameter may have an empty range (scaling then divides by zero); if only
  some of ffield_bool, ffield_min, ffield_max exist they are ignored without notice.
* C76: with scale_residuals the "signed differences" that GFLS squares and adds are already weighted squares, so it minimizes another function
  than the error function; without it, weights of zero do not deactivate anything for GFLS.  A failed evaluation gives one infinite residual instead of
  one for each entry, and NaN for entries with weight zero when scaled.  reweigh_residuals with an unknown name has changed the weights before it.
* C77: an optimizer whose results wait in the queue counts as hanging, as do all optimizers after a checkpoint longer than the limit.  The branch for
  hanging optimizers does not ask for the graveyard: one that has converged and is slow to leave is recorded as "Forced GloMPO Termination"; the
  reason of a hunt is overwritten in the same way.
* C78: plot_trajectory looks for "GloMPO Termination", "Optimizer convergence", "Normal termination" and "Error termination" in the end condition;
  Nevergrad writes "Nevergrad termination conditions: ..." and "Direct user callbacks", so its converged optimizers get no mark.  With best_fx a single NaN
  raises AssertionError and nothing is drawn.  Without the trajectory plot requested at the start (summary_files < 2) finished optimizers are dropped from
  storage and the number of optimizers is taken from what is left: plot_optimizer_trials draws the wrong optimizers and plot_trajectory raises KeyError.
* C80: with processes the keyword dictionary is not copied and `del init_kwargs['backend']` removes the backend from the selector's own dictionary
  (which is the user's): only the first optimizer started from it gets the configured backend, all later ones the default.  With threads the two
  dictionaries are copied one after the other, so an object passed to both becomes two.  A resumed optimizer always gets the default backend, and its
  process is built without the arguments of minimize: callbacks that end optimizers are lost.  is_log_detailed among the arguments raises TypeError.
* C81: a child whose memory may not be read (psutil.AccessDenied; only NoSuchProcess is caught) ends the whole run from within a status message, and leaves the CPU history
  one longer than the others.  write_summary_file after load_checkpoint ("useful to extract output from a checkpoint") leaves out the run information
  although the histories were loaded, because _process is None.  Without readings the load is [0] instead of three numbers.
* C82: with several MaxFuncCalls the last one written decides the expected rows, also when an earlier, smaller one ends the run; a limit is divided by
  20 whatever the number of optimizers, so one optimizer may write 20 times the "maximum".
* C83: `isinstance(x, object)` is always true: a function as `allow_spawn` is written as `!!python/name:...` (the intended `__name__` branch is dead),
  and the file cannot be read with safe_load; a task that is a function is called "function".  Tuples among the arguments do the same.  An object of a class derived from
  dict or list (defaultdict, OrderedDict subclasses) is shown by its attributes, its elements are lost.  The file is opened for writing before the dump, so that an
  attribute that raises (a property) leaves an empty file in place of a good summary.  write_summary_file while a session runs raises TypeError (`None - float`).
* C84: the documentation of CMAOptimizer names the samplers 'GaussVDSampler' and 'GaussVkDSampler', but only 'vd' and 'vkd' are recognised; every other
  word silently means the full sampler.  A user's own option 'vv' is overwritten.  A population size chosen for the workers reaches CMA in the first call of minimize
  only.  ScipyOptimizeWrapper passes x0 to shgo, which has no such parameter (TypeError at once), and no bounds to basinhopping.
* C85: a second Ctrl-C while the manager closes the run ends `_stop_all_children` early: optimizers that were running have neither a stop time nor an end condition in
  the log.  With a checkpoint, the final message of an optimizer stopped by a hunt or a STOP file overwrites its end condition 'GloMPO Termination'
  (`_checkpoint_optimizers` handles the message without looking into the graveyard, unlike `_check_signals`).
* C86: checkpoints on request do not touch `last_iter_checkpoint`, so one that is due by evaluations may follow after a few evaluations.  When a checkpoint is due in the turn
  that finds convergence, checkpoint_at_conv makes a second one of the same converged manager.
* C87: `checkpoint` writes the log (1132) before the optimizers are paused and the queue is emptied, and the manager afterwards.  An evaluation arriving in between is in the
  counters and the result of the saved manager but not in the saved log; after loading, the first evaluation replaces the result by the best of the log, so the best
  evaluation so far is forgotten and f_counter stays ahead of the log.  An optimizer that converges in between is in the saved graveyard, and its end is in no log of a later
  session.  A killed optimizer which has not exited yet and answers the pause signal gets a file: the next session starts it again, drops all its results and never tells it
  to stop, so it occupies its slots as long as it likes.
* C89: `BestUnmoving(0, tol)` takes the minimum of `vals[:-0]`, the empty list, and ends the run by a ValueError at the
  first hunt of an optimizer with evaluations; a `ChainSelector` with as many optimizers as thresholds, which its
  constructor accepts, ends the run by an IndexError when asked after the last threshold.
* C90: a configuration with `'workers': 0`, which neither the constructor of the selector nor BaseOptimizer refuses, never
  fills a slot: the loop of `_fill_optimizer_slots` starts optimizers without end, and no checker is asked any more.

## 5. Trusted base

The Coq kernel, the reading of the source recorded in the comments, and the axioms listed by
`Print Assumptions` beside each theorem:

| theorems | axioms |
|----------|--------|
| C26, C27 statements about distances and annealing; C88_evals_unmoving, C88_step_size, C88_parameter_distance, C88_value_annealing; C89_crash_causes_partial, C89_crash_causes_resumed_partial; C49 and C54 except C49_given_points_refuted and C54_estimate_refuted | standard library reals: `sig_forall_dec`, `sig_not_dec`, `functional_extensionality_dep` (and `classic` where the library uses it) |
| all others | none ("Closed under the global context") |
