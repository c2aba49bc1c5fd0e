{"id": "C01", "title": "Best evaluation reported by the log is the minimum of everything recorded", "statement": "After any sequence of optimizer registrations and recorded evaluations, get_best_iter() reports fx equal to the smallest recorded value (inf when nothing below inf was recorded; NaN values never win), and its x, opt_id, type and call_id are those of the first evaluation that reached that value. get_best_iter(i) does the same restricted to the evaluations of optimizer i.", "quantifier": "every sequence of add_optimizer/put_iteration/clear_cache/put_metadata calls, every float value including NaN and infinities, every number of optimizers", "why_tests_cant": "The best record is a dict shared by reference between two tables and updated in place; agreement with the true minimum over every history and interleaving of optimizers cannot be sampled.", "anchors": ["glompo/core/optimizerlogger.py: BaseLogger.put_iteration, get_best_iter, add_optimizer"]}
{"id": "C02", "title": "Call ids number the evaluations consecutively and never collide", "statement": "The k-th evaluation recorded by the log gets call_id k. Over all optimizers the call_id columns are disjoint, together are exactly 1..len(log), and every column is strictly increasing; len(log) is the number of evaluations recorded.", "quantifier": "every history of recorded evaluations from any number of optimizers", "why_tests_cant": "Uniqueness and gap-freeness is a statement about all interleavings of optimizer results.", "anchors": ["glompo/core/optimizerlogger.py: BaseLogger.put_iteration, get_history, __len__"]}
{"id": "C03", "title": "Per-optimizer history is exactly what that optimizer evaluated, in order", "statement": "get_history(i,'x') and get_history(i,'fx') list exactly the evaluations recorded for optimizer i, in recording order and with equal lengths (also for the detailed-call extra columns); recording for, or clearing, another optimizer j never changes them. After clear_cache(i) the history of i is empty and best records are unchanged.", "quantifier": "every history of log operations", "why_tests_cant": "Isolation between optimizers must hold for every interleaving.", "anchors": ["glompo/core/optimizerlogger.py: BaseLogger.put_iteration, add_iter_history, get_history, clear_cache"]}
{"id": "C04", "title": "Largest evaluation is the maximum finite value", "statement": "largest_eval equals the maximum finite value ever recorded, and -inf when none was finite, whatever NaN or infinite values are mixed in.", "quantifier": "every sequence of recorded float values", "why_tests_cant": "NaN comparison semantics make the running maximum easy to corrupt for rare orders.", "anchors": ["glompo/core/optimizerlogger.py: BaseLogger.put_iteration, largest_eval"]}
{"id": "C05", "title": "File log loses and duplicates nothing", "statement": "With the HDF5 log, for each optimizer the rows on disk followed by the rows still pending in memory are exactly its recorded evaluations in order, each once, no matter when flush is triggered (size threshold, checkpoint, cache clearing, close). After close() the rows on disk are exactly the recorded evaluations.", "quantifier": "every interleaving of evaluations, flushes, cache clears and close over any number of optimizers", "why_tests_cant": "Flush points depend on sizes and timing; every placement must be covered.", "anchors": ["glompo/core/optimizerlogger.py: FileLogger.put_iteration, flush, clear_cache, close"]}
{"id": "C06", "title": "File log and memory log answer alike", "statement": "For every sequence of log calls the manager makes, the file-backed log (as the manager configures it) returns the same best records, counters, call_id/x/fx histories and largest value as the in-memory log.", "quantifier": "every call sequence", "why_tests_cant": "Equivalence of two implementations over all call sequences.", "anchors": ["glompo/core/optimizerlogger.py: FileLogger, BaseLogger", "glompo/core/manager.py: GloMPOManager.setup (594-597)"]}
{"id": "C07", "title": "The manager's result is the best accepted evaluation and never gets worse", "statement": "At every point of a run the manager's result is the best evaluation accepted so far (value, vector, originating optimizer), fx never increases from one moment to the next, f_evals counts exactly the accepted evaluations and equals the log's own count.", "quantifier": "every schedule of children, queue contents and manager decisions", "why_tests_cant": "Depends on the interleaving of arbitrary many child processes.", "anchors": ["glompo/core/manager.py: _process_results, _update_best_result, start_manager"]}
{"id": "C08", "title": "Running optimizers never exceed max_jobs", "statement": "With a selector which only returns optimizers that fit the offered slots (as every bundled selector does), the total of the slots of all living optimizers never exceeds max_jobs.", "quantifier": "every schedule, every selector obeying the slot contract, every max_jobs", "why_tests_cant": "Children die at arbitrary times between the manager's look and its action.", "anchors": ["glompo/core/manager.py: _fill_optimizer_slots, _setup_new_optimizer, _start_new_job", "glompo/opt_selectors/*"]}
{"id": "C09", "title": "Optimizer ids are unique and consecutive", "statement": "Optimizers are started with ids 1,2,3,... in order without gaps or reuse; every registered child, victim, finished optimizer and log record carries an id between 1 and the number started.", "quantifier": "every schedule and every history of starts, kills, crashes and purges", "why_tests_cant": "Reuse after deletion only shows in particular histories.", "anchors": ["glompo/core/manager.py: _setup_new_optimizer, _start_new_job, start_manager"]}
{"id": "C10", "title": "Hunts only kill running, other, unfinished optimizers, and each at most once", "statement": "Whenever the manager kills an optimizer through a hunt, the victim is currently registered, has recorded evaluations, had not finished or been killed before, and is not the optimizer that holds the current best evaluation. No optimizer is ever killed twice.", "quantifier": "every schedule, every killing condition (arbitrary, even stateful or random)", "why_tests_cant": "Killing conditions are user supplied and decisions depend on timing.", "anchors": ["glompo/core/manager.py: _start_hunt, _shutdown_job, _process_results"]}
{"id": "C11", "title": "Evaluations of a killed optimizer are ignored after the kill", "statement": "Once an optimizer has been killed, evaluations it still has in flight change neither the evaluation counter, nor the histories, nor the best result.", "quantifier": "every schedule in which results of the victim arrive after the kill", "why_tests_cant": "Requires in-flight results at the exact moment of the kill.", "anchors": ["glompo/core/manager.py: _process_results (1488-1489), _shutdown_job"]}
{"id": "C12", "title": "Hunts are spaced by hunt_frequency evaluations", "statement": "Between two consecutive hunts at least hunt_frequency evaluations are accepted, and no hunt starts before hunt_frequency evaluations have been accepted.", "quantifier": "every schedule and hunt_frequency", "why_tests_cant": "All interleavings.", "anchors": ["glompo/core/manager.py: _process_results (1520), _start_hunt"]}
{"id": "C13", "title": "Every optimizer ends once: converged + killed never exceeds started", "statement": "The reported numbers of converged and killed optimizers never sum to more than the number of optimizers started.", "quantifier": "every schedule, including checkpoints", "why_tests_cant": "Double counting needs an optimizer which finishes just before it is killed, and a checkpoint in between.", "anchors": ["glompo/core/manager.py: _check_signals, _inspect_children, _shutdown_job, _checkpoint_optimizers"]}
{"id": "C14", "title": "Spawning, once stopped, never resumes", "statement": "After a selector has declared that spawning should stop, no further optimizer is ever started in that run.", "quantifier": "every later schedule", "why_tests_cant": "A statement about all continuations.", "anchors": ["glompo/core/manager.py: _fill_optimizer_slots, _setup_new_optimizer"]}
{"id": "C15", "title": "A run whose spawning was stopped ends normally once its optimizers have finished", "statement": "If the selector has stopped spawning and all optimizers have finished, the run ends as converged ('No optimizers alive, spawning stopped'), not as a crash.", "quantifier": "every schedule", "why_tests_cant": "The outcome depends on whether the last optimizer dies before or after the selector is asked again.", "anchors": ["glompo/core/manager.py: _fill_optimizer_slots (1259-1260), start_manager (1019-1026)"]}
{"id": "C16", "title": "The run stops exactly when the convergence condition holds", "statement": "The management loop is left normally only after an iteration whose convergence check was true or in which no optimizer was alive and spawning had been stopped, and it is always left after such an iteration.", "quantifier": "every schedule and every convergence checker", "why_tests_cant": "All executions.", "anchors": ["glompo/core/manager.py: start_manager (993-1039)"]}
{"id": "C17", "title": "Evaluation budgets are overshot by a bounded amount", "statement": "With MaxFuncCalls(fmax) and no checkpoint, the number of evaluations accepted when the run stops is less than fmax + 9 + K, where K is the largest chunk placed on the results queue.", "quantifier": "every schedule, fmax and chunk pattern", "why_tests_cant": "The worst case needs adversarial chunk timing.", "anchors": ["glompo/core/manager.py: _process_results, start_manager", "glompo/convergence/nfcalls.py", "glompo/core/_backends.py: ChunkingQueue"]}
{"id": "C18", "title": "An optimizer which finishes normally does not crash the manager", "statement": "When an optimizer ends normally (it signals completion and closes its results stream) the manager keeps running.", "quantifier": "every interleaving of the completion signal, the end-of-results marker and the manager loop", "why_tests_cant": "Needs the child to finish between the signal check and the queue read.", "anchors": ["glompo/core/manager.py: _check_signals, _process_results (1481-1486), _inspect_children", "glompo/core/optimizerlogger.py: BaseLogger.clear_cache, put_metadata"]}
{"id": "C19", "title": "Every child that dies is accounted for", "statement": "Once the manager has inspected its children, each registered optimizer that was found dead (with no unread signal) is recorded as finished and carries a stop time and an end condition in the log.", "quantifier": "every set of children and exit codes", "why_tests_cant": "All combinations of exit codes, signals and order.", "anchors": ["glompo/core/manager.py: _inspect_children, _check_signals"]}
{"id": "C20", "title": "STOP files stop the named optimizer and nothing else", "statement": "A STOP_<n> file kills exactly optimizer n if it is registered and unfinished and the file is then removed; files naming other ids or malformed names are left in place and have no effect.", "quantifier": "every set of files and manager state", "why_tests_cant": "All file names and states.", "anchors": ["glompo/core/manager.py: _is_manual_shutdowns", "docs/userinterventions.rst"]}
{"id": "C21", "title": "Improved solutions are shared with every other living optimizer, once", "statement": "With sharing enabled, whenever the best value improves it is sent to each living optimizer other than its finder, and nothing is sent when the best value did not improve.", "quantifier": "every schedule and every value, including best value 0", "why_tests_cant": "Value-dependent truthiness shows only for particular costs.", "anchors": ["glompo/core/manager.py: _update_best_result"]}
{"id": "C22", "title": "Combined conditions evaluate their boolean formula", "statement": "A combination of checkers or hunters built with & and | returns the value of the boolean formula over its members, each member seen as a function of the state it is asked on.", "quantifier": "every nesting of & and |, every member", "why_tests_cant": "All trees.", "anchors": ["glompo/common/corebase.py: _OrCore, _AndCore"]}
{"id": "C23", "title": "Combined conditions are lazy and report None exactly for members not asked", "statement": "a & b asks b only if a is True, a | b only if a is False, and after an evaluation the textual result shows each member's last answer, and None for precisely the members not asked in that evaluation.", "quantifier": "every nesting, every member, every earlier evaluation history, for trees of distinct members", "why_tests_cant": "Stale results from earlier evaluations appear only for particular sequences.", "anchors": ["glompo/common/corebase.py: reset, __call__, str_with_result", "docs/components/checkers.rst"]}
{"id": "C24", "title": "KillsAfterConvergence counts kills after convergence", "statement": "KillsAfterConvergence(k, n) is True exactly when n optimizers have converged and at least k optimizers were killed since that moment.", "quantifier": "every run and position of the checker in a combined condition", "why_tests_cant": "Stateful condition inside lazily evaluated trees.", "anchors": ["glompo/convergence/nkillsafterconv.py"]}
{"id": "C25", "title": "Counting convergence conditions are stable", "statement": "MaxFuncCalls, MaxOptsStarted, MaxKills, NOptConverged, TargetCost and MaxSeconds return True exactly at their documented threshold and, once True, stay True for the rest of the run.", "quantifier": "every run with non-decreasing counters and non-increasing best cost", "why_tests_cant": "A statement about all runs.", "anchors": ["glompo/convergence/*.py"]}
{"id": "C26", "title": "Hunting conditions decide as documented", "statement": "BestUnmoving, EvaluationsUnmoving, LastPointsInvalid, MinFuncCalls, StepSize, ParameterDistance, TypeHunter return True exactly in the documented situation on the victim's (and hunter's) recorded history, and never kill when the history is too short.", "quantifier": "every recorded history and parameter setting", "why_tests_cant": "All histories.", "anchors": ["glompo/hunters/*.py"]}
{"id": "C27", "title": "Annealing hunters have the documented survival guarantees", "statement": "TimeAnnealing never kills a victim whose evaluation ratio reaches crit_ratio complement; ValueAnnealing never kills a victim at least as good as the hunter and kills a victim twice as bad as the hunter with the documented probability.", "quantifier": "every history and every random draw", "why_tests_cant": "Probabilistic decisions cannot be settled by sampling.", "anchors": ["glompo/hunters/timeannealing.py", "glompo/hunters/valueannealing.py"]}
{"id": "C28", "title": "Selectors only offer optimizers that fit", "statement": "Whatever is returned by CycleSelector, RandomSelector and ChainSelector needs no more workers than the slots offered; when spawning control forbids it they return False, and None when nothing fits.", "quantifier": "every list of configured optimizers, slots and internal position", "why_tests_cant": "All configurations and states.", "anchors": ["glompo/opt_selectors/*.py"]}
{"id": "C29", "title": "CycleSelector cycles fairly", "statement": "Successive optimizers returned by CycleSelector are the configured ones in cyclic order starting with the first, and a call that returns nothing does not advance the cycle.", "quantifier": "every sequence of calls with arbitrary free slots", "why_tests_cant": "All call sequences.", "anchors": ["glompo/opt_selectors/cycle.py"]}
{"id": "C30", "title": "ChainSelector hands out the type belonging to the number of evaluations used", "statement": "ChainSelector returns optimizer type i where i is the number of thresholds reached by the evaluation counter, and stops once the last threshold of n has passed when n thresholds are given.", "quantifier": "every sequence of calls with non-decreasing evaluation counter", "why_tests_cant": "Needs jumps past several thresholds between calls.", "anchors": ["glompo/opt_selectors/chain.py"]}
{"id": "C31", "title": "The results queue loses, duplicates and reorders nothing", "statement": "Every item put on the results queue is delivered exactly once; items of one optimizer are delivered in the order it put them, whatever mix of blocking, non-blocking and cached puts is used by any number of producers and whenever the queue is full.", "quantifier": "every interleaving of producers and the consumer", "why_tests_cant": "Concurrency with a bounded queue and a hidden cache.", "anchors": ["glompo/core/_backends.py: ChunkingQueue.put, put_nowait, put_incache, flush"]}
{"id": "C32", "title": "The end-of-results marker arrives after all results of that optimizer", "statement": "When the manager reads an optimizer's end marker it has already read every evaluation that optimizer made.", "quantifier": "every interleaving", "why_tests_cant": "Concurrency.", "anchors": ["glompo/core/_backends.py: ChunkingQueue", "glompo/optimizers/baseoptimizer.py: _minimize, _MessagingWrapper"]}
{"id": "C33", "title": "A checkpoint contains every evaluation made before it", "statement": "When the manager has synchronised its optimizers for a checkpoint and drained the results queue, no evaluation already made by a paused optimizer is missing from the log being saved.", "quantifier": "every interleaving and queue mode", "why_tests_cant": "Requires the queue to be in caching mode at the time of the checkpoint.", "anchors": ["glompo/core/manager.py: _checkpoint_optimizers", "glompo/core/_backends.py: ChunkingQueue"]}
{"id": "C34", "title": "Checkpoint names follow the configured format and do not collide", "statement": "get_name() always produces a name that the control itself recognises; with %(count) the number is one more than the largest existing one (000 when none), so no existing checkpoint is overwritten.", "quantifier": "every naming format, date and directory content", "why_tests_cant": "All directory contents and format strings.", "anchors": ["glompo/core/checkpointing.py"]}
{"id": "C35", "title": "keep_past retains exactly the most recent checkpoints and touches nothing else", "statement": "After a successful checkpoint with keep_past = k, the new checkpoint and the k most recent earlier ones remain, older ones are removed, and files which are not checkpoints are untouched.", "quantifier": "every directory content and format", "why_tests_cant": "All directory contents.", "anchors": ["glompo/core/manager.py: checkpoint (1172-1181)", "glompo/core/checkpointing.py: matches_naming_format"]}
{"id": "C36", "title": "Overwriting a checkpoint never loses the only good copy", "statement": "If writing a checkpoint fails or the process dies at any moment, a complete earlier checkpoint that was being overwritten is still on disk.", "quantifier": "every crash point and failure", "why_tests_cant": "Every crash point must be covered.", "anchors": ["glompo/core/manager.py: checkpoint (1124-1195)"]}
{"id": "C37", "title": "Checkpoint pause: optimizers are only saved while waiting, and resume afterwards", "statement": "An optimizer state is saved only while that optimizer waits for the manager (it performs no evaluation between reporting itself paused and the release), optimizers that ended are not saved, and after the checkpoint all living optimizers run again.", "quantifier": "every interleaving of manager and optimizers", "why_tests_cant": "Concurrency protocol.", "anchors": ["glompo/core/manager.py: _checkpoint_optimizers, _toggle_optimizers", "glompo/optimizers/baseoptimizer.py: _prepare_checkpoint, check_messages"]}
{"id": "C38", "title": "Killed optimizers are not part of a checkpoint", "statement": "An optimizer that was killed before the checkpoint is not saved in it and hence is not restarted from it.", "quantifier": "every schedule", "why_tests_cant": "Needs a killed optimizer which is still alive at the checkpoint.", "anchors": ["glompo/core/manager.py: _checkpoint_optimizers"]}
{"id": "C39", "title": "Resuming from a checkpoint fits the available slots", "statement": "When a checkpoint is loaded the slots of all restarted optimizers sum to at most max_jobs, every optimizer gets at least one slot, unchanged if they fit; otherwise loading fails with CheckpointingError.", "quantifier": "every set of saved optimizers and max_jobs", "why_tests_cant": "All inputs.", "anchors": ["glompo/core/manager.py: load_checkpoint (824-838)"]}
{"id": "C40", "title": "Resuming rolls the log back exactly to the checkpoint", "statement": "When the log file has run past the checkpoint, exactly the rows with call_id beyond the checkpoint's evaluation count and the optimizers started later are removed; everything else is kept, so that the resumed run appends without duplicate call ids.", "quantifier": "every log content and checkpoint", "why_tests_cant": "All contents.", "anchors": ["glompo/core/manager.py: start_manager (926-956)"]}
{"id": "C41", "title": "Every evaluation made by an optimizer is reported once, and the optimizer sees the task's value", "statement": "Wrapping the task reports each evaluation to the manager exactly once with the evaluated vector, and returns the task's own value (or the full detailed result when the detailed call is used directly).", "quantifier": "every task and sequence of calls", "why_tests_cant": "All call sequences.", "anchors": ["glompo/optimizers/baseoptimizer.py: _MessagingWrapper"]}
{"id": "C42", "title": "RandomOptimizer returns the best point it evaluated, within budget and bounds", "statement": "RandomOptimizer evaluates at most its iteration budget, only points inside the bounds, and returns the best of them; if paused and resumed through a checkpoint the totals and the best continue.", "quantifier": "every random stream, task, stop and checkpoint moment", "why_tests_cant": "All random draws and stop moments.", "anchors": ["glompo/optimizers/random.py"]}
{"id": "C43", "title": "Bounds are accepted exactly when usable", "statement": "Bounds are accepted iff for every parameter min < max and both are finite.", "quantifier": "every list of pairs of floats, NaN and infinities included", "why_tests_cant": "All inputs.", "anchors": ["glompo/common/helpers.py: is_bounds_valid"]}
{"id": "C44", "title": "Starting points stay inside the bounds", "statement": "RandomGenerator, ExploitExploreGenerator and (bounded) perturbation produce vectors inside the given bounds; IncumbentGenerator returns the best known vector once one exists.", "quantifier": "every bounds, history and random stream", "why_tests_cant": "All random draws.", "anchors": ["glompo/generators/*.py"]}
{"id": "C45", "title": "rolling_min is the running minimum", "statement": "rolling_min(l)[i] = min(l[0..i]) for every i and the output has the length of the input.", "quantifier": "every list of numbers", "why_tests_cant": "All inputs.", "anchors": ["glompo/common/helpers.py: rolling_min"]}
{"id": "C46", "title": "Human readable helpers are exact", "statement": "unravel flattens nested sequences keeping leaf order; present_memory picks the unit such that the printed number is at most 1024; nested condition strings are re-indented without losing text; bound groups partition the parameters.", "quantifier": "every input", "why_tests_cant": "All inputs.", "anchors": ["glompo/common/helpers.py: unravel, present_memory, nested_string_formatting, bound_group_presenter"]}
{"id": "C47", "title": "Live plot keeps the last points window and the best value", "statement": "The live trajectory of an optimizer contains its points inside the visible window only, and in elitism mode shows the best value seen so far.", "quantifier": "every stream of points", "why_tests_cant": "All streams.", "anchors": ["glompo/core/scope.py: update_optimizer, _update_point"]}
{"id": "C48", "title": "Parameter scaling and indexing are inverse pairs", "statement": "Converting parameters from real to scaled and back, and active-index conversions absolute to relative and back, are the identity on active parameters.", "quantifier": "every parameter vector, range and activity mask", "why_tests_cant": "All inputs.", "anchors": ["glompo/interfaces/params.py"]}
{"id": "C49", "title": "Benchmark functions attain their documented global minimum", "statement": "For the benchmark functions with a closed-form optimum, f(x) >= min_fx for every x in the domain and f(min_x) = min_fx.", "quantifier": "every real vector of every dimension", "why_tests_cant": "Uncountably many inputs.", "anchors": ["glompo/benchmark_fncs.py"]}
{"id": "C50", "title": "Toggling parameters changes exactly the requested ones", "statement": "toggle_parameter sets the activity of exactly the named or numbered parameters to the requested value, leaves every other activity, value and range alone, warns for unknown names; the ReaxFF version never activates a forbidden parameter unless forced.", "quantifier": "every engine, list of parameters and toggle", "why_tests_cant": "All inputs.", "anchors": ["glompo/interfaces/params.py: toggle_parameter (516-573, 671-709)"]}
{"id": "C51", "title": "Setting parameters stores the given values and warns exactly when one is out of its range", "statement": "set_parameters stores the given values (after conversion) in the addressed parameters and in no others, and warns iff a value is outside the range of its own parameter.", "quantifier": "every engine and vector", "why_tests_cant": "All inputs.", "anchors": ["glompo/interfaces/params.py: set_parameters (369-409)"]}
{"id": "C52", "title": "Detailed results fit the announced columns", "statement": "The tuple returned by detailed_call has one entry for each column announced by headers, of the announced shape.", "quantifier": "every result of a calculation, with and without validation set", "why_tests_cant": "All inputs.", "anchors": ["glompo/interfaces/params.py: detailed_call, headers (270-323)"]}
{"id": "C53", "title": "A pickle has priority over a yaml file", "statement": "If both a pickle and a yaml file describe the data set, the pickle is used; if neither exists, an error is raised.", "quantifier": "every combination of files", "why_tests_cant": "All inputs.", "anchors": ["glompo/interfaces/params.py: _setup_collections_from_params (855-886)"]}
{"id": "C54", "title": "The Lennard-Jones energy and its jacobian", "statement": "The energy of n atoms is at least -epsilon for every pair and two atoms attain it; jacobian is the gradient of the energy wherever no two atoms coincide; coinciding atoms have an infinite energy; for three dimensions an estimate of the minimum is available.", "quantifier": "every number of atoms, dimension, epsilon, sigma and configuration", "why_tests_cant": "Uncountably many inputs.", "anchors": ["glompo/benchmark_fncs.py: LennardJones (537-680)"]}
{"id": "C55", "title": "A checkpoint synchronises the optimizers and always ends", "statement": "Whatever the order in which manager and optimizers run, a checkpoint that was started ends; at the moment the restart files are collected every optimizer that takes part has saved a state whose evaluations are exactly those in the saved log; every other optimizer has left no restart file; none of the errors announced by the code (queue not empty, unhandled message, restart file missing) is raised; and afterwards no optimizer remains suspended.", "quantifier": "every number of optimizers, every interleaving of the threads, every size of queue and chunk, every point of the run at which an optimizer ends or raises", "why_tests_cant": "The number of interleavings is infinite and liveness speaks about infinite executions.", "anchors": ["glompo/core/manager.py: _checkpoint_optimizers (1798-1884)", "glompo/optimizers/baseoptimizer.py: check_messages (302-331), _prepare_checkpoint (409-428), _minimize (430-465)", "glompo/optimizers/random.py: minimize (40-85)"]}
{"id": "C56", "title": "At the end of a run every optimizer is stopped", "statement": "When the manager ends a run, normally or after a crash, its shutdown always finishes; afterwards no optimizer is alive; an optimizer makes at most one evaluation after its stop signal was sent; and no evaluation that was finished is missing in the log.", "quantifier": "every state of the run, every number of optimizers, every interleaving of the threads, every queue size, with and without timeouts, processes and threads", "why_tests_cant": "Liveness over infinite executions; infinitely many interleavings.", "anchors": ["glompo/core/manager.py: _stop_all_children (1639-1676), end_timeout (611-617)", "glompo/core/_backends.py: ChunkingQueue (102-185)", "glompo/optimizers/baseoptimizer.py: check_messages (302-331), _minimize (430-465)", "glompo/optimizers/random.py: minimize (40-85)"]}
{"id": "C57", "title": "Setup accepts exactly the usable arguments and applies the documented settings", "statement": "setup succeeds iff task, bounds, selector, numbers and optional objects are of the documented kind; afterwards every setting has the value given or, where none was given, the documented default; there is at least one slot for optimizers; a second setup changes nothing.", "quantifier": "every combination of arguments of every type, every environment", "why_tests_cant": "The product of all argument types and values is infinite.", "anchors": ["glompo/core/manager.py: setup (480-624), __init__ (232-317)"]}
{"id": "C58", "title": "Arguments given while loading a checkpoint act like those of setup", "statement": "An argument of setup given to load_checkpoint sets the attributes that setup would set from it; every attribute not mentioned keeps the value it had when the checkpoint was made.", "quantifier": "every saved state, every set of arguments", "why_tests_cant": "All states and combinations of arguments.", "anchors": ["glompo/core/manager.py: load_checkpoint (626-893), _checkpoint_manager (1886-1908)"]}
{"id": "C59", "title": "The task survives a checkpoint", "statement": "A task that can be pickled is the task of the loaded manager; otherwise the task_loader and, if that fails, the task given is used; without any of them loading fails; failing to save the task does not stop the checkpoint.", "quantifier": "every task, archive, loader and outcome of pickling", "why_tests_cant": "All combinations of failures.", "anchors": ["glompo/core/manager.py: _checkpoint_task (1910-1938), load_checkpoint (722-756)"]}
{"id": "C60", "title": "A failed initialisation can be repeated", "statement": "If setup or load_checkpoint raises, the manager is still uninitialised, and a following call with usable arguments succeeds.", "quantifier": "every point of failure", "why_tests_cant": "All points of failure and states.", "anchors": ["glompo/core/manager.py: setup (480-624), load_checkpoint (696-893), is_initialised (210-215)"]}
{"id": "C61", "title": "Session times add up over checkpoints", "statement": "t_used of a loaded manager is the duration of all earlier sessions, each up to the checkpoint from which the run was continued; MaxSeconds measures the running session or the sum of all; the summary file gives the session and the sum; the time stamps of a checkpoint are always complete.", "quantifier": "every sequence of starts, checkpoints, ends and loads", "why_tests_cant": "Unboundedly many sessions and events.", "anchors": ["glompo/core/manager.py: start_manager (982-985, 1022-1023, 1069-1075), checkpoint (1133-1138), load_checkpoint (798-802)", "glompo/convergence/tmax.py: MaxSeconds"]}
{"id": "C62", "title": "A log that was saved can be used again", "statement": "The log object restored from a checkpoint has every attribute its methods read, with the values saved, whether the log file exists, has to be made anew or was not used before.", "quantifier": "every state of the log, class before and after, mode of opening", "why_tests_cant": "All states; the failing attribute is only read later in the run.", "anchors": ["glompo/core/optimizerlogger.py: checkpoint_load (46-58), checkpoint_save (297-316, 532-533), open (498-517)", "glompo/core/manager.py: load_checkpoint (690-693, 793-795)"]}
{"id": "C63", "title": "A wrapped algorithm is told the values of its own vectors", "statement": "The CMA strategy is told whole populations in order, each vector with its own function value, and a population asked for but not told is the last one and was interrupted by a stop; GFLS is told every vector it asked for at most once with its own value, all others are in progress, fewer than workers of them.", "quantifier": "every order in which evaluations finish, every moment of a stop, any messages, any number of workers", "why_tests_cant": "The order of completion and the moment of a stop are free.", "anchors": ["glompo/optimizers/cmawrapper.py: minimize (166-208), _parallel_map (240-268)", "glompo/optimizers/gfls.py: minimize (95-150), get_evaluation (152-172)"]}
{"id": "C64", "title": "Wrapped optimizers return the best they found", "statement": "The result of a run is the lowest value told to the algorithm with its vector, or the first vector of the last population when no value is finite; success is reported exactly for a run that ended for a reason other than the manager's.", "quantifier": "every run", "why_tests_cant": "All runs.", "anchors": ["glompo/optimizers/cmawrapper.py: minimize (183-190, 212-217), callstop (270-275)", "glompo/optimizers/gfls.py: minimize (106, 150), callstop (174-177)", "glompo/optimizers/scipy.py: minimize (95-101)"]}
{"id": "C65", "title": "Injections into CMA are better, spaced and come from the manager", "statement": "A vector is injected only if its value is below all values of the iteration, more than injection_frequency iterations after the last injection; it was sent by the manager or is the start; every better vector sent is considered, and minimize can be called again on another function.", "quantifier": "every run and settings", "why_tests_cant": "All sequences of messages.", "anchors": ["glompo/optimizers/cmawrapper.py: minimize (143-162, 180-181, 204-208)", "glompo/optimizers/baseoptimizer.py: inject (397-399)"]}
{"id": "C66", "title": "Nevergrad stops when it is told to, and can be restarted", "statement": "A Nevergrad run ends at the first value that meets a stop condition, user callback or signal, with exactly one message to the manager; the callbacks may be None, one callable or a sequence; a run restored from a checkpoint continues.", "quantifier": "every sequence of values, callbacks and signals, any number of restarts", "why_tests_cant": "All sequences.", "anchors": ["glompo/optimizers/nevergrad.py: minimize (52-90), checkpoint_save (95-107), _NevergradCallbacksWrapper (110-157)", "glompo/optimizers/scipy.py: minimize (68-75)"]}
{"id": "C67", "title": "The print stream of each optimizer goes to its own file", "statement": "With split print streams the text of each redirected thread ends up in its own file, in order and complete, and all other text on the console, whatever threads start, print, crash and end, reusing thread idents; at the end the program prints as before.", "quantifier": "every sequence of starts, prints, crashes and ends of threads and every number of managers", "why_tests_cant": "Idents are reused at the whim of the operating system.", "anchors": ["glompo/core/_backends.py: CustomThread.run (27-48), ThreadPrintRedirect (53-98)", "glompo/core/manager.py: start_manager (964-968)"]}
{"id": "C68", "title": "SplitOptimizerLogs gives every optimizer its own log file", "statement": "The file of an optimizer holds each of its records the logger lets through, once and in order, whatever the interleaving with others; records are propagated as configured; logging never raises into the optimizer.", "quantifier": "every sequence of records, levels and configurations", "why_tests_cant": "All interleavings.", "anchors": ["glompo/common/helpers.py: SplitOptimizerLogs (40-114)"]}
{"id": "C69", "title": "Results of other runs are neither mixed with nor lost", "statement": "Without overwrite_existing old results are refused and nothing is touched; with it exactly the old results are removed; after a run the results in the directory are all its own and other files unchanged; a restart keeps its log file and can continue in its directory.", "quantifier": "every content of the directory and every sequence of sessions", "why_tests_cant": "All contents of the directory.", "anchors": ["glompo/core/manager.py: _purge_old_results (1974-1992), start_manager (921-968), _save_log (1678-1795)"]}
{"id": "C70", "title": "The manager gives up when, and only when, optimizers crash immediately", "statement": "The run is ended with 'Optimizers spawning and crashing immediately' only if optimizers crash again and again without any evaluation between; then it is ended after a bounded number of starts.", "quantifier": "every sequence of fillings of the slots, messages and evaluations, and every number of slots", "why_tests_cant": "Crash patterns and evaluation counts are unbounded.", "anchors": ["glompo/core/manager.py: _fill_optimizer_slots (1224-1260), _check_signals (1375-1378)"]}
{"id": "C71", "title": "The annealing generator returns a new point and counts its evaluations", "statement": "Each point generated differs from the one before, lies within the bounds, and comes from the chain run that first moved; the evaluations made for it are added to the counters of manager and log; the temperature is reset after five runs without success; generate returns if the chain moves.", "quantifier": "every behaviour of the scipy chain, every state and incumbent", "why_tests_cant": "The chain is random.", "anchors": ["glompo/generators/annealing.py: AnnealingGenerator (54-131)"]}
{"id": "C72", "title": "Every session ends with a result that says why", "statement": "Whatever happens while it runs, start_manager returns the best known result with the true reason, the children are stopped, the log is closed, the session has its end time; summary file and log file record the same reason.", "quantifier": "every history of rounds and exceptions, and every state of the manager", "why_tests_cant": "Exceptions may come from anywhere at any time.", "anchors": ["glompo/core/manager.py: start_manager (895-1096), _save_log (1678-1795)"]}
{"id": "C73", "title": "The decorators do only what they say", "statement": "needs_optional_package changes nothing when the package is there and only warns when it is not; a user interrupt stops the run also while plotting.", "quantifier": "every behaviour of the decorated functions and every series of calls", "why_tests_cant": "Missing modules and interrupts at any time.", "anchors": ["glompo/common/wrappers.py: catch_user_interrupt (25-35), decorate_all_methods (38-47), needs_optional_package (50-68)", "glompo/core/scope.py: GloMPOScope (33)"]}
{"id": "C74", "title": "Extra results are recorded as they are returned", "statement": "What a task returns beside its value gets one column each, in order, in the log file, and every later result of the task is recorded unchanged.", "quantifier": "every sequence of results with extras of any type", "why_tests_cant": "Types and shapes that change between evaluations are many and show only when the chunk is flushed.", "anchors": ["glompo/common/helpers.py: infer_headers (342-394)", "glompo/core/manager.py: _process_results (1493-1506)", "glompo/core/optimizerlogger.py: add_iter_history (385-400), put_iteration (405-418), flush (471-483)", "glompo/interfaces/params.py: detailed_call, headers (293-324)"]}
{"id": "C75", "title": "Parameters read from classic ReaxFF files can be optimized", "statement": "After setup_reax_from_classic every active parameter lies strictly within its range; which are active and their ranges are those of the files; values already inside are kept.", "quantifier": "every engine and all contents of the optional files", "why_tests_cant": "Ranges, flags and values combine freely and ParAMS needs a licence.", "anchors": ["glompo/interfaces/params.py: setup_reax_from_classic (809-842)"]}
{"id": "C76", "title": "Residuals mean what the error function means", "statement": "The residuals given to a least squares optimizer agree with the error function in sign, number and minimum; new weights reach exactly the named entries.", "quantifier": "all residuals, weights, sigmas and lists of changes", "why_tests_cant": "Needs ParAMS, and the two optimizers would have to be compared on every data set.", "anchors": ["glompo/interfaces/params.py: resids (326-335), reweigh_residuals (575-602), _calculate (604-615), _scale_residuals (617-627)"]}
{"id": "C77", "title": "Only optimizers that hang are ended by force", "statement": "With force_terminations_after an optimizer is ended exactly when it has provided no results for that long or has not left that long after a kill; what is recorded about its end stays true.", "quantifier": "all interleavings of optimizers, manager and time", "why_tests_cant": "Needs real hangs and backlogs at the right moments.", "anchors": ["glompo/core/manager.py: _inspect_children (1388-1446), _check_signals (1356-1386), _process_results (1473-1506), _shutdown_job (1597-1613), setup (428-431, 556-558)"]}
{"id": "C78", "title": "The trajectory plot shows every optimizer and how it ended", "statement": "The trajectory plot draws every optimizer with its evaluations at their overall number, and marks the end of each as the legend says: killed, converged or crashed.", "quantifier": "every sequence of calls a manager makes to its log, every end condition", "why_tests_cant": "Pictures are not compared by tests, and the end conditions come from five optimizers and seven places of the manager.", "anchors": ["glompo/core/optimizerlogger.py: plot_optimizer_trials (177-204), plot_trajectory (206-285)", "glompo/core/manager.py: _save_log (1767-1785)", "glompo/optimizers/nevergrad.py: _NevergradCallbacksWrapper"]}
{"id": "C79", "title": "The scale of the summary plot fits the values", "statement": "The summary plot is logarithmic exactly when all values have one sign and spread over more than 1e5; finite values stay finite and keep their order.", "quantifier": "every sequence of evaluations, with NaN and infinities", "why_tests_cant": "Signs, infinities and NaN have to come together in one log.", "anchors": ["glompo/core/manager.py: _save_log (1767-1776)", "glompo/core/optimizerlogger.py: plot_trajectory (245-255)"]}
{"id": "C80", "title": "An optimizer is given what the user configured", "statement": "Every optimizer is built and run with the class, the keyword arguments and the backend of the entry it was selected from; optimizers do not share objects; the user's dictionaries are not changed.", "quantifier": "all selectors, with shared dictionaries and objects, and all sequences of starts and changes of objects", "why_tests_cant": "Effects of sharing show only with several optimizers of one kind and depend on the backend.", "anchors": ["glompo/core/manager.py: _setup_new_optimizer (1302-1354), _start_new_job (1262-1300), load_checkpoint (841-880)", "glompo/opt_selectors/baseselector.py: __init__ (66-100)", "glompo/optimizers/baseoptimizer.py: checkpoint_load"]}
{"id": "C81", "title": "Resource statistics describe exactly the readings of the run", "statement": "The histories of CPU, memory and load hold the readings of all sessions on the line of the present manager in step with each other; averages, deviations and maxima in the summary are those of these readings, whatever the breaks between sessions.", "quantifier": "all sequences of sessions, status messages, checkpoints and restarts, with or without psutil, and all readings", "why_tests_cant": "Needs runs with several restarts, processes without psutil and children that end or refuse access during a reading.", "anchors": ["glompo/core/manager.py: _build_status_message (1994-2037), _summarise_resource_usage (2039-2085), load_checkpoint (818-821), _save_log (1697-1720)"]}
{"id": "C82", "title": "Status messages and the size of the log describe the run", "statement": "A status message lists exactly the living optimizers that have results, in order, with their last value, counts living optimizers and their slots, and does not depend on the order of the dictionary; the expected number of rows follows from MaxFuncCalls.", "quantifier": "all sets of optimizers, histories, counters and combinations of checkers", "why_tests_cant": "The text is only logged; tests do not read it.", "anchors": ["glompo/core/manager.py: _build_status_message (1994-2037), _log_expected_rows (2087-2100)"]}
{"id": "C83", "title": "The summary file shows the settings and can be read without Python", "statement": "write_summary_file and _save_log write counters, texts, generator, selector, bounds and solution of the manager each in its place; of objects exactly the public attributes that are not callable; the document contains only types every YAML reader knows if everything the manager was given does; each level writes its files and leaves the others alone.", "quantifier": "all managers, tasks, generators, selectors with any nesting of arguments and objects, all levels and exit reasons", "why_tests_cant": "Tests compare one manager with one stored file; they neither nest objects in arguments nor read the file with another reader.", "anchors": ["glompo/core/manager.py: _save_log (1678-1795), write_summary_file (1202-1220), representers (247-254)", "glompo/common/helpers.py: presenters (418-514)"]}
{"id": "C84", "title": "Settings given to an optimizer reach the wrapped library", "statement": "In every call of minimize the library (CMA, GFLS, scipy, Nevergrad) receives every setting of the user unchanged, the bounds of the call and the defaults of the wrapper where nothing was given; options the library does not know arrive where it keeps them; documented names are understood.", "quantifier": "all settings, sampler names, methods, worker numbers and sequences of calls", "why_tests_cant": "The libraries accept missing settings silently, and only a second call of minimize shows a lost one.", "anchors": ["glompo/optimizers/cmawrapper.py: __init__ (61-105), minimize (137-161)", "glompo/optimizers/gfls.py: __init__, minimize", "glompo/optimizers/scipy.py: minimize (55-90)", "glompo/optimizers/nevergrad.py: __init__, minimize"]}
{"id": "C85", "title": "The log says how and why every optimizer ended", "statement": "At the end of a run the log has a stop time and an end condition for every optimizer that was started, and what the end condition says happened: the optimizer sent this message itself, it was hunted or got a STOP file, it was silent for too long, it exited with or without an error, or the run ended, crashed or was interrupted while it was running. A stopped optimizer is not recorded as one that ended by itself.", "quantifier": "all configurations, worlds and runs with histories kept; runs disturbed by exceptions or one Ctrl-C included", "why_tests_cant": "An end is recorded by nine places of the manager; which one comes first depends on when messages, exits, hunts, timeouts and interrupts arrive.", "anchors": ["glompo/core/manager.py: _check_signals (1356-1386), _inspect_children (1388-1446), _shutdown_job (1597-1616), _stop_all_children (1639-1676), start_manager (958-1096)"]}
{"id": "C86", "title": "Checkpoints are made when they are due or asked for, and only then", "statement": "With a checkpoint frequency in function evaluations, after every turn of the management loop a checkpoint was just made or at most that many evaluations were registered since the last one, and more than that many lie between two of them. A CHKPT file present when a turn begins leads to a checkpoint in that turn; without checkpointing control there are never more checkpoints than CHKPT files, and without both none. With checkpoint_at_conv a run that ends by itself ends with a checkpoint of the converged manager.", "quantifier": "all configurations, worlds and runs; no failing checkpoint code for the positive parts", "why_tests_cant": "Results are also registered inside a checkpoint, requests arrive at any moment and three kinds of checkpoint share counters.", "anchors": ["glompo/core/manager.py: start_manager (1030-1046), _is_manual_checkpoints (1576-1595), checkpoint (1098-1196)"]}
{"id": "C87", "title": "Guarantees of a run carry over to the runs resumed from its checkpoints", "statement": "A run may be resumed any number of times, each time from any checkpoint written so far, with other settings. In all sessions: ids are never reused, running optimizers fit into the max_jobs of the current session, nothing is accepted from an optimizer killed in an earlier session, nothing is started after spawning has stopped, hunts keep their distance to those of earlier sessions, the manager counts the evaluations and hunts of all sessions, no counter is set back, checkpoints due by number of evaluations keep their distance to those of earlier sessions, the guard against optimizers that crash at once begins anew and bounds the starts of each session as in a fresh run, and a checkpoint written by a session can be loaded whenever there are slots and at least one optimizer can be built. Provided no evaluation arrived between the writing of the log and that of the manager: at every decision of every session the result is the best of all evaluations accepted in the sessions it goes back to, its value never increases, the log counts the evaluations of all sessions and knows the best one of every optimizer, a run told to stop ends normally and crashes have the causes known from fresh runs. Optimizers killed earlier stay dead and every end is recorded.", "quantifier": "all configurations, worlds, runs, numbers of sessions and choices of checkpoints", "why_tests_cant": "Checkpoint tests resume once from one checkpoint taken at a quiet moment; the loaded state mixes attributes, log and optimizers written at three different moments.", "anchors": ["glompo/core/manager.py: load_checkpoint (625-893), start_manager (895-1096), checkpoint (1098-1196), _checkpoint_optimizers, _checkpoint_manager (1885-1908)"]}
{"id": "C88", "title": "Hunters, selectors and checkers do in the run what they say", "statement": "In every run and every resumed run: with MinFuncCalls(n) among the hunters needed no optimizer is hunted before its n-th accepted evaluation; with TypeHunter only optimizers of that type; with LastPointsInvalid(n) only optimizers whose last n accepted values are not finite; with BestUnmoving only those whose best value did not move. EvaluationsUnmoving, StepSize and ParameterDistance hunt only optimizers whose accepted values and points satisfy their conditions. TimeAnnealing hunts only optimizers with more than 1/crit of the evaluations of the hunter, ValueAnnealing only optimizers none of whose accepted values is as good as the hunter's best, whatever they draw. All optimizers come from the list given to the selector and their slots never exceed max_jobs. No optimizer beyond the n-th is made with NOptimizersSpawnStop(n), none after n evaluations with IterSpawnStop(n), and a CycleSelector hands out its optimizers in order over the whole run. A ChainSelector hands out no class before the evaluations of the thresholds before it. A judgement says stop only if every checker needed (MaxFuncCalls, MaxOptsStarted, MaxKills, TargetCost) is due by the events of the run, and go on only if none is due which suffices.", "quantifier": "all combinations of members, all worlds, runs, sessions and events", "why_tests_cant": "Hunters, selectors and checkers are tested with hand-made logs and managers; that the log, the counters and the result they are shown agree with what happened in the run, at each moment they are asked, is an invariant of the whole manager.", "anchors": ["glompo/core/manager.py", "glompo/hunters/min_fcalls.py", "glompo/hunters/type.py", "glompo/hunters/lastptsinvalid.py", "glompo/hunters/bestunmoving.py", "glompo/opt_selectors/cycle.py", "glompo/opt_selectors/spawncontrol.py", "glompo/convergence/fmax.py", "glompo/convergence/omax.py", "glompo/convergence/nkills.py", "glompo/convergence/ftarget.py", "glompo/convergence/basechecker.py"]}
{"id": "C89", "title": "No hunter, selector or checker of the package crashes a run", "statement": "Hunters, selectors and checkers which their constructors accept do not raise when the manager asks them, however they are combined: a run or resumed run with retained histories ends as a crash only by the exceptions of C18.", "quantifier": "all combinations of members, all worlds, settings, runs and sessions", "why_tests_cant": "Whether a hunter finds what it looks up depends on the state of the log in the middle of a run, for every victim at every hunt; the failing settings are at the edge of what the constructors accept.", "anchors": ["glompo/core/manager.py", "glompo/core/optimizerlogger.py", "glompo/hunters", "glompo/opt_selectors", "glompo/convergence"]}
{"id": "C90", "title": "MaxOptsStarted is overshot by less than max_jobs", "statement": "If MaxOptsStarted(n) suffices to stop, in whatever combination of checkers, and every optimizer handed out by the selector has at least one worker, then at most n - 1 + max_jobs optimizers are set up in a run, at every moment, however it ends and with or without checkpoints. A resumed run keeps to the same bound, unless the checkpoint is beyond it already; then no optimizer is started.", "quantifier": "all combinations of checkers, all selectors, worlds, settings, runs and resumed runs", "why_tests_cant": "The checker is asked once per turn of the loop, while a turn starts as many optimizers as there are free slots; how many that are depends on the timing of the children.", "anchors": ["glompo/core/manager.py", "glompo/convergence/omax.py", "glompo/convergence/basechecker.py", "glompo/opt_selectors/baseselector.py"]}
