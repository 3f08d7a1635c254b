# Formal model of nionutils in Rocq (Coq 8.16.1)

Source: `/repo` (AEljarrat/nionutils, pinned commit), read as text. Nothing in `/repo` is run.

## Layout

For each topic:

* `rocq/theories/<Topic>_Model.v` is the executable Gallina model; each definition cites the source lines it models.
* `<Topic>_Spec.v` is a short specification vocabulary that does not mention the helpers of the model.
* `<Topic>_Proofs.v`, `_Proofs2.v`, `_Proofs3.v` are lemmas.
* `<Topic>_Props.v` holds the property theorems, `Example`s with concrete data that meet their hypotheses, and
  `Print Assumptions` beneath each theorem.

`PyBase.v` has the Python primitives used everywhere (exceptions as values, list indexing, dicts), `Text_Model.v` ASCII
text, `Float53_*.v` rounding to 53 significant bits. `properties.jsonl` states the properties, `MANIFEST.json` maps each
to its theorems, `seeded/LOG.jsonl` records the wrong programs tried against the theorems.

How to read `seeded/LOG.jsonl`: a theorem is listed as failed if its own proof, or the proof of a lemma it uses, no longer
goes through after the edit. This does not always mean that its statement became false; in particular, edits whose claim is
given in brackets were expected to be harmless, and proofs that fail for them are only brittle. An empty list means that no
proof failed: the theorems do not tell the edited program from the original. Edits that did not type-check are marked and
tested nothing. Attempts of these three kinds had been left out of the log at first; they were added at its end from the
saved outputs of the runs, and those without saved output were run again.

## Conventions of the model

* Python `int` is `Z`; Python lists are `list`; exceptions are values (`Err e`), and a function that mutates before
  raising returns the mutated state together with the error.
* A Python `set` handed to or iterated by the code is given by an iteration order, i.e. an arbitrary list, so
  every theorem quantifies over the iteration order.
* Events are traces: the model returns the list of notifications in the order fired.
* Callbacks, filters, sort keys, converters, handlers are arbitrary functions (universally quantified).
* Threads: small-step interleaving semantics, one transition per lock region or shared access.
* Where the code violates what a user would expect, the theorem states the exact behaviour, and a `..._refuted`
  theorem gives a concrete witness. These are listed under *Findings* below.

## Trusted base

* The kernel of Coq 8.16.1, its checker of guardedness, universes and `vm_compute`. No kernel check is switched off.
* The statements in `_Spec.v` and `_Props.v`: that they say what `properties.jsonl` says.
* The models in `_Model.v`: that they say what the cited lines of Python do, including the meaning given there to the
  Python primitives (`PyBase.v`, `Text_Model.v`, `Float53_Model.v`; pathlib in `ConvPath_Model.v`) and the simplifications listed below. The models were
  written by reading; they are not extracted from or run against the code.
* Axioms: none of this development. All theorems are closed under the global context except those about rotation and
  distance (topic `GeomRot`) and the order of logarithmic ticks (topic `LogTicker`), which use the real numbers of the standard library and with them its axioms
  `ClassicalDedekindReals.sig_not_dec`, `ClassicalDedekindReals.sig_forall_dec`, `Classical_Prop.classic` (logarithms only) and
  `FunctionalExtensionality.functional_extensionality_dep`. The appendix has the result of `Print Assumptions` for every
  theorem.
* Loaded with libraries but used by no theorem: the opaque constants of
  `Rdefinitions.RbaseSymbolsImpl` and `Rdefinitions.RinvImpl` (module types of the standard library's reals); the seven
  `Coq.ssr.ssrunder.Under_rel.*` parameters of ssreflect's `under` tactic, loaded by std++ (topics `Selection`, `SelShare`,
  `Registry`).

## Coverage by source file

"Assumed" lines say what the model takes for granted about the callers or leaves out of a construct it models.

| file | modelled | assumed, simplified | not modelled |
|---|---|---|---|
| `Selection.py` | all of `IndexedSelection` (topic `Selection`); the set object it gives out, and assigning the style (`SelShare`) | indexes are integers, so the type check passes; `changed_event.fire()` is counted | |
| `Event.py` | `Event`, `EventListener`, weak registration, owners, `fire`, `fire_any`, `fire_all` (`Event`), by threads (`EventThr`) | reference counting is immediate; a handler that fires the event again is given by its actions | `trace`, traceback text |
| `Observable.py` | its notifications, as traces inside the other models | keys of notifications are omitted where one key is used | |
| `Registry.py` | `ComponentManager` and the module functions (`Registry`); uses of the registry from within calls of listeners and by threads (`RegNet`) | one registry (singleton metaclass) | |
| `ReferenceCounting.py` | `ReferenceCounted` with an arbitrary `about_to_delete` (`RefCount`); networks of such objects giving up references in `about_to_delete`, with threads (`RefNet`) | in `RefCount` the mutex makes a sequence of calls | |
| `Process.py` | `TaskQueue`, `TaskSet` (`Process`), both used by threads and by tasks (`TaskThr`), `close_event_loop` (`LoopClose`) | in `Process` tasks do not call `perform_tasks`; in `TaskThr` methods of `queue.Queue` are atomic | shutdown of the executor |
| `Promise.py` | all (`Promise`); functions using promises, with threads (`PromNet`) | in `Promise` the function does not use its own promise; in `PromNet` functions depend only on what they read | |
| `Validator.py` | all (`Validator`) | | |
| `ListModel.py` | `ListModel`, every filter, `FilteredListModel`, `MappedListModel`, `FlattenedListModel` (`ListModel`, `Filter`, `Filtered`, `FilteredSel`, `Mapped`, `Flattened`), a filtered list of a filtered list (`Chain`) and rows of any length (`Cascade`), change blocks across lists that change containers (`Blocks`), mapped and flattened lists of a filtered list (`Feed`), mapped lists whose functions raise (`MapFail`), filtered lists whose filters raise (`FiltFail`) or whose sort keys raise or cannot be compared (`SortFail`), lists and filtered lists with listeners that edit again (`Reent`), filtered lists used by threads (`FiltThr`), also with change blocks (`FiltBlk`) and while the container is set (`FiltAttach`; of mapped lists `MapAttach`), flattened lists whose child lists are edited by threads (`FlatThr`), the mutexes of lists derived from each other (`LockOrder`), making and releasing selections (`SelRel`), filtered lists of items that may be equal (`EqItems`) | elsewhere filters, sort keys and map functions do not raise; no re-entrant listeners | thread locks elsewhere |
| `Converter.py` | integer, scaled integer, percent, physical, checked, uuid, datetime, path, float (`ConvNum`, `ConvUuid`, `ConvDate`, `ConvPath`, `ConvFloat`, `Fmt`, `ConvDbl`) | ASCII text; default formats; no limit of digits; finite floats; `fuzzy=False` only on texts written by `convert` | custom formats, paths on Windows |
| `Geometry.py` | integer geometry (`GeomInt`), pretty numbers and ranges (`GeomPretty`), float geometry exactly and in doubles (`GeomFloat`), conversions, slices, aspect ratios (`GeomMore`), rotation over the reals (`GeomRot`), `LinearTicker` (`Ticker`), `LogTicker` (`LogTicker`), equality with operands of any kind (`GeomEq`) | `floor(log10 x)` is an oracle; finite floats | `__str__`, NaN (but for equality), infinities and subnormals |
| `Binding.py` | all bindings (`Bind`); property models bound both ways, re-entrantly (`BindLoop`), used by threads (`BindThr`) | in `Bind` target setters do not call back | `update_attribute_fn` with other than new objects |
| `Model.py` | `PropertyModel`, `StreamValueModel`, `FuncStreamValueModel` (`PropModel`), evaluations and closing at any moment (`FuncLife`), listeners that set the value again (`Reent`) | elsewhere listeners do not set the value again | cancelled tasks |
| `Stream.py` | `ValueStream`, `MapStream`, `CombineLatestStream`, `ConcatStream`, `PropertyChangedEventStream` (`Stream`), `DebounceStream`, `SampleStream` (`StreamTime`), networks of value, map and combine-latest streams with functions that may raise (`Net`), given up and deleted, and failing constructors (`NetLife`), combined streams used by threads (`StreamThr`) | elsewhere stream functions are total; time is the order of events | |
| `StructuredModel.py` | schemas, `build_model`, `build_value`, dict values, deep copy, listeners of arrays (`Struct`); `ItemsSequence` (`StructSeq`); notifications of nested models, attributes, closing (`StructTree`) | | |
| `Persistence.py` | contexts and subscriptions (`PersistCtx`), subscribers that use the context themselves (`CtxNet`), trees with parents, contexts, counts and storages (`PersistHeap`), dicts, properties and deep copy (`PersistDict`), documents in a storage handler (`PersistStore`), property callbacks that use the object (`PropNet`), values that can be edited (`PropShare`), reading into objects in use (`PersistRead`) | hooks of subclasses do nothing; converters do not raise | write delay, `PersistentStorageInterface` back ends |
| `Recorder.py` | recording and replay (`Recorder`); closing, replay in the same world (`RecLife`) | | |
| `ThreadPool.py` | `ThreadDispatcher` (`Disp`), `ThreadPoolTask` (`PoolTask`), `ThreadPool` (`Pool`) | queued functions do not close or run the pool; the dispatched function does not wait or close | logging |

## Approach per property

* **C01-C07** — IndexedSelection as a record (style, finite set of Z, optional anchor); one function per method returning new state, number of fires and exception. Case analysis per operation; histories by induction over the operation list. Set iteration order only matters for set_multiple, which takes the iteration order as a list.
* **C08** — ListModel as list + trace of notifications, Python index semantics for insert and del written out. Induction over operations.
* **C09** — Filter trees as an inductive type, matches as an evaluator with exceptions, deepcopy as a tree transformer. Nested induction.
* **C10-C17** — FilteredListModel as a record (master items, items, sorted flag, filter, key, reverse, change level), one function per method incl. the binary search with its low/high loop (recursion on fuel = length, proved sufficient), events as trace, set iteration order as an oracle carried by each operation. Invariants by induction over operation lists; defects by vm_compute witnesses.
* **C18-C21** — Mapped and flattened list models in the same style, plus the selection model of C02.
* **C22-C25** — Event as registered listener list + closed set + token/owner tables; handlers are arbitrary state transformers returning value or exception; fire is recursion over the snapshot.
* **C26-C29** — ComponentManager as two association structures with aliasing of the internal type set made explicit.
* **C30** — Reference count machine with the about_to_delete hook as an arbitrary script on the same object.
* **C31-C32** — Queues as lists, dict as insertion ordered association list, tasks as behaviours (enqueue, raise).
* **C33-C34, C41** — Direct functional models.
* **C35, C38-C40** — Strings as lists of ASCII characters, printers and parsers written out; round trips by induction / positional arithmetic.
* **C36-C37** — Exact rational model for the universal statement; IEEE double witness computed with the stdlib SpecFloat operations (no axioms).
* **C42-C47** — Integer geometry on Z; the float half-size detour is modelled by rounding to 53 bits.
* **C48-C51** — Rational model (Q) of the float code; power-of-ten exponent computed from the numerator/denominator, and passed as an oracle where the code takes floor(log10). Exact arithmetic, so these are statements about the algorithm, not about rounding.
* **C52** — Real model (stdlib Reals, its axioms listed).
* **C53-C56** — Bindings as state machines over an abstract source property, arbitrary converter/validator.
* **C57-C63** — Streams and models as state machines, values of an arbitrary type with decidable equality / arbitrary cmp.
* **C64-C65, C59** — Event loop schedules as arbitrary lists of loop events; thread interleavings as explicit transitions.
* **C66-C69** — Schemas, values and models as nested inductive types; build/to_dict/from_dict as structural recursion.
* **C70-C75** — Persistent objects as nested inductive trees and as a heap with parent pointers for propagation.
* **C76** — Recorder log as list of commands with accessor paths; replay as interpreter.
* **C77-C79** — Small-step transition systems; invariants by induction over arbitrary runs.
* **C80** — Bracketing of the trace of the mapped list model of C18.
* **C81** — Case analysis of make_pretty2 with the exact floor of log10.
* **C82** — Float geometry with an arbitrary rounding function, the identity, and rounding to 53 bits.
* **C83** — Deep copies of persistent objects as a function on the trees of C70.
* **C84** — The format codes f, e and g as functions from rationals to text; the text is shown to be a numeral of the rounded value and fed to the parser of C40.
* **C85** — Labels as functions of the range of C36 using the formats of C84; a label is shown to be a numeral of the tick.
* **C86** — The integer part of the computation in exact arithmetic; ticks as pairs of an exponent and a digit, compared through real logarithms.
* **C87** — Every double operation is the exact operation followed by rounding to 53 bits; relative errors are multiplied out and compared with half a step.
* **C88** — The mixin methods of MutableSequence as loops over the array of C68 with its list of listeners; compared with Python lists given as relations.
* **C89** — Trees with the list of listeners of each array; an edit walks down its path collecting who listens; compared with a relation that names the prefixes of the path.
* **C90** — The order of the lookups: assigned attributes, attributes of the class, fields, names ending in _model.
* **C91** — Assignment as a function with a bound on the nesting that calls itself through the listeners; for faithful bindings a bound of three is shown to suffice.
* **C92** — Two states of the filtered list of C10-C16; every notification of the first is delivered to the handlers of the second; the trace of an operation is shown to lead the second's master list from the old to the new items of the first.
* **C93** — A filtered list of C10-C16 with a list of attached mapped (C18) and flattened (C20) lists; each notification runs through them until one raises. The trace of an operation is either a plain edit script or a rebuild, whose effect on a flattened list is followed pop by pop.
* **C94** — The mapped list of C18 again, with outcomes of map_fn and unmap_fn given per call; exceptions are swallowed or propagate depending on the caller. Trace invariants by induction; exact result of the removal loop.
* **C95** — A network is the list of streams in the order made; firing is the depth-first recursion of the code. Invariant: all edges not still to be delivered are right; counting paths from the start (as fired) and from the end (spec) agree.
* **C96** — The filtered list of C14 again, with a filter returning a result or an exception. Invariant: what is shown is right up to the first item the filter raises for and a subsequence of right items behind it; exact results of the loops for attaching and detaching.
* **C97** — Functions are trees of reads; a thread is a stack of functions it is inside of, which are exactly the locks it owns. Spec: big-step evaluation with cost. Invariants: what is left of each function evaluates like the function; costs decrease along the stack, so a chain of waiting threads ends.
* **C98** — All calls step independently over one log of events. Invariants relate each call's remaining count to puts and takes at its beginning; pending tasks of a set are described by the log; counting tasks by permutations.
* **C99** — All calls step independently over one log of events. Invariants: the registered listeners are those alive, a call's copy of the list keeps its listeners alive; what each call has called followed by what is left to do is sorted; a closed listener is read no more. A listener neither registered nor in any copy stays so.
* **C100** — Any finite execution is a tree: an edit with the edits each listener makes when called for it. One induction principle over trees gives three invariants: permutation, last call, and being in phase behind quiet listeners.
* **C101** — The invariant is that a count is the sum of the references held by clients, objects not deleted, and threads inside remove_ref; from it, what is wanted by a thread is not deleted and so not locked. Every step lowers an exact measure by one. Reachability by induction on a rank of the acyclic network.
* **C102** — Each evaluation is a small state machine; the count is an invariant sum over them. After close a relation to the state at close bounds notifications by evaluations that end.
* **C103** — Integers up to 2^53 are exact doubles, so each operation of FloatRect is followed through with `fl` exact on it; comparison of ratios by monotony of rounding and the two extreme quotients.
* **C104** — Per item: either it is right and no call holding the mutex would spoil it, or some call will still fix it; this is kept by every step of every call. Order: the place found is right if all other items are; with assignments outside updates, either the list is right, or an assignment is half done, or the list is marked unsorted and an update is to come.
* **C105** — The network of C95 with reference counts beside it. The count of a stream is what clients and streams still hold, also in the middle of nested closing (with the streams being closed and one pending reference as parameters of the invariant); hence nobody listens to a stream that is closed. Simulation against the network that keeps everything: what was given up only reaches what was given up.
* **C106** — As C104, with the level read in a step of its own. Level = open blocks is an invariant as long as a value read is still there when it is written; then a call that finds the level positive leaves its item to the end of a block, which counts as a call that will fix every item. Items that left the master list may be listed only while the level is positive or an update is on its way.
* **C107** — The value at each place of the written dict is given by a view of the objects along a path; every edit changes the view at one place only, because each object is in one place and the accessors lead there (invariant). That edits do not raise needs well-founded trees, kept by every edit. Reading does not look at the order of keys: induction over JSON values.
* **C108** — Calls as sequences of mutexes taken and given back, given by an inductive relation over the graph of lists. In an ordered graph each call takes mutexes in increasing order or again; then of the threads that wait, the one waiting for the greatest mutex waits for a thread that waits for none.
* **C109** — Steps are reads and writes of single attributes. For an observer: whoever is in its listener holds the current value (kept as long as nobody changes it meanwhile), and either it shows the right value or a thread will still come by. For calls: the order of effects is the order of writes (or of comparisons that found the value already there).
* **C110** — The queue of the loop as a list; counting handles gives: a task that has not ended and does not wait is in the queue once, and after a round gather misses as many tasks as had not ended before the round. Hence the loop stops two rounds after the last gathered task has ended. Every step makes what tasks have still to do shorter, so with fair events all end.
* **C111** — The places of the setter with the master items as a prefix of the container at each place of the loop (invariant under gentle edits). For insertions: an item of the container not yet reached that is already in the master items makes the loop raise, by induction on its distance; for removals behind: from a place beyond the length of the master items the loop appends what it reads.
* **C112** — Operands as an inductive type; == dispatches on the left operand, then on the right. All pairs of classes by cases against coordinate lists; int() against a relation saying that the fraction is dropped.
* **C113** — Steps are reads and writes of single attributes. One thread per input: the value at its index is that of the input, or a thread is bringing it. Kept apart: computed values not yet written are those of the stored ones, and either the combined value is right or a thread will still compute or write it; the same for telling. Provenance by induction on the schedule.
* **C114** — Lists of `Filtered_Model` states, one giving its trace to the next. What a list fires under a trace it can rely on can again be relied on (`feeds`), so all depths follow by induction. For a changed item each list is either clean, or right for the old content and still to be told; a removal from above or its own handler makes it clean, in whatever order the listeners are called.
* **C115** — Calls in progress are a stack, so operations may come between any two handler calls. An account per list (count, plus what is due on the stack, less what the container has told) changes only by operations on the list itself and by its changes of container; hence levels. For what is told: lists that have fired but not counted stand below everything pending in the rank of the container graph, so no list is begun again while it has still to count. Ends: induction on rank.
* **C116** — Objects as trees of values, the registrations and the replaced objects as state. By induction on the dict: what is read is a list of new trees, each put into the context as a whole, so the registrations are those of the new trees one after the other. Leaving a context is a fold of deletions over the uuids. Histories by an invariant (same context, different uuids, all registered).
* **C117** — As C111, with images numbered by the calls of `map_fn`. The rest of an undisturbed walk from place k has a closed form (first k shown, what is left of the container, the rest shown), from which every single disturbed walk follows by list algebra. For any number of insertions: shown plus pending = place plus number of insertions, and all of the container up to the place is shown or pending. Images that stay behind: an invariant with their number.
* **C118** — The registry of C26 and a stack per thread of calls still to be made. Every step is one of ten kinds by what it does to all the frames together; invariants by these kinds: told plus waiting is what was fired (a permutation); the tally of what was fired is listed now less listed then; frames about a component and type all say how it is now, and if there is none what was told last does.
* **C119** — The state of C20 and a place in the code per master item. An invariant for all interleavings: copies are right up to the edit under way, and the length of the list is that of the children it should have plus the exceptions. Operations on the container are lifted from C20: they depend on the flattened list by its length only. In place: the edit of the concatenation is the concatenation of the edited; conversely two insertions or deletions that give the same distinct items are at one place.
* **C120** — The world, recorder and log of C76, with an option for the recorder, and each closure as an operation on the world. Setting a property to the value it has leaves the world as it is, so one step on the recorded object adds its own entry (induction over the steps). On a stranger: simulation of the tree by the object in the world; identities are those of the stranger or new, so neither the recorder nor what is read is touched.
* **C121** — Keys with a class; comparison gives TypeError between classes. Where nothing raises, bisection is that of C10, so insertion keeps order; a list with agreeing keys agrees with a new key as a whole or not at all. Sorting the whole container succeeds exactly if it is sortable, and then the loops of an update cannot raise. Invariants for the copy, the order and the exact items; histories by one lemma.
* **C122** — The context of C73 with a stack of uses under way and the lists of subscriptions numbered, so that a loop goes on over the list it began with. Invariant for the mirror: at most one frame about the uuid, and every subscriber knows what the frame tells or stands at or behind its place. For a use begun anywhere: induction over the steps until the stack is as before, with the frame at its place in the stack.
* **C123** — The selection of C01 with a list of set objects and the number of its own. Every method leaves the list, edits the own object or appends one (one lemma, add_range by induction); the methods agree with those on values; which replace by cases, the shifts by the greatest index. Kept objects by induction over the history; edits of replaced objects by simulation.
* **C124** — Splitting at slashes and dropping empty components and dots undoes joining; normal texts are the texts of paths. Walking along the text character by character is going through its components, and components that are dropped only ask for a directory, which the next component asks for as well; only at the end the question is lost.
* **C125** — Acts of clients and callbacks with a stack of callbacks that run. One lemma: what the elementary changes keep, all acts keep. Invariants on the log of calls and writes; a property without running callback is as its last end left it, since every frame above an assignment must end first.
* **C126** — Selections as numbered objects and the list of those that follow, which is always in the order they were made. list.remove splits it at the first that is equal. By induction over the history the list is what is due; a selection in the list sees exactly the edits, so the theorem of C02 on items applies.
* **C127** — Heap of objects with contents, the object each property owns and those the client has. A copy made when a property is set is private: neither among those the client has nor owned by another property. Privacy is kept by every step except getting the value uncopied, and no step changes a private object.
* **C128** — The container, the copy, the watched ids and the shown items, with the exceptions that were printed. Without equal items an invariant says that copy and container are one list and the shown ones its filter; with them, for insertions only, that the copy has the same classes, each once. The unsorted index is the number of accepted items in front, so an insertion commutes with the filter.

## Findings

Behaviour of the code that differs from what its names, comments or documentation promise. Each has a theorem; witnesses have names ending in `_refuted`.

* **C03** Selection style bounds the number of selected indexes: in style single, clear adds index 0 without removing the others. Theorems: `sel_single_at_most_one_refuted`.
* **C04** extend selects exactly the interval from the anchor: extend to the anchor itself selects nothing when the anchor is not selected. Theorems: `sel_extend_selects_refuted`.
* **C05** The anchor is a selected index unless something was removed: removing the anchor keeps an unselected anchor in some cases. Theorems: `sel_anchor_selected_refuted`.
* **C09** Filters compose as boolean logic and survive deep copy: a deep-copied TextFilter raises AttributeError on matching.
* **C13** Sorted position after an item's sort key changes: keys [1,5,7], changing 5 to 9 leaves the list unsorted. Theorems: `filtered_key_change_refuted`.
* **C14** Change blocks: final state and the two ways they go wrong: re-insertion inside a change block, sort_reverse without sort key, and key changes inside a block give wrong lists. Theorems: `filtered_reinsertion_refuted`, `filtered_reverse_no_key_refuted`, `filtered_block_key_change_refuted`.
* **C16** Removal notifications name the removed item except on full rebuilds: full rebuilds notify removals with the wrong item. Theorems: `filtered_rebuild_removal_refuted`.
* **C17** A selection made by a filtered list tracks container positions: selections are shifted by container positions, not list positions. Theorems: `filtered_selection_refuted`.
* **C20** A flattened list is the concatenation of the children: a negative child index misplaces the item. Theorems: `flattened_negative_child_index_refuted`.
* **C21** A flattened list's selection is shifted by the wrong offset on insert: on insertion selections are shifted at the child index. Theorems: `flattened_selection_insertion_refuted`.
* **C23** A raising listener stops the fire and is not propagated: one raising listener silences the ones after it. Theorems: `event_all_listeners_called_refuted`.
* **C24** fire_any and fire_all results: fire_all is None (falsy) without listeners or after an exception, and False because of a closed listener. Theorems: `event_fire_all_true_refuted`, `event_fire_all_closed_refuted`.
* **C28** Unregistering everything notifies with an empty type set: unregistering all types notifies with the empty set of types. Theorems: `registry_unregister_payload_refuted`.
* **C29** get_component returns a matching component but not by priority: get_component returns a component although one with a higher priority is registered. Theorems: `registry_priority_refuted`.
* **C32** A task set runs the latest task of every key once: tasks pending when another one raises are lost. Theorems: `taskset_raise_loses_tasks_refuted`.
* **C33** A promise evaluates its function once: has_value is False for a promise evaluated to None. Theorems: `promise_has_value_refuted`.
* **C36** Scaled integer conversion loses at most one step: in doubles positions 29, 57, 58 of 100 come back one lower. Theorems: `conv_scaled_double_refuted`.
* **C37** Percent strings: in doubles 29%, 57% and 58% come back one lower. Theorems: `conv_percent_double_refuted`.
* **C38** UUID to string and back: only version 4 RFC 4122 UUIDs come back; every other UUID gives None.
* **C39** Datetime to string and back: a datetime with UTC offset never comes back.
* **C40** Fuzzy float parsing: a comma raises ValueError in a '.' locale; pass_none is ignored by the physical value converter. Exact rationals, ASCII text. Theorems: `conv_physical_none_refuted`.
* **C42** Integer point and size algebra: a point equals every float tuple that truncates to it. Theorems: `geom_eq_fraction_refuted`.
* **C45** intersects_rect counts touching edges: rectangles that merely touch count as intersecting. Theorems: `geom_touching_refuted`.
* **C46** Moving and insetting rectangles: r + p is off by one for negative odd sizes. Theorems: `geom_add_negative_refuted`.
* **C47** Integer size scaling truncates toward zero: // truncates toward zero. Divisors are integers. Theorems: `geom_floordiv_refuted`.
* **C48** Pretty numbers: with log10 rounded up make_pretty is 0 for values just below a negative power of ten, for example 0.03 - 0.02 in doubles. Theorems: `pretty_collapse_refuted`.
* **C49** Pretty ranges cover the data with evenly spaced ticks: in doubles the range 0.02..0.03 gives the single tick 0, and the minimum of 3.9..4.2 is above 3.9. logarithmic=False only. Theorems: `pretty_range_collapse_refuted`, `pretty_range_double_refuted`.
* **C54** Tuple binding changes only its own element: an element that is None is shown as the converted None by a notification but as the fallback by get_target_value. Theorems: `bind_tuple_none_refuted`.
* **C55** Attribute binding changes only its own attribute: the same object is re-assigned, so a source comparing objects does not notify. update_attribute_fn is not modelled. Theorems: `bind_attribute_silent_refuted`.
* **C59** Asynchronous function model ends on the last finished evaluation: a late older evaluation overwrites a newer one; an evaluation that raises leaves the pending count positive; a changed value is announced twice. Closing the model during an evaluation is not modelled. Theorems: `fm_raise_pending_refuted`, `fm_late_refuted`.
* **C63** Property stream follows the current source object: with source None the value of the previous object is kept. Theorems: `propstream_none_refuted`.
* **C64** Debounce delivers the latest value: a value set by a listener during the fire is never fired. Theorems: `debounce_delivered_refuted`.
* **C65** Sample delivers the latest value but loses the initial one: the first sample replaces the initial value by None; a sample between the flag and the pending value loses the update. One input thread. Theorems: `sample_initial_lost_refuted`, `sample_lost_refuted`.
* **C66** Structured models round-trip through dict values: copy_from does not clear a field that is None in the source; a record field left out comes back as an empty dict. Theorems: `struct_copy_from_none_refuted`, `struct_absent_record_refuted`.
* **C67** Field defaults override supplied values: a default overrides the supplied value, also in a deep copy. Theorems: `struct_default_deepcopy_refuted`.
* **C68** Array of records: change propagation: insert before the end then remove disconnects a contained record; records loaded from a dict value are not connected and removing one raises IndexError. Theorems: `array_insert_remove_refuted`, `array_load_refuted`.
* **C69** Operations that always raise: define_float gives the type name double, which build_model does not know, so any record with such a field at any depth cannot be built; a non-empty array of primitives has no dict value and no deep copy. Theorems: `struct_float_record_refuted`, `struct_prim_array_refuted`.
* **C70** Persistent objects round-trip through dicts: None in a property with another default comes back as the default; the time of modification is read from dicts but never written. Theorems: `pd_default_refuted`.
* **C71** Modification counts propagate to all ancestors: an object replaced by set_item is still counted in its former parent; an insert without a storage handler raises after inserting and counting. Theorems: `heap_set_item_old_refuted`, `heap_no_storage_refuted`.
* **C72** Storage mirrors property values: clear_property is called with the name, not the storage key, so under a key that differs from the name the last written value stays. Theorems: `pd_stored_none_refuted`.
* **C73** Registration and subscription: an unregistration drops the subscription, so a later registration of the same uuid is not told; unregistering an unknown uuid calls the subscribers with None and then raises KeyError; subscribing with registered=None to a registered object raises TypeError after subscribing. Theorems: `ctx_resubscribe_refuted`.
* **C74** The context covers exactly the object tree: heap_set_item_old_refuted under C71.
* **C76** Replaying a recording: assigning _accessor_fn recurses, so inserting or removing before the end is never logged and later appends are replayed at the wrong index or raise; __item_set calls the accessor with no argument, so setting or clearing an item is never logged; inserted items are deep-copied at replay, so structural changes inside them are applied twice or raise. rec_passed_over states what is not logged for every state; the *_refuted theorems are concrete histories. Theorems: `rec_insert_front_refuted`, `rec_insert_front_later_refuted`, `rec_remove_front_refuted`, `rec_set_item_refuted`, `rec_clear_item_refuted`, `rec_nested_refuted`, `rec_nested_remove_refuted`.
* **C77** A pool task runs at most once and never after cancel: a function that cancels its own task gets the finished callback twice (and in the pool the second one raises ValueError and ends the worker); one that executes its own task runs again. Theorems: `task_inner_cancel_refuted`, `task_inner_execute_refuted`.
* **C78** A thread pool runs each queued function at most once and none after close: close puts one None per thread and joins the queue, also when the threads have ended, so a second call of close on a started pool blocks for ever. Queued functions do not call close, run_all, run_one or their own task in the model. Theorems: `pool_second_close_refuted`.
* **C79** A dispatcher serves every trigger: trigger(wait=True) can return on the end of an invocation that had started before the call, blocks while the function raises, and blocks for ever if the dispatcher is closed before or meanwhile; a second close raises AttributeError. The function does not call trigger(wait=True) or close in the model; the clock does not go back. Theorems: `disp_wait_early_refuted`, `disp_wait_raise_refuted`, `disp_wait_closed_refuted`.
* **C82** Float rectangles: in doubles a rectangle can differ from its intersection with itself. Theorems: `frect_double_refuted`.
* **C83** Deep copies of persistent objects: getattr of a hidden item raises AttributeError, so no object of a class with a hidden item can be copied. Theorems: `pd_deepcopy_hidden_refuted`.
* **C84** Float texts and reading them back: the default format keeps six significant digits, so committing the unchanged text of a field bound through FloatToStringConverter changes 1234567 to 1234570. NaN, infinities, negative zero, overflow and subnormal doubles are not modelled. Theorems: `fmt_float_lost_refuted`.
* **C85** Tick labels say the tick values: in exponent notation the precision of a label is computed from log10 of the value only if the value is positive, so negative ticks get one digit: the limits -12e6 and -8e6 give the labels -1e+07, -1e+07, -1e+07, -9e+06, -8e+06. With equal limits 0.25 is labelled 0. Theorems: `ticker_negative_refuted`, `ticker_equal_refuted`.
* **C86** Ticks of a logarithmic axis: the loop that reduces numdec also reduces the reported maximum of a LogTicker: limits 0.95 and 3.5 give maximum 3 although ticks go to 4; equal limits 2.5 give maximum 2 and minimum 2.505. Non-finite limits and rounding errors of pow and log are not modelled. Theorems: `logt_maximum_refuted`, `logt_equal_refuted`.
* **C87** Scaled integers and percents in doubles: int() truncates a quotient that rounding may have put just below an integer, so a slider bound to a float drifts down: 58 of 100 becomes 57 and then 56, 192 of 321 goes down 32 steps to 160; the maximum of 100 steps on [0, 0.17] is position 99. Overflow and subnormal doubles are not modelled. Theorems: `convdbl_drift_refuted`, `convdbl_top_refuted`.
* **C88** The sequence an array field reads as: ItemsSequence.__contains__ calls contains on a list, so x in s raises AttributeError for every array; items given by from_dict_value have no listener, so clear of three loaded items removes one and stops without an error (MutableSequence.clear ends at the IndexError of the listener list). Slices as indices are not modelled. Theorems: `seq_clear_refuted`.
* **C89** Notifications of nested structured models: listeners of inserted items are appended but removed by index, so inserting at the front and removing it again leaves the first item without a listener: changes in it no longer reach the array or anything above. ArrayModel.close calls the list items and always raises TypeError. Every object is at one place and listeners do not edit. Theorems: `tree_insert_remove_refuted`.
* **C90** Attributes of a record: assigning a record or array field of a record sets a plain attribute that hides the field, without changing the model or an error; a primitive field called schema is written but reads as the schema.
* **C91** Two-way bound models come to rest: update_source does not refresh the target when the source keeps its value, so after typing 150 into a field whose validator allows 100, the field shows 100 if the source was 50, but 150 if it was already 100; with a converter that loses digits the source itself is changed by being bound (47 becomes 40 with tens). Theorems: `loop_not_normalised_refuted`, `loop_diverges_refuted`.
* **C92** A filtered list of a filtered list: an item moved by the sort key of the first list while a change block of the second list is open is taken as removed and inserted again; at the end of the block nothing is found to do, so the second list keeps the old order: first list 2, 3, 1, second list 1, 2, 3. Theorems: `chain_block_order_refuted`.
* **C93** Mapped and flattened lists of a filtered list: setting the filter, sort key or reverse of a filtered list names items at wrong indices in its removals (C16); a flattened list that has it as container fails an assertion for about half of them, Event.fire swallows the exception and skips every later listener: mapped lists made after the flattened list keep the images of the second half of the old items for ever, and of two flattened lists the second shows children of items that are gone. Theorems: `feed_stale_refuted`, `feed_two_flattened_refuted`.
* **C94** Mapped lists whose functions raise: if map_fn raises once for an inserted item, the exception is swallowed and the mapped list is one item short: later insertions and removals hit the wrong position, giving the container up (also by close) raises IndexError after the listeners have been dropped, and from then on every assignment of the container and every close raises AttributeError. Theorems: `mapfail_displaced_refuted`, `mapfail_stuck_refuted`.
* **C95** Networks of streams: where two streams made from one stream are combined, every change fires an intermediate value mixing new and old inputs, and the number of firings per change is the number of paths, 2^n for n combinations; if the function of a map or combine stream raises, streams made later on the same input keep their old value. Theorems: `net_glitch_refuted`, `net_raise_refuted`.
* **C96** Filtered lists whose filters raise: while the container has an item the filter raises for, everything inserted behind it is silently not shown even if it passes, stays hidden when that item has gone, and later insertions then come at wrong places: container 3, 4, 5, shown 5, 4. Assigning a container with such an item raises and follows only the items up to it; the next assignment, or close, raises KeyError, and every later one AttributeError. Theorems: `filtfail_order_refuted`.
* **C97** Promises using promises, read by threads: promises whose functions use each other are not detected: two threads reading them block each other for ever, a single thread recurses without end; the re-entrant lock does not stop a promise whose function reads the promise itself. Theorems: `promnet_deadlock_refuted`, `promnet_recursion_refuted`.
* **C98** Task queues and task sets used by threads: a TaskQueue task that raises is never marked done, so join on the queue would wait for ever. With two threads performing a TaskSet, a task can be started after the task that replaced it; perform_tasks of a queue can return while a task put before is still running elsewhere. Theorems: `taskthr_queue_running_refuted`, `taskthr_set_order_refuted`.
* **C99** Events used by threads: a listener can be called once more after its close() has returned in another thread; a listener whose token was dropped (not closed) while any call of fire is going on stays registered until that call ends, and is called even by calls made after it was dropped. Theorems: `eventthr_dropped_refuted`, `eventthr_closed_refuted`.
* **C100** Observers that change the observed object again: if a listener of a ListModel edits the list from within a notification, listeners added later are told the inner edit before the outer one: a FilteredListModel behind it shows 1, 2 for the list 2, 1, or still shows an item already removed. If a listener of a PropertyModel sets the value again, on_value_changed is called with the older value last. Theorems: `reent_list_refuted`, `reent_filtered_refuted`, `reent_property_callback_refuted`.
* **C102** The life of function stream value models: close does not stop evaluations: a closed FuncStreamValueModel still changes its value and notifies. A function that raises, or a stream whose value is None at construction, leaves the count above zero for ever, so _run_until_complete spins without end (after close: AttributeError). Theorems: `funclife_closed_refuted`.
* **C103** Integer rectangles as float rectangles, slices and aspect ratios: IntRect.slice of a rectangle that sticks out above or to the left of an array takes negative bounds as counted from the end: rows inside the rectangle are missed and others taken. Theorems: `geommore_scaling_refuted`.
* **C104** Filtered lists used by threads: the filter setter writes the filter and __items_sorted without the mutex, unlike the setters of the sort key. If it does so while another thread is inside __update_items, the other thread overwrites the mark, an insertion in between is placed by the new filter in the list of the old one, and the wrong order stays: 4, 3 for 3, 4. Likewise if two threads change items and the second change is handled first: 1, 3, 2 for 1, 2, 3. Theorems: `filtthr_filter_race_refuted`, `filtthr_edit_race_refuted`.
* **C105** Networks of streams that are given up: MapStream and CombineLatestStream take references to their inputs and listen before their function is first called. If it raises then, the constructor gives no stream, but the inputs keep its references for ever, so they are never closed; and as stream and listener refer to one another, it goes on listening until the garbage collector runs, and what its function raises keeps streams made later of the same input from being updated. Theorems: `netlife_leak_refuted`, `netlife_zombie_refuted`.
* **C106** Filtered lists with change blocks used by threads: begin_change does self.__change_level += 1 without the mutex, end_change lowers it with the mutex. Where the interpreter can switch threads between reading and writing an attribute, a begin_change meeting another change of the level loses one of the two: the level stays at 1 after all blocks have ended, and the list is never updated again; or it is too low, and blocks do not hold back notifications, and an item can even be listed twice. Theorems: `filtblk_frozen_refuted`, `filtblk_early_refuted`, `filtblk_twice_refuted`.
* **C107** Documents kept in step with a storage handler: set_item leaves the replaced item with its parent and its context. What is later set on the old item is stored in the dict of the item that replaced it, and setting the old item again fails an assertion. A relationship may be defined with a key; write_to_dict and read_from_dict use the key, but the accessor and the calls of the storage use the name: inserted items are stored where they are not read, and a property of an item of an opened document cannot be set (KeyError). Theorems: `persiststore_replaced_refuted`, `persiststore_put_back_refuted`, `persiststore_key_refuted`, `persiststore_key_raises_refuted`.
* **C108** No deadlocks between lists derived from each other: a listener to a FlattenedListModel that reads its items can come to a deadlock: a change of a master item that is itself a filtered list is told with the mutex of the master item held but not that of the flattened list, which the reader then takes; while removing a master item takes the two the other way round. The same holds for a listener to a filtered list that reads the list from which it is derived. Theorems: `lockorder_flattened_refuted`, `lockorder_upstream_refuted`.
* **C109** Property models, bindings and property streams used by threads: update_source and the listeners of bindings are documented as thread safe, but no mutex is held between reading and writing. If a value is assigned while another thread is inside a listener, the target can keep the older value for ever, and a stream can fire its older value last. Of two threads that update different elements of a tuple through tuple bindings one can undo the other. Theorems: `bindthr_stale_refuted`, `bindthr_stream_refuted`, `bindthr_once_refuted`, `bindthr_callback_refuted`, `bindthr_tuple_refuted`.
* **C110** Closing an event loop: close_event_loop looks once which tasks there are. A task created while it waits for them, for instance the next sample of a SampleStream that was not closed, is left pending when the loop is closed unless it ends within two rounds. Theorems: `loopclose_left_refuted`.
* **C111** Setting the container of a filtered list while the container is edited: the container setter is documented as thread safe but has no mutex and walks the live list. Removing an item it has already read makes it skip an item for good, and a later removal takes the wrong master item out, all silently; inserting makes the assignment raise AssertionError half way. A removal not yet told when the container is attached takes a wrong item out. While detaching, an insertion between the closing of the listeners and the copying of the items makes the assignment raise, after which every assignment of a container (and close) raises AttributeError; a removal there leaves items in the detached list. Theorems: `filtattach_mirrors_refuted`, `filtattach_half_removal_refuted`, `filtattach_detach_refuted`.
* **C112** Equality of points, sizes and rectangles: IntPoint.__eq__ and the others convert the other operand by make, so IntPoint(1, 2) == FloatPoint(1.5, 2) holds while the contrary comparison does not, and two different float points equal the same integer point. A point equals a size and a longer tuple with the same first two numbers, IntSize(0, 0) equals (None, None), and comparing a point with a rectangle or a number raises TypeError instead of being False. Theorems: `geomeq_symmetric_refuted`, `geomeq_large_refuted`, `geomeq_transitive_refuted`, `geomeq_kinds_refuted`.
* **C113** Combined streams used by threads: CombineLatestStream computes, writes and fires its value without a lock. Two inputs each set by its own thread can leave it with a value that is not that of its inputs, after all threads have ended, and it can fire an older value last. If two threads set the same input it can keep an older value of that input until that input changes again. Theorems: `streamthr_stale_refuted`, `streamthr_told_refuted`, `streamthr_same_refuted`.
* **C114** Filtered lists in a row: the lists hear of a changed item in the order in which they began to listen to it. A list that loses an item and takes it back inside one of its change blocks listens last, so when the item then changes, the next list first announces it as inserted although the list before no longer accepts it, and then as removed. Theorems: `cascade_transient_refuted`.
* **C115** Change blocks of lists that change containers: a list whose container is changed in the middle of a change block of the old container has told a begin and never tells the end, since the listeners are closed and the level is not reset; given a container that is in a block, its level goes to -1 at the end and later blocks are not announced. MappedListModel.begin_change fires before it counts, so a handler of begin_changes_event that uses changes() on the same list makes a second begin without an end, and one that calls end_change leaves the block open for observers. Theorems: `blocks_left_open_refuted`, `blocks_unannounced_refuted`, `blocks_handler_refuted`, `blocks_handler_end_refuted`.
* **C116** Reading into objects in use: read_from_dict on an object in a context registers it under the uuid that was read and leaves it registered under the old one, for good; the item that a read item replaces stays in the context and registered; relationships are appended to, so reading a dict with uuids in relationships twice gives objects with equal uuids, and setting the context to None then raises KeyError halfway through the tree. Theorems: `pread_twice_refuted`, `pread_replaced_refuted`, `pread_halfway_refuted`.
* **C117** Setting the container of a mapped list while the container is edited: the setter of MappedListModel.container, marked thread safe, walks the live list of the container while listening to it. Without any exception, an item inserted meanwhile is shown twice, and after a removal of an item already read one item is not shown at all; items too many stay in the list when the container is taken away and are shown behind the items of every later container; with an item too few, taking the container away raises IndexError and the model can never be given another container. Theorems: `mapattach_mirrors_refuted`, `mapattach_detach_refuted`.
* **C118** Listeners of the registry that use it themselves, and threads: events are fired after the change without any order between nested uses or threads. A listener that unregisters a component when told it was registered makes later listeners hear unregistered first and registered last, and they are wrong for good; so do two threads. unregister without types tells an empty set of types, so no listener can know which. fire_existing_component_registered_events walks the live set: a listener that registers another component of the type ends it with RuntimeError and the others are never told; and listeners that were there before are told again. Theorems: `regnet_mirror_refuted`, `regnet_threads_refuted`, `regnet_unnamed_refuted`, `regnet_existing_refuted`, `regnet_count_refuted`.
* **C119** Flattened lists whose child lists are edited by threads: FlattenedListModel edits its list without its mutex when children are inserted or removed. Two threads that edit the children of two master items can leave the items in the wrong order; a removal can take out another item than it tells, or raise IndexError inside the event (printed and dropped), and the item then stays in the list even after the container is taken away; and observers can be told of edits in another order than they were made in. Theorems: `flatthr_order_refuted`, `flatthr_left_over_refuted`, `flatthr_wrong_item_refuted`, `flatthr_told_refuted`.
* **C120** Closing recorders, and replay in the same world: Recorder.apply walks the live log; applied to the recorded object itself while the recorder is open it never ends if any property was recorded (the log grows by one entry per call). The closures read the recorded object when called: closing the recorder does not keep the values, changes made after close are replayed. Theorems: `reclife_self_refuted`, `reclife_late_refuted`.
* **C121** Filtered lists sorted by keys that raise or cannot be compared: FilteredListModel sorts the container before it filters, so one item the filter rejects with a key of another type makes setting the filter raise; the new filter, key or direction is kept with the old items. Keys that cannot be compared when an item comes are printed and dropped, the item stays hidden for good (also when the item in its way goes) and the selections are not told of it, but are told when it goes. An item with key None that comes first hides all others. A changed item can be lost: it is taken out and the second search raises. Theorems: `sortfail_filter_refuted`, `sortfail_history_refuted`, `sortfail_hidden_refuted`, `sortfail_reverse_refuted`, `sortfail_mark_refuted`, `sortfail_lost_refuted`, `sortfail_selection_refuted`.
* **C122** Subscribers of a context that use the context themselves: PersistentObjectContext deletes registration and subscriptions by uuid after all callbacks were called. A replacement registered under the same uuid in an unregistered callback is announced to all and then deleted; unregistering it raises KeyError. A listener of registration_event that subscribes during an unregistration is told that the object is there and then loses its subscription. A registered callback that unregisters the object makes later subscribers hear gone first and registered last, for good. A subscription made in a registered callback is told twice; one that is made at each call keeps register from returning. Theorems: `ctxnet_twice_refuted`, `ctxnet_stale_refuted`, `ctxnet_late_refuted`, `ctxnet_again_refuted`, `ctxnet_replace_refuted`.
* **C123** The set object a selection gives out, and assigning its style: IndexedSelection.indexes gives out the live set. add, remove, extend (style multiple) edit it in place, set, set_multiple, clear and shifts replace it: a listener that keeps it to find what changed finds no difference after add, and a client that keeps it as its view is wrong for good after set; a client that edits it changes the selection without event and can leave the anchor unselected. Assigning selection_style leaves the indexes, so a selection of style single or none can have any number of them, and one of style none can select. Theorems: `selshare_compare_refuted`, `selshare_view_refuted`, `selshare_own_refuted`, `selshare_style_refuted`.
* **C124** Paths and their texts: the empty text becomes None and not the path '.', and a slash at the end is lost, so that a text that is no path to anything (a slash after the name of a file) becomes the path of the file. Theorems: `convpath_empty_refuted`, `convpath_place_refuted`.
* **C125** Persistent properties whose callbacks use the object: PersistentObject calls the changed callback after it assigned the value and before it counts and writes. If the callback raises (or recurses without end), the value is changed for good, the storage keeps the old one and no modification is counted. A callback that sets another property writes that one first, so a storage read in between holds what the object never was; while a document is read, such a write changes the document and the value read later changes the object, so that both differ for good without anything raising. Theorems: `propnet_atomic_refuted`, `propnet_read_refuted`, `propnet_moment_refuted`.
* **C126** Making and releasing the selections of a list: list.remove(selection) in release_selection uses IndexedSelection.__eq__, which compares contents. With two selections that are equal when one is released - such as two empty ones - the older is taken out instead: it is no longer adjusted when items come or go, while the released one still is. A selection given to the constructor can be lost in the same way, also one of another style; releasing twice takes another selection out without an exception. Theorems: `selrel_follows_refuted`, `selrel_left_refuted`, `selrel_twice_refuted`.
* **C127** Persistent properties whose values can be edited: a value got from a property that is not copy_on_read is the live object: editing it changes the property without callback, modification or storage. copy_on_read does not isolate it: the changed callback is given the live object, and with a validate function that returns its argument the object of the caller (or of the dict that was read) becomes the value, so that later edits of it go past validation. Defaults are not copied: properties defined with the same object share it. Theorems: `propshare_live_refuted`, `propshare_callback_refuted`, `propshare_validate_refuted`, `propshare_default_refuted`.
* **C128** Filtered lists of items that may be equal: __item_inserted asserts that no equal item is in its copy; the AssertionError is printed and dropped by Event.fire and the copy then lacks the item, so all later positions are off. Deleting the item shown hides the equal one that is left; deletions take other items out of the copy or raise IndexError or KeyError, printed and dropped; items that were removed stay shown for good, also such as were never equal to any other, and a later equal one is then shown twice. Theorems: `eqitems_order_refuted`, `eqitems_missing_refuted`, `eqitems_gone_refuted`, `eqitems_other_refuted`, `eqitems_double_refuted`.

## Assumptions of each theorem

`Print Assumptions` of all 750 theorems.

Closed under the global context (732):

* `BindLoop_Props`: loop_settles, loop_history, loop_not_normalised_refuted, loop_lossy, loop_diverges_refuted
* `BindThr_Props`: bindthr_right, bindthr_one_thread, bindthr_held, bindthr_updates, bindthr_assignments, bindthr_stale_refuted, bindthr_stream_refuted, bindthr_once_refuted, bindthr_callback_refuted, bindthr_tuple_refuted
* `Bind_Props`: bind_notified, bind_other_notifications, bind_update_source, bind_in_step, bind_closed, tuple_set_element, tuple_set_negative, bind_tuple_update, bind_tuple_none_refuted, bind_attribute_update, bind_attribute_target, bind_attribute_none, bind_attribute_silent_refuted, bind_list_mirror, bind_list_closed
* `Blocks_Props`: blocks_count, blocks_count_any, blocks_told, blocks_alternate, blocks_end, blocks_open, blocks_left_open, blocks_unannounced, blocks_left_open_refuted, blocks_unannounced_refuted, blocks_handler_refuted, blocks_handler_end_refuted
* `Cascade_Props`: cascade_level, cascade_members, cascade_order, cascade_sorted, cascade_observers, cascade_names, cascade_transient_refuted
* `Chain_Props`: chain_members, chain_order, chain_sorted, chain_observer_reconstructs, chain_blocks, chain_names_repaired, chain_block_order_refuted
* `ConvDate_Props`: conv_date_roundtrip, conv_date_back_iff, conv_date_offset_lost, conv_date_other_length
* `ConvDbl_Props`: convdbl_trip, convdbl_repeated, convdbl_rest, convdbl_binary_steps, convdbl_positions, convdbl_monotone, convdbl_back_monotone, convdbl_value, convdbl_errors, convdbl_drift_refuted, convdbl_top_refuted, convdbl_percent
* `ConvFloat_Props`: conv_fuzzy_no_number, conv_fuzzy_point_locale, conv_fuzzy_comma_raises, conv_fuzzy_comma_locale, conv_physical_back, conv_physical_none_refuted, conv_percent_roundtrip, conv_percent_double_refuted
* `ConvNum_Props`: conv_int_roundtrip, conv_int_accepts, conv_int_rejects, conv_int_text_canonical, conv_scaled_position_roundtrip, conv_scaled_value_within_step, conv_scaled_onto, conv_scaled_double_refuted, conv_check_roundtrip, conv_check_back_true
* `ConvPath_Props`: convpath_path, convpath_proper, convpath_text, convpath_again, convpath_place, convpath_empty_refuted, convpath_place_refuted
* `ConvUuid_Props`: conv_uuid_back_iff, conv_uuid_roundtrip
* `CtxNet_Props`: ctxnet_mirror, ctxnet_register, ctxnet_unregister, ctxnet_least, ctxnet_gone, ctxnet_ends, ctxnet_endless, ctxnet_twice_refuted, ctxnet_stale_refuted, ctxnet_late_refuted, ctxnet_again_refuted, ctxnet_replace_refuted
* `Disp_Props`: disp_served, disp_soon, disp_interval, disp_closed, disp_close_returns, disp_wait, disp_wait_early_refuted, disp_wait_raise_refuted, disp_wait_closed_refuted
* `EqItems_Props`: eqitems_right, eqitems_copy, eqitems_inserted, eqitems_raised, eqitems_appended, eqitems_order_refuted, eqitems_missing_refuted, eqitems_gone_refuted, eqitems_other_refuted, eqitems_double_refuted
* `EventThr_Props`: eventthr_order, eventthr_registered, eventthr_all, eventthr_close, eventthr_close_later, eventthr_over, eventthr_dropped, eventthr_dropped_refuted, eventthr_closed_refuted
* `Event_Props`: event_fire_turns, event_fire_any_all_turns, event_raise_stops_fire, event_fire_any_result, event_fire_all_result, event_fire_without_listeners, event_registered_iff, event_closed_iff, event_never_called_after_close, event_fire_all_true_refuted, event_all_listeners_called_refuted, event_fire_all_closed_refuted
* `Feed_Props`: feed_right, feed_shown, feed_mapped_first, feed_observers, feed_mapped_observers, feed_blocks, feed_indices, feed_stale_refuted, feed_two_flattened_refuted
* `FiltAttach_Props`: filtattach_mirrors, filtattach_insert_raises, filtattach_removed_behind, filtattach_half_insertion, filtattach_stuck, filtattach_mirrors_refuted, filtattach_half_removal_refuted, filtattach_detach_refuted
* `FiltBlk_Props`: filtblk_level, filtblk_pointwise, filtblk_reader, filtblk_settled, filtblk_quiet, filtblk_follow, filtblk_finish, filtblk_frozen, filtblk_frozen_refuted, filtblk_early_refuted, filtblk_twice_refuted
* `FiltFail_Props`: filtfail_observer, filtfail_gentle, filtfail_quiet_right, filtfail_insert, filtfail_filter, filtfail_attach, filtfail_attach_stuck, filtfail_stuck_forever, filtfail_order_refuted
* `FiltThr_Props`: filtthr_pointwise, filtthr_reader, filtthr_settled, filtthr_order_apart, filtthr_order_filters, filtthr_follow, filtthr_finish, filtthr_filter_race_refuted, filtthr_edit_race_refuted
* `Filter_Props`: filter_and_is_conjunction, filter_or_is_disjunction, filter_tree_is_boolean, filter_text_is_substring, filter_date_fields, filter_comparison_leaves, filter_missing_attribute_raises, filter_deepcopy_matches, filter_deepcopy_text_raises
* `FilteredSel_Props`: filtered_selection_follows, filtered_selection_refuted
* `Filtered_Props`: filtered_observer_reconstructs, filtered_unsorted_is_filter, filtered_sorted_permutation, filtered_master_is_container, filtered_key_change, filtered_block_end, filtered_changes_bracketed, filtered_removals_named, filtered_rebuild_removals, filtered_key_change_refuted, filtered_reinsertion_refuted, filtered_reverse_no_key_refuted, filtered_block_key_change_refuted, filtered_rebuild_removal_refuted
* `FlatThr_Props`: flatthr_alone, flatthr_children, flatthr_count, flatthr_insertions, flatthr_in_place, flatthr_out_of_place, flatthr_told, flatthr_one_by_one, flatthr_set_container, flatthr_order_refuted, flatthr_left_over_refuted, flatthr_wrong_item_refuted, flatthr_told_refuted
* `Flattened_Props`: flattened_is_concatenation, flattened_observer_reconstructs, flattened_selection_removals, flattened_selection_insertion, flattened_selection_insertion_refuted, flattened_negative_child_index_refuted
* `Fmt_Props`: fmt_fixed_reads, fmt_exponent_reads, fmt_general_reads, fmt_float_back, fmt_float_exact, fmt_float_double, fmt_float_stable, fmt_float_lost_refuted, fmt_physical_back, fmt_physical_double
* `FuncLife_Props`: funclife_count, funclife_drain, funclife_stuck, funclife_no_function, funclife_after_close, funclife_settled, funclife_closed_refuted
* `GeomEq_Props`: geomeq_ne, geomeq_left_int, geomeq_left_float, geomeq_raises, geomeq_none, geomeq_equivalence, geomeq_mixed, geomeq_sequence, geomeq_symmetric_refuted, geomeq_large_refuted, geomeq_transitive_refuted, geomeq_kinds_refuted
* `GeomFloat_Props`: fit_ratio, fit_largest, fit_size, map_point_fraction, map_point_inverse, map_point_compose, map_size_inverse, map_rect_corners, map_rect_inverse, map_degenerate, frect_contains, frect_intersect_points, frect_union_least, frect_intersects_iff, frect_moves, frect_double_refuted
* `GeomInt_Props`: geom_point_algebra, geom_size_algebra, geom_make_tuple, geom_eq_ne, geom_eq_truncates, geom_eq_points, geom_eq_fraction_refuted, geom_contains, geom_intersect_points, geom_intersect_laws, geom_intersect_edges, geom_union_points, geom_union_least, geom_union_encloses, geom_union_laws, geom_intersects_iff, geom_intersects_common, geom_intersects_sym, geom_touching_refuted, geom_translated, geom_inset_inverse, geom_inset_edges, geom_from_edges, geom_add_point, geom_add_is_translated, geom_add_negative_refuted, geom_floordiv_truncates, geom_floordiv_differs, geom_mul_exact, geom_floordiv_refuted
* `GeomMore_Props`: geommore_to_float, geommore_lattice, geommore_tests, geommore_moves, geommore_center, geommore_add, geommore_slice, geommore_slice_negative, geommore_aspect, geommore_aspect_compare, geommore_tuples, geommore_index, geommore_scaling, geommore_scaling_refuted
* `GeomPretty_Props`: pretty_shape, pretty_without_rounding, pretty_with_rounding, pretty_log_exists, pretty_log_rounded_up, pretty_collapse_refuted, pretty_range_covers, pretty_tick_count, pretty_range_equal, pretty_range_order, pretty_range_few_ticks, pretty_range_collapse_refuted, pretty_range_double_refuted, pretty_odd, pretty_monotone, pretty_scales, pretty_idempotent
* `ListModel_Props`: listmodel_observer_reconstructs, listmodel_call_notifies, listmodel_clear_last_to_first
* `LockOrder_Props`: lockorder_no_deadlock, lockorder_ends, lockorder_derived, lockorder_flattened_refuted, lockorder_upstream_refuted
* `LogTicker_Props`: logt_decades, logt_minor, logt_count, logt_labels
* `LoopClose_Props`: loopclose_rounds, loopclose_none, loopclose_gathered, loopclose_returns, loopclose_never, loopclose_quiet, loopclose_left_refuted
* `MapAttach_Props`: mapattach_mirrors, mapattach_inserted, mapattach_inserted_between, mapattach_removed_behind, mapattach_growing, mapattach_pending, mapattach_detach, mapattach_behind, mapattach_account, mapattach_stuck, mapattach_mirrors_refuted, mapattach_detach_refuted
* `MapFail_Props`: mapfail_observer, mapfail_balance, mapfail_none_right, mapfail_set, mapfail_detach, mapfail_attach, mapfail_stuck_forever, mapfail_left_out, mapfail_displaced_refuted, mapfail_stuck_refuted
* `Mapped_Props`: mapped_items_are_images, mapped_items_are_map, mapped_observer_reconstructs, mapped_selection_follows, mapped_called_once_per_item, mapped_unmapped_once, mapped_all_unmapped_at_none, mapped_blocks_bracketed
* `NetLife_Props`: netlife_counts, netlife_wanted, netlife_all_released, netlife_release, netlife_once, netlife_after, netlife_rest, netlife_consistent, netlife_lost_keeps, netlife_leak_refuted, netlife_zombie_refuted
* `Net_Props`: net_consistent, net_source, net_announced, net_fires_at_most, net_unreached, net_single_path, net_fires_exactly, net_same_value, net_exponential, net_glitch_refuted, net_raise_refuted
* `PersistCtx_Props`: ctx_registered, ctx_subscriber, ctx_subscription_dropped, ctx_event, ctx_raises, ctx_resubscribe_refuted
* `PersistDict_Props`: pd_round_trip, pd_round_trip_same, pd_deepcopy, pd_deepcopy_hidden_refuted, pd_stored, pd_stored_key, pd_default_refuted, pd_stored_none_refuted
* `PersistHeap_Props`: heap_storage, heap_modified, heap_unmodified, heap_forest, heap_set_context, heap_clear_context, heap_context_assert, heap_context_covers, heap_remove_clears, heap_add_covers, heap_set_item_old_refuted, heap_no_storage_refuted
* `PersistRead_Props`: pread_read, pread_clear, pread_history, pread_stale, pread_finish, pread_twice_refuted, pread_replaced_refuted, pread_halfway_refuted
* `PersistStore_Props`: persiststore_in_step, persiststore_reload, persiststore_no_raise, persiststore_tree, persiststore_replaced_refuted, persiststore_put_back_refuted, persiststore_key_refuted, persiststore_key_raises_refuted
* `PoolTask_Props`: task_started_once, task_finished_once, task_returned, task_inner_cancel_refuted, task_inner_execute_refuted
* `Pool_Props`: pool_once, pool_fifo, pool_removed, pool_closed, pool_close_returns, pool_second_close_refuted
* `Process_Props`: taskqueue_perform_fifo, taskqueue_unfinished_counts_raises, taskset_perform_latest, taskset_add_clear_latest, taskset_every_history, taskset_raise_loses_tasks_refuted
* `PromNet_Props`: promnet_values, promnet_kept, promnet_exclusive, promnet_no_deadlock, promnet_steps, promnet_turns, promnet_once, promnet_deadlock_refuted, promnet_recursion_refuted
* `Promise_Props`: promise_access_results, promise_calls_until_first_return, promise_raising_is_retried, promise_has_value_refuted
* `PropModel_Props`: pm_set, pm_history, sm_follows, sm_closed, fm_value, fm_count, fm_pending_zero, fm_raise_pending_refuted, fm_in_order, fm_finish_announces, fm_late_refuted
* `PropNet_Props`: propnet_told, propnet_stored, propnet_in_step, propnet_quiet, propnet_reread, propnet_chain, propnet_atomic_refuted, propnet_read_refuted, propnet_moment_refuted
* `PropShare_Props`: propshare_set, propshare_read, propshare_changes, propshare_live, propshare_live_refuted, propshare_callback_refuted, propshare_validate_refuted, propshare_default_refuted
* `RecLife_Props`: reclife_closed, reclife_close, reclife_closed_apply, reclife_self, reclife_self_closed, reclife_late, reclife_other, reclife_self_refuted, reclife_late_refuted
* `Recorder_Props`: rec_replay, rec_replay_same, rec_outside, rec_passed_over, rec_insert_front_refuted, rec_insert_front_later_refuted, rec_remove_front_refuted, rec_set_item_refuted, rec_clear_item_refuted, rec_nested_refuted, rec_nested_remove_refuted
* `Reent_Props`: reent_once, reent_last, reent_order, reent_list_follows, reent_filtered, reent_list_refuted, reent_filtered_refuted, reent_property_callback, reent_property_callback_refuted
* `RefCount_Props`: rc_hook_once_at_first_zero, rc_add_ref_recorded, rc_remove_ref_recorded, rc_remove_at_zero_raises
* `RefNet_Props`: refnet_count, refnet_safe, refnet_once, refnet_order, refnet_no_wait, refnet_finish, refnet_live, refnet_cycle_refuted
* `RegNet_Props`: regnet_once, regnet_in_turn, regnet_count, regnet_mirror, regnet_existing, regnet_mirror_refuted, regnet_threads_refuted, regnet_unnamed_refuted, regnet_existing_refuted, regnet_count_refuted
* `Registry_Props`: registry_views_agree_with_history, registry_register_succeeds, registry_register_all_or_nothing, registry_unregister_all_or_nothing, registry_unregister_types, registry_unregister_all_notifies_empty, registry_get_component, registry_fire_existing, registry_unregister_payload_refuted, registry_priority_refuted
* `SelRel_Props`: selrel_release, selrel_release_other, selrel_contents, selrel_exact, selrel_oldest_first, selrel_follows, selrel_left, selrel_follows_refuted, selrel_left_refuted, selrel_twice_refuted
* `SelShare_Props`: selshare_values, selshare_values_history, selshare_replaces, selshare_kept, selshare_compare, selshare_old, selshare_own, selshare_own_argument, selshare_style_restored, selshare_compare_refuted, selshare_view_refuted, selshare_own_refuted, selshare_style_refuted
* `Selection_Props`: sel_changed_event_exact, sel_shift_silent, sel_add_range_fires, sel_insert_follows_items, sel_remove_follows_items, sel_edits_follow_items, sel_edits_follow_anchor, sel_none_never_selects, sel_single_or_none_at_most_one, sel_single_at_most_one, sel_single_clear_effect, sel_single_at_most_one_refuted, sel_extend_interval, sel_extend_no_anchor, sel_extend_selects_refuted, sel_anchor_selected_history, sel_remove_anchor, sel_remove_index_anchor, sel_anchor_selected_refuted, sel_ordered_indexes, sel_multiple_set_operations, sel_toggle_involutive
* `SortFail_Props`: sortfail_observer, sortfail_master, sortfail_insert, sortfail_steady, sortfail_set, sortfail_mark, sortfail_change, sortfail_blocked, sortfail_uniform, sortfail_filter_refuted, sortfail_history_refuted, sortfail_hidden_refuted, sortfail_reverse_refuted, sortfail_mark_refuted, sortfail_lost_refuted, sortfail_selection_refuted
* `StreamThr_Props`: streamthr_once, streamthr_slots, streamthr_right, streamthr_repair, streamthr_stale_refuted, streamthr_told_refuted, streamthr_same_refuted
* `StreamTime_Props`: debounce_fires, debounce_delivered, debounce_input_waits, debounce_reaction_lost, debounce_closed, debounce_delivered_refuted, sample_value, sample_fires, sample_initial_lost_refuted, sample_interleaved, sample_only_inputs, sample_lost_refuted
* `Stream_Props`: vs_any_comparison, vs_fires, map_any_comparison, map_close, map_fires, map_of_value, combine_value, combine_fires, combine_close, concat_follows, concat_fires, concat_close, propstream_follows, propstream_fires, propstream_none_keeps, propstream_close, propstream_none_refuted
* `StructSeq_Props`: seq_as_list, seq_unlike_list, seq_clear_any, seq_clear_refuted
* `StructTree_Props`: tree_edit, tree_edit_possible, tree_all_hear, tree_closed, tree_made, tree_appends, tree_inserts, tree_remove, tree_insert_remove_refuted, attr_read, attr_missing, attr_assign, attr_shadow, attr_builtin
* `Struct_Props`: struct_roundtrip, struct_deepcopy, struct_copy_from, struct_default_prim, struct_default_field, struct_default_deepcopy_refuted, struct_default_array, struct_default_record, struct_float_raises, struct_float_record_refuted, struct_prim_array_refuted, struct_copy_from_none_refuted, struct_absent_record_refuted, array_appends, array_inserts, array_remove_ok, array_insert_remove_refuted, array_load_refuted
* `TaskThr_Props`: taskthr_queue_order, taskthr_queue_unfinished, taskthr_queue_exit, taskthr_queue_bound, taskthr_queue_over, taskthr_queue_running_refuted, taskthr_set_pending, taskthr_set_starts, taskthr_set_exit, taskthr_set_once, taskthr_set_over, taskthr_set_order_refuted
* `Ticker_Props`: ticker_labels, ticker_labels_distinct, ticker_value_label, ticker_value_label_exponent, ticker_negative_refuted, ticker_equal_refuted
* `Validator_Props`: validator_nearest, validator_laws

With axioms of the standard library's real numbers (18):

* `GeomRot_Props.rot_isometry`: `ClassicalDedekindReals.sig_not_dec`, `ClassicalDedekindReals.sig_forall_dec`, `FunctionalExtensionality.functional_extensionality_dep`
* `GeomRot_Props.rot_origin_fixed`: `ClassicalDedekindReals.sig_not_dec`, `ClassicalDedekindReals.sig_forall_dec`, `FunctionalExtensionality.functional_extensionality_dep`
* `GeomRot_Props.rot_keeps_radius`: `ClassicalDedekindReals.sig_not_dec`, `ClassicalDedekindReals.sig_forall_dec`, `FunctionalExtensionality.functional_extensionality_dep`
* `GeomRot_Props.rot_adds`: `ClassicalDedekindReals.sig_not_dec`, `ClassicalDedekindReals.sig_forall_dec`, `FunctionalExtensionality.functional_extensionality_dep`
* `GeomRot_Props.rot_inverse`: `ClassicalDedekindReals.sig_not_dec`, `ClassicalDedekindReals.sig_forall_dec`, `FunctionalExtensionality.functional_extensionality_dep`
* `GeomRot_Props.rot_full_turn`: `ClassicalDedekindReals.sig_not_dec`, `ClassicalDedekindReals.sig_forall_dec`, `FunctionalExtensionality.functional_extensionality_dep`
* `GeomRot_Props.rot_midpoint`: `ClassicalDedekindReals.sig_not_dec`, `ClassicalDedekindReals.sig_forall_dec`, `FunctionalExtensionality.functional_extensionality_dep`
* `GeomRot_Props.rot_quarter`: `ClassicalDedekindReals.sig_not_dec`, `ClassicalDedekindReals.sig_forall_dec`, `FunctionalExtensionality.functional_extensionality_dep`
* `GeomRot_Props.rot_size`: `ClassicalDedekindReals.sig_not_dec`, `ClassicalDedekindReals.sig_forall_dec`, `FunctionalExtensionality.functional_extensionality_dep`
* `GeomRot_Props.dist_symmetric`: `ClassicalDedekindReals.sig_not_dec`, `ClassicalDedekindReals.sig_forall_dec`, `FunctionalExtensionality.functional_extensionality_dep`
* `GeomRot_Props.dist_zero`: `ClassicalDedekindReals.sig_not_dec`, `ClassicalDedekindReals.sig_forall_dec`, `FunctionalExtensionality.functional_extensionality_dep`
* `GeomRot_Props.dist_midpoint`: `ClassicalDedekindReals.sig_not_dec`, `ClassicalDedekindReals.sig_forall_dec`, `FunctionalExtensionality.functional_extensionality_dep`
* `LogTicker_Props.logt_increasing`: `ClassicalDedekindReals.sig_not_dec`, `ClassicalDedekindReals.sig_forall_dec`, `FunctionalExtensionality.functional_extensionality_dep`, `Classical_Prop.classic`
* `LogTicker_Props.logt_labels_exact`: `ClassicalDedekindReals.sig_not_dec`, `ClassicalDedekindReals.sig_forall_dec`, `FunctionalExtensionality.functional_extensionality_dep`, `Classical_Prop.classic`
* `LogTicker_Props.logt_maximum`: `ClassicalDedekindReals.sig_not_dec`, `ClassicalDedekindReals.sig_forall_dec`, `FunctionalExtensionality.functional_extensionality_dep`, `Classical_Prop.classic`
* `LogTicker_Props.logt_minimum`: `ClassicalDedekindReals.sig_not_dec`, `ClassicalDedekindReals.sig_forall_dec`, `FunctionalExtensionality.functional_extensionality_dep`, `Classical_Prop.classic`
* `LogTicker_Props.logt_maximum_refuted`: `ClassicalDedekindReals.sig_not_dec`, `ClassicalDedekindReals.sig_forall_dec`, `FunctionalExtensionality.functional_extensionality_dep`, `Classical_Prop.classic`
* `LogTicker_Props.logt_equal_refuted`: `ClassicalDedekindReals.sig_not_dec`, `ClassicalDedekindReals.sig_forall_dec`, `FunctionalExtensionality.functional_extensionality_dep`, `Classical_Prop.classic`
