{"id": "C01", "title": "Selection change notification is exact", "statement": "Every call of clear, add, remove, set, set_multiple, toggle or extend on an IndexedSelection fires changed_event exactly once when the set of selected indexes after the call differs from the set before it, and not at all otherwise (also when the call raises). insert_index and remove_index never fire it. add_range fires it at least once if the set changed.", "quantifier": "every selection style, every selection state (any index set, any anchor), every argument", "why_tests_cant": "The set of reachable index sets/anchors/arguments is infinite; a test checks a few transitions.", "anchors": ["nion/utils/Selection.py: IndexedSelection.clear, add, remove, add_range, set_multiple, set, toggle, extend, insert_index, remove_index"]}
{"id": "C02", "title": "Selection follows the items through list insertions and removals", "statement": "After a list gets an item inserted at position k and insert_index(k) is called, the selected indexes are exactly the new positions of the previously selected items (the new item is not selected); after removal at k and remove_index(k), they are exactly the new positions of the previously selected items other than the removed one. The anchor moves with its item in the same way. This also holds for any sequence of insertions and removals.", "quantifier": "every list, every selected set, every position and every sequence of insertions/removals", "why_tests_cant": "Unbounded lists, positions and histories.", "anchors": ["nion/utils/Selection.py: IndexedSelection.insert_index, remove_index"]}
{"id": "C03", "title": "Selection style bounds the number of selected indexes", "statement": "In style none nothing is ever selected and in style single_or_none at most one index is ever selected, for every history of operations. In style single the at-most-one bound holds for every history in which clear (directly or through set_multiple with other than one index) is not invoked while an index other than 0 is selected; invoked on selection S in style single, clear leaves exactly S union {0}, so on any other S the bound is really lost (defect).", "quantifier": "every history of public operations from a new selection, every style", "why_tests_cant": "A safety invariant over all histories.", "anchors": ["nion/utils/Selection.py: IndexedSelection, Style"]}
{"id": "C04", "title": "extend selects exactly the interval from the anchor", "statement": "In style multiple, extend(i) with anchor a adds exactly the integers between a and i inclusive to the selection when i differs from a, keeps the anchor and removes nothing; with no anchor it adds i and makes it the anchor; with i equal to a it changes nothing - in particular after the anchored index has been removed, extending to it does not select it (defect).", "quantifier": "every selection, anchor and index (either direction, any distance)", "why_tests_cant": "Unbounded distances and states.", "anchors": ["nion/utils/Selection.py: IndexedSelection.extend"]}
{"id": "C05", "title": "The anchor is a selected index unless something was removed", "statement": "For every history of add, add_range, set, set_multiple, toggle-on, extend, clear and insert_index from a new selection in any style, the anchor is None exactly when nothing is selected and is a selected index otherwise. remove and remove_index can leave an anchor that is not selected (defect): after remove(i) of the anchor it becomes the least of the old anchor and the remaining indexes.", "quantifier": "every history; every state for the effect of remove", "why_tests_cant": "History invariant; needs every interleaving of operations.", "anchors": ["nion/utils/Selection.py: IndexedSelection.__update_anchor_index, remove, remove_index, anchor_index"]}
{"id": "C06", "title": "ordered_indexes lists the selection once, sorted, anchor first", "statement": "ordered_indexes contains every selected index exactly once; it is ascending except that the anchor, if it is selected, is moved to the front.", "quantifier": "every selection state", "why_tests_cant": "Every set of integers and every anchor.", "anchors": ["nion/utils/Selection.py: IndexedSelection.ordered_indexes"]}
{"id": "C07", "title": "Selection operations are the set operations they name", "statement": "In style multiple: add(i) gives S union {i}, set(i) gives {i}, set_multiple(X) gives X, clear gives the empty set, remove(i) gives S minus {i} when i is selected and otherwise raises KeyError and changes nothing, toggle twice gives back the same index set.", "quantifier": "every selection, every index and index set", "why_tests_cant": "Infinite state space.", "anchors": ["nion/utils/Selection.py: IndexedSelection.add, set, set_multiple, clear, remove, toggle"]}
{"id": "C08", "title": "A list observer can reconstruct the list", "statement": "Starting from a copy of the items and applying the item_inserted / item_removed notifications with the same indexes to a Python list always gives the current items, for any sequence of insert_item, append_item, remove_item and clear_items, including negative and out-of-range indexes; the notified value is the inserted or removed item; a remove_item with an invalid index raises IndexError, notifies nothing and changes nothing; clear_items removes from last to first and leaves the list empty.", "quantifier": "every list and every history of operations with arbitrary integer indexes", "why_tests_cant": "Arbitrary histories and index values.", "anchors": ["nion/utils/ListModel.py: ListModel.insert_item, remove_item, append_item, clear_items"]}
{"id": "C09", "title": "Filters compose as boolean logic and survive deep copy", "statement": "AndFilter matches iff every sub-filter matches (true when empty), OrFilter iff some sub-filter matches (false when empty), NotFilter negates, to any nesting depth and with left-to-right short circuit; a deep copy of any filter tree containing no TextFilter matches exactly the same objects. A deep-copied TextFilter raises AttributeError on matching (defect).", "quantifier": "every filter tree (any depth and width), every object", "why_tests_cant": "Unbounded trees.", "anchors": ["nion/utils/ListModel.py: Filter, AndFilter, OrFilter, NotFilter, EqFilter, NotEqFilter, StartsWithFilter, TextFilter, PartialDateFilter, PredicateFilter"]}
{"id": "C10", "title": "Filtered list notifications reconstruct the filtered list", "statement": "Applying the indexes of a FilteredListModel's item_inserted / item_removed notifications to a copy of its items always gives its current items, for every history of container inserts/removes, item content changes, filter, sort key, sort order and container changes and nested begin/end change blocks, and whatever order Python iterates sets in.", "quantifier": "every history, every filter and sort key, every set iteration order", "why_tests_cant": "Unbounded histories and nondeterministic set order.", "anchors": ["nion/utils/ListModel.py: FilteredListModel.__insert_item, __remove_item, __update_items, __updated_master_item"]}
{"id": "C11", "title": "An unsorted filtered list is the filtered container, in container order", "statement": "With no sort key and sort_reverse False, whenever no change block is open the filtered list's items are exactly the container's items that match the filter, in container order, for every history of container inserts/removes, content changes, filter changes and change blocks in which no item is both removed and re-inserted inside one change block.", "quantifier": "every history satisfying the stated condition", "why_tests_cant": "Invariant over all histories.", "anchors": ["nion/utils/ListModel.py: FilteredListModel.__find_unsorted_index_for_item, __build_items, __update_items"]}
{"id": "C12", "title": "A sorted filtered list is a sorted permutation of the filtered container", "statement": "With a sort key, whenever no change block is open the items are a permutation of the container's items that match the filter and are ordered by the key (descending when sort_reverse), for every history of container inserts/removes, filter/sort changes, change blocks and content changes that do not change the sort key of a listed item.", "quantifier": "every history, any strict weak order on keys, both directions", "why_tests_cant": "Binary-search insertion must be right for every list and key.", "anchors": ["nion/utils/ListModel.py: FilteredListModel.__find_sorted_index_for_item, __insert_item, __update_items"]}
{"id": "C13", "title": "Sorted position after an item's sort key changes", "statement": "When a listed item's sort key changes and item_changed_event fires, the list is sorted again whenever the binary search over the (now possibly unsorted) list does not return the item's own old index; when it does return that index the item stays where it was even if that leaves the list unsorted (defect, with a three element witness).", "quantifier": "every sorted list, every item and new key", "why_tests_cant": "The search path depends on list length and key in unboundedly many ways.", "anchors": ["nion/utils/ListModel.py: FilteredListModel.__updated_master_item"]}
{"id": "C14", "title": "Change blocks: final state and the two ways they go wrong", "statement": "end_change at nesting level zero rebuilds the list correctly whenever the retained items were already in the right order. Re-inserting a removed item elsewhere in one change block leaves an unsorted list in the old order, and with sort_reverse True and no sort key items inserted in a change block are misplaced (defects, with witnesses).", "quantifier": "every list and change block satisfying the condition; witnesses for the defects", "why_tests_cant": "Unbounded change blocks.", "anchors": ["nion/utils/ListModel.py: FilteredListModel.begin_change, end_change, __update_items"]}
{"id": "C15", "title": "Filtered list begin/end change events bracket every notification", "statement": "For every history, begin_changes_event and end_changes_event of a filtered list are balanced and properly nested, and every item_inserted / item_removed notification happens between a begin and its end.", "quantifier": "every history", "why_tests_cant": "Trace property over all histories.", "anchors": ["nion/utils/ListModel.py: FilteredListModel.__insert_item, __remove_item, __update_items"]}
{"id": "C16", "title": "Removal notifications name the removed item except on full rebuilds", "statement": "Every item_removed notification of a filtered list outside a full rebuild carries the item that was at the notified index. On a full rebuild the notifications carry the items in forward order with descending indexes, so the value matches the item at the index only at the middle of the list (defect).", "quantifier": "every list, every history", "why_tests_cant": "Needs every list length.", "anchors": ["nion/utils/ListModel.py: FilteredListModel.__update_items"]}
{"id": "C17", "title": "A selection made by a filtered list tracks container positions", "statement": "The selection attached to a filtered list is shifted by container positions, so it follows the same items when filter accepts everything and no sort key is set, but not in general (defect, with witness).", "quantifier": "every history of container inserts/removes without filter and sort; witness otherwise", "why_tests_cant": "Histories are unbounded.", "anchors": ["nion/utils/ListModel.py: FilteredListModel.__item_inserted, __item_removed, make_selection"]}
{"id": "C18", "title": "A mapped list is the map of its container", "statement": "The items of a MappedListModel are, position by position, the results of map_fn on the container's items, its notifications reconstruct it, and its selections follow the items, for every history of container inserts, removes and container changes.", "quantifier": "every history with in-range indexes, every map function", "why_tests_cant": "Invariant over all histories.", "anchors": ["nion/utils/ListModel.py: MappedListModel.__master_item_inserted, __master_item_removed, container"]}
{"id": "C19", "title": "Mapped items are mapped once and unmapped once", "statement": "map_fn is called exactly once for each item inserted in the container, unmap_fn is called exactly once with exactly the mapped object that is removed, and after the container is set to None every mapped object has been unmapped.", "quantifier": "every history, every map/unmap function", "why_tests_cant": "Resource pairing over all histories.", "anchors": ["nion/utils/ListModel.py: MappedListModel.__master_item_inserted, __master_item_removed, close"]}
{"id": "C20", "title": "A flattened list is the concatenation of the children", "statement": "The items of a FlattenedListModel are the concatenation of the child lists of the container's items in container order, and its notifications reconstruct it, for every history of in-range master and child inserts and removes.", "quantifier": "every history with in-range indexes", "why_tests_cant": "Offset arithmetic must be right for every shape.", "anchors": ["nion/utils/ListModel.py: FlattenedListModel.__master_item_inserted, __master_item_removed, __child_item_inserted, __child_item_removed"]}
{"id": "C21", "title": "A flattened list's selection is shifted by the wrong offset on insert", "statement": "On child removal the selection of a flattened list is shifted at the flattened index and follows the items; on child insertion it is shifted at the child-local index, which follows the items exactly when the two indexes coincide or no selected index lies between them (defect otherwise, with witness).", "quantifier": "every shape, selection and child position", "why_tests_cant": "Unbounded shapes.", "anchors": ["nion/utils/ListModel.py: FlattenedListModel.__child_item_inserted, __child_item_removed"]}
{"id": "C22", "title": "fire calls the open listeners once each in registration order", "statement": "fire, with handlers that do arbitrary things to the event (listen, close, drop tokens), calls listeners registered before the fire, each at most once, in registration order; a listener is skipped exactly when it was closed before its turn; listeners added during the fire are not called by it; dropping a token during the fire does not prevent the call.", "quantifier": "every listener list, every handler behaviour", "why_tests_cant": "Handlers are arbitrary programs; reentrancy is unbounded.", "anchors": ["nion/utils/Event.py: Event.listen, Event.fire, EventListener.close"]}
{"id": "C23", "title": "A raising listener stops the fire and is not propagated", "statement": "If a listener raises, no later listener is called in that fire, the exception does not reach the caller of fire, and the effects of the earlier listeners remain.", "quantifier": "every listener list and handler behaviour", "why_tests_cant": "Any position and any handlers.", "anchors": ["nion/utils/Event.py: Event.fire"]}
{"id": "C24", "title": "fire_any and fire_all results", "statement": "With at least one registered listener and no exception, fire_any returns True iff some open listener returns a true value and stops there, otherwise False; fire_all returns False iff some registered listener returns a false value and stops there, otherwise True (a closed but not dropped listener counts as returning None). With no listener registered, or when a listener raises, both return None - so fire_all's documented True is not delivered (defect).", "quantifier": "every listener list and handler behaviour", "why_tests_cant": "Any number of listeners and results.", "anchors": ["nion/utils/Event.py: Event.fire_any, Event.fire_all"]}
{"id": "C25", "title": "Listener lifetime: token, close and owner", "statement": "A listener stays registered exactly while its token is held or its owner is alive, is never called again after close, and is closed when its owner goes away, for every history of listen, close, token drop and owner death.", "quantifier": "every history", "why_tests_cant": "All interleavings of lifetimes.", "anchors": ["nion/utils/Event.py: Event.listen, EventListener.close"]}
{"id": "C26", "title": "Registry lookups agree with registrations", "statement": "After any history of register and unregister calls, a component is listed under a type iff it is recorded as having that type, iff it was registered for the type and not unregistered since.", "quantifier": "every history of calls with arbitrary components and type sets, including failing calls", "why_tests_cant": "Two maps must stay consistent over all histories.", "anchors": ["nion/utils/Registry.py: ComponentManager.register, unregister, get_components_by_type"]}
{"id": "C27", "title": "Registry calls are all-or-nothing", "statement": "register raises AssertionError and changes nothing and notifies nothing when the component already has one of the types; unregister raises and changes nothing when the component lacks one of the types or is unknown; otherwise exactly the given types are added or removed and one notification is fired.", "quantifier": "every state and argument", "why_tests_cant": "All states.", "anchors": ["nion/utils/Registry.py: ComponentManager.register, unregister"]}
{"id": "C28", "title": "Unregistering everything notifies with an empty type set", "statement": "unregister_component with explicit types notifies with exactly these types. Without types the component is removed from all its types, but the notification carries the now empty internal set instead of the removed types (defect).", "quantifier": "every registry state and component", "why_tests_cant": "All states; the defect is an aliasing effect.", "anchors": ["nion/utils/Registry.py: ComponentManager.unregister"]}
{"id": "C29", "title": "get_component returns a matching component but not by priority", "statement": "get_component returns None iff no component has the type and otherwise a component of that type, the first in set iteration order; the documented priority order is not used, so a lower priority component can be returned (defect).", "quantifier": "every registry state, every set iteration order", "why_tests_cant": "Nondeterministic set order.", "anchors": ["nion/utils/Registry.py: get_component"]}
{"id": "C30", "title": "about_to_delete runs at most once, exactly on the first checked drop to zero", "statement": "For every sequence of add_ref / remove_ref(check) the count equals successful adds minus successful removes and is never negative, a remove_ref at zero raises AssertionError and changes nothing, and about_to_delete is called exactly at the first remove_ref with check that brings the count to zero, at most once ever, even if about_to_delete itself adds and removes references.", "quantifier": "every history, every about_to_delete behaviour on the same object", "why_tests_cant": "Unbounded histories and reentrancy.", "anchors": ["nion/utils/ReferenceCounting.py: ReferenceCounted.add_ref, remove_ref, ref_count, about_to_delete"]}
{"id": "C31", "title": "perform_tasks of a task queue runs exactly the pending tasks in FIFO order", "statement": "perform_tasks runs exactly the tasks that were queued when it was called, once each, in FIFO order; tasks queued meanwhile stay queued in order for the next call; if a task raises, the exception propagates, the later tasks stay queued in order, and the raising task is never marked done (so a join would not return).", "quantifier": "every queue, every task behaviour (queueing any tasks, raising or not)", "why_tests_cant": "Tasks are arbitrary and queues unbounded.", "anchors": ["nion/utils/Process.py: TaskQueue.perform_tasks, clear_tasks"]}
{"id": "C32", "title": "A task set runs the latest task of every key once", "statement": "perform_tasks of a TaskSet runs, for every key with a pending task, exactly the task last added for that key, once; keys cleared since are not run; tasks added while performing stay for the next call. If a task raises, the tasks after it in this round are lost (defect).", "quantifier": "every history of add_task, clear_task, perform_tasks with tasks that add and clear tasks", "why_tests_cant": "Unbounded histories.", "anchors": ["nion/utils/Process.py: TaskSet.add_task, clear_task, perform_tasks"]}
{"id": "C33", "title": "A promise evaluates its function once", "statement": "Over any sequence of value, opt_value and has_value accesses the function is called until it first returns and never again; value then always returns that result; opt_value and has_value never call it; has_value is false after evaluation when the result is None; a raising evaluation propagates and is retried on the next access.", "quantifier": "every access sequence, every sequence of function outcomes", "why_tests_cant": "Unbounded access histories.", "anchors": ["nion/utils/Promise.py: Promise.value, opt_value, has_value"]}
{"id": "C34", "title": "The integer range validator clamps", "statement": "With min <= max (either may be absent) validate returns the nearest value in range, leaves values in range unchanged and is idempotent and monotone; with min > max it returns max for every input.", "quantifier": "every bound pair and value", "why_tests_cant": "All integers.", "anchors": ["nion/utils/Validator.py: IntegerRangeValidator.validate"]}
{"id": "C35", "title": "Integer to string and back is the identity", "statement": "convert_back(convert(n)) = n for every integer with the default format; every decimal string that convert_back accepts is mapped to its integer value.", "quantifier": "all integers", "why_tests_cant": "Infinite domain.", "anchors": ["nion/utils/Converter.py: IntegerToStringConverter"]}
{"id": "C36", "title": "Scaled integer conversion loses at most one step", "statement": "In exact arithmetic, with n > 0 and min < max, convert maps [min, max] onto 0..n, convert_back(convert(v)) lies within one step (max-min)/n below-or-at v for v in range, and convert(convert_back(k)) = k for every integer k. In IEEE double arithmetic the last equality fails (defect: n=100, k=29).", "quantifier": "all n, min, max, values and positions (exact arithmetic); one double precision witness", "why_tests_cant": "Infinite domain.", "anchors": ["nion/utils/Converter.py: FloatToScaledIntegerConverter"]}
{"id": "C37", "title": "Percent strings", "statement": "In exact arithmetic convert(convert_back(k followed by %)) gives back the same string for every integer k; in IEEE double arithmetic it does not (defect: 29%).", "quantifier": "all integers k (exact); one double precision witness", "why_tests_cant": "Infinite domain.", "anchors": ["nion/utils/Converter.py: FloatToPercentStringConverter"]}
{"id": "C38", "title": "UUID to string and back", "statement": "For every 128-bit UUID, convert_back(convert(u)) = u if u has version 4 and the RFC 4122 variant, and None otherwise; convert_back on any string returns a UUID iff the stripped string has the canonical 8-4-4-4-12 form of such a UUID in any letter case.", "quantifier": "all 2^128 UUIDs, all strings", "why_tests_cant": "2^128 values.", "anchors": ["nion/utils/Converter.py: UuidToStringConverter"]}
{"id": "C39", "title": "Datetime to string and back", "statement": "convert_back(convert(d)) = d for every valid naive datetime with microseconds; a string of any other length than 19 or 26, in particular the text of a datetime with a UTC offset of whole minutes, gives None.", "quantifier": "all valid datetimes", "why_tests_cant": "About 3*10^17 values.", "anchors": ["nion/utils/Converter.py: DatetimeToStringConverter"]}
{"id": "C40", "title": "Fuzzy float parsing", "statement": "In a locale with decimal point '.', the fuzzy convert_back of any ASCII string without comma in the matched prefix never raises and returns the value of the longest leading number (0.0 if none); a matched comma raises ValueError (defect).", "quantifier": "all ASCII strings", "why_tests_cant": "Infinite domain.", "anchors": ["nion/utils/Converter.py: FloatToStringConverter.convert_back, PhysicalValueToStringConverter.convert_back"]}
{"id": "C41", "title": "Check state conversion", "statement": "convert and convert_back between booleans and check state strings are inverse; every other string converts back to False.", "quantifier": "all booleans and strings", "why_tests_cant": "All strings.", "anchors": ["nion/utils/Converter.py: CheckedToCheckStateConverter"]}
{"id": "C42", "title": "Integer point and size algebra", "statement": "IntPoint and IntSize addition, subtraction and negation are componentwise and satisfy the abelian group laws; point - size + size is the point; tuple conversion and make are inverse; == and != are complementary; comparison with a float tuple truncates (so (1.5, 2.5) equals IntPoint(1, 2)).", "quantifier": "all integers", "why_tests_cant": "Infinite domain.", "anchors": ["nion/utils/Geometry.py: IntPoint, IntSize"]}
{"id": "C43", "title": "Rectangle intersection is set intersection", "statement": "A point is contained in r1.intersect(r2) iff it is contained in both, for all integer rectangles including empty and negative ones; intersect is commutative, associative and idempotent on edges.", "quantifier": "all integer rectangles and points", "why_tests_cant": "Infinite domain.", "anchors": ["nion/utils/Geometry.py: IntRect.intersect, contains_point, from_tlbr"]}
{"id": "C44", "title": "Rectangle union is the bounding box", "statement": "r1.union(r2) contains every point of both rectangles and is contained in every rectangle whose edges enclose both.", "quantifier": "all integer rectangles and points", "why_tests_cant": "Infinite domain.", "anchors": ["nion/utils/Geometry.py: IntRect.union"]}
{"id": "C45", "title": "intersects_rect counts touching edges", "statement": "For rectangles of non-negative size intersects_rect is true iff the closed rectangles share a point; so it is true whenever they share a contained point, symmetric, and also true for rectangles that merely touch (no common contained point).", "quantifier": "all integer rectangles", "why_tests_cant": "Infinite domain.", "anchors": ["nion/utils/Geometry.py: IntRect.intersects_rect"]}
{"id": "C46", "title": "Moving and insetting rectangles", "statement": "translated moves every edge and keeps the size, and containment moves with it; inset(d) then inset(-d) is the identity; from_tlbr/from_tlhw give back the edges; r + p equals r.translated(p) for every rectangle of non-negative size, and is off by one for negative odd sizes.", "quantifier": "all integer rectangles and offsets (sizes up to 2^53 for the float half-size)", "why_tests_cant": "Infinite domain.", "anchors": ["nion/utils/Geometry.py: IntRect.translated, inset, from_tlbr, from_tlhw, from_center_and_size, __add__, __sub__, center"]}
{"id": "C47", "title": "Integer size scaling truncates toward zero", "statement": "IntSize // k is componentwise division truncated toward zero (so it differs from Python floor division exactly when the signs differ and the division is inexact), for components up to 2^53.", "quantifier": "all integer components within double precision and non-zero divisors", "why_tests_cant": "Infinite domain.", "anchors": ["nion/utils/Geometry.py: IntSize.__floordiv__, __mul__"]}
{"id": "C48", "title": "Pretty numbers", "statement": "In exact arithmetic make_pretty of a non-zero value returns sign(value) times 1, 2, 5 or 10 times the power of ten below |value|; without rounding the result is at least |value| in magnitude and less than 2.5 times it; with rounding it is within a factor 2 of |value|. If log10 is rounded up across a power of ten for |value| < 10, the result collapses to 0 (defect).", "quantifier": "all non-zero rationals; both roundings of log10 at a power of ten", "why_tests_cant": "Infinite domain.", "anchors": ["nion/utils/Geometry.py: make_pretty, make_pretty2"]}
{"id": "C49", "title": "Pretty ranges cover the data with evenly spaced ticks", "statement": "In exact arithmetic, for value_low < value_high and ticks >= 2, make_pretty_range2 returns minimum <= value_low and maximum >= value_high, both multiples of the division and less than one division outside, and the tick values are minimum, minimum + division, ..., maximum. Equal values give the single tick. The result does not depend on the order of the two values.", "quantifier": "all rational ranges and tick counts", "why_tests_cant": "Infinite domain.", "anchors": ["nion/utils/Geometry.py: make_pretty_range2, make_pretty_range, LinearTicker"]}
{"id": "C50", "title": "fit_to_aspect_ratio", "statement": "In exact arithmetic, for a rectangle of positive size and a positive aspect ratio the fitted rectangle has that aspect ratio, lies inside the rectangle, has the same center and touches two opposite sides.", "quantifier": "all rational rectangles and ratios", "why_tests_cant": "Infinite domain.", "anchors": ["nion/utils/Geometry.py: fit_to_aspect_ratio, fit_to_size"]}
{"id": "C51", "title": "Coordinate mapping is invertible", "statement": "In exact arithmetic map_point, map_size and map_rect from frame f to frame t followed by mapping from t to f give back the original; mapping sends the corners of f to the corners of t; mapping composes.", "quantifier": "all rational points, sizes and frames of non-zero size", "why_tests_cant": "Infinite domain.", "anchors": ["nion/utils/Geometry.py: map_point, map_size, map_rect"]}
{"id": "C52", "title": "Rotation is a rigid motion", "statement": "In exact real arithmetic FloatPoint.rotate keeps the distance to the origin point, rotating by a then by b equals rotating by a+b, rotating back by -a restores the point, and the size rotation keeps the diagonal length.", "quantifier": "all real points, origins and angles", "why_tests_cant": "Infinite domain.", "anchors": ["nion/utils/Geometry.py: FloatPoint.rotate, FloatSize.rotate"]}
{"id": "C53", "title": "Property binding keeps target and source in step", "statement": "After every change notification of the bound property the target has been set to the converted source value (the fallback when the source value is None), which is what get_target_value returns; update_source stores the validated back-converted value; notifications for other properties do not touch the target; after close nothing is written to source or target and nothing is read.", "quantifier": "every history of source changes, target updates and close; every converter, validator and fallback", "why_tests_cant": "Arbitrary converters and histories.", "anchors": ["nion/utils/Binding.py: Binding, PropertyBinding"]}
{"id": "C54", "title": "Tuple binding changes only its own element", "statement": "update_source through a TuplePropertyBinding with index i sets element i, keeps every other element and pads with None up to i; reading back gives the value; two bindings with different non-negative indexes do not disturb each other.", "quantifier": "every tuple (or None), index and value", "why_tests_cant": "Unbounded tuples and indexes.", "anchors": ["nion/utils/Binding.py: TuplePropertyBinding"]}
{"id": "C55", "title": "Attribute binding changes only its own attribute", "statement": "update_source through a PropertyAttributeBinding sets the named attribute of the property object, keeps all other attributes, and re-assigns the property so that a notification is sent; the target then receives the converted value.", "quantifier": "every attribute map, attribute and value", "why_tests_cant": "Unbounded objects.", "anchors": ["nion/utils/Binding.py: PropertyAttributeBinding"]}
{"id": "C56", "title": "List binding mirrors the list", "statement": "A target list maintained only by the inserter and remover callbacks of a ListBinding equals the source list after every history, ignores notifications with other keys, and receives nothing after close.", "quantifier": "every history", "why_tests_cant": "Unbounded histories.", "anchors": ["nion/utils/Binding.py: ListBinding"]}
{"id": "C57", "title": "Property model notifies exactly on change", "statement": "Setting PropertyModel.value notifies 'value' and calls on_value_changed exactly once when the new value differs (by cmp; None only equals None) and otherwise leaves value and observers untouched.", "quantifier": "every history of values and every comparison function", "why_tests_cant": "Unbounded histories.", "anchors": ["nion/utils/Model.py: PropertyModel.value"]}
{"id": "C58", "title": "A stream value model mirrors its stream", "statement": "A StreamValueModel's value equals (by cmp) the last value of its stream after every history; after close it no longer changes and the stream's reference is released exactly once.", "quantifier": "every stream history", "why_tests_cant": "Unbounded histories.", "anchors": ["nion/utils/Model.py: StreamValueModel"]}
{"id": "C59", "title": "Asynchronous function model ends on the last finished evaluation", "statement": "A FuncStreamValueModel's value is that of the evaluation that finished last, under every completion order; it equals the value of the most recent function when evaluations finish in order, but an older evaluation finishing late overwrites a newer one (defect). The pending count returns to zero exactly when all evaluations finished normally; an evaluation that raises leaves it positive for ever (defect).", "quantifier": "every number of functions, every completion order, every subset that raises", "why_tests_cant": "All schedules.", "anchors": ["nion/utils/Model.py: FuncStreamValueModel"]}
{"id": "C60", "title": "Value and map streams", "statement": "A ValueStream fires exactly when the value changes; a MapStream's value is always the function of its source's value, and it fires exactly the changes of that value, so consecutive fired values differ.", "quantifier": "every history of source values, every function", "why_tests_cant": "Unbounded histories.", "anchors": ["nion/utils/Stream.py: ValueStream, MapStream"]}
{"id": "C61", "title": "Combined streams hold the function of the latest inputs", "statement": "A CombineLatestStream's value is value_fn of the current values of all inputs after every history of input changes, and it fires once per input change with that value.", "quantifier": "every number of inputs, every history", "why_tests_cant": "Unbounded histories and arity.", "anchors": ["nion/utils/Stream.py: CombineLatestStream"]}
{"id": "C62", "title": "Concatenated stream follows only the current inner stream", "statement": "A ConcatStream's value is that of the inner stream made for the latest true input (None for a false input); values of earlier inner streams are ignored; exactly the current inner stream holds a reference, and after close none.", "quantifier": "every history of outer and inner changes", "why_tests_cant": "Unbounded histories.", "anchors": ["nion/utils/Stream.py: ConcatStream"]}
{"id": "C63", "title": "Property stream follows the current source object", "statement": "A PropertyChangedEventStream's value is the current source object's property value after every history of property changes and source changes to objects; when the source becomes None the previous value is kept (defect); it fires exactly when its value changes.", "quantifier": "every history", "why_tests_cant": "Unbounded histories.", "anchors": ["nion/utils/Stream.py: PropertyChangedEventStream"]}
{"id": "C64", "title": "Debounce delivers the latest value", "statement": "For every schedule of input values and timer expiries, a DebounceStream fires only input values, each fired value is the latest input at that moment, and whenever no delay is pending the last fired value is the latest input - unless a listener changes the input during the fire, in which case that value is never fired (defect).", "quantifier": "every schedule", "why_tests_cant": "All schedules.", "anchors": ["nion/utils/Stream.py: DebounceStream"]}
{"id": "C65", "title": "Sample delivers the latest value but loses the initial one", "statement": "For every schedule in which the input has changed at least once, after each sample the SampleStream's value is the latest input value, and it fires at most once per period and only when the input was set since the previous sample. If the input never changed, the first sample replaces the initial value by None and fires None (defect); with the input set from another thread an update between the dirty flag and the pending value can be lost (defect).", "quantifier": "every schedule, including thread interleavings of the two writes", "why_tests_cant": "All schedules.", "anchors": ["nion/utils/Stream.py: SampleStream"]}
{"id": "C66", "title": "Structured models round-trip through dict values", "statement": "For every schema built from string/boolean/int fields, records and arrays of records (any nesting) without defaults, to_dict_value of build_model(schema, value=v) is v for every conforming v, a deepcopy has an equal dict value, and copy_from gives an equal dict value when every primitive field of the source is set. A field that is None in the source keeps the target's value in copy_from, and a nested record left out of the value comes back as an empty dict (defects).", "quantifier": "every schema of this kind (any depth), every conforming value", "why_tests_cant": "Unbounded schemas.", "anchors": ["nion/utils/StructuredModel.py: build_model, build_value, RecordModel, ArrayModel"]}
{"id": "C67", "title": "Field defaults override supplied values", "statement": "For a primitive field with a default, the built model holds the default whatever value is supplied, so values given to build_model and the current values in a deepcopy are lost for such fields (defect); without a default the supplied value is held. For arrays the supplied value takes precedence, and for records the merge does.", "quantifier": "every field schema, default and value", "why_tests_cant": "All values.", "anchors": ["nion/utils/StructuredModel.py: build_model, RecordModel.__deepcopy__"]}
{"id": "C68", "title": "Array of records: change propagation", "statement": "model_changed_event of an array fires once for every change inside a contained record as long as records were only appended and removed anywhere; inserting before the end and then removing disconnects a record that is still contained and leaves a removed one connected (defect).", "quantifier": "every history of inserts and removes", "why_tests_cant": "Unbounded histories.", "anchors": ["nion/utils/StructuredModel.py: ArrayModel.notify_insert_item, notify_remove_item"]}
{"id": "C69", "title": "Operations that always raise", "statement": "build_model of the library's own FLOAT type raises AttributeError; to_dict_value of a non-empty array of primitives raises AttributeError; the library's define_float therefore cannot be used in any record schema (defects).", "quantifier": "every schema containing such a field, every value", "why_tests_cant": "All schemas.", "anchors": ["nion/utils/StructuredModel.py: FLOAT, define_float, build_model, ArrayModel.to_dict_value"]}
{"id": "C70", "title": "Persistent objects round-trip through dicts", "statement": "Reading the dict written by write_to_dict into a freshly made object of the same type gives an object with equal uuid, properties, items and relationships, to any nesting depth, provided storage keys are distinct and not reserved, converters are inverse, and no property with a non-None default has been set to None (for that case the default comes back: defect).", "quantifier": "every object tree (any depth and width)", "why_tests_cant": "Unbounded trees.", "anchors": ["nion/utils/Persistence.py: PersistentObject.write_to_dict, read_from_dict, PersistentProperty.read_from_dict, write_to_dict"]}
{"id": "C71", "title": "Modification counts propagate to all ancestors", "statement": "Every property set, item set, item insert and item remove on an object increments modified_count of that object and of each of its ancestors by exactly one and of no other object.", "quantifier": "every object forest and every history", "why_tests_cant": "Unbounded depth.", "anchors": ["nion/utils/Persistence.py: PersistentObject.__update_modified"]}
{"id": "C72", "title": "Storage mirrors property values", "statement": "With a storage handler that stores set_property and deletes on clear_property, the stored dict equals what write_to_dict would write for the properties after every history of property sets, provided key equals name for each property; a property with a different storage key that is set to None leaves its old value in storage (defect).", "quantifier": "every history of property sets", "why_tests_cant": "Unbounded histories.", "anchors": ["nion/utils/Persistence.py: PersistentObject._update_persistent_object_context_property"]}
{"id": "C73", "title": "Registration and subscription", "statement": "After any history of register / unregister / subscribe, get_registered_object returns the last registered and not unregistered object of a uuid; a subscriber is told of the object immediately if it is registered and at each later registration, and of its unregistration once - after which the subscription is gone.", "quantifier": "every history", "why_tests_cant": "Unbounded histories.", "anchors": ["nion/utils/Persistence.py: PersistentObjectContext.register, unregister, subscribe, get_registered_object"]}
{"id": "C74", "title": "The context covers exactly the object tree", "statement": "Setting the persistent_object_context of a root sets it on, and registers exactly once, every object below it, to any depth; setting it to None unregisters all of them; inserting or removing an item does the same for its subtree (with a storage handler that sets the item's context). An object replaced by set_item keeps parent, context and registration (defect).", "quantifier": "every object tree", "why_tests_cant": "Unbounded trees.", "anchors": ["nion/utils/Persistence.py: PersistentObject.persistent_object_context, insert_item, remove_item"]}
{"id": "C75", "title": "Storage of an object is that of its nearest registered ancestor", "statement": "The storage handler used for an object is its own if it has one, otherwise that of the nearest ancestor that has one, otherwise None.", "quantifier": "every parent chain", "why_tests_cant": "Unbounded depth.", "anchors": ["nion/utils/Persistence.py: PersistentObjectContext._get_persistent_storage_for_object"]}
{"id": "C76", "title": "Replaying a recording", "statement": "Applying a Recorder's log to an object equal to the recorded object at the start of recording gives, without raising, an object like the recorded one is at that time (the same, if only recordable properties were set; otherwise the others keep what they had or were copied with), for every history in which any properties are set, items go into and out of recorded objects at the end of relationships only, objects put in while recording are not themselves put into or taken out of afterwards, and objects outside are changed freely. An insert or a removal before the end, setting or clearing an item, and setting a property that is not recordable log nothing (the first three are defects); what is put into an inserted object is replayed twice and what is taken out of it makes replay raise (defects).", "quantifier": "every object tree, every history, every moment of replay", "why_tests_cant": "Unbounded trees and histories; what is copied depends on later changes.", "anchors": ["nion/utils/Recorder.py: Recorder"]}
{"id": "C77", "title": "A pool task runs at most once and never after cancel", "statement": "Under every interleaving of any number of threads calling execute and cancel on a ThreadPoolTask, its function is started at most once, never after a cancel returned, cancel returns only when the function is not running, and the finished callback is called exactly once by the first of them to complete, if the function does not itself call its task; a function that cancels its own task makes the finished callback run twice (defect), one that executes it runs again.", "quantifier": "all interleavings, any number of threads", "why_tests_cant": "All schedules.", "anchors": ["nion/utils/ThreadPool.py: ThreadPoolTask.execute, cancel"]}
{"id": "C78", "title": "A thread pool runs each queued function at most once and none after close", "statement": "Under every interleaving of any number of workers and of threads calling queue_fn, run_all, run_one and close, each function queued is started at most once, functions are taken in FIFO order without losing any, each thread starts its functions in that order, removing a finished task from the pool never fails and happens once, no function is queued after close was called, and after close has returned no function is started or still running. A single call of close always comes back: only finitely many steps remain and when no thread can go on close has returned. A second call of close on a pool with threads never returns (defect).", "quantifier": "all interleavings, any number of workers and tasks", "why_tests_cant": "All schedules.", "anchors": ["nion/utils/ThreadPool.py: ThreadPool.queue_fn, close, __run, run_all, run_one"]}
{"id": "C79", "title": "A dispatcher serves every trigger", "statement": "Under every interleaving of the dispatcher thread with any number of threads calling trigger, trigger(wait=True) and close, and for every passage of time: while a trigger has not been followed by a start of the function and the dispatcher is not being closed, the dispatcher thread can go on or waits for a lock whose holder can; it makes at most 13 steps, plus four for each check that finds the interval not over, without starting the function. The function starts no sooner than the minimum interval after each earlier end. After the break flag is set it starts at most once more and after close returned never; close always comes back, raising if the dispatcher had been closed before. trigger(wait=True) returns only after a signalled normal end since the call; it can return although the function did not start since the call, does not return while the function raises, and never returns once the dispatcher thread has ended (defects).", "quantifier": "all interleavings and timings", "why_tests_cant": "All schedules.", "anchors": ["nion/utils/ThreadPool.py: ThreadDispatcher.trigger, close, __process"]}
{"id": "C80", "title": "Change blocks of a mapped list are bracketed", "statement": "For every history of container edits, container changes and balanced (possibly nested) begin_change/end_change calls, the begin and end changes events of a MappedListModel alternate, starting with begin; the last one is a begin exactly when a block is still open.", "quantifier": "all histories with balanced blocks, all map functions", "why_tests_cant": "Unbounded nesting and histories.", "anchors": ["nion/utils/ListModel.py: MappedListModel.begin_change, end_change"]}
{"id": "C81", "title": "Pretty numbers are stable", "statement": "In exact arithmetic make_pretty2 is odd, monotone, commutes with multiplication by powers of ten, and leaves pretty numbers alone (applying it twice, with either rounding mode the second time, is the same as applying it once).", "quantifier": "all rationals, both rounding modes", "why_tests_cant": "Infinitely many values; monotonicity compares pairs across decades.", "anchors": ["nion/utils/Geometry.py: make_pretty, make_pretty2"]}
{"id": "C82", "title": "Float rectangles", "statement": "In exact arithmetic a point is contained in the intersection of two float rectangles iff it is contained in both, the union is the least enclosing rectangle, intersects_rect says whether the closed rectangles share a point (non-negative sizes), r + p is r.translated(p), (r + p) - p and inset(d).inset(-d) are r, and the center of from_center_and_size(c, s) is c. In doubles a rectangle can differ from its intersection and union with itself.", "quantifier": "all rational rectangles, points and offsets", "why_tests_cant": "Infinitely many rectangles; rounding hides exact identities.", "anchors": ["nion/utils/Geometry.py: FloatRect"]}
{"id": "C83", "title": "Deep copies of persistent objects", "statement": "A deep copy of a persistent object is a tree of the same shape and classes with new uuids and equal property values (which the validators accept), to any depth, provided no class in the tree has a hidden item; copying an object whose class has a hidden item always raises AttributeError (defect).", "quantifier": "every object tree (any depth and width)", "why_tests_cant": "Unbounded trees.", "anchors": ["nion/utils/Persistence.py: PersistentObject.__deepcopy__, deepcopy_from, __getattr__"]}
{"id": "C84", "title": "Float texts and reading them back", "statement": "Python's f, e and g formats write the decimal nearest to the value (ties to even) with the requested digits. FloatToStringConverter (default format) gives back the value rounded to six significant digits, in locales with decimal point or comma, fuzzy or not; hence a value of at most six digits, or the double nearest to one, comes back unchanged, and a second pass changes nothing more. PhysicalValueToStringConverter with any units and non-zero multiplier gives back the value whose product with the multiplier is so rounded; in doubles the relative error is below 5.000001e-6. Further digits are lost (1234567 becomes 1234570).", "quantifier": "all rationals, and all doubles within the normal range; all units, multipliers, and such locales", "why_tests_cant": "Infinitely many values; the rounding carries over into the next decade.", "anchors": ["nion/utils/Converter.py: FloatToStringConverter.convert, convert_back; PhysicalValueToStringConverter.convert, convert_back"]}
{"id": "C85", "title": "Tick labels say the tick values", "statement": "In exact arithmetic (floor of log10 exact, two different limits, at least two ticks) a LinearTicker has one label per tick; each label is a decimal numeral of exactly the tick's value, so labels of different ticks differ \u2014 except for negative ticks in exponent notation (factor of at least 10^6 or at most 10^-6), which are shown rounded to one digit, so several ticks can have the same label. In fixed notation value_label of any value is the value rounded to the ticker's precision; in exponent notation value_label of a positive value is the value rounded to the decade of the ticks (one digit finer below one, unless a power of ten). With equal limits the label has no digits after the point, whatever the value.", "quantifier": "all rational limits and tick counts, every exact oracle for the logarithm", "why_tests_cant": "Infinitely many limits; the label depends on three logarithms.", "anchors": ["nion/utils/Geometry.py: LinearTicker"]}
{"id": "C86", "title": "Ticks of a logarithmic axis", "statement": "For finite limits low <= high, an integer base of at least 2 and a non-zero number of ticks, in exact arithmetic: the decades of a LogTicker are evenly spaced multiples of a power of the base (not above high - low unless it is 1) and cover both limits; all ticks are s * base^x with 1 <= s < base and their logarithms increase; minor_tick_indices are exactly the indices with s > 1; for at least one tick there are at most max(2 * ticks + 1, 6) decades; there is one label per tick, the value rounded to precision + 1 digits, and exactly the value for base 10 and whole decades. The reported maximum is at least high if the unit is not 1, or there are minor ticks, or rounding to whole decades lengthens the range by at most one half; the reported minimum is low - (maximum - low)/100. Otherwise the maximum can be below high.", "quantifier": "all rational limits, bases and tick counts; all oracles for the logarithms that are exact", "why_tests_cant": "Infinitely many limits; the order of ticks is about real logarithms.", "anchors": ["nion/utils/Geometry.py: LogTicker"]}
{"id": "C87", "title": "Scaled integers and percents in doubles", "statement": "In double arithmetic, if the range is not too narrow for its number of steps (n * (width + |minimum|) <= 2^49 * width), a position 0..n written by FloatToScaledIntegerConverter.convert_back and read by convert comes back unchanged or one lower; repeated trips only go down, at most one step each, and come to rest after exactly as many trips as steps lost. On [0, 1] with a power of two (at most 2^53) as number of steps nothing is lost. Both directions are monotone; the minimum is position 0, the maximum is position n or n - 1, values of the range have positions 0..n (n <= 2^50); a value comes back at most a step lower, up to (width + |minimum|) / 2^49. A zero width and zero steps raise ZeroDivisionError. FloatToPercentStringConverter: the text of an integer percentage of magnitude up to 2^49 comes back with its number unchanged or one closer to zero.", "quantifier": "all numbers of steps, positions, and rational ranges and values with those bounds", "why_tests_cant": "Infinitely many ranges; rounding errors at few positions; several roundings interact.", "anchors": ["nion/utils/Converter.py: FloatToScaledIntegerConverter, FloatToPercentStringConverter"]}
{"id": "C88", "title": "The sequence an array field reads as", "statement": "On an array reached by operations on its sequence from any items (empty or loaded at construction), len, item access, insert, append, del, pop, remove, index, count, iteration, extend and clear do what they do on a Python list, raise the same errors, and notify exactly the changes made. x in s always raises AttributeError, assigning an item always raises IndexError, and so does reverse with two or more items, without changes. On an array in any state clear raises nothing; if the array has got items by from_dict_value, it leaves all items but one more than there are listeners (defect).", "quantifier": "all arrays of records, indices and histories of operations", "why_tests_cant": "Unbounded histories; the mixin methods loop over the array.", "anchors": ["nion/utils/StructuredModel.py: ItemsSequence, ArrayModel.field_value"]}
{"id": "C89", "title": "Notifications of nested structured models", "statement": "In a tree of fields, records and arrays of any depth in which every array listens once to each of its records and arrays, an edit (assigning a field, inserting, removing, closing) changes exactly the object at its path; the object announces it, then the record it is a field of under the field's name, and then model_changed_event fires once for every object from the root down to the edited one; assigning an equal value announces nothing. A closed record and everything above it hear nothing from below. The condition holds when the models are built, and is kept by every history that inserts at the ends of arrays only (any removals), and by every history without removals (any insertions). Inserting a record or array at the front of an array and removing it again disconnects the first item (defect). Closing an array always raises TypeError, closing a record with fields twice KeyError.", "quantifier": "all model trees, paths and histories", "why_tests_cant": "Unbounded depth and histories; the wiring is kept in lists beside the data.", "anchors": ["nion/utils/StructuredModel.py: FieldPropertyModel.notify_property_changed, RecordModel.__init__, RecordModel.close, ArrayModel.__init__, ArrayModel.close, notify_insert_item, notify_remove_item"]}
{"id": "C90", "title": "Attributes of a record", "statement": "A field name that is no other attribute of the object reads as the field's value and name_model as its model (unless there is a field of that name); assigning a primitive field sets its value and changes nothing else; names that are neither raise AttributeError. Assigning the name of a record or array field leaves the fields alone and hides the field from then on; a field named like a built-in attribute of records, such as schema, can be assigned but is never read (defects).", "quantifier": "all records, names and values", "why_tests_cant": "Unbounded sets of names; three lookups with different priorities interact.", "anchors": ["nion/utils/StructuredModel.py: RecordModel.__getattr__, RecordModel.__setattr__"]}
{"id": "C91", "title": "Two-way bound models come to rest", "statement": "A source PropertyModel is bound by any number of PropertyBindings to target PropertyModels that write back when they change. If every binding accepts what it shows of a value as that value, then any assignment to the source or a target ends after at most three nested assignments; the source changes once, and every target is shown the new value once, in order, up to the first binding whose converter raises. Over any history (converters not raising on the values of the source) the source is the value last assigned or accepted, and every target stands for it; but a target assigned another text of the same value, or a value the validator maps to it, keeps it (defect). With one binding that is not faithful the source does not keep an assigned value: it goes through conversion and back until what is shown no longer changes (defect), for ever if that never happens.", "quantifier": "any number of bindings, all converters and validators, all histories", "why_tests_cant": "Re-entrant notification; unbounded nesting and histories.", "anchors": ["nion/utils/Binding.py: Binding.update_source, update_target, update_target_direct; PropertyBinding.__init__", "nion/utils/Model.py: PropertyModel.value"]}
{"id": "C92", "title": "A filtered list of a filtered list", "statement": "A FilteredListModel has another one as container; items are inserted in and removed from the source (no item twice at a time), the source is replaced, items change, filters, sort keys and reverse of either list are set, change blocks are opened and closed, and the second list is attached and detached, in any order. Whenever it is attached and no block is open, the second list holds exactly the source items passing both filters. If it never had a block and has no sort key, its order is that of the first list; if neither list ever had a block or now has a key, that of the source. If it has a sort key its items are in key order, provided item changes leave the key alone. Its notifications always reconstruct it, each item notification lies inside a change block that is closed again by the end of the operation, and while it is not itself rebuilt they name the right items even where those of the first list do not. If an item is moved by the first list's key during a block of the second, the second keeps the old order (defect).", "quantifier": "all histories, filters and sort keys", "why_tests_cant": "Unbounded histories; each change makes a cascade of notifications in two lists.", "anchors": ["nion/utils/ListModel.py: FilteredListModel.container, item_inserted, item_removed, begin_changes, end_changes"]}
{"id": "C93", "title": "Mapped and flattened lists of a filtered list", "statement": "Any number of MappedListModels and FlattenedListModels are made with a FilteredListModel as container and later detached, while its container, its items, its filter, sort key, reverse and change blocks and the children of items are changed in any order (no item twice at a time; pure map functions). As long as the filtered list is not rebuilt (filter, sort key or reverse set, or a block ended in which that was done) while a flattened list is attached, every attached mapped list shows exactly the images of the filtered items and every attached flattened list exactly their children. Every item notification of the filtered list has an index inside the list. The notifications of each mapped list always reconstruct it and its begin and end of changes alternate and are closed. A rebuild names items at wrong indices; the flattened list then raises and the exception is swallowed together with the calls of all listeners after it: with one flattened list attached at a time, that list and the mapped lists made before it stay right, and each mapped list after it keeps the images of the second half of the old items for good (defect); of two flattened lists the second shows children of items that are gone (defect).", "quantifier": "all histories, filters, sort keys, map functions, numbers of lists", "why_tests_cant": "Unbounded histories; each change is a cascade of notifications to many lists, in which one listener's exception silences others.", "anchors": ["nion/utils/ListModel.py: FilteredListModel, MappedListModel.container, FlattenedListModel.container", "nion/utils/Event.py: Event.fire"]}
{"id": "C94", "title": "Mapped lists whose functions raise", "statement": "A MappedListModel's map and unmap functions may raise at any call, while items are inserted in and removed from the container and the container is assigned. Whatever they raise, the notifications reconstruct the items, and every value the map function returned is shown until the unmap function has been called with it and returned, exactly once. If they never raise, the items are the images of the container's. Items the map function fails for are left out, and the rest is right as long as all further edits come before the first of them. Giving the container up raises IndexError exactly if there are fewer items than container items. Assigning a container to a model without one raises exactly if the map function fails for some item, with the images of the items before it shown. An assignment that raises leaves the model either with the new container or stuck: it then ignores its container, and every later assignment, and close, raises AttributeError (defect). After one failure later edits are displaced: images come in the wrong order and removals remove the wrong one or none (defect).", "quantifier": "all histories, all functions and failures", "why_tests_cant": "Each call may or may not raise; unbounded histories.", "anchors": ["nion/utils/ListModel.py: MappedListModel.container, close", "nion/utils/Event.py: Event.fire"]}
{"id": "C95", "title": "Networks of streams", "statement": "Value, map and combine-latest streams are made on one another in any shape, at any time, and value streams are assigned. After any history every stream made before the first one whose function raises holds its function of what its inputs should hold, down to the last assigned values; and a stream's value is always the one it fired last. One assignment fires a stream at most as often as there are paths to it from the assigned stream, and exactly so often if all are combine-latest streams and none raises: the work can double with every stream. Streams no path leads to are untouched; a stream with a single path fires at most once, with its final value. Where paths meet, mixtures of old and new inputs are fired (defect), and a function that raises keeps later streams on the same input out of date (defect).", "quantifier": "all networks, histories, functions", "why_tests_cant": "Networks have any shape; the number of firings grows exponentially.", "anchors": ["nion/utils/Stream.py: ValueStream, MapStream, CombineLatestStream", "nion/utils/Event.py: Event.fire"]}
{"id": "C96", "title": "Filtered lists whose filters raise", "statement": "The filter of an unsorted FilteredListModel may raise for some items, while items are inserted in and removed from the container (no item twice at a time) and the container and the filter are assigned. Whatever it raises, the notifications reconstruct the items. As long as filters and containers are assigned only where the filter raises for no item, and no item it raises for is removed, the items are the passing container items before the first one it raises for, followed by some of the passing ones behind it, in order; so exactly the passing ones if it raises for none. An inserted item is shown exactly if it passes and the filter raises for no item before it; nobody sees the exception. Assigning a filter that raises for an item raises, changes nothing shown and keeps the filter. Assigning a container to a model without one stops at the first item the filter raises for, with the passing items before it shown; if further items follow, the next assignment raises KeyError, and then the model ignores its container and every later assignment, and close, raises AttributeError (defect). When an item the filter raises for is removed, items inserted behind it stay hidden and later ones appear out of order (defect).", "quantifier": "all histories, filters and items", "why_tests_cant": "Unbounded histories; a failure shows only much later.", "anchors": ["nion/utils/ListModel.py: FilteredListModel.filter, container, __item_inserted, __item_removed", "nion/utils/Event.py: Event.fire"]}
{"id": "C97", "title": "Promises using promises, read by threads", "statement": "Functions of promises read other promises and may catch what those raise; any number of threads read promises, interleaved in any way. Every value a promise takes, and every result a thread ends with, is that of evaluation by one thread alone; a value once set never changes, and no two threads are inside one promise's function. If each thread's code terminates when run alone, then in every schedule there is no deadlock, no more steps are made than alone without sharing, trying the threads in turn finishes, and a function that returns is called at most once. Two promises that use each other block two threads for ever, and one promise that uses itself recurses for ever (defects).", "quantifier": "all functions, numbers of promises and threads, schedules", "why_tests_cant": "All interleavings; deadlocks are rare and depend on timing.", "anchors": ["nion/utils/Promise.py: Promise.value, opt_value"]}
{"id": "C98", "title": "Task queues and task sets used by threads", "statement": "Any number of threads put, perform and clear tasks of a TaskQueue, interleaved in any way. Every task is taken at most once, in the order put; a call takes no more tasks than the queue had when it was made, so it ends even if tasks put tasks; when a call has returned, every task put before it has been taken, though one taken by another thread may still be running. The count of unfinished tasks is the number put less those returned from or cleared, so a task that raised is counted for ever. In a TaskSet, what is pending for a key is exactly the task added last and since then neither cleared nor handed to a call; a call starts only tasks pending when it was made, one per key, and all of them if it returns; no task is started twice; a call during which a task raised starts no more, and the rest of its tasks are lost; but a task may be started after the newer one for the same key (defect).", "quantifier": "all interleavings of any number of threads and calls", "why_tests_cant": "All interleavings.", "anchors": ["nion/utils/Process.py: TaskQueue.perform_tasks, clear_tasks; TaskSet.add_task, clear_task, perform_tasks"]}
{"id": "C99", "title": "Events used by threads", "statement": "Any number of threads listen, close and drop listeners and call fire, fire_any and fire_all, interleaved in any way. A call calls each listener at most once, in the order they were made, only listeners made before it copied the list, and, if it comes to the end of the list, every listener made before the call and neither closed nor dropped until its end. A listener closed is called only by calls that had already read its function, so possibly once more after close() has returned (refuted: a closed listener is not called), but never by a call made after close(). After an exception of a listener, or a deciding result in fire_any and fire_all, a call calls no more listeners. A listener dropped is never called again after any moment without calls going on; while another call is going on it is kept alive by it and called even by calls made later (refuted: a dropped listener is not called by later calls).", "quantifier": "all interleavings of any number of threads, listeners and calls", "why_tests_cant": "All interleavings.", "anchors": ["nion/utils/Event.py: EventListener.close, Event.listen, fire, fire_any, fire_all"]}
{"id": "C100", "title": "Observers that change the observed object again", "statement": "Listeners of an object make further edits from within notifications, to any depth, every edit notifying all listeners again. Every listener is told every edit exactly once, and its last call comes when the object has its final state, so a listener that looks at the object is right in the end. A listener with only listeners before it that do not edit is told the edits in the order made, each at once; following them it has the items of a ListModel at each call, and a FilteredListModel ends in the state it has after the same edits made one after another. Behind a listener that edits, inner edits are told before outer ones (defect): following gives another list, and a FilteredListModel shows items in wrong order or removed ones for ever. The on_value_changed of a PropertyModel is given the final value last if no listener sets the value again, else possibly an older one last (defect).", "quantifier": "all finite executions, any number of listeners, any edits", "why_tests_cant": "Unbounded nesting and all orders.", "anchors": ["nion/utils/Event.py: Event.fire; ListModel.py: ListModel.insert_item, remove_item, FilteredListModel handlers; Model.py: PropertyModel.value"]}
{"id": "C101", "title": "Networks of reference counted objects used by threads", "statement": "Objects take and give up references to each other, as streams do, and give up all of them in about_to_delete; any number of threads take and drop references, interleaved in any way, clients dropping only references they have and taking none to deleted objects. The count of an object is always the references of clients, of objects not deleted and of threads just giving one up; the assertion of remove_ref never fails. What a client or an object not deleted refers to is not deleted; about_to_delete is called at most once for each object, after that of every object referring to it. A thread inside remove_ref never waits for an about_to_delete of another thread; in every schedule all calls end, after a bounded number of steps. When no call is going on and no object refers to itself through others, the objects not deleted are exactly those clients can reach; objects that refer to each other are never deleted (refuted without that condition).", "quantifier": "all networks, numbers of threads and interleavings", "why_tests_cant": "All interleavings and network shapes.", "anchors": ["nion/utils/ReferenceCounting.py: ReferenceCounted.add_ref, remove_ref", "nion/utils/Stream.py: MapStream.close, CombineLatestStream.close, ConcatStream.close"]}
{"id": "C102", "title": "The life of function stream value models", "statement": "Evaluations of a FuncStreamValueModel begin, run in threads and end in any order, while the stream fires functions and the model may be closed at any moment. The internal count is the number of evaluations that have not come to their end, those that raised included; the stream is referred to exactly until close. _run_until_complete returns when every evaluation has come to its end; else it raises AttributeError if the model was closed. Once an evaluation has raised, or if the stream has no function when the model is made, it never returns. After close nothing new is evaluated and on_value_changed is not called, but each evaluation still going on that ends well sets the value and tells the listeners, once or twice; when none is going on a closed model stays as it is. (Refuted: a closed model keeps its value.)", "quantifier": "all orders of evaluations, any moment of close", "why_tests_cant": "Races between threads, event loop and close.", "anchors": ["nion/utils/Model.py: FuncStreamValueModel.__init__, close, _run_until_complete"]}
{"id": "C103", "title": "Integer rectangles as float rectangles, slices and aspect ratios", "statement": "In doubles, float rectangles whose edges are integers up to 2^52 compute exactly as integer rectangles do: to_float_rect, intersect, union, contains_point, intersects_rect, inset and translated agree; the float center is the exact middle and the integer one its floor; adding a point moves a float rectangle exactly for sizes of any sign. slice selects exactly the elements of an array inside the rectangle if no edge is negative; a rectangle that begins above the array misses row 0 (defect). Aspect ratios are exact but for one rounding, 1 for height 0, and compare with 1 exactly as width with height for sizes up to 2^53. Tuples and indexes agree with the fields; scaling of float points is undone by division exactly, but not in doubles (refuted).", "quantifier": "all integer coordinates within the bounds", "why_tests_cant": "Unbounded coordinates; rounding.", "anchors": ["nion/utils/Geometry.py: IntRect.to_float_rect, slice, IntSize.aspect_ratio, FloatRect, inset_rect"]}
{"id": "C104", "title": "Filtered lists used by threads", "statement": "Any number of threads insert into and remove from the container of a FilteredListModel without sort key, change items, assign filters, reset and update, in all interleavings at the places where shared state is read or written. The items never contain an item twice nor one that is not in the master list; an item that is wrongly shown or wrongly missing is one that a call under way is still to look at, for a reader one that a call waiting for the mutex is to look at; the notifications give the items at all times; from every state all calls can come to their end, and then the items are those the filter wants in some order. They are in the right order if no place is looked for while another change or assignment is under way, and also if no assignment of a filter comes while another thread is inside __update_items and changed items are handled one at a time; otherwise the order can stay wrong (refuted).", "quantifier": "all interleavings, any number of threads", "why_tests_cant": "Needs particular interleavings.", "anchors": ["nion/utils/ListModel.py: FilteredListModel.filter, __update_items, __inserted_master_item, __updated_master_item"]}
{"id": "C105", "title": "Networks of streams that are given up", "statement": "Clients make value, map and combine-latest streams of one another, take and give up references and set values, in any order; functions may raise. The assertion of remove_ref never fails, and a stream's count is that of the references of clients and of streams not deleted that have it as input. At any time exactly those streams are deleted that no client has a reference to and no wanted stream is made of (streams never referred to are kept). Giving a reference up closes each stream not wanted any more once, users before their inputs; all that is seen is one last firing of each map and combine-latest stream, reaching no other stream; others are untouched; a closed stream is never closed again, stays silent and holds None. If no function raises, the streams not deleted hold and have fired exactly what they would if nothing were ever given up, so they hold the right values, and a deleted one has fired what it would until then and its value once more. If the function given to a constructor raises, the inputs are never deleted (refuted: once all references are given up all streams are deleted), and until garbage collection the unfinished stream still listens, and exceptions of its function keep later streams from being updated (refuted).", "quantifier": "all networks, histories and functions", "why_tests_cant": "All network shapes and histories; failing constructors.", "anchors": ["nion/utils/Stream.py: MapStream, CombineLatestStream", "nion/utils/ReferenceCounting.py: ReferenceCounted.add_ref, remove_ref", "nion/utils/Event.py: Event.fire"]}
{"id": "C106", "title": "Filtered lists with change blocks used by threads", "statement": "Any number of threads use a FilteredListModel with filter, sort key, order and change blocks, in all interleavings. begin_change adds one to the change level without the mutex; if no change of the level interrupts another, the level is always the number of open blocks, no item is listed twice, and an item that is wrongly shown or missing is one that a call under way will still look at or that an open block holds back. With no block open a reader gets only items of the master list and misses only what calls are waiting to do; when all calls and blocks have ended the list has exactly the items the filter wants. While a block stays open, from a moment with the mutex free, the items do not change and only resets are announced. Notifications always give the items. All calls and blocks can always come to their end. If changes of the level interrupt each other, a level above the number of open blocks is never corrected and the list is never updated again, a block may not hold notifications back, and an item may be listed twice (refuted).", "quantifier": "all interleavings, any number of threads and blocks", "why_tests_cant": "Needs particular interleavings; unbounded numbers of threads and blocks.", "anchors": ["nion/utils/ListModel.py: FilteredListModel.begin_change, end_change, changes, __update_items, __updated_master_item"]}
{"id": "C107", "title": "Documents kept in step with a storage handler", "statement": "A storage handler keeps the dict of a document and finds the dicts of the objects below by their accessors. Whatever properties and items are set and whatever items are inserted and removed, at any object of the document and in any order, the kept dict is, up to the order of keys, the dict that write_to_dict gives for the document, and reading it gives the document back. If objects are used only while they are in a document or in no context, are in one place only and not below themselves, no edit raises. The classes must store relationships and properties under their names, without readers and writers of their own. Refuted otherwise: a replaced item keeps its parent and context, so what is set on it is stored in the item that replaced it, and it cannot be put back; with a relationship under a key other than its name, inserted items are lost and items of an opened document cannot be edited or removed.", "quantifier": "all class definitions of this kind, all trees of objects, all sequences of edits", "why_tests_cant": "Needs arbitrary trees and edit histories and every object as the place of an edit.", "anchors": ["nion/utils/Persistence.py: PersistentObject.get_accessor_in_parent, set_property, set_item, insert_item, remove_item, write_to_dict, PersistentObjectContext.property_changed, item_set, item_inserted, item_removed"]}
{"id": "C108", "title": "No deadlocks between lists derived from each other", "statement": "Filtered, mapped and flattened lists hold their mutex while they tell their listeners, which take theirs. For any lists derived from each other that can be ordered (derived lists after their container, master items after the flattened list, what listens to the flattened list after its master items, listeners reading only the list they listen to or later ones), any number of threads calling any operations in all interleavings never come to a deadlock, and all calls come to their end after a bounded number of steps. Filtered and mapped lists of each other can always be ordered. Refuted otherwise: a listener that reads the list from which its own is derived; and a listener to a flattened list that reads the flattened list itself, if a master item is a list with a mutex.", "quantifier": "all graphs of lists, all numbers of threads, all interleavings", "why_tests_cant": "A deadlock needs a particular interleaving, and tests cannot show its absence.", "anchors": ["nion/utils/ListModel.py: FilteredListModel, MappedListModel, FlattenedListModel: _update_mutex"]}
{"id": "C109", "title": "Property models, bindings and property streams used by threads", "statement": "Any number of threads assign a PropertyModel and update it from tuple bindings (read, put the element in, assign), in all interleavings at the places where shared attributes are read or written; bindings with converters and PropertyChangedEventStreams observe it. Assignments take effect at once, one after another, each between its beginning and its end; updates do so if no thread changes the value while another is between the read and the write of an update. What a target or stream shows and tells is always the view of a value that the model has had. If no thread changes the value while another is inside the listener of an observer, having read the value, then whenever no call is under way the observer shows the value of the model and has told it last; in particular if one thread only uses the model. Refuted otherwise: a target shows the model's value after all calls have ended; a stream has fired last the value it has; observers are told once of a value two threads assign; on_value_changed is called last with the value of the model; updates of different elements of a tuple both take effect, although update_source is documented as thread safe.", "quantifier": "all interleavings, any number of threads, observers, values and converters", "why_tests_cant": "Needs particular interleavings.", "anchors": ["nion/utils/Model.py: PropertyModel.value", "nion/utils/Binding.py: Binding.update_source, PropertyBinding, TuplePropertyBinding", "nion/utils/Stream.py: PropertyChangedEventStream"]}
{"id": "C110", "title": "Closing an event loop", "statement": "Tasks of an event loop do anything between awaits: create tasks, go on, wait for anything that comes at any time, end or raise. close_event_loop gives the loop one round; then, if tasks are left, it runs until two rounds after the round in which the last of them ended, and else for one round. When it closes the loop every task that was there when it looked has ended. It gets there if all that tasks wait for comes some time, and never if something one of them waits for does not come. If no task still going on then creates tasks, no task is left at all; but tasks created later can be left unfinished in the closed loop (refuted: no task is left), as by a sampling stream that was not closed.", "quantifier": "all tasks, queues and orders of events", "why_tests_cant": "Unbounded behaviours of tasks and orders of events.", "anchors": ["nion/utils/Process.py: close_event_loop"]}
{"id": "C111", "title": "Setting the container of a filtered list while the container is edited", "statement": "The container setter of FilteredListModel (documented as thread safe) takes no mutex as a whole and walks the live list of the container; the container is edited between any of its steps, by another thread or by a listener told of an item. For all containers and sequences of assignments and edits: if each edit is told before the setter goes on, no item is inserted while the setter attaches or before it has copied the items for detaching, and while it attaches only items not yet read are removed, then no assignment raises, and an attached list has exactly the container's items in order, a detached one none. An insertion at any place while the setter walks makes the assignment raise AssertionError. A removal of an item already read makes it leave out exactly the next item, without an exception. An insertion still to be told when attaching does no harm. A model whose detachment has raised can never be given a container again. Refuted: that an attached list has the container's items if nothing raised; the same if just a removal is still to be told; that a detached list is empty.", "quantifier": "all containers, items, edits and interleavings of edits with the steps of the setter", "why_tests_cant": "Needs edits at particular points inside one assignment.", "anchors": ["nion/utils/ListModel.py: FilteredListModel.container, __item_inserted, __item_removed"]}
{"id": "C112", "title": "Equality of points, sizes and rectangles", "statement": "For all operands (None, numbers, sequences of anything, and objects of the six classes, with nan): != is the contrary of == and raises what == raises. Two objects compare without exception unless just one is a rectangle (TypeError) or the left has integers and the right a nan (ValueError); None never raises. An object of integers equals another iff its coordinates are the other's with fractions dropped; a float object iff they are the same doubles, integers being rounded. Among integer objects == is an equivalence, among float objects too except for nan. If a float object says it equals an integer object with coordinates up to 2^53, the contrary comparison agrees. Refuted: symmetry between the two families, transitivity, symmetry for larger integers, that points differ from sizes, and that a tuple must have two numbers.", "quantifier": "all operands on both sides", "why_tests_cant": "All pairs of operands of all kinds.", "anchors": ["nion/utils/Geometry.py: __eq__, __ne__, __getitem__, make of IntPoint, IntSize, IntRect, FloatPoint, FloatSize, FloatRect"]}
{"id": "C113", "title": "Combined streams used by threads", "statement": "Any number of threads set the inputs of a CombineLatestStream, in all interleavings at reads and writes of shared attributes. The combined value and all that is told is always the function of values the inputs have had. If each input is set by one thread at a time, the values kept by the combined stream are those of the inputs that nobody is setting. If moreover no value is stored while a thread has computed a combined value not yet written, and none is written while one is being told, then whenever nothing is under way the combined value is that of the inputs, and it was told last. A stale value is put right by the next change made alone, of whichever input. Refuted: that the value is right at the end if each input has its own thread; that what was told last is the value; and, if two threads set one input, that a later change of another input puts it right.", "quantifier": "any number of inputs, threads and values, any function, all interleavings", "why_tests_cant": "Needs particular interleavings.", "anchors": ["nion/utils/Stream.py: ValueStream.value, CombineLatestStream.__handle_stream_value, __values_changed"]}
{"id": "C114", "title": "Filtered lists in a row", "statement": "Any number of FilteredListModels, each the container of the next, connected and disconnected at will, with edits of the source, changing items, and filters, sort keys and change blocks set on any of them. For all histories in which the source never holds an item twice: every list without an open change block holds exactly the items of its container that pass its filter, so list j holds exactly the source items that pass the filters of lists 0 to j; in source order if none of these was given sort keys or change blocks; sorted by its key if it has one that item changes keep. This holds whatever the order in which the lists hear that an item changed. The notifications of each list turn its old items into its new ones, every one inside a change block, and only a list whose own settings are changed names wrong items in them. Refuted: that a list announces only items accepted by the lists before it.", "quantifier": "all numbers of lists, histories, filters, sort keys and connections", "why_tests_cant": "All depths and histories.", "anchors": ["nion/utils/ListModel.py: FilteredListModel.container, __item_inserted, __item_removed, __update_items, __updated_master_item", "nion/utils/Event.py: Event.fire"]}
{"id": "C115", "title": "Change blocks of lists that change containers", "statement": "Filtered and mapped lists hang on each other in any way without cycles, and get and lose containers at any time. Begin and end of a change block are told from list to list. If handlers do nothing of their own, then once a call is over the observers of a list have been told as many begins more than ends as the blocks open at the list, those told by its container and its debt amount to (a mapped list: one if this is positive, else none), where the debt is what was open at the containers it left less what was open at those it took up, at the time. The events of a mapped list alternate, starting with a begin, at every moment. If containers are changed only with no block open, a list is in a block exactly if one is open at it or at a list it hangs on. A list that leaves its container in a block is never told to be out of it again; a mapped list that gets its container in a block does not announce later blocks (defects). Handlers may begin and end blocks, and change containers (what a list had not yet heard of a container it left then does not count): the levels are right all the same and every call ends, but a handler of a begin event that makes a block of its own leaves observers with two begins and one end, and one that ends the block leaves them with no end (defects).", "quantifier": "all lists, all sequences of blocks, changes of containers and handler calls", "why_tests_cant": "the defects need a change of container or a handler acting in the middle of a block; tests use one list and balanced blocks", "anchors": ["nion/utils/ListModel.py:404-413", "nion/utils/ListModel.py:513-546", "nion/utils/ListModel.py:557-591", "nion/utils/ListModel.py:671-682", "nion/utils/ListModel.py:725-756", "nion/utils/Event.py:103-114"]}
{"id": "C116", "title": "Reading into objects in use", "statement": "read_from_dict on any object, with anything in it, with or without a context: the uuid becomes that of the dict if it has one, items in the dict replace those there, members of relationships are added after those there; all of these are new objects, in the context of the object, with _is_reading set. In a context, the object is registered under its new uuid and the new objects under theirs, and nothing is unregistered. For all histories of begin_reading, read_from_dict, finish_reading and setting the context, in which the uuids of the tree are different after every operation: nothing raises, the whole tree is in the context of its root and each object is registered under its uuid. Leaving a context raises KeyError exactly if two uuids are the same or one is not registered; else exactly these uuids are unregistered. finish_reading clears the flag of the whole tree. Defects: the uuid an object had before it was read in a context stays registered, also after it left the context; a replaced item stays in the context and registered; and an object that reads a dict with a uuid in a relationship twice cannot leave its context: KeyError, and it may then be in no state to get another context.", "quantifier": "all trees, dicts, contexts, registrations and histories", "why_tests_cant": "Tests read into new objects, outside of a context.", "anchors": ["nion/utils/Persistence.py:178-210", "nion/utils/Persistence.py:410-427", "nion/utils/Persistence.py:498-560", "nion/utils/Persistence.py:661-670", "nion/utils/Persistence.py:694-701"]}
{"id": "C117", "title": "Setting the container of a mapped list while the container is edited", "statement": "The container setter of MappedListModel (documented as thread safe) takes no mutex as a whole and walks the live list of the container; the container is edited between any of its steps, by another thread or by a listener told of an item. For all containers and sequences of assignments and edits: if each edit is told before the setter goes on, no item is inserted while the setter attaches or before it has copied the items for detaching, none is removed between the closing of the listeners and the copy, and while it attaches only items not yet read are removed, then no assignment raises, an attached list shows the images of the container's items in order, a detached one none. Whatever the interleaving, each image made by map_fn is shown or was given to unmap_fn once, and a listener that does what it is told has the same items. Insertions while the setter walks never raise and no item is missed, but each gives one image too many; one such insertion gives exactly one at the end (and if it comes from another thread between reading and inserting an item, that item is shown twice and another goes to the end). A removal of an item already read leaves out exactly the next one. An edit made before and told after attaching is done twice. Detaching takes away as many images from the end as the container has items; others stay, also under later containers; if there are fewer it raises IndexError, and no container can be assigned any more.", "quantifier": "all containers, edits, interleavings and sequences of assignments", "why_tests_cant": "Tests edit containers only between assignments and in one thread.", "anchors": ["nion/utils/ListModel.py:35-49", "nion/utils/ListModel.py:724-758", "nion/utils/ListModel.py:769-790"]}
{"id": "C118", "title": "Listeners of the registry that use it themselves, and threads", "statement": "Any number of threads use the registry, at any time, also from within the calls of listeners; each notification is a call per listener, and anything may come between two calls. For all histories: a listener is told of everything since it began to listen exactly once, now or later (as multisets); by one thread and if the registry is used only when nothing is under way, in order. Counting how often a component was told registered and unregistered for a type gives what is registered, in whatever order it was told, if types are named and fire_existing_component_registered_events is not used. If a component and type are changed only when nothing about them is under way, and types are named, what was told last is how it is. A listener that asks for the existing components of a type knows then exactly which are registered with it once nothing is under way, unless the loop was broken off. Refuted: that what was told last is how it is, with an earlier listener that unregisters what it is told of, with two threads, and after unregistering without types; that fire_existing_component_registered_events tells of all components, if a listener registers another of the type; that counting works for listeners that were there before it.", "quantifier": "all histories of uses, listeners, threads and interleavings, all components and types", "why_tests_cant": "Tests use the registry from one thread and with listeners that only record.", "anchors": ["nion/utils/Registry.py:50-71", "nion/utils/Registry.py:109-122", "nion/utils/Event.py:103-114"]}
{"id": "C119", "title": "Flattened lists whose child lists are edited by threads", "statement": "FlattenedListModel handles edits of child lists without its mutex: it counts the place, edits its copy of the children, edits the flattened list and then tells. The child lists of different master items are edited by different threads and these steps come in any order; the container is edited and set while no such call is under way, and indices are in range. For all histories: a call that nothing comes between does what it does with one thread; the copies of the children are right once the calls are over; the flattened list always has as many items as it should have plus one for each call that raised. Insertions lose and add nothing, so only the order can be wrong. If each edit of the flattened list is made where the child is at that time, the list is the concatenation and nothing raises; and with distinct items the first edit made elsewhere makes it wrong. An observer has the items of the list if each edit is told before the next one is made. Calls one after the other keep list and observers right. Setting the container makes the list right again exactly as far as no call raised: without container it has as many items as calls raised. Refuted: the order with two threads inserting; that a removed child goes (IndexError, dropped, and the item stays also without container); that no other item goes; that the observer has the list's items although all edits were in place.", "quantifier": "all child lists, histories, threads and interleavings", "why_tests_cant": "Tests edit child lists from one thread.", "anchors": ["nion/utils/ListModel.py:795-811", "nion/utils/ListModel.py:833-850", "nion/utils/ListModel.py:861-888", "nion/utils/ListModel.py:890-916"]}
{"id": "C120", "title": "Closing recorders, and replay in the same world", "statement": "For all objects and histories: a closed recorder logs nothing more, whatever is done; closing it again raises AttributeError; with a closed recorder apply ends after as many steps as there are entries, on any object, and the log stays. On an object that has nothing in common with what the recorder listens to and what its log reads, after any history and with the recorder open or closed, apply does what the log does on a separate tree, or raises the same exception; the recorder hears nothing and objects apart from that one stay as they were. After a history that sets properties and closes: replayed on a copy made at the start, each property recorded has the value it has now, also if that was set after closing, and the others that of the start. Refuted: that apply ends - on the recorded object itself, with the recorder open and any property recorded, each call logs its entry again, and no number of steps is enough; with the recorder closed it ends and changes nothing. Refuted: that closing keeps the values recorded.", "quantifier": "all objects, histories, places of closing, numbers of steps", "why_tests_cant": "Tests apply a recorder to another object right after recording, and close it at the end.", "anchors": ["nion/utils/Recorder.py:14-59", "nion/utils/Recorder.py:69-74", "nion/utils/Recorder.py:88-103"]}
{"id": "C121", "title": "Filtered lists sorted by keys that raise or cannot be compared", "statement": "Keys are of classes; keys of one class can be compared, others not, and keys like None not at all. The container holds no item twice. For all histories of insertions, removals, changes of items, settings and mark_changed, whatever the keys do: the notifications rebuild the items; the copy of the container is right and the items are items of it, each once. Inserting never raises; an item is shown only if it is accepted and its key can be had, and if the shown keys agree and are in order exactly if its key agrees with theirs; the selections are told unless it is accepted and not shown. Setting filter, sort key or direction works exactly if the whole container can be sorted, then shows the accepted items in order, and else raises, keeps the new setting and the old items. mark_changed works in the same case and then shows the accepted items, in order if they were or if the last setting failed. An item that changes shows and hides no other; if its key raises nothing moves. As long as shown items change only to be hidden and order only when it can be established, shown keys agree and are in order. One shown item whose key raises or is like None keeps all others hidden. If all keys that come can be compared, the accepted items are shown in order. Refuted: that a filter that accepts only comparable items can be set; that the items shown depend on container and settings only; that an item is shown once the one in its way is gone; that the list is in the order its direction says; that mark_changed puts comparable items in order; that a changed item stays; that selections hear of as many insertions as removals.", "quantifier": "all keys, classes, histories, filters, orders of set iteration", "why_tests_cant": "Tests sort by keys of one type that never raise.", "anchors": ["nion/utils/ListModel.py:302-345", "nion/utils/ListModel.py:363-373", "nion/utils/ListModel.py:385-466", "nion/utils/ListModel.py:469-546", "nion/utils/ListModel.py:611-641"]}
{"id": "C122", "title": "Subscribers of a context that use the context themselves", "statement": "register and unregister of PersistentObjectContext walk the live list of subscriptions and call each; callbacks, and listeners of registration_event, may register, unregister and subscribe, nested to any depth. For all histories: if uses that register or unregister one uuid are not nested in one another and nobody subscribes to it while its unregistration event is fired, then whenever no such use is under way every subscriber was last told what is so, and those whose subscription is over that it is gone. A registration or unregistration within which its uuid is left alone, begun anywhere, tells each subscription once, in order, and leaves the registration as it should be; unregistering what is not there tells all the same and raises KeyError. Whatever is done within it, each subscription there at its start is told at least once, and when an unregistration returns nothing is registered under the uuid and no subscription is left or it raised. With callbacks that do nothing it ends after one step for each subscription and one more; with one that subscribes at each call register never returns. Refuted: that a subscription is told once of a registration; that the last news is right if a callback unregisters; if a listener subscribes during the unregistration event; that unregistering within an unregistered callback works; that a replacement registered within one stays.", "quantifier": "all uuids, objects, subscribers, histories and nestings", "why_tests_cant": "Tests use callbacks that store what they are given.", "anchors": ["nion/utils/Persistence.py:172-226", "nion/utils/Event.py:103-114"]}
{"id": "C123", "title": "The set object a selection gives out, and assigning its style", "statement": "IndexedSelection.indexes returns its set object, not a copy. With set objects, some of which clients keep and edit: every method changes the selection and reports as on values, for all histories. It is determined by style and contents which calls edit the object in place and which put another in its place. An object kept by a client that nobody edits from outside holds, after any history, the indexes of the last time it was the selection's own, and once it is replaced it never is again. A listener that compares the object it kept with the new indexes finds them equal exactly if the call edited in place. Editing an object that was replaced never has any effect on the selection; editing the selection's own changes the selection without event and without the anchor. set_multiple with the selection's own indexes keeps them, fires nothing and replaces the object. After selection_style was assigned none or single or none, the next call that sets the selection leaves at most one index. Refuted: that a listener finds the difference; that a kept set stays the selection; that editing the set given is safe; that a selection of style single or none has at most one index.", "quantifier": "all styles, contents, histories, clients", "why_tests_cant": "Tests compare indexes with literals right away and keep no reference.", "anchors": ["nion/utils/Selection.py:25-31", "nion/utils/Selection.py:65-67", "nion/utils/Selection.py:77-205"]}
{"id": "C124", "title": "Paths and their texts", "statement": "PathToStringConverter on POSIX, with Path(text) and str(path) of the standard library. For all paths and texts over any characters: every path and None come back from their text; what comes back from a text has components that are not empty, not a dot and without slash. Exactly the texts in normal form stay as they are, and a text converted once is in normal form, so converting is idempotent. In every file system, with '..' and links as entries like others, a text denotes a place exactly if the text it becomes does and, if it ends with a slash or a dot, that place is a directory. Refuted: that the empty text comes back (it becomes None); that a text that denotes nothing becomes one that denotes nothing (a slash after the name of a file is dropped).", "quantifier": "all paths, texts, alphabets and file systems", "why_tests_cant": "There are no tests of this converter.", "anchors": ["nion/utils/Converter.py:148-152"]}
{"id": "C125", "title": "Persistent properties whose callbacks use the object", "statement": "Setting a persistent property calls its changed callback between the assignment and the write to storage; callbacks may set any property, raise, catch, read the object from a dict and update custom properties, nested to any depth. For all histories, at every moment: a property is what its callback was last told; the storage holds what was last written; every setting that returns writes what its callback was last told and counts one modification. A property whose callback is not running is stored as it is if the last use of it that ended was a setting that returned, also if settings nested in it failed. If no callback raises and nothing is read, all is stored as it is whenever nothing is under way. Reading what is stored for a property, anywhere and any number of times, leaves it and what is stored if it is not set meanwhile. A callback that sets its own property again at every call until the recursion limit leaves the innermost value, and nothing stored or counted. Refuted: that a property is stored as it is after a setting whose callback raised; that reading the stored document leaves object and document in agreement if the callback of one property sets one that is read later; that the storage holds at every moment what the object was at some moment.", "quantifier": "all properties, values, validators, converters, histories and nestings", "why_tests_cant": "Tests use callbacks that do not set properties and do not raise.", "anchors": ["nion/utils/Persistence.py:46-61", "nion/utils/Persistence.py:511-513", "nion/utils/Persistence.py:582-627", "nion/utils/Persistence.py:644-657"]}
{"id": "C126", "title": "Making and releasing the selections of a list", "statement": "release_selection of the three list models takes a selection out with list.remove, which compares with ==, and selections are equal if their indexes and anchors are. For all histories of making, releasing and using selections and of edits of the list: releasing a selection that follows the items never raises and takes out the oldest that has the same indexes and anchor, so the one released exactly if no older one is like it; what can be seen of those that remain is what it would be with the right one taken out. Releasing one that does not follow raises ValueError exactly if none that follows is like it, and else takes another out. If each release is of a selection that is due and no older one is like it, exactly those follow that were made and not released, a selection that is not released keeps its items selected through all edits, and one released stays as it is; releasing the oldest each time is enough. Refuted: that a selection that is not released follows the items (two selections that are both empty; the second is released); that a released one stays; that releasing one twice takes no other out.", "quantifier": "all histories, selections given and made, styles, edits", "why_tests_cant": "Tests make one selection and never release one.", "anchors": ["nion/utils/ListModel.py:602-608", "nion/utils/ListModel.py:626-640", "nion/utils/ListModel.py:760-766", "nion/utils/ListModel.py:852-858", "nion/utils/Selection.py:33-37"]}
{"id": "C127", "title": "Persistent properties whose values can be edited", "statement": "Values such as lists and dicts are objects; set_value copies what it is given unless there is a validate function, reading gives the object itself unless copy_on_read, the storage gets a copy. For all histories in which the client makes and edits objects it has, sets properties, reads them from dicts and gets their values: a property without callback, with no validation or one that makes a new object, keeps the contents its argument had when it was set, and these are stored, whatever is done with all objects the client has before and afterwards, as long as it is not set or read again and its value is not got unless it is copied on read; the same if it is read from a dict, and then nothing is stored. A property changes only when it is set or read from a dict or when the client edits the very object that is its value and that it was given; what is stored changes only when it is set. A client that gets a value that is not copied can make it anything, and nothing is stored. Refuted: that a property stays as it was set - if it is not copied on read; if it is, but has a changed callback, which is given the object itself; if it is, but its validate function returns what it is given; that a property is independent of one with the same default object.", "quantifier": "all contents, histories, validate functions and kinds of properties", "why_tests_cant": "Tests set numbers, strings and fresh lists and look at them at once.", "anchors": ["nion/utils/Persistence.py:29-61", "nion/utils/Persistence.py:96-108", "nion/utils/Persistence.py:442-447", "nion/utils/Persistence.py:633-637"]}
{"id": "C128", "title": "Filtered lists of items that may be equal", "statement": "A FilteredListModel without sort key finds items by == in its own copy of the container and in what it shows, and by id in its listeners. Items are in classes of equal ones, and the filter depends on the class. For all histories of insertions and deletions: if each item is, when inserted, equal to none in the container, the list shows exactly the accepted items in order and no handler raises; the copy never holds two equal items, so it differs from the container as long as that does. If items are only inserted, then of equal items that are accepted exactly one is shown, and no other, and the handler raises AssertionError, and nothing else, once for each item the copy lacks; if they are appended, it is the first of them, in order. Refuted: that with insertions only the shown items are in the order of the container; that an item there is shown or one equal to it; that nothing is shown if the container is empty; that an item no other was ever equal to is not shown after its removal; that no two equal items are shown.", "quantifier": "all items, equalities, filters and histories", "why_tests_cant": "Tests use a few items that differ.", "anchors": ["nion/utils/ListModel.py:375-382", "nion/utils/ListModel.py:385-425", "nion/utils/ListModel.py:611-640", "nion/utils/Event.py:103-114"]}
