{"id": "C01", "title": "Atom fields survive encoding", "statement": "Building an atom with any public constructor of Atom (pointers, sets, objects, markers, operators, strings, devices, booleans, ...) and reading it back with the accessors meant for that kind returns exactly the fields that were supplied, as long as each field fits the documented width (12-bit index/opcode, 8-bit counts, ids).", "quantifier": "every constructor and every combination of field values inside the documented widths", "why_tests_cant": "the space of field combinations is 2^32 per constructor family; a unit test samples a handful of values and misses overlaps between neighbouring bit fields", "anchors": ["r_code/atom.cpp: Atom::IPointer..Atom::Duration, Atom::Device", "r_code/atom.inline.cpp: getDescriptor, asIndex, asOpcode, getAtomCount, asInputIndex, asRelativeIndex, asAssignmentIndex, asCastOpcode, getClassID, getDeviceID"]}
{"id": "C02", "title": "Atom kinds are never confused", "statement": "Two atoms built by different constructors are different atoms, whatever the field values; a float atom is recognised as a float and nothing else is; exactly one kind (descriptor) applies to any 32-bit word.", "quantifier": "all pairs of constructors and all field values, and all 2^32 words", "why_tests_cant": "absence of collisions is a statement about all pairs of encodings", "anchors": ["r_code/atom.cpp: constructors", "r_code/atom.inline.cpp: isFloat, isStructural, readsAsNil", "r_code/atom.cpp: Atom::isStructural, Atom::isFloat, Atom::readsAsNil"]}
{"id": "C03", "title": "Numbers stored in code lose at most one unit of the last place", "statement": "Storing a 32-bit float in an atom and reading it back returns the same number except that the lowest mantissa bit is cleared: the sign, the order of numbers and the values 0 and 1 are preserved, storing twice changes nothing more, and the result is never larger in magnitude.", "quantifier": "every finite 32-bit float", "why_tests_cant": "2^32 values; and the claims about order range over pairs", "anchors": ["r_code/atom.cpp: Atom::Float", "r_code/atom.inline.cpp: asFloat"]}
{"id": "C04", "title": "Special atoms read back as what they are", "statement": "A node atom built for node id n reports node id n, and the atoms produced to mean an undefined value are recognised as nil by the nil test.", "quantifier": "every node id 0..255 and every undefined-value constructor", "why_tests_cant": "the constructor and the reader live in different files and nothing exercises all ids", "anchors": ["r_code/atom.cpp: Atom::Node, Atom::UndefinedFloat, Atom::UndefinedTimestamp, Atom::UndefinedDuration, Atom::readsAsNil", "r_code/atom.inline.cpp: getNodeID"]}
{"id": "C05", "title": "64-bit times stored in code read back exactly and disturb nothing else", "statement": "Writing a timestamp or duration structure at any index of an object's code and reading it back gives the same number of microseconds for every signed 64-bit value, and every other existing atom of the code keeps its value.", "quantifier": "every int64 value, every code array, every index", "why_tests_cant": "2^64 values and arbitrary surrounding code", "anchors": ["r_code/utils.h, code_utils.cpp: SetInt64, GetInt64, SetTimestamp, SetTimestampStruct, SetDurationStruct, GetTimestamp, GetDuration"]}
{"id": "C06", "title": "Strings stored in code read back exactly", "statement": "Writing a character string into code and reading it back returns the same string.", "quantifier": "every byte string and every index", "why_tests_cant": "length and character-range boundaries: infinitely many strings", "anchors": ["r_code/code_utils.cpp: Utils::SetString, Utils::GetString", "r_code/atom.cpp: Atom::String"]}
{"id": "C07", "title": "Resilience equals the number of group updates until the deadline", "statement": "The resilience computed for a time to live is the number of update instants of the group in the interval (now, now+ttl] rounded so that the object survives at least until its deadline; it is at least 1, never decreases when the time to live grows, and the conversion between two groups' periods never shortens the life of the object.", "quantifier": "all times, all time-to-live values, all update periods", "why_tests_cant": "integer-division corner cases over unbounded arithmetic", "anchors": ["r_code/utils.h: Utils::GetResilience (both overloads)"]}
{"id": "C08", "title": "Group update instants form the period lattice", "statement": "The next update time of a group is the unique instant of the lattice {reference + k*period} in (now, now+period]; the previous update time is the unique one in (now-period, now]; a group with period 0 never updates.", "quantifier": "every current time, reference time and period", "why_tests_cant": "modular arithmetic over unbounded time values", "anchors": ["r_exec/group.cpp: Group::get_next_upr_time, Group::get_prev_upr_time"]}
{"id": "C09", "title": "The cell list behaves as a sequence under every history", "statement": "After any sequence of push_front, push_back, erase, remove, erase-while-iterating and clear operations, iterating an r_code::list yields exactly the elements that an ordinary sequence would contain after the same operations, in the same order, and its size is right; cells freed are reused and never lost.", "quantifier": "every finite sequence of operations on the list and every element value", "why_tests_cant": "the defect classes (dangling links, lost cells, wrong free list) only appear after particular interleavings of unbounded histories", "anchors": ["r_code/list.h: r_code::list::push_front, push_back, erase, remove, clear, iterator"]}
{"id": "C10", "title": "List element handles stay valid", "statement": "The location returned when an element is added designates that element until it is erased, whatever else is added or erased in the meantime.", "quantifier": "every list state reachable by any history, every later history", "why_tests_cant": "needs a quantification over later histories", "anchors": ["r_code/list.h: push_back(t, location), push_front(t, location), erase(location)"]}
{"id": "C11", "title": "Binary write/read of system objects is the identity", "statement": "Writing a view, object or object graph into the image word format and reading it back yields the same data, consumes exactly the words written, and the announced size equals the number of words written.", "quantifier": "every object: any code, references, markers and views", "why_tests_cant": "unbounded sizes; length fields of different widths", "anchors": ["r_code/object.cpp: SysView::write/read/get_size, SysObject::write/read/get_size", "r_code/resized_vector.h"]}
{"id": "C12", "title": "A compiled image read from its word array is the image that was written", "statement": "Metadata and code segments written to an image's word array are reconstructed identically when read back, whatever their sizes.", "quantifier": "every metadata and code segment", "why_tests_cant": "needs segments whose size crosses the 16-bit boundary, and unbounded nesting", "anchors": ["r_comp/segments.cpp: ObjectMap::write/read, CodeSegment::write/read, Metadata::write/read, Image::getSize"]}
{"id": "C13", "title": "Merging two time intervals yields their intersection", "statement": "Matching the time bounds of a pattern against those of an input succeeds exactly when the two intervals have a non-empty (half-open) intersection, and then the stored bounds become that intersection; on failure the stored bounds are unchanged.", "quantifier": "all stored bounds and all input bounds", "why_tests_cant": "four-dimensional integer case split", "anchors": ["r_exec/binding_map.cpp: BindingMap::match_timings"]}
{"id": "C14", "title": "Successful matching yields bindings that make the pattern equal to the object", "statement": "When a pattern matches an object, every variable occurring in the pattern is bound, and the pattern with its variables replaced by their values equals the object up to the numeric and time tolerances.", "quantifier": "every pattern, object and prior binding map", "why_tests_cant": "unbounded structural recursion through nested objects", "anchors": ["r_exec/binding_map.cpp: BindingMap::match, match_atom, match_structure, match_object, bind_variable"]}
{"id": "C15", "title": "A bound variable never changes its value during matching", "statement": "Once a variable has a value, no later matching of any pattern against any object changes it; matching only adds values to unbound variables.", "quantifier": "every sequence of match operations, successful or not", "why_tests_cant": "history property over unbounded sequences", "anchors": ["r_exec/binding_map.cpp: BindingMap::bind_variable, match_*"]}
{"id": "C16", "title": "Abstraction maps equal values to the same variable", "statement": "When a value is abstracted into a variable, a value already present in the map is given the variable it already has and the map does not grow; otherwise it gets a fresh variable that no other value has; looking the variable up gives back the value.", "quantifier": "every history of abstractions", "why_tests_cant": "history property; interacts with the tolerance-based equality", "anchors": ["r_exec/binding_map.cpp: BindingMap::get_atom_variable, get_structure_variable, get_object_variable"]}
{"id": "C17", "title": "Matching tells different durations and strings apart", "statement": "Two structured values that match differ at most by the configured numeric tolerance on numbers and the time tolerance on times: in particular two different strings never match, and two durations match only if they differ by less than the time tolerance.", "quantifier": "every pair of duration or string values", "why_tests_cant": "the failing pairs depend on how raw payload words look when reinterpreted as floats", "anchors": ["r_exec/factory.cpp: _Fact::MatchStructure, _Fact::MatchAtom", "r_exec/binding_map.cpp: StructureValue::contains"]}
{"id": "C18", "title": "Temporal relations between facts are coherent", "statement": "Overlap of fact intervals is symmetric and agrees with non-empty intersection; inclusion is a partial order and implies overlap for non-empty intervals; synchronous matching is implied by equality of bounds.", "quantifier": "all pairs and triples of facts", "why_tests_cant": "relations over unbounded integers", "anchors": ["r_exec/factory.cpp: _Fact::match_timings_overlap, match_timings_inclusive, match_timings_sync"]}
{"id": "C19", "title": "Evidence is classified with the right polarity", "statement": "Comparing a fact with a target reports positive evidence exactly when the objects match, the times overlap and both are of the same polarity (or it is counter-evidence against an anti-fact target), negative evidence exactly in the opposite polarity cases, and no evidence otherwise; swapping the polarity of the target swaps the answer.", "quantifier": "every pair of facts over every pair of objects", "why_tests_cant": "unbounded objects and times", "anchors": ["r_exec/factory.cpp: _Fact::is_evidence, is_timeless_evidence, CounterEvidence"]}
{"id": "C20", "title": "Operators are total, typed and algebraically sound", "statement": "Evaluating the arithmetic and comparison operators on any pair of operands returns a defined value only for the documented operand type pairs; adding a duration to a timestamp and subtracting it again gives back the timestamp; comparisons of two times or two numbers are consistent (exactly one of less, equal, greater for times) and symmetric where they should be.", "quantifier": "all operand pairs of all types", "why_tests_cant": "cross product of all types and values", "anchors": ["r_exec/operator.cpp: equ, neq, gtr, lsr, gte, lse, add, sub, mul, div, dis"]}
{"id": "C21", "title": "View control values stay in range and every request is counted once", "statement": "After any sequence of modification and assignment requests to a view's saliency, activation, visibility and resilience followed by an update, the value is within [0,1] (resilience is non-negative), equals the old value plus the mean of the pending requests clamped to that range, and the pending requests are cleared so no request takes effect twice.", "quantifier": "every sequence of requests and updates", "why_tests_cant": "history property with saturation at both ends", "anchors": ["r_exec/view.cpp, view.h: View::mod, View::set, View::mod_sln/set_sln/..., View::update_sln, update_act, update_vis, update_res"]}
{"id": "C22", "title": "Requests on group control parameters take effect at the next update, within range", "statement": "After any sequence of modification or assignment requests to a group's thresholds and control values, the next update brings each parameter to its old value plus the mean request, clamped to its documented range, and forgets the requests.", "quantifier": "every sequence of requests on every member and every number of updates", "why_tests_cant": "history property for each of a dozen parameters", "anchors": ["r_exec/group.inline.cpp: Group::mod, Group::set", "r_exec/group.cpp: update_sln_thr, update_act_thr, update_vis_thr, update_c_sln, update_c_act, update_c_sln_thr, update_c_act_thr, Group::update"]}
{"id": "C23", "title": "A group holds each view in exactly one place", "statement": "After any sequence of insertions and deletions, every view held by a group is stored exactly once, in the collection that corresponds to its kind, lookup by identifier finds it, iteration visits it exactly once, and deletion removes it everywhere.", "quantifier": "every history of insertions and deletions of views of any kind", "why_tests_cant": "six collections kept consistent by separate code paths", "anchors": ["r_exec/group.h: FOR_ALL_VIEWS..., Group::get_view", "r_exec/group.cpp: Group::load, delete_view, inject_new_object, inject_notification"]}
{"id": "C24", "title": "A program is active exactly while its group and view are above threshold", "statement": "After each group update, the controller of a program in that group is activated if and only if the view's activation exceeds the group's activation threshold and the group is c-active and c-salient; crossing the threshold in either direction is signalled exactly once.", "quantifier": "every history of updates, requests and threshold changes", "why_tests_cant": "depends on the order of threshold and value updates across the history", "anchors": ["r_exec/group.cpp: Group::update, Group::_update_activation", "r_exec/group.h: GroupState"]}
{"id": "C25", "title": "Objects of a group leave exactly when their resilience is exhausted", "statement": "A view injected with resilience n stays in its group for n updates of the group and is removed at the n-th; views with unlimited resilience stay; no other view disappears unless its object is invalidated.", "quantifier": "every initial resilience and every number of updates", "why_tests_cant": "counting property over unbounded histories", "anchors": ["r_exec/group.cpp: Group::update, update_res", "r_exec/view.cpp: View::update_res"]}
{"id": "C26", "title": "Saliency propagation terminates and touches each object at most once", "statement": "Propagating a saliency change over any graph of markers and references terminates, applies at most one change to each object, and reaches every object the rules say it reaches.", "quantifier": "every finite object graph, cyclic or not", "why_tests_cant": "cycles and sharing in unbounded graphs", "anchors": ["r_exec/group.cpp: Group::_initiate_sln_propagation, Group::_propagate_sln"]}
{"id": "C27", "title": "In diagnostic mode, time never runs backwards and no job runs early", "statement": "Whatever jobs are pushed by whatever handlers, the clock observed by successive handlers never decreases, no time job runs before its target time, time jobs run in order of target time, and among equal targets in the order they were pushed.", "quantifier": "every initial queue, every behaviour of the job handlers, every number of steps", "why_tests_cant": "quantifies over all schedules and handler behaviours", "anchors": ["r_exec/mem.cpp: _Mem::DiagnosticTimeState::step, ordered push of time jobs", "r_exec/mem.h: DiagnosticTimeState"]}
{"id": "C28", "title": "In diagnostic mode, the environment is sampled exactly once per period", "statement": "The per-period callback is called exactly once for each sampling period, at times start + k*period in increasing order with none skipped, and only after every time job due by that time has run.", "quantifier": "every initial queue, every behaviour of handlers, every number of steps", "why_tests_cant": "quantifies over all schedules", "anchors": ["r_exec/mem.cpp: _Mem::DiagnosticTimeState::step"]}
{"id": "C29", "title": "Every queued reduction job runs exactly once, in order", "statement": "Each reduction job pushed to the queue is run at most once, in first-in first-out order, and none is lost or duplicated while jobs push further jobs; the number of jobs run between two ticks is bounded by the configured limit.", "quantifier": "every sequence of pushes by every handler", "why_tests_cant": "schedules and reentrancy", "anchors": ["r_exec/mem.cpp: _Mem::DiagnosticTimeState::step", "r_exec/mem.cpp: _Mem::push_reduction_job"]}
{"id": "C30", "title": "In real-time mode, a repeating time job never runs before its due time", "statement": "When a time job asks to be run again at a later time, it is not run before that time, whether it is executed by the time core or handed over to a delegated core.", "quantifier": "every job, every requested time, every clock behaviour", "why_tests_cant": "depends on clock interleavings", "anchors": ["r_exec/time_core.cpp: TimeCore::Run, DelegatedCore::Run, DelegatedCore::Wait"]}
{"id": "C31", "title": "Failed models are not re-learned while remembered", "statement": "After any history of model submissions, failures, timeouts and clean-ups, a model that was reported as failing and has not been forgotten is refused on submission, a submitted model equal to a known live one is answered with the known one, and no model is both live and failed.", "quantifier": "every history of operations", "why_tests_cant": "protocol over unbounded histories", "anchors": ["r_exec/model_base.cpp: ModelBase::check_existence, register_mdl_failure, register_mdl_timeout, trim_objects"]}
{"id": "C32", "title": "A pair of dependent models is accepted or refused consistently", "statement": "When two models are submitted together, each of the two answers is either nothing (refused) or a model that is live in the model base from then on.", "quantifier": "every state of the model base and every pair", "why_tests_cant": "needs all nine combinations in all reachable states", "anchors": ["r_exec/model_base.cpp: ModelBase::check_existence(m0, m1, ...)"]}
{"id": "C33", "title": "Rolling back an evaluation restores the program code", "statement": "After any sequence of patches and evaluations since the last commit, a rollback restores the program code and the value store to exactly what they were at that commit; committed patches are kept; un-patching back to a recorded position restores the code as it was at that position.", "quantifier": "every program code and every sequence of patches, commits and rollbacks", "why_tests_cant": "history property; interactions between repeated patches of the same location", "anchors": ["r_exec/overlay.cpp, overlay.h: Overlay::patch_code, unpatch_code, get_last_patch_index, rollback, commit, reset"]}
{"id": "C34", "title": "Programs react to every combination of inputs", "statement": "For a program with n input patterns, every sequence of distinct inputs that matches the patterns (each input on the pattern that the program assigns to it) fires the productions once, and no combination fires that does not match all patterns and guards.", "quantifier": "every program size, every input stream, every match relation", "why_tests_cant": "combinatorial: number of partial matches grows with every stream", "anchors": ["r_exec/pgm_overlay.cpp: PGMOverlay::reduce, match, offspring constructor", "r_exec/pgm_controller.cpp: PGMController::reduce"]}
{"id": "C35", "title": "Anti-programs notice every occurrence", "statement": "An anti-program does not fire if a combination of inputs matching all its patterns and guards arrived during its time scope, whatever other inputs arrived before.", "quantifier": "every input stream", "why_tests_cant": "depends on unsuccessful candidates earlier in the stream", "anchors": ["r_exec/pgm_overlay.cpp: AntiPGMOverlay::reduce", "r_exec/pgm_controller.cpp: AntiPGMController::reduce, signal_anti_pgm"]}
{"id": "C36", "title": "Packing and unpacking a model preserves it", "statement": "Unpacking a packed high-level pattern gives back an object with the same code and the same (recursively unpacked) references as the original.", "quantifier": "every well-formed model or composite state", "why_tests_cant": "unbounded nesting, pointer relocation", "anchors": ["r_exec/mem.cpp: _Mem::pack_hlp, unpack_hlp, pack_fact, unpack_fact, _unpack_code"]}
{"id": "C37", "title": "Evidence caches keep exactly the usable evidence", "statement": "After any sequence of stores at non-decreasing times, the evidence cache contains every stored piece of evidence that is still usable at the time of the last store, each at most once, most recent first, and nothing that was never stored.", "quantifier": "every history of stores and times", "why_tests_cant": "history property with garbage collection", "anchors": ["r_exec/hlp_controller.h: HLPController::_store_evidence, EvidenceEntry::is_too_old"]}
{"id": "C38", "title": "Requirement bookkeeping balances", "statement": "After any sequence of adding and removing requirements, the controller's total number of requirements is the sum of strong and weak ones and equals additions minus removals of each kind.", "quantifier": "every history", "why_tests_cant": "history property", "anchors": ["r_exec/hlp_controller.h: HLPController::add_requirement, remove_requirement, get_requirement_count"]}
{"id": "C39", "title": "Model ratings stay meaningful", "statement": "After any sequence of successes and failures, a model's success rate is within [0,1], its evidence count is at least 1 and changes by the documented rule, a model becomes strong only through the inertia rule, and a weak model is deleted exactly when a failure brings its success rate to or below its group's activation threshold.", "quantifier": "every history of outcomes, every threshold and inertia setting", "why_tests_cant": "history property over floating-point arithmetic", "anchors": ["r_exec/mdl_controller.cpp: PrimaryMDLController::rate_model, SecondaryMDLController::rate_model"]}
{"id": "C40", "title": "Every monitored goal gets exactly one outcome", "statement": "A monitored goal is reported as success or failure exactly once: success when positive evidence arrives before the deadline, failure on counter-evidence or at the deadline, and never after its monitor has been removed.", "quantifier": "every interleaving of inputs, simulation results and deadline", "why_tests_cant": "schedules of asynchronous events", "anchors": ["r_exec/g_monitor.cpp: GMonitor::reduce, GMonitor::update, GMonitor::commit", "r_exec/monitor.cpp"]}
{"id": "C41", "title": "Every monitored prediction gets at most one outcome", "statement": "A monitored prediction is reported at most once; it is reported a failure at its deadline only if no confirming evidence was received and failures are rated; after being reported, its monitor is gone.", "quantifier": "every interleaving of inputs and deadline", "why_tests_cant": "schedules of asynchronous events", "anchors": ["r_exec/p_monitor.cpp: PMonitor::reduce, PMonitor::update"]}
{"id": "C42", "title": "Generated names are unique", "statement": "When decompiling an image, no two objects get the same name, and the generated numeric/alphabetic suffixes are never repeated.", "quantifier": "every number of objects", "why_tests_cant": "infinite family of generated names", "anchors": ["r_comp/decompiler.cpp: Decompiler::init, make_suffix, get_variable_name"]}
{"id": "C43", "title": "Objects that are equal are found by the existence check", "statement": "Two objects considered equal always have the same hash value, and equality is an equivalence relation, so the existence check finds an existing equal object if there is one.", "quantifier": "all pairs of objects", "why_tests_cant": "hash/equality consistency is a statement about all pairs", "anchors": ["r_exec/object.h: Object::Equal, Object::Hash", "r_exec/object.tpl.cpp: compute_hash_value"]}
{"id": "C44", "title": "Saliency-propagation threshold of an object stays in range", "statement": "Whatever modifications are requested on an object's propagation threshold, the stored value stays in [0,1] and no other atom of the object changes; requests on other members have no effect.", "quantifier": "every object, every member index, every request history", "why_tests_cant": "history property with saturation", "anchors": ["r_exec/object.tpl.cpp: Object::mod, Object::set"]}
{"id": "C45", "title": "Object identifiers are unique", "statement": "No two registered objects ever have the same identifier, including objects loaded from an image, whatever the order of registration and deletion.", "quantifier": "every history of loads, registrations and deletions", "why_tests_cant": "history property", "anchors": ["r_exec/mem.cpp: _Mem::load, MemStatic::bind, MemVolatile::bind, MemStatic::delete_object"]}
{"id": "C46", "title": "A binding map knows whether all its variables have values, and copies are faithful", "statement": "A binding map reports being fully specified exactly when none of its variables lacks a value, whatever variables were added, objects matched and values abstracted before; copying a map always returns, and yields a map with the same values.", "quantifier": "every history of additions, matches and abstractions, maps of any size", "why_tests_cant": "a counter maintained by constructors and destructors over arbitrary histories; unbounded sizes", "anchors": ["r_exec/binding_map.cpp: UnboundValue, BindingMap::add_unbound_value, is_fully_specified, operator=, BindingMap(const BindingMap *)"]}
{"id": "C47", "title": "Facts are built as asked and can be negated", "statement": "A fact built from an object, an interval and a polarity reads back exactly that object, interval and polarity; its absentee has the same object and interval and the opposite polarity (so the absentee of the absentee is the original); negating a fact in place changes only its polarity, and negating twice restores it.", "quantifier": "every object, every 64-bit interval, both polarities", "why_tests_cant": "all 64-bit times and all fact contents", "anchors": ["r_exec/factory.cpp: _Fact::_Fact, _Fact::get_absentee, _Fact::set_opposite, get_after, get_before"]}
{"id": "C48", "title": "A run in diagnostic time ends at the requested time", "statement": "Running in diagnostic time for a given duration runs no job and samples nothing after the end time (the start time plus the duration).", "quantifier": "every initial queue, every behaviour of the handlers, every duration", "why_tests_cant": "quantifies over all schedules", "anchors": ["r_exec/mem.cpp: _Mem::run_in_diagnostic_time, DiagnosticTimeState::step"]}
{"id": "C49", "title": "The memory lists exactly its live objects", "statement": "Registering and deleting objects never fails; deleting an object takes exactly that object out of the memory's store; at any time the memory lists (for instance when it is saved) exactly the registered objects that have not been deleted, each once.", "quantifier": "every loaded image, every history of registrations and deletions", "why_tests_cant": "history property over reused storage indices", "anchors": ["r_exec/mem.cpp: _Mem::store, _Mem::load, MemStatic::bind, MemStatic::delete_object, MemStatic::get_objects", "r_exec/object.tpl.cpp: Object::invalidate", "r_exec/hlp_controller.cpp: inject_notification_into_out_groups"]}
{"id": "C50", "title": "Consecutive low and high periods are counted exactly", "statement": "The number of notification periods a view is credited with at low (high) saliency equals the number of most recent consecutive updates that left its saliency below the low (above the high) threshold.", "quantifier": "every history of requests and updates", "why_tests_cant": "history property", "anchors": ["r_exec/view.cpp: View::update_sln, View::update_act", "r_exec/group.cpp: Group::_update_saliency"]}
{"id": "C51", "title": "A copied view keeps its control values in range and on the same side of the threshold", "statement": "When a view is copied to another group, its saliency, activation and visibility stay within [0,1] and are above the destination's threshold exactly when the originals are above the source's.", "quantifier": "every value and every pair of thresholds in [0,1]", "why_tests_cant": "floating point rounding over all values", "anchors": ["r_exec/view.cpp: View::View(View *, Group *), View::MorphValue"]}
{"id": "C52", "title": "Group updates are planned on a regular grid", "statement": "A group with update period p is updated once per period, at times that are whole numbers of periods after the reference time, starting within one period of the moment it enters memory; changing the period changes the spacing, and setting it to zero suspends the updates until it is set again.", "quantifier": "every period, base period, reference time, current time and number of updates", "why_tests_cant": "arithmetic over all times and an unbounded number of updates", "anchors": ["r_exec/group.cpp: Group::get_next_upr_time, get_prev_upr_time, Group::update, inject_group", "r_exec/mem.cpp: _Mem::start"]}
{"id": "C53", "title": "Group statistics describe the views of the group", "statement": "After an update, the statistics published by a group are the average, the greatest and the least saliency of its views, and the average, the greatest and the least activation of its programs.", "quantifier": "every history of a group and every number of views", "why_tests_cant": "ranges over all sets of views and orders of iteration", "anchors": ["r_exec/group.cpp: Group::reset_stats, update_sln, update_act, update_stats"]}
{"id": "C54", "title": "Programs are given exactly the views that become salient", "statement": "At each update of a c-salient group, the views handed to the programs are exactly those that cross the saliency threshold upwards (synchronisation modes once and periodic), or that are above it (modes hold and axiom).", "quantifier": "every history of requests, injections and updates", "why_tests_cant": "depends on the order in which thresholds and values are updated across the history", "anchors": ["r_exec/group.cpp: Group::_update_saliency, Group::update, update_sln_thr"]}
{"id": "C55", "title": "A propagated change keeps its direction", "statement": "When a saliency change spreads to the views of a linked object in other groups, an increase never arrives as a decrease and a decrease never as an increase.", "quantifier": "every change and every pair of thresholds in [0,1]", "why_tests_cant": "floating-point scaling over all values", "anchors": ["r_exec/view.cpp: View::MorphChange", "r_exec/mem.cpp: _Mem::propagate_sln"]}
{"id": "C56", "title": "Failures never raise a model's success rate, successes never lower it", "statement": "Recording a failure never increases the success rate of a model, and recording a success never decreases it.", "quantifier": "every rate in [0,1], every evidence count, every setting", "why_tests_cant": "depends on three successive roundings over all floating-point rates and counts", "anchors": ["r_exec/mdl_controller.cpp: PrimaryMDLController::rate_model, SecondaryMDLController::rate_model"]}
{"id": "C57", "title": "The requirements of a pair of models are withdrawn exactly once", "statement": "When a pair of models is created, each of the two that is a requirement is counted by the model it requires; when the pair is removed, by whatever way and order its two controllers are killed or their views deleted, each requirement is subtracted exactly once, so that the counters come back to what they were.", "quantifier": "every pair, every kind of requirement, every order of killing and deletion", "why_tests_cant": "depends on the order of asynchronous timeouts, failures and deletions", "anchors": ["r_exec/mdl_controller.cpp: PrimaryMDLController::set_secondary, kill_views, SecondaryMDLController::kill_views, add_requirement_to_rhs, remove_requirement_from_rhs", "r_exec/view.cpp: View::~View"]}
{"id": "C58", "title": "Forward chaining is decided by the requirements that apply", "statement": "When a model is about to predict, the outcome is decided by the requirements that are usable, in range, matching and were produced while chaining was allowed: enabled exactly if some weak requirement applies that does not clash with the youngest strong one or has greater confidence; disabled by the strong one exactly if weak ones apply but none wins; and so on for the other cases. The bindings returned are those of exactly the weak requirements that win, and usable requirements stay available for later look-ups.", "quantifier": "every content of the requirement caches, every matching relation, every time", "why_tests_cant": "ranges over all combinations and orders of cached requirements; the wrong erase in one branch needs an expired entry at the right moment", "anchors": ["r_exec/mdl_controller.cpp: MDLController::retrieve_imdl_fwd, _store_requirement", "r_exec/mdl_controller.h: RequirementEntry"]}
{"id": "C59", "title": "Backward and simulated chaining are decided by the requirements that apply", "statement": "The same decision holds when chaining backward (the ground returned is the youngest weak requirement that wins, with its bindings) and within a simulation (only requirements predicted in that simulation count; backward, timings of weak and strong are compared as well, and the consequences of exactly the defeated weak requirements are invalidated).", "quantifier": "every content of the requirement caches, every matching relation, every simulation, every time", "why_tests_cant": "ranges over all combinations and orders of cached requirements and their intervals", "anchors": ["r_exec/mdl_controller.cpp: MDLController::retrieve_imdl_bwd, retrieve_simulated_imdl_fwd, retrieve_simulated_imdl_bwd"]}
{"id": "C60", "title": "The flag for overriding weak requirements", "statement": "A forward look-up says that a weak requirement was enabled against a strong one exactly if some weak requirement that applies clashes with a strong one that applies and has greater confidence.", "quantifier": "every content of the requirement caches", "why_tests_cant": "depends on the order of the entries in the cache", "anchors": ["r_exec/mdl_controller.cpp: MDLController::retrieve_imdl_fwd (wr_enabled)", "r_exec/mdl_controller.h: retrieve_imdl_fwd"]}
{"id": "C61", "title": "An expression has one value, however it is computed", "statement": "When the value of a number expression (op a b) is computed while a goal or a model is being learned, the shortcut that computes it directly on the two numbers gives the same atoms as evaluating the expression with the operator that programs and models use.", "quantifier": "every operator and every pair of number operands, including zeros, infinities and NaN", "why_tests_cant": "all pairs of floating-point patterns for all operators", "anchors": ["r_exec/operator.cpp: OpContext::build_and_evaluate_expression, evaluate_expression, gtr, lsr, gte, lse, add, sub, mul, div"]}
{"id": "C62", "title": "Equality compares values", "statement": "The equality operator on two times (timestamps or durations) is true exactly when both have the same head and the same count of microseconds, wherever they are stored; equality is reflexive, symmetric and transitive, and inequality is its opposite.", "quantifier": "every pair of times, stored in the code, in computed values or in objects; every memory content", "why_tests_cant": "2^64 times; failure depends on the bit pattern of the low word and on what else is stored", "anchors": ["r_exec/context.cpp: IPGMContext::operator ==, dereference", "r_exec/context.h: get_child_deref", "r_exec/operator.cpp: equ, neq"]}
{"id": "C63", "title": "Waiting copies keep the committed state", "statement": "When a program has matched one of several inputs, the copy of its state that waits for other candidates has the code and the computed values of the last committed state.", "quantifier": "every program code, every sequence of patches, evaluations and commits", "why_tests_cant": "the copy is only visible through later matches; depends on the number of values computed before", "anchors": ["r_exec/pgm_overlay.cpp: PGMOverlay::PGMOverlay(PGMOverlay *, uint16, uint16)", "r_exec/overlay.cpp: Overlay::Overlay"]}
{"id": "C64", "title": "Computed results are read back as computed", "statement": "A time, duration or structure computed by an evaluation is read back as it was computed, until its place is computed again or rolled back, however many results were computed before.", "quantifier": "every sequence of evaluations", "why_tests_cant": "fails only for large numbers of results", "anchors": ["r_exec/_context.cpp: setTimestampResult, setDurationResult, setCompoundResultHead, addCompoundResultPart", "r_code/atom.h: ValuePointer, asIndex"]}
{"id": "C65", "title": "Run-once programs fire once", "statement": "A program that is not to run again fires at most once, whatever inputs arrive and however many are already queued.", "quantifier": "every program, every stream of inputs", "why_tests_cant": "depends on inputs that are queued when the program fires", "anchors": ["r_exec/pgm_controller.cpp: PGMController::reduce, notify_reduction, signal_anti_pgm, signal_input_less_pgm", "r_exec/reduction_job.h: ReductionJob::update"]}
{"id": "C66", "title": "Anti-programs keep watching", "statement": "An anti-program that may run again fires again each time another time scope passes without an occurrence.", "quantifier": "every sequence of inputs and of times", "why_tests_cant": "unbounded time", "anchors": ["r_exec/pgm_controller.cpp: AntiPGMController::signal_anti_pgm, restart, push_new_signaling_job"]}
{"id": "C67", "title": "No overlay is used after its release", "statement": "A controller only goes on with overlays that it still references.", "quantifier": "every sequence of inputs and signals", "why_tests_cant": "memory safety over all executions", "anchors": ["r_exec/pgm_controller.cpp: AntiPGMController::reduce, signal_anti_pgm"]}
{"id": "C68", "title": "Input-less programs fire once per time scope", "statement": "An active input-less program fires once every time scope, never more often, whatever activations and deactivations happened.", "quantifier": "every sequence of activations, deactivations and times", "why_tests_cant": "depends on the interleaving of activations with pending jobs", "anchors": ["r_exec/pgm_controller.cpp: InputLessPGMController::signal_input_less_pgm", "r_exec/group.cpp: Group::update, _update_activation", "r_exec/time_job.cpp: InputLessPGMSignalingJob::update"]}
{"id": "C69", "title": "A goal that is predicted to succeed stays watched", "statement": "After a goal has been predicted to succeed, its monitor still runs: if the goal is later predicted to fail, it is pursued again; while it is pursued, predicted failures change nothing; and it is never pursued more than once at a time.", "quantifier": "every interleaving of inputs, simulation results and deadline", "why_tests_cant": "schedules of asynchronous events", "anchors": ["r_exec/g_monitor.h: GMonitor", "r_exec/g_monitor.cpp: GMonitor::reduce", "r_exec/mdl_controller.cpp: PMDLController::register_predicted_goal_outcome"]}
{"id": "C70", "title": "A requirement that is met is not reported a failure", "statement": "A monitored requirement is reported a failure at most once, not before its deadline, and only if it was not met before.", "quantifier": "every interleaving of signals, simulation horizon and deadline", "why_tests_cant": "schedules of asynchronous events", "anchors": ["r_exec/g_monitor.cpp: RMonitor::signal, RMonitor::update, RMonitor::reduce"]}
{"id": "C71", "title": "The best solution is pursued", "statement": "At the end of the simulation, unless a mandatory solution makes a more important goal fail, all the mandatory solutions and the best of the optional solutions that are still valid and harm no more important goal are committed to, and all simulations are stopped.", "quantifier": "every set of recorded simulated successes and failures, every confidence and time", "why_tests_cant": "four lists of arbitrary length, floating-point comparisons", "anchors": ["r_exec/g_monitor.cpp: GMonitor::commit, _GMonitor::invalidate_sim_outcomes"]}
{"id": "C72", "title": "Damaging simulations are stopped", "statement": "When a simulated goal decides, every simulation that makes a more important goal fail is stopped, and no other.", "quantifier": "every set of recorded simulated failures", "why_tests_cant": "lists of arbitrary length", "anchors": ["r_exec/g_monitor.cpp: SGMonitor::commit"]}
{"id": "C73", "title": "A simulated requirement decides once", "statement": "When the horizon of a simulated requirement is reached, it decides once and its monitor is removed.", "quantifier": "every set of recorded simulated failures", "why_tests_cant": "lists of arbitrary length", "anchors": ["r_exec/g_monitor.cpp: SRMonitor::update, SGMonitoringJob::update, SGMonitor::update"]}
{"id": "C74", "title": "Labels are written right before what they label", "statement": "In decompiled code, a label or variable discovered later is inserted right before the text of the element it denotes, whatever was written and inserted before, and nothing else of the text changes.", "quantifier": "every sequence of writes and insertions", "why_tests_cant": "texts of any length; the error needs more than 65535 elements", "anchors": ["r_comp/out_stream.h: OutStream::push, OutStream::insert"]}
{"id": "C75", "title": "Ignoring named objects leaves out nothing else", "statement": "Decompiling an image while ignoring named objects writes exactly the objects without a user-defined name, in order, with their names; otherwise all objects are written.", "quantifier": "every image", "why_tests_cant": "the error needs object identifiers above 65535", "anchors": ["r_comp/decompiler.cpp: Decompiler::decompile, Decompiler::decompile_object"]}
{"id": "C76", "title": "A decompiler can be used for several images", "statement": "The decompiled text of an image does not depend on the images that the same decompiler processed before.", "quantifier": "every sequence of images", "why_tests_cant": "depends on the history of the decompiler", "anchors": ["r_comp/decompiler.cpp: Decompiler::decompile_references", "AERA/main.cpp: decompile"]}
{"id": "C77", "title": "Labels and variables have different names", "statement": "In a decompiled object, different labels and variables have different names.", "quantifier": "every object", "why_tests_cant": "any number of labels and variables", "anchors": ["r_comp/decompiler.cpp: Decompiler::get_variable_name, Decompiler::get_hlp_variable_name"]}
{"id": "C78", "title": "A group sees the groups it should see", "statement": "After every update, a group is registered as a viewer of exactly those groups whose view in it is above its visibility threshold, provided it is c-salient and c-active, with the covariance flag of the view.", "quantifier": "every history of loads, injections, requests and updates", "why_tests_cant": "registration is incremental, so it depends on the whole history", "anchors": ["r_exec/group.cpp: Group::_update_visibility, Group::inject_group, Group::update_vis_thr", "r_exec/view.cpp: View::update_vis"]}
{"id": "C79", "title": "Changes of saliency and activation are reported when, and only when, they exceed the threshold", "statement": "Every change-monitoring period, and at no other time, a group reports the views whose saliency (activation) differs by more than the change threshold from what it was when last looked at, with the difference.", "quantifier": "every history of injections, requests and updates", "why_tests_cant": "the reference value and the countdown are carried across an unbounded history", "anchors": ["r_exec/group.cpp: Group::update_stats, Group::update, Group::reset_stats", "r_exec/view.inline.cpp: View::update_sln_delta, View::update_act_delta"]}
{"id": "C80", "title": "Decay changes saliencies by the percentage over the period", "statement": "A decay of a given percentage over a given number of updates changes the saliency of each view (target 0) or the saliency threshold (target 1) by an equal part at each of these updates, by the percentage in all; it then stops, or goes on if it is automatic.", "quantifier": "every history of requests and updates, every percentage and period", "why_tests_cant": "arithmetic over any number of updates", "anchors": ["r_exec/group.cpp: Group::update_sln_thr, Group::update_sln, Group::update_stats"]}
{"id": "C81", "title": "An instance of a composite state consists of one live, fitting fact per component", "statement": "Whenever the system states or predicts an instance of a composite state, its components are facts that arrived, each fitting one component of the composite state consistently with the others, every component is fitted once, no fact is used twice and none was invalidated.", "quantifier": "every composite state, every discipline of matching and binding, every history of input facts, predictions and invalidations", "why_tests_cant": "any number of partial matches can be pending, and facts arrive in any order", "anchors": ["r_exec/cst_controller.cpp: CSTOverlay::reduce, CSTOverlay::bind_pattern, CSTOverlay::update, CSTController::reduce"]}
{"id": "C82", "title": "An instance of a composite state is made only if its forward guards hold", "statement": "No instance of a composite state is made for bindings for which a forward guard of the composite state fails.", "quantifier": "every composite state, every discipline of matching and binding, every history of input facts, predictions and invalidations", "why_tests_cant": "the guards must be shown to be evaluated on every path to the production", "anchors": ["r_exec/cst_controller.cpp: CSTOverlay::reduce, CSTOverlay::bind_pattern, CSTOverlay::update, CSTController::reduce", "r_exec/hlp_overlay.cpp: HLPOverlay::HLPOverlay, HLPOverlay::evaluate_fwd_guards"]}
{"id": "C83", "title": "Every combination of facts that fits gives an instance", "statement": "Whenever live facts, in the order of their arrival, fit all the components of a composite state within its time interval, an instance made of these facts is produced.", "quantifier": "every composite state, every discipline of matching and binding, every history of input facts, predictions and invalidations", "why_tests_cant": "completeness of a search over all subsets of the inputs", "anchors": ["r_exec/cst_controller.cpp: CSTOverlay::reduce, CSTOverlay::bind_pattern, CSTOverlay::update, CSTController::reduce"]}
{"id": "C84", "title": "A combination of facts gives at most one instance", "statement": "No two instances of a composite state are made of the same facts.", "quantifier": "every composite state, every discipline of matching and binding, every history of input facts, predictions and invalidations", "why_tests_cant": "ranges over all pairs of pending partial matches in any history", "anchors": ["r_exec/cst_controller.cpp: CSTOverlay::reduce, CSTOverlay::bind_pattern, CSTOverlay::update, CSTController::reduce"]}
{"id": "C85", "title": "The confidence of an instance is the lowest among its components", "statement": "The confidence of an instance is the lowest of the confidences of its components, and it is injected in exactly the groups whose saliency threshold is below it.", "quantifier": "every composite state, every discipline of matching and binding, every history of input facts, predictions and invalidations", "why_tests_cant": "floating point minimum over any number of inputs in any order", "anchors": ["r_exec/cst_controller.cpp: CSTOverlay::reduce, CSTOverlay::bind_pattern, CSTOverlay::update, CSTController::reduce", "r_exec/cst_controller.h: CSTOverlay::lowest_cfd_", "r_exec/cst_controller.cpp: CSTOverlay::inject_production, CSTController::inject_icst, CSTController::inject_prediction", "r_exec/binding_map.cpp: HLPBindingMap::build_f_ihlp"]}
{"id": "C86", "title": "An instance is a prediction if and only if one of its components is", "statement": "An instance is stated as a fact if none of its components is predicted; it is a prediction grounded on exactly its predicted components if some are predicted and none simulated; it is a simulated prediction, in simulations of its components, if some are simulated.", "quantifier": "every composite state, every discipline of matching and binding, every history of input facts, predictions and invalidations", "why_tests_cant": "the mode depends on the whole set of inputs taken in any order", "anchors": ["r_exec/cst_controller.cpp: CSTOverlay::reduce, CSTOverlay::bind_pattern, CSTOverlay::update, CSTController::reduce", "r_exec/cst_controller.cpp: CSTOverlay::inject_production"]}
{"id": "C87", "title": "Instances do not mix simulations", "statement": "All the simulated components of an instance belong to the same simulations.", "quantifier": "every composite state, every discipline of matching and binding, every history of input facts, predictions and invalidations", "why_tests_cant": "needs an invariant of all pending partial matches", "anchors": ["r_exec/cst_controller.cpp: CSTOverlay::reduce, CSTOverlay::bind_pattern, CSTOverlay::update, CSTController::reduce"]}
{"id": "C88", "title": "A simulated instance depends on all that its components depend on", "statement": "The defeasible validities of a simulated instance are those of its components.", "quantifier": "every composite state, every discipline of matching and binding, every history of input facts, predictions and invalidations", "why_tests_cant": "the sets accumulate over any number of inputs in any order", "anchors": ["r_exec/cst_controller.cpp: CSTOverlay::reduce, CSTOverlay::bind_pattern, CSTOverlay::update, CSTController::reduce", "r_exec/cst_controller.cpp: CSTOverlay::inject_production"]}
{"id": "C89", "title": "An instance is made while its interval is open", "statement": "No instance is made after the end of the time interval common to its components.", "quantifier": "every composite state, every discipline of matching and binding, every history of input facts, predictions and invalidations", "why_tests_cant": "depends on real time and on the order of arrival", "anchors": ["r_exec/cst_controller.cpp: CSTOverlay::reduce, CSTOverlay::bind_pattern, CSTOverlay::update, CSTController::reduce", "r_exec/cst_controller.cpp: CSTOverlay::can_match"]}
{"id": "C90", "title": "A goal on a composite state gives the sub-goals that are needed", "statement": "When a composite state is a goal (or is to be avoided), a sub-goal is made for a component if and only if it is not an axiom, there is no evidence for or against it and no predicted evidence for it, and the same is not pursued already; each sub-goal is made once.", "quantifier": "every composite state, every state of the evidences, every set of goals pursued already", "why_tests_cant": "any number of components and of registered goals", "anchors": ["r_exec/cst_controller.cpp: CSTController::abduce, CSTController::inject_goal", "r_exec/factory.cpp: Sim::register_goal_target"]}
{"id": "C91", "title": "Pursuing a goal on a composite state leaves the composite state unchanged", "statement": "Making sub-goals does not change the components of the composite state.", "quantifier": "every composite state, every state of the evidences, every set of goals pursued already", "why_tests_cant": "aliasing between the bound component and the stored one", "anchors": ["r_exec/cst_controller.cpp: CSTController::abduce", "r_exec/binding_map.cpp: HLPBindingMap::bind_pattern, HLPBindingMap::need_binding", "r_exec/factory.h: _Fact::set_opposite"]}
{"id": "C92", "title": "A composite state is dropped when it is idle for too long or one of its parts is dropped", "statement": "A composite state is dropped when an input that does not match comes longer than the primary horizon after its last match, or when an input comes after a composite state or model that one of its components instantiates was dropped, and in no other case.", "quantifier": "every composite state without template arguments, every history of inputs", "why_tests_cant": "any history and any number of components", "anchors": ["r_exec/cst_controller.cpp: CSTController::CSTController, CSTController::take_input, CSTController::check_last_match_time", "r_exec/hlp_controller.cpp: HLPController::become_invalidated"]}
{"id": "C93", "title": "The simulations of a prediction are read back as they were given", "statement": "The simulation at index i of a prediction is the i-th of those it was made with, for every i below their number, and the prediction counts as simulated if there is one.", "quantifier": "every list of simulations", "why_tests_cant": "an offset in the encoding that cancels out for one simulation", "anchors": ["r_exec/factory.h: Pred::get_simulation, Pred::get_simulations_size", "r_exec/factory.cpp: Pred::construct, Pred::has_simulation"]}
{"id": "C94", "title": "The simulation of a prediction for a given root is the first with that root", "statement": "Looking up a simulation by its root controller gives the first simulation of the prediction that has this root, or none if there is none.", "quantifier": "every list of simulations, every assignment of roots", "why_tests_cant": "any number of simulations, any order", "anchors": ["r_exec/factory.h: Pred::get_simulation, Pred::get_simulations_size", "r_exec/factory.cpp: Pred::get_simulation"]}
{"id": "C95", "title": "A prediction made from another one inherits its simulations and validities", "statement": "A prediction made from another one belongs to the same simulations and depends on the same validities, through any number of generations.", "quantifier": "every prediction, every chain of predictions", "why_tests_cant": "chains of any length", "anchors": ["r_exec/factory.h: Pred::get_simulation, Pred::get_simulations_size", "r_exec/factory.cpp: Pred::Pred"]}
{"id": "C96", "title": "An object is invalidated if and only if it rests on something that was", "statement": "A fact rests on what it states, a prediction on its target, simulations, grounds and validities, a goal and a simulation on the super-goal, an instance on its components. At any time, an object is reported as invalidated if and only if it, or something it rests on directly or not, was invalidated (a goal with its simulation), whatever checks were made before.", "quantifier": "every graph of objects without cycles, every history of creations, invalidations and checks", "why_tests_cant": "the checks set flags throughout a graph of any size and depth", "anchors": ["r_exec/factory.cpp: _Fact::is_invalidated, Pred::is_invalidated, Goal::is_invalidated, Goal::invalidate, Sim::is_invalidated, Sim::invalidate, ICST::is_invalidated"]}
{"id": "C97", "title": "An invalidated object stays invalidated", "statement": "Once an object is reported as invalidated it always is.", "quantifier": "every graph of objects without cycles, every history of creations, invalidations and checks", "why_tests_cant": "any continuation of any history", "anchors": ["r_exec/factory.cpp: _Fact::is_invalidated, Pred::is_invalidated, Goal::is_invalidated, Sim::is_invalidated, ICST::is_invalidated"]}
{"id": "C98", "title": "Guards hold of the bindings they leave", "statement": "When the guards of a model succeed, then under the bindings they leave every test is true, every assigned variable has the value of its expression, and no binding that matching made is lost.", "quantifier": "every list of guards, every set of operators, every set of bindings", "why_tests_cant": "guards of any number and depth, each evaluated under the bindings left by those before", "anchors": ["r_exec/hlp_overlay.cpp: HLPOverlay::evaluate_guards", "r_exec/hlp_context.cpp: HLPContext::evaluate_no_dereference"]}
{"id": "C99", "title": "An assignment binds its variable to the value of its expression", "statement": "When a guard that assigns a variable not bound before succeeds, the variable is bound to the value of the expression.", "quantifier": "every expression, every set of bindings", "why_tests_cant": "every kind of expression and of result", "anchors": ["r_exec/hlp_context.cpp: HLPContext::evaluate_no_dereference", "r_exec/binding_map.cpp: BindingMap::bind_variable, StructureValue::copy_structure"]}
{"id": "C100", "title": "Guards do not change what matching bound", "statement": "A variable that is bound before the guards are evaluated has the same value after they succeed.", "quantifier": "every list of guards, every set of bindings", "why_tests_cant": "any guard may be the one that changes it", "anchors": ["r_exec/hlp_context.cpp: HLPContext::evaluate_no_dereference", "r_exec/binding_map.cpp: BindingMap::bind_variable"]}
{"id": "C101", "title": "Abduction is not ruled out for guards that can be evaluated", "statement": "If the backward guards of a model can be evaluated from the bindings at hand, the scan that decides whether to abduce ends and accepts them.", "quantifier": "every list of guards, every set of operators, every set of bindings", "why_tests_cant": "the scan follows variables through guards to any depth", "anchors": ["r_exec/hlp_overlay.cpp: HLPOverlay::scan_bwd_guards, HLPOverlay::scan_location, HLPOverlay::scan_variable", "r_exec/mdl_controller.cpp: PrimaryMDLController::abduction_allowed"]}
{"id": "C102", "title": "Abduction is allowed only if the guards can be evaluated", "statement": "If the scan accepts the backward guards, all the values they use can be evaluated, template arguments excepted.", "quantifier": "every list of guards, every set of bindings", "why_tests_cant": "the scan follows variables through guards to any depth, in any order", "anchors": ["r_exec/hlp_overlay.cpp: HLPOverlay::scan_bwd_guards, HLPOverlay::scan_location, HLPOverlay::scan_variable", "r_exec/mdl_controller.cpp: PrimaryMDLController::abduction_allowed"]}
{"id": "C103", "title": "The scan of the guards ends", "statement": "The scan of the backward guards always ends.", "quantifier": "every list of guards, every set of bindings", "why_tests_cant": "an endless recursion shows on particular cycles only", "anchors": ["r_exec/hlp_overlay.cpp: HLPOverlay::scan_variable"]}
{"id": "C104", "title": "Forward timings that are evaluated are times", "statement": "When the evaluation of the forward timings succeeds, both are bound to timestamps.", "quantifier": "every list of guards, every set of bindings", "why_tests_cant": "every combination of guards and prior bindings", "anchors": ["r_exec/hlp_overlay.cpp: HLPOverlay::evaluate_fwd_timings"]}
{"id": "C105", "title": "The forward timings are those that all the backward guards would give", "statement": "If evaluating all the backward guards gives both forward timings, evaluating the forward timings alone succeeds with the same values.", "quantifier": "every list of guards, every set of bindings", "why_tests_cant": "any number of other guards in any order", "anchors": ["r_exec/hlp_overlay.cpp: HLPOverlay::evaluate_fwd_timings"]}
{"id": "C106", "title": "A copied structure is the original", "statement": "Copying a structure out of an object, or into one, gives the same structure, in words of its own, and changes no other word.", "quantifier": "every structure of any shape and depth, every place it is copied to", "why_tests_cant": "sub-structures of any depth; raw data of any value", "anchors": ["r_exec/binding_map.cpp: StructureValue::copy_structure, StructureValue::StructureValue, StructureValue::valuate"]}
{"id": "C107", "title": "A bound pattern says what the pattern says, with values for variables", "statement": "Binding a pattern gives an object that says what the pattern says, with each variable replaced by its value, in the objects it refers to as well; the rest is unchanged.", "quantifier": "every pattern, every map of values", "why_tests_cant": "patterns and values of any size, any depth of references", "anchors": ["r_exec/binding_map.cpp: HLPBindingMap::bind_pattern, HLPBindingMap::need_binding, Value::valuate"]}
{"id": "C108", "title": "Code written by the preprocessor reads back as the same code", "statement": "Structures written out as text are read back as the same structures: commands, arguments, labels, tails, sets and their nesting.", "quantifier": "every list of structures, of any size and nesting", "why_tests_cant": "structures of any depth, any words", "anchors": ["r_comp/preprocessor.cpp: RepliStruct::parse, RepliStruct::getIndent, operator<<"]}
{"id": "C109", "title": "Reading a source text ends", "statement": "The reader accepts or refuses every text after finitely many steps.", "quantifier": "every text", "why_tests_cant": "texts of any length and content, including broken ones", "anchors": ["r_comp/preprocessor.cpp: RepliStruct::parse, RepliStruct::parseDirective, RepliStruct::getIndent"]}
{"id": "C110", "title": "A macro means its body with the arguments put for the parameters", "statement": "Each use of a macro is replaced by the body of the macro, in which every occurrence of a parameter is replaced by the corresponding argument, and keeps the label of the use; a use with a wrong number of arguments is refused.", "quantifier": "every definition, every use, any code before and after", "why_tests_cant": "bodies and arguments of any size and nesting", "anchors": ["r_comp/preprocessor.cpp: RepliMacro::expandMacro, RepliStruct::process, RepliStruct::findAtom"]}
{"id": "C111", "title": "Code that uses no macro goes through the preprocessor unchanged", "statement": "Source code that contains no name of a macro or of a counter is written out as it was read.", "quantifier": "every list of structures, every set of macros and counters not used in it", "why_tests_cant": "code of any size and depth", "anchors": ["r_comp/preprocessor.cpp: RepliStruct::process, Preprocessor::process"]}
{"id": "C112", "title": "Conditional code is kept exactly when its condition holds", "statement": "Between !ifdef or !ifundef, !else and !endif, the lines of the branch that holds are preprocessed and written out, and those of the other are not.", "quantifier": "every text with conditions", "why_tests_cant": "any number and nesting of conditions, any definitions before", "anchors": ["r_comp/preprocessor.cpp: RepliStruct::process, RepliCondition::isActive"]}
{"id": "C113", "title": "Every use of a counter gets a number of its own", "statement": "Uses of a counter are replaced by consecutive numbers from its start, no number twice, and nothing else changes.", "quantifier": "every code, every set of counters", "why_tests_cant": "any number of uses at any depth, in the mixed order in which they are visited", "anchors": ["r_comp/preprocessor.cpp: RepliStruct::process"]}
{"id": "C114", "title": "When preprocessing ends, no use of a macro or counter is left", "statement": "The preprocessor ends, and what it writes contains no use of a macro or a counter that it knows.", "quantifier": "every text", "why_tests_cant": "any chain of definitions, any number of passes", "anchors": ["r_comp/preprocessor.cpp: RepliStruct::process, Preprocessor::process"]}
{"id": "C115", "title": "No source text leads to undefined behaviour in the preprocessor", "statement": "Whatever the text and the files that it loads, the preprocessor ends with an output or with an error.", "quantifier": "every text, every set of files", "why_tests_cant": "any order of directives", "anchors": ["r_comp/preprocessor.cpp: RepliStruct::process"]}
{"id": "C116", "title": "A file is loaded once, in the place of the line that loads it", "statement": "The first line that loads a file is replaced by the lines of the file, later ones by nothing.", "quantifier": "every text, every set of files", "why_tests_cant": "any number of loads, nested loads", "anchors": ["r_comp/preprocessor.cpp: RepliStruct::process, RepliStruct::loadReplicodeFile, RepliStruct::isFileLoaded"]}
{"id": "C117", "title": "A duration survives decompilation and compilation", "statement": "The source text that the decompiler writes for a duration is read by the compiler as the same duration, up to the end of that text; the compiled code holds the duration where the accessors look for it and no other word is changed. The smallest 64-bit duration is excepted.", "quantifier": "every 64-bit duration but the smallest, every text after it, every code and index", "why_tests_cant": "2^64 durations, with three units and two signs, each before any text", "anchors": ["r_comp/compiler.cpp: Compiler::duration, Compiler::read_duration", "r_code/code_utils.cpp: Utils::ToString_us", "r_comp/decompiler.cpp: Decompiler::write_any"]}
{"id": "C118", "title": "A time survives decompilation and compilation, relative to the reference", "statement": "The source text that the decompiler writes for a time is read by the compiler as the time that separates it from the reference time; the compiled code holds it where the accessors look for it and no other word is changed.", "quantifier": "every pair of times whose difference fits, every text after it, every code and index", "why_tests_cant": "pairs of 64-bit times before any text", "anchors": ["r_comp/compiler.cpp: Compiler::timestamp_s_ms_us, Compiler::read_timestamp", "r_code/code_utils.cpp: Utils::ToString_s_ms_us"]}
{"id": "C119", "title": "A text is read as a duration exactly when it shows one, with the value it shows", "statement": "A text is accepted as a duration when and only when it starts with blanks, a sign if any, digits and one of the units us, ms and s, the last not followed by a colon, the number fits 64 bits and so does the product; the duration is that product. The behaviour is undefined exactly when the number fits and the product does not.", "quantifier": "every text", "why_tests_cant": "texts of any length; the exact boundary of overflow", "anchors": ["r_comp/compiler.cpp: Compiler::duration"]}
{"id": "C120", "title": "A time is read with the value it shows", "statement": "A text that is accepted as a time has the usual form, and the time is the sum of its seconds, milliseconds and microseconds, with its sign.", "quantifier": "every text", "why_tests_cant": "texts of any length; numbers of any size", "anchors": ["r_comp/compiler.cpp: Compiler::timestamp_s_ms_us"]}
{"id": "C121", "title": "No text is both a duration and a time", "statement": "Where any value may stand, what is accepted as a duration is never accepted as a time, so that the order of the attempts does not matter.", "quantifier": "every text", "why_tests_cant": "texts of any length", "anchors": ["r_comp/compiler.cpp: Compiler::duration, Compiler::timestamp_s_ms_us, Compiler::read_any"]}
{"id": "C122", "title": "A string survives compilation and decompilation", "statement": "A string literal is compiled to code for which the decompiler writes the same literal, and the literal is read up to its closing quote.", "quantifier": "every string, every code and index", "why_tests_cant": "strings of any length and content", "anchors": ["r_comp/compiler.cpp: Compiler::str, Compiler::read_string", "r_code/code_utils.cpp: Utils::GetString", "r_comp/decompiler.cpp: Decompiler::write_any"]}
{"id": "C123", "title": "The constants of the language survive compilation and decompilation", "statement": "Each of the constants for nil, undefined values, infinity and Booleans is compiled to a word for which the decompiler writes the same constant.", "quantifier": "every constant, any text after it", "why_tests_cant": "combinations with any following text and state of indentation", "anchors": ["r_comp/compiler.cpp: Compiler::read_nil, Compiler::read_nil_nb, Compiler::read_nil_nid, Compiler::read_nil_st, Compiler::read_nil_ts", "r_comp/decompiler.cpp: Decompiler::write_any"]}
{"id": "C124", "title": "Identifiers of nodes and devices survive decompilation and compilation", "statement": "The hexadecimal text written for the identifier of a node or a device is read as the same identifier.", "quantifier": "every identifier of a node or a device, any text after it", "why_tests_cant": "all 24-bit identifiers before any text", "anchors": ["r_comp/compiler.cpp: Compiler::hex, Compiler::read_node, Compiler::read_device", "r_comp/decompiler.cpp: Decompiler::write_any"]}
{"id": "C125", "title": "Comments are not code, and the whole text is read", "statement": "What stands between a semicolon and the end of the line has no effect: a source with comments, on lines of their own or at the end of lines of code, is read as the same source without them. Reading does not stop before the end of the text: a text with a closing bracket that was not opened is refused.", "quantifier": "every sequence of lines of code, nested to any depth, with comments of any content; any text after a superfluous bracket", "why_tests_cant": "sources of any length with comments anywhere", "anchors": ["r_comp/preprocessor.cpp: RepliStruct::parse, Preprocessor::process"]}
{"id": "C126", "title": "The guards written for a learned model are those documented", "statement": "The code written for a learned model can be read as sets of forward and backward guards, and these are the ones that the documentation of each guard builder gives; the rest of the head of the model is kept.", "quantifier": "every guard builder with its parameters, every head of a model and its variables", "why_tests_cant": "guards are words linked by indexes, in any head and with any 64-bit durations; a wrong index shows only when the guard is evaluated", "anchors": ["r_exec/guard_builder.h: the comments of the builders", "r_exec/guard_builder.cpp: GuardBuilder::build and those of its subclasses", "r_exec/pattern_extractor.cpp: build_mdl_tail"]}
{"id": "C127", "title": "A learned model predicts its consequent one period after its premise", "statement": "Evaluating the forward guards of a learned model gives to the prediction the times of the premise plus the period, and the value computed from that of the premise and the argument of the cause; no other variable is changed.", "quantifier": "every builder, model, bindings and times", "why_tests_cant": "all 64-bit times and durations, all bindings, all values", "anchors": ["r_exec/guard_builder.cpp: build of every builder", "r_exec/hlp_overlay.cpp: evaluate_guards"]}
{"id": "C128", "title": "Backward, a learned model infers the premise and the cause, and leaves the goal as it is", "statement": "Evaluating the backward guards of a learned model gives the times of the premise and of the cause, and the argument of the cause, from the goal; the goal keeps its times and its value. Forward and then backward, the times of the premise are found again.", "quantifier": "every builder, model, bindings and times", "why_tests_cant": "all 64-bit times and durations, all bindings, all values", "anchors": ["r_exec/guard_builder.cpp: build of every builder", "r_exec/hlp_overlay.cpp: evaluate_guards"]}
{"id": "C129", "title": "A learned model reproduces what it was learned from", "statement": "With the builder chosen for an observation of a target, a cause and a consequent, the model predicts the times of the consequent from those of the target, and infers the times of the target and of the cause from those of the consequent.", "quantifier": "every observation with 64-bit times, every model, whatever builder is chosen", "why_tests_cant": "all triples of intervals", "anchors": ["r_exec/pattern_extractor.cpp: get_default_guard_builder, find_guard_builder", "r_exec/guard_builder.cpp: build of every builder"]}
{"id": "C130", "title": "A change is attributed to a cause that explains it", "statement": "When an argument of the instance of a model explains a change of value, as a sum or as a product, it is found; what is found explains the change; a value is taken as the cause only if it does.", "quantifier": "every instance of a model, all values", "why_tests_cant": "instances of any length, all floats", "anchors": ["r_exec/pattern_extractor.cpp: find_guard_builder"]}
{"id": "C131", "title": "An abstracted object, bound with the same map, is the object again", "statement": "When an object is abstracted into a pattern and the pattern is bound with the map that this built, the result says what the object said, its confidences and thresholds forgotten, its numbers and times within the tolerances.", "quantifier": "every object without variables, at any depth, every map to start from, every place where the search for times starts", "why_tests_cant": "objects of any shape and depth, all values, any map", "anchors": ["r_exec/binding_map.cpp: abstract_object, abstract_fact, abstract_member", "r_exec/binding_map.cpp: get_atom_variable, get_structure_variable, get_object_variable, contains", "r_exec/binding_map.cpp: bind_pattern"]}
{"id": "C132", "title": "An abstracted object has a variable for every value and keeps the rest", "statement": "In the pattern made of an object every value, at any depth, is a variable of the map, confidences and thresholds are wildcards, and classes, attributes and functions are kept; what the map held before it still holds.", "quantifier": "every object without variables whose structures hold atoms, every map", "why_tests_cant": "objects of any shape and depth", "anchors": ["r_exec/binding_map.cpp: abstract_object, abstract_fact, abstract_member"]}
{"id": "C133", "title": "Facts abstracted in step share the times of the first one", "statement": "The variables of the times of the first fact abstracted are remembered; a fact abstracted in step with it gets these variables for its times, whatever they are.", "quantifier": "every fact, every map, any number of facts abstracted before", "why_tests_cant": "any order and any content of the facts", "anchors": ["r_exec/binding_map.cpp: abstract_fact"]}
{"id": "C134", "title": "A value met again gets its variable again", "statement": "When a value that was given a variable is met again, in the same or another object, whatever was abstracted in between, it gets the same variable and nothing is added to the map.", "quantifier": "every value, every object, every map and anything added in between", "why_tests_cant": "any number of objects abstracted in between", "anchors": ["r_exec/binding_map.cpp: get_atom_variable, get_structure_variable, get_object_variable"]}
{"id": "C135", "title": "The position told for a variable is where its value is in the instances", "statement": "In every instance made of a composite state or a model with a map, the value of each variable that is no template variable and none of the two times of the first fact is the exposed argument at the position that the map tells for the variable; each exposed argument has exactly one such variable; for all other variables and for unknown ones no position is told.", "quantifier": "every composite state or model, every map of up to 256 variables whose values are all there, both times set", "why_tests_cant": "any number of variables and arguments, the times at any place among them", "anchors": ["r_exec/binding_map.cpp: HLPBindingMap::get_ihlp_exposed_args_position", "r_exec/binding_map.cpp: HLPBindingMap::build_f_ihlp, build_ihlp"]}
{"id": "C136", "title": "An instance says which state or model it is of, and with which values", "statement": "The fact made for a composite state or a model with a map says: an instance of this object, with its template in which each variable is replaced by its value, save inside time intervals, then the values of the variables of the facts in order without the two times of the first one, holding between these two times.", "quantifier": "every composite state or model whose template is any structure, every map whose values are all there", "why_tests_cant": "templates of any shape and depth, values of any shape", "anchors": ["r_exec/binding_map.cpp: HLPBindingMap::build_f_ihlp, build_ihlp, build_ihlp_structure", "r_exec/binding_map.cpp: BindingMap::bind_pattern values"]}
{"id": "C137", "title": "A map initialized from an instance has the values the instance was made with", "statement": "When an instance is made with a map and a map of the same state or model is initialized from the instance, then each variable that had a value when it was made has a value of the same meaning, and the variables that had none are as they were.", "quantifier": "every composite state or model, every map the instance is made with, every map that is initialized", "why_tests_cant": "templates of any shape and depth, values of any shape, maps of any size", "anchors": ["r_exec/binding_map.cpp: HLPBindingMap::build_f_ihlp", "r_exec/binding_map.cpp: HLPBindingMap::init_from_f_ihlp, init_from_ihlp_args"]}
{"id": "C138", "title": "The pattern made of an instance has the variable of every argument in its place", "statement": "When an instance is abstracted on its own, each argument becomes the variable whose value it is in the map of the state or model it is an instance of; the fact, the object referred to and the other members are kept.", "quantifier": "every instance made with any map, of any state or model", "why_tests_cant": "any number of arguments", "anchors": ["r_exec/binding_map.cpp: BindingMap::abstract_f_ihlp"]}
{"id": "C139", "title": "The map made for a state or model has exactly its variables", "statement": "The map made for a composite state or a model has an entry without value for each variable in its template and its objects, and no entry for anything else; it knows how many entries are of the template and which variables are the times of the first fact.", "quantifier": "every composite state or model in packed form, templates of any shape", "why_tests_cant": "objects of any shape and size", "anchors": ["r_exec/binding_map.cpp: HLPBindingMap::init_from_hlp, add_unbound_values, add_unbound_value", "r_exec/binding_map.cpp: HLPBindingMap::set_fwd_timing_indexes"]}
{"id": "C140", "title": "An input that concerns a target is injected once, any other one not", "statement": "When inputs do not pass through, every fact that comes in while it shares a value with the target of an open goal or prediction is injected in the output groups exactly once, and no other fact is; when they pass through, every fact is injected exactly once, in order.", "quantifier": "every sequence of reductions, outcomes, reports and facts, any targets, any relation between values", "why_tests_cant": "unbounded histories with any number of open targets", "anchors": ["r_exec/auto_focus.cpp: AutoFocusController::reduce, dispatch", "r_exec/pattern_extractor.cpp: TPX::filter, take_input"]}
{"id": "C141", "title": "Extraction starts exactly at the outcome of an open target", "statement": "The extractor of a target is started exactly when a goal is achieved or a prediction fails while the target is open, its kind of extraction is switched on and its model has no weak requirements; after its outcome nothing more is done for a target until it is opened again.", "quantifier": "every sequence of events, every target", "why_tests_cant": "unbounded histories with any number of targets", "anchors": ["r_exec/auto_focus.cpp: AutoFocusController::reduce, notify", "r_exec/auto_focus.h: build_tpx", "r_exec/pattern_extractor.cpp: GTPX::signal, PTPX::signal"]}
{"id": "C142", "title": "What is switched off learns nothing", "statement": "With the extraction from goals switched off nothing is learned from goals, with that from predictions switched off nothing from predictions.", "quantifier": "every sequence of events, all settings of the switches", "why_tests_cant": "unbounded histories", "anchors": ["r_exec/auto_focus.h: build_tpx", "r_exec/pattern_extractor.cpp: GTPX::signal, GTPX::ack_pred_success, PTPX::signal"]}
{"id": "C143", "title": "Inputs that do not match a state with variables go to its controller", "statement": "While a target is an instance of a composite state and has variables without value, each input that does not match it is given to the controller of that state.", "quantifier": "every sequence of events, every target", "why_tests_cant": "unbounded histories", "anchors": ["r_exec/pattern_extractor.cpp: TPX constructor, TPX::filter"]}
{"id": "C144", "title": "A buffer gives what is not too old", "statement": "Reading a time-limited buffer gives exactly what was pushed and is not older than the horizon, in the order it came.", "quantifier": "every buffer, every sequence of pushes, readings and searches at any times", "why_tests_cant": "unbounded histories", "anchors": ["r_code/time_buffer.h: time_buffer", "r_exec/pattern_extractor.cpp: Input::IsInvalidated, CInput::IsInvalidated"]}
{"id": "C145", "title": "An input is injected once in every output group", "statement": "An input that is injected gets one view in each output group, with its salience, payload and polarity, its group as origin and a resilience converted to the period of the group; its changes are watched once.", "quantifier": "every view, every list of output groups, all modes", "why_tests_cant": "any number of groups", "anchors": ["r_exec/auto_focus.cpp: AutoFocusController::inject_input"]}
{"id": "C146", "title": "The copy of an input holds when it should", "statement": "What is injected has the confidence of the input, and as times those of the input (once), the period of the first group that contains the present (periodic, axioms), or the time from now on till the end of one period (hold); it never ends before it begins.", "quantifier": "every view, every period and time", "why_tests_cant": "all times and periods", "anchors": ["r_exec/auto_focus.cpp: AutoFocusController::inject_input"]}
{"id": "C147", "title": "The change of an atomic state is reported once", "statement": "A controller of an atomic state keeps the inputs that neither confirm nor contradict the state till the first decisive one, reports this one if it contradicts, and does nothing afterwards; so it reports at most once.", "quantifier": "every sequence of inputs, every interleaving of the threads", "why_tests_cant": "all interleavings of any number of threads", "anchors": ["r_exec/ast_controller.tpl.cpp: ASTController::reduce, take_input", "r_exec/ast_controller.cpp: PASTController::reduce, HASTController::reduce"]}
{"id": "C148", "title": "Nothing is in a new composite state twice", "statement": "Of the inputs taken for a new composite state, those that are in an instance among them are left out, instances that share no input with them are left out, and nothing else is.", "quantifier": "every list of inputs with any instances among them", "why_tests_cant": "any number of inputs and instances", "anchors": ["r_exec/pattern_extractor.cpp: _TPX::make_icst, filter_icst_components"]}
{"id": "C149", "title": "The success rate of a pattern", "statement": "The success rate of a pattern is the fraction of the positive evidences among all.", "quantifier": "every sequence of evidences", "why_tests_cant": "unbounded sequences", "anchors": ["r_exec/auto_focus.h: AutoFocusController::Rating::add_evidence"]}
{"id": "C150", "title": "Sums and differences of vectors", "statement": "The sum (the difference) of two vectors of the same kind and dimension is, where the expression was, the vector of the sums (differences) of their components; everything else is as before.", "quantifier": "every kind and dimension of vectors, all components, operands in the code, in values of variables or in earlier results, any memory", "why_tests_cant": "unbounded dimensions, pointers and memory layouts", "anchors": ["usr_operators/Operators/operators.cpp: add, sub", "r_exec/operator.h: Operator::operator()", "r_exec/_context.cpp: setCompoundResultHead, addCompoundResultPart", "r_exec/hlp_context.cpp: HLPContext::dereference"]}
{"id": "C151", "title": "A vector times or divided by a number", "statement": "A number times a vector, a vector times a number and a vector divided by a number other than zero are the vectors of the products (quotients) of the components with that number.", "quantifier": "every kind and dimension of vectors, all components and numbers, any memory", "why_tests_cant": "unbounded dimensions and memory layouts", "anchors": ["usr_operators/Operators/operators.cpp: mul, div", "r_exec/operator.h: Operator::operator()"]}
{"id": "C152", "title": "The distance of two vectors", "statement": "The distance of two vectors of the same kind and dimension is the root of the sum of the squares of the differences of their components, for quaternions the angle between them.", "quantifier": "every kind and dimension of vectors, all components, any memory", "why_tests_cant": "unbounded dimensions and memory layouts", "anchors": ["usr_operators/Operators/operators.cpp: dis", "r_exec/operator.h: Operator::operator()"]}
{"id": "C153", "title": "Operators on vectors use no freed memory", "statement": "Evaluating an operator on two vectors reads no memory that was freed.", "quantifier": "every operator, every kind and dimension, any memory with any number of earlier results", "why_tests_cant": "any number of earlier results in the array of values", "anchors": ["usr_operators/Operators/operators.cpp: add, sub, mul, div, dis", "r_exec/overlay.cpp: Overlay::Overlay", "r_exec/_context.cpp: addCompoundResultPart"]}
{"id": "C154", "title": "Operators fail on operands that do not go together", "statement": "An operator whose operands are not vectors of the same kind and dimension (nor a vector and a number, for products) fails, leaves nil and changes nothing else.", "quantifier": "every operator, all operands, any memory", "why_tests_cant": "all combinations of operands", "anchors": ["usr_operators/Operators/operators.cpp: add, sub, mul, div, dis"]}
{"id": "C155", "title": "What is learned is what is computed", "statement": "The operation on the values of two facts made when a guard is looked for has the result that the guard computes later on these values.", "quantifier": "every operation, all values (numbers, vectors of any kind and dimension) anywhere in the two objects", "why_tests_cant": "unbounded dimensions and layouts", "anchors": ["r_exec/operator.cpp: OpContext::build_and_evaluate_expression, build_expression_object, evaluate_expression", "r_exec/pattern_extractor.cpp: CTPX::find_guard_builder"]}
{"id": "C156", "title": "The commands of a program are carried out together or not at all", "statement": "When a program fires, all its commands are carried out, in the order they are written, or, if one of them cannot be, none.", "quantifier": "all lists of commands (injections, ejections, modifications, assignments, probes, commands to devices, stop), all arguments, whatever devices answer", "why_tests_cant": "unbounded lists of commands of all kinds", "anchors": ["r_exec/pgm_overlay.cpp: InputLessPGMOverlay::inject_productions"]}
{"id": "C157", "title": "What a program injects is what it describes", "statement": "An object injected or ejected by a program is the one given in the command, or a new one made as the command describes it; also when the commands are computed by red.", "quantifier": "all lists of commands, given or computed", "why_tests_cant": "unbounded lists of commands", "anchors": ["r_exec/pgm_overlay.cpp: InputLessPGMOverlay::inject_productions", "r_exec/context.h: IPGMContext::get_object"]}
{"id": "C158", "title": "The notification of a reduction tells what was done", "statement": "The notification (mk.rdx) of a reduction leads to the program, to its inputs, and to exactly the commands carried out, whole and in order, each one to a device with the fact that it was (or was not) executed; each group to be notified gets it once.", "quantifier": "all lists of commands and inputs, all sizes of commands, all groups to be notified", "why_tests_cant": "unbounded sizes of commands and lists", "anchors": ["r_exec/pgm_overlay.cpp: InputLessPGMOverlay::inject_productions, get_mk_rdx", "r_exec/pgm_overlay.cpp: PGMOverlay::get_mk_rdx", "r_code/atom.inline.cpp: Atom::IPointer, Atom::Set"]}
{"id": "C159", "title": "A path leads where it says", "statement": "A path of members and views (as this.vw.grp) leads to the member it names of the object or view it names.", "quantifier": "all objects, views and references between them, all paths", "why_tests_cant": "unbounded paths and objects", "anchors": ["r_exec/context.cpp: IPGMContext::dereference"]}
{"id": "C160", "title": "Modifications and assignments apply to the member that is named", "statement": "mod and set apply to the member named by the path: of a view, of an object or of a group.", "quantifier": "all objects, views and references between them, all paths", "why_tests_cant": "unbounded paths and objects", "anchors": ["r_exec/context.cpp: IPGMContext::getMember", "r_exec/pgm_overlay.cpp: InputLessPGMOverlay::inject_productions"]}
{"id": "C161", "title": "red reduces every input that fits", "statement": "red makes the productions of the positive section for every input that fits its pattern (form and guards), and those of the negative section for every other input that fits its own.", "quantifier": "all inputs, in any number and order, all patterns, anti-patterns, guards and productions", "why_tests_cant": "unbounded sets of inputs", "anchors": ["r_exec/context.cpp: IPGMContext::Red, reduce, match"]}
{"id": "C162", "title": "The fact of a command holds from its execution to the end of the frame", "statement": "The fact that a device executed a command holds from the execution of the command to the end of the sampling period it was executed in.", "quantifier": "all times, periods and tolerances", "why_tests_cant": "all times and periods", "anchors": ["r_exec/pgm_overlay.cpp: InputLessPGMOverlay::inject_productions"]}
{"id": "C163", "title": "An input matches a pattern if and only if it conforms to it", "statement": "An input matches the skeleton of a pattern exactly if it has the structure and the constants written there: a variable used twice stands for the same thing, :: for any number of members, times for themselves.", "quantifier": "all programs, patterns of any size and depth, all inputs and objects they refer to", "why_tests_cant": "unbounded patterns, inputs and references", "anchors": ["r_exec/context.cpp: IPGMContext::match, dereference", "r_exec/pgm_overlay.cpp: PGMOverlay::_match, __match"]}
{"id": "C164", "title": "The variables of a pattern denote what they matched", "statement": "Once an input has matched a pattern, each variable of the pattern denotes the member of the input at the same place, in whichever object it is; the rest of the program is as it was.", "quantifier": "all programs, patterns, inputs and objects they refer to, all variables", "why_tests_cant": "unbounded patterns, inputs and references", "anchors": ["r_exec/pgm_overlay.cpp: InputLessPGMOverlay::patch_input_code, dereference_in_ptr", "r_code/atom.inline.cpp: Atom::InObjPointer, Atom::DInObjPointer"]}
{"id": "C165", "title": "The parameters of an instantiated program denote its arguments", "statement": "In an instance of a program with parameters, each parameter denotes the argument given at the same place, and each variable within it the corresponding member of that argument.", "quantifier": "all programs, numbers of parameters and arguments", "why_tests_cant": "unbounded numbers and structures of parameters", "anchors": ["r_exec/pgm_overlay.cpp: InputLessPGMOverlay::patch_tpl_args, patch_tpl_code"]}
{"id": "C166", "title": "What is compiled is what is decompiled", "statement": "An object that the compiler accepts is decompiled to the same structure with the same values, and each use of a variable or a label to a use of the thing it names.", "quantifier": "all objects, of any size and depth, with any names", "why_tests_cant": "unbounded structures, numbers of words and names", "anchors": ["r_comp/compiler.cpp: Compiler::read_sys_object, expression, expression_tail, set, set_element_count, local_reference", "r_comp/decompiler.cpp: Decompiler::write_any, write_expression_tail, write_set", "r_code/atom.inline.cpp: Atom::IPointer, Atom::CodeVLPointer, Atom::Set"]}
{"id": "C167", "title": "An object is accepted exactly if it is in order", "statement": "The compiler accepts an object exactly if each structure has as many members as its class, or ends with :: within a skeleton; variables and wildcards are within skeletons only; no empty set has a label; each name that is used is defined before.", "quantifier": "all objects, of any size and depth, with any names", "why_tests_cant": "unbounded structures and names", "anchors": ["r_comp/compiler.cpp: Compiler::expression_tail, set, set_element_count, expression"]}
{"id": "C168", "title": "A model is refused exactly if its guards refer to other objects", "statement": "Loading fails on a model or a composite state exactly if one of its forward or backward guards refers to another object.", "quantifier": "all models and composite states, with guards of any size and depth", "why_tests_cant": "unbounded guards; rare values of times", "anchors": ["r_code/code_utils.cpp: Utils::has_reference", "r_exec/mem.cpp: _Mem::load"]}
{"id": "C169", "title": "At the start, times of initial objects become relative to it", "statement": "When the memory starts, every time in an initial object gets later by the time of the start, up to the last time there is; nothing else in the object changes.", "quantifier": "all initial objects of any size and depth, all times of the start", "why_tests_cant": "unbounded objects and times", "anchors": ["r_exec/mem.cpp: update_timestamps, _Mem::init_timestamps", "r_code/code_utils.cpp: Utils::GetTimestamp, Utils::SetTimestamp"]}
{"id": "C170", "title": "Simulated backward chaining ends", "statement": "A simulated goal has less time than the goal it was made for, and there is no simulated sub-goal without time; so each chain of simulated goals ends.", "quantifier": "all settings, all goals, all sequences of steps through models, composite states and requirements, whatever is known at each step", "why_tests_cant": "unbounded chains of goals, any contents of memory at every step", "anchors": ["r_exec/mdl_controller.cpp: PrimaryMDLController::abduce, abduce_lhs, abduce_imdl, abduce_simulated_lhs, abduce_simulated_imdl, check_imdl, check_simulated_imdl", "r_exec/cst_controller.cpp: CSTController::abduce, inject_goal", "r_exec/mdl_controller.cpp: PMDLController::get_sim_thz"]}
{"id": "C171", "title": "A simulated branch is mandatory exactly after an opposite", "statement": "A simulated goal is mandatory exactly if the opposite of a premise was taken on the way to it, which happens once at most; otherwise it is optional.", "quantifier": "all settings, all goals, all sequences of steps through models, composite states and requirements, whatever is known at each step", "why_tests_cant": "unbounded chains of goals, any contents of memory at every step", "anchors": ["r_exec/mdl_controller.cpp: PrimaryMDLController::abduce, abduce_lhs, abduce_imdl, abduce_simulated_lhs, abduce_simulated_imdl, check_imdl, check_simulated_imdl", "r_exec/cst_controller.cpp: CSTController::abduce, inject_goal"]}
{"id": "C172", "title": "A simulated branch keeps its root, confidence and deadline", "statement": "All simulated goals and commands of a branch have its root; the confidence and the deadline of the solution are fixed by the first step; a command is simulated no sooner than now and no later than the deadline.", "quantifier": "all settings, all goals, all sequences of steps through models, composite states and requirements, whatever is known at each step", "why_tests_cant": "unbounded chains of goals, any contents of memory at every step", "anchors": ["r_exec/mdl_controller.cpp: PrimaryMDLController::abduce, abduce_lhs, abduce_imdl, abduce_simulated_lhs, abduce_simulated_imdl, check_imdl, check_simulated_imdl", "r_exec/cst_controller.cpp: CSTController::abduce, inject_goal", "r_exec/factory.cpp: Sim"]}
{"id": "C173", "title": "Simulations do not act, and real goals lead to real goals", "statement": "A simulated goal never leads to a real one, and a real goal without time for simulation leads to real sub-goals.", "quantifier": "all settings, all goals, all sequences of steps through models, composite states and requirements, whatever is known at each step", "why_tests_cant": "unbounded chains of goals, any contents of memory at every step", "anchors": ["r_exec/mdl_controller.cpp: PrimaryMDLController::abduce, abduce_lhs, abduce_imdl, abduce_simulated_lhs, abduce_simulated_imdl, check_imdl, check_simulated_imdl", "r_exec/cst_controller.cpp: CSTController::abduce, inject_goal"]}
{"id": "C174", "title": "What is known is not pursued, and decides", "statement": "A premise that is known to hold or not to hold gives no goal and no command; one that is predicted is watched but not pursued; in a simulation the outcome is told.", "quantifier": "all settings, all goals, all sequences of steps through models, composite states and requirements, whatever is known at each step", "why_tests_cant": "unbounded chains of goals, any contents of memory at every step", "anchors": ["r_exec/mdl_controller.cpp: PrimaryMDLController::abduce, abduce_lhs, abduce_imdl, abduce_simulated_lhs, abduce_simulated_imdl, check_imdl, check_simulated_imdl", "r_exec/cst_controller.cpp: CSTController::abduce, inject_goal", "r_exec/mdl_controller.cpp: PrimaryMDLController::register_simulated_goal_outcome"]}
{"id": "C175", "title": "In a simulation every goal is pursued, and once", "statement": "In a simulation a goal is pursued unless the same one is pursued already.", "quantifier": "all sequences of calls for goals under one root", "why_tests_cant": "unbounded chains of goals, any contents of memory at every step", "anchors": ["r_exec/mdl_controller.cpp: PrimaryMDLController::abduce, abduce_lhs, abduce_imdl, abduce_simulated_lhs, abduce_simulated_imdl, check_imdl, check_simulated_imdl", "r_exec/cst_controller.cpp: CSTController::abduce, inject_goal", "r_exec/factory.cpp: Sim::register_goal_target, get_root_sim"]}
{"id": "C176", "title": "A command found twice is defeated exactly if it would be both times", "statement": "If a simulation comes to the same command again, it is not started again; it is defeated exactly if it would be in both cases.", "quantifier": "all lists of commands, all sets of validities", "why_tests_cant": "unbounded lists and sets", "anchors": ["r_exec/mdl_controller.cpp: PrimaryMDLController::abduce_simulated_lhs"]}
{"id": "C177", "title": "The outcome of a prediction is reported and counted once", "statement": "The outcome of a prediction gives one marker in each output group, with the absence of the target if there is no evidence; it is counted for the model, told to the weak requirements and, reversed, to the strong ones, once; then nothing is kept for the prediction.", "quantifier": "all predictions, requirements, output groups and sequences of outcomes", "why_tests_cant": "unbounded lists and sequences", "anchors": ["r_exec/mdl_controller.cpp: PrimaryMDLController::register_pred_outcome, register_req_outcome"]}
{"id": "C178", "title": "An image has what was asked for, once, and only that", "statement": "An image of objects in memory is made for any list of objects; it has the live objects of the list (or all of them, if asked for), what is taken along from them by references, each once, and nothing else.", "quantifier": "all memories, all lists of objects", "why_tests_cant": "unbounded object graphs, any sharing and any cycles", "anchors": ["r_comp/segments.cpp: Image::add_objects, add_object, get_reference_count", "r_exec/mem.cpp: _Mem::get_models, get_objects"]}
{"id": "C179", "title": "Objects made from an image refer to what the originals refer to", "statement": "An object made from an image has the references of the object in memory, in the same places, the hidden one of models and states left out.", "quantifier": "all memories, all lists of objects", "why_tests_cant": "unbounded object graphs, any sharing and any cycles", "anchors": ["r_comp/segments.cpp: Image::add_objects, add_object, get_reference_count", "r_comp/segments.cpp: Image::build_references, unpack_objects"]}
{"id": "C180", "title": "The map of an image says where each object is", "statement": "The object map of an image has the place of each object in the code that is written.", "quantifier": "all memories, all lists of objects", "why_tests_cant": "unbounded object graphs, any sharing and any cycles", "anchors": ["r_comp/segments.cpp: Image::add_sys_object, CodeSegment::write", "r_code/object.cpp: SysObject, SysView"]}
{"id": "C181", "title": "In an image objects come after those they refer to", "statement": "In an image of objects in memory each object comes after those it refers to, so that these are defined when they are used.", "quantifier": "all memories, all lists of objects", "why_tests_cant": "unbounded object graphs, any sharing and any cycles", "anchors": ["r_comp/segments.cpp: Image::add_objects, add_object, get_reference_count"]}
{"id": "C182", "title": "Views made from an image have the group and the origin of the originals", "statement": "A view made from an image has the group and the origin of the view in memory.", "quantifier": "all memories, all lists of objects", "why_tests_cant": "unbounded object graphs, any sharing and any cycles", "anchors": ["r_comp/segments.cpp: Image::add_objects, add_object, get_reference_count", "r_comp/segments.cpp: Image::build_references, unpack_objects", "r_code/object.cpp: SysView"]}
{"id": "C183", "title": "A model predicts exactly what the requirements and the guards allow", "statement": "A model injects a prediction for an input exactly if the requirements allow it (those in force or, in a simulation, those of the simulation), the guards are met, the confidence is above the saliency threshold and the prediction is not of the past.", "quantifier": "all models, inputs, results of the search for requirements, guards and times", "why_tests_cant": "unbounded sets of bindings and requirements, any settings and times", "anchors": ["r_exec/mdl_controller.cpp: PrimaryMDLOverlay::reduce, PrimaryMDLController::predict, inject_prediction"]}
{"id": "C184", "title": "The same is not predicted twice for one input", "statement": "For one input a model does not inject two predictions that match each other.", "quantifier": "all models, inputs, results of the search for requirements, guards and times", "why_tests_cant": "unbounded sets of bindings and requirements, any settings and times", "anchors": ["r_exec/mdl_controller.cpp: PrimaryMDLOverlay::reduce, PrimaryMDLController::predict, inject_prediction"]}
{"id": "C185", "title": "Confidence is lost by chaining, so that it ends", "statement": "The confidence of a prediction is that of what it was made from times the success rate of the model; so a chain of predictions falls below the saliency threshold in the end.", "quantifier": "all chains of models, of any length", "why_tests_cant": "unbounded chains", "anchors": ["r_exec/mdl_controller.cpp: PrimaryMDLOverlay::reduce, PrimaryMDLController::predict, inject_prediction"]}
{"id": "C186", "title": "Predictions from facts are watched, and failures count for those that were injected", "statement": "Each prediction made from a fact gets one monitor, also if it is not injected or not allowed; its failure counts for the model exactly if it was injected. Predictions made from predictions and in simulations are not watched.", "quantifier": "all models, inputs, results of the search for requirements, guards and times", "why_tests_cant": "unbounded sets of bindings and requirements, any settings and times", "anchors": ["r_exec/mdl_controller.cpp: PrimaryMDLOverlay::reduce, PrimaryMDLController::predict, inject_prediction", "r_exec/p_monitor.cpp: PMonitor"]}
{"id": "C187", "title": "The requirements of a prediction are kept only while its outcome is awaited", "statement": "If a model keeps the requirements of a prediction for the sake of its outcome, there is a monitor for the prediction.", "quantifier": "all models, inputs, results of the search for requirements, guards and times", "why_tests_cant": "unbounded sets of bindings and requirements, any settings and times", "anchors": ["r_exec/mdl_controller.cpp: PrimaryMDLOverlay::reduce, PrimaryMDLController::predict, inject_prediction", "r_exec/mdl_controller.cpp: MDLController::register_requirement"]}
{"id": "C188", "title": "Simulations leave no trace outside", "statement": "A simulated input leads only to simulated predictions and simulated requirements, another input to none of these.", "quantifier": "all models, inputs, results of the search for requirements, guards and times", "why_tests_cant": "unbounded sets of bindings and requirements, any settings and times", "anchors": ["r_exec/mdl_controller.cpp: PrimaryMDLOverlay::reduce, PrimaryMDLController::predict, inject_prediction"]}
{"id": "C189", "title": "A requirement counts exactly if the model that made it was allowed to", "statement": "A model that predicts a requirement marks it as allowed exactly if the model was allowed to predict; otherwise it has no confidence.", "quantifier": "all models, inputs, results of the search for requirements, guards and times", "why_tests_cant": "unbounded sets of bindings and requirements, any settings and times", "anchors": ["r_exec/mdl_controller.cpp: PrimaryMDLOverlay::reduce, PrimaryMDLController::predict, inject_prediction", "r_exec/mdl_controller.cpp: SecondaryMDLOverlay::reduce, SecondaryMDLController::predict"]}
{"id": "C190", "title": "Assumptions are made only of what is not explained otherwise, and not of themselves", "statement": "A model makes assumptions only of inputs that it does not use for predictions and that no monitor takes; its own assumptions are not taken as inputs.", "quantifier": "all sequences of inputs", "why_tests_cant": "unbounded sequences", "anchors": ["r_exec/mdl_controller.cpp: PrimaryMDLController::reduce"]}
{"id": "C191", "title": "A model is switched off exactly if it has not matched for too long", "statement": "A model is switched off in its group exactly when an input does not match it, longer than the time horizon after the last match.", "quantifier": "all sequences of inputs with any times", "why_tests_cant": "unbounded sequences", "anchors": ["r_exec/mdl_controller.cpp: PrimaryMDLController::check_last_match_time, reduce"]}
{"id": "C192", "title": "A requirement that comes late is used with the facts that still hold", "statement": "If the requirement of a model comes after the facts that match the model, the facts that are neither invalidated nor over are tried again with it, each once, the latest first; this happens for every positive requirement, and for no other.", "quantifier": "all sequences of events: facts, requirements, jobs, invalidations, look-ups and time, in any order", "why_tests_cant": "unbounded interleavings of facts, requirements, jobs and time", "anchors": ["r_exec/mdl_controller.cpp: PrimaryMDLController::store_requirement, SecondaryMDLController::store_requirement", "r_exec/mdl_controller.h: MDLController::reduce_cache", "r_exec/hlp_controller.h: HLPController::_store_evidence", "r_exec/hlp_overlay.cpp: HLPOverlay::store_evidence"]}
{"id": "C193", "title": "A requirement that comes late is used with the predictions that still hold", "statement": "If the requirement of a model comes after a prediction that matches the model, and what is predicted is not over, the prediction is tried again with it.", "quantifier": "all sequences of events: facts, requirements, jobs, invalidations, look-ups and time, in any order", "why_tests_cant": "unbounded interleavings of facts, requirements, jobs and time", "anchors": ["r_exec/mdl_controller.cpp: PrimaryMDLController::store_requirement, SecondaryMDLController::store_requirement", "r_exec/mdl_controller.h: MDLController::reduce_cache", "r_exec/hlp_controller.h: HLPController::_store_evidence", "r_exec/hlp_overlay.cpp: HLPOverlay::store_evidence"]}
{"id": "C194", "title": "A requirement that comes late is used by models of the secondary group", "statement": "If the requirement of a model in the secondary group comes after a fact that matches the model and is not over, the fact is tried again with it.", "quantifier": "all sequences of events: facts, requirements, jobs, invalidations, look-ups and time, in any order", "why_tests_cant": "unbounded interleavings of facts, requirements, jobs and time", "anchors": ["r_exec/mdl_controller.cpp: PrimaryMDLController::store_requirement, SecondaryMDLController::store_requirement", "r_exec/mdl_controller.h: MDLController::reduce_cache", "r_exec/hlp_controller.h: HLPController::_store_evidence", "r_exec/hlp_overlay.cpp: HLPOverlay::store_evidence", "r_exec/mdl_controller.cpp: SecondaryMDLController::reduce_batch, SecondaryMDLOverlay::reduce"]}
{"id": "C195", "title": "Requirements are kept where they belong for as long as they last", "statement": "The requirements on a model are kept apart by sign and by whether they are simulated, until they are over or invalidated; the secondary group gets exactly those that are not simulated. The latest comes first.", "quantifier": "all sequences of events: facts, requirements, jobs, invalidations, look-ups and time, in any order", "why_tests_cant": "unbounded interleavings of facts, requirements, jobs and time", "anchors": ["r_exec/mdl_controller.cpp: PrimaryMDLController::store_requirement, SecondaryMDLController::store_requirement"]}
{"id": "C196", "title": "A simulated prediction falls if its ground is defeated, and only then", "statement": "A simulated prediction that was made on a weak requirement is invalidated by a strong requirement that comes later, clashes with the weak one and is at least as sure, in the same simulation, if there are weak and strong models; and by nothing else of the kind.", "quantifier": "all sequences of events: facts, requirements, jobs, invalidations, look-ups and time, in any order", "why_tests_cant": "unbounded interleavings of facts, requirements, jobs and time", "anchors": ["r_exec/mdl_controller.cpp: PrimaryMDLController::store_requirement, SecondaryMDLController::store_requirement", "r_exec/factory.cpp: Pred::is_invalidated"]}
{"id": "C197", "title": "Every strong requirement that clashes makes the predictions fall", "statement": "A simulated prediction made on a weak requirement is invalidated by a strong requirement that clashes with the weak one and is at least as sure, if it holds in one of its simulations or in fact.", "quantifier": "all sequences of events: facts, requirements, jobs, invalidations, look-ups and time, in any order", "why_tests_cant": "unbounded interleavings of facts, requirements, jobs and time", "anchors": ["r_exec/mdl_controller.cpp: PrimaryMDLController::store_requirement, SecondaryMDLController::store_requirement"]}
{"id": "C198", "title": "Monitors that wait are told of every positive requirement", "statement": "A monitor that waits for requirements is told of each positive requirement that comes, until it chains, leaves or is lost, and of nothing else.", "quantifier": "all sequences of events: facts, requirements, jobs, invalidations, look-ups and time, in any order", "why_tests_cant": "unbounded interleavings of facts, requirements, jobs and time", "anchors": ["r_exec/mdl_controller.cpp: PrimaryMDLController::store_requirement, SecondaryMDLController::store_requirement", "r_exec/mdl_controller.cpp: PMDLController::add_r_monitor, remove_r_monitor"]}
{"id": "C199", "title": "A drive has at most one outcome", "statement": "However often a drive comes, and to however many top-level models, at most one success or failure of it is reported, and the first one is final.", "quantifier": "all sequences of arrivals of drives at any number of top-level models, evidence, predictions and monitoring jobs, in any order", "why_tests_cant": "unbounded interleavings of drives, evidence, predictions and jobs, over any number of models", "anchors": ["r_exec/mdl_controller.cpp: TopLevelMDLController::reduce, abduce, abduce_lhs, register_goal_outcome, register_drive_outcome", "r_exec/g_monitor.cpp: GMonitor::reduce, update", "r_exec/factory.cpp: Goal::is_invalidated"]}
{"id": "C200", "title": "The outcome of a drive goes to the drives, that of its goal to everybody else", "statement": "If the success or failure of the goal made for a drive is reported, it is reported to every output group of the model but the last, and the same outcome of the drive to the last one; outcomes of drives go nowhere else.", "quantifier": "all sequences of arrivals of drives at any number of top-level models, evidence, predictions and monitoring jobs, in any order", "why_tests_cant": "unbounded interleavings of drives, evidence, predictions and jobs, over any number of models", "anchors": ["r_exec/mdl_controller.cpp: TopLevelMDLController::reduce, abduce, abduce_lhs, register_goal_outcome, register_drive_outcome", "r_exec/g_monitor.cpp: GMonitor::reduce, update", "r_exec/factory.cpp: Goal::is_invalidated"]}
{"id": "C201", "title": "Every drive gets an outcome", "statement": "A drive that concerns a top-level model gets an outcome: at once if it is known, or at the latest when the monitoring jobs of its goal are done.", "quantifier": "all sequences of arrivals of drives at any number of top-level models, evidence, predictions and monitoring jobs, in any order", "why_tests_cant": "unbounded interleavings of drives, evidence, predictions and jobs, over any number of models", "anchors": ["r_exec/mdl_controller.cpp: TopLevelMDLController::reduce, abduce, abduce_lhs, register_goal_outcome, register_drive_outcome", "r_exec/g_monitor.cpp: GMonitor::reduce, update", "r_exec/factory.cpp: Goal::is_invalidated"]}
{"id": "C202", "title": "When a model assumes its left side of a fact, and with which sign, confidence and life", "statement": "A model assumes its left side of a fact exactly if it is strong, is no model of requirements, reuse or commands, the fact is no prediction, success rate times confidence is above the threshold of the group, the fact matches the right side, times and guards can be evaluated, and the requirement is met or there is none; the assumption has the sign of the match, that product as confidence and saliency, and lives until its end.", "quantifier": "all models, all facts, all times, all results of matching, look-up and guards", "why_tests_cant": "all combinations of kinds of models, signs, requirements, thresholds and times, over the rationals", "anchors": ["r_exec/mdl_controller.cpp: PrimaryMDLController::assume, assume_lhs"]}
{"id": "C203", "title": "Assumptions made of assumptions come to an end", "statement": "Assumptions made by models of each other's assumptions lose confidence, and there are only finitely many in a line.", "quantifier": "all sequences of models, of any length, none twice in a row", "why_tests_cant": "lines of any length; all rates and thresholds", "anchors": ["r_exec/mdl_controller.cpp: PrimaryMDLController::assume, assume_lhs"]}
{"id": "C204", "title": "In a simulation, a fact kept for a later time gives way to what is predicted for that time", "statement": "In a simulation, facts that nothing has changed are taken to hold at later times too; such a fact never stands against a prediction for the same time, and it is not given up for anything else.", "quantifier": "all sequences of inputs of any number of overlays in a simulation, all ways of matching", "why_tests_cant": "unbounded interleavings of inputs and overlays in a simulation", "anchors": ["r_exec/cst_controller.cpp: CSTOverlay::reduce (promotion in simulations)", "r_exec/factory.h: Sim::defeasible_promoted_facts_, defeating_facts_"]}
{"id": "C205", "title": "In a simulation, no fact is kept twice for later times", "statement": "At no time are there two facts kept for a later time that come from the same fact, and an overlay of a composite state keeps its facts once only, at the first later input.", "quantifier": "all sequences of inputs of any number of overlays in a simulation, all ways of matching", "why_tests_cant": "unbounded interleavings of inputs and overlays in a simulation", "anchors": ["r_exec/cst_controller.cpp: CSTOverlay::reduce (promotion in simulations)", "r_exec/factory.h: Sim::defeasible_promoted_facts_, defeating_facts_"]}
{"id": "C206", "title": "Which facts are kept for a later time in a simulation", "statement": "A fact kept for a later time is a fact of an overlay, no instance of a composite state, with the same object, sign and confidence, and with the times of an input that begins when all the overlay has is over, is not kept itself, and is not about the same; at the first such input, all of them are kept, unless one would be about the same as an input that another one has given way to.", "quantifier": "all sequences of inputs of any number of overlays in a simulation, all ways of matching", "why_tests_cant": "unbounded interleavings of inputs and overlays in a simulation", "anchors": ["r_exec/cst_controller.cpp: CSTOverlay::reduce (promotion in simulations)", "r_exec/factory.h: Sim::defeasible_promoted_facts_, defeating_facts_"]}
{"id": "C207", "title": "What is built on a model that disappears, disappears", "statement": "When a model disappears, the models that have an instance of it on one of their sides, those built on them, and so on, disappear once inputs have come to them, and take no input any more; no other models disappear.", "quantifier": "all networks of models, also cyclic ones; all sequences of inputs and removals", "why_tests_cant": "networks of any depth and any order of inputs", "anchors": ["r_exec/hlp_controller.cpp: HLPController::become_invalidated, invalidate", "r_exec/mdl_controller.cpp: MDLController::MDLController, take_input of the three kinds of controllers, kill_views"]}
