# Formal model of AERA (IIIM-IS/AERA) in Rocq

The properties are in `properties.jsonl`.  The model and the proofs are in
`rocq/theories`.  The repository was read as text; nothing in `/repo` is built,
run or changed.

## Conventions

* One area of the code = up to four files: `X_model.v` (definitions only, each
  with a comment citing file and lines), `X_spec.v` (the vocabulary used to
  state the property, independent of the model's helper functions; omitted when
  the statement needs none), `X_proofs.v` (lemmas), `X_props.v` (property theorems
  only, each closed by `exact`, followed by `Print Assumptions` and an
  `Example` that meets the hypotheses).
* Words of memory (`uint32` atoms) are `Z` with explicit `mod 2^32`; signed
  64-bit times are `Z`, with wrap-around written out where the code relies on
  the width.
* `float32` is `spec_float` of the standard library (`Coq.Floats.SpecFloat`,
  pure Gallina, no axioms) at precision 24, emax 128, i.e. IEEE-754 binary32 with
  round-to-nearest-even.
* C++ references/pointers between objects are identifiers (`nat`/`N`) or the
  pointed value itself when the code never mutates it.
* Undefined behaviour (out-of-bounds access) is a distinct outcome
  (`None`/`UB`) in the model, never a default value.
* Code that calls an arbitrary handler (jobs, pattern matchers, guards) takes
  that handler as a universally quantified function argument.
* Where the English property is false of the faithful model, the theorem name
  ends in `_refuted` (with a concrete witness) and, next to it, the strongest
  part that holds is proved under a name ending in `_partial`.

## Plan per property

| id | model | method |
|----|-------|--------|
| C01, C02 | `Atom` constructors and accessors on `N` | bit-field arithmetic lemmas, all fields universally quantified |
| C03 | `Atom::Float` / `asFloat` on 32-bit words, decoded to `spec_float` | shift arithmetic + decoding lemma |
| C04 | same | expected to be refuted (Node, UndefinedFloat), with the true part |
| C05, C06 | `Utils::Set*/Get*` on code arrays (lists of words) with explicit resize | round trip + frame |
| C07, C08 | `Utils::GetResilience`, `Group::get_next_upr_time` on `Z` | division lemmas |
| C09, C10 | `r_code::list`: vector of cells with prev/next/free links | representation invariant, refinement to `list` over any operation sequence |
| C11, C12 | `SysView/SysObject/Metadata/CodeSegment` write/read | round trip by induction, size exactness; 16-bit truncation refuted |
| C13 | `BindingMap::match_timings` | case analysis against interval intersection |
| C14, C15, C16 | `BindingMap` values, matching and abstraction | induction on fuel/structure; monotonicity of bindings |
| C17 | `_Fact::MatchStructure`, `StructureValue::contains` | refutation by computation + partial |
| C18, C19 | `_Fact` timing relations, `is_evidence` | case analysis |
| C20 | operators on tagged values | case analysis + arithmetic |
| C21, C22 | `View`, `Group` control members, float32 | invariant over request histories |
| C23, C24, C25 | `Group` maps and `Group::update` | invariant over operation histories; threshold change refuted |
| C26 | saliency propagation over an object graph | well-founded measure (unvisited objects) |
| C27, C28, C29 | `DiagnosticTimeState::step` with arbitrary handlers | invariant over traces |
| C30 | `TimeCore::Run`, `DelegatedCore::Run` | refutation + partial |
| C31, C32 | `ModelBase` white/black sets | invariant over histories; refutation |
| C33 | `Overlay` code/patch/values | invariant over histories |
| C34, C35 | `PGMOverlay`, `PGMController`, `AntiPGM*` with abstract match relation | refinement to set of partial matches; refutation |
| C36 | pack/unpack of HLP | round trip |
| C37, C38 | `HLPController` evidence cache and counters | invariant over histories |
| C39 | `rate_model` | invariant over outcome histories |
| C40, C41 | `GMonitor`, `PMonitor` as state machines | invariant over event sequences |
| C42 | `make_suffix`, decompiler naming | injectivity by induction |
| C43, C44, C45 | `Object::Equal/Hash/mod/set`, OID assignment | invariant/case analysis |
| C46 | `BindingMap` construction, copying, count of unbound values | invariant over operations; the 8-bit copy loop refuted at 256 values |
| C47 | `_Fact` construction and negation | case analysis |
| C48 | `DiagnosticTimeState::step` with arbitrary handlers | refutation + bound on the last event |
| C49 | registration, deletion and listing of objects | invariant over histories; double registration refuted |
| C50, C51 | `View::update_sln/act`, notifications by `Group`, `MorphValue` | counting invariants over histories of a group; refutations |
| C52 | planned times of updates | induction on the number of updates |
| C53, C54 | `Group::update` statistics, newly salient views | one pass over the views, per-view lemma `update_one` |
| C55, C26 | `MorphChange`, saliency propagation | float order lemmas, well-founded measure |
| C56 | `rate_model` | monotonicity of float rounding |
| C57 | requirement counters of a pair of controllers | case analysis over the order of deletions |
| C58, C59, C60 | `retrieve_imdl_*`, `_store_requirement` | loop invariants over the caches; refutations |
| C61, C62 | operators, comparison of contexts | case analysis; typing of operands |
| C63, C64 | copies of overlays, stored results | invariant over writes, bound on indices |
| C65 to C68 | `PGMController`, `AntiPGMController`, `InputLessPGMController` | invariants over executions; refutations |
| C69 to C73 | monitors and jobs as interleaved handlers, `commit` | invariant over event sequences; refutations |
| C74 to C77 | labels and names of the decompiler, `OutStream` | invariants over insertions, injectivity of names |
| C78, C79, C80 | visibility, change monitors, decay in `Group::update` | invariants over histories of a group |
| C81 to C89 | `CSTOverlay`, `CSTController::reduce` over an abstract binder | productions of a history = productions of its subsequences; invariants of one overlay; refutations |
| C90, C91 | `CSTController::abduce`, `Sim::register_goal_target` | induction on the components |
| C92 | life of a `CSTController` | exact condition, induction on the history |
| C93 to C95 | code of predictions: `Pred::construct`, `get_simulation` | evaluation of the encoding; refutations |
| C96, C97 | `is_invalidated`, `invalidate` of facts, predictions, goals, simulations, instances | fuelled recursion on a ranked graph; flags agree with reachability |
| C98 to C100 | evaluation of guards: `evaluate_guards`, assignments, `bind_variable` | expressions as trees; monotonicity of evaluation in the bindings; refutations |
| C101 to C103 | `scan_bwd_guards` | fuelled recursion through assignments; exact characterisation by an inductive set of obtainable variables |
| C104, C105 | `evaluate_fwd_timings` | case analysis; agreement with the evaluation of all guards |
| C106, C107 | `copy_structure`, `valuate`, `need_binding`, `bind_pattern` on words | nested induction on the structure shown by the code, with frame conditions; induction on the references |
| C108, C109 | the reader of the preprocessor, character by character, over a stream with its flags; the printer | induction on structures; a measure on the stream; fuel monotonicity |
| C110 to C116 | macros, counters, conditions and loads of the preprocessor: `process` and the passes over the root | equations of the mutual functions; fuel monotonicity; invariants by induction on the fuel; permutation of visits for the counters |
| C117 to C124 | literals of the compiler and of the decompiler: durations, times, strings, constants, hexadecimal identifiers; the stream is the text that is left, as every failing path restores it; floating-point numbers and indentation not modelled | decomposition of the text that is read; digits and their value; frames of the words written |
| C125 | the reader of the preprocessor, `Ppr_model` | frames of the reading of each line, the state in a comment |
| C126 to C130 | the guard builders and the choice of one: the words they write in the code of a model; the evaluation of guards is that of C-properties on guards, with the operators of `Op_model`; indexes are naturals, bounded in the statements; objects without structures inside | each writer appends a segment that a decoder reads back; evaluation of the guards decoded, frame of the other variables |
| C131 to C134 | the abstraction of facts, commands, values and instances into patterns, on the words of the code, with the search for variables and the tolerances; pointers to objects are compared by a given relation; recursion by depth, with an outcome when it is too deep; a search that starts behind the end of the map is undefined | every step writes one word and what it points to behind the end, and extends the map; composed over the members; binding by C107 |
| C135 to C139 | the instances of composite states and models: how they are written from a map, read into a map, abstracted on their own, and how the map of a state or model is first made, all on the words of the code; a missing entry or an index out of bounds is undefined; recursion by depth, with an outcome when it is too deep | the words written carry the values (invariant over the writes), readings composed from those of the values; a walk over the words for the map |
| C140 to C149 | the auto-focus: which inputs are injected where and with what times, when extractors start, its time-limited buffers; controllers of atomic states as interleavings of a check and a body under a lock; the choice of the components of a new composite state; ratings | traces of events refined to a list of open targets; induction over jobs and interleavings; invariant over the instances handled |
| C150 to C155 | operators on vectors over a memory of code, values of variables and the array of results (with its capacity and address); the choice of the overload; expressions made from two facts | memory that grows keeps what pointers lead to; induction over components; trees of structures read as vectors (C106) |
| C156 to C162 | both passes over the commands of a program, the words of the notification as they are written; paths and targets of mod and set over a heap of objects and views; red | induction over the commands; an invariant of the notification being written; paths as an inductive relation |
| C163 to C165 | words of a program, an input and an instance; the match of a skeleton, the pointers written over variables, their dereferencing | patterns read as trees; conformity as an inductive relation; places as paths; an invariant of the words written |
| C166 and C167 | objects as trees, the words the compiler writes in two passes over sets, the text the decompiler writes from them | what is written at each index by induction on trees, with sizes of parts and an invariant on names; acceptance by induction in both directions |
| C168 and C169 | the words of an object; the search for references in guards, the change of times | what is reached as an inductive relation; both directions by induction on steps and ranks; separation of what is reached from different members |
| C170 to C177 | goals with their simulations, what one call makes of a goal, the targets of a root, outcomes | chains of simulated goals as an inductive relation, with anything known at each step; induction over chains and over sequences of calls |
| C178 to C182 | objects in memory with references and views, the list of objects of an image | calls with fuel, endless calls shown for all fuel; reachability as an inductive relation; induction over fuel and lists |
| C183 to C191 | what one input makes a model predict, watch, notify and ask for; sequences of inputs | cases of the reduction, induction over results, chains and sequences |
| C192 to C198 | facts, requirements and monitors kept by a model, as a machine over events; what a new requirement does to them | invariants by induction over events, read off from the list of events alone; refutations |
| C199 to C201 | drives, top-level models and the monitors of their goals, as a machine over events | invariants by induction over events; a measure on the jobs to come; refutation |
| C202, C203 | what a model assumes of a fact; lines of assumptions of assumptions | case analysis; induction over lines; refutation |
| C204 to C206 | facts kept for later times in a simulation, as a machine over the inputs of overlays | invariant by induction over inputs; refutation |
| C207 | models built on models, as a machine over inputs and removals | induction over events and over ways through the network; refutation |

## Trusted base

### Checking

* The kernel of Coq 8.16.1 (and `coqchk`, which rechecks the compiled files).
* `Print Assumptions` is run after every property theorem in the `*_props.v` files.
  For all of them it prints "Closed under the global context": no axiom is used,
  neither of the standard library nor of this development.  (`coqchk -o` lists seven
  axioms of `Coq.ssr.ssrunder`, which the standard library loads; no theorem depends on
  them.)
* There is no `Axiom`, `Parameter`, section-less `Variable` or `Hypothesis`,
  `Admitted`, functor, module type, plugin, or change of kernel flags.

### From the C++ to the model

The model was written by reading the code.  Nothing checks mechanically that a
definition says what the cited lines do.  The following is assumed throughout:

* `float` is IEEE-754 binary32 and `double` binary64, rounding to nearest even, without
  excess precision or fused operations; all NaNs are one value.
* `CoreLibrary` is not in the repository (the submodule is empty): `P<>` counts
  references and deletes an object when the last one is dropped, pipes are first-in
  first-out, `Timestamp` is a count of microseconds.
* `std::vector`, `std::list`, `std::map`, `std::unordered_*` and `std::string` do what
  the C++ standard says; iteration over an unordered container may follow any order
  (where the order matters the theorem is for all orders, or the comment says which one
  is taken).
* Objects are reached through identifiers.  Memory exhaustion is not modelled.
* One critical section is one step.  Interleavings are modelled only for the monitors
  (C40, C41, C69 to C73) and the schedulers (C27 to C30); elsewhere operations on one
  object are taken in sequence.
* 64-bit times do not overflow, except where a definition wraps them explicitly.

### Code that is modelled

Each definition of a `*_model.v` file cites the file and lines it models, and says what
is left out.

| files of the model | code |
|---|---|
| `Atom_model` | `r_code/atom.h`, `atom.inline.cpp`, `atom.cpp`: constructors, accessors, floats |
| `Utils_model` | `r_code/utils.h`, `code_utils.cpp`: 64-bit values, strings, resilience, tolerances |
| `CellList_model` | `r_code/list.h` |
| `Image_model` | `r_code/object.cpp`, `image.cpp`, `image.tpl.cpp`; `r_comp/segments.*`, `class.cpp`, `structure_member.cpp`: writing and reading of images |
| `Match_model` | `r_exec/binding_map.cpp`: values, maps, matching, abstraction |
| `Fact_model` | `r_exec/factory.cpp`: `_Fact`, matching of structures, evidence |
| `Obj_model` | `r_exec/object.h`, `object.tpl.cpp`, the storage part of `mem.cpp`, `mem.tpl.cpp` |
| `View_model` | `r_exec/view.h`, `view.inline.cpp`, `view.cpp`: control values |
| `Grp_model` | `r_exec/group.h`, `group.inline.cpp`, `group.cpp`: parameters, views, injection, update |
| `Sln_model` | `group.cpp`, `time_job.cpp`, `mem.cpp`: propagation of saliency |
| `Sched_model` | `mem.cpp`: `DiagnosticTimeState`; `time_core.cpp` |
| `Mb_model` | `r_exec/model_base.*` |
| `Pack_model` | `mem.cpp`: `pack_hlp`, `unpack_hlp` |
| `Ev_model` | `hlp_controller.*`: evidence caches, counters of requirements |
| `Rate_model` | `mdl_controller.cpp`: `rate_model`, `register_pred_outcome`, `register_req_outcome` |
| `Req_model` | `mdl_controller.cpp`: `_store_requirement`, `retrieve_*` |
| `Op_model` | `operator.cpp`, comparison of contexts in `context.cpp` |
| `Ovl_model` | `overlay.cpp`, `_context.cpp`, patches of `pgm_overlay.cpp` |
| `Pgm_model` | `pgm_overlay.cpp`, `pgm_controller.cpp`: reduction |
| `Mon_model`, `Sol_model` | `p_monitor.cpp`, `g_monitor.cpp`, `monitor.cpp` |
| `Cst_model`, `Csg_model` | `cst_controller.cpp`: forward chaining (the promotion of facts in simulations is in `Pro_model`), `abduce`, life of the controller |
| `Prd_model`, `Inv_model` | `factory.cpp`: simulations of predictions, invalidation |
| `Net_model` | `hlp_controller.cpp`: `become_invalidated` (without template arguments), `invalidate`; `mdl_controller.cpp`: `controllers_` as set by `MDLController::MDLController`, the checks of `take_input` |
| `Pro_model` | `cst_controller.cpp`: `CSTOverlay::reduce`, 297-388, the promotion of facts in simulations, for one simulation. Matching and the answer of `inject_prediction` are given |
| `Asm_model` | `mdl_controller.cpp`: `PrimaryMDLController::assume`, `assume_lhs`. Matching, times, guards and the look-up of requirements are given; the resilience is the time to live |
| `Drv_model` | `mdl_controller.cpp`: `TopLevelMDLController::reduce` (for drives), `abduce`, `abduce_lhs`, `register_goal_outcome`, `register_drive_outcome`, `register_predicted_goal_outcome`; `g_monitor.cpp`: `GMonitor::reduce` and `update` as far as they report outcomes; `Goal::is_invalidated`. Matching and what is known are given; time is the order of jobs |
| `Sto_model` | `mdl_controller.cpp`: `PrimaryMDLController::store_requirement`, `SecondaryMDLController::store_requirement`, `reduce_batch`, `add_r_monitor`, `remove_r_monitor`; `mdl_controller.h`: `reduce_cache`; `hlp_controller.h`: `_store_evidence`, `is_too_old`; `hlp_overlay.cpp`: `store_evidence`; what of `Pred::is_invalidated` is about defeasible consequences. Matching is given; the loops that look for requirements are any erasure of old entries |
| `Fwd_model` | `mdl_controller.cpp`: `PrimaryMDLOverlay::reduce`, `PrimaryMDLController::predict`, `inject_prediction`, `reduce` (without goals), `check_last_match_time`, `register_requirement`, `SecondaryMDLOverlay::reduce`, `SecondaryMDLController::predict`; `HLPController::inject_prediction`. What is found as requirements, guards and matching are given; confidences are exact numbers |
| `Snp_model` | `segments.cpp`: `Image::add_objects`, `add_object` (both), `get_reference_count`, `add_sys_object`, `build_references`, `unpack_objects`, `CodeSegment::write`; sizes of `SysObject` and `SysView`; `mem.cpp`: `get_models`, `get_objects`. Objects are numbers of words, references and views; counts of references are not cut to sixteen bits |
| `Pln_model` | `mdl_controller.cpp`: `abduce`, `abduce_no_simulation`, `abduce_lhs`, `abduce_imdl`, `abduce_simulated_lhs`, `abduce_simulated_imdl`, `check_imdl`, `check_simulated_imdl`, `get_sim_thz`, `register_pred_outcome`, `register_req_outcome`; `cst_controller.cpp`: `abduce`, `inject_goal`; `factory.cpp`: `Sim`, `get_root_sim`, `register_goal_target`. What is found in memory is given for each call; matching of objects is a parameter |
| `Ld_model` | `code_utils.cpp`: `has_reference`; `mem.cpp`: the checks of guards in `load`, `update_timestamps`, `init_timestamps` |
| `Cmp_model` | `compiler.cpp`: `read_sys_object`, `expression`, `expression_tail`, `set`, `set_element_count`, `local_reference` (members' types, paths, casts, sets with a class, composite states, models and views left out); `decompiler.cpp`: `write_any`, `write_expression_tail`, `write_set` |
| `Pat_model` | `context.cpp`: `match`, `dereference` on skeletons (chains, views and computed values left out); `pgm_overlay.cpp`: `patch_input_code`, `dereference_in_ptr`, `patch_tpl_args`, `patch_tpl_code` |
| `Cmd_model` | `pgm_overlay.cpp`: `inject_productions`, `get_mk_rdx` (evaluation, copies of commands and devices are given); `context.cpp`: `dereference` (values left out), `getMember`, `Red`, `reduce`, `match` |
| `Vec_model` | `usr_operators/Operators/operators.cpp` (root, functions on quaternions are parameters); `operator.h`: `OpContext`, `Operator::operator()`; `_context.cpp:92-123`; `hlp_context.cpp:122-138`; `operator.cpp:114-193` (comparisons left out) |
| `Af_model` | `auto_focus.cpp`: `reduce`, `dispatch`, `dispatch_no_inject`, `notify`, `inject_input`; `auto_focus.h`: `build_tpx`, `Rating`; `pattern_extractor.cpp`: `TPX::filter`, `take_input`, `signal`, `ack_pred_success` (what it learns is a parameter), `filter_icst_components` and its caller; `time_buffer.h`; `ast_controller.tpl.cpp`, `ast_controller.cpp` (matching is a parameter) |
| `Inst_model` | `binding_map.cpp`: `HLPBindingMap::build_f_ihlp`, `build_ihlp`, `build_ihlp_structure`, `get_ihlp_exposed_args_position`, `init_from_f_ihlp`, `init_from_ihlp_args`, `init_from_hlp`, `add_unbound_values`, `add_unbound_value`, `set_fwd_timing_indexes`; `BindingMap::abstract_f_ihlp` |
| `Abs_model` | `binding_map.cpp`: `abstract_object`, `abstract_fact`, `abstract_member`, `get_atom_variable`, `get_structure_variable`, `get_object_variable`, the `contains` of the values |
| `Gb_model` | `guard_builder.cpp`, all builders; `pattern_extractor.cpp`: `build_mdl_tail`, `get_default_guard_builder`, the numeric part of `find_guard_builder` |
| `Lit_model` | `compiler.cpp`: `match_symbol`, `duration`, `timestamp_s_ms_us`, `str`, `hex`, the constants, what is written in the code; `code_utils.cpp`: `ToString_us`, `ToString_s_ms_us`; `decompiler.cpp`: `write_any` for words that are not pointers |
| `Mac_model` | `preprocessor.cpp`: `process`, `expandMacro`, `findAtom`, `isActive`, the tables of macros, counters, conditions and loaded files |
| `Ppr_model` | `preprocessor.cpp`: `parse`, `parseDirective`, `getIndent`, `operator<<` |
| `Bp_model` | `binding_map.cpp`: copy of structures, binding of patterns, word by word |
| `Gd_model` | `hlp_overlay.cpp`: guards, scan, forward timings; `hlp_context.cpp`: evaluation; `binding_map.cpp`: `bind_variable`, `copy_structure`, `scan_variable` |
| `Dec_model` | `r_comp/decompiler.cpp`: names; `out_stream.h` |

### Code that is not modelled

Named by file; what is listed in the table above is modelled, the rest is not.

- `r_comp/compiler.cpp`: casts, structured sets, views, the bodies of models and states;
  `preprocessor.cpp`: `initialize`, `instantiateClass` and the reading of templates of
  classes; `decompiler.cpp`: the layout of what is written, apart from literals, names and
  the words of objects.
- `r_exec/pattern_extractor.cpp`, `guard_builder.cpp`, `ast_controller.*`: the building of
  models and of guards, apart from the functions in the table.
- `r_exec/mdl_controller.cpp`: the matching of inputs,
  apart from the functions in the table.
- `r_exec/mem.cpp`, `reduction_core.cpp`, `time_core.cpp`: threads and locks. Functions are
  taken to run one after the other.
- `usr_operators/` apart from the functions in the table, `AERA/`, `output_window/`, and
  everything that prints.
