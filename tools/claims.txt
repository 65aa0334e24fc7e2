# property | status | note
C01 | proved | All constructors and all in-range field values; node atoms are covered by C04.
C02 | proved | Injectivity over all pairs of constructors; exact float and structural tests.
C03 | proved | All finite 32-bit patterns; values decoded with SpecFloat at precision 24.
C04 | partial | The full statement is false of the code: Node(id).getNodeID() is 0, UndefinedFloat and UndefinedTimestamp do not read as nil, UndefinedFloat is also the code of an ordinary number (refuted theorems). The partial theorem covers the remaining special atoms.
C05 | partial | Timestamps (both forms) and durations written through a pointer: full round trip and frame for every int64 value. Missing: the structure form of a duration truncates the code after it (refuted theorem); the partial theorem gives the round trip and the frame before the structure.
C06 | partial | Round trip and frame for strings of at most 254 bytes in 1..127. The unrestricted statement is false (non-ASCII bytes, length 255, length 300: refuted theorems).
C07 | partial | The first overload is exact for positive time to live. Refuted: past deadlines give a resilience below 1, the conversion overload shortens lives, and goal/prediction resilience ignores the base period.
C08 | proved | For times at or after the time reference (the time reference is taken when the executive starts); time arithmetic is unbounded.
C09 | proved | Any element type, any history whose erasures are at live locations (the class checks nothing); includes remove and the erase-while-iterating loop. Cell indices are unbounded (int32 in the code).
C10 | partial | Proved for push_back and erase, the only forms the executive uses. push_front reports the wrong location when it allocates a new cell (refuted theorem); the partial theorem covers cell reuse.
C11 | proved | All views and objects whose sizes fit the 32-bit count words and whose references fit the uint16 they are kept in; exact word format and frame.
C12 | partial | The full statement is false: classes are never read back by Metadata::read, code segments of 65536 words or more are misread, 65536 objects or more make loading diverge (refuted theorems). Proved below the 16-bit bounds for images, names, object maps and files.
C13 | partial | Proved for non-empty intervals, and the exact behaviour for all bounds; refuted for an empty input interval, which is accepted.
C14 | partial | Proved for patterns without (ti : :) whose structures fit 4096 words, relative to a member-wise equality. Refuted: a variable bound to an object accepts non-reference members, members left open by the object bind nothing, structures bound to variables lose their references.
C15 | partial | Proved for every history of object matches; for all histories only times change. Refuted for facts, whose bound times are narrowed by design.
C16 | partial | Atoms and objects: first-or-fresh, stability over every history, distinctness. Structures: exact search behaviour; refuted for nested structures, out-of-range start index, unsearched output arguments and 4096 variables.
C46 | partial | Proved for every reachable map; copying proved below 256 values and refuted at 256 (the copy loop does not end).
C17 | partial | Refuted for durations and strings (payload words compared as floats). Proved: object matching decides agreement, timestamps, string lengths, exact behaviour on durations below 2^31.
C18 | partial | Symmetry, inclusion order and subset proved in full; overlap = intersection and synchronous reflexivity proved for non-empty intervals, refuted for instantaneous facts.
C19 | partial | is_evidence proved in full (both polarities, swap). is_timeless_evidence: partial, with two refutations.
C47 | proved | 
C27 | proved | For every sequence of handler behaviours. Equal targets run in the order they entered the queue; a rerun request enters before the jobs pushed by the same handler.
C28 | partial | Tick times and schedule proved in full; "after every due job" fails for the initial call only (refuted).
C29 | partial | Order, at-most-once and no loss proved in full. The limit between two ticks is refuted for every limit; bounded bursts proved.
C30 | partial | Refuted for early timers (target 0 handed over) and for unasked reruns; proved for exact timers and for jobs delegated when first taken.
C48 | partial | Refuted; proved that nothing happens one sampling period or more after the end.
C43 | partial | Hash/equality consistency and equivalence proved within a hash bucket for objects with an up-to-date cached hash; refuted for objects of different sizes, for objects changed after hashing, and for the existence check, which looks nothing up.
C44 | partial | No effect on other members or atoms proved in full; range proved for modifications by numbers and settings in [0,1] when the threshold is the last atom; refuted for set (no clamp), NaN, and objects with structured members.
C45 | partial | Uniqueness proved for images with distinct defined identifiers while the 32-bit counter does not wrap; refuted for images holding an object with the undefined identifier.
C49 | partial | Totality and exact deletion proved for all histories; exact listing proved when no object is registered twice; refuted otherwise (notifications injected in two groups).
C21 | partial | Refinement to the mean-of-requests specification proved while fewer than 2^32 requests are pending; range proved for finite requests; direction proved. Refuted for infinite requests (NaN) and for 2^32 requests (count wraps, all lost).
C50 | partial | Low count proved for all histories; high count refuted (not cleared by a low period) and proved when the saliency never goes below the low threshold. The notifications of groups are characterised exactly, for saliencies and activations, for every history with a constant integer period of 1 to 2^24; with the period 0 notifications are refuted to mean what they say.
C51 | partial | Range proved when the source threshold is positive; refuted when it is 0; side of the threshold refuted both ways.
C22 | partial | Refinement to the mean-of-requests specification, for all histories without injection of existing objects, for five of the seven parameters (saliency threshold: without decay); range proved for finite requests; immediate members proved in full. Refuted for the two c-thresholds (never settled), for requests settled early by injections, and for infinite requests. Flags proved.
C23 | partial | Stored once, lookup, iteration and deletion proved for all histories; refuted for a view of an existing group injected in a second group (not stored) and for unknown C++ programs (view without controller, undefined behaviour at an update).
C24 | partial | Proved for calm histories (no request on the activation threshold, no injection of existing objects, left-to-right evaluation, no skipped view), with signals exactly once; refuted for a raised threshold, for the other evaluation order, and after injections of existing objects.
C25 | partial | Exact countdown in a group proved over all histories for resilience up to 2^23, unlimited resilience and exact conditions of removal proved; refuted above 2^23 (counts by two, never expires).
C52 | partial | Regular grid, none missing and surrounding updates proved for constant periods; resuming after a period of zero refuted for all histories.
C53 | partial | Averages and greatest values proved when no view is skipped; least value refuted.
C54 | partial | Proved when the update does not change the saliency threshold and skips no view; refuted when the threshold is lowered. What injections hand over, and the renewal of injection times, are proved for all histories.
C26 | partial | Termination, at most one job per object, exact set of objects reached (those directly linked), exact requests and at most one request per view proved for every graph; refuted that objects two links away are reached.
C55 | partial | Proved for finite changes when the source threshold is positive; refuted when it is 0.
C39 | partial | For all histories and settings: rate in [0,1], positive integer evidence, exact count and rate rules below 2^23, strength only by inertia, deletion exactly at the threshold and once. Refuted: counting at 2^23, and counting the failure that phases out a strong model.
C56 | partial | Failures never raise the rate (proved); successes never lower it when the rate is at most 1-(n+1)/2^22 or is 1; refuted in general.
C31 | partial | Proved: answers to submissions, refusal while remembered, renewal, forgetting only by a late clean-up, stability of the known answer, never both live and failed for regular histories. False in general: a re-learned pair can leave the second model both live and failed, a repeated failure does not renew the memory, and a model about instances of a re-created model is learned again.
C32 | partial | Proved: the exact answers in all cases; an answer for the second model is always live. False in general: the first model can be answered without being live (second refused or already known).
C36 | partial | Proved for every well-formed pattern of packed size up to 4096, to any nesting depth: packing succeeds, keeps the pattern, and unpacking returns it exactly. False in general: an object using one reference twice, and a guard constant whose data word looks like a pointer.
C37 | proved | For all histories of stores, look-ups and invalidations: usable evidence is kept, once, most recent first, nothing else but stored evidence; look-ups find the first usable match and nothing only if there is none.
C38 | proved | For all histories, exact while the balances are in the range of the counters, modulo 2^32 otherwise.
C57 | partial | Proved when only the primary controller is killed, or the secondary once. False when both are killed (the counters wrap below 0, or an element is read that does not exist) and when the views are deleted otherwise (never withdrawn).
C58 | partial | Proved for all caches and matching relations when there are weak requirements, or none at all; with strong requirements only, as long as no cached entry has expired. False otherwise: the expired entry is erased from the wrong list, outside its cells or losing a usable entry.
C59 | proved | For all caches, matching relations and simulations; matching itself is given.
C60 | partial | The flag is sound. It is not complete: a weak requirement met later that does not clash clears it.
C20 | partial | Types, times, durations, orders, rounding and symmetries are proved for all operands. Refuted: undefined behaviour for a duration divided by zero and for large numbers added to times; 1/infinity is infinity; number times duration differs from duration times number; 0 and -0 are neither equal, less nor greater. Missing: the value of a duration multiplied or divided by a number (float64), and the functions of the C library (ln, exp, log, e10).
C61 | partial | Proved for comparisons on all numbers and for arithmetic without +infinity and without a division by zero; refuted for those.
C62 | partial | Proved when no word of the counts can be taken for a pointer or a structure; refuted otherwise (both ways); symmetric and reflexive, not transitive between embedded and referenced objects.
C33 | partial | Proved when the places changed since the commit had their original content; refuted when a committed place is changed again. The exact effect of a rollback is proved for all cases.
C34 | partial | Soundness and single firing proved for every match relation; completeness proved when no input matches two waiting patterns, refuted otherwise. Matching one input with one pattern and the guards are parameters.
C35 | partial | Refuted twice: a pending job is not cancelled by an occurrence, and a candidate whose guards fail blinds the program. Proved: without guards that fail, exactly the occurrences start a new period.
C63 | partial | The code is proved to be the committed one (places not committed before); the values are refuted: they lie 128 places further than the code says.
C64 | partial | Proved with fewer than 4096 atoms of results; refuted beyond.
C65 | partial | Refuted for programs with inputs (queued inputs); proved once per input, and over all executions for anti-programs and input-less programs.
C66 | partial | Refuted; proved that it fires at most once while nothing occurs.
C67 | partial | Refuted, under the assumption that a reference-counted object is released when the last P<> is dropped (the CoreLibrary is not in the repository).
C68 | partial | Proved for a program that stays active; refuted for one that is deactivated and activated again.
C40 | partial | Refuted in five ways (two outcomes when a reduction core and a time core overlap; none after a predicted success or when the controller is inactive at the deadline; a wrong one when the evidence comes right after predicted evidence was found wrong, or for anti-facts). Proved for any interleaving: at most two outcomes, their kinds, silence afterwards; for handlers that do not overlap: at most one and exactly which.
C41 | partial | Refuted by an interleaving that reports twice. Proved for any interleaving: at most two, their kinds, the monitor is gone; for handlers that do not overlap: at most one and exactly which.
C69 | partial | Refuted: after a predicted success the monitor does nothing anymore. What it does instead is proved.
C70 | partial | Refuted: a requirement that was met is still reported a failure at the deadline. At most once, and not before, is proved.
C71 | partial | Refuted in three ways (mandatory solutions without an optional one; a score that is not a number; invalidated mandatory solutions). Proved when scores are numbers and some optional solution is usable.
C72 | partial | Refuted: a mandatory damaging simulation hides the others. Proved exactly which simulations are stopped in both cases.
C73 | partial | Refuted: it decides twice. Proved that it is removed and when the second decision changes nothing.
C42 | partial | Refuted for two objects with the same user-defined name and for images of more than 65535 objects (never ends). Proved otherwise; made-up names, suffixes and variable names are unique in all cases.
C74 | partial | Refuted: with more than 65535 items the insertion never ends, and the label of an item that was not pushed is put at the start of the stream. Proved otherwise.
C75 | partial | Refuted for OIDs that are equal modulo 65536; proved for OIDs below 65536.
C76 | partial | Refuted in two ways; proved that the same image gets the same names again.
C77 | partial | Refuted for labels and variables of models; proved for labels (C42_variables) and for variables separately. The rendering of the code is not modelled.
C78 | partial | Proved for histories without requests on the visibility threshold, injections of groups or existing objects, and skipped views; refuted for groups injected in a group that is not c-active.
C79 | partial | The reports are characterised exactly for all histories; the countdown for a constant integer period. Refuted: changes are looked at every period plus one updates.
C80 | partial | From a new group on, with a constant integer period up to 2^24 and no request on the decaying value: each update in the period adds the fraction of the current value, so that (refuted) the total is not the percentage.
C81 | proved | For any binder; promotion of facts within simulations is not modelled.
C82 | partial | Refuted: the guards are never evaluated, for code is loaded by the constructor of every overlay; proved that they have no effect at all.
C83 | partial | Refuted: a fact that fits several components is tried with the first only. Proved for facts that fit one component, outside simulations.
C84 | partial | Refuted for a fact that is delivered twice; proved when each fact arrives once.
C85 | partial | Refuted: the fact has confidence 1. Proved: the lowest confidence is computed and compared with the thresholds.
C86 | proved | All three modes, with the grounds and simulations.
C87 | partial | Refuted for predictions that belong to several simulations; proved when each belongs to one at most.
C88 | partial | Refuted when the last component is not a prediction; proved when all inputs are predictions.
C89 | partial | Refuted: only the interval of the first component counts; proved for that interval.
C90 | proved | Evidence and matching of objects are parameters; register_goal_target with a root simulation.
C91 | partial | Refuted: a component without variables is negated in place; proved for goals to be reached, and for components with variables.
C92 | partial | Refuted: only the first component is watched. Proved: exact condition.
C93 | partial | Refuted: the index is off by one, so that index 0 gives the last simulation (the count in the set atom is taken for a reference); 256 simulations read as none. Proved for fewer than 256: all are visited, rotated by one.
C94 | partial | Refuted as C93; proved: some simulation with that root, the first if roots are distinct.
C95 | partial | Refuted for 256 simulations; proved for fewer, up to the order, through any chain.
C96 | proved | Exact, with memoised flags; cycles excluded by a rank.
C97 | proved | For any continuation of a history.
C98 | partial | Refuted: a later assignment may spoil an earlier test. Proved when each variable is assigned once, unbound before, from a definite expression.
C99 | partial | Refuted: booleans and other atoms are not bound; a literal object is bound with variable pointers inside; a template argument may stay unbound. Proved for the other expressions.
C100 | partial | Refuted: an assignment replaces a binding. Proved: variables not assigned are unchanged, bound variables stay bound.
C101 | partial | Refuted: a variable assigned twice. Proved when each variable is assigned once, with termination.
C102 | partial | Refuted: order of guards; variables in literals. Proved: the exact condition that the scan decides; that it suffices when guards are written in order.
C103 | partial | Refuted: two variables assigned from each other. Proved when first assignments can be ranked.
C104 | partial | Refuted: numbers are accepted. Proved when the guards make times.
C105 | partial | Refuted: when a guard needs a third variable. Proved otherwise, with the same values, in any order.
C106 | partial | Refuted: a word of a time, duration or string that looks like an internal pointer is replaced, or makes the copy run for ever. Proved for all other structures.
C107 | partial | Refuted: a value that is a structure with a reference refers to another object in the result. Proved for all other values and all patterns.
C108 | partial | Refuted: the label of an empty set moves to the next structure, an empty set at the top is lost, a tail inside a structure swallows the parenthesis. Proved for all other structures, of any depth.
C109 | partial | Refuted: a string not closed before the end of the file, or a last line made of a space, and the reader never stops. Proved for every text that ends with a newline.
C110 | partial | Refuted: a parameter that occurs twice is replaced once; an argument called like a later parameter is replaced in turn; a body that is a parameter is left. Proved when each parameter occurs once at most and arguments do not mention later parameters; refusal characterised fully.
C111 | proved | For all states, and from text to text.
C112 | partial | Refuted: the branch that does not hold is kept, and nothing is preprocessed after the first condition. What is proved is that the first condition ends the preprocessing.
C113 | partial | Refuted: two uses of a macro that uses a counter get the same number. Proved for all code when there are no macros and no counter is called like a number or has an empty name.
C114 | partial | Refuted: a use before the definition is left; a macro that uses itself is expanded for ever. Proved when definitions come first and the preprocessing ends.
C115 | partial | Refuted: !undef of a macro that is not also a counter, !else without a condition, loading a file protected by a condition. Proved without conditions and !undef.
C116 | partial | Proved amid lines that use nothing; that no file is loaded twice is proved of all texts. Missing: the place of the lines when loaded lines themselves contain directives.
C117 | proved | For all durations, texts after, codes and indexes within the range of pointers; the smallest duration is shown to be undefined.
C118 | proved | For all times whose difference fits; all codes and indexes within the range of pointers.
C119 | proved | Equivalence for all texts, and exact condition of the overflow.
C120 | partial | Refuted: 18446744073710s:0ms:0us is read as 448384 microseconds; signs and blanks are accepted within; the negation may overflow. Proved for the usual form with a value that fits.
C121 | proved | For all texts.
C122 | partial | Refuted: characters that are not ASCII, 255 characters (overflow of the buffer), 256 and more (truncated), quotes. Proved for the others.
C123 | partial | Refuted: |nb is written as a number, |nid as |sid, |st as 0xc6ffffff, |ts as a time. Proved for the other seven.
C124 | proved | For all identifiers and texts after.
C125 | partial | Refuted: after a comment that ends in two dots, the next line is a comment as well. Proved for all other comments, on lines of their own or after a structure without a tail, a set or a development.
C126 | partial | Refuted: four builders give the time of the cause otherwise than documented, and the backward guards cannot be read when the argument of the command is neither a float nor an object. Proved: what the code is read as, for all builders, models and heads.
C127 | proved | For all builders with times, models, bindings and 64-bit times without overflow. Objects in arguments without structures inside.
C128 | partial | Refuted: the builders with a constant change the times of the goal. Proved for the others, and what those do; forward then backward for all.
C129 | partial | Refuted: the ends of the prediction and of the cause. Proved: the starts; and the end of the prediction exactly when target and consequent last equally long.
C130 | partial | Refuted: wrong bound of the second search, and any value accepted as a cause. Proved: what is found is right; sums are found.
C131 | partial | Refuted: durations are compared as numbers, so that those of one and of two seconds share a variable. Proved when the tolerance on numbers is granted to the words of durations and strings too; structures inside an object hold atoms.
C132 | proved | For all objects that are complete, without variables and whose structures hold atoms only; for abstractions without synchronisation (C133 has the others).
C133 | partial | Refuted: a fact within the first one has its times remembered instead. Proved for the other facts, and what the facts in step become.
C134 | partial | Refuted for the times of facts when the search does not start at the first variable. Proved for the others, and for all entities.
C135 | proved | For maps of at most 256 variables (indices have eight bits) whose values are all there.
C136 | partial | Refuted: a word of a duration in a template is replaced by the value of the variable that it looks like. Proved when no word of raw data in the template looks like a pointer or a variable and the template has no references.
C137 | partial | Refuted for variables inside time intervals of the template, which then mean themselves, and for template variables without value, which are known afterwards. Proved for all other variables.
C138 | partial | Refuted: the arguments are numbered through without the two times, so that an argument behind them becomes the variable of a time. Proved: what is made of any instance, and that an argument becomes its variable exactly when this precedes both times.
C139 | partial | Refuted: a word of a string in the objects is taken for a variable, and null entries are made below it. Proved when no word of raw data looks like a variable, for variables below 256.
C140 | partial | Refuted: an input put aside for a target with variables is injected for another target and once more when the first target gets a value. Proved without targets that have variables, and when everything passes through; with them, that it is injected at least once.
C141 | proved | The order in an unordered map is any; facts are goals or predictions (typed) for the second theorem.
C142 | partial | Refuted: the success of a prediction makes extractors of goals build models although these are off. Proved when both are off; for one, C141 says that no extractor starts.
C143 | partial | Refuted; proved that no input is ever given to such a controller, because the test is the wrong way round.
C144 | partial | Refuted: the first element is given whatever its age, and stays for ever. Proved for all others.
C145 | partial | Refuted for axioms that are injected again, for which there is no case. Proved for all other modes.
C146 | partial | Refuted: the confidence of copies is 1, and what holds on may end before it begins. Proved: the times in all modes.
C147 | partial | Refuted with two threads that both find the controller alive. Proved when the jobs run one after the other; with threads, that after the end at most those that already waited report.
C148 | partial | Refuted: the input at another place is left out instead of an instance, and memory beyond an array is written if an input comes twice. Proved when the instances come first and no input comes twice.
C149 | partial | Refuted: the division is one of integers. Proved: the rate is 1 if all evidences are positive and 0 otherwise.
C150 | partial | Refuted for quaternions: the sum is computed and then replaced by nil. Proved for the other kinds, all dimensions and places of the operands, if the array of values does not move and stays below 4096 words.
C151 | partial | Refuted for quaternions. Proved for the other kinds, in both orders and for quotients.
C152 | partial | Refuted for quaternions (C150_quaternion_refuted): the angle is computed and then replaced by nil. Proved for the other kinds; the root is a parameter.
C153 | partial | Refuted: operands in a full array of values are read after it moved. Proved for all operators and kinds if there is room or the operands are elsewhere.
C154 | partial | Refuted: identifiers of devices may look like vectors and are added. Proved for vectors of different kinds or dimensions.
C155 | partial | Refuted for a vector and a number, for infinite numbers and for quaternions. Proved for two vectors of the same kind and dimension and for two finite numbers.
C156 | partial | Refuted: an unknown function is noticed after the commands before it were carried out; a probe of 255 objects does not end. Proved otherwise, for all lists of commands.
C157 | partial | Refuted: a new object in a production of red is made but the program itself is injected in its place, and a word of the code (or beyond it) is overwritten. Proved for commands that are not computed (C156_together_partial) and for computed ones on given objects.
C158 | partial | Refuted: a stop is counted but not written; 128 commands to devices are announced as none; an object built without a view is notified as nothing. Proved for the other commands, if the notification is below 4096 words and references and 256 elements.
C159 | partial | Refuted: references in a view are looked up among those of the object, so that this.vw.grp is not the group. Proved, in both directions, for paths that follow no reference of a view.
C160 | partial | Refuted: a group is dealt with like a view (or the program crashes); members of structures inside an object are taken as members of the object. Proved for members of views and objects.
C161 | partial | Refuted: the first input that does not fit ends a section; guards that are false pass; anti-patterns without guards fit nothing. Proved for inputs in the order of the sections; that nothing else is made is proved for any order.
C162 | partial | Refuted for tolerances of half a period or more, and the interval may start after the execution. Proved: the interval is not empty, starts at most two tolerances later and ends with the frame.
C163 | partial | Refuted: a variable used twice matches two different values; the words of a time are read as other words are, so that a time may match another one or not itself; :: stands for one member. Proved otherwise, in both directions, for all patterns and inputs.
C164 | partial | Refuted: in a program beyond 256 words variables within structures denote something else. Proved for shorter programs, with the rest of the program unchanged.
C165 | partial | Refuted: a variable within a structured parameter denotes a member of the wrong structure. Proved for the parameters themselves, in any number.
C166 | partial | Refuted: a set of 256 elements is decompiled as an empty one; pointers beyond 4096 words lead elsewhere; the members left out in (ptn ::) are undefined; a label used by a later member of the same structure is decompiled as a copy of what it names, a variable within an earlier member as undefined; a name defined once outside a set and again within it, used in between, refers to something else. Proved otherwise, for all structures and names.
C167 | partial | Refuted: a set that ends with :: lets members of the structure around it be missing. Proved in both directions if no set does.
C168 | partial | Refuted: expressions of assignments are not looked at, so that references in them are accepted; the words of times and durations are taken for references, so that some durations are refused. Proved in both directions without those; what is accepted has no references if there are no assignments, what is refused has one if there are no times.
C169 | partial | Refuted: a time that two members have in common is changed twice; arguments of programs are left as they are; a time that is not known becomes a known one. Proved for objects without those, with all other words unchanged.
C170 | partial | Refuted for a minimal time horizon below two microseconds: then no step takes any time, and requirements can be pursued without end. Proved: the exact time after any number of steps, the bound on steps through models and on requirements met, and the time given to a root. The number of composite states nested in each other is not bounded by time.
C171 | partial | Refuted: a composite state takes the opposite without making the branch mandatory, and takes it a second time. Proved for all branches without composite states.
C172 | proved | Composite states included. The first step is taken to be one through a model; the confidences are copied numbers.
C173 | partial | Refuted: the sub-goals of a real goal on a composite state are simulated ones without time, and lead to no goal at all. Proved: no simulated goal leads to a real one, over all branches; real goals come from real ones without time only; through models a real goal leads to exactly the real goals it should.
C174 | partial | Refuted: the outcome of a simulated goal is built but given to nobody. Proved: what is known is not pursued, what is predicted is only watched, in all modes.
C175 | partial | Refuted twice: the same object at another time is dropped, and requirements are pursued again each time. Proved: nothing else is pursued twice over any sequence of calls, and a goal is dropped only for one with a matching object of the same kind.
C176 | partial | Refuted: with different validities, both withdrawn, the command survives. Proved: it is defeated only if it would be in both cases, and is if they share a validity that is withdrawn; it is started once.
C177 | partial | Refuted: after an outcome that rests on an assumption, the requirements of the prediction are kept for ever. Proved: exactly what an outcome does and how often, that nothing is kept and nothing is told again otherwise. What the controllers of requirements do when told is not followed.
C178 | partial | Refuted: with a cycle of references the calls never return. Proved: the exact contents whenever an image is made, that it is made if there are no cycles, and in any case when groups and origins are taken along.
C179 | partial | Refuted: in an image of the models a live object they refer to is left out, and the next reference takes its place. Proved: with all objects, with the live ones all listed, and with groups and origins taken along; up to 65536 objects.
C180 | partial | Refuted: the hidden reference of a model is counted in the map but not written. Proved for images of other objects from which nothing is left out.
C181 | partial | Refuted: a live object that is listed later comes after what refers to it. Proved with all objects, and for everything that is taken along.
C182 | partial | Refuted: a group that is not in the image becomes its first object. Proved if groups and origins are in the image, as they are when they are taken along; up to 65536 objects.
C183 | proved | What is found as requirements, the bindings and the guards are given. A prediction that matches an earlier one may stand for it.
C184 | partial | Refuted: from a fact, with two requirements that give the same, it is predicted twice. Proved for predictions and simulations.
C185 | partial | Refuted: with models that never failed nothing is lost, and there is no end. Proved: the exact confidence after any chain, and the bound on its length by the rates. Exact numbers in place of floats.
C186 | proved | Requirements are not watched.
C187 | partial | Refuted: if the prediction comes too late, its requirements are kept and nothing is awaited. Proved for facts if no prediction is late.
C188 | partial | Refuted: a simulated requirement sends a reduction marker to the output groups. Proved that there is nothing else.
C189 | partial | Refuted: in the secondary group requirements are marked as allowed in any case. Proved for the primary group, and that models of the secondary group do nothing else than watch and tell of requirements.
C190 | partial | Refuted: an assumption that comes a second time is used, and leads to another one. Proved: the first time it is not, whatever comes before, and what each input is used for. What monitors and the overlay say is given.
C191 | proved | Inputs that are assumptions of the model itself are left out. What the overlay says is given.
C192 | proved | The numbers of facts are their identities. The controller is not an orphan; jobs may be done in any order.
C193 | partial | Refuted: it is the end of the prediction as a fact that counts, which is the moment at which it was made. Proved: no prediction made before it came is ever tried again.
C194 | partial | Refuted: models of the secondary group keep no facts. Proved: none is ever tried again.
C195 | proved | What is over may still be in a list until it is visited.
C196 | proved | Matching is given. It falls if the weak requirement is not over; confidences are exact numbers.
C197 | partial | Refuted: a strong requirement of two simulations, or one that is not simulated, leaves the prediction. Proved: only those of exactly one simulation have an effect; what these do is C196.
C198 | proved | Each monitor is added once; whether it chains is given.
C199 | proved | Handlers are one step each. Matching and what is known are given.
C200 | proved | The model has an output group. Matching and what is known are given.
C201 | partial | Refuted: when the goal is predicted to be reached, it is invalidated, and nothing is reported of the drive any more. Proved: it gets an outcome at once or a monitor, and the outcome follows if the goal is neither predicted to be reached nor left to an extractor, or the drive is invalidated by another.
C202 | proved | Matching, evaluation of times and guards, and the look-up of requirements are given. Rationals instead of floats.
C203 | partial | Refuted: two models with success rate 1, each of which has the other's left side as its right side, make assumptions of each other's assumptions without end and without loss. Proved: the confidence is bounded by the power of the highest rate, and a line is only as long as this is above the lowest threshold.
C204 | partial | Refuted: if the prediction comes before the fact is kept, and another overlay keeps it, the two stand against each other; only predictions that another kept fact has given way to are looked at. Proved: a kept fact gives way to all that comes later and to nothing else, and nothing is kept any more against what another has given way to. Matching is given.
C205 | proved | One simulation; copies of overlays are overlays of their own. Matching is given.
C206 | proved | Whether a prediction can be injected is given. Matching is given.
C207 | partial | Refuted: if inputs come to the models in another order than they are built on each other, the later ones stay and take inputs; top-level models do not look at what they are built on, and stay. Proved: for other models, once inputs have come in the order of the building, all are gone; nothing else is gone; a model built directly on one that is gone takes no input, and all that are there do. Without template arguments.
