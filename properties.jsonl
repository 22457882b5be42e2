{"id": "C01", "title": "ReserveContainer conserves material", "statement": "For every history of reserve / cancel_request / take / put / reservation expiry on a ReserveContainer, remaining (available) plus the sum of the outstanding reservations always equals the initial amount plus everything successfully put minus everything successfully taken. Rejected calls (raised errors, False results) change nothing.", "quantifier": "all initial levels, capacities, requesters, quantities and all finite interleavings of calls and expiries", "why_tests_cant": "a test runs one call history; the balance must survive any interleaving of requests, cancels, takes, puts and expiry callbacks", "anchors": ["src/upstage_des/resources/reserve.py: ReserveContainer.reserve, cancel_request, take, put, _expire_request"]}
{"id": "C02", "title": "ReserveContainer never promises what it does not have", "statement": "As long as callers only reserve non-negative quantities, the available amount never goes below zero, a reservation is granted exactly when the requester holds none and the available amount covers it, and take returns exactly the quantity that was reserved and forgets the reservation (a second take raises). If negative quantities are reserved the available amount can exceed the capacity.", "quantifier": "all call histories with arbitrary quantities", "why_tests_cant": "over-promising shows only for particular interleavings of reservations and expiries", "anchors": ["src/upstage_des/resources/reserve.py: ReserveContainer.reserve, take"]}
{"id": "C03", "title": "ReserveContainer respects its capacity", "statement": "The physical content (available plus reserved but not yet taken) of a ReserveContainer never exceeds its capacity.", "quantifier": "all call histories with non-negative quantities", "why_tests_cant": "overflow requires a put while material is reserved; the shipped tests never combine these", "anchors": ["src/upstage_des/resources/reserve.py: ReserveContainer.put, available, reserved"]}
{"id": "C04", "title": "Reservation expiry releases exactly the reservation it was started for", "statement": "A reservation made with an expiration time is released at that time if and only if it has not been taken or cancelled before; a later reservation by the same requester is not affected by an earlier reservation's timer.", "quantifier": "all schedules of reservations, takes, cancels and timers", "why_tests_cant": "needs a re-reservation between the creation and firing of a timer", "anchors": ["src/upstage_des/resources/reserve.py: ReserveContainer._expire_request, reserve, cancel_request"]}
{"id": "C05", "title": "ContinuousContainer level stays within its bounds", "statement": "Whatever continuous puts and gets are started, cancelled or finish, and at whatever times the level is read, the level of a ContinuousContainer stays between zero and capacity.", "quantifier": "all sequences of starts, ends, cancellations and observation times, all rates and amounts", "why_tests_cant": "the level is a function of continuous time and of any set of simultaneous users; tests sample a few rates", "anchors": ["src/upstage_des/resources/container.py: ContinuousContainer._check, _check_empty, _check_full, _add_rate, level"]}
{"id": "C06", "title": "ContinuousContainer level is the exact time integral of its flows", "statement": "Between any two instants the level changes by the integral of the sum of the active users' rates; reading the level, or re-evaluating it at intermediate instants, never changes any later level.", "quantifier": "all observation times and user sets", "why_tests_cant": "tests check values at a handful of time points with fixed user sets", "anchors": ["src/upstage_des/resources/container.py: ContinuousContainer.level, _set_level, _add_rate, add_user, remove_user"]}
{"id": "C07", "title": "ContinuousContainer warns exactly when a limit is hit", "statement": "With a constant set of users a container that is draining (filling) is predicted to reach empty (full) at exactly the time the level is zero (capacity), and the users responsible are told at that moment; it is never told earlier or later.", "quantifier": "all levels, capacities, rates and user sets", "why_tests_cant": "the crossing time is computed by division and rescheduled whenever the rate set changes", "anchors": ["src/upstage_des/resources/container.py: time_until_level, time_until_done, _check_empty, _check_full"]}
{"id": "C08", "title": "SortedFilterStore returns the best matching item", "statement": "A get on a SortedFilterStore with a sorter returns, among the items satisfying the filter, the one with the least (greatest when reverse) sort key, the oldest among equals; without a sorter the oldest match; the remaining items keep their order and nothing else is removed.", "quantifier": "all store contents, filters, sort keys and both directions", "why_tests_cant": "tests use small stores with distinct keys", "anchors": ["src/upstage_des/resources/sorted.py: SortedFilterStore._do_get, _SortedFilterStoreGet"]}
{"id": "C09", "title": "SortedFilterStore get never waits while a match is present", "statement": "Whenever the store holds an item that satisfies the filter the get request is granted.", "quantifier": "all store contents including items that are falsy in Python (0, '', empty containers)", "why_tests_cant": "only falsy items expose the difference", "anchors": ["src/upstage_des/resources/sorted.py: SortedFilterStore._do_get"]}
{"id": "C10", "title": "Monitoring stores record the exact quantity history", "statement": "The recorded quantities of a self-monitoring store are exactly the sequence of (time, number of items) at which the number of items changed: starts with the initial count, consecutive entries differ in count, times never decrease, the last entry equals the present count, and looking up the count in force at any past instant gives the true one.", "quantifier": "all histories of puts and gets at arbitrary non-decreasing times", "why_tests_cant": "tests check one short history", "anchors": ["src/upstage_des/resources/monitoring.py: SelfMonitoringStore, SelfMonitoringFilterStore, SelfMonitoringSortedFilterStore, SelfMonitoringReserveStore"]}
{"id": "C11", "title": "Monitoring containers record the exact level history", "statement": "The recorded levels of a self-monitoring container never repeat a reading, times never decrease, and the last recorded level is the present level after every put and get.", "quantifier": "all histories of puts and gets", "why_tests_cant": "tests check one short history", "anchors": ["src/upstage_des/resources/monitoring.py: SelfMonitoringContainer, SelfMonitoringContinuousContainer, SelfMonitoringReserveContainer"]}
{"id": "C12", "title": "State histories are faithful", "statement": "For a recording state, after any sequence of assignments at non-decreasing times the last history entry holds the current value, entry times never decrease, without record_duplicates no two consecutive entries are equal as (time, value) pairs, with record_duplicates every assignment is present, and every entry was an actual assignment.", "quantifier": "all assignment histories, both duplicate policies", "why_tests_cant": "any length, any repetition pattern of values and times", "anchors": ["src/upstage_des/states.py: State._do_record, State.__set__"]}
{"id": "C13", "title": "Frozen states never change once set", "statement": "After a state declared frozen has been given a value, every later assignment raises and leaves the value, the history and the callbacks untouched.", "quantifier": "all values (including None) and all later assignment sequences", "why_tests_cant": "None values are the exception that tests never try", "anchors": ["src/upstage_des/states.py: State.__set__"]}
{"id": "C14", "title": "Linear changing states are exact and observation independent", "statement": "The value of a LinearChangingState at time t is its last assigned value plus the sum over activation intervals of rate times active duration; reading it any number of times at any moments does not change later values; deactivation freezes it.", "quantifier": "all activation/deactivation/assignment/read histories at non-decreasing times", "why_tests_cant": "observation times partition the interval arbitrarily", "anchors": ["src/upstage_des/states.py: ActiveState.__get__, LinearChangingState._active", "src/upstage_des/actor.py: activate_state, deactivate_state"]}
{"id": "C15", "title": "Shared linear states integrate the sum of the active tasks' rates", "statement": "With any number of tasks activating a SharedLinearChangingState at any times, its value is the initial value plus the sum over tasks of rate times the time that task was active; a task may not activate twice without deactivating; deactivating one task leaves the others' rates in force.", "quantifier": "all interleavings of tasks, rates and read times", "why_tests_cant": "interleavings of several tasks at arbitrary times", "anchors": ["src/upstage_des/state_sharing.py: SharedLinearChangingState._active, deactivate"]}
{"id": "C16", "title": "A state is active for at most one task, and only that task can deactivate it", "statement": "For non-shared active states, at any time at most one task holds the state; a second task's activation raises and changes nothing; deactivation by a task that does not hold it raises; after a task deactivates all its states it holds none while other tasks' holdings are unchanged.", "quantifier": "all sequences of activations and deactivations by any tasks over any states", "why_tests_cant": "needs arbitrary interleavings of tasks", "anchors": ["src/upstage_des/actor.py: _lock_state, _unlock_state, activate_state, deactivate_state, deactivate_all_states"]}
{"id": "C17", "title": "Mimic states follow their source and can be released by their task", "statement": "While a state mimics another actor's state every read returns the source's current value; deactivating the mimic states of one task stops exactly the mimics that task started and leaves the mimics of other tasks in force.", "quantifier": "all sequences of mimic activations and deactivations by several tasks", "why_tests_cant": "needs two tasks with simultaneous mimics on one actor", "anchors": ["src/upstage_des/actor.py: activate_mimic_state, deactivate_mimic_state, deactivate_all_mimic_states"]}
{"id": "C18", "title": "Cartesian motion follows the waypoints at the given speed", "statement": "A CartesianLocationChangingState activated with speed and waypoints is, at elapsed time t, at the point of the polyline whose arc length from the start is speed times t, independent of how often it is read, and once the path time has elapsed it is at the last waypoint.", "quantifier": "all waypoint lists, speeds and read schedules", "why_tests_cant": "the leg index is recomputed at each read with tolerances", "anchors": ["src/upstage_des/states.py: CartesianLocationChangingState._setup, _get_index, _active"]}
{"id": "C19", "title": "Dictionary states only ever hold values of the declared type", "statement": "After an assignment of a wrongly typed value to a key of a DictionaryState raises TypeError the dictionary is unchanged; hence every value stored has the declared type.", "quantifier": "all sequences of item assignments with right and wrong types", "why_tests_cant": "tests check that TypeError is raised, not what is stored afterwards", "anchors": ["src/upstage_des/state_proxies.py: _DictionaryProxy.__setitem__, setdefault"]}
{"id": "C20", "title": "Key/value states record every key's history faithfully", "statement": "For DictionaryState and DataclassState each key's history is the sequence of values assigned to that key; other keys' histories are untouched; with record_duplicates set, repeated equal assignments are recorded as well.", "quantifier": "all assignment histories over all keys, both duplicate policies", "why_tests_cant": "combination of the duplicate flag with key/value states is not tested", "anchors": ["src/upstage_des/states.py: _KeyValueBase._record_single, DictionaryState, DataclassState"]}
{"id": "C21", "title": "Actor knowledge behaves as a write-once map", "statement": "set_knowledge stores exactly when the name is absent or overwrite is given and otherwise raises and changes nothing; get_knowledge returns the last stored value or None (or raises with must_exist); clear_knowledge removes exactly that name and raises if absent; get_and_clear returns the value and removes it. No operation affects another name.", "quantifier": "all operation histories over all names and values", "why_tests_cant": "equivalence with an abstract map over every history", "anchors": ["src/upstage_des/actor.py: set_knowledge, get_knowledge, clear_knowledge, get_and_clear_knowledge"]}
{"id": "C22", "title": "Bulk knowledge operations are all-or-nothing", "statement": "set_bulk_knowledge / clear_bulk_knowledge either apply to every listed name or raise leaving the knowledge unchanged.", "quantifier": "all name lists and all initial knowledge", "why_tests_cant": "needs a failing name after a succeeding one", "anchors": ["src/upstage_des/actor.py: set_bulk_knowledge, clear_bulk_knowledge, get_and_clear_bulk_knowledge"]}
{"id": "C23", "title": "Queued tasks run in queue order, defaults only when the queue is empty", "statement": "A running task network executes the tasks in its queue first to last, each exactly once; only when the queue is empty it takes the default successor of the task just finished; with neither it raises; a queued task is removed from the queue when it starts being run and never skipped.", "quantifier": "all networks, queues, histories of queue additions by tasks during the run", "why_tests_cant": "queues are changed by running tasks and decision tasks", "anchors": ["src/upstage_des/task_network.py: TaskNetwork.loop, _next_task_name", "src/upstage_des/actor.py: _begin_next_task, _clear_task, set_task_queue"]}
{"id": "C24", "title": "Network factories produce the advertised task order", "statement": "A single looping network runs its task forever, a single terminating and an ordered terminating network run their tasks once, in order, and then stop, an ordered loop cycles through its tasks forever in order. is_feasible of such a network allows just the task that comes next.", "quantifier": "all task lists and all numbers of steps", "why_tests_cant": "loop behaviour over unbounded numbers of steps", "anchors": ["src/upstage_des/task_network.py: TaskNetworkFactory.from_single_looping, from_single_terminating, from_ordered_terminating, from_ordered_loop"]}
{"id": "C25", "title": "Rehearsal does not disturb the real actor", "statement": "Rehearsing a network or task works on a clone: the real actor's knowledge, states and task queues, and the simulation clock, are as before after the rehearsal returns.", "quantifier": "all actors, networks and rehearsal paths", "why_tests_cant": "aliasing between clone and original shows only for particular queue contents", "anchors": ["src/upstage_des/actor.py: Actor.clone, rehearse_network", "src/upstage_des/task_network.py: rehearse_network"]}
{"id": "C26", "title": "An ended task leaves nothing behind", "statement": "When a running task is interrupted and answers END, every state and mimic it activated is deactivated, the event it was waiting for is cancelled, knowledge entries that are that event are removed and the cancellation of the routines it was inside is run, from the innermost out, before the task ends.", "quantifier": "all task bodies (arbitrary generators), routine nestings and interruption points", "why_tests_cant": "interruption can happen at every yield of every task body", "anchors": ["src/upstage_des/task.py: Task.run, _handle_interruption"]}
{"id": "C27", "title": "An ignored interrupt has no effect", "statement": "Interrupts answered with IGNORE leave the task body unaware: the sequence of values the body receives and events it yields is the same as without interruption and the awaited event is the very same one.", "quantifier": "all task bodies and all placements of ignored interrupts", "why_tests_cant": "interrupts can be placed at any yield, any number of times", "anchors": ["src/upstage_des/task.py: Task.run, _handle_interruption"]}
{"id": "C28", "title": "A restarted task starts over cleanly", "statement": "An interrupt answered with RESTART does exactly what END does, and where END would have ended the task it runs the task body from its beginning as if newly started; where END's cleanup fails, RESTART fails in the same way and nothing runs again.", "quantifier": "all task bodies and interruption points, any number of restarts", "why_tests_cant": "unbounded numbers of restarts at any yield", "anchors": ["src/upstage_des/task.py: Task.run"]}
{"id": "C29", "title": "Routine results are delivered to the task that yielded them", "statement": "`result = yield Routine(...)` gives the task the routine's return value, nested to any depth; each event's value is delivered to the generator that yielded it.", "quantifier": "all nestings of routines and values (including None)", "why_tests_cant": "depends on the value carried over from the previously yielded event", "anchors": ["src/upstage_des/task.py: Task.run", "src/upstage_des/routines.py: Routine._run"]}
{"id": "C30", "title": "Rehearsal of Any and All takes the minimum and the maximum", "statement": "Rehearsing Any (All) of sub-events takes exactly the least (greatest) of their rehearsal times and afterwards a sub-event reports complete if and only if its time is not larger than that, at every nesting depth.", "quantifier": "all trees of Any/All/Wait events", "why_tests_cant": "arbitrary nesting depth", "anchors": ["src/upstage_des/events.py: MultiEvent.rehearse, Any, All, BaseEvent.is_complete"]}
{"id": "C31", "title": "Rehearsed task time is the sum of its event times", "statement": "Rehearsing a task advances the mock clock by the sum of the rehearsal times of the yielded events in order, each event being rehearsed at the clock value reached so far; the clock never goes back.", "quantifier": "all task bodies", "why_tests_cant": "any sequence and nesting of events and routines", "anchors": ["src/upstage_des/task.py: Task.rehearse", "src/upstage_des/base.py: MockEnvironment"]}
{"id": "C32", "title": "ResourceHold acquires once and releases once", "statement": "Yielding a ResourceHold alternates request and release exactly: the first yield acquires, the second gives the resource back, a third raises; cancelling in any stage never leaves the resource held without the holder being able to release it.", "quantifier": "all sequences of yields and cancels at all stages, with any competing users", "why_tests_cant": "cancel may come between grant and processing", "anchors": ["src/upstage_des/events.py: ResourceHold"]}
{"id": "C33", "title": "Reusable events wake waiters once per success", "statement": "An UPSTAGE Event that is succeeded wakes everything waiting with the payload of that success; after it was waited for it can be waited for again without waking from the old success; a success is never overwritten by a later one before it is delivered.", "quantifier": "all sequences of yields, succeeds, resets and cancels", "why_tests_cant": "needs a second succeed between trigger and processing", "anchors": ["src/upstage_des/events.py: Event.succeed, as_event, reset, cancel"]}
{"id": "C34", "title": "A cancelled Get never loses an item", "statement": "Items put in a store are, at every moment, either in the store, or were delivered to a getter that received them; cancelling or interrupting a Get request never makes an item disappear.", "quantifier": "all interleavings of puts, gets, cancellations and event processing", "why_tests_cant": "needs a cancellation between the granting and the processing of the request", "anchors": ["src/upstage_des/events.py: BaseRequestEvent.cancel, Get", "simpy Store"]}
{"id": "C35", "title": "WindowedGet returns everything it took, in order", "statement": "A WindowedGet returns in order exactly the items taken from the store while its window was open, and if interrupted puts exactly those items back in that order; none is lost.", "quantifier": "all arrival schedules, window sizes and both window policies", "why_tests_cant": "needs arrivals at exactly the end of the window", "anchors": ["src/upstage_des/routines.py: WindowedGet.run, cancel"]}
{"id": "C36", "title": "A message is retried while the link is down and delivered exactly once when it is up", "statement": "With degraded communications a transfer is attempted every retry period, at most the configured number of times; it is delivered exactly when some attempt finds the link usable, at the time of the first such attempt plus the transfer time, and otherwise is dropped; it is never delivered twice.", "quantifier": "all schedules of link up/down states, retry rates and maximum times", "why_tests_cant": "any outage schedule", "anchors": ["src/upstage_des/communications/comms.py: CommsManagerBase._attempt, PointToPointCommsManager._do_transmit"]}
{"id": "C37", "title": "Blocking is directional and node wide", "statement": "A transfer from source to destination is blocked if and only if communications are degraded, the source or destination node is blocked or the link source-to-destination is blocked; blocking a link does not block the reverse direction.", "quantifier": "all block lists and node pairs", "why_tests_cant": "all combinations of block lists", "anchors": ["src/upstage_des/communications/comms.py: _link_compare, test_if_link_is_blocked"]}
{"id": "C38", "title": "Routing uses a shortest path", "statement": "The hop chosen by the routing table is the first hop of a shortest path (fewest hops) from the current node to the destination over the usable connections; if there is no path none is returned.", "quantifier": "all finite directed graphs and node pairs", "why_tests_cant": "graph shapes are unbounded", "anchors": ["src/upstage_des/communications/routing.py: _shortest_path, RoutingTable.select_hop"]}
{"id": "C39", "title": "An unblocked routed message reaches its destination in shortest-path many hops", "statement": "With no blocked links a routed message visits the nodes of a shortest path and is delivered after number-of-hops transfer times exactly once; with no path it is dropped.", "quantifier": "all finite networks and node pairs", "why_tests_cant": "unbounded graphs", "anchors": ["src/upstage_des/communications/routing.py: RoutingCommsManager._do_transmit"]}
{"id": "C40", "title": "Routing around failures terminates", "statement": "A routed message whose links fail is eventually delivered or dropped; if an unblocked route exists it is delivered.", "quantifier": "all finite networks and sets of permanently blocked links", "why_tests_cant": "livelock needs particular failure patterns", "anchors": ["src/upstage_des/communications/routing.py: RoutingCommsManager._do_transmit, select_hop"]}
{"id": "C41", "title": "Stepped sensors see each target's entries and exits alternately", "statement": "For each sensor/target pair the SteppedMotionManager calls entity_entered_range and entity_exited_range alternately beginning with entered, and after every step the pair is considered in range exactly when the distance is at most the radius (and the target is detectable). Place, radius, detectability and registration are those last set: a change of one leaves the others.", "quantifier": "all trajectories and all sequences of steps, additions and detectability changes", "why_tests_cant": "unbounded histories", "anchors": ["src/upstage_des/motion/stepped_motion.py: SteppedMotionManager._update_awareness, _test_detect, run"]}
{"id": "C42", "title": "Predicted sensor notifications alternate and match the motion", "statement": "For each mover/sensor pair the SensorMotionManager notifies entry and exit alternately, beginning with entry; a stopped mover gets no notification scheduled for the motion it abandoned.", "quantifier": "all sequences of motions, stops, and detectability changes", "why_tests_cant": "unbounded histories of partial motions", "anchors": ["src/upstage_des/motion/motion.py: SensorMotionManager._notify, _stop_mover, _schedule"]}
{"id": "C43", "title": "Detection times are the exact crossing times of the sensor range", "statement": "For straight-line motion the entry and exit times computed for a sensor are the times at which the distance to the sensor equals its radius: between them the mover is in range, outside them it is not; for paths of several legs times are measured from the start of the path.", "quantifier": "all segments, spheres and multi-leg paths", "why_tests_cant": "continuous geometry; multi-leg time offsets depend on legs without crossing", "anchors": ["src/upstage_des/motion/cartesian_model.py: cartesian_linear_intersection, ray_intersection", "src/upstage_des/motion/motion.py: _process_mover_sensor_pair"]}
{"id": "C44", "title": "Crossing conditions along a sampled path are complete and alternate", "statement": "find_crossing_points yields START_INSIDE/START_OUT according to the first sample, then exactly one ENTER (EXIT) for each out-to-in (in-to-out) change between neighbouring samples, in order with those samples as bounds, then END_INSIDE/END_OUT according to the last; the internal assertions never fail.", "quantifier": "all sequences of samples", "why_tests_cant": "unbounded sample sequences", "anchors": ["src/upstage_des/geography/intersections.py: find_crossing_points, get_intersection_locations"]}
{"id": "C45", "title": "Data tables contain every recorded state change exactly once", "statement": "create_table has, for every actor and recorded state, one row per history entry in time order with the recorded value (activation markers annotate the row they follow), each resource once, and nothing else.", "quantifier": "all actors, histories and shared resources", "why_tests_cant": "unbounded histories and sharing patterns", "anchors": ["src/upstage_des/data_utils/data_utils.py: create_table, _state_history_to_table, _actor_state_data"]}
{"id": "C46", "title": "Unit conversion is consistent", "statement": "Converting a value between two supported units of the same kind and back gives the value; converting a unit to itself is the identity; conversion between any two supported units of the same kind is defined, and converting in two steps equals converting directly.", "quantifier": "all values and all unit pairs", "why_tests_cant": "all pairs and triples of units", "anchors": ["src/upstage_des/units/convert.py: unit_convert, CONVERSIONS"]}
{"id": "C47", "title": "Stage variables are write-once and contexts nest", "statement": "Inside an EnvironmentContext a stage variable can be added once and read back until the context ends; leaving an inner context restores the outer context's environment, actors, entities and stage exactly.", "quantifier": "all nestings of contexts and all sequences of stage accesses", "why_tests_cant": "unbounded nesting", "anchors": ["src/upstage_des/base.py: EnvironmentContext, add_stage_variable, DotDict"]}
{"id": "C48", "title": "Entities are found in exactly the groups they belong to", "statement": "Every created actor is listed once, every named entity is listed once in each of the entity groups declared in its class hierarchy and in no other group.", "quantifier": "all class hierarchies and creation sequences", "why_tests_cant": "inheritance can be arbitrarily deep or diamond shaped", "anchors": ["src/upstage_des/base.py: UpstageBase, NamedUpstageEntity, get_entity_group"]}
{"id": "C49", "title": "A nucleus interrupts exactly the networks that watch a changed state", "statement": "Changing a state of an actor with a TaskNetworkNucleus interrupts each running task network registered for that state exactly once and no other; unregistered states or removed networks are never interrupted.", "quantifier": "all registrations and removal sequences and state changes", "why_tests_cant": "unbounded registration histories", "anchors": ["src/upstage_des/nucleus.py: TaskNetworkNucleus.add_network, remove_network, send_change"]}
{"id": "C50", "title": "Stores deliver items first in first out", "statement": "For any interleaving of puts and gets the sequence of items delivered to getters is a prefix of the sequence of items put, getters being served in request order; no get waits while an item is present and no put waits while there is room.", "quantifier": "all interleavings of requests and event processing and all capacities", "why_tests_cant": "unbounded interleavings", "anchors": ["src/upstage_des/events.py: Put, Get", "simpy Store", "src/upstage_des/resources/monitoring.py: SelfMonitoringStore"]}
{"id": "C51", "title": "Suggested task network names are fresh", "statement": "suggest_network_name never returns the name of a network the actor already has.", "quantifier": "all sets of existing names", "why_tests_cant": "names can be chosen adversarially", "anchors": ["src/upstage_des/actor.py: suggest_network_name"]}
{"id": "C52", "title": "Path time and distance add up", "statement": "waypoint_time_and_dist gives the sum of leg lengths and that sum over speed; both are non-negative and additive when waypoint lists are joined.", "quantifier": "all waypoint lists and speeds", "why_tests_cant": "unbounded lists", "anchors": ["src/upstage_des/utils.py: waypoint_time_and_dist"]}
{"id": "C53", "title": "Interrupting a task cancels every event it waits on", "statement": "Interrupting a task that waits on an event (plain, a Wait, a resource request or an Any/All combination, nested to any depth) withdraws every request still pending below it and always succeeds, whatever sub-events have already happened.", "quantifier": "all event trees and all trigger states of their leaves", "why_tests_cant": "trees nest without bound and a crash needs a particular leaf to have fired", "anchors": ["src/upstage_des/events.py: MultiEvent.cancel, Event.cancel, Wait.cancel, BaseRequestEvent.cancel"]}
{"id": "C54", "title": "Containers conserve amounts and serve requests in order", "statement": "A container's level is its initial level plus granted puts minus granted gets and stays between zero and capacity; puts are granted in request order, so are gets; when nothing is pending the first waiting put does not fit and the first waiting get is not covered by the level.", "quantifier": "all interleavings of requests, cancellations and event processing", "why_tests_cant": "unbounded interleavings", "anchors": ["simpy Container", "src/upstage_des/events.py: Put, Get", "src/upstage_des/resources/monitoring.py: SelfMonitoringContainer"]}
{"id": "C55", "title": "ContinuousContainer fails only with its documented errors", "statement": "Creating, cancelling and finishing puts and gets of a ContinuousContainer in any order never raises anything but ContainerEmptyError with error_empty at level zero or ContainerFullError with error_full at capacity.", "quantifier": "all interleavings of puts, gets, cancellations and processing order", "why_tests_cant": "needs particular same-instant orders", "anchors": ["src/upstage_des/resources/container.py: ContinuousContainer._check, _add_rate, remove_user, _ContinuousEvent._run"]}
{"id": "C56", "title": "Every store or container request has exactly one fate", "statement": "Each put or get request made to a store or container is, at any time, exactly one of: still waiting, granted (once), or withdrawn; a withdrawn request is never granted and no request is granted twice.", "quantifier": "all interleavings of requests, cancellations and event processing, all store kinds", "why_tests_cant": "unbounded interleavings of cancellations with grants", "anchors": ["simpy Store, FilterStore, Container", "src/upstage_des/events.py: Put, Get, FilterGet, BaseRequestEvent.cancel", "src/upstage_des/resources/sorted.py"]}
{"id": "C57", "title": "Assigning a field of a DataclassState takes effect or raises", "statement": "Assigning an attribute of the object held by a DataclassState either stores the value (and records it for that field alone) or raises TypeError/AttributeError leaving everything unchanged; it is never silently dropped, and it works for every field of the dataclass.", "quantifier": "all dataclass shapes including inherited fields, all attribute names and values", "why_tests_cant": "tests use a flat dataclass and existing names", "anchors": ["src/upstage_des/state_proxies.py: _DataclassProxy.__setattr__, _typecheck"]}
{"id": "C58", "title": "Knowledge events are triggered once and free their name", "statement": "create_knowledge_event stores a fresh event under a free name (refused if the name is taken, outside rehearsal); succeed_knowledge_event on that name, whatever happened to other names meanwhile, triggers exactly that event with the given payload and frees the name, and raises without effect if the name holds no event. If the event was succeeded before in another way, the name is freed all the same: RuntimeError is raised and the payload replaced as long as simpy has not processed the event, and SimulationError is raised and the payload kept afterwards. Once an event has been processed its payload does not change until the event is reset.", "quantifier": "all histories of knowledge and event operations", "why_tests_cant": "interleavings over arbitrary names", "anchors": ["src/upstage_des/actor.py: create_knowledge_event, succeed_knowledge_event"]}
{"id": "C59", "title": "A failing activation leaves the state unlocked", "statement": "If activate_state raises (unknown state, state held by another task, state that is not an active state, missing activation data), the actor is as before: no lock is taken, and the state can still be read and be activated by another task.", "quantifier": "all actors, states, tasks and activation arguments", "why_tests_cant": "needs the exception paths in every lock configuration", "anchors": ["src/upstage_des/actor.py: activate_state, _lock_state", "src/upstage_des/states.py: LinearChangingState._active"]}
{"id": "C60", "title": "Geodetic motion goes the right distance along the leg's bearing", "statement": "A GeodeticLocationChangingState with any stage model is, at elapsed time t, at the point the stage model gives from the start of the current leg, along the leg's bearing, at the distance that makes the total covered speed times t, with the altitude in proportion, and never further past a waypoint than the distance of the tolerance.", "quantifier": "all stage models, waypoint lists, speeds and read schedules", "why_tests_cant": "the tolerance and the leg bookkeeping interact with every schedule of reads", "anchors": ["src/upstage_des/states.py: GeodeticLocationChangingState._setup, _get_index, _active"]}
{"id": "C61", "title": "A running network follows its links", "statement": "A running task network starts a task only if the links allow it after the task that just ended.", "quantifier": "all networks, queues and schedules", "why_tests_cant": "queues are filled by arbitrary code at arbitrary times", "anchors": ["src/upstage_des/task_network.py: TaskNetwork.loop, is_feasible, _next_task_name"]}
{"id": "C62", "title": "Interrupting one task does not disturb others waiting for the same event", "statement": "When a task waiting for an event is interrupted, other tasks waiting for the same event, and knowledge that refers to it, are unaffected: the event does not happen because one of its waiters gave up.", "quantifier": "all event trees, shared in any way between tasks", "why_tests_cant": "sharing of events between tasks is unbounded and the wake up is delayed to a later step", "anchors": ["src/upstage_des/events.py: Event.cancel, MultiEvent.cancel", "src/upstage_des/task.py: Task._handle_interruption"]}
{"id": "C63", "title": "Messages go to the right store", "statement": "A comms manager puts a message into the store last connected for the destination actor with connect(), else into the actor's first communication store listing the manager's mode; with neither the transfer raises SimulationError after the transfer time and nothing is delivered.", "quantifier": "all managers, connection dictionaries and actors", "why_tests_cant": "The tests use one actor with one store per mode; the precedence of explicit connections and of the definition order over all actors is not covered.", "anchors": ["communications/comms.py:150-193", "communications/comms.py:330-373"]}
{"id": "C64", "title": "Printed simulation times are clock times", "statement": "pretty_now gives the day and the time of day of the simulation clock (days of 24 hours, seconds rounded down) when the stage's time unit is seconds, minutes or hours in any supported spelling or not set; with another unit and a daily_time_count the days and the rest add up to the time.", "quantifier": "all times, units and daily counts", "why_tests_cant": "all real times including negative ones, all spellings", "anchors": ["src/upstage_des/base.py: UpstageBase.pretty_now"]}
{"id": "C65", "title": "Waits given in a unit last that long", "statement": "Wait(t, unit) and Wait.from_random_uniform(low, high, unit) last t (a time between low and high) of that unit, whatever the stage's time unit (hours if not set); only negative durations and unknown units are refused.", "quantifier": "all durations, units and stage units", "why_tests_cant": "all combinations of units", "anchors": ["src/upstage_des/events.py: Wait.__init__, _convert_time, from_random_uniform"]}
{"id": "C66", "title": "Recorded data comes back in order with its times", "statement": "get_recorded_data returns the data recorded with record_data in the current context, all of it, in the order recorded, each with the simulation time of the recording; data recorded in one context never appears in another.", "quantifier": "all sequences of recordings and contexts", "why_tests_cant": "all interleavings of contexts, recordings and time steps", "anchors": ["src/upstage_des/data_utils/data_recorder.py: record_data, get_recorded_data", "src/upstage_des/base.py: SpecialContexts"]}
{"id": "C67", "title": "interrupt_network reaches exactly the running task", "statement": "actor.interrupt_network(name, cause) sends one interrupt with that cause to the task the named network is running and to nothing else; without such a network or task it raises and sends nothing.", "quantifier": "all actors, networks and schedules", "why_tests_cant": "all interleavings of tasks ending and starting with interrupts", "anchors": ["src/upstage_des/actor.py: interrupt_network, get_running_task", "src/upstage_des/task_network.py: TaskNetwork.loop"]}
{"id": "C68", "title": "create_location_table lists every recorded location", "statement": "create_location_table has, for every actor and recorded location state, one row per recorded location in order with its time, coordinates and activation status, and nothing else; its column names say what the coordinates are.", "quantifier": "all actors and recorded histories", "why_tests_cant": "all histories and mixes of actors", "anchors": ["src/upstage_des/data_utils/data_utils.py: create_location_table, _actor_location_data"]}
{"id": "C69", "title": "get_intersection_locations finds and refines every crossing", "statement": "get_intersection_locations gives the start if it is inside, then for every crossing of the sampled path, in order, its kind and a location inside the range next to a location outside on the finest sampling, then the end if it is inside.", "quantifier": "all paths, sensors, earth models and subdivision levels", "why_tests_cant": "all sampled paths, not the few of the tests", "anchors": ["src/upstage_des/geography/intersections.py: get_intersection_locations, _split_down, _preprocess"]}
{"id": "C70", "title": "The stepped motion manager checks every timestep until the simulation is idle", "statement": "Once SteppedMotionManager.run() begins, or a motion state starts a mover, all pairs are checked exactly every timestep, by one loop however often run() is called, until max_empty_events checks in a row leave no other event in the queue; movers that start later are checked again.", "quantifier": "all timesteps and max_empty_events, all sequences of calls of run(), movers starting and stopping, and other events", "why_tests_cant": "unbounded executions; the number of loops depends on the interleaving of calls with the start of processes", "anchors": ["src/upstage_des/motion/stepped_motion.py: SteppedMotionManager.run, _only_event_test, _start_mover"]}
{"id": "C71", "title": "The states of an actor class are those declared in it and its bases", "statement": "Defining an Actor subclass gives it exactly the states declared in its body and in those of its bases, bases first, each name once; it is refused, with ValueError, just if a name is declared twice in the hierarchy or an initialisable state is called self, name, debug_log or debug_log_time.", "quantifier": "all class hierarchies", "why_tests_cant": "hierarchies are unbounded", "anchors": ["src/upstage_des/actor.py: Actor.__init_subclass__"]}
{"id": "C72", "title": "Making an actor sets every state, or makes nothing", "statement": "Calling an Actor class succeeds just if every argument names a declared state that may be initialised and takes the value (type, configuration of a store) and every other state has an acceptable default; then every state holds what was given (for stores: what the configuration builds) or its default, every value is of the declared types, and no other attribute is set. A state without value or default raises UpstageError. Whether it succeeds or not, no object that existed before is changed and on failure no actor exists.", "quantifier": "all classes, state definitions and arguments (without modes in the configuration of communication stores, without shadowed states)", "why_tests_cant": "all combinations of kinds of states, defaults, factories and arguments", "anchors": ["src/upstage_des/actor.py: Actor.__init_states, __actual_init__", "src/upstage_des/states.py: State.__set__, _set_default, has_default", "src/upstage_des/states.py: ResourceState.__set__, DictionaryState.__set__, DataclassState.__set__, MultiStoreState.__set__, CommunicationStore.__set__"]}
{"id": "C73", "title": "Every actor has stores of its own", "statement": "A ResourceState or CommunicationStore that is configured or left to its default holds a new store, of the kind and with the arguments given and the defaults otherwise; no two states share a new object; it cannot be set again; a communication store has the modes of its definition.", "quantifier": "all classes, configurations and actors", "why_tests_cant": "all combinations of kinds and arguments", "anchors": ["src/upstage_des/states.py: ResourceState.__set__, _set_default", "src/upstage_des/states.py: CommunicationStore.__set__"]}
{"id": "C74", "title": "A clone has copies of the actor's states", "statement": "Cloning an actor whose states all may be given and have a value, whose stores were built by their states, and whose class has no read-only property gives a new actor of the class; each state is what was given to clone() or a new copy of the actor's (a store of the same class with the same content, a dictionary with the same items); nothing of the actor changes.", "quantifier": "all classes, actors and new states", "why_tests_cant": "all combinations of states", "anchors": ["src/upstage_des/actor.py: Actor.clone", "src/upstage_des/states.py: ResourceState._make_clone", "src/upstage_des/states.py: _KeyValueBase"]}
{"id": "C75", "title": "What is made depends on what is given only", "statement": "Two calls of an actor class with equal arguments and an equal state of the random generator make equal actors; what is given for a declared state is checked and stored.", "quantifier": "all classes and arguments", "why_tests_cant": "iteration order of sets and sharing of arguments", "anchors": ["src/upstage_des/actor.py: Actor.__init_states, __actual_init__", "src/upstage_des/states.py: CommunicationStore.__set__"]}
{"id": "C76", "title": "Any actor can be cloned and the clone is independent", "statement": "Actor.clone succeeds for every actor, clones included; the clone has the actor's states and methods and shares no store with it.", "quantifier": "all actors", "why_tests_cant": "all combinations of state kinds, definitions and class bodies", "anchors": ["src/upstage_des/actor.py: Actor.clone", "src/upstage_des/states.py: ResourceState._make_clone"]}
{"id": "C77", "title": "Great-circle distance is a metric", "statement": "Spherical.distance returns the length of the arc between two places on the sphere in the unit asked for: never negative, at most half the circumference (just for antipodes), symmetric, zero just for the same place, and never longer than a detour over a third place.", "quantifier": "all places and units", "why_tests_cant": "all pairs and triples of places on the sphere", "anchors": ["src/upstage_des/geography/spherical.py: Spherical.distance"]}
{"id": "C78", "title": "Bearing, distance and travel agree", "statement": "Going off from a place with a bearing over a distance (point_from_bearing_dist) leads to a place on the great circle with that bearing, at that distance, which bearing() sees in that direction, normalised to 0-360; going off with bearing(p, q) over distance(p, q) leads to q.", "quantifier": "all places but the poles as origin, all bearings, distances up to half the circumference, all units", "why_tests_cant": "all places, bearings and distances", "anchors": ["src/upstage_des/geography/spherical.py: Spherical.bearing", "src/upstage_des/geography/spherical.py: Spherical.point_from_bearing_dist"]}
{"id": "C79", "title": "Points along great-circle paths", "statement": "point_along(p, q, f) lies on the way from p to q after the fraction f of it; geo_linspace gives n+1 points on the great circle, from p to q (within 1e-8), with steps of the same length; with altitudes they rise evenly and the points in space are at them; geo_circle gives n+1 points at the radius from the centre, at evenly spaced bearings, the last the same place as the first.", "quantifier": "all pairs of places, neither the same nor opposite; all fractions, numbers of segments, altitudes, radii", "why_tests_cant": "all places and sizes", "anchors": ["src/upstage_des/geography/spherical.py: Spherical.point_along", "src/upstage_des/geography/spherical.py: Spherical.geo_linspace", "src/upstage_des/geography/spherical.py: Spherical.ecef_and_geo_linspace", "src/upstage_des/geography/spherical.py: Spherical.geo_circle"]}
{"id": "C80", "title": "Distance to a great circle", "statement": "cross_track_distance is the smallest distance of the place to any point of the great circle through origin and destination; cross_track_point is a point of the circle at which it is reached, for places ahead of the origin.", "quantifier": "all origins and destinations neither the same nor opposite, all places", "why_tests_cant": "a minimum over all points of a circle", "anchors": ["src/upstage_des/geography/spherical.py: Spherical.cross_track_distance", "src/upstage_des/geography/spherical.py: Spherical.cross_track_point"]}
{"id": "C81", "title": "Conversion between latitude, longitude, altitude and space", "statement": "The point in space is in the direction of the place at the radius plus altitude from the centre, straight lines between points obey the law of cosines, and converting there and back returns the latitude, longitude and altitude (near the axis the altitude within 2/(radius+altitude) metres), and back and there the point.", "quantifier": "all latitudes, longitudes, altitudes above the centre", "why_tests_cant": "all points", "anchors": ["src/upstage_des/geography/conversions.py: SphericalConversions"]}
{"id": "C82", "title": "Great-circle helpers work for all pairs of places", "statement": "point_along, geo_linspace, ecef_linspace and cross_track_point return the right points for any places on the sphere.", "quantifier": "all places", "why_tests_cant": "all places", "anchors": ["src/upstage_des/geography/spherical.py: Spherical.point_along", "src/upstage_des/geography/spherical.py: Spherical.geo_linspace", "src/upstage_des/geography/spherical.py: Spherical.ecef_linspace", "src/upstage_des/geography/spherical.py: Spherical.cross_track_point"]}
{"id": "C83", "title": "Great-circle crossings are exactly the boundary of the part in range", "statement": "get_dist_rad is the central angle of two places, get_pos the place at an angle along the great circle, and get_great_circle_points returns the two points at which the great circle from a to b is at the given angle from the third place (with the angles at which they are reached) such that between them, and only between them, the way is in range; None only if no point of the way is strictly within range.", "quantifier": "all places neither equal nor opposite, starts not at a pole, angles below a quarter circle, ways that with the angle do not reach the antipode of the start", "why_tests_cant": "continuum of points on the way, all spherical triangles", "anchors": ["src/upstage_des/motion/great_circle_calcs.py: get_dist_rad", "src/upstage_des/motion/great_circle_calcs.py: get_course_rad", "src/upstage_des/motion/great_circle_calcs.py: get_pos", "src/upstage_des/motion/great_circle_calcs.py: get_great_circle_points"]}
{"id": "C84", "title": "analytical_intersection finds when a mover on the ground is in range", "statement": "For a leg on the ground the result is empty only if the mover is never strictly in range; else it gives two times within the leg, and the mover is in range at a time if and only if it lies between them; the places are where the mover is at these times; START_INSIDE/END_INSIDE are reported exactly if the leg starts/ends in range, ENTER/EXIT otherwise; the path time is that of the leg.", "quantifier": "all units, speeds, radii, legs and sensors (not at the start or its antipode), ends not exactly at the radius", "why_tests_cant": "continuum of times", "anchors": ["src/upstage_des/motion/geodetic_model.py: analytical_intersection"]}
{"id": "C85", "title": "analytical_intersection works for every leg", "statement": "For every leg, level or climbing, anywhere relative to the sensor, the crossing times lie within the path time, crossing altitudes between those of the ends, the path time is that of the leg, and no range crossing is missed.", "quantifier": "all legs, altitudes, sensors and radii", "why_tests_cant": "all geometries", "anchors": ["src/upstage_des/motion/geodetic_model.py: analytical_intersection", "src/upstage_des/motion/great_circle_calcs.py: get_great_circle_points"]}
{"id": "C86", "title": "Locations are frozen", "statement": "Whatever attributes of a location are assigned, in any order and number, the coordinates and the flag keep the values given at creation; each attempt to assign one of them raises FrozenInstanceError, all others succeed; copy() gives a new location of the original coordinates.", "quantifier": "all coordinates, all sequences of assignments that leave the private _no_override alone", "why_tests_cant": "all sequences of assignments", "anchors": ["src/upstage_des/data_types.py: Location.__setattr__", "src/upstage_des/data_types.py: CartesianLocation", "src/upstage_des/data_types.py: GeodeticLocation"]}
{"id": "C87", "title": "Cartesian locations form a metric space in the stage's units", "statement": "Subtracting cartesian locations gives the euclidean distance in distance units, heights in altitude units converted; it is symmetric, obeys the triangle inequality and is 0 just for the same spot; == is distance of at most 1e-5, reflexive and symmetric; indices 0 to 2 are x, y, z and all others raise ValueError.", "quantifier": "all locations, both flags, all units", "why_tests_cant": "continuum of coordinates, all units", "anchors": ["src/upstage_des/data_types.py: CartesianLocation"]}
{"id": "C88", "title": "Geodetic locations do not depend on degrees or radians", "statement": "Conversion to degrees and radians is lossless and idempotent; distances, straight lines and equality depend on the place and altitude only, not on the form; subtraction is the great-circle distance, dist_with_altitude the hypotenuse with the difference of altitudes, straight_line_distance the length of the chord (law of cosines), never above the arc for places on the ground; equality is an equivalence; equal locations are interchangeable in all distances.", "quantifier": "all locations, forms, units", "why_tests_cant": "continuum of coordinates", "anchors": ["src/upstage_des/data_types.py: GeodeticLocation"]}
{"id": "C89", "title": "Location data makes the location it describes", "statement": "make_location returns a location of the data's coordinates and flag; geodetic data is equal just if the locations are; equal cartesian data of the same flag makes equal locations.", "quantifier": "all data", "why_tests_cant": "all data", "anchors": ["src/upstage_des/data_types.py: CartesianLocationData", "src/upstage_des/data_types.py: GeodeticLocationData"]}
{"id": "C90", "title": "Locations behave as values", "statement": "== of locations is transitive and never raises, equal locations have equal hashes, a location can be unpacked into its coordinates, equal data makes equal locations, the defaults of data and location agree, and no attribute can be changed or removed.", "quantifier": "all locations", "why_tests_cant": "all locations", "anchors": ["src/upstage_des/data_types.py: CartesianLocation", "src/upstage_des/data_types.py: GeodeticLocation", "src/upstage_des/data_types.py: CartesianLocationData"]}
{"id": "C91", "title": "Interrupted tasks do what their marker says", "statement": "A task class without its own on_interrupt answers an interrupt with the action given to the last set_marker since the task began (END if none, or if it was cleared); get_marker and get_marker_time report that marker and when it was set; the answer is obeyed: END ends the task and the network goes on, IGNORE waits on for the same event, RESTART runs the body again.", "quantifier": "all networks, task bodies, marker operations, interrupts and schedules", "why_tests_cant": "markers are set at arbitrary points of arbitrary bodies and survive any number of ignored interrupts", "anchors": ["src/upstage_des/task.py: Task.set_marker, get_marker, get_marker_time, clear_marker, on_interrupt, run", "src/upstage_des/task_network.py: TaskNetwork.loop"]}
{"id": "C92", "title": "A restarted task starts without a marker", "statement": "After a restart the task's marker and interrupt action are those of a new task until the body sets one.", "quantifier": "all bodies and restarts", "why_tests_cant": "needs an interrupt before the first marker of the second round", "anchors": ["src/upstage_des/task.py: Task.run, set_marker"]}
{"id": "C93", "title": "Terminal tasks are final", "statement": "Once a network is in a TerminalTask no other task begins and its process does not end; interrupting it, or its event being triggered, raises a SimulationError; rehearsing it advances the clock by 1e24 and returns.", "quantifier": "all networks, schedules and interrupts", "why_tests_cant": "no test waits for ever", "anchors": ["src/upstage_des/task.py: TerminalTask"]}
{"id": "C94", "title": "Decision tasks decide once and take no time", "statement": "From the beginning of a DecisionTask to the beginning of the next task the clock does not move and make_decision is called exactly once, with or without DO_NOT_HOLD; other tasks make no decisions.", "quantifier": "all networks, schedules, chains of decisions", "why_tests_cant": "all interleavings with other processes in the same instant", "anchors": ["src/upstage_des/task.py: DecisionTask.run, run_skip", "src/upstage_des/task_network.py: TaskNetwork.loop"]}
{"id": "C95", "title": "get_running_task describes the running task", "statement": "get_running_task gives the name and the live process of the task the network is in, and None if there is none.", "quantifier": "all networks and schedules", "why_tests_cant": "any moment of any schedule", "anchors": ["src/upstage_des/actor.py: Actor.get_running_task", "src/upstage_des/task_network.py: TaskNetwork.loop"]}
{"id": "C96", "title": "A started network gives control back", "statement": "Starting a network or ending a task runs through DO_NOT_HOLD decisions in the order of their defaults and then waits, letting the simulation go on.", "quantifier": "all networks", "why_tests_cant": "non-termination is not testable", "anchors": ["src/upstage_des/task_network.py: TaskNetwork.loop", "src/upstage_des/task.py: DecisionTask.run_skip"]}
{"id": "C97", "title": "Every waiting task answers interrupts", "statement": "An interrupt sent to the current task of a network is answered by the task's on_interrupt.", "quantifier": "all networks, schedules", "why_tests_cant": "interrupts must hit the instant in which a decision is held", "anchors": ["src/upstage_des/task.py: Task.run, DecisionTask.run"]}
{"id": "C98", "title": "WGS84 conversions are exact and inverse", "statement": "lla2ecef gives the point at the altitude above the ellipsoid, along its normal of that latitude and longitude; ecef2lla gives it back, in degrees or radians; and the other way round for every position off the axis and not within 43 km of the centre. Lists are converted element by element.", "quantifier": "all latitudes, longitudes, altitudes and positions, in real arithmetic", "why_tests_cant": "closed form whose exactness holds at every point or none; tests compare rounded samples", "anchors": ["src/upstage_des/geography/conversions.py: BaseConversions.lla2ecef, ecef2lla, WGS84Conversions"]}
{"id": "C99", "title": "WGS84 travel arrives at the right latitude", "statement": "WGS84.point_from_bearing_dist never raises between the poles; the latitude (and the great circle on the auxiliary sphere) is that of Vincenty's series for the distance, up to 0.01 mm; zero distance keeps the latitude; along meridians and the equator the answer is exact.", "quantifier": "all places between the poles, bearings, distances, units", "why_tests_cant": "convergence of an iteration for all inputs", "anchors": ["src/upstage_des/geography/wgs84.py: WGS84.point_from_bearing_dist"]}
{"id": "C100", "title": "WGS84 travel arrives at the right longitude", "statement": "WGS84.point_from_bearing_dist gives the longitude of Vincenty's direct formula; in particular travelling no distance stays put.", "quantifier": "all places between the poles, bearings, distances, units", "why_tests_cant": "the error is below the tolerance of any test that compares with tables", "anchors": ["src/upstage_des/geography/wgs84.py: WGS84.point_from_bearing_dist"]}
{"id": "C101", "title": "WGS84 distance and bearing", "statement": "Equal points have distance 0 and bearing 0; distance is symmetric and not negative, the bearing in [0, 360); distance and bearing are the parts of distance_and_bearing; whatever is answered satisfies Vincenty's relation between the points, the length and the bearing (to a micrometre and to tol in longitude).", "quantifier": "all pairs of points between the poles, units, tolerances and iteration bounds", "why_tests_cant": "for all pairs of points", "anchors": ["src/upstage_des/geography/wgs84.py: WGS84.distance, bearing, distance_and_bearing"]}
{"id": "C102", "title": "Any two places have a WGS84 distance", "statement": "WGS84.distance_and_bearing answers for any two places between the poles.", "quantifier": "all pairs of places", "why_tests_cant": "the iteration fails to converge only for nearly opposite points", "anchors": ["src/upstage_des/geography/wgs84.py: WGS84.distance_and_bearing"]}
{"id": "C103", "title": "WGS84 bearing and distance lead to the place", "statement": "Travelling from p by the distance and bearing to q that distance_and_bearing answers arrives within 40 metres of q.", "quantifier": "all pairs of places between the poles that have a distance, all units", "why_tests_cant": "composition of two iterations, for all pairs", "anchors": ["src/upstage_des/geography/wgs84.py: WGS84.distance_and_bearing, point_from_bearing_dist", "src/upstage_des/geography/conversions.py: BaseConversions.lla2ecef"]}
{"id": "C104", "title": "WGS84 paths and circles", "statement": "geo_linspace gives segments + 1 points from exactly the start to exactly the end, the i-th at i/n of the distance along the bearing of the start; fewer than two segments raise ValueError, as does a pair without distance; from a place to itself it stays. geo_circle gives n + 1 points at the radius, closed. ecef_and_geo_linspace adds linear altitudes and the positions of the same points.", "quantifier": "all places, numbers of segments, altitudes, radii, units", "why_tests_cant": "for every number of segments and every place", "anchors": ["src/upstage_des/geography/wgs84.py: WGS84.geo_linspace, geo_circle, ecef_and_geo_linspace"]}
{"id": "C105", "title": "WGS84.ecef_linspace gives positions", "statement": "ecef_linspace gives the positions that ecef_and_geo_linspace gives.", "quantifier": "all places, altitudes and numbers of segments", "why_tests_cant": "no test calls it", "anchors": ["src/upstage_des/geography/wgs84.py: WGS84.ecef_linspace"]}
{"id": "C106", "title": "Listeners get what was sent, in order and once", "statement": "make_put with text, a dictionary or a MessageContent makes a new message from source to destination with exactly that content. A process made by generate_comms_wait calls its callback only with the contents of messages that were made for, put for and delivered to its actor, as they were made, or with {\"message\": x} for an x someone put into the store; it does so once for each, in the order in which they came into the store, and for all of them once nothing is left to happen. Every put into the manager comes to exactly one end: the message arrives or is given up.", "quantifier": "all configurations of the manager, all sequences of making and putting messages, changing what is blocked, starting run() and listeners at any time, and all passing of time", "why_tests_cant": "tests send one or two messages; that no interleaving of retries, sends and gets loses, doubles, mixes up or reorders anything is about all runs", "anchors": ["src/upstage_des/communications/comms.py: make_put", "src/upstage_des/communications/comms.py: clean_message", "src/upstage_des/communications/comms.py: run", "src/upstage_des/communications/processes.py: generate_comms_wait"]}
{"id": "C107", "title": "make_put sends from source to destination", "statement": "make_put(message, source, destination) makes a put whose message goes from source to destination, whatever message is.", "quantifier": "all messages, sources and destinations", "why_tests_cant": "the tests call make_put with a Message only with the sender and destination it already has", "anchors": ["src/upstage_des/communications/comms.py: make_put"]}
{"id": "C108", "title": "Messages over a link that is never down arrive in order and on time", "statement": "If the link from a to b is never down (nothing degraded, neither blocked, the link not blocked), then what a sends to b arrives in b's store in the order in which it was put, each message exactly send_time after it was put, or after run() began if that was later, and it has arrived when that time is over; whatever happens on other links.", "quantifier": "all managers with send_time >= 0 and retry_rate > 0, all pairs, all runs, any number of messages on their way at once", "why_tests_cant": "depends on simpy's order of events of one instant over all interleavings of any number of transmissions", "anchors": ["src/upstage_des/communications/comms.py: run", "src/upstage_des/communications/comms.py: PointToPointCommsManager._do_transmit", "src/upstage_des/communications/comms.py: _attempt"]}
{"id": "C109", "title": "Messages between two actors arrive in the order in which they were put", "statement": "Two messages from a to b that both arrive, arrive in the order in which they were put.", "quantifier": "all runs", "why_tests_cant": "needs a link that comes up between two retries of the first and before the second is put", "anchors": ["src/upstage_des/communications/comms.py: _attempt", "src/upstage_des/communications/comms.py: run"]}
{"id": "C110", "title": "The fields of a message mean what they say", "statement": "time_sent is when the message was sent and does not change after it arrived; time_received is when it was received; equal messages hash alike; text reaches the callback in the same form whether it came through the manager or was put into the store.", "quantifier": "all messages and runs", "why_tests_cant": "no test looks at the fields after a message has arrived, or compares messages", "anchors": ["src/upstage_des/communications/comms.py: Message", "src/upstage_des/communications/comms.py: clean_message", "src/upstage_des/communications/comms.py: PointToPointCommsManager._do_transmit"]}
{"id": "C111", "title": "rehearse_network rehearses the listed tasks in order, or raises", "statement": "rehearse_network(actor, task_name_list) without end_task returns exactly when every listed name is a task of the network, each is allowed after the one before, and rehearsing each, on the actor the ones before have left, returns; otherwise it raises. The actor returned is the clone as those rehearsals leave it, its clock the real clock plus the sum of their times, and the network is at the task it was at. With an end_task that is in the list, exactly the tasks before its first place are rehearsed.", "quantifier": "all networks, lists of names of any length, actors, knowledge handed over, and whatever the tasks' rehearsals do to the clone", "why_tests_cant": "the tests rehearse one list of two tasks; which lists return and what the result is composed of is about all lists and tasks", "anchors": ["src/upstage_des/task_network.py: TaskNetwork.rehearse_network", "src/upstage_des/task_network.py: TaskNetwork.is_feasible"]}
{"id": "C112", "title": "rehearse_network goes on along the queue and the defaults until the end task", "statement": "When end_task is not in the (nonempty) list, rehearse_network returns exactly if after the list there is a sequence of tasks, each the first of the clone's queue (which is taken out) or, the queue being empty, the default of the one before, that can be rehearsed and after which end_task would be next; end_task itself is not rehearsed. If nothing is queued and the tasks queue nothing, the sequence is the defaults of the last listed task up to end_task.", "quantifier": "all networks, lists, end tasks, queues, actors and rehearsals; any number of further tasks", "why_tests_cant": "an unbounded loop through the queue and the links", "anchors": ["src/upstage_des/task_network.py: TaskNetwork.rehearse_network", "src/upstage_des/task_network.py: TaskNetwork._next_task_name"]}
{"id": "C113", "title": "Rehearsing a network to an end task is safe to ask for", "statement": "rehearse_network with an end_task returns or raises; an empty list is completed by queue and defaults; and what it rehearses is a path the network allows, starting where the network is.", "quantifier": "all networks, lists and end tasks", "why_tests_cant": "no test rehearses without an end in reach, with an empty list, or with a queued task that is not allowed", "anchors": ["src/upstage_des/task_network.py: TaskNetwork.rehearse_network"]}
{"id": "C114", "title": "Statements on a clone do what they say to the clone", "statement": "actor.clone gives an actor with the same plain values, new objects with the same contents, the knowledge handed over in place of its own, the same time and the same task queues. Afterwards setting a state or knowledge, clearing knowledge, assigning or deleting inside an object, clearing, setting, appending to or taking from a queue, and passing time each change exactly what they name, to exactly the value given, and nothing else of the clone; each raises exactly when what it needs is not there, and then changes nothing.", "quantifier": "all actors, knowledge and sequences of statements of any length", "why_tests_cant": "sharing of objects and queue lists between names is about all object graphs", "anchors": ["src/upstage_des/actor.py: Actor.clone", "src/upstage_des/actor.py: Actor.set_knowledge", "src/upstage_des/actor.py: Actor.clear_knowledge", "src/upstage_des/actor.py: Actor.set_task_queue", "src/upstage_des/actor.py: Actor.clear_task_queue"]}
{"id": "C115", "title": "Every request made of a container gets exactly one answer, about what it asked", "statement": "Every put and get with a positive amount is waiting or has exactly one end: the put is done, the get is told its amount, the amount of a get cancelled after it was granted is lost, or it is cancelled while waiting. The answer is about the amount and the direction asked for, and comes after the level has changed. Amounts that are not positive are refused with ValueError, and no others. A granted get that is cancelled before it is told never gets its amount; one that is not cancelled never loses it.", "quantifier": "all capacities, levels and sequences of puts, gets, cancellations, time steps and deliveries of any length", "why_tests_cant": "a count over all interleavings of requests, cancellations and deliveries; tests look at single requests", "anchors": ["src/upstage_des/resources/monitoring.py: SelfMonitoringContainer", "src/upstage_des/events.py: Put", "src/upstage_des/events.py: Get", "src/upstage_des/events.py: BaseRequestEvent.cancel"]}
{"id": "C116", "title": "A dictionary state behaves as a dictionary of its own", "statement": "A dictionary state given a dictionary holds a new one with the same items in the same order (or raises TypeError), which later changes of the given one, other actors and other states never touch. From then on p[k], k in p, len(p), iteration, items, p[k] = v and setdefault through any proxies of the state, old or new, answer as a plain dictionary would answer the same operations in the same order, except that values of a wrong type raise TypeError after being stored. Histories are made by these assignments only, as the single-state model says. p == d for a dictionary d holds exactly if keys and values are the same.", "quantifier": "all programs over any number of actors, states, proxies, dictionaries and dataclass objects in the user's hands, without raw_object of the state; any length", "why_tests_cant": "which object is changed by which of many references is about all programs; the tests use one proxy at a time", "anchors": ["src/upstage_des/state_proxies.py: _DictionaryProxy", "src/upstage_des/states.py: DictionaryState", "src/upstage_des/states.py: _KeyValueBase"]}
{"id": "C117", "title": "Proxies compare by contents and every state has its own object", "statement": "Two dictionary states with the same items are ==, as are two dataclass states with the same values; assigning through one actor's dictionary or dataclass state changes no other actor's, and a recording state's history has every change of it.", "quantifier": "all programs", "why_tests_cant": "the tests compare states with plain objects only and give every actor an object of its own", "anchors": ["src/upstage_des/state_proxies.py: _DictionaryProxy.__eq__", "src/upstage_des/state_proxies.py: _DataclassProxy.__eq__", "src/upstage_des/states.py: DataclassState.__set__"]}
{"id": "C118", "title": "How well subdivide_intersection sees a pass", "statement": "On a leg of at least 1157.5 m that is sampled evenly and of which the part in range is one stretch, subdivide_intersection raises nothing and returns one visit in order: START_INSIDE and END_INSIDE exactly if the leg starts and ends in range, ENTER and EXIT at places in range less than 46.3 m from where the range is really entered and left, each with the time the mover gets there, and the path time. It returns no crossing only if nothing of the leg is in range, or less than 9260 m away from both ends. Legs under 289.375 m raise IntersectionError, speed 0 raises ZeroDivisionError. The accuracy is general: for any distance between samples and any levels of at least 3 it is the distance divided by the levels.", "quantifier": "all legs, ranges, speeds and ways of sampling that space points evenly on the leg; any levels", "why_tests_cant": "an error bound for all legs and ranges; the tests compare a few crossings with stored numbers", "anchors": ["src/upstage_des/motion/geodetic_model.py: subdivide_intersection", "src/upstage_des/geography/intersections.py: get_intersection_locations"]}
{"id": "C119", "title": "subdivide_intersection sees every pass", "statement": "For every leg the crossings of a sensor's range are returned, and the path time is the time the leg takes, so that a path of several legs is predicted at the right times.", "quantifier": "all legs and ranges", "why_tests_cant": "all legs: the tests use long ones that cross wide ranges", "anchors": ["src/upstage_des/motion/geodetic_model.py: subdivide_intersection", "src/upstage_des/motion/motion.py: SensorMotionManager._process_mover_sensor_pair"]}
{"id": "C120", "title": "A rehearsal that returns leaves the task and the world as they were", "statement": "In any history of simulation steps, rehearsals (nested as well, of tasks and of decisions), markers and interruptions in which every rehearsal returned, every task object uses the real environment and is not rehearsing afterwards: its clock is the simulation's, markers get the simulation's time and are read back on interruption, mimic states can be activated. In any history, also with rehearsals that raise, rehearsing moves the simulation's clock by nothing and changes no real actor, provided no DecisionTask is rehearsed with cloned_actor=True. A rehearsal without nested ones returns exactly if the actor can be cloned and the code does not raise; it returns a new actor at the real time plus what was waited for (nothing for a decision), with what the code set; every clock read on the way, of the task or the actor, agrees; other actors, clones and tasks are untouched whether it returns or not. With cloned_actor=True it goes on with the given clone at its clock, nested rehearsals of that clone (also of the task itself) share the clock in order and their times add up; for a Task given a real actor it raises and changes nothing.", "quantifier": "all histories, task code (steps and nested rehearsals), numbers of tasks and actors; any condition on clonability", "why_tests_cant": "all histories of rehearsals on shared task objects; tests rehearse once and look at the returned actor", "anchors": ["src/upstage_des/task.py: Task.rehearse", "src/upstage_des/task.py: Task._clone_actor", "src/upstage_des/task.py: DecisionTask.rehearse", "src/upstage_des/base.py: SettableEnv", "src/upstage_des/base.py: MockEnvironment"]}
{"id": "C121", "title": "Rehearsing has no effect on the task that is rehearsed", "statement": "Whatever happens in a rehearsal, the task object, the real actors and nested rehearsals behave afterwards as if it had not taken place: clocks are the simulation's, mimic states can be activated, markers and interrupt actions are those set by the real run, and a rehearsal begun in a rehearsal starts at its time.", "quantifier": "all histories", "why_tests_cant": "all histories; the tests do not use a task after its rehearsal raised", "anchors": ["src/upstage_des/task.py: Task.rehearse", "src/upstage_des/task.py: Task.set_marker", "src/upstage_des/task.py: DecisionTask.rehearse", "src/upstage_des/actor.py: Actor.activate_mimic_state"]}
{"id": "C122", "title": "WGS84 has a distance and a bearing for all places that are not nearly opposite", "statement": "With the WGS84 earth model, two places off the poles whose angle seen from the centre is at most 178 degrees (and whose longitudes, at equal positions, are equal as numbers) have a distance and a bearing: the iteration ends within 61 rounds at the default tolerance, and within some number of rounds at any positive tolerance. The answer satisfies Vincenty's equations, travelling by it leads to within 40 m of the second place, and lines between the places can be drawn with any number of segments, with altitudes as well. In particular this holds whenever latitudes and longitudes differ by at most 178 degrees in all.", "quantifier": "all pairs of places within 178 degrees, units, tolerances and numbers of segments", "why_tests_cant": "convergence over a continuum of pairs of places; tests look at a few", "anchors": ["src/upstage_des/geography/wgs84.py: WGS84.distance_and_bearing", "src/upstage_des/geography/wgs84.py: WGS84.distance", "src/upstage_des/geography/wgs84.py: WGS84.bearing", "src/upstage_des/geography/wgs84.py: WGS84.geo_linspace", "src/upstage_des/geography/wgs84.py: WGS84.ecef_and_geo_linspace"]}
{"id": "C123", "title": "The two earth models agree within two percent", "statement": "For places off the poles, whenever the WGS84 model answers, its distance differs from the one of the spherical model by at most two percent of the latter and a tenth of a millimetre, in every unit; both answer for places at most 178 degrees apart. So switching the earth model does not reorder places whose distances differ by more than five percent, places more than a millimetre apart have a positive distance, and going by way of a third place is shorter by at most five percent.", "quantifier": "all places off the poles, units and numbers of iterations", "why_tests_cant": "a comparison of two formulas over a continuum of places; tests compare a handful of stored numbers", "anchors": ["src/upstage_des/geography/wgs84.py: WGS84.distance", "src/upstage_des/geography/spherical.py: Spherical.distance"]}
{"id": "C124", "title": "Every request made of a store gets exactly one answer, about what it asked", "statement": "In any sequence of puts, gets, cancellations and processed events on a plain, filter or sorted store, every request made is either still open or has exactly one answer, and nothing else is answered. A put stores its own item; a get is given an item that passes its own filter (plain stores have none) and that somebody put. The item is in or out of the store before the request hears of it. A get cancelled after its item was taken never receives it, a request cancelled while waiting hears nothing more, and a request that is not cancelled never loses its item.", "quantifier": "all item types, filters, sorters, capacities and sequences of operations", "why_tests_cant": "tests follow a few requests by name; that none is dropped, swapped or served twice is a statement about all interleavings", "anchors": ["src/upstage_des/resources/monitoring.py: SelfMonitoringStore, SelfMonitoringFilterStore", "src/upstage_des/resources/sorted.py: SortedFilterStore", "src/upstage_des/events.py: Get, Put, cancel"]}
{"id": "C125", "title": "The stepped motion manager looks at the attributes registered, as they are now", "statement": "add_sensor accepts an object exactly if it has entity_entered_range, entity_exited_range and the two attributes named, add_detectable exactly if the attribute is there and the class has at most one DetectabilityState, with a value; otherwise they raise NotImplementedError (methods) or SimulationError and change nothing. An actor that starts to move without being registered is so by its first geodetic location state, or else its first Cartesian one. As long as the attributes registered are locations and numbers and detectability is True or False, a check never raises; it compares each registered sensor exactly once with each other registered target that is detectable, by the attributes of the latest successful registrations and the values they have at that moment.", "quantifier": "all objects, classes of actors, attribute names and values, and all sequences of registrations, assignments, starts, stops and checks", "why_tests_cant": "which attribute is read depends on the history of registrations; tests register once under the default names", "anchors": ["src/upstage_des/motion/stepped_motion.py: SteppedMotionManager.add_sensor, add_detectable, _start_mover, _stop_mover, _run_detectable, _test_detect, _detect_dist", "src/upstage_des/actor.py: Actor._get_detection_state, _get_matching_state, _match_attr"]}
{"id": "C126", "title": "A target of the stepped manager is watched where it moves, at the rate asked for, until the user withdraws it", "statement": "While an actor moves, the stepped motion manager looks at the location state that is moving; new_rate of add_detectable sets how often it is looked at; a target registered with add_detectable stays registered.", "quantifier": "all actors, location states and sequences of registrations and moves", "why_tests_cant": "depends on the order of states of the class and on earlier registrations", "anchors": ["src/upstage_des/motion/stepped_motion.py: SteppedMotionManager.add_detectable, _start_mover, _stop_mover"]}
{"id": "C127", "title": "Debug logging changes nothing but the log, and the log tells every call in order", "statement": "On a stage whose daily_time_count is not zero, the knowledge and task queue methods of Actor and Task return, raise and change the same with every setting of debug_log and debug_log_time. With debug_log on, each call appends exactly the lines given (one for each name tried, with the time of the call, and pretty_now in front if asked for); the log is in order of time and is never changed otherwise; with debug_log off it stays as it is. Whatever an actor knows has been logged as set. The knowledge methods of Task are those of the actor with the task's class as caller; the queue methods raise AssertionError if the task is in no network.", "quantifier": "all actors, settings, call stacks and sequences of calls and waits", "why_tests_cant": "tests look at a few lines of the log; that logging never disturbs is a claim about all histories", "anchors": ["src/upstage_des/actor.py: Actor.log, get_log, _log_caller, knowledge and task queue methods", "src/upstage_des/task.py: Task.*_actor_knowledge, *_actor_task_queue", "src/upstage_des/utils.py: get_caller_info"]}
{"id": "C128", "title": "The debug log tells what was done and who did it", "statement": "The last line of the debug log about a knowledge name tells what the actor holds under it; each line names the function that made the call, or the caller it gave; logging never makes a call fail.", "quantifier": "all actors, stages, call stacks and sequences of calls", "why_tests_cant": "depends on refused calls and on how many methods lie between the caller and the log", "anchors": ["src/upstage_des/actor.py: Actor.set_knowledge, set_bulk_knowledge, create_knowledge_event, _log_caller, log", "src/upstage_des/task.py: Task.get_and_clear_actor_bulk_knowledge, set_actor_task_queue", "src/upstage_des/base.py: UpstageBase.pretty_now"]}
{"id": "C129", "title": "Motion between cartesian locations is right whatever the units of their heights", "statement": "A CartesianLocationChangingState whose start and waypoints may use altitude units is, at any time of the motion, where a mover is that goes in straight lines through the places of the waypoints at the speed, distances taken in distance units with heights converted; just after a waypoint it may be off by what is covered in 2e-12. The location that is read has its height in distance units; at the end of the path it == the last waypoint. Locations of the same places in other units give the same motion. Read at once it is the location it had; before the start and after the end SimulationError; with speed 0 ZeroDivisionError.", "quantifier": "all pairs of known units, speeds, paths, mixtures of units and times", "why_tests_cant": "tests use locations in one unit and compare a few points", "anchors": ["src/upstage_des/states.py: CartesianLocationChangingState._setup, _get_index, _active", "src/upstage_des/data_types.py: CartesianLocation._as_array, __sub__, __eq__"]}
{"id": "C130", "title": "Detection of cartesian movers is right whatever the units of their heights", "statement": "cartesian_linear_intersection reports just when a mover is in range of a sensor, also when the heights of the start, the finish or the sensor are in altitude units.", "quantifier": "all pairs of known units, speeds, radii, locations", "why_tests_cant": "tests use locations without altitude units", "anchors": ["src/upstage_des/motion/cartesian_model.py: cartesian_linear_intersection, ray_intersection", "src/upstage_des/data_types.py: CartesianLocation.__sub__"]}
{"id": "C131", "title": "A rehearsal foretells the run of a task that is left alone", "statement": "Let no state of the actor be active and nobody else use the actor. Let the task wait with Wait, Any and All of Waits only, each Wait being yielded once, with its rehearsal time left at the default and asked is_complete() only before or right after it is yielded, what an Any or All gives back not being used, no create_knowledge_event being refused and no event being succeeded a second time. Then task.rehearse(actor=...) returns an actor with the states, active states, knowledge and clock that task.run(actor=...) would leave, raises if and only if the run would, and every statement on states and knowledge, every look at the clock and every is_complete() on the way gives the same at the same time. The same holds for a list of such tasks given to rehearse_network and performed by the network's loop.", "quantifier": "all task code whose every step may depend on all answers before, all actors, values, times", "why_tests_cant": "tests rehearse a few tasks and compare a few final values with what is expected by hand", "anchors": ["src/upstage_des/task.py: Task.rehearse, Task.run, _clone_actor", "src/upstage_des/events.py: BaseEvent.rehearse, is_complete, Wait, MultiEvent.rehearse, as_event", "src/upstage_des/actor.py: Actor.clone", "src/upstage_des/task_network.py: loop, rehearse_network"]}
{"id": "C132", "title": "A rehearsal foretells the run", "statement": "When the actor and the stores are used by nobody else, task.rehearse(actor=...) returns an actor as task.run(actor=...) would leave it, at the same time, and raises if and only if the run would.", "quantifier": "all tasks, actors, values, times", "why_tests_cant": "tests rehearse tasks that meet the conditions of C131", "anchors": ["src/upstage_des/task.py: Task.rehearse, Task.run", "src/upstage_des/events.py: MultiEvent.rehearse, Wait.as_event", "src/upstage_des/actor.py: Actor.clone, create_knowledge_event"]}
{"id": "C133", "title": "Rehearsals that trigger no event of the simulation are not seen in it", "statement": "In any history of knowledge and Event operations by actors of the simulation and by rehearsed code (clones, clones of clones, with further knowledge given), in which rehearsed code does not succeed or cancel an event that it has inherited from the simulation: taking the rehearsals out leaves a history that gives every actor and process of the simulation the same answers, errors, wake-ups in the same order and payloads, and ends with the same knowledge. Rehearsed code may create, yield, succeed, reset and cancel knowledge events of its own, also under names that are taken in the simulation. If no actor knows an event when it is cloned, nothing is inherited and the condition holds.", "quantifier": "all histories with any number of actors, clones, events and processes", "why_tests_cant": "tests rehearse single tasks and do not look at waiting processes", "anchors": ["src/upstage_des/actor.py: Actor.clone, create_knowledge_event, succeed_knowledge_event", "src/upstage_des/events.py: Event"]}
{"id": "C134", "title": "Rehearsing does not trigger events of the simulation", "statement": "Whatever rehearsed code does with its understudy, no process of the simulation is woken by it, no event of the simulation is triggered, and knowledge events can be succeeded afterwards as if nothing was rehearsed.", "quantifier": "all histories of knowledge and Event operations with rehearsals", "why_tests_cant": "tests rehearse tasks without knowledge events of others", "anchors": ["src/upstage_des/actor.py: Actor.clone, succeed_knowledge_event", "src/upstage_des/events.py: Event.succeed"]}
{"id": "C135", "title": "Many routed messages at once: each ends once, and clear ways keep order and time", "statement": "Any number of messages on their way through a RoutingTableCommsManager, with links being blocked and freed, connections made and other processes running: every message arrives or is given up at most once, and when nothing is left to happen each has ended; stores hold exactly what came to their actor, in order, and it was put before, for that actor; whatever is blocked, a message that arrives came a way of connections and took send_time for each, so that nothing arrives where no way leads. For two actors D connections apart, as long as nothing on a shortest way between them is blocked and the table keeps its connections, messages arrive in the order in which they were put, exactly D send_times after they were put (or run() began), none is given up, and once the clock has passed that time they have arrived, whatever else is on its way or blocked.", "quantifier": "all tables, configurations, blockings and interleavings of puts, other events and changes, including send_time 0, any order of the table's sets, any number of messages at the same time", "why_tests_cant": "tests send single messages through one small table", "anchors": ["src/upstage_des/communications/routing.py: RoutingTableCommsManager._do_transmit, select_hop", "src/upstage_des/communications/comms.py: CommsManagerBase.run, _attempt"]}
{"id": "C136", "title": "Routed messages between two actors arrive in the order in which they were put", "statement": "Messages that one actor puts for another through a RoutingTableCommsManager arrive in the order in which they were put, whatever is blocked and however the table changes.", "quantifier": "all tables, configurations, blockings and interleavings", "why_tests_cant": "tests send single messages", "anchors": ["src/upstage_des/communications/routing.py: RoutingTableCommsManager._do_transmit", "src/upstage_des/communications/comms.py: CommsManagerBase._attempt"]}
{"id": "C137", "title": "A failure ends a task where it is, and does nothing else", "statement": "If the body of a task or of a routine raises, or an event that the task (its body, a routine, or a routine's cancel) waits for fails - a simpy process that raises, a MultiEvent with one, a MultiEvent cancelled by somebody else - the exception leaves the task's process. From then on no code of the body or of its routines is resumed, nothing is cleaned up, cancelled or put back, the actor changes only by what others do, and the task network ends: it begins no task any more. What a routine raises is not given to the body that runs it. If a process the task waits for was interrupted and did not handle it, the task takes the exception for its own interrupt: on_interrupt is asked; END, RESTART and every other answer but IGNORE make the task fail, and after IGNORE the same exception comes again at once, for ever, so that nothing else happens in the simulation.", "quantifier": "all tasks, routines, stacks of routines, surroundings, exceptions and sequences of resumptions, interrupts and failures", "why_tests_cant": "no test lets an awaited event fail or a routine raise in a running task", "anchors": ["src/upstage_des/task.py: Task.run, Task._handle_interruption", "src/upstage_des/routines.py: Routine._run, Routine._run_cancel", "src/upstage_des/task_network.py: TaskNetwork.loop", "src/upstage_des/events.py: MultiEvent.cancel"]}
{"id": "C138", "title": "A task that fails is cleaned up, and failures of what it awaits can be handled", "statement": "When a task fails, its active and mimic states are released, what it waits for is cancelled and its routines are cancelled, as when it is interrupted; a body can handle failures of the events it yields and of the routines it runs; and interrupts of a process the task waits for can be answered with END or RESTART.", "quantifier": "all tasks, routines, surroundings and failures", "why_tests_cant": "no test lets an awaited event fail", "anchors": ["src/upstage_des/task.py: Task.run", "src/upstage_des/routines.py: Routine._run"]}
{"id": "C139", "title": "A geodetic state moves by the numbers of its locations", "statement": "A GeodeticLocationChangingState answers activation, reads, assignments, deactivation and queries for the remaining waypoints as if the latitudes and longitudes of its location and waypoints were all in degrees, whatever they say; what is read after it has moved is in degrees. If they are in degrees, waiting for the time that waypoint_time_and_dist gives brings it to the last waypoint and its altitude, for every stage model whose distance is symmetric and which travels from the last but one to the last waypoint.", "quantifier": "all stage models, locations in either form, waypoints, speeds and sequences of operations", "why_tests_cant": "an equality of runs for all sequences; no test uses radians in motion", "anchors": ["src/upstage_des/states.py: GeodeticLocationChangingState._setup, GeodeticLocationChangingState._active", "src/upstage_des/data_types.py: GeodeticLocation.__sub__", "src/upstage_des/utils.py: waypoint_time_and_dist"]}
{"id": "C140", "title": "A geodetic state moves alike in degrees and in radians", "statement": "A GeodeticLocationChangingState whose location and waypoints are in radians moves through the places they name: after the time that waypoint_time_and_dist gives it is at the last waypoint; and the location table shows different places differently.", "quantifier": "all locations, waypoints and speeds", "why_tests_cant": "no test uses radians in motion", "anchors": ["src/upstage_des/states.py: GeodeticLocationChangingState._setup, GeodeticLocationChangingState._active", "src/upstage_des/data_utils/data_utils.py: _actor_location_data"]}
{"id": "C141", "title": "A journey resumed with the remaining waypoints goes on along the path", "statement": "If a location changing state is deactivated away from a waypoint and later activated, at any speed, with what Actor.get_remaining_waypoints gave, and so on any number of times, then it moves along the path as first given: a read gives the place at the arc length travelled so far (or at most speed times tolerance beyond a corner), the same place as on a journey without interruption; waypoint_time_and_dist of the rest is what is left of the path; and after that time it is at the last waypoint.", "quantifier": "all geometries in which the way from a point of a leg to its end is the rest of the leg, waypoints, speeds, numbers and times of interruptions, pauses, reads and assignments in between", "why_tests_cant": "an induction over the interruptions with the path's arc length as invariant; tests resume once on one path", "anchors": ["src/upstage_des/actor.py: Actor.get_remaining_waypoints, Actor.activate_state, Actor.deactivate_state", "src/upstage_des/states.py: CartesianLocationChangingState._get_remaining_waypoints, CartesianLocationChangingState._active, GeodeticLocationChangingState._get_remaining_waypoints", "src/upstage_des/utils.py: waypoint_time_and_dist"]}
{"id": "C142", "title": "A journey may be interrupted and resumed at any time", "statement": "Whenever a location changing state can be deactivated, get_remaining_waypoints gives the waypoints yet to be reached, and activating the state with them continues the journey.", "quantifier": "all paths, speeds and times of the interruption", "why_tests_cant": "fails only at and just after the time of a waypoint, where no test interrupts", "anchors": ["src/upstage_des/actor.py: Actor.get_remaining_waypoints", "src/upstage_des/states.py: CartesianLocationChangingState._get_index, CartesianLocationChangingState._get_remaining_waypoints, GeodeticLocationChangingState._get_index"]}
{"id": "C143", "title": "The data table tells what was written during the run", "statement": "After any run in which states of actors (ordinary, dictionary and dataclass states) are written while time passes, the rows of create_table about a recorded state, or about a key of one, are a faithful record of the writes to it: in time order, only values written, each at its time, and at every time the value then in force; a state that is not recorded has one Last Seen row with its last value or none, as asked; no other rows exist; and the table can be made if every state was given a value and nothing was refused for its type.", "quantifier": "all sets of actors and states, sequences of writes to any of them and times between", "why_tests_cant": "an induction over the run together with the invariants of the histories and of the table; tests make one table of a fixed run", "anchors": ["src/upstage_des/data_utils/data_utils.py: create_table, _actor_state_data, _state_history_to_table", "src/upstage_des/states.py: State.__set__, State._do_record, _KeyValueBase._record_state, DictionaryState.__set__, DataclassState.__set__", "src/upstage_des/state_proxies.py"]}
{"id": "C144", "title": "A data table can always be made and shows the states as they are", "statement": "After any run create_table succeeds, the last row about a state shows the value it has, and every row shows a value the state had at the time of the row.", "quantifier": "all runs, including those in which values are refused", "why_tests_cant": "fails only after a refused assignment that the run survives, or for values of unrecorded states that change", "anchors": ["src/upstage_des/data_utils/data_utils.py: _actor_state_data", "src/upstage_des/state_proxies.py: _DictionaryProxy.__setitem__"]}
{"id": "C145", "title": "Linear states and container levels are right up to rounding", "statement": "With every sum, difference, product and quotient rounded as Python rounds floats, the value of an active linear state after any number of reads, and the level of a continuous container at any time, differ from the exact ones by at most a stated multiple of 2^-53 that grows with the number of reads, the values and the amounts moved. A container with a flow out (in) has a check at a time not in the past, at which its level is zero (its capacity) up to 2^-53 times 13 levels plus 4 times rate times clock (22 capacities plus the same). If times and rate are multiples of fixed powers of two, a linear state is exact as long as 53 binary digits hold it; and if in addition the time until a container is empty (full) is such a multiple, the check comes exactly then and finds exactly zero (the capacity).", "quantifier": "all roundings that keep order and signs and have a bounded relative error, Python's among them; all rates, levels, times and sequences of reads", "why_tests_cant": "an error analysis by induction over the reads; tests compare a few values with approx", "anchors": ["src/upstage_des/states.py: LinearChangingState._active", "src/upstage_des/resources/container.py: ContinuousContainer._set_level, _check, level"]}
{"id": "C146", "title": "Rounding does not change what happens in a continuous container", "statement": "A continuous container whose flow empties or fills it notices this, tells the users that are stopped by it, raises an error only where it was asked for, and is at rest when its last user has ended, also when numbers are rounded; and reading a linear state does not change what it will be.", "quantifier": "all containers, flows, and times", "why_tests_cant": "the failures depend on the last binary digit; tests use numbers that binary fractions hold exactly", "anchors": ["src/upstage_des/resources/container.py: ContinuousContainer._check, _check_empty, _check_full, _add_rate"]}
{"id": "C147", "title": "Moving actors can be read until they arrive while the clock is small", "statement": "If a location changing state is activated with waypoints and speed at time t0, and read at any times up to and including the end of a timeout of the travel time that waypoint_time_and_dist gives, then, with all times rounded as Python rounds floats, every read gives a place rather than an error whenever t0 plus (4 n + 8) times the travel time, n the number of waypoints, is at most 9e15 times the tolerance: 9000 for Cartesian, 9e11 for geodetic locations. Whatever the clock shows, if the times of departure, of the read, and of the legs are whole numbers or binary fractions much larger than the tolerance, a read after departure and until arrival gives the place on the right leg, at the part of it, rounded once, for which its time has passed. If the distances are such numbers too, the timeout of the travel time ends exactly on arrival.", "quantifier": "all distances, speeds, waypoints (up to a million) and times of departure within the bound", "why_tests_cant": "an induction over the legs with two different orders of summation; tests move a few legs near time zero", "anchors": ["src/upstage_des/states.py: CartesianLocationChangingState._active, _get_index, GeodeticLocationChangingState._active", "src/upstage_des/utils.py: waypoint_time_and_dist"]}
{"id": "C148", "title": "Moving actors can be read on arrival at any time", "statement": "An actor that moves along waypoints can be read, and its state deactivated, when the travel time has passed, whatever the clock shows.", "quantifier": "all times of departure", "why_tests_cant": "fails for about a quarter of all moves once the clock is past 16384; tests start at time zero", "anchors": ["src/upstage_des/states.py: CartesianLocationChangingState._get_index"]}
{"id": "C149", "title": "Reservations are right up to rounding", "statement": "With every sum and difference rounded as Python rounds floats, a ReserveContainer never shows a negative amount available, grants a reservation exactly if it is not more than is available and the requester holds none, hands out on take exactly what was reserved, and keeps available plus reserved, and the real level, equal to what was put in less what was taken out up to 2^-52 times the largest level for each call; so never more is promised than is there but for twice that. If all amounts and times are multiples of a power of two and 53 binary digits hold their sums, nothing is rounded: every call does exactly what it would do with exact numbers.", "quantifier": "all roundings that keep order and signs and have a bounded relative error, Python's among them; all sequences of calls with non-negative amounts and expiries", "why_tests_cant": "an induction over the calls with an accumulated error; tests use whole numbers", "anchors": ["src/upstage_des/resources/reserve.py: ReserveContainer"]}
{"id": "C150", "title": "Rounding does not change what a ReserveContainer does", "statement": "A reservation that is cancelled or expires leaves the container as it was before, and what was taken can be put back.", "quantifier": "all amounts", "why_tests_cant": "depends on the last binary digit of the amounts", "anchors": ["src/upstage_des/resources/reserve.py: ReserveContainer.reserve, cancel_request, put"]}
{"id": "C151", "title": "Printed simulation times are right up to rounding", "statement": "With all arithmetic rounded as Python rounds floats, pretty_now with a standard time unit shows a time of day (hours below 24, minutes and seconds below 60), and the day and time shown, in seconds, are the whole seconds of the clock up to 2^-51 times (clock + 1 day); so they are exactly right unless the clock is that close to a whole second, and the day never changes early.", "quantifier": "all times up to 2^40 seconds, all spellings of seconds, minutes and hours", "why_tests_cant": "needs the spacing of floats around multiples of 24 hours; tests print a few times", "anchors": ["src/upstage_des/base.py: UpstageBase.pretty_now", "src/upstage_des/units/convert.py: unit_convert"]}
{"id": "C152", "title": "Printed simulation times at whole seconds and minutes are right", "statement": "At a whole number of seconds or minutes pretty_now shows that number of seconds or minutes.", "quantifier": "all whole numbers on the clock, with time_unit s and min", "why_tests_cant": "fails for about one in sixteen whole minutes and one in thirty whole seconds, none of which a test uses", "anchors": ["src/upstage_des/base.py: UpstageBase.pretty_now"]}
{"id": "C153", "title": "A rehearsal foretells the run of a task to the last digit", "statement": "With times rounded as Python rounds floats, rehearsing a task that uses Waits, Any and All of Waits, its actor's states and knowledge, and that does not ask the members of an Any whether they are complete, ends at exactly the time at which the run would end, with the same states and knowledge, and the task sees the same clock and the same answers on the way. The same holds for tasks one after the other, as in a network. A member of an Any that the rehearsal calls complete is complete in the run.", "quantifier": "all tasks whose code uses every Wait once, whatever they decide by the answers; all actors without active states; all starting times that are floats; all roundings that keep order", "why_tests_cant": "the least of rounded sums has to be the rounded sum of the least; tests rehearse with whole numbers", "anchors": ["src/upstage_des/task.py: Task.run, Task.rehearse", "src/upstage_des/events.py: Wait, Any, All, MultiEvent.rehearse"]}
{"id": "C154", "title": "A rehearsal foretells which events of an Any are complete", "statement": "After an Any a task that asks its members whether they are complete gets the same answers in a rehearsal as in the run.", "quantifier": "all tasks whose code uses every Wait once", "why_tests_cant": "fails only if two different times of waiting lead to the same time on the clock; tests start at time zero", "anchors": ["src/upstage_des/events.py: MultiEvent.rehearse, BaseEvent.is_complete"]}
