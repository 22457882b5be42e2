# Formal model of gtri/upstage in Rocq/Coq 8.16.1

Source under study: `/repo/src/upstage_des` (python, pinned, read as text, never run).
Everything machine checked lives in `rocq/theories` (logical name `Verif`).

## Layout

For each area `X` of the code there are up to four files:

* `XModel.v`: shallow, total Gallina functions mirroring the python functions branch by
  branch, exceptions as values.  Every definition cites file and lines.  No proofs.
* `XSpec.v`: the vocabulary the properties are stated in, independent of the model's
  helpers.
* `XProofs.v`: lemmas.
* `XProps.v`: the property theorems, each with `Print Assumptions`, and `Example`s
  showing that hypotheses are met.

A theorem named `..._partial` proves a part of its property; the comment next to it says
what is missing.  A theorem named `..._refuted` shows, by a witness, that the property as
stated is false of the code as modelled; it is a finding about the code (see "Findings").

`Common.v` has the rational comparisons and tactics used everywhere.  The files
`FateSpec/Proofs/Props.v` state C56 over the Store and Container models;
`ContinuousObs.v` the observation independence of the Continuous model.

## Trusted base

1. The Coq 8.16.1 kernel (and `vm_compute`).
2. The axioms listed by `Print Assumptions` beneath each theorem.  For all theorems but
   those about real numbers this is "Closed under the global context".  The theorems
   over Coq's real numbers (areas Lin, Geo, Arc, Loc and Wgs, properties C43 and those of the table
   marked so) use the axioms of the standard library's construction of the reals:
   `ClassicalDedekindReals.sig_forall_dec`, `ClassicalDedekindReals.sig_not_dec` and
   `FunctionalExtensionality.functional_extensionality_dep`, and where trigonometry is
   involved `Classical_Prop.classic`.  No other axiom is used and none is added.
3. The reading of the python code: the theorems are about the model.
4. Python semantics used in the model: dict preserves insertion order, list methods,
   generators (`next`/`send`/`throw`/`close`), `is` versus `==`, descriptors.
5. SimPy 4 semantics (its source is not in the repository; the model follows simpy 4.1.1
   as documented): the agenda is ordered by (time, priority URGENT<NORMAL, insertion
   number); `Put`/`Get` append themselves to the queue of the resource and immediately
   call `_trigger_put/_trigger_get`; their callbacks call the opposite trigger when they
   are processed; the trigger loops stop at the first falsy result of
   `_do_put/_do_get`; `cancel` removes a request from its queue only if it is not
   triggered; `succeed` on a triggered event raises; `interrupt` is URGENT, raises on a
   terminated process and is ignored when delivered to a terminated process.
6. Numbers: times, levels, rates, amounts are rationals (`Q`), integers (`Z`) or, where
   roots or angles are needed, Coq's reals, with exact arithmetic.  IEEE rounding,
   overflow, nan and (unless stated) inf are not modelled.

## What is not modelled

Plotting/GUI, documentation, type annotations, `__repr__`s, logging text, the iterations
of WGS84, random number streams (their range is), floating point rounding (except in the Rnd area), python
exceptions raised inside user callbacks (unless stated), threads, the debugging helpers of
utils.py.

## The models: code, simplifications, properties, method

### Reserve (C01-C04)

* Code: resources/reserve.py: ReserveContainer
* Left out or simplified: requesters have an identity and an equality; the timer processes are operations of the environment at their times
* Proof: invariant over lists of operations (available + reservations = ledger); characterisation of each result; witnesses

### Store (C08, C09, C10, C34, C50, C56)

* Code: simpy Store and FilterStore as used, resources/sorted.py, the store classes of resources/monitoring.py, Put/Get/FilterGet/SortedFilterGet of events.py
* Left out or simplified: simpy's queue discipline is trusted; items have an identity, a key for == and a truth value
* Proof: invariants over transitions; FIFO refinement; step function of the recorded quantities equals the ghost history

### Container (C11, C54, C56)

* Code: simpy Container as used, SelfMonitoringContainer, SelfMonitoringReserveContainer
* Left out or simplified: simpy's queue discipline is trusted
* Proof: invariants over transitions

### Continuous (C05-C07, C11, C55)

* Code: resources/container.py: ContinuousContainer; SelfMonitoringContinuousContainer
* Left out or simplified: timeouts due in one instant may be processed in any order
* Proof: invariant over transitions; level equals the integral of the flows (ledger)

### State (C12, C13, C19, C20, C57)

* Code: states.py: State, DictionaryState, DataclassState; state_proxies.py
* Left out or simplified: values are immutable, so deepcopy is the identity
* Proof: induction over sequences of operations

### Knowledge (C21, C22, C58)

* Code: knowledge and knowledge events of actor.py (567-713, 1152-1202); succeed and reset of Event (events.py:821-851) with simpy's processing as an input
* Left out or simplified: logging (Log); cancel and waiting for events (UEvent); clones (Kev)
* Proof: refinement to a finite map

### Active (C14-C16, C59)

* Code: activation and locks of actor.py, LinearChangingState, state_sharing.py
* Left out or simplified: recording and callbacks (in State)
* Proof: refinement to a ledger of activation intervals

### Mimic (C17)

* Code: mimic states of actor.py and State.__get__
* Left out or simplified: values are never None
* Proof: invariant over operations; witnesses

### Path (C18, C52, C60)

* Code: location changing states, waypoint_time_and_dist
* Left out or simplified: distance and the point along a leg are parameters with stated laws
* Proof: arc length of a polyline; induction over waypoints

### Net (C23, C24, C51, C61)

* Code: task networks and queues of actor.py, task_network.py with the factories
* Left out or simplified: task bodies: the environment says when a task ends
* Proof: induction over steps of the loop

### Ev (C53, C62)

* Code: cancel of all events of events.py
* Left out or simplified: -
* Proof: induction over event trees; exact condition for success

### Task (C26-C29)

* Code: Task.run, _handle_interruption, Routine._run and _run_cancel
* Left out or simplified: bodies are arbitrary functions of the values received; the surroundings may change arbitrarily between steps
* Proof: induction over the input of the generator machine

### Reh (C30, C31)

* Code: rehearse of all events, routines and tasks
* Left out or simplified: -
* Proof: induction over event trees and bodies

### Clone (C25)

* Code: Actor.clone, MockEnvironment, TaskNetwork.rehearse_network
* Left out or simplified: explicit heap; active states' bookkeeping is in Active
* Proof: heap separation (reachability) invariant

### Hold (C32)

* Code: ResourceHold on a simpy Resource
* Left out or simplified: simpy's Resource is trusted
* Proof: invariant over interleavings

### UEvent (C33)

* Code: events.py: Event
* Left out or simplified: time
* Proof: invariant; witnesses

### Win (C35)

* Code: routines.py: WindowedGet over Store
* Left out or simplified: order of events in one instant left open
* Proof: invariant; witnesses

### Route, Comms (C36-C40, C63)

* Code: communications/routing.py, communications/comms.py
* Left out or simplified: destination stores take every put at once; names are unique; logging
* Proof: breadth first search invariant; induction over steps of message processes; termination measures

### Units (C46, C64, C65)

* Code: units/convert.py, Wait's units, pretty_now
* Left out or simplified: text layout
* Proof: finite case analysis of the unit table for arbitrary strings, field arithmetic

### Ctx (C47, C48, C66)

* Code: contexts, stage, entity groups of base.py; data_recorder.py
* Left out or simplified: threads, stage objects kept across contexts
* Proof: stack discipline; induction over class hierarchies and creations

### Nuc (C49, C67)

* Code: nucleus.py, broadcasting of state changes, interrupt_network, tables of networks
* Left out or simplified: tasks are arbitrary sequences of operations; plain and linear states
* Proof: invariant over operations

### Tab (C45, C68)

* Code: data_utils/data_utils.py
* Left out or simplified: names with dots
* Proof: induction over states and histories

### Cross (C44, C69)

* Code: geography/intersections.py
* Left out or simplified: sampling and distances are parameters
* Proof: induction over samples

### Step (C41, C70)

* Code: motion/stepped_motion.py, DetectabilityState
* Left out or simplified: sensors' callbacks do not raise or call back
* Proof: invariant over operations

### Pair, Mot (C42)

* Code: motion/motion.py: SensorMotionManager
* Left out or simplified: the intersection model is a parameter; sensors' callbacks do not raise or call back
* Proof: invariant tying pending processes to predicted crossings

### Lin (C43 (reals))

* Code: motion/cartesian_model.py, math_utils.py
* Left out or simplified: rounding
* Proof: quadratic inequality; induction over legs

### Make (C71-C76)

* Code: actor.py `__init_subclass__`, `__init_states`, `__actual_init__`, `clone`; states.py `__set__`, `_set_default`, `has_default`, `_make_clone` of all kinds of states
* Left out or simplified: signature and docstring of the constructor; the constructors of stores (parameter: what they accept and hold first); strings given to a MultiStoreState; recording and callbacks (State, Nuc); knowledge, queues and histories of clones (Clone)
* Proof: heap only grows; invariant over the states set so far; induction over arguments and names

### Geo (C77-C82 (reals))

* Code: geography/spherical.py, the spherical part of geography/conversions.py
* Left out or simplified: rounding; radians as input or output of the conversions; _cart2lla (unused); lists of points are mapped over
* Proof: vector algebra on the unit sphere; Gram determinant for the triangle inequality

### Arc (C83-C85 (reals))

* Code: motion/great_circle_calcs.py, motion/geodetic_model.py analytical_intersection
* Left out or simplified: rounding; locations are in degrees
* Proof: projection of the sensor on the plane of the way; monotonicity of the cosine

### Loc (C86-C90 (reals))

* Code: data_types.py
* Left out or simplified: text representations, subclasses; rounding; the earth is Spherical
* Proof: invariant over assignments; euclidean and spherical geometry

### Loop (C91-C97)

* Code: task_network.py 71-138 (loop), task.py 103-168 (markers, on_interrupt), 425-466 and 528-554 (interrupts), 562-629 (DecisionTask), 632-679 (TerminalTask); actor.py 832-851 (get_running_task)
* Left out or simplified: routines and the cleanup after interrupts (Task); rehearsal of decisions; on_interrupt's own side effects are operations before the interrupt
* Proof: invariant between the state and a summary of the trace

### Wgs (C98-C105 (reals))

* Code: geography/wgs84.py, geography/conversions.py (BaseConversions with WGS84 constants)
* Left out or simplified: rounding of floats (round(x, 6) is modelled); poles; Cross's subdivision of WGS84 paths
* Proof: Heikkinen's identities on the meridian; Lipschitz bounds of Vincenty's series; rotation about the axis

### Mail (C106-C110)

* Code: communications/comms.py 25-52 (MessageContent, Message), 142-156 (clean_message), 203-245 (make_put), 254-264 (run), 303-317 (_attempt), 355-373 (point-to-point _do_transmit); communications/processes.py 16-42 (generate_comms_wait), all under simpy's queue order (time, urgent first, then order of scheduling) for Initialize, Store.get, Store.put and timeout.
* Left out or simplified: Choice of the store and missing stores (Comms); routing managers (Comms); finite stores; several run() or several listeners on one store; users assigning to message fields; rehearsal of the Put; uuid collisions; exceptions in callbacks.
* Proof: Invariants of runs: one loop event at most, entries due now or at most send_time ahead and sends sorted by time; boxes account for all that came; every carried number is known; flight = sends ++ inits ++ gots ++ incoming for one pair; due times.

### Plan (C111-C114)

* Code: The definitions of CloneModel.v again: task_network.py 71-92, 140-198 (_next_task_name with clear_queue, rehearse_network), actor.py clone, set_knowledge, clear_knowledge, queues. Area Clone is about the real actor; this one about the clone.
* Left out or simplified: What a task's rehearsal does is a parameter (Reh and Hold model it); Actor.rehearse_network only looks the network up.
* Proof: The loop of rehearse_network is cut where the list ends; both parts are equivalent to inductive relations. Every statement preserves that references lead somewhere and that queues are not shared.

### Answer (C115)

* Code: The definitions of ContainerModel.v again, from the side of one request: which answers it gets.
* Left out or simplified: as for Container
* Proof: The requests numbered so far are a permutation of queue, granted and answered, kept by every step of the two trigger loops.

### Proxy (C116-C117)

* Code: state_proxies.py (both classes); states.py 1173-1239, 1298-1318, 1382-1402: with object identity, any number of states, proxies and references of the user.
* Left out or simplified: attributes of a dataclass object that are not fields; recording functions (in State); changing a dictionary while iterating over it; MultiStoreState values (in Make).
* Proof: Invariant: proxies wrap their state's object, the object of a dictionary state is shared only if the user holds it. A run is projected to the operations through one state's proxies and simulated by an ordered-dictionary specification and by StateModel.kvrun.

### Sub (C118-C119)

* Code: motion/geodetic_model.py 19-95 (_to_tuple, subdivide_intersection) on top of geography/intersections.py (Cross).
* Left out or simplified: conversion of degrees and units (to_tuple, of_tuple are parameters; Geo, Conv); that the earth model samples evenly is a hypothesis (C79, C104).
* Proof: Invariant of refinement: neighbours on different sides, at least lo and less than h apart, with lo enough for the next level; sampling found after the first halving that fits; at most two changes of an interval's flags.

### Mock (C120-C121)

* Code: task.py 35-40, 103-170 (markers, interrupt action), 350-424 (_clone_actor, rehearse), 574-605 (DecisionTask.rehearse); base.py 169-195, 455-480 (mock environments, SettableEnv); actor.py 481-483.
* Left out or simplified: the events themselves (Reh, C30: a yielded event is a wait), knowledge event results, the stage; of an actor one value; code that catches the exceptions of nested rehearsals.
* Proof: Induction over code with nested rehearsals, with a frame for actors and clocks below the ones made; flat code computed exactly by a simulation of its clock and value.

### Vin (C122)

* Code: geography/wgs84.py 71-154 as modelled in WgsModel.
* Left out or simplified: as for Wgs: real numbers for floats; poles (tan 90 degrees).
* Proof: Derivative of Vincenty's longitude correction as a function of the longitude on the sphere, bounded by 0.003375 sigma / sin sigma; mean value theorem; an invariant interval for the iterates.

### Earth (C123)

* Code: geography/wgs84.py 71-154 (WgsModel) and geography/spherical.py (GeoModel), no new definitions.
* Left out or simplified: as for Wgs and Geo.
* Proof: Bounds on reduced latitudes, on the angle on the auxiliary sphere as a function of its longitude, and on Vincenty's series.

### Ask (C124)

* Code: the stores as in StoreModel, no new definitions.
* Left out or simplified: as for Store.
* Proof: Per request number, asked = open + answered; every queue entry and event comes from the operation of its number.

### Watch (C125, C126)

* Code: SteppedMotionManager.add_sensor, add_detectable, _start_mover (without starting the loop), _stop_mover, _run_detectable, _test_detect, _detect_dist (stepped_motion.py:109-171, 216-276, 300-320); Actor._get_detection_state, _match_attr, _get_matching_state (actor.py:1090-1150).
* Left out or simplified: attr_matches of _get_matching_state; the debug log; sensor_req, which no caller gives; awareness and the loop (in Step). Classes of states are four, subclasses counting as their base. Objects keep their attributes (no del).
* Proof: An invariant that relates the two dicts to folds over the history, then the check as a flat map over sensors.

### Log (C127, C128)

* Code: Actor.log, get_log, _log_caller, the knowledge and task queue methods with their log calls (actor.py:567-713, 727-814, 1042-1070, 1152-1202), the Task methods that pass them on (task.py:193-348), get_caller_info with the call stack as a list of frames (utils.py:109-134).
* Left out or simplified: The text of messages (kept in parts); str() of values, which could raise; the copy of the log in clone(); get_caller_info's except for an empty qualified name.
* Proof: Each method is shown to be the plain one of KnowledgeModel/NetModel plus a list of lines; bulk loops by induction with the index of the first refused name.

### Alt (C129, C130)

* Code: CartesianLocationChangingState._setup, _get_index, _active for concrete locations with their units (states.py:542-684), cartesian_linear_intersection for the same (cartesian_model.py:86-150); ray_intersection is LinModel's, locations are LocModel's.
* Left out or simplified: Rounding; the recording of values and the motion manager's call in _setup (Path, Mot); a speed below zero.
* Proof: Setup gives one leg for each waypoint with the places' distances; induction over the legs with the time summed; steady motion is Lipschitz, which bounds the slack; detection is compared with LinModel's where coordinates and places agree.

### Pred (C131, C132)

* Code: Task.run (task.py:466-548), Task.rehearse (368-424), _clone_actor, for tasks that yield Waits and Any and All of Waits (events.py:82-147, 171-243, 407-505), with the states of ActiveModel and the knowledge of KnowledgeModel; Actor.clone as far as these go; several tasks one after the other.
* Left out or simplified: Interrupts, routines (C29), events other than Wait, nested Any and All (C30), DecisionTasks, random times; other users of the actor; the processing of knowledge events, on which the answer to a second succeed depends (runs with one are excluded); feasibility of the list (C111). Of several equal times the first is the clock's.
* Proof: The two worlds are related wait by wait (not yet yielded; of the last yield; others); a yield is one lemma about least and greatest of shifted times; induction over the code. Lateness: all events are due no later than now plus their time.

### Kev (C133, C134)

* Code: create_knowledge_event, succeed_knowledge_event (actor.py:1152-1202), get, set and clear_knowledge (562-662), the copying of knowledge in Actor.clone (1026-1031), Event (events.py:778-872) with copy().
* Left out or simplified: The code in between (any operations in any order), other kinds of knowledge (opaque), bulk operations (Knowledge), Any and All of Events, defused failures, time.
* Proof: An invariant (actors of the simulation hold Events of the simulation, these have their own simpy events, events of rehearsals have no waiters) and a relation that ignores everything that belongs to clones; induction over histories.

### Hop (C135, C136)

* Code: RoutingTableCommsManager._do_transmit (communications/routing.py:92-125) with the table of Route (select_hop, _shortest_path), run and _attempt (communications/comms.py), with simpy's queue: the order of events of one instant, urgent events first.
* Left out or simplified: The contents of messages (Mail), stores with a capacity (Store), the debug log (Comms), the code that decides what is blocked and what is put (any operations in any order), objects put twice.
* Proof: Layers of invariants over runs, each preserved by every kind of step: places (a permutation), times of the queue, start of run(), arrival times of the messages of a pair, ties between them, order; and the way of each message.

### Order (C39, C40 (theorems named _queue))

* Code: No new code: relates Hop (simpy's queue) to Comms (no order within an instant).
* Left out or simplified: Tables that change during the run (the network of Comms is fixed); stores by mode (every actor has one store).
* Proof: Forward simulation: each step with the queue is followed by a few moves of the model without an order; where a message is in the queue or on stage determines the phase of its process.

### Fail (C137, C138)

* Code: Exceptions in Task.run (task.py:468-554), Routine._run and _run_cancel (routines.py:45-66): raised by bodies and routines, or thrown in by simpy because an awaited event failed; a wrapper of Task. In Loop: the end of the network.
* Left out or simplified: Exceptions raised by the code of a routine's cancel() and by on_interrupt (both leave the process in the same way); what simpy does with a failed process nobody waits for (env.run() raises).
* Proof: A step that raises is characterised exactly; a failed process stays as it is; induction over inputs.

### Rad (C139, C140)

* Code: The form (degrees, radians) of locations: GeodeticLocation.to_degrees and __sub__ (data_types.py:379-391, 469-490) beside what GeodeticLocationChangingState reads of them (states.py:751-757, 860-884), waypoint_time_and_dist (utils.py:154-175) and the cells of the location table (data_utils.py:169-171); the state itself is Path's.
* Left out or simplified: The stage models themselves (Geo, Arc, Wgs, Vin); the motion manager, which converts to degrees (Sub, Alt).
* Proof: Simulation of a state by the one with the same numbers in degrees; Path's invariants.

### Trip (C141, C142)

* Code: Interrupting and resuming motion: Actor.get_remaining_waypoints (actor.py:1204-1221), activation and deactivation, on the states of Path; there is no model file of its own, TripSpec describes how the calls are used.
* Left out or simplified: How a task comes to be interrupted (Loop, Drive); the knowledge in which the waypoints are kept (Knowledge); rounding.
* Proof: Induction over the interruptions; the arc length of the original path is the invariant.

### Rep (C143, C144)

* Code: Several actors with ordinary, dictionary and dataclass states under one clock, on StateModel, and create_table of what they store (actor._state_histories, actor.__dict__), on TabModel.
* Left out or simplified: Resources, locations, active states, recording functions (Tab and State have them); keys of one state that are equal as strings.
* Proof: A run restricted to one state is a run of StateModel; the table's blocks are those of TabModel.

### Rnd (C145, C146, C147, C148)

* Code: Rounding: the continuous container, linear states, and location changing states with every arithmetic result rounded (a parameter; Python's floats as one instance).
* Left out or simplified: Overflow, underflow, infinities and NaN; the rounding inside distance and interpolation functions; the other areas, which compute exactly.
* Proof: Rounding to 53 binary digits is proved to keep order, to be exact on floats, nearest, and of relative error 2^-53; bounds follow for any such rounding, by induction over reads and legs. Refutations are computed. Multiples of powers of two are exact, by induction over the reads.

### Rsv (C149, C150)

* Code: ReserveContainer (resources/reserve.py) with every arithmetic result rounded.
* Left out or simplified: As Reserve and Rnd: overflow and underflow.
* Proof: Induction over the calls: one rounding error per call; what requesters hold is not rounded at all. On multiples of a power of two that 53 digits hold, an invariant says that every number is such a multiple, so that the run is literally the exact one.

### Clk (C151, C152)

* Code: pretty_now (base.py:340-361) for standard time units with every arithmetic result rounded.
* Left out or simplified: Other time units (Units has them, exactly); text layout.
* Proof: The quotient by 24 never rounds up to the next day, the remainder is exact, and the seconds stay below 86400: by the spacing of floats. The rest is an error bound.

### Rpd (C153, C154)

* Code: Task.run (task.py:466-548), Task.rehearse (task.py:368-424), and Wait, Any and All (events.py:82-147, 149-258, 353-533) as in Pred, with every sum of times rounded; states are an arbitrary function that leaves the clock alone.
* Left out or simplified: As Pred; the arithmetic inside states is a parameter.
* Proof: The relation of Pred between the two worlds, and that the clock is always a result of rounding; the least and greatest commute with a monotone rounding that writes equal results alike.

### Rwy (C147)

* Code: No model of its own: the location changing states of Rnd.
* Left out or simplified: As Rnd.
* Proof: On multiples of 2^-a, with a tolerance of at most half of that, every sum and comparison of Rnd is exact; induction over the legs.

## Per property

| id | title | status |
|----|-------|--------|
| C01 | ReserveContainer conserves material | proved |
| C02 | ReserveContainer never promises what it does not have | proved |
| C03 | ReserveContainer respects its capacity | partial |
| C04 | Reservation expiry releases exactly the reservation it was started for | partial |
| C05 | ContinuousContainer level stays within its bounds | partial |
| C06 | ContinuousContainer level is the exact time integral of its flows | proved |
| C07 | ContinuousContainer warns exactly when a limit is hit | partial |
| C08 | SortedFilterStore returns the best matching item | partial |
| C09 | SortedFilterStore get never waits while a match is present | partial |
| C10 | Monitoring stores record the exact quantity history | proved |
| C11 | Monitoring containers record the exact level history | proved |
| C12 | State histories are faithful | proved |
| C13 | Frozen states never change once set | partial |
| C14 | Linear changing states are exact and observation independent | partial |
| C15 | Shared linear states integrate the sum of the active tasks' rates | proved |
| C16 | A state is active for at most one task, and only that task can deactivate it | proved |
| C17 | Mimic states follow their source and can be released by their task | partial |
| C18 | Cartesian motion follows the waypoints at the given speed | partial |
| C19 | Dictionary states only ever hold values of the declared type | partial |
| C20 | Key/value states record every key's history faithfully | partial |
| C21 | Actor knowledge behaves as a write-once map | proved |
| C22 | Bulk knowledge operations are all-or-nothing | partial |
| C23 | Queued tasks run in queue order, defaults only when the queue is empty | proved |
| C24 | Network factories produce the advertised task order | partial |
| C25 | Rehearsal does not disturb the real actor | partial |
| C26 | An ended task leaves nothing behind | partial |
| C27 | An ignored interrupt has no effect | proved |
| C28 | A restarted task starts over cleanly | proved |
| C29 | Routine results are delivered to the task that yielded them | partial |
| C30 | Rehearsal of Any and All takes the minimum and the maximum | partial |
| C31 | Rehearsed task time is the sum of its event times | partial |
| C32 | ResourceHold acquires once and releases once | proved |
| C33 | Reusable events wake waiters once per success | partial |
| C34 | A cancelled Get never loses an item | partial |
| C35 | WindowedGet returns everything it took, in order | partial |
| C36 | A message is retried while the link is down and delivered exactly once when it is up | proved |
| C37 | Blocking is directional and node wide | proved |
| C38 | Routing uses a shortest path | partial |
| C39 | An unblocked routed message reaches its destination in shortest-path many hops | proved |
| C40 | Routing around failures terminates | partial |
| C41 | Stepped sensors see each target's entries and exits alternately | partial |
| C42 | Predicted sensor notifications alternate and match the motion | partial |
| C43 | Detection times are the exact crossing times of the sensor range | partial |
| C44 | Crossing conditions along a sampled path are complete and alternate | proved |
| C45 | Data tables contain every recorded state change exactly once | partial |
| C46 | Unit conversion is consistent | partial |
| C47 | Stage variables are write-once and contexts nest | partial |
| C48 | Entities are found in exactly the groups they belong to | partial |
| C49 | A nucleus interrupts exactly the networks that watch a changed state | partial |
| C50 | Stores deliver items first in first out | proved |
| C51 | Suggested task network names are fresh | proved |
| C52 | Path time and distance add up | proved |
| C53 | Interrupting a task cancels every event it waits on | partial |
| C54 | Containers conserve amounts and serve requests in order | partial |
| C55 | ContinuousContainer fails only with its documented errors | partial |
| C56 | Every store or container request has exactly one fate | proved |
| C57 | Assigning a field of a DataclassState takes effect or raises | partial |
| C58 | Knowledge events are triggered once and free their name | proved |
| C59 | A failing activation leaves the state unlocked | partial |
| C60 | Geodetic motion goes the right distance along the leg's bearing | partial |
| C61 | A running network follows its links | partial |
| C62 | Interrupting one task does not disturb others waiting for the same event | partial |
| C63 | Messages go to the right store | proved |
| C64 | Printed simulation times are clock times | partial |
| C65 | Waits given in a unit last that long | partial |
| C66 | Recorded data comes back in order with its times | proved |
| C67 | interrupt_network reaches exactly the running task | partial |
| C68 | create_location_table lists every recorded location | partial |
| C69 | get_intersection_locations finds and refines every crossing | partial |
| C70 | The stepped motion manager checks every timestep until the simulation is idle | partial |
| C71 | The states of an actor class are those declared in it and its bases | proved |
| C72 | Making an actor sets every state, or makes nothing | proved |
| C73 | Every actor has stores of its own | proved |
| C74 | A clone has copies of the actor's states | proved |
| C75 | What is made depends on what is given only | partial |
| C76 | Any actor can be cloned and the clone is independent | partial |
| C77 | Great-circle distance is a metric | proved |
| C78 | Bearing, distance and travel agree | proved |
| C79 | Points along great-circle paths | proved |
| C80 | Distance to a great circle | proved |
| C81 | Conversion between latitude, longitude, altitude and space | proved |
| C82 | Great-circle helpers work for all pairs of places | partial |
| C83 | Great-circle crossings are exactly the boundary of the part in range | proved |
| C84 | analytical_intersection finds when a mover on the ground is in range | proved |
| C85 | analytical_intersection works for every leg | partial |
| C86 | Locations are frozen | proved |
| C87 | Cartesian locations form a metric space in the stage's units | proved |
| C88 | Geodetic locations do not depend on degrees or radians | proved |
| C89 | Location data makes the location it describes | proved |
| C90 | Locations behave as values | partial |
| C91 | Interrupted tasks do what their marker says | proved |
| C92 | A restarted task starts without a marker | partial |
| C93 | Terminal tasks are final | proved |
| C94 | Decision tasks decide once and take no time | proved |
| C95 | get_running_task describes the running task | partial |
| C96 | A started network gives control back | partial |
| C97 | Every waiting task answers interrupts | partial |
| C98 | WGS84 conversions are exact and inverse | proved |
| C99 | WGS84 travel arrives at the right latitude | proved |
| C100 | WGS84 travel arrives at the right longitude | partial |
| C101 | WGS84 distance and bearing | proved |
| C102 | Any two places have a WGS84 distance | partial |
| C103 | WGS84 bearing and distance lead to the place | proved |
| C104 | WGS84 paths and circles | proved |
| C105 | WGS84.ecef_linspace gives positions | partial |
| C106 | Listeners get what was sent, in order and once | proved |
| C107 | make_put sends from source to destination | partial |
| C108 | Messages over a link that is never down arrive in order and on time | proved |
| C109 | Messages between two actors arrive in the order in which they were put | partial |
| C110 | The fields of a message mean what they say | partial |
| C111 | rehearse_network rehearses the listed tasks in order, or raises | proved |
| C112 | rehearse_network goes on along the queue and the defaults until the end task | proved |
| C113 | Rehearsing a network to an end task is safe to ask for | partial |
| C114 | Statements on a clone do what they say to the clone | proved |
| C115 | Every request made of a container gets exactly one answer, about what it asked | proved |
| C116 | A dictionary state behaves as a dictionary of its own | proved |
| C117 | Proxies compare by contents and every state has its own object | partial |
| C118 | How well subdivide_intersection sees a pass | proved |
| C119 | subdivide_intersection sees every pass | partial |
| C120 | A rehearsal that returns leaves the task and the world as they were | proved |
| C121 | Rehearsing has no effect on the task that is rehearsed | partial |
| C122 | WGS84 has a distance and a bearing for all places that are not nearly opposite | proved |
| C123 | The two earth models agree within two percent | proved |
| C124 | Every request made of a store gets exactly one answer, about what it asked | proved |
| C125 | The stepped motion manager looks at the attributes registered, as they are now | proved |
| C126 | A target of the stepped manager is watched where it moves, at the rate asked for, until the user withdraws it | partial |
| C127 | Debug logging changes nothing but the log, and the log tells every call in order | proved |
| C128 | The debug log tells what was done and who did it | partial |
| C129 | Motion between cartesian locations is right whatever the units of their heights | proved |
| C130 | Detection of cartesian movers is right whatever the units of their heights | partial |
| C131 | A rehearsal foretells the run of a task that is left alone | proved |
| C132 | A rehearsal foretells the run | partial |
| C133 | Rehearsals that trigger no event of the simulation are not seen in it | proved |
| C134 | Rehearsing does not trigger events of the simulation | partial |
| C135 | Many routed messages at once: each ends once, and clear ways keep order and time | proved |
| C136 | Routed messages between two actors arrive in the order in which they were put | partial |
| C137 | A failure ends a task where it is, and does nothing else | proved |
| C138 | A task that fails is cleaned up, and failures of what it awaits can be handled | partial |
| C139 | A geodetic state moves by the numbers of its locations | proved |
| C140 | A geodetic state moves alike in degrees and in radians | partial |
| C141 | A journey resumed with the remaining waypoints goes on along the path | proved |
| C142 | A journey may be interrupted and resumed at any time | partial |
| C143 | The data table tells what was written during the run | proved |
| C144 | A data table can always be made and shows the states as they are | partial |
| C145 | Linear states and container levels are right up to rounding | proved |
| C146 | Rounding does not change what happens in a continuous container | partial |
| C147 | Moving actors can be read until they arrive while the clock is small | proved |
| C148 | Moving actors can be read on arrival at any time | partial |
| C149 | Reservations are right up to rounding | proved |
| C150 | Rounding does not change what a ReserveContainer does | partial |
| C151 | Printed simulation times are right up to rounding | proved |
| C152 | Printed simulation times at whole seconds and minutes are right | partial |
| C153 | A rehearsal foretells the run of a task to the last digit | proved |
| C154 | A rehearsal foretells which events of an Any are complete | partial |

What is missing for a partial one is said in MANIFEST.json and beside its theorems.

## Findings

What the models say about the code, each by a machine checked witness (`_refuted`) or a
theorem of the property named.  They are about the code as modelled; none was run.

* C02/C03: a ReserveContainer accepts negative quantities and its content can exceed the
  capacity (reserved amounts are not counted by put).  C04: a reservation's timer also
  cancels a later reservation of the same requester.
* C05: ContinuousContainer does not check init <= capacity.  C07: time_until_level uses a
  stale level.  C55: cancelling at a limit raises an undocumented error.
* C08: with items comparing equal SortedFilterStore may remove the wrong one.  C09: a
  falsy item is never found.  C34: cancelling a granted but unprocessed Get loses the
  item.  C54: a cancelled head keeps others waiting although they could be served.
* C13: a frozen state set to None can be set again.  C19: a wrongly typed value is stored
  before the check raises.  C20: record_duplicates has no effect for dictionary and
  dataclass states.  C57: unknown names and inherited fields of a DataclassState.
* C14: assigning an active linear or shared state without reading it first adds the
  accrued change again.  C59: a failed activation leaves the state locked.
* C17: deactivate_all_mimic_states stops other tasks' mimics and raises KeyError; a frozen
  mimic raises on every read.
* C18: a motion read after its path time raises for ever; a zero-length first leg divides
  by zero.  C60: the absolute tolerance overshoots short legs.
* C22: bulk knowledge operations stop half-way.
* C24: a repeated class in the ordered factories skips tasks; a class named
  `<net>_TERMINATING` is replaced.  C61: links are not enforced for queued tasks.
* C25: nested objects and queue lists are shared with the clone; a raising rehearsal
  leaves the network at the rehearsed task.
* C26/C53: interrupting a task that awaits All with an Event that has happened, a
  triggered Any not yet delivered, a nested finished Any, or while another task has a
  mimic, raises, leaving requests pending and routines uncancelled; a second interrupt
  during the cancellation of routines kills the task; an Any one of whose parts was
  over when it was yielded is triggered at once and raises the same way.
* C29: a None result of a routine is replaced by the last event's value; a routine after
  a value raises TypeError; routine bodies never receive values; nested routines raise
  SimulationError.
* C30/C31: sub-events at depth two or more never report complete after rehearsal; Events
  ignore rehearsal; routines see the simulation clock; negative rehearsal times move the
  clock back.
* C32: a hold whose waiting request was cancelled is stuck.  C33: a second succeed before
  delivery overwrites the payload and raises; reset strands waiters; cancel wakes waiters
  with a stale payload.  C62: cancelling an Event succeeds it.
* C35: WindowedGet loses an item put in the closing instant, or granted in the instant of
  an interrupt.
* C38: an ignored destination is still chosen when it is a neighbour.  C40: a blocked
  neighbour destination is retried for ever (without time passing if there are no
  retries); back and forth for ever without global_ignore; global_ignore drops messages
  although only a link failed.
* C41: a mover that stops in view stays in view for ever; making a stopped or
  unregistered actor detectable raises KeyError with the value stored.  C70: a loop that
  ended never restarts.
* C42: a mover stopped in range and restarted elsewhere enters twice; a motion stopped in
  its first instant still tells the entry; a sensor added twice is told everything twice
  and then the process fails; a sensor added in the instant of an exit makes the process
  fail; a mover hidden and shown again cannot be stopped.
* C43: a missed leg counts as -1 time, so later crossings are predicted too early;
  waypoints at the radius raise; repeated waypoints divide by zero.
* C45: a resource held by two states is listed twice; unset states and dictionary keys
  without history raise; histories of removed keys and recording functions are missing.
  C68: without actors UnboundLocalError; the columns are those of the last actor.
* C46: day to day, week to week and shorter units to days or weeks cannot be converted.
  C64: short unit names in capitals are not recognised by pretty_now.  C65: the unit of a
  Wait is ignored without a stage time unit; hours are refused with days as stage unit.
* C47: item assignment and del bypass write-once; variables named like dict methods cannot
  be read; a re-entered context object cannot be left.  C48: equal entities clash, groups
  named Task, Actor, Location... are skipped, entities made outside of contexts leak.
* C49/C67: a watching network between tasks (or the assigning task's own) makes the
  assignment raise with the value stored and other watchers skipped; reading, activating
  and cloning interrupt watchers without change; a deleted network poisons the state.
* C69: crossings on short paths raise IntersectionError.
* C75: modes are popped from the caller's dictionary; default factories run in the order of
  a set; a state called initial_knowledge never gets its value; a class attribute shadows
  an inherited state and its type check.
* C76: no clone of an actor with a no_init state, a state without value, a store given as
  an object or a class with a read-only property, nor of a clone with a store; modes of an
  actor are lost, class methods are not callable on clones, named stores are shared.
* C82: ecef_linspace raises for all input; point_along and geo_linspace divide by zero for
  equal or opposite places, geo_linspace for others too, (0,45) to (0,135);
  cross_track_point is wrong for places behind the origin.
* C85: at altitude analytical_intersection's crossing times and path time are measured at
  different radii (an exit can come after the end of the leg); crossing altitudes of climbs
  are divided by the length of the leg twice; it raises for a sensor at the start of the
  leg and for legs above the range; the path time of a missed sensor is -1; legs of almost
  half the circle miss sensors.
* C90: == of cartesian locations is not transitive and does not go with their hashes, nor do
  the hashes of geodetic locations in degrees and radians; == raises for other types;
  cartesian locations cannot be unpacked (ValueError for IndexError); location data of
  different altitude flags is equal, and the flag's default differs from the location's.
* C92: RESTART keeps the old marker and its interrupt action.  C95: get_running_task gives an
  ended process during DO_NOT_HOLD decisions and after a failure.  C96: a cycle of DO_NOT_HOLD
  decisions hangs the simulation.  C97: interrupting a decision task in its timeout(0) kills it.
* C100: WGS84.point_from_bearing_dist has C * sin_alpha for Vincenty's C * sin_sigma: no
  distance moves by up to some metres.  C102: WGS84.distance raises for nearly opposite
  places.  C105: WGS84.ecef_linspace raises for all input.
* C107: make_put ignores source and destination when it is given a Message.  C109: a message
  that has to be tried again is overtaken by later ones on the same link.  C110: time_sent is
  set on arrival and again by every re-send, time_received never; equal messages hash
  differently; text put into a store arrives as {"message": text}, text sent through the
  manager as message=text.
* C113: rehearse_network with an end_task that never comes up does not return; with an empty
  list it raises UnboundLocalError; queued tasks are rehearsed though the links forbid them.
* C117: dictionary states never compare equal to each other, not even to themselves; a dataclass
  object given to two actors is shared, and a change is recorded in one history only.
* C119: subdivide_intersection misses passes shorter than 9.26 km that lie between samples, raises
  IntersectionError for short legs anywhere, and gives a leg without crossings a path time of 0.0,
  which makes predictions for later legs too early.
* C121: Task.rehearse restores the environment and the rehearsing flag only when it returns. After an
  exception the task keeps the rehearsal's clock, its next rehearsal begins there, and
  activate_mimic_state raises in the real run. Markers set by rehearsed code stay.
  DecisionTask.rehearse does not check cloned_actor=True and then changes the real actor.
* C126: new_rate of add_detectable is never used; an actor with two location states is looked at
  where the first is, whichever moves; a target registered by the user is forgotten when a
  motion state of it ends.
* C130: `cartesian_linear_intersection` converts altitude units for the distances to the ends
  but not for the crossing: a mover that passes below a sensor whose height is in altitude
  units is missed, or reported although it is far away.
* C132: a rehearsal does not foretell the run when states are active (they stand still in the
  clone, and can be activated there although locked), when a Wait that lost in an Any is used
  again (it counts twice) or asked later (never complete), or when a knowledge event's name is
  taken (raises in the run only).
* C134: clone() copies knowledge with copy(), and a copied Event shares the simpy event:
  rehearsing a task that calls succeed_knowledge_event wakes the process that really waits
  (with no payload), and the later real succeed raises.
* C136: routed messages from one actor to another overtake each other when a link is blocked
  for a while (a message that retries, or that goes round, is passed by a later one) or when a
  shorter connection is made meanwhile; nothing in the manager keeps the order.
* C138: when an event that a task waits for fails (a simpy process that raises, a MultiEvent
  cancelled by somebody else), or its body or a routine raises, Task.run does not clean up:
  active and mimic states stay with the dead task, pending requests stay in their queues,
  routines are not cancelled. A try/except around the yield in the body does not help, as simpy
  throws into Task.run's generator and not into the body's.
* C138: a process that is interrupted and does not handle it fails with Interrupt; a task
  waiting for it takes that for its own interrupt. END and RESTART then raise RuntimeError (the
  process has terminated), and IGNORE yields the failed event again, so that the exception
  returns at once and the simulation hangs.
* C140: GeodeticLocationChangingState passes lat and lon to the stage model as they are
  (states.py:753-754, 869), although the location may be in radians (in_radians=True), in which
  case the stage model, subtraction, waypoint_time_and_dist and the motion manager all convert.
  An actor sent to a waypoint one radian away stops after one degree; a task that waits for the
  time of waypoint_time_and_dist then finds its state unreadable (SimulationError, travel time
  exceeded). The new locations are in degrees, so that the location table (data_utils.py:170)
  mixes both forms without saying so.
* C142: _get_index takes a leg whose end has been reached, or passed within the tolerance, to
  be the current one (states.py:599-609, 793-803), so that get_remaining_waypoints includes a
  waypoint at which the actor already is. A journey resumed with it begins with a leg of length
  zero (ZeroDivisionError when read within the tolerance), turns back, or, at the last
  waypoint, can no longer be read or deactivated once time has passed.
* C144: because the dictionary proxy stores a value before it checks its type
  (state_proxies.py:29-33), a run that catches the TypeError for a new key ends in an
  AssertionError of create_table (data_utils.py:112-114), and for a known key in a table that
  disagrees with the dictionary. Last Seen rows carry time 0 whenever the value was set
  (data_utils.py:126-133).
* C146: the check of a continuous container compares the rounded level with zero and the
  capacity exactly and is not repeated when the level has not quite got there
  (container.py:300-357). Depending on the last digit the container runs on below zero
  unnoticed and its user ends in a RuntimeError, or a ContainerError is raised although errors
  were switched off; this happens with level 1, rate 3 at times 1 and 2. Rates are added and
  subtracted in floats, so that a rate such as 2^-55 stays behind when all users are gone
  (container.py:364-370).
* C148: the index of the leg is found with an absolute tolerance of 1e-12 (states.py:599-609),
  less than the spacing of floats from 8192 on; past 16384 a good part of all moves raise
  SimulationError when read on arrival.
* C150: ReserveContainer keeps what is available as a running sum of floats (reserve.py:93,
  109, 124), so that cancelling a reservation does not restore it: 0.9 less 0.3 plus 0.3 is
  more than 0.9, and put refuses with 'Adding too much' what was just taken from a full
  container.
* C152: pretty_now converts the clock to hours, takes the day off and converts the rest to
  seconds, dropping the fraction (base.py:354-358); in floats the result is often just below a
  whole second, so that at 31 minutes it shows 00:30:59. Log messages carry these times.
* C154: MultiEvent.rehearse calls an event complete if its time of waiting is at most the least
  (events.py:497-500); in the run what counts is the time on the clock, where two times of
  waiting that differ in the last digit can be the same. A task that asks which event of an Any
  has ended may go another way in the run than in the rehearsal.
