{
 "claims": [
  {
   "property": "C01",
   "status": "proved",
   "theorems": [
    "C01_reserve_conservation",
    "C01_rejected_calls_change_nothing"
   ],
   "note": ""
  },
  {
   "property": "C02",
   "status": "proved",
   "theorems": [
    "C02_available_nonneg",
    "C02_reserve_granted_iff",
    "C02_take_exact",
    "C02_negative_reserve_refuted"
   ],
   "note": "negative quantities are shown to break the bound (C02_negative_reserve_refuted), as the property text says"
  },
  {
   "property": "C03",
   "status": "partial",
   "theorems": [
    "C03_capacity_refuted",
    "C03_capacity_partial",
    "C03_put_exactly"
   ],
   "note": "false as stated (C03_capacity_refuted); proved bound: capacity plus what was reserved at the last put"
  },
  {
   "property": "C04",
   "status": "partial",
   "theorems": [
    "C04_stale_timer_refuted",
    "C04_expiry_exact_partial",
    "C04_expiry_scheduled",
    "C04_never_overdue",
    "C04_timer_releases"
   ],
   "note": "false as stated (C04_stale_timer_refuted); proved when a requester does not re-reserve while a timer is pending"
  },
  {
   "property": "C05",
   "status": "partial",
   "theorems": [
    "C05_level_within_bounds",
    "C05_initial_over_capacity_refuted"
   ],
   "note": "proved for init <= capacity, which the constructor does not check (C05_initial_over_capacity_refuted)"
  },
  {
   "property": "C06",
   "status": "proved",
   "theorems": [
    "C06_level_is_integral",
    "C06_observation_free",
    "C06_observation_on_the_way"
   ],
   "note": ""
  },
  {
   "property": "C07",
   "status": "partial",
   "theorems": [
    "C07_prediction_exact",
    "C07_check_due_at_prediction",
    "C07_told_only_at_limit",
    "C07_told_at_limit",
    "C07_time_until_level_refuted",
    "C07_time_until_level_partial"
   ],
   "note": "time_until_done and the limit notifications proved exact; time_until_level is stale (C07_time_until_level_refuted), exact right after an evaluation"
  },
  {
   "property": "C08",
   "status": "partial",
   "theorems": [
    "C08_get_serves_best_partial",
    "C08_put_serves_best_partial",
    "C08_selection",
    "C08_handed_over",
    "C08_equal_items_refuted"
   ],
   "note": "proved for items that == tells apart; C08_equal_items_refuted shows that with items comparing equal the wrong one is removed"
  },
  {
   "property": "C09",
   "status": "partial",
   "theorems": [
    "C09_falsy_item_refuted",
    "C09_falsy_best_hides_refuted",
    "C09_no_idle_match_partial"
   ],
   "note": "false for falsy items (C09_falsy_item_refuted); proved when items are truthy, and unconditionally for FilterStore"
  },
  {
   "property": "C10",
   "status": "proved",
   "theorems": [
    "C10_recorded_history"
   ],
   "note": "all three store kinds; the reserve container's record is C11"
  },
  {
   "property": "C11",
   "status": "proved",
   "theorems": [
    "C11_container_history",
    "C11_reserve_history",
    "C11_continuous_history"
   ],
   "note": "plain, continuous and reserve containers"
  },
  {
   "property": "C12",
   "status": "proved",
   "theorems": [
    "C12_history_faithful",
    "C12_recording_functions",
    "C12_notifications",
    "C12_typed",
    "C12_accepted"
   ],
   "note": "also recording functions, callbacks, nucleus notifications and type safety"
  },
  {
   "property": "C13",
   "status": "partial",
   "theorems": [
    "C13_frozen_partial",
    "C13_frozen_none_refuted"
   ],
   "note": "false for None (C13_frozen_none_refuted); proved for every other value"
  },
  {
   "property": "C14",
   "status": "partial",
   "theorems": [
    "C14_linear_exact_partial",
    "C14_refines_ideal",
    "C14_reads_do_not_matter",
    "C14_growth",
    "C14_assign_while_active_refuted"
   ],
   "note": "false when an active state is assigned without being read first (C14_assign_while_active_refuted); proved for every other history, including assignment right after a read"
  },
  {
   "property": "C15",
   "status": "proved",
   "theorems": [
    "C15_shared_exact",
    "C15_no_double_activation",
    "C15_others_stay"
   ],
   "note": "assignments while active need a read first, as for C14"
  },
  {
   "property": "C16",
   "status": "proved",
   "theorems": [
    "C16_one_holder",
    "C16_second_activation_refused",
    "C16_stranger_cannot_deactivate",
    "C16_activation_acquires",
    "C16_deactivate_all"
   ],
   "note": "locks: every sequence of operations, failing ones included; deactivate_all for activations that give a rate"
  },
  {
   "property": "C17",
   "status": "partial",
   "theorems": [
    "C17_reads_source",
    "C17_reads_return",
    "C17_source_untouched",
    "C17_history_follows",
    "C17_history_of_others",
    "C17_release_all_partial",
    "C17_other_task_refuted",
    "C17_release_one"
   ],
   "note": "reads and histories proved; releasing by task is false (C17_other_task_refuted), proved when the actor's mimics all belong to the task"
  },
  {
   "property": "C18",
   "status": "partial",
   "theorems": [
    "C18_position",
    "C18_start",
    "C18_reads_do_not_matter",
    "C18_arrival",
    "C18_deactivated_stays",
    "C18_remaining",
    "C18_overdue_stuck",
    "C18_overdue_refuted",
    "C18_zero_leg_refuted",
    "C18_assigned",
    "C18_speed_zero",
    "C18_no_waypoints"
   ],
   "note": "false after the path time (C18_overdue_refuted: reads and deactivation raise for ever) and for a zero first leg within the tolerance; proved otherwise, up to speed times tolerance past a corner"
  },
  {
   "property": "C19",
   "status": "partial",
   "theorems": [
    "C19_dict_typed_refuted",
    "C19_dict_typed_partial",
    "C19_refused_scope_partial"
   ],
   "note": "false (C19_dict_typed_refuted: written before the check); proved as long as no item assignment raised, and that a refused one touches only its key"
  },
  {
   "property": "C20",
   "status": "partial",
   "theorems": [
    "C20_key_history_faithful",
    "C20_key_current",
    "C20_duplicates_refuted"
   ],
   "note": "key histories and current values proved; record_duplicates has no effect (C20_duplicates_refuted)"
  },
  {
   "property": "C21",
   "status": "proved",
   "theorems": [
    "C21_knowledge_map",
    "C21_last_write",
    "C21_other_names"
   ],
   "note": ""
  },
  {
   "property": "C22",
   "status": "partial",
   "theorems": [
    "C22_bulk_atomic_refuted",
    "C22_bulk_partial"
   ],
   "note": "false (C22_bulk_atomic_refuted); proved: a bulk change that returns is complete, one that raises has changed exactly the names before the offending one"
  },
  {
   "property": "C23",
   "status": "proved",
   "theorems": [
    "C23_queue_first",
    "C23_default_when_empty",
    "C23_neither_raises",
    "C23_queue_order",
    "C23_only_these_errors"
   ],
   "note": "for runs in which nothing raised KeyError and the queue was not cleared"
  },
  {
   "property": "C24",
   "status": "partial",
   "theorems": [
    "C24_single_looping",
    "C24_single_terminating",
    "C24_ordered_terminating",
    "C24_ordered_loop",
    "C24_allowed",
    "C24_terminal_never_ends",
    "C24_repeated_class_refuted",
    "C24_name_clash_refuted"
   ],
   "note": "false when a task class is repeated or named like the terminal task (refuted); proved for distinct names"
  },
  {
   "property": "C25",
   "status": "partial",
   "theorems": [
    "C25_task_partial",
    "C25_network_partial",
    "C25_contents_kept",
    "C25_flat",
    "C25_flat_task",
    "C25_queues_task_partial",
    "C25_queues_network_partial",
    "C25_position",
    "C25_nested_refuted",
    "C25_queue_refuted",
    "C25_raise_refuted"
   ],
   "note": "Whatever is rehearsed: the real actor's states, knowledge, queue lists and clock are the same, and no object changes unless it lies inside an object held (so everything, for actors holding flat objects). Queues unchanged without end task or with an empty real queue; position in the network restored when the rehearsal returns. Refuted: nested objects and queue lists are shared with the clone, a raising rehearsal leaves the network at the rehearsed task. Closures over the real actor, the clone's registration and clone counter are outside the statement."
  },
  {
   "property": "C26",
   "status": "partial",
   "theorems": [
    "C26_end_order",
    "C26_second_interrupt_kills",
    "C26_leaves_nothing_partial",
    "C26_end_partial",
    "C26_cleanup_raises_refuted",
    "C26_second_interrupt_refuted",
    "C26_wrong_answer",
    "C26_stops_at_failure"
   ],
   "note": "Order of cleanup, routine cancellations (innermost out) and end proved for all bodies, stacks and surroundings; the concrete cleanup (states, mimics, knowledge, events) proved to leave nothing when the actor's mimics are all the task's and nothing awaited has been triggered. Refuted otherwise: another task's mimic, an awaited Event that has happened inside All, or a triggered Any make the cleanup raise; a second interrupt during the cancellations kills the task."
  },
  {
   "property": "C27",
   "status": "proved",
   "theorems": [
    "C27_ignored_has_no_effect",
    "C27_same_event"
   ],
   "note": "For all bodies, routines and surroundings, and all placements of ignored interrupts while the task waits on an event of its own or of a routine's run."
  },
  {
   "property": "C28",
   "status": "proved",
   "theorems": [
    "C28_restart_is_new",
    "C28_fails_like_end"
   ],
   "note": "For all bodies, stacks of routines, interruption points, surroundings and continuations, so for any number of restarts: the run after a RESTART is the run of a new task in what END would have left; a cleanup that raises fails both alike (when it raises is C26)."
  },
  {
   "property": "C29",
   "status": "partial",
   "theorems": [
    "C29_event_value",
    "C29_routine_result_partial",
    "C29_none_result_is_stale",
    "C29_routine_after_value_raises",
    "C29_routine_bodies_get_none",
    "C29_nested_routine_raises",
    "C29_refuted"
   ],
   "note": "Events of the task body: proved. Routines of any length with a result other than None, after a resumption without a value: proved. Refuted: None results are replaced by the last event's value, a routine after a value raises TypeError, routine bodies never receive values, routines in routines raise."
  },
  {
   "property": "C30",
   "status": "partial",
   "theorems": [
    "C30_rehearse_partial",
    "C30_time_unique",
    "C30_repeatable",
    "C30_deep_never_complete",
    "C30_event_unchanged",
    "C30_depth_refuted",
    "C30_event_refuted",
    "C30_empty",
    "C30_hold",
    "C30_hold_complete",
    "C30_not_rehearsed"
   ],
   "note": "Times proved at every depth for Any/All over Waits, Puts, Gets and Events; completeness proved for direct sub-events. Refuted below them (they never report complete) and for Events."
  },
  {
   "property": "C31",
   "status": "partial",
   "theorems": [
    "C31_sum",
    "C31_in_order_partial",
    "C31_body_sees",
    "C31_never_back_partial",
    "C31_body_sees_rising",
    "C31_routine_clock_refuted",
    "C31_back_refuted"
   ],
   "note": "Sum and the clock seen by the body proved for all tasks; order of the events for tasks without plain Routines; never back when no rehearsal time is negative. Refuted: routines see the simulation clock; negative rehearsal times are accepted."
  },
  {
   "property": "C32",
   "status": "proved",
   "theorems": [
    "C32_alternates",
    "C32_first_yield",
    "C32_second_yield",
    "C32_third_yield",
    "C32_never_stranded",
    "C32_cancel_waiting",
    "C32_cancel_otherwise",
    "C32_cancelled_is_spent",
    "C32_capacity",
    "C32_no_lost_release",
    "C32_no_overtaking"
   ],
   "note": "For one resource, any capacity and any number of holds, all interleavings of yields, cancels and event processing; a cancelled waiting hold stays spent, yielding between grant and processing raises SimulationError (part of the statements)."
  },
  {
   "property": "C33",
   "status": "partial",
   "theorems": [
    "C33_once",
    "C33_everybody",
    "C33_everybody_payload_partial",
    "C33_payload_partial",
    "C33_anew",
    "C33_yield_again",
    "C33_reset_strands",
    "C33_overwritten_refuted",
    "C33_overwritten_reset_refuted",
    "C33_overwritten_by_waiter_refuted",
    "C33_cancel_stale_refuted",
    "C33_reset_refuted"
   ],
   "note": "Every waiter is woken exactly once, in the instant of succeed: proved. The payload delivered is that of the last succeed or reset before delivery, so a second succeed in the same instant, a reset or a cancel changes what the waiters get: refuted by witnesses."
  },
  {
   "property": "C34",
   "status": "partial",
   "theorems": [
    "C34_items_conserved",
    "C34_late_cancel_refuted",
    "C34_cancel_safe_partial"
   ],
   "note": "false (C34_late_cancel_refuted); conservation including the lost items is proved, and that only late cancellations lose items"
  },
  {
   "property": "C35",
   "status": "partial",
   "theorems": [
    "C35_result",
    "C35_returns_partial",
    "C35_waiting_partial",
    "C35_puts_back",
    "C35_putting_back",
    "C35_puts_back_partial",
    "C35_nothing_pending",
    "C35_window",
    "C35_open",
    "C35_returns_refuted",
    "C35_puts_back_refuted",
    "C35_interrupt_raises_refuted"
   ],
   "note": "What is returned/put back is exactly what the store delivered to the routine, in order, for all schedules; window times exact for both policies. Equal to what was taken when no granted request is given up before it is processed; refuted otherwise: an item put in the closing instant, or an interrupt in the instant of a grant, loses the item, and an interrupt between delivery and resumption raises."
  },
  {
   "property": "C36",
   "status": "proved",
   "theorems": [
    "C36_tries",
    "C36_attempts",
    "C36_delivered",
    "C36_dropped",
    "C36_no_store",
    "C36_not_before",
    "C36_iff",
    "C36_progress",
    "C36_deadline",
    "C36_bounded",
    "C36_order",
    "C36_running",
    "C36_taken",
    "C36_clock"
   ],
   "note": "For every run of the point to point manager (any number of messages, what is blocked changing at any time): the attempts of each message are one every retry_rate from its start, N = ceil(retry_max_time/retry_rate) retries after the first at most, all but the last blocked; delivered once, at the first unblocked attempt plus the transfer time; dropped iff all N+1 were blocked; nothing put before; messages taken in order; finished by start + N*rate + transfer time, in a bounded number of steps. Needs retry_rate > 0 and retry_max_time >= 0."
  },
  {
   "property": "C37",
   "status": "proved",
   "theorems": [
    "C37_blocked",
    "C37_direction",
    "C37_attempt_truth"
   ],
   "note": "Blocked iff degraded, or either node blocked, or the directed link blocked; blocking a link changes that ordered pair only; every attempt of both managers uses what is blocked at that moment."
  },
  {
   "property": "C38",
   "status": "partial",
   "theorems": [
    "C38_shortest_path",
    "C38_hop_partial",
    "C38_direct",
    "C38_hop_connected",
    "C38_total",
    "C38_network",
    "C38_no_store",
    "C38_ignored_destination_refuted"
   ],
   "note": "Breadth first search proved to find a shortest path or none, for every order of the neighbour sets, always terminating; the hop is the first of a shortest path over connections between nodes not ignored, provided source and destination are not ignored. Refuted otherwise: an ignored destination that is a neighbour is still chosen."
  },
  {
   "property": "C39",
   "status": "proved",
   "theorems": [
    "C39_walk",
    "C39_delivered",
    "C39_dropped",
    "C39_deadline",
    "C39_progress",
    "C39_queue"
   ],
   "note": "For every run of the routing manager: hops form a walk of connections from the sender; at most one put, at the destination. If no attempt of the message was blocked: the walk is a shortest one, delivered after hops times the transfer time; dropped iff no walk exists, then at once; never stuck. These runs leave the order of events of one instant open; C39_queue shows that every run with simpy's queue (C135) is one of them, with the same ends at the same times."
  },
  {
   "property": "C40",
   "status": "partial",
   "theorems": [
    "C40_terminates_partial",
    "C40_delivered_partial",
    "C40_around_nodes_partial",
    "C40_blocked_neighbour",
    "C40_detour_refuted",
    "C40_hang",
    "C40_pingpong_refuted",
    "C40_ignored_node_refuted",
    "C40_dead_end_refuted",
    "C40_queue"
   ],
   "note": "Proved with global_ignore: bounded number of moves and time as long as the destination itself is not given up as a hop (whatever else is blocked when); with two-way connections and only nodes blocked, a message with a way around them is delivered within a fixed time (C40_queue: also among any other messages, in simpy's order of events). Refuted by witnesses: a blocked link to a neighbour destination is retried forever although a detour is open (general theorem), without letting time pass if there are no retries; without global_ignore a message can go back and forth forever; global_ignore drops a message whose link but not node failed; a one-way dead end."
  },
  {
   "property": "C41",
   "status": "partial",
   "theorems": [
    "C41_history",
    "C41_alternates",
    "C41_told",
    "C41_in_range",
    "C41_detectable",
    "C41_particular",
    "C41_hidden",
    "C41_kept",
    "C41_stopped_refuted",
    "C41_unregistered_refuted"
   ],
   "note": "For all sequences of operations and any distance function or detection_checker: the places, radii, detectability and registrations spoken of are those last set in the history (C41_history); alternation beginning with entered (C41_alternates); what is told is true at that moment (C41_told); after every check of the loop, of run_particular, and of becoming detectable a registered pair is considered in range exactly when detectable and in range (C41_in_range, C41_particular, C41_detectable); what cannot be detected is never considered in range (C41_hidden). Refuted: a mover that stopped in view stays in view for ever however far the sensor moves (C41_stopped_refuted, C41_kept); making an actor detectable that stopped or was never registered raises KeyError with the value stored. Callbacks of sensors are assumed not to raise or to change the manager."
  },
  {
   "property": "C42",
   "status": "partial",
   "theorems": [
    "C42_alternates_partial",
    "C42_no_error",
    "C42_motion",
    "C42_added",
    "C42_stopped",
    "C42_hide",
    "C42_orderly_started",
    "C42_orderly_added",
    "C42_relocated_refuted",
    "C42_same_instant_refuted",
    "C42_added_twice_refuted",
    "C42_at_exit_refuted",
    "C42_shown_refuted",
    "C42_pairs"
   ],
   "note": "Proved for every run in which predictions are orderly given what is in view (no relocation while in view, no sensor added at the very exit), no motion is ended in the instant it began and no sensor is added twice: told alternates from entry; a motion's notifications are just the predicted ones at the predicted times until it ends; no process fails; a stopped mover is silent, a hidden one gives one exit per sensor holding it in view. Each excluded use is refuted by a witness."
  },
  {
   "property": "C43",
   "status": "partial",
   "theorems": [
    "C43_ray",
    "C43_leg",
    "C43_leg_error",
    "C43_path_partial",
    "C43_missed_leg_refuted",
    "C43_at_radius_refuted",
    "C43_repeated_refuted"
   ],
   "note": "Exact for every ray and ellipsoid, for every leg, and for every path without a missed leg before a met one, waypoints at the radius or repeated waypoints; witnesses show it false for those. Real numbers: rounding is not modelled. The geodetic intersections are not covered (see C69 for the subdivided one)."
  },
  {
   "property": "C44",
   "status": "proved",
   "theorems": [
    "C44_crossings",
    "C44_turns",
    "C44_points"
   ],
   "note": "For any samples (C44_crossings, C44_turns) and for the whole function with any sampling from start to finish (C44_points). The trigonometry that makes the samples and distances is not modelled: a sample is a point with a flag for being in range."
  },
  {
   "property": "C45",
   "status": "partial",
   "theorems": [
    "C45_history",
    "C45_determined",
    "C45_time_order",
    "C45_table",
    "C45_state_rows",
    "C45_key_rows",
    "C45_resource_partial",
    "C45_made_partial",
    "C45_shared_refuted",
    "C45_unset_refuted",
    "C45_refused_key_refuted",
    "C45_removed_key_refuted",
    "C45_function_refuted"
   ],
   "note": "For all actors and histories: the table is a list of blocks, one for each recorded state (or key), each state holding a resource, each unrecorded state if asked for and each other monitored resource, none twice and nothing else (C45_table); the rows of a state or key are exactly those of its history (C45_history, C45_determined, C45_state_rows, C45_key_rows), in time order (C45_time_order); made whenever all states have values and all keys histories (C45_made_partial); each resource once if at most one state holds it (C45_resource_partial). Refuted: a resource held by two states is shown twice; an unset state (allow_none_default) raises KeyError; a dictionary key without history raises AssertionError; histories of removed keys and of recording functions are missing. Quantities of resources are taken to be plain values."
  },
  {
   "property": "C46",
   "status": "partial",
   "theorems": [
    "C46_defined",
    "C46_time",
    "C46_distance",
    "C46_self",
    "C46_back",
    "C46_back_distance",
    "C46_two_steps_partial",
    "C46_spelling",
    "C46_linear",
    "C46_days_refuted",
    "C46_two_steps_refuted"
   ],
   "note": "For any two strings: exactly which conversions exist; times exact; distances within 4e-7 of the international definitions; identity; there and back whenever both exist (always for distances); two steps exact for times, within 7e-7 for distances; spelling; linearity. Refuted parts of the statement: day to day, week to week and shorter units to days or weeks are missing, and mi->km->nmi differs from mi->nmi. Floats as rationals."
  },
  {
   "property": "C47",
   "status": "partial",
   "theorems": [
    "C47_restore",
    "C47_fresh",
    "C47_stage_partial",
    "C47_outside",
    "C47_overwritten_refuted",
    "C47_reentered_refuted"
   ],
   "note": "Proved for all uses of contexts, any nesting: leaving an inner context succeeds and every observation of the outer is as before (C47_restore); a new context is empty (C47_fresh); a variable has the value first added in that context and is then refused (C47_stage_partial, for names that are not dict attributes and as long as nobody uses stage[k]=v or del); nothing outside contexts. Refuted: item assignment and del bypass write-once, a variable named like a dict method reads as the method, an EnvironmentContext object re-entered while open cannot be left. Not modelled: threads, a stage object kept across contexts."
  },
  {
   "property": "C48",
   "status": "partial",
   "theorems": [
    "C48_groups",
    "C48_actors",
    "C48_created",
    "C48_ghosts",
    "C48_outside_refuted",
    "C48_equal_refuted",
    "C48_skipped_refuted"
   ],
   "note": "Proved for all class hierarchies, runs and nestings of contexts, set orders arbitrary: each group lists exactly the entities made in the context whose hierarchy declares it, once each in order (C48_groups), get_actors and get_monitored_resources likewise (C48_actors), and making an entity in a context is never refused (C48_created); entities are assumed pairwise different under ==. C48_ghosts: rehearsal clones and actors whose constructor raised are listed too. Refuted: equal entities clash, groups named Task, Actor, Location... are skipped, entities made outside of contexts leak into a listing."
  },
  {
   "property": "C49",
   "status": "partial",
   "theorems": [
    "C49_interrupts_partial",
    "C49_raises",
    "C49_only",
    "C49_handled",
    "C49_hit",
    "C49_managed",
    "C49_clone",
    "C49_ended_refuted",
    "C49_self_refuted",
    "C49_deleted_refuted",
    "C49_read_refuted",
    "C49_clone_refuted",
    "C49_twice_refuted"
   ],
   "note": "Proved for all sequences of operations on any number of actors, clones, networks and nuclei, set order arbitrary: an assignment sends exactly one interrupt, with state and value, to the task of each registered network and to no other process (C49_interrupts_partial), provided every registered network is on the actor and its task can be interrupted; otherwise it raises with the value stored (C49_raises). C49_only: an interrupt telling a state only ever comes from an operation on a state the network is registered for; C49_handled, C49_hit: interrupts are handled in order, once, hitting unless the task has ended. C49_managed: adding and removing. Refuted: a registered network between tasks (or in a decision task, or stopped), or the assigning task's own, makes the assignment raise and others may be skipped; a network deleted from the actor poisons the state for good; reading, activating, deactivating a linear state and cloning the actor interrupt watchers without change, and a reading that raises counts the change twice. Modelled states: plain and LinearChangingState."
  },
  {
   "property": "C50",
   "status": "proved",
   "theorems": [
    "C50_fifo",
    "C50_delivery_order",
    "C50_puts_in_request_order",
    "C50_gets_in_request_order",
    "C50_no_idle_get",
    "C50_no_idle_put",
    "C50_capacity"
   ],
   "note": ""
  },
  {
   "property": "C51",
   "status": "proved",
   "theorems": [
    "C51_fresh"
   ],
   "note": ""
  },
  {
   "property": "C52",
   "status": "proved",
   "theorems": [
    "C52_sum_of_legs",
    "C52_additive",
    "C52_is_the_travel_time"
   ],
   "note": ""
  },
  {
   "property": "C53",
   "status": "partial",
   "theorems": [
    "C53_withdraws_everything",
    "C53_succeeds_exactly_partial",
    "C53_right_after_yield_partial",
    "C53_event_happened_refuted",
    "C53_process",
    "C53_anything_else",
    "C53_yielded",
    "C53_at_once",
    "C53_over_already_refuted"
   ],
   "note": "Exact condition for success proved (no Event or Any/All below triggered, none twice), and that a successful cancellation leaves no request pending and touches nothing else; which combinations are triggered as soon as they are yielded is proved too; refuted in the remaining states."
  },
  {
   "property": "C54",
   "status": "partial",
   "theorems": [
    "C54_level_is_ledger",
    "C54_request_order",
    "C54_no_idle_partial",
    "C54_cancelled_head_refuted"
   ],
   "note": "ledger, bounds and order proved; needless waiting excluded without cancellations, witness otherwise (C54_cancelled_head_refuted)"
  },
  {
   "property": "C55",
   "status": "partial",
   "theorems": [
    "C55_only_documented_errors_partial",
    "C55_cancel_at_limit_refuted"
   ],
   "note": "false with cancellations (C55_cancel_at_limit_refuted); proved without"
  },
  {
   "property": "C56",
   "status": "proved",
   "theorems": [
    "C56_store_one_fate",
    "C56_container_one_fate"
   ],
   "note": ""
  },
  {
   "property": "C57",
   "status": "partial",
   "theorems": [
    "C57_field_assignment_partial",
    "C57_field_assignment_refuted"
   ],
   "note": "false for unknown names and inherited fields (C57_field_assignment_refuted); proved for the fields the class itself annotates"
  },
  {
   "property": "C58",
   "status": "proved",
   "theorems": [
    "C58_succeed",
    "C58_create_then_succeed",
    "C58_first_success",
    "C58_payload_stays",
    "C58_processed_and_reset",
    "C58_refusals"
   ],
   "note": "that a second success before the event is processed replaces the payload although it raises is C33_overwritten_refuted for plain Events"
  },
  {
   "property": "C59",
   "status": "partial",
   "theorems": [
    "C59_failed_activation_refuted",
    "C59_lock_refusal_partial"
   ],
   "note": "false (C59_failed_activation_refuted); the refusals by the lock change nothing"
  },
  {
   "property": "C60",
   "status": "partial",
   "theorems": [
    "C60_geodetic_position",
    "C60_short_leg_refuted"
   ],
   "note": "proved, with the absolute slack speed*1e-4 past a waypoint; C60_short_leg_refuted shows that it can be many times the leg"
  },
  {
   "property": "C61",
   "status": "partial",
   "theorems": [
    "C61_defaults_follow_links_partial",
    "C61_queue_ignores_links_refuted"
   ],
   "note": "false for queued tasks (C61_queue_ignores_links_refuted); proved for default successors"
  },
  {
   "property": "C62",
   "status": "partial",
   "theorems": [
    "C62_wakes_others_refuted",
    "C62_unrelated_untouched_partial",
    "C62_knowledge_event_in_any_refuted"
   ],
   "note": "Unrelated events are untouched: proved. Cancelling an Event succeeds it and so wakes everybody else; a knowledge event inside an Any stays in the knowledge though succeeded: refuted."
  },
  {
   "property": "C63",
   "status": "proved",
   "theorems": [
    "C63_connected",
    "C63_choice"
   ],
   "note": "connect() overrides per actor; otherwise the first CommunicationStore in definition order with the mode; otherwise SimulationError (C36_no_store: after the transfer time, nothing put)."
  },
  {
   "property": "C64",
   "status": "partial",
   "theorems": [
    "C64_clock",
    "C64_days",
    "C64_capitals_refuted"
   ],
   "note": "Day and time of day are those of the clock for s, min, hr, their long names in any capitals, and no unit; the daily count splits the time. Refuted: the short names in capitals are not recognised although unit_convert takes them."
  },
  {
   "property": "C65",
   "status": "partial",
   "theorems": [
    "C65_lasts",
    "C65_refused",
    "C65_plain",
    "C65_random",
    "C65_random_made",
    "C65_unset_refuted"
   ],
   "note": "With a stage time unit the duration in seconds is the one given; random waits are between their bounds; refusals characterised. Refuted: without a stage time unit (documented as hours) the unit given is ignored; with days as stage unit a Wait in hours is refused."
  },
  {
   "property": "C66",
   "status": "proved",
   "theorems": [
    "C66_recorded",
    "C66_refused",
    "C66_accepted"
   ],
   "note": "Any sequence of contexts, recordings and time steps: C66_recorded; C66_refused outside contexts."
  },
  {
   "property": "C67",
   "status": "partial",
   "theorems": [
    "C67_interrupts",
    "C67_between_refuted"
   ],
   "note": "C67_interrupts: for every state of the simulation one interrupt goes to the recorded task process, or an error and nothing. Refuted: in the instant between two tasks (and in decision tasks) the recorded process has ended and interrupt_network raises RuntimeError."
  },
  {
   "property": "C68",
   "status": "partial",
   "theorems": [
    "C68_rows",
    "C68_made",
    "C68_columns_partial",
    "C68_empty_refuted",
    "C68_columns_refuted"
   ],
   "note": "C68_rows, C68_made, C68_columns_partial (column names fit if every actor or none recorded geodetic locations). Refuted: without actors it raises UnboundLocalError; the column names are those of the last actor."
  },
  {
   "property": "C69",
   "status": "partial",
   "theorems": [
    "C69_locations",
    "C69_inside",
    "C69_made_partial",
    "C69_short_refuted"
   ],
   "note": "C69_locations, C69_inside for any sampling that runs from start to finish; C69_made_partial: given at most one crossing between an inner and an outer point the only error is IntersectionError for a short segment. Refuted: crossings on paths of a few hundred metres raise IntersectionError. qline_good and qline_once show the hypotheses hold for the number line."
  },
  {
   "property": "C70",
   "status": "partial",
   "theorems": [
    "C70_times",
    "C70_ended",
    "C70_restart_refuted"
   ],
   "note": "C70_times: at most one loop ever begins, checks come exactly every timestep after it, and it ends exactly when the last max(1, max_empty_events) checks left no other event. Refuted: a loop that ended never runs again, so movers that start later are never seen (C70_ended, C70_restart_refuted)."
  },
  {
   "property": "C71",
   "status": "proved",
   "theorems": [
    "C71_states",
    "C71_refused"
   ],
   "note": "For all class hierarchies: C71_states, C71_refused."
  },
  {
   "property": "C72",
   "status": "proved",
   "theorems": [
    "C72_made",
    "C72_nothing_else",
    "C72_makes",
    "C72_missing",
    "C72_unwanted"
   ],
   "note": "C72_made (what a made actor is), C72_makes (sufficient conditions), C72_missing, C72_unwanted (each is necessary), C72_nothing_else. Python classes and constructors of stores are parameters. Recording, callbacks and the entity registry are in other areas."
  },
  {
   "property": "C73",
   "status": "proved",
   "theorems": [
    "C73_built",
    "C73_apart",
    "C73_once",
    "C73_modes",
    "C73_set_again",
    "C73_set_plain"
   ],
   "note": "C73_built, C73_apart, C73_once, C73_modes for any class and configuration without modes; with modes see C75."
  },
  {
   "property": "C74",
   "status": "proved",
   "theorems": [
    "C74_clone",
    "C74_new"
   ],
   "note": "C74_clone for all clonable actors, C74_new: an actor that was just made is clonable. Knowledge, queues and histories: C25."
  },
  {
   "property": "C75",
   "status": "partial",
   "theorems": [
    "C75_shadowed_refuted",
    "C75_order_refuted",
    "C75_knowledge_refuted",
    "C75_modes_refuted"
   ],
   "note": "Refuted by witnesses: defaults drawn from a random generator depend on the order of a set; modes are taken out of the caller's dictionary, so a second actor made from it has other modes or raises; a state called initial_knowledge never gets its value; a class attribute in a subclass shadows the state and its type check. What holds is C72."
  },
  {
   "property": "C76",
   "status": "partial",
   "theorems": [
    "C76_no_init_refuted",
    "C76_no_value_refuted",
    "C76_given_store_refuted",
    "C76_clone_refuted",
    "C76_property_refuted",
    "C76_modes_refuted",
    "C76_classmethod_refuted",
    "C76_shared_refuted"
   ],
   "note": "Refuted by witnesses: no_init states, states without value, stores given as objects, clones with stores and classes with read-only properties cannot be cloned; modes given to an actor do not reach its clone; class methods are not callable on a clone; the stores of a MultiStoreState are shared. What holds is C74."
  },
  {
   "property": "C77",
   "status": "proved",
   "theorems": [
    "C77_distance_is_the_arc",
    "C77_distance_is_a_metric"
   ],
   "note": "Over the reals: rounding is not modelled."
  },
  {
   "property": "C78",
   "status": "proved",
   "theorems": [
    "C78_travel_goes_along_the_bearing",
    "C78_travel_covers_the_distance",
    "C78_travel_keeps_the_bearing",
    "C78_bearing_and_distance_lead_there"
   ],
   "note": "Over the reals; origins at the poles only as to the distance (in exact arithmetic all bearings coincide there)."
  },
  {
   "property": "C79",
   "status": "proved",
   "theorems": [
    "C79_point_along",
    "C79_linspace",
    "C79_linspace_in_space",
    "C79_circle"
   ],
   "note": "Over the reals. geo_linspace needs that the first coordinates of the two directions do not add up to 0: C82."
  },
  {
   "property": "C80",
   "status": "proved",
   "theorems": [
    "C80_cross_track_distance",
    "C80_cross_track_point"
   ],
   "note": "Over the reals. Places behind the origin: C82."
  },
  {
   "property": "C81",
   "status": "proved",
   "theorems": [
    "C81_points_in_space",
    "C81_straight_line",
    "C81_to_space_and_back",
    "C81_to_earth_and_back"
   ],
   "note": "Over the reals, spherical conversions in degrees; the ellipsoid is not modelled."
  },
  {
   "property": "C82",
   "status": "partial",
   "theorems": [
    "C82_point_along_nowhere_refuted",
    "C82_point_along_errors",
    "C82_linspace_refuted",
    "C82_linspace_errors",
    "C82_ecef_linspace_refuted",
    "C82_behind_the_origin",
    "C82_cross_track_point_refuted"
   ],
   "note": "Refuted: point_along and geo_linspace divide by zero for the same and for opposite places (a path of length 0 raises); geo_linspace divides by the sum of the first coordinates, 0 for instance from (0,45) to (0,135) (floats: 0 or a rounding error); ecef_linspace raises always, as it unpacks a list of points as latitudes and longitudes; cross_track_point for a place behind the origin returns the mirror image, farther away. What holds are C79 and C80."
  },
  {
   "property": "C83",
   "status": "proved",
   "theorems": [
    "C83_distance",
    "C83_position",
    "C83_crossings"
   ],
   "note": "Spherical vector geometry over the reals; exact arithmetic."
  },
  {
   "property": "C84",
   "status": "proved",
   "theorems": [
    "C84_on_the_ground",
    "C84_level_flight"
   ],
   "note": "For altitude 0; altitudes are the subject of C85."
  },
  {
   "property": "C85",
   "status": "partial",
   "theorems": [
    "C85_level_flight_refuted",
    "C85_climb_refuted",
    "C85_sensor_at_the_start",
    "C85_sensor_at_the_start_refuted",
    "C85_above_the_range_refuted",
    "C85_missed_refuted",
    "C85_far_side",
    "C85_far_side_refuted"
   ],
   "note": "False, with witnesses: level flight at altitude (times at altitude, path time on the ground), climbs (altitude divided by the length twice), a sensor at the start (ZeroDivisionError), a way above the range (ValueError), no crossing (path time -1), a way that comes to a sensor behind its start. C85_sensor_at_the_start and C85_far_side say when the errors occur."
  },
  {
   "property": "C86",
   "status": "proved",
   "theorems": [
    "C86_cartesian_frozen",
    "C86_geodetic_frozen"
   ],
   "note": "Assignments to the private _no_override and deletions are excluded (C90)."
  },
  {
   "property": "C87",
   "status": "proved",
   "theorems": [
    "C87_distance",
    "C87_distance_in_one_unit",
    "C87_metric",
    "C87_equality",
    "C87_index",
    "C87_key"
   ],
   "note": "Exact reals; unit factors to a millionth (those of the unit table)."
  },
  {
   "property": "C88",
   "status": "proved",
   "theorems": [
    "C88_degrees_and_radians",
    "C88_distance",
    "C88_equality",
    "C88_equality_is_an_equivalence",
    "C88_equal_locations_are_interchangeable",
    "C88_with_altitude",
    "C88_straight_line",
    "C88_chord_and_arc",
    "C88_index",
    "C88_iteration",
    "C88_key"
   ],
   "note": "Exact reals: converting floats to radians and back need not return the same float."
  },
  {
   "property": "C89",
   "status": "proved",
   "theorems": [
    "C89_made_locations",
    "C89_geodetic_data_equality",
    "C89_cartesian_data_equality"
   ],
   "note": "For cartesian data of the same flag; otherwise false (C90)."
  },
  {
   "property": "C90",
   "status": "partial",
   "theorems": [
    "C90_transitive_refuted",
    "C90_cartesian_hash_refuted",
    "C90_geodetic_hash_refuted",
    "C90_iteration",
    "C90_iteration_refuted",
    "C90_other_kinds",
    "C90_comparable_refuted",
    "C90_data_equality_refuted",
    "C90_defaults_refuted",
    "C90_deleting_refuted",
    "C90_override_refuted"
   ],
   "note": "False, with witnesses: cartesian == is not transitive, equal locations with different hash keys (both kinds), unpacking a cartesian location raises ValueError, == raises for other types, data of different flags is equal but makes different locations, use_altitude_units defaults differ, del and assignment of _no_override unfreeze."
  },
  {
   "property": "C91",
   "status": "proved",
   "theorems": [
    "C91_default_answer",
    "C91_marker",
    "C91_obeyed",
    "C91_goes_on"
   ],
   "note": "Over traces of a whole running network; the standing marker is defined from the trace alone."
  },
  {
   "property": "C92",
   "status": "partial",
   "theorems": [
    "C92_restart_refuted",
    "C92_first_time_partial"
   ],
   "note": "False: RESTART does not clear the marker, so the second round begins with the first round's marker and interrupt action. C92_first_time_partial: true as long as the task was not restarted."
  },
  {
   "property": "C93",
   "status": "proved",
   "theorems": [
    "C93_never_leaves",
    "C93_interrupt_raises",
    "C93_rehearsal"
   ],
   "note": "Hypothesis: nobody gives the terminal task's own event the planning factor object as value."
  },
  {
   "property": "C94",
   "status": "proved",
   "theorems": [
    "C94_no_time",
    "C94_once"
   ],
   "note": "The clock is the simulation's; a network that fails meanwhile is excluded."
  },
  {
   "property": "C95",
   "status": "partial",
   "theorems": [
    "C95_running_partial",
    "C95_none",
    "C95_skip_refuted",
    "C95_dead_refuted"
   ],
   "note": "C95_running_partial: true in tasks other than DO_NOT_HOLD decisions while the network lives. False otherwise: the process of an earlier task under the decision's name; a failed network's last task."
  },
  {
   "property": "C96",
   "status": "partial",
   "theorems": [
    "C96_chain_partial",
    "C96_spin_refuted"
   ],
   "note": "C96_chain_partial: for finite chains of defaults. False for a cycle of DO_NOT_HOLD decisions: the loop never yields."
  },
  {
   "property": "C97",
   "status": "partial",
   "theorems": [
    "C97_plain_partial",
    "C97_decision_refuted"
   ],
   "note": "C97_plain_partial: true for tasks. False for decision tasks: run has no handler, an interrupt in their timeout(0) fails the network and with it the simulation."
  },
  {
   "property": "C98",
   "status": "proved",
   "theorems": [
    "C98_to_ecef",
    "C98_there_and_back",
    "C98_back_and_there",
    "C98_lists",
    "C98_lists_back"
   ],
   "note": "Exactness of Heikkinen's closed form in real arithmetic; altitudes from -6290 km."
  },
  {
   "property": "C99",
   "status": "proved",
   "theorems": [
    "C99_travel",
    "C99_no_distance_keeps_the_latitude",
    "C99_no_distance_on_a_meridian",
    "C99_meridians",
    "C99_equator"
   ],
   "note": "tol and max_iter are the defaults. The length is Vincenty's series in B up to B^3, not the true geodesic's."
  },
  {
   "property": "C100",
   "status": "partial",
   "theorems": [
    "C100_near_partial",
    "C100_stays_refuted"
   ],
   "note": "C100_near_partial: within 6 microradians of Vincenty's longitude. False: the formula has C * sin_alpha where Vincenty's has C * sin_sigma (wgs84.py:240), so going 0 m at 45 degrees from (0,0) moves by more than 4 m."
  },
  {
   "property": "C101",
   "status": "proved",
   "theorems": [
    "C101_same_place",
    "C101_symmetric",
    "C101_parts",
    "C101_vincenty",
    "C101_positive"
   ],
   "note": "Relation to Vincenty's series, for whatever is answered."
  },
  {
   "property": "C102",
   "status": "partial",
   "theorems": [
    "C102_meridians_partial",
    "C102_equator_partial",
    "C102_every_pair_refuted"
   ],
   "note": "False: (0,0) to (0,179.9) raises ValueError for every number of iterations. C102_meridians_partial, C102_equator_partial: true on meridians and on the equator up to 179 degrees; true for all places at most 178 degrees apart: C122; missing: which pairs between 178 and 180 degrees converge."
  },
  {
   "property": "C103",
   "status": "proved",
   "theorems": [
    "C103_leads_there"
   ],
   "note": "40 m because of the error of C100."
  },
  {
   "property": "C104",
   "status": "proved",
   "theorems": [
    "C104_line",
    "C104_line_refused",
    "C104_line_no_distance",
    "C104_line_in_place",
    "C104_circle",
    "C104_circle_refused",
    "C104_with_altitudes"
   ],
   "note": "Points of the path in the sense of C99 and C100."
  },
  {
   "property": "C105",
   "status": "partial",
   "theorems": [
    "C105_always_raises_refuted",
    "C105_beside_partial"
   ],
   "note": "False: it raises for every input (two values unpacked from a list of points); ecef_and_geo_linspace works for the same input."
  },
  {
   "property": "C106",
   "status": "proved",
   "theorems": [
    "C106_made",
    "C106_heard",
    "C106_in_order",
    "C106_one_end"
   ],
   "note": "For all runs of the model with simpy's queue order: content and addresses of new messages; heard is a prefix of came, equal to it when idle; every put settles once."
  },
  {
   "property": "C107",
   "status": "partial",
   "theorems": [
    "C107_redirect_refuted",
    "C107_goes_back_refuted",
    "C107_others_partial"
   ],
   "note": "False for Message arguments, which are put as they are: two witnesses. Proved for text, dictionaries and MessageContent."
  },
  {
   "property": "C108",
   "status": "proved",
   "theorems": [
    "C108_first_in_first_out",
    "C108_sending_time",
    "C108_arrives"
   ],
   "note": "First in first out, exact latency and arrival, by an invariant on the queue of events, for all runs in which the link is never down."
  },
  {
   "property": "C109",
   "status": "partial",
   "theorems": [
    "C109_always_in_order_refuted",
    "C109_links_up_partial"
   ],
   "note": "False: a message that has to be tried again is overtaken. Proved when the link is never down."
  },
  {
   "property": "C110",
   "status": "partial",
   "theorems": [
    "C110_stamps",
    "C110_time_sent_refuted",
    "C110_time_received_refuted",
    "C110_sent_once_refuted",
    "C110_equal_messages_refuted",
    "C110_equality",
    "C110_text_refuted"
   ],
   "note": "False in each part, with witnesses: time_sent is when the message last arrived (proved for all runs), time_received is never set, re-sending changes the message already delivered, equal messages differ in hash, and text is wrapped differently."
  },
  {
   "property": "C111",
   "status": "proved",
   "theorems": [
    "C111_listed",
    "C111_until",
    "C111_time",
    "C111_unknown"
   ],
   "note": "Both directions, for all lists, networks and rehearsals (a rehearsal is any function from name and world to statements and whether it returns)."
  },
  {
   "property": "C112",
   "status": "proved",
   "theorems": [
    "C112_end_task",
    "C112_defaults"
   ],
   "note": "Equivalence with the declarative sequence; with nothing queued, with the sequence of defaults."
  },
  {
   "property": "C113",
   "status": "partial",
   "theorems": [
    "C113_ends_refuted",
    "C113_nothing_listed_refuted",
    "C113_queue_unchecked_refuted",
    "C113_start_unchecked_refuted"
   ],
   "note": "False in each part, with witnesses: an end task out of reach loops for ever (every number of turns), the empty list raises, queued tasks and the first task are not checked against the links."
  },
  {
   "property": "C114",
   "status": "proved",
   "theorems": [
    "C114_start",
    "C114_sound",
    "C114_statement",
    "C114_raises"
   ],
   "note": "All statements of the model, from the invariant (kept from clone on) that what is referred to exists and queues are lists of their own."
  },
  {
   "property": "C115",
   "status": "proved",
   "theorems": [
    "C115_once",
    "C115_as_asked",
    "C115_granted_first",
    "C115_refused",
    "C115_given_up",
    "C115_kept"
   ],
   "note": "Permutation of what was asked with what waits and what was answered, for every run of ContainerModel."
  },
  {
   "property": "C116",
   "status": "proved",
   "theorems": [
    "C116_given",
    "C116_dictionary",
    "C116_history",
    "C116_same",
    "C116_looked",
    "C116_answered",
    "C116_recorded_only",
    "C116_equal"
   ],
   "note": "Refinement of an abstract ordered dictionary, and of the single-state model for the histories, for every program that does not take raw_object of the state."
  },
  {
   "property": "C117",
   "status": "partial",
   "theorems": [
    "C117_only_by_partial",
    "C117_data_equal_partial",
    "C117_assigned_partial",
    "C117_data_with_partial",
    "C117_data_dictionary_partial",
    "C117_no_dataclass_refuted",
    "C117_dictionaries_refuted",
    "C117_shared_refuted",
    "C117_given_object_refuted"
   ],
   "note": "False: a dictionary state is == to no dictionary state, not even itself (isinstance(other, dict) is false of proxies); a dataclass object given to two actors is shared and changes are recorded for one of them; the user's own reference changes the state unrecorded. Proved: dataclass states compare by class and values, and exactly which operations can change an object."
  },
  {
   "property": "C118",
   "status": "proved",
   "theorems": [
    "C118_described",
    "C118_subdivide",
    "C118_refused"
   ],
   "note": "By induction over the levels with bounds on the spacing of samples before and after each refinement, including halving. Even sampling is a hypothesis here (proved of geo_linspace on the sphere in C79 and stated of WGS84 in C104); the number line meets all hypotheses."
  },
  {
   "property": "C119",
   "status": "partial",
   "theorems": [
    "C119_missed_refuted",
    "C119_short_refuted",
    "C119_missed_leg_refuted"
   ],
   "note": "False: a pass of 2 km between two samples is not seen; legs of 300 m across an edge and legs of 200 m anywhere raise IntersectionError; a leg without crossings counts as taking no time, so crossings on later legs are predicted too early. What holds is C118."
  },
  {
   "property": "C120",
   "status": "proved",
   "theorems": [
    "C120_clean",
    "C120_now",
    "C120_real",
    "C120_rehearsal",
    "C120_continued",
    "C120_env",
    "C120_chained",
    "C120_bad_actor",
    "C120_marker"
   ],
   "note": "By induction over code with nested rehearsals and over histories; task code uses the actor it is given and does not catch exceptions."
  },
  {
   "property": "C121",
   "status": "partial",
   "theorems": [
    "C121_raised_refuted",
    "C121_clone_refuted",
    "C121_marker_refuted",
    "C121_decision_refuted",
    "C121_nested_refuted",
    "C121_guard_refuted"
   ],
   "note": "False: a rehearsal that raises, or whose clone fails, leaves the mock environment and the rehearsing flag on the task (stale clock, mimic states refused in the real run, next rehearsal begins at the failed one's time); markers set in a rehearsal replace the real ones; DecisionTask.rehearse with cloned_actor=True runs on a real actor; a nested rehearsal of another task begins at the simulation's time; one of the same task ends the guard on mimic states. What holds is C120."
  },
  {
   "property": "C122",
   "status": "proved",
   "theorems": [
    "C122_answers",
    "C122_any_tolerance",
    "C122_vincenty",
    "C122_leads_there",
    "C122_line",
    "C122_line_with_altitudes",
    "C122_by_differences"
   ],
   "note": "The correction of the longitude is differentiated and shown to be a contraction with factor 2/3 at distances of at least 0.0175 rad from opposite (mean value theorem); the iterates stay where it is. Over the reals."
  },
  {
   "property": "C123",
   "status": "proved",
   "theorems": [
    "C123_two_percent",
    "C123_both_answer",
    "C123_order",
    "C123_positive",
    "C123_triangle"
   ],
   "note": "The model of Vincenty's formulas is compared with the independently modelled spherical distance: the angle on the auxiliary sphere is near the angle of the places, and the series for the length of the arc stay near the mean radius. Catches slips in the coefficients that specification and model might share. Over the reals."
  },
  {
   "property": "C124",
   "status": "proved",
   "theorems": [
    "C124_once",
    "C124_as_asked",
    "C124_granted_first",
    "C124_from_a_put",
    "C124_given_up",
    "C124_taken_back",
    "C124_kept"
   ],
   "note": "Counting argument over requests: open ones plus answers are the ones asked for, a bijection kept by every operation. The clauses about items use the relation between queued requests, scheduled events and the operations that made them."
  },
  {
   "property": "C125",
   "status": "proved",
   "theorems": [
    "C125_sensors",
    "C125_targets",
    "C125_movers",
    "C125_checked",
    "C125_one"
   ],
   "note": "The dicts of the manager are shown to hold the attributes of the latest successful registrations (a fold over the history), which stay there because attributes are never removed. Hypothesis: what is looked at is of the right sort (places, numbers, booleans), as the type checks of states see to."
  },
  {
   "property": "C126",
   "status": "partial",
   "theorems": [
    "C126_watched_partial",
    "C126_rate_refuted",
    "C126_where_refuted",
    "C126_kept_refuted"
   ],
   "note": "Proved for actors with one location state, registered under no other attribute. Refuted otherwise: an actor that moves in its second location state is looked at where the first is; new_rate is never used; a target the user registered is forgotten when it stops moving."
  },
  {
   "property": "C127",
   "status": "proved",
   "theorems": [
    "C127_plain",
    "C127_settings",
    "C127_lines",
    "C127_order",
    "C127_read",
    "C127_held",
    "C127_tasks",
    "C127_no_network"
   ],
   "note": "The model writes the log inside each method, loop by loop; the answers are compared with KnowledgeModel and NetModel, which know no log. Hypothesis: daily_time_count, if set, is not zero (else C128_harmless_refuted)."
  },
  {
   "property": "C128",
   "status": "partial",
   "theorems": [
    "C128_made_partial",
    "C128_caller_partial",
    "C128_made_refuted",
    "C128_caller_refuted",
    "C128_harmless_refuted"
   ],
   "note": "Proved: the last line is right if no call that puts in knowledge was refused, and single changes name their caller. Refuted: a refused set_knowledge is logged like any other; bulk changes, knowledge events and queues set through a task name an inner method; the caller given to get_and_clear_actor_bulk_knowledge is not used; with daily_time_count = 0 logging raises ZeroDivisionError."
  },
  {
   "property": "C129",
   "status": "proved",
   "theorems": [
    "C129_place",
    "C129_ends",
    "C129_arrives",
    "C129_units",
    "C129_no_speed"
   ],
   "note": "The factor between the units is that of the code's table, within a millionth of the true one (counts). Hypothesis: the first leg is not of length 0, or more than 1e-12 has passed (else the code divides by zero)."
  },
  {
   "property": "C130",
   "status": "partial",
   "theorems": [
    "C130_plain_partial",
    "C130_inside_partial",
    "C130_kinds_partial",
    "C130_missed_refuted",
    "C130_leaving_refuted",
    "C130_invented_refuted"
   ],
   "note": "Proved: exact when the coordinates are the places (no altitude units, height 0, or the same unit); in any units a leg with both ends in range is reported as a whole, and the kinds of the ends and the time of the path are right if anything is reported. Refuted: ray_intersection is given x, y, z without conversion, so a mover passing under a sensor a mile (5280 ft) up with a range of two miles is not reported, one that starts in range and leaves is not reported, and one six kilometres below a sensor with a range of ten metres is."
  },
  {
   "property": "C131",
   "status": "proved",
   "theorems": [
    "C131_task",
    "C131_network",
    "C131_in_turn"
   ],
   "note": "By a simulation between the two worlds, for code as a tree over all answers. Routines, Get, Put, Event and holds are not in the language (their rehearsal gives a planning factor or nothing: C29, C30); Any and All are not nested."
  },
  {
   "property": "C132",
   "status": "partial",
   "theorems": [
    "C132_start_partial",
    "C132_late_partial",
    "C132_active_refuted",
    "C132_locked_refuted",
    "C132_event_refuted",
    "C132_again_refuted",
    "C132_behind_refuted",
    "C132_answer_refuted",
    "C132_nothing_refuted",
    "C132_estimate_refuted"
   ],
   "note": "Proved: the states of the understudy begin with the actor's values at that time, whatever is active; for code that does not depend on answers the rehearsal does not end before the run, also when Waits are used again. Refuted: active states stand still in the rehearsal and their locks are gone; create_knowledge_event overwrites there and raises in the run; a Wait that lost in an Any counts again, and is never complete later; what Any gives back is None; an Any of nothing raises; a rehearsal time of its own is believed."
  },
  {
   "property": "C133",
   "status": "proved",
   "theorems": [
    "C133_unseen",
    "C133_own"
   ],
   "note": "By a relation between the histories with and without rehearsals; Events are named by the actor they were made for, so that nothing has to be renumbered. Rehearsed code uses Events it finds in the understudy's knowledge or has made; code of the simulation does not use an understudy's Events."
  },
  {
   "property": "C134",
   "status": "partial",
   "theorems": [
    "C134_kept_partial",
    "C134_woken_refuted",
    "C134_again_refuted",
    "C134_back_refuted"
   ],
   "note": "Proved: rehearsed code changes neither the knowledge of the simulation nor its Event objects (payloads, resets). Refuted: clone() copies an Event with copy(), which shares the simpy event, so succeed_knowledge_event in a rehearsal wakes the process that waits in the simulation, without the payload; the name stays taken, and succeeding it in the simulation raises RuntimeError or SimulationError; the understudy's copy becomes complete when the simulation's event is. What holds is C133."
  },
  {
   "property": "C135",
   "status": "proved",
   "theorems": [
    "C135_one_end",
    "C135_stores",
    "C135_way",
    "C135_no_way",
    "C135_in_order",
    "C135_latency"
   ],
   "note": "By invariants over runs with simpy's queue: where every message is, when each will arrive, and that of two that arrive at one moment the one put first is never further back. send_time >= 0 and retry_rate > 0 are assumed (simpy rejects negative delays), run() is called once, and a message object is put once."
  },
  {
   "property": "C136",
   "status": "partial",
   "theorems": [
    "C136_order_partial",
    "C136_retry_refuted",
    "C136_detour_refuted",
    "C136_connect_refuted"
   ],
   "note": "Proved when nothing on a shortest way is ever blocked and connections stay (C136_order_partial, from C135_in_order). Refuted: a message that waits to try again is overtaken by one put after the link is free; one that goes round a blocked link is overtaken even with no waiting; with nothing blocked, a connection made while a message is on its way lets the next one overtake it."
  },
  {
   "property": "C137",
   "status": "proved",
   "theorems": [
    "C137_ends_there",
    "C137_awaited_fails",
    "C137_code_raises",
    "C137_without_failures",
    "C137_ignored_comes_again",
    "C137_only_answers",
    "C137_interrupt_of_awaited",
    "C137_network_ends"
   ],
   "note": "By induction over runs with failures (a wrapper of the model of C26-C29; C137_without_failures says that it adds nothing else). That IGNORE hangs is stated for any number of answers."
  },
  {
   "property": "C138",
   "status": "partial",
   "theorems": [
    "C138_left_behind_refuted",
    "C138_cannot_be_handled_refuted",
    "C138_answers_refuted"
   ],
   "note": "Refuted by witnesses: the same task with an active state, a mimic, knowledge, a pending Get and a routine gives all of it back when interrupted and nothing of it when the process it waits for fails or its body raises; a body is not resumed after what it awaits, or its routine, failed; END and RESTART fail the task when the awaited process was interrupted. What holds instead is C137; interrupts are C26."
  },
  {
   "property": "C139",
   "status": "proved",
   "theorems": [
    "C139_as_degrees",
    "C139_read",
    "C139_arrival"
   ],
   "note": "By a simulation between a state and the one with the same numbers in degrees, and the arrival theorem of C18's proof for any geometry. That a stage model travels to the waypoint is a matter of the model (see the properties of Spherical and WGS84)."
  },
  {
   "property": "C140",
   "status": "partial",
   "theorems": [
    "C140_wait_refuted",
    "C140_place_refuted",
    "C140_table_refuted"
   ],
   "note": "Refuted for every stage model that measures the equator right: towards a waypoint one radian east the state's path ends after one degree; after the time of waypoint_time_and_dist it cannot be read nor deactivated. Refuted by a witness for the table, which mixes both forms. What holds is C139."
  },
  {
   "property": "C141",
   "status": "proved",
   "theorems": [
    "C141_position",
    "C141_as_if_uninterrupted",
    "C141_again",
    "C141_time_left",
    "C141_arrival",
    "C141_straight",
    "C141_grid"
   ],
   "note": "For any geometry with the stated laws (record geometry of TripSpec); they are proved for straight lines with any distance that shrinks in proportion along them. The arithmetic is exact; great circles with rounding are not claimed to meet the laws. Interruptions are away from waypoints by more than the tolerance, see C142."
  },
  {
   "property": "C142",
   "status": "partial",
   "theorems": [
    "C142_corner_refuted",
    "C142_arrived_refuted",
    "C142_back_refuted"
   ],
   "note": "Refuted by witnesses: exactly at a waypoint that waypoint is still said to remain, and the resumed state divides by zero when read within the tolerance; at the last waypoint the resumed state can be neither read nor deactivated once time passes; within the tolerance after a waypoint the resumed journey turns back to it. What holds is C141."
  },
  {
   "property": "C143",
   "status": "proved",
   "theorems": [
    "C143_plain",
    "C143_key",
    "C143_not_recorded",
    "C143_nothing_else",
    "C143_made",
    "C143_names"
   ],
   "note": "States as in the State area (no recording functions), tables as in the Tab area; the two are joined by what an actor stores. No resources, locations or active states, and values of ordinary states that are not themselves dicts or dataclasses. Keys of one state have different names as strings (1 and '1' would share a history). For a key nothing was refused for its type, see C144."
  },
  {
   "property": "C144",
   "status": "partial",
   "theorems": [
    "C144_refused_new_key_refuted",
    "C144_refused_value_refuted",
    "C144_time_zero_refuted"
   ],
   "note": "Refuted by witnesses: a value refused for its type is in the dictionary all the same, so that create_table raises AssertionError if the key is new and shows another value than the dictionary holds if it is not; a value of an unrecorded state set at time 3 is shown at time 0. What holds is C143."
  },
  {
   "property": "C145",
   "status": "proved",
   "theorems": [
    "C145_floats",
    "C145_exact",
    "C145_exact_step",
    "C145_linear",
    "C145_grid",
    "C145_level",
    "C145_empty",
    "C145_full",
    "C145_grid_check"
   ],
   "note": "Rounding to 53 binary digits, to the nearest, ties to even, is defined on rationals and proved to be a rounding in the sense of the statement; overflow and underflow are left out. The functions are those of the Continuous, Active and Path areas with rounding put in, and C145_exact says that without rounding they are the same."
  },
  {
   "property": "C146",
   "status": "partial",
   "theorems": [
    "C146_unnoticed_empty_refuted",
    "C146_crash_later_refuted",
    "C146_below_refuted",
    "C146_unnoticed_full_refuted",
    "C146_above_refuted",
    "C146_exact",
    "C146_residue_refuted",
    "C146_reads_refuted"
   ],
   "note": "Refuted by witnesses computed with Python's rounding: taking 3 a time unit from a level of 1 leaves 2^-52 when the check is made at time 1, nobody is told, the level falls below zero for good, and the end of the get is a RuntimeError; at time 2 the same get is a ContainerError although error_empty is off; the same for filling; puts at 0.1 and 0.2 leave a rate of 2^-55 and a check far in the future. What holds is C145."
  },
  {
   "property": "C147",
   "status": "proved",
   "theorems": [
    "C147_arrival",
    "C147_arrival64",
    "C147_grid",
    "C147_where",
    "C147_grid_due"
   ],
   "note": "Distances are arbitrary positive numbers, as the program computes them; the place on the leg is not rounded. C147_arrival says that there is a place; which it is, C147_grid says for binary fractions, and the exact model for all numbers. whereat is a specification of its own, with one answer (C147_where)."
  },
  {
   "property": "C148",
   "status": "partial",
   "theorems": [
    "C148_late_refuted",
    "C148_exact"
   ],
   "note": "Refuted by a witness: at time 20000, distance 1, speed 6, the read on arrival is a SimulationError, because the tolerance is absolute (1e-12) and the clock has fewer digits. What holds is C147."
  },
  {
   "property": "C149",
   "status": "proved",
   "theorems": [
    "C149_exact",
    "C149_available",
    "C149_conserved",
    "C149_promised",
    "C149_granted",
    "C149_taken",
    "C149_grid",
    "C149_grid_conserved"
   ],
   "note": "Rounding as in the Rnd area. The functions are those of the Reserve area with rounding put in; C149_exact says that without rounding they are the same."
  },
  {
   "property": "C150",
   "status": "partial",
   "theorems": [
    "C150_cancel_refuted",
    "C150_lost_refuted",
    "C150_put_back_refuted",
    "C150_exact"
   ],
   "note": "Refuted by witnesses computed with Python's rounding: of 0.9, reserving and cancelling 0.3 leaves more than 0.9 (above the capacity, and it can be promised), reserving and cancelling 0.2 leaves less, so that 0.9 can not be reserved any more; 0.3 taken out of a full container of 0.9 can not be put back. What holds is C149; without rounding C150_exact holds."
  },
  {
   "property": "C151",
   "status": "proved",
   "theorems": [
    "C151_shown",
    "C151_right",
    "C151_exact"
   ],
   "note": "Rounding as in the Rnd area; C151_exact says that without rounding this is pretty_now of the Units area (C64). Standard units only."
  },
  {
   "property": "C152",
   "status": "partial",
   "theorems": [
    "C152_minutes_refuted",
    "C152_seconds_refuted",
    "C152_exact"
   ],
   "note": "Refuted by witnesses computed with Python's rounding: at 31 minutes pretty_now shows 00:30:59, at 115 seconds 00:01:54, because the clock is converted to hours and back and the fraction is dropped. What holds is C151."
  },
  {
   "property": "C153",
   "status": "proved",
   "theorems": [
    "C153_floats",
    "C153_task",
    "C153_network",
    "C153_complete"
   ],
   "note": "As C131, of which it uses the code and the records, with every sum of times rounded. What states compute is a parameter: run and rehearsal use the same code for it. C154_any_refuted shows why members of an Any must not be asked. Networks are chains of tasks, as in C131: which task comes next is given."
  },
  {
   "property": "C154",
   "status": "partial",
   "theorems": [
    "C154_any_refuted",
    "C154_zero",
    "C154_exact"
   ],
   "note": "Refuted by a witness computed with Python's rounding: at time 1000 Wait(0.3) and Wait(0.1 + 0.2) end at the same time, so that both are complete after an Any of them, but the rehearsal compares the times of waiting and calls only the first complete. Without rounding the claim holds of this task (C154_exact; in general C131)."
  }
 ]
}