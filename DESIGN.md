# Design

Formal model (Rocq / Coq 8.16.1) of the rigid-body physics crate in `/repo`, and
proofs of the properties in `properties.jsonl`.  `MANIFEST.json` says which
theorem carries which property.

## How the model is built

* Every function of the crate is transcribed once, over an abstract collection
  of scalar operations `Num T` (file `Num.v`).  It is then read at two instances:
  * `F32 L`: IEEE-754 binary32, round to nearest even, with NaN, infinities and
    signed zeros (Flocq `BinarySingleNaN`).  `L` supplies `sin`, `cos`, `atan2`;
    theorems hold for every `L`, nothing is assumed about them.
  * `EReal`: exact real arithmetic extended with +oo, -oo and NaN.  This is the
    reading in which physical laws can be stated exactly.
* A theorem stated over an arbitrary `Num` holds for both.  Theorems about
  ranges, times and ordering are stated for f32 (with rounding).  Physical laws
  are stated in exact arithmetic; how far rounding moves the f32 result away
  from the exact one is bounded for single operations (C84), for bodies that
  coast (C85) and for the lengths of rotations (C87), and nowhere else.
* Panics are values: `res A := Ok a | Panic | Fuel`.  `Fuel` is the model's own
  recursion bound in `wake_up`; it is proved unreachable.
* A `HashSet` is a duplicate-free list.  Its iteration order is an oracle
  `set_order`, arbitrary per API call; theorems assume only that it permutes.
* Force generators are gravity or an arbitrary user function with state.
* A history is a list of API calls with their iteration orders; "reachable"
  means reached from `system_new` by such a history.

| file | models |
|---|---|
| `Num.v` | f32 operations, `consts.rs`, `types.rs` min/max |
| `Vec.v` | the nalgebra 0.24 operations used |
| `Arena.v` | generational-arena 0.2.8, `HashSet<Index>` |
| `Res.v` | outcomes of calls |
| `RangeM.v` | `range.rs` |
| `Orient.v` | `orientation.rs` |
| `Colliders.v` | `null_/sphere_/plane_/mesh_/aligned_box_collider.rs`, `collider_wrapper.rs` |
| `Collide.v` | `collision.rs` |
| `EntityM.v` | `entity.rs` |
| `SystemM.v` | `physics_system.rs`, `force.rs`, `gravity_generator.rs`, `unary_force_generator.rs`, `collision_record.rs` |

Proofs are in separate files; `Spec.v`, `PanicSpec.v`, `EntitySpec.v` (any arithmetic), `PathSpec.v`,
`RealSpec.v` (real geometry), `PhysSpec.v` (rigid bodies), `TraceSpec.v` (sequences of
collisions), `ContactSpec.v` and `FloorSpec.v` (passing through), `BoxSpec.v` (balls
against whole boxes and meshes), `FiniteSpec.v` (which collisions have a position and a normal), `PartSpec.v` (what colliders weigh), `ReplaySpec.v` (what may not depend on the order of hash sets), `SpinSpec.v` (isolated systems over many steps, angular momentum), `AlgebraSpec.v` (laws of vectors, matrices and quaternions; agreement of the two arithmetics), `RoundSpec.v` (coasting and its rounding drift), `TurnSpec.v` (lengths of rotations in binary32, how often entities are turned), `BoostSpec.v` (the world seen by somebody who moves steadily), `MoveSpec.v` (the world moved as a whole), `MirrorSpec.v` (the world seen in mirrors), `CycleSpec.v` (the axes exchanged in a circle), `QuarterSpec.v` and `CubeSpec.v` (a quarter turn, and any rotation of the axes), `TieSpec.v` (which part of a mesh or box is hit), `FlightSpec.v`
(free flight) hold the small
specifications that theorem statements refer to; `Prop_*.v` hold only the property theorems (each
closed by `exact`, with `Print Assumptions`) and their non-vacuity examples.

## Trusted base

* Coq's kernel (and `vm_compute`).
* Axioms, all from the Coq standard library, reported by `Print Assumptions`
  under each theorem: `ClassicalDedekindReals.sig_not_dec`,
  `ClassicalDedekindReals.sig_forall_dec`,
  `FunctionalExtensionality.functional_extensionality_dep`,
  `Classical_Prop.classic`.  They come in through the real numbers (directly,
  or through Flocq).  No axiom of our own, no functor, no module type.
* Flocq's definition of binary32 as the meaning of Rust's `f32`.
* Our transcription of nalgebra (`Vec.v`) and of generational-arena
  (`Arena.v`): their sources are not in `/repo`.
* Our reading of `/repo/src`: each definition cites file and lines.

### What `Print Assumptions` lists for each theorem

Made by `tools/assumptions.py` from what coqc prints for the `Prop_*.v` files.

<!-- assumptions -->

| axioms | theorems |
|---|---|
| none | 42: C01_handles_unique, C01_removed_stays_removed, C02_add_entity, C02_link_frame, C02_remove_entity, C02_update_collider_frame, C02_update_entity, C03_link_collider, C03_remove_collider, C04_links_consistent, C04_listed_alive, C04_listed_once, C04_owner_alive, C05_link_moves, C06_remove_entity, C07_rejected_no_effect_partial, C07_rejected_update_collider_partial, C08_stored_own_mass, C09_gravity_partial, C09_linked_collider_refuted, C10_calls_end, C10_others, C10_update, C13_tiny_step, C21_null, C21_unsupported, C28_approaching, C44_add_face, C44_add_face_accepts, C44_mesh_well_formed, C45_step_frame, C46_asked_once, C47_respond, C49_immovable, C53_ignored_partial, C66_update, C71_update, C73_add_generator, C73_frame, C73_new, C73_remove_generator, C79_built_partial |
| `functional_extensionality_dep` | 1: C81_reproducible_partial |
| `sig_forall_dec`, `functional_extensionality_dep` | 36: C03_add_collider, C03_update_collider, C09_careful_partial, C09_causes_partial, C10_step, C11_sleepers_still, C11_unstruck_still, C12_only_low_energy, C12_sleep_period, C14_iteration_max, C16_records_name, C17_constructors, C17_contain, C17_emptiness, C17_ends, C17_intersect, C20_time_in_step, C22_meshes_partial, C22_mixed_partial, C27_box, C27_mesh, C28_earliest, C29_free_motion, C37_total, C46_unpushed, C47_bystanders, C48_earliest, C50_corners_refuted, C66_step, C71_step, C72_talk, C93_colliders, C93_first, C94_box, C94_mesh, C94_meshes |
| `sig_forall_dec`, `sig_not_dec`, `classic`, `functional_extensionality_dep` | 184: C07_exact_partial, C07_rejected_no_effect_refuted, C08_stored_colliders_valid, C09_removed_neighbour_refuted, C09_small_face_refuted, C15_exact, C15_times, C18_both_unbounded_refuted, C18_overlap_times, C18_slow, C19_constant, C19_inside, C19_linear, C19_near_double_root, C19_no_roots, C19_two_roots, C20_binary32, C22_sphere_normals_refuted, C22_spheres_partial, C23_sphere_plane, C24_sphere_sphere, C25_from_start_partial, C25_refuted, C25_resting_partial, C26_complete, C26_face_contact, C26_face_sound, C26_world, C27_box_world, C30_gravity, C31_momentum_partial, C32_angular_partial, C32_singular_refuted, C33_restitution, C34_frictionless_partial, C34_restitution_partial, C34_spinning_refuted, C35_coulomb_refuted, C35_friction_partial, C36_forces, C36_impulse_partial, C36_overflow_refuted, C36_response_partial, C37_exact, C37_infinite, C38_centre, C38_origin, C38_parts, C38_unlinked, C39_frame, C40_box_partial, C40_sphere_refuted, C40_tensor, C41_inverse, C41_origin, C41_rigid, C42_nan_refuted, C42_rotation_partial, C43_copy_refuted, C43_same_place_partial, C43_turned_over_partial, C43_turned_over_refuted, C43_write_back_partial, C48_corner_face, C48_mesh_mesh, C49_infinite_refuted, C49_internal_partial, C49_reported_partial, C50_box_partial, C50_plane_partial, C50_update_refuted, C51_acceleration_refuted, C51_torque_partial, C52_balls_partial, C52_concentric_refuted, C52_flat_mesh_refuted, C52_meshes_partial, C52_sphere_plane_partial, C52_well_defined_partial, C53_refuted, C54_refuted, C54_together_partial, C55_line, C55_normal, C55_segment, C56_polygon, C57_mesh_plane, C57_translating, C58_new, C58_rotation_vec, C58_round_trip, C59_lerp, C60_affected, C61_newton, C62_path, C62_straight, C63_clean, C63_trace, C64_elastic_steps, C64_energy, C64_steps, C65_momentum, C65_steps, C67_refuted, C68_chase_refuted, C68_neighbour_refuted, C68_partial, C69_floor_refuted, C69_partial, C69_spin_refuted, C69_step, C70_partial, C70_refuted, C74_placed_partial, C75_box_mass_refuted, C75_defaults_partial, C75_friction_refuted, C76_balanced_partial, C76_damper_refuted, C77_refuted, C78_ball_box_partial, C79_ball_mesh_partial, C79_refuted, C79_triangle_partial, C80_energy_partial, C80_error_partial, C80_flight_partial, C80_refuted, C81_exact_partial, C81_handle_refuted, C81_mass_refuted, C81_step_refuted, C82_round_partial, C82_tumbling_refuted, C83_inverse, C83_lengths, C83_matrices, C83_quaternions, C83_real, C83_turning, C83_vectors, C84_add, C84_div_partial, C84_literals, C84_mul, C84_order, C84_signum_partial, C84_sqrt, C84_sub, C84_zero_refuted, C85_drift_partial, C85_stuck_refuted, C86_constants, C86_turning, C87_drift, C87_lengths, C88_collide, C88_history, C88_seen, C88_step, C89_flight_partial, C89_refuted, C89_response, C89_sphere_plane_partial, C89_spheres_partial, C90_boxes_refuted, C90_collide_partial, C90_history_partial, C90_meshes_refuted, C90_seen_partial, C90_step_partial, C91_boxes_refuted, C91_collide_partial, C91_history_partial, C91_rounding_refuted, C91_seen_partial, C91_step_partial, C92_all_rotations, C92_boxes_refuted, C92_calls, C92_collide_partial, C92_history_partial, C92_seen_partial, C92_step_partial |

<!-- end of assumptions -->

## Modelled, with simplifications

* u64 generation counters, u8 `iteration_max`, usize counts are unbounded.
* Public and internal collider structs have the same fields and share a record.
* The debug log holds structured messages; `println!` is omitted.
* `debug` and `collision_records` are public fields; the user overwriting them
  is not modelled (nothing reads them).
* In `EReal` there is one zero, treated as +0.
* A user force generator is a function of dt, a view of the system (the two
  getters and the public scalar fields) and the entity handle, with its own
  state; it may panic.

## Not modelled

* `Debug` formatting, printing, unit tests, memory allocation, thread use (the
  crate has none), `RefCell` borrow state other than at the one place where it
  matters (`remove_collider`).

## Properties: what is modelled and how it is proved

| id | how |
|---|---|
| C01 | arena invariant (free list well formed, generations), induction over histories |
| C02, C03 | per-operation frame lemmas over any state |
| C04 | invariant by induction over histories, any `Num` |
| C05, C06 | per-operation theorem on any state satisfying the C04 invariant |
| C07 | case analysis; `update_collider` with an invalid value recomputes the mass of the owner, which is a no-op in exact arithmetic (`C07_exact_partial`) but not in f32 (refuted) |
| C08 | invariant by induction over histories, f32 |
| C09 | no-panic proved for histories avoiding the listed panics; the panics themselves are `_refuted` witnesses |
| C10 | work-list invariant, graph reachability |
| C11 | frame through the three phases of `step`, f32 |
| C12 | per-step theorem and induction over runs of steps |
| C13, C14 | direct; induction on iterations |
| C15 | f32 rounding lemma `c + (1-c)p` stays in [c,1]; induction on iterations |
| C16 | invariant on what `find_earliest` returns |
| C17 | f32 case analysis through comparison lemmas |
| C18, C19 | real algebra |
| C20 | f32: every collision time is cut to [0,1] or checked against it |
| C21 | direct |
| C22 | mixed pairs: any `Num`; sphere-sphere: exact; the normal is refuted |
| C23, C24 | real algebra on top of C18/C19 |
| C25 | refuted (start centre used instead of centre at hit time); partial when the first sphere does not move |
| C26 | convexity of the swept box |
| C27, C28 | fold invariants with NaN-aware order, f32 |
| C29 | phase-by-phase computation, any `Num` |
| C30-C34, C61 | exact arithmetic, lifted to real vectors; C32 and C34 refuted for singular tensors |
| C35 | tangential and opposite: proved; Coulomb bound: refuted |
| C36 | f32 case analysis |
| C37 | invariant by induction over histories |
| C38-C42 | exact arithmetic |
| C43 | exact arithmetic, for rotations not snapped to identity and with w >= 0; otherwise refuted |
| C44 | induction over mesh construction, any `Num` |
| C45-C47 | frame lemmas, any `Num` |
| C48 | exact arithmetic |
| C49 | exact arithmetic; public energy of a resting infinite-mass entity is NaN (refuted) |
| C50, C51, C53 | refuted; the parts that hold are proved as partial |
| C52 | refuted for flat meshes on planes and concentric spheres; exact arithmetic, all pairs in any motion (FiniteSpec): the position is lost exactly for a mesh level with a plane at the start or end, the normal at most when a ball touches a ball, vertex or edge where its own centre started (for two balls exactly then) |
| C54 | refuted (slow approach); proved for spheres moving together |
| C55-C57 | real algebra on top of C18/C19 |
| C58-C60 | trigonometry over R, quaternion algebra |
| C62 | induction on iterations, exact arithmetic |
| C63 | induction on iterations with the invariant that the state is that of a trace (TraceSpec); exact arithmetic |
| C64, C65 | induction on the trace of C63, then on the number of steps |
| C66 | invariant on the neighbour lists of the iterations (mutual, only among those that collided), then through the sleep phase; any `Num` |
| C67 | refuted |
| C68 | refuted; partly proved: the contact found by C23/C24 passes the approach test and would be the earliest of the iteration (PassP) |
| C69 | refuted; an invariant over whole executions for a ball over a floor (FloorSpec), on top of C63 and C68 |
| C70 | refuted; a bound on the energy gained in a step, from C69 |
| C71 | the log is a function of who was woken and who fell asleep, both described without the log; any `Num` |
| C72 | the conversation is built step by step next to the integration loop (ForceSpec); any `Num`, any generators |
| C73 | case split on the call; any `Num` |
| C74 | exact arithmetic, from the centre-of-mass formulas of C43; partial (finite values; entities with colliders or without offset) |
| C75 | computed at f32 for every libm; two kinds of defaults refuted |
| C76 | refuted; from C72 for forces that depend on positions only |
| C77 | refuted; what the code does is part of C35 and C63 (`grip`) |
| C78 | exact arithmetic, on top of C26 and C27: every contact with the box is a contact with one of its parts (BoxSpec); partial (steady box, no grazing, not slower than the solver sees) |
| C79 | the same for meshes, on top of C27; partial, refuted for a centre in the plane of a face |
| C80 | exact arithmetic, induction over the steps on top of the path of C62; partial (bodies that stay awake), refuted for light bodies at f32 |
| C81 | any arithmetic: simulation between two runs that differ in the orders of all sets, for entities with at most one collider; exact arithmetic: sums commute, so masses agree for any colliders; refuted at f32 for entities with several colliders |
| C82 | exact arithmetic, induction on the trace of C63 and on the number of steps; for bodies as hard to turn about any axis (partial), refuted for others |
| C83 | exact arithmetic: ring identities; the inverse from its adjugate formula |
| C84 | Flocq's correctness theorems of the single operations, case analysis on infinities and NaN; partial (division by -0 and its signum, refuted) |
| C85 | binary32, the error bounds of C84 summed over the steps by induction; partial (no forces, nothing about rotations) |
| C86 | exact arithmetic, the path of C62 and the composition of turns about one axis (Rodrigues), by induction on the collisions of others and the number of steps |
| C87 | binary32, rounding errors of products and exponentials of quaternions; induction on the number of times an entity was turned (`TurnP.spun`) |
| C88 | exact arithmetic: every test and every phase of a step commutes with a displacement (`Move2P.collide_move`, `Move4P.step_move`), using that rotations are of unit length or NaN; induction over the calls |
| C89 | exact arithmetic: the response uses velocities only through their difference, the tests movements only through theirs (`BoostP`); partial, refuted for a step as a whole at f32 by computation |
| C90 | exact arithmetic: every operation on vectors, quaternions and tensors commutes with changes of sign (`MirrorP`), so every test and every phase of a step does; induction over the calls; partial, refuted for boxes and meshes at f32 by computation |
| C91 | exact arithmetic: addition of extended reals is commutative and associative, so every operation on vectors, quaternions and tensors commutes with exchanging the axes in a circle (`CycleP`; the inverse of a tensor only when it is finite); then as C90; partial, refuted for boxes at f32 by computation |
| C92 | exact arithmetic: a quarter turn about the third axis as C91, with signs (`QuarterP`); building meshes commutes with both turns, so turned calls are again calls a program can make, and any sequence of turns follows by induction (`CubeP`); the sequences reach all 24 rotations by enumeration; partial, refuted for boxes at f32 by computation |
| C93 | any `Num` with `Ord`: the pairs are listed in lexicographic order of their places, and the fold replaces its best collision only by a strictly earlier one (`FirstP`); within one pair of entities the pairs of colliders come in lexicographic order of the two iteration orders (`First2P`) |
| C94 | any `Num` with `Ord`: the accumulator replaces its collision only by a strictly earlier one, and all times of parts lie in the step, so none is a NaN (`TieP`) |

## Refuted properties and their witnesses

| theorem | what the code does |
|---|---|
| C07 `_refuted` | `update_collider` returning `Err` has already recomputed the owner's mass; in f32 that moves the entity |
| C09 `_refuted` | `remove_collider` of a linked collider (RefCell borrowed twice); updating an entity that slept in contact with a removed one; stepping with meshes of two entities of which one has a face too small for a normal |
| C18 `_refuted` | `linear_overlap` of two ranges unbounded on the same side |
| C22, C25 `_refuted` | sphere-sphere normals use the first centre at the start of the step |
| C32, C34 `_refuted` | an entity with a singular tensor never turns, though its spin counts for the contact velocity |
| C35 `_refuted` | the friction bound is compared with the impulse before its division by the denominator |
| C36 `_refuted` | a finite impulse whose moment overflows gives an infinite-mass entity a NaN spin (infinity times 0) |
| C40 `_refuted` | ball tensor 2/5 m r |
| C42 `_refuted` | NaN rotations are accepted |
| C43 `_turned_over_refuted` | an entity turned by more than half a turn (negative w) and asleep is woken, with everything resting against it, when it is read and written back unchanged: the comparison takes q and -q for different rotations |
| C43 `_refuted` | a copy of an entity keeps the offset of its colliders but not the colliders; writing the copy back unchanged moves it |
| C49 `_refuted` | the public energy of an entity of infinite mass at rest is NaN |
| C50 `_refuted` | a box with its corners exchanged is rejected; `update_collider` stores a plane normal as given |
| C51 `_refuted` | the torque is multiplied by the tensor and then by its inverse, so the spin changes by the moment itself |
| C52 `_refuted` | concentric spheres; flat meshes lying on a plane (NaN position) |
| C53 `_refuted` | the `position` of a box is ignored by collision detection |
| C54 `_refuted` | slowly approaching overlapping spheres are missed |
| C67 `_refuted` | falling asleep replaces the neighbour set by this step's contacts; an earlier sleeping neighbour is forgotten, because neighbours are not checked for collisions |
| C68 `_refuted` | a ball overtaken by a faster one in a long step: the normal, taken from its centre at the start, points the wrong way and the approach test rejects the collision; an awake ball moves through its sleeping neighbour, since neighbours are not checked |
| C69 `_refuted` | a floor falls asleep under a ball sliding on it, because it does not move, and takes the ball as a neighbour; the pair is not checked any more and the awake ball falls through (default settings); a turning ball falls through the floor, since the approach test takes the contact point relative to the position at the start of the step |
| C70 `_refuted` | a step gives the whole step's gravity to the velocity before moving; a ball that bounces in the step has its reversed velocity increased by gravity it has not yet fallen through, and rises above where it was dropped although restitution is less than 1 (default settings) |
| C75 `_refuted` | the documentation of planes, meshes and boxes exchanges the friction threshold and the static friction coefficient; a new box has mass 0, not the documented 1 |
| C76 `_refuted` | forces are applied entity by entity, so a generator that looks at velocities sees some of them already changed; a damper between two entities takes all their momentum |
| C77 `_refuted` | the static friction coefficient is used when the normal speed is small compared with the sliding speed, that is for fast sliding; the README says the opposite |
| C79 `_refuted` | a ball whose centre lies exactly in the plane of a mesh face, away from its edges, is not noticed: the normal is a zero vector normalised (NaN) |
| C80 `_refuted` | sleeping looks at the energy, not at the speed: a body of a gram is put to sleep in free fall at more than 1 unit per second and hangs in the air for good (default settings) |
| C81 `_mass_refuted` | colliders are weighed in the random order of a `HashSet`, and f32 sums depend on the order: parts of 2^24, 1 and 1 weigh 2^24 or 2^24 + 2 together, from run to run |
| C81 `_step_refuted` | of two collisions at the same time the one that the `HashSet` yields first wins: a dumbbell falling flat on the floor starts to turn one way or the other, from run to run |
| C81 `_handle_refuted` | the colliders of a removed entity are freed in random order, so the handle that the next collider gets differs from run to run |
| C82 `_tumbling_refuted` | a body in flight keeps its angular velocity in world coordinates (there is no gyroscopic term), so a tumbling brick changes its angular momentum with nothing touching it: half a turn about a diagonal takes (13, 10, 0) to (10, 13, 0) |
| C84 `_zero_refuted` | not a fault of the code: exact arithmetic has one zero, binary32 two; 1/(-0) and signum(-0) differ |
| C85 `_stuck_refuted` | a body at x = 524288 with velocity 1 and steps of 1/60 never moves: the distance covered in one step is less than half the spacing of binary32 numbers there, and the rest is thrown away in every step; the body stays awake |
| C89 `_refuted` | a consequence of C25: a ball hits one at rest head-on and stops, all its velocity goes over; with a sideways velocity on top of both, the ball at rest gets 2 % of it and both start to spin, because the normal points from where the first centre was at the start of the step |
| C90 `_boxes_refuted` | a ball with its centre exactly in the middle of a box: the face of the box is chosen by signum, and signum(0) is 1, so the normal always points along the first axis; moving that way it collides, moving the other way it does not |
| C90 `_meshes_refuted` | two triangles that slide in one plane are reported with the normal of that plane instead of one in the plane; which of the two normals it is depends on the order of the corners |
| C91 `_boxes_refuted` | a ball as far out along one axis of a cube as along another: the face is chosen by comparing the first axis with the second and the winner with the third, so of two equal ones the earlier axis is the normal |
| C91 `_rounding_refuted` | sums over the axes are rounded from the first axis to the last: an entity with velocity (1, 4096, 1) has another energy than one with (1, 1, 4096), and with a threshold between the two one falls asleep and the other does not |
| C92 `_boxes_refuted` | the same preference seen by a quarter turn: a ball at (1, 1, 0) in a cube is given a normal along the first axis, and so is the ball at (-1, 1, 0), where the turned normal is along the second |

## Wrong programs

`seeded/LOG.jsonl` has one line for each deliberately wrong version of the model:
one definition was edited in a copy outside this directory and everything was
built again.

* `outcome` is `killed` when some proof no longer goes through, `survived` when
  everything still builds.
* `first_failing` are the lemmas at which the build stopped.  The build stops at
  the first failures, so lemmas further on were not tried.
* `theorems_failed` are the property theorems whose proofs lead back, by name, to
  one of these lemmas.  This is more than is certain: it says that their proofs as
  written are gone, not that the statements have become false.
* `theorems_tightened` are theorems added or strengthened because of the edit,
  `note` says why.  Edits that survived have such a line; so have some that only
  broke a proof script without contradicting any statement.
