{
 "claims": [
  {
   "property": "C01",
   "status": "proved",
   "theorems": [
    "C01_handles_unique",
    "C01_removed_stays_removed"
   ],
   "note": "Both halves for all three kinds of handle, any history, any arithmetic."
  },
  {
   "property": "C02",
   "status": "proved",
   "theorems": [
    "C02_add_entity",
    "C02_remove_entity",
    "C02_link_frame",
    "C02_update_collider_frame",
    "C02_update_entity"
   ],
   "note": "add/remove exact; link and update_collider frame; update_entity included."
  },
  {
   "property": "C03",
   "status": "proved",
   "theorems": [
    "C03_add_collider",
    "C03_update_collider",
    "C03_remove_collider",
    "C03_link_collider"
   ],
   "note": "Values as stored, acceptance conditions as documented, frame."
  },
  {
   "property": "C04",
   "status": "proved",
   "theorems": [
    "C04_links_consistent",
    "C04_listed_once",
    "C04_listed_alive",
    "C04_owner_alive"
   ],
   "note": ""
  },
  {
   "property": "C05",
   "status": "proved",
   "theorems": [
    "C05_link_moves"
   ],
   "note": ""
  },
  {
   "property": "C06",
   "status": "proved",
   "theorems": [
    "C06_remove_entity"
   ],
   "note": ""
  },
  {
   "property": "C07",
   "status": "partial",
   "theorems": [
    "C07_exact_partial",
    "C07_rejected_no_effect_partial",
    "C07_rejected_update_collider_partial",
    "C07_rejected_no_effect_refuted"
   ],
   "note": "True for every rejected call except update_collider with an invalid value of the right kind, which recomputes the owner's mass: bounded by a frame theorem, without effect in exact arithmetic (C07_exact_partial), and refuted in binary32 by a rounding drift."
  },
  {
   "property": "C08",
   "status": "proved",
   "theorems": [
    "C08_stored_colliders_valid",
    "C08_stored_own_mass"
   ],
   "note": "Binary32, NaN and infinities included. own_mass: not negative (NaN is accepted by the code)."
  },
  {
   "property": "C09",
   "status": "partial",
   "theorems": [
    "C09_careful_partial",
    "C09_causes_partial",
    "C09_gravity_partial",
    "C09_linked_collider_refuted",
    "C09_removed_neighbour_refuted",
    "C09_small_face_refuted"
   ],
   "note": "Every history that avoids three listed kinds of call returns normally; in states whose contacts exist the causes of a panic are exactly named. The three kinds do panic: witnesses."
  },
  {
   "property": "C10",
   "status": "proved",
   "theorems": [
    "C10_calls_end",
    "C10_update",
    "C10_step",
    "C10_others"
   ],
   "note": "Termination of every call (given that user generators terminate); update_entity and step wake exactly the connected entities; nothing else wakes or puts to sleep."
  },
  {
   "property": "C11",
   "status": "proved",
   "theorems": [
    "C11_sleepers_still",
    "C11_unstruck_still"
   ],
   "note": "Both for entities that stay asleep and, as a criterion, for those not connected to a struck one."
  },
  {
   "property": "C12",
   "status": "proved",
   "theorems": [
    "C12_sleep_period",
    "C12_only_low_energy"
   ],
   "note": "Against a clock computed from the history; iff."
  },
  {
   "property": "C13",
   "status": "proved",
   "theorems": [
    "C13_tiny_step"
   ],
   "note": ""
  },
  {
   "property": "C14",
   "status": "proved",
   "theorems": [
    "C14_iteration_max"
   ],
   "note": "At most iteration_max records, and the warning is printed iff exactly iteration_max were made."
  },
  {
   "property": "C15",
   "status": "proved",
   "theorems": [
    "C15_times",
    "C15_exact"
   ],
   "note": "Binary32 with rounding, every state and every finite dt of at least EPSILON; also exact arithmetic."
  },
  {
   "property": "C16",
   "status": "proved",
   "theorems": [
    "C16_records_name"
   ],
   "note": ""
  },
  {
   "property": "C17",
   "status": "proved",
   "theorems": [
    "C17_intersect",
    "C17_contain",
    "C17_constructors",
    "C17_emptiness",
    "C17_ends"
   ],
   "note": "All binary32 values including NaN, infinities and signed zeros."
  },
  {
   "property": "C18",
   "status": "partial",
   "theorems": [
    "C18_overlap_times",
    "C18_slow",
    "C18_both_unbounded_refuted"
   ],
   "note": "Exact arithmetic, ends may be infinite; refuted when both ranges are unbounded on the same side (never the case in the crate's own use)."
  },
  {
   "property": "C19",
   "status": "proved",
   "theorems": [
    "C19_two_roots",
    "C19_no_roots",
    "C19_linear",
    "C19_inside",
    "C19_near_double_root",
    "C19_constant"
   ],
   "note": "Exact arithmetic; the tolerance bands are described too."
  },
  {
   "property": "C20",
   "status": "proved",
   "theorems": [
    "C20_time_in_step",
    "C20_binary32"
   ],
   "note": "Every pair of kinds, every arithmetic with an order; binary32 included, with NaN and infinities."
  },
  {
   "property": "C21",
   "status": "proved",
   "theorems": [
    "C21_null",
    "C21_unsupported"
   ],
   "note": "Any arithmetic."
  },
  {
   "property": "C22",
   "status": "partial",
   "theorems": [
    "C22_mixed_partial",
    "C22_spheres_partial",
    "C22_meshes_partial",
    "C22_sphere_normals_refuted"
   ],
   "note": "Bit for bit for pairs of different kinds. Two spheres: same cases, times, position (exact arithmetic), but the normals need not be opposite (refuted). Two meshes: symmetric except when corners of both hit at the same time."
  },
  {
   "property": "C23",
   "status": "proved",
   "theorems": [
    "C23_sphere_plane"
   ],
   "note": "At the level of collide, with both entities moving and turned."
  },
  {
   "property": "C24",
   "status": "proved",
   "theorems": [
    "C24_sphere_sphere"
   ],
   "note": "At the level of collide. Squared relative movement and discriminant at least EPSILON, as stated."
  },
  {
   "property": "C25",
   "status": "partial",
   "theorems": [
    "C25_from_start_partial",
    "C25_resting_partial",
    "C25_refuted"
   ],
   "note": "False: the code takes the first centre at the start of the step. Proved: what it does, and that it is right when the first centre rests."
  },
  {
   "property": "C26",
   "status": "proved",
   "theorems": [
    "C26_face_sound",
    "C26_face_contact",
    "C26_complete",
    "C26_world"
   ],
   "note": "Face part sound and complete, with its normal and position; complete through collide; and what is seen from an unturned box is what happens in the world."
  },
  {
   "property": "C27",
   "status": "proved",
   "theorems": [
    "C27_box",
    "C27_mesh",
    "C27_box_world"
   ],
   "note": "Any arithmetic for box and mesh; through collide in exact arithmetic with the transformation out of the box's coordinates."
  },
  {
   "property": "C28",
   "status": "proved",
   "theorems": [
    "C28_earliest",
    "C28_approaching"
   ],
   "note": "Per iteration of the step loop, over all pairs of colliders of distinct entities not in contact."
  },
  {
   "property": "C29",
   "status": "proved",
   "theorems": [
    "C29_free_motion"
   ],
   "note": "Steps without collision records; both arithmetics."
  },
  {
   "property": "C30",
   "status": "proved",
   "theorems": [
    "C30_gravity"
   ],
   "note": "Whole step, any number of gravity generators; entities also struck in the step are covered by C33."
  },
  {
   "property": "C31",
   "status": "partial",
   "theorems": [
    "C31_momentum_partial"
   ],
   "note": "Whole step, any number of collisions. Needs: velocities after the step are numbers; sleeping entities are at rest."
  },
  {
   "property": "C32",
   "status": "partial",
   "theorems": [
    "C32_angular_partial",
    "C32_singular_refuted"
   ],
   "note": "Bodies with invertible tensors; refuted for singular ones (which the code never turns)."
  },
  {
   "property": "C33",
   "status": "proved",
   "theorems": [
    "C33_restitution"
   ],
   "note": "Not both masses infinite; singular tensors and one infinite mass included."
  },
  {
   "property": "C34",
   "status": "partial",
   "theorems": [
    "C34_restitution_partial",
    "C34_frictionless_partial",
    "C34_spinning_refuted"
   ],
   "note": "The restitution impulse alone, with any friction after it; refuted for spinning bodies with a singular tensor."
  },
  {
   "property": "C35",
   "status": "partial",
   "theorems": [
    "C35_friction_partial",
    "C35_coulomb_refuted"
   ],
   "note": "Opposite, tangential and never reversing: proved. Coulomb bound and energy: refuted (a division is missing in the code)."
  },
  {
   "property": "C36",
   "status": "partial",
   "theorems": [
    "C36_impulse_partial",
    "C36_response_partial",
    "C36_forces",
    "C36_overflow_refuted"
   ],
   "note": "Binary32. Forces: any answers of the generators. Impulses and whole responses: as long as the moment of the impulse and the rotation matrix are finite; a finite impulse with an overflowing moment gives a NaN spin (refuted)."
  },
  {
   "property": "C37",
   "status": "proved",
   "theorems": [
    "C37_total",
    "C37_exact",
    "C37_infinite"
   ],
   "note": "Any arithmetic as a sum in some order; exact sum in exact arithmetic."
  },
  {
   "property": "C38",
   "status": "proved",
   "theorems": [
    "C38_centre",
    "C38_parts",
    "C38_origin",
    "C38_unlinked"
   ],
   "note": "Exact arithmetic, any visiting order; the 'otherwise' case for every reachable entity with colliders, and right after unlinking the last one. C38_parts says what mass, centre and tensor each kind of collider contributes, from its fields."
  },
  {
   "property": "C39",
   "status": "proved",
   "theorems": [
    "C39_frame"
   ],
   "note": "Every call but step and update_entity."
  },
  {
   "property": "C40",
   "status": "partial",
   "theorems": [
    "C40_tensor",
    "C40_box_partial",
    "C40_sphere_refuted"
   ],
   "note": "Entity tensor proved through its quadratic form; box tensor proved; ball tensor refuted (radius instead of its square)."
  },
  {
   "property": "C41",
   "status": "proved",
   "theorems": [
    "C41_inverse",
    "C41_rigid",
    "C41_origin"
   ],
   "note": "Also: cross products (handedness), offset and position."
  },
  {
   "property": "C42",
   "status": "partial",
   "theorems": [
    "C42_rotation_partial",
    "C42_nan_refuted"
   ],
   "note": "Exact arithmetic. A rotation is of length one or lost (NaN in all components); the latter happens for NaN input."
  },
  {
   "property": "C43",
   "status": "partial",
   "theorems": [
    "C43_write_back_partial",
    "C43_same_place_partial",
    "C43_turned_over_partial",
    "C43_turned_over_refuted",
    "C43_copy_refuted"
   ],
   "note": "The whole system is unchanged. Excluded: rotations the code snaps to none, an offset without colliders (refuted: the entity moves), and quaternions with negative w, for which the entity keeps its place and velocities but is woken (refuted)."
  },
  {
   "property": "C44",
   "status": "proved",
   "theorems": [
    "C44_mesh_well_formed",
    "C44_add_face",
    "C44_add_face_accepts"
   ],
   "note": "Also states exactly when add_face accepts (coplanar and convex within EPSILON) and which edges it adds."
  },
  {
   "property": "C45",
   "status": "proved",
   "theorems": [
    "C45_step_frame"
   ],
   "note": ""
  },
  {
   "property": "C46",
   "status": "proved",
   "theorems": [
    "C46_asked_once",
    "C46_unpushed"
   ],
   "note": "A generator that logs who it is asked about; plus unpushable entities keep their velocity (as numbers: -0 may become 0)."
  },
  {
   "property": "C47",
   "status": "proved",
   "theorems": [
    "C47_bystanders",
    "C47_respond"
   ],
   "note": "Whole step (entities named in no record) and single response."
  },
  {
   "property": "C48",
   "status": "proved",
   "theorems": [
    "C48_corner_face",
    "C48_mesh_mesh",
    "C48_earliest"
   ],
   "note": "Corner against face with its in-plane case; whole mesh against mesh, the earliest, with the sense of the normal."
  },
  {
   "property": "C49",
   "status": "partial",
   "theorems": [
    "C49_reported_partial",
    "C49_internal_partial",
    "C49_immovable",
    "C49_infinite_refuted"
   ],
   "note": "Public and internal energy, against the physical energy of the parts. Refuted for infinite mass (NaN at rest)."
  },
  {
   "property": "C50",
   "status": "partial",
   "theorems": [
    "C50_corners_refuted",
    "C50_box_partial",
    "C50_plane_partial",
    "C50_update_refuted"
   ],
   "note": "Refuted for boxes with exchanged corners and for updated planes; proved for boxes in order and for planes that are added."
  },
  {
   "property": "C51",
   "status": "partial",
   "theorems": [
    "C51_acceleration_refuted",
    "C51_torque_partial"
   ],
   "note": "The code applies the tensor and its inverse, so the tensor cancels: right for unit tensors only. The physical acceleration is refuted in binary32 by a ball pushed off centre."
  },
  {
   "property": "C52",
   "status": "partial",
   "theorems": [
    "C52_sphere_plane_partial",
    "C52_meshes_partial",
    "C52_concentric_refuted",
    "C52_flat_mesh_refuted",
    "C52_well_defined_partial",
    "C52_balls_partial"
   ],
   "note": "Refuted for concentric spheres (normal) and for flat meshes lying on a plane (position). Proved in exact arithmetic for all pairs of valid colliders in any motion: the position is lost exactly when a mesh is level with a plane at the start or end of the step; the normal only when a ball touches a ball, vertex or edge in the point where its own centre started (for two balls exactly then). Missing: whether rounding can lose more (f32)."
  },
  {
   "property": "C53",
   "status": "partial",
   "theorems": [
    "C53_ignored_partial",
    "C53_refuted"
   ],
   "note": "False: the position of a box is ignored by collision detection."
  },
  {
   "property": "C54",
   "status": "partial",
   "theorems": [
    "C54_together_partial",
    "C54_refuted"
   ],
   "note": "False for slowly approaching spheres (missed although they overlap); proved for spheres moving together."
  },
  {
   "property": "C55",
   "status": "proved",
   "theorems": [
    "C55_line",
    "C55_segment",
    "C55_normal"
   ],
   "note": "Line exact, edge by its line, normal from the start centre."
  },
  {
   "property": "C56",
   "status": "proved",
   "theorems": [
    "C56_polygon"
   ],
   "note": "A centre exactly on the plane at the contact time is excluded (the code finds a NaN normal and rejects it)."
  },
  {
   "property": "C57",
   "status": "proved",
   "theorems": [
    "C57_mesh_plane",
    "C57_translating"
   ],
   "note": "General statement and exact corollary for meshes that do not turn."
  },
  {
   "property": "C58",
   "status": "proved",
   "theorems": [
    "C58_new",
    "C58_rotation_vec",
    "C58_round_trip"
   ],
   "note": "Rodrigues' formula, both directions."
  },
  {
   "property": "C59",
   "status": "proved",
   "theorems": [
    "C59_lerp"
   ],
   "note": "Ends, steadiness; used by C27_box_world."
  },
  {
   "property": "C60",
   "status": "proved",
   "theorems": [
    "C60_affected"
   ],
   "note": "The turn is by Rodrigues' formula."
  },
  {
   "property": "C61",
   "status": "proved",
   "theorems": [
    "C61_newton"
   ],
   "note": "Whole step, arbitrary generators with state."
  },
  {
   "property": "C62",
   "status": "proved",
   "theorems": [
    "C62_path",
    "C62_straight"
   ],
   "note": "Whole step, any number of collisions: straight flight between the recorded times, velocities change only in collisions that name the entity. Corollary for entities that collide with nothing."
  },
  {
   "property": "C63",
   "status": "proved",
   "theorems": [
    "C63_clean",
    "C63_trace"
   ],
   "note": "Whole step. Hypotheses: the entities start with numbers, positive or infinite masses and positive tensors, and the records have unit normals and do not join two infinite masses. Angular velocity is constant between collisions, as in the code (not the motion of a free top). The pairs left in contact are listed as well; they become the neighbours of those that fall asleep. At every record the two approach each other and, if they are balls or half spaces that do not turn, really touch there, with the normal into the half space; between collisions no brisk contact (C68) is passed over. In worlds where only balls meet half spaces, the hypothesis on the records is proved rather than assumed (C63_clean)."
  },
  {
   "property": "C64",
   "status": "proved",
   "theorems": [
    "C64_steps",
    "C64_elastic_steps",
    "C64_energy"
   ],
   "note": "Whole step, from C63; C64_steps and C64_elastic_steps for any number of steps. Entities turn only with invertible tensors; infinite masses are at rest."
  },
  {
   "property": "C65",
   "status": "proved",
   "theorems": [
    "C65_steps",
    "C65_momentum"
   ],
   "note": "Whole step, from C63; C65_steps for any number of steps of an isolated system, friction and generators included."
  },
  {
   "property": "C66",
   "status": "proved",
   "theorems": [
    "C66_step",
    "C66_update"
   ],
   "note": "Whole step and update, any arithmetic; the exact characterisation in exact arithmetic is the last part of C63_trace."
  },
  {
   "property": "C67",
   "status": "partial",
   "theorems": [
    "C67_refuted"
   ],
   "note": "False: an entity that falls asleep later than its neighbour overwrites its set and forgets it. Reachable f32 witness."
  },
  {
   "property": "C68",
   "status": "partial",
   "theorems": [
    "C68_chase_refuted",
    "C68_neighbour_refuted",
    "C68_partial"
   ],
   "note": "False twice, reachable f32 witnesses: a ball overtaken by a faster one (normal on the wrong side), and an awake ball with a sleeping neighbour. What holds, in exact arithmetic: non-turning balls that are not neighbours do not pass a half space or another ball with a contact brisk enough for the thresholds, unless the first of two balls is overtaken by the second (if they overlap at the start, the contact is at once); stated for steps without collisions and, in C63, for the flights between collisions."
  },
  {
   "property": "C69",
   "status": "partial",
   "theorems": [
    "C69_floor_refuted",
    "C69_spin_refuted",
    "C69_step",
    "C69_partial"
   ],
   "note": "False twice, reachable f32 witnesses: with default settings a floor falls asleep under a sliding ball, which then falls through it; a turning ball falls through in one step. What holds, in exact arithmetic and over any number of steps: no step panics, and a ball that does not turn, alone over an infinitely heavy frictionless floor at rest, is never deeper in it than a millionth of the longest step, if bounces keep the speed or sleeping is switched off, and gravity in every step is above the approach threshold. Missing: turning balls, friction, more bodies, other shapes."
  },
  {
   "property": "C70",
   "status": "partial",
   "theorems": [
    "C70_refuted",
    "C70_partial"
   ],
   "note": "False, reachable f32 witness with default settings: a ball with restitution 0.9, dropped from rest, is higher after two steps. What holds, in exact arithmetic for the ball of C69: a step without collision does not increase the energy, one with a bounce by at most 2 g d |v| with v the velocity at impact."
  },
  {
   "property": "C71",
   "status": "proved",
   "theorems": [
    "C71_step",
    "C71_update"
   ],
   "note": ""
  },
  {
   "property": "C72",
   "status": "proved",
   "theorems": [
    "C72_talk"
   ],
   "note": ""
  },
  {
   "property": "C73",
   "status": "proved",
   "theorems": [
    "C73_frame",
    "C73_add_generator",
    "C73_remove_generator",
    "C73_new"
   ],
   "note": ""
  },
  {
   "property": "C74",
   "status": "partial",
   "theorems": [
    "C74_placed_partial"
   ],
   "note": "Exact arithmetic. Missing: values that are not finite, and an entity whose colliders were all removed while its centre of mass was off its origin (see C43)."
  },
  {
   "property": "C75",
   "status": "partial",
   "theorems": [
    "C75_defaults_partial",
    "C75_friction_refuted",
    "C75_box_mass_refuted"
   ],
   "note": "False: planes, meshes and boxes are documented with friction threshold 1 and static friction 0.25, the code has them the other way round; boxes are documented with mass 1, the code has 0. Everything else agrees."
  },
  {
   "property": "C76",
   "status": "partial",
   "theorems": [
    "C76_balanced_partial",
    "C76_damper_refuted"
   ],
   "note": "False: a damper that answers opposite forces for every state takes all momentum from a pair (reachable f32 witness), since the second entity is served after the first got its new velocity. What holds, in exact arithmetic: forces that depend on positions only and cancel leave the momentum alone in steps without collisions (C65 covers collisions)."
  },
  {
   "property": "C77",
   "status": "partial",
   "theorems": [
    "C77_refuted"
   ],
   "note": "False, reachable f32 witnesses: the comparison is the other way round; fast sliding gets the static coefficient, slow sliding the dynamic one. C35 and C63 state exactly which coefficient is used."
  },
  {
   "property": "C78",
   "status": "partial",
   "theorems": [
    "C78_ball_box_partial"
   ],
   "note": "Exact arithmetic; boxes that do not turn; motion that is not within EPSILON of grazing an edge or corner and, per axis of the box, zero or at least 1/1000. The reported time is never late; it may be early by the solver's tolerance (slack)."
  },
  {
   "property": "C79",
   "status": "partial",
   "theorems": [
    "C79_ball_mesh_partial",
    "C79_built_partial",
    "C79_triangle_partial",
    "C79_refuted"
   ],
   "note": "As C78 for meshes. False if the centre is exactly in the plane of a face: the face is then not noticed (witness in exact arithmetic)."
  },
  {
   "property": "C80",
   "status": "partial",
   "theorems": [
    "C80_flight_partial",
    "C80_error_partial",
    "C80_energy_partial",
    "C80_refuted"
   ],
   "note": "Exact arithmetic, any number of steps: closed form of position and velocity, bound of the error, exact loss of energy. Missing: bodies that fall asleep on the way; false for them (a body of one gram is put to sleep in free fall and hangs in the air; witness at f32, all libms)."
  },
  {
   "property": "C81",
   "status": "partial",
   "theorems": [
    "C81_reproducible_partial",
    "C81_exact_partial",
    "C81_mass_refuted",
    "C81_step_refuted",
    "C81_handle_refuted"
   ],
   "note": "Any arithmetic, f32 included, for histories in which no entity ever has two colliders; in exact arithmetic also for entities with several colliders as long as there are no steps and removals of entities. False otherwise (reachable f32 witnesses): masses of several colliders, simultaneous collisions, and handles given out after a removal depend on the order."
  },
  {
   "property": "C82",
   "status": "partial",
   "theorems": [
    "C82_round_partial",
    "C82_tumbling_refuted"
   ],
   "note": "Any number of steps with collisions and friction, for bodies as hard to turn about any axis. False for other bodies (reachable witness): in flight the code keeps the angular velocity, so the angular momentum of a tumbling brick turns with it."
  },
  {
   "property": "C83",
   "status": "proved",
   "theorems": [
    "C83_real",
    "C83_vectors",
    "C83_lengths",
    "C83_matrices",
    "C83_inverse",
    "C83_quaternions",
    "C83_turning"
   ],
   "note": "Exact arithmetic. The operations are nalgebra's, transcribed in Vec.v; that nalgebra evaluates them in this order is trusted."
  },
  {
   "property": "C84",
   "status": "partial",
   "theorems": [
    "C84_order",
    "C84_add",
    "C84_sub",
    "C84_mul",
    "C84_sqrt",
    "C84_literals",
    "C84_div_partial",
    "C84_signum_partial",
    "C84_zero_refuted"
   ],
   "note": "All operations of Num except sin, cos and atan2. Division by -0 and the sign of -0 are excluded (false there: exact arithmetic has one zero)."
  },
  {
   "property": "C85",
   "status": "partial",
   "theorems": [
    "C85_drift_partial",
    "C85_stuck_refuted"
   ],
   "note": "binary32. Position and velocity only, no force generators, steps without collision records. C85_stuck_refuted: at 2^19 from the origin a body with velocity 1 never moves under steps of 1/60."
  },
  {
   "property": "C86",
   "status": "proved",
   "theorems": [
    "C86_turning",
    "C86_constants"
   ],
   "note": "Exact arithmetic, gravity or no forces, steps that do not run out of iterations. The exact turning is stated for flights without collisions of others whose steps turn by more than 2 * 2^-23."
  },
  {
   "property": "C87",
   "status": "proved",
   "theorems": [
    "C87_drift",
    "C87_lengths"
   ],
   "note": "Binary32. The libm is arbitrary but for its error bound (correctly rounded sines and cosines meet it with 2^-22). The number of turns counts the whole history, not only what came after the last write-back of the entity."
  },
  {
   "property": "C88",
   "status": "proved",
   "theorems": [
    "C88_history",
    "C88_seen",
    "C88_step",
    "C88_collide"
   ],
   "note": "Exact arithmetic; in binary32 it is false far from the origin (C85_stuck_refuted). Custom force generators may look at positions, so only gravity is allowed. Answers of the calls in the model's histories do not contain positions; entities are compared through get_entity."
  },
  {
   "property": "C89",
   "status": "partial",
   "theorems": [
    "C89_response",
    "C89_flight_partial",
    "C89_sphere_plane_partial",
    "C89_spheres_partial",
    "C89_refuted"
   ],
   "note": "Exact arithmetic: the response to a contact, free flight under gravity, ball against plane, times and places of balls meeting. Meshes and boxes are not compared. C89_refuted (binary32, any libm, reachable states): a head-on collision of two balls seen from a frame moving sideways transfers next to nothing and makes the balls spin."
  },
  {
   "property": "C90",
   "status": "partial",
   "theorems": [
    "C90_history_partial",
    "C90_seen_partial",
    "C90_step_partial",
    "C90_collide_partial",
    "C90_boxes_refuted",
    "C90_meshes_refuted"
   ],
   "note": "Exact arithmetic, whole histories of calls, the three mirrors across the axes and everything made of them. Missing: boxes, meshes when one axis or three are turned round, force generators other than gravity. C90_boxes_refuted (binary32, any libm): a ball in the middle of a box collides when it moves one way and not when it moves the other. C90_meshes_refuted: two triangles in one plane collide with a normal out of the plane."
  },
  {
   "property": "C91",
   "status": "partial",
   "theorems": [
    "C91_history_partial",
    "C91_seen_partial",
    "C91_step_partial",
    "C91_collide_partial",
    "C91_boxes_refuted",
    "C91_rounding_refuted"
   ],
   "note": "Exact arithmetic, whole histories of calls, and one test of two colliders without conditions on numbers. Missing: boxes, force generators other than gravity, and steps made while some tensor of inertia is not finite (infinite terms do not distribute in the inverse). C91_boxes_refuted (binary32, any libm): a ball as far out along one axis of a cube as along another is given a normal along whichever comes first. C91_rounding_refuted (binary32, any libm): the energy of an entity depends on which axis it moves along, and so does whether it falls asleep."
  },
  {
   "property": "C92",
   "status": "partial",
   "theorems": [
    "C92_history_partial",
    "C92_all_rotations",
    "C92_seen_partial",
    "C92_step_partial",
    "C92_collide_partial",
    "C92_calls",
    "C92_boxes_refuted"
   ],
   "note": "Exact arithmetic, whole histories of calls, for every rotation that takes axes to axes (C92_all_rotations: the two turns the theorems are built from generate all 24), and one test of two colliders without conditions on numbers. Missing: boxes, force generators other than gravity, steps made while some tensor of inertia is not finite, and rotations by other angles. C92_boxes_refuted (binary32, any libm): after a quarter turn a ball as far out along the first axis of a cube as along the second is still given a normal along the first."
  },
  {
   "property": "C93",
   "status": "proved",
   "theorems": [
    "C93_first",
    "C93_colliders"
   ],
   "note": "Any arithmetic with an ordered comparison. Stated about one iteration of the collision loop; among the colliders of one and the same pair of entities the order of the hash sets decides, which changes from run to run."
  },
  {
   "property": "C94",
   "status": "proved",
   "theorems": [
    "C94_mesh",
    "C94_box",
    "C94_meshes"
   ],
   "note": "Any arithmetic with an ordered comparison. The collisions with single parts are those the crate computes for a vertex, an edge or a face alone; what those mean is part of C24, C26, C27 and C48. For two meshes the order is corners of the first against faces of the second, then corners of the second against faces of the first."
  }
 ]
}