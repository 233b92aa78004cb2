{
 "C01": "Both halves for all three kinds of handle, any history, any arithmetic.",
 "C02": "add/remove exact; link and update_collider frame; update_entity included.",
 "C03": "Values as stored, acceptance conditions as documented, frame.",
 "C07": "True for every rejected call except update_collider with an invalid value of the right kind, which recomputes the owner's mass: bounded by a frame theorem, without effect in exact arithmetic (C07_exact_partial), and refuted in binary32 by a rounding drift.",
 "C08": "Binary32, NaN and infinities included. own_mass: not negative (NaN is accepted by the code).",
 "C44": "Also states exactly when add_face accepts (coplanar and convex within EPSILON) and which edges it adds.",
 "C10": "Termination of every call (given that user generators terminate); update_entity and step wake exactly the connected entities; nothing else wakes or puts to sleep.",
 "C11": "Both for entities that stay asleep and, as a criterion, for those not connected to a struck one.",
 "C12": "Against a clock computed from the history; iff.",
 "C14": "At most iteration_max records, and the warning is printed iff exactly iteration_max were made.",
 "C28": "Per iteration of the step loop, over all pairs of colliders of distinct entities not in contact.",
 "C29": "Steps without collision records; both arithmetics.",
 "C46": "A generator that logs who it is asked about; plus unpushable entities keep their velocity (as numbers: -0 may become 0).",
 "C47": "Whole step (entities named in no record) and single response.",
 "C17": "All binary32 values including NaN, infinities and signed zeros.",
 "C18": "Exact arithmetic, ends may be infinite; refuted when both ranges are unbounded on the same side (never the case in the crate's own use).",
 "C19": "Exact arithmetic; the tolerance bands are described too.",
 "C20": "Every pair of kinds, every arithmetic with an order; binary32 included, with NaN and infinities.",
 "C21": "Any arithmetic.",
 "C22": "Bit for bit for pairs of different kinds. Two spheres: same cases, times, position (exact arithmetic), but the normals need not be opposite (refuted). Two meshes: symmetric except when corners of both hit at the same time.",
 "C23": "At the level of collide, with both entities moving and turned.",
 "C24": "At the level of collide. Squared relative movement and discriminant at least EPSILON, as stated.",
 "C25": "False: the code takes the first centre at the start of the step. Proved: what it does, and that it is right when the first centre rests.",
 "C26": "Face part sound and complete, with its normal and position; complete through collide; and what is seen from an unturned box is what happens in the world.",
 "C27": "Any arithmetic for box and mesh; through collide in exact arithmetic with the transformation out of the box's coordinates.",
 "C41": "Also: cross products (handedness), offset and position.",
 "C48": "Corner against face with its in-plane case; whole mesh against mesh, the earliest, with the sense of the normal.",
 "C52": "Refuted for concentric spheres (normal) and for flat meshes lying on a plane (position). Proved in exact arithmetic for all pairs of valid colliders in any motion: the position is lost exactly when a mesh is level with a plane at the start or end of the step; the normal only when a ball touches a ball, vertex or edge in the point where its own centre started (for two balls exactly then). Missing: whether rounding can lose more (f32).",
 "C53": "False: the position of a box is ignored by collision detection.",
 "C54": "False for slowly approaching spheres (missed although they overlap); proved for spheres moving together.",
 "C55": "Line exact, edge by its line, normal from the start centre.",
 "C56": "A centre exactly on the plane at the contact time is excluded (the code finds a NaN normal and rejects it).",
 "C57": "General statement and exact corollary for meshes that do not turn.",
 "C58": "Rodrigues' formula, both directions.",
 "C59": "Ends, steadiness; used by C27_box_world.",
 "C60": "The turn is by Rodrigues' formula.",
 "C30": "Whole step, any number of gravity generators; entities also struck in the step are covered by C33.",
 "C31": "Whole step, any number of collisions. Needs: velocities after the step are numbers; sleeping entities are at rest.",
 "C32": "Bodies with invertible tensors; refuted for singular ones (which the code never turns).",
 "C33": "Not both masses infinite; singular tensors and one infinite mass included.",
 "C34": "The restitution impulse alone, with any friction after it; refuted for spinning bodies with a singular tensor.",
 "C35": "Opposite, tangential and never reversing: proved. Coulomb bound and energy: refuted (a division is missing in the code).",
 "C37": "Any arithmetic as a sum in some order; exact sum in exact arithmetic.",
 "C38": "Exact arithmetic, any visiting order; the 'otherwise' case for every reachable entity with colliders, and right after unlinking the last one. C38_parts says what mass, centre and tensor each kind of collider contributes, from its fields.",
 "C39": "Every call but step and update_entity.",
 "C40": "Entity tensor proved through its quadratic form; box tensor proved; ball tensor refuted (radius instead of its square).",
 "C42": "Exact arithmetic. A rotation is of length one or lost (NaN in all components); the latter happens for NaN input.",
 "C51": "The code applies the tensor and its inverse, so the tensor cancels: right for unit tensors only. The physical acceleration is refuted in binary32 by a ball pushed off centre.",
 "C61": "Whole step, arbitrary generators with state.",
 "C09": "Every history that avoids three listed kinds of call returns normally; in states whose contacts exist the causes of a panic are exactly named. The three kinds do panic: witnesses.",
 "C15": "Binary32 with rounding, every state and every finite dt of at least EPSILON; also exact arithmetic.",
 "C36": "Binary32. Forces: any answers of the generators. Impulses and whole responses: as long as the moment of the impulse and the rotation matrix are finite; a finite impulse with an overflowing moment gives a NaN spin (refuted).",
 "C43": "The whole system is unchanged. Excluded: rotations the code snaps to none, an offset without colliders (refuted: the entity moves), and quaternions with negative w, for which the entity keeps its place and velocities but is woken (refuted).",
 "C49": "Public and internal energy, against the physical energy of the parts. Refuted for infinite mass (NaN at rest).",
 "C50": "Refuted for boxes with exchanged corners and for updated planes; proved for boxes in order and for planes that are added.",
 "C62": "Whole step, any number of collisions: straight flight between the recorded times, velocities change only in collisions that name the entity. Corollary for entities that collide with nothing.",
 "C63": "Whole step. Hypotheses: the entities start with numbers, positive or infinite masses and positive tensors, and the records have unit normals and do not join two infinite masses. Angular velocity is constant between collisions, as in the code (not the motion of a free top). The pairs left in contact are listed as well; they become the neighbours of those that fall asleep. At every record the two approach each other and, if they are balls or half spaces that do not turn, really touch there, with the normal into the half space; between collisions no brisk contact (C68) is passed over. In worlds where only balls meet half spaces, the hypothesis on the records is proved rather than assumed (C63_clean).",
 "C64": "Whole step, from C63; C64_steps and C64_elastic_steps for any number of steps. Entities turn only with invertible tensors; infinite masses are at rest.",
 "C65": "Whole step, from C63; C65_steps for any number of steps of an isolated system, friction and generators included.",
 "C66": "Whole step and update, any arithmetic; the exact characterisation in exact arithmetic is the last part of C63_trace.",
 "C67": "False: an entity that falls asleep later than its neighbour overwrites its set and forgets it. Reachable f32 witness.",
 "C68": "False twice, reachable f32 witnesses: a ball overtaken by a faster one (normal on the wrong side), and an awake ball with a sleeping neighbour. What holds, in exact arithmetic: non-turning balls that are not neighbours do not pass a half space or another ball with a contact brisk enough for the thresholds, unless the first of two balls is overtaken by the second (if they overlap at the start, the contact is at once); stated for steps without collisions and, in C63, for the flights between collisions.",
 "C69": "False twice, reachable f32 witnesses: with default settings a floor falls asleep under a sliding ball, which then falls through it; a turning ball falls through in one step. What holds, in exact arithmetic and over any number of steps: no step panics, and a ball that does not turn, alone over an infinitely heavy frictionless floor at rest, is never deeper in it than a millionth of the longest step, if bounces keep the speed or sleeping is switched off, and gravity in every step is above the approach threshold. Missing: turning balls, friction, more bodies, other shapes.",
 "C70": "False, reachable f32 witness with default settings: a ball with restitution 0.9, dropped from rest, is higher after two steps. What holds, in exact arithmetic for the ball of C69: a step without collision does not increase the energy, one with a bounce by at most 2 g d |v| with v the velocity at impact.",
 "C74": "Exact arithmetic. Missing: values that are not finite, and an entity whose colliders were all removed while its centre of mass was off its origin (see C43).",
 "C75": "False: planes, meshes and boxes are documented with friction threshold 1 and static friction 0.25, the code has them the other way round; boxes are documented with mass 1, the code has 0. Everything else agrees.",
 "C76": "False: a damper that answers opposite forces for every state takes all momentum from a pair (reachable f32 witness), since the second entity is served after the first got its new velocity. What holds, in exact arithmetic: forces that depend on positions only and cancel leave the momentum alone in steps without collisions (C65 covers collisions).",
 "C77": "False, reachable f32 witnesses: the comparison is the other way round; fast sliding gets the static coefficient, slow sliding the dynamic one. C35 and C63 state exactly which coefficient is used.",
 "C78": "Exact arithmetic; boxes that do not turn; motion that is not within EPSILON of grazing an edge or corner and, per axis of the box, zero or at least 1/1000. The reported time is never late; it may be early by the solver's tolerance (slack).",
 "C79": "As C78 for meshes. False if the centre is exactly in the plane of a face: the face is then not noticed (witness in exact arithmetic).",
 "C80": "Exact arithmetic, any number of steps: closed form of position and velocity, bound of the error, exact loss of energy. Missing: bodies that fall asleep on the way; false for them (a body of one gram is put to sleep in free fall and hangs in the air; witness at f32, all libms).",
 "C81": "Any arithmetic, f32 included, for histories in which no entity ever has two colliders; in exact arithmetic also for entities with several colliders as long as there are no steps and removals of entities. False otherwise (reachable f32 witnesses): masses of several colliders, simultaneous collisions, and handles given out after a removal depend on the order.",
 "C82": "Any number of steps with collisions and friction, for bodies as hard to turn about any axis. False for other bodies (reachable witness): in flight the code keeps the angular velocity, so the angular momentum of a tumbling brick turns with it.",
 "C83": "Exact arithmetic. The operations are nalgebra's, transcribed in Vec.v; that nalgebra evaluates them in this order is trusted.",
 "C84": "All operations of Num except sin, cos and atan2. Division by -0 and the sign of -0 are excluded (false there: exact arithmetic has one zero).",
 "C85": "binary32. Position and velocity only, no force generators, steps without collision records. C85_stuck_refuted: at 2^19 from the origin a body with velocity 1 never moves under steps of 1/60.",
 "C86": "Exact arithmetic, gravity or no forces, steps that do not run out of iterations. The exact turning is stated for flights without collisions of others whose steps turn by more than 2 * 2^-23.",
 "C87": "Binary32. The libm is arbitrary but for its error bound (correctly rounded sines and cosines meet it with 2^-22). The number of turns counts the whole history, not only what came after the last write-back of the entity.",
 "C88": "Exact arithmetic; in binary32 it is false far from the origin (C85_stuck_refuted). Custom force generators may look at positions, so only gravity is allowed. Answers of the calls in the model's histories do not contain positions; entities are compared through get_entity.",
 "C89": "Exact arithmetic: the response to a contact, free flight under gravity, ball against plane, times and places of balls meeting. Meshes and boxes are not compared. C89_refuted (binary32, any libm, reachable states): a head-on collision of two balls seen from a frame moving sideways transfers next to nothing and makes the balls spin.",
 "C90": "Exact arithmetic, whole histories of calls, the three mirrors across the axes and everything made of them. Missing: boxes, meshes when one axis or three are turned round, force generators other than gravity. C90_boxes_refuted (binary32, any libm): a ball in the middle of a box collides when it moves one way and not when it moves the other. C90_meshes_refuted: two triangles in one plane collide with a normal out of the plane.",
 "C91": "Exact arithmetic, whole histories of calls, and one test of two colliders without conditions on numbers. Missing: boxes, force generators other than gravity, and steps made while some tensor of inertia is not finite (infinite terms do not distribute in the inverse). C91_boxes_refuted (binary32, any libm): a ball as far out along one axis of a cube as along another is given a normal along whichever comes first. C91_rounding_refuted (binary32, any libm): the energy of an entity depends on which axis it moves along, and so does whether it falls asleep.",
 "C92": "Exact arithmetic, whole histories of calls, for every rotation that takes axes to axes (C92_all_rotations: the two turns the theorems are built from generate all 24), and one test of two colliders without conditions on numbers. Missing: boxes, force generators other than gravity, steps made while some tensor of inertia is not finite, and rotations by other angles. C92_boxes_refuted (binary32, any libm): after a quarter turn a ball as far out along the first axis of a cube as along the second is still given a normal along the first.",
 "C93": "Any arithmetic with an ordered comparison. Stated about one iteration of the collision loop; among the colliders of one and the same pair of entities the order of the hash sets decides, which changes from run to run.",
 "C94": "Any arithmetic with an ordered comparison. The collisions with single parts are those the crate computes for a vertex, an edge or a face alone; what those mean is part of C24, C26, C27 and C48. For two meshes the order is corners of the first against faces of the second, then corners of the second against faces of the first."
}