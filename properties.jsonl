{"id": "C01", "title": "Handles never alias", "statement": "Every handle returned by add_entity (and likewise by add_collider and by add_unary_force_generator) differs from every handle of the same kind returned earlier on the same PhysicsSystem, and once the object behind a handle has been removed, the getters report that handle as absent forever after, even when its storage slot is reused.", "quantifier": "every finite history of API calls (adds, removals, updates, links, steps, in any order and number), every pair of positions in that history, every hash-set iteration order", "why_tests_cant": "Aliasing needs a particular interleaving of insertions, removals and slot reuse of unbounded length; a test exercises a handful.", "anchors": ["src/physics_system.rs: add_entity, remove_entity, add_collider, remove_collider, add_unary_force_generator", "src/types.rs: EntityHandle, ColliderHandle"]}
{"id": "C02", "title": "Entity store behaves as a map", "statement": "add_entity makes get_entity(h) return exactly the given velocity, angular velocity, own mass and position, awake and with no colliders; remove_entity makes it return None; and add_entity, remove_entity, link_collider and update_collider leave get_entity of every entity they do not name (and that does not own the named collider) unchanged in every field.", "quantifier": "every reachable system state, every call, every other handle", "why_tests_cant": "The frame part (nothing else changes) is a statement about all other handles in all states.", "anchors": ["src/physics_system.rs: add_entity, remove_entity, get_entity, update_entity", "src/entity.rs: InternalEntity::new_from, make_pub"]}
{"id": "C03", "title": "Collider store behaves as a map", "statement": "get_collider(h) after add_collider returns the values passed in (plane normal normalised, box corners sorted, unlinked); after a successful update_collider it returns the new values with the link kept; after remove_collider it returns None; and add, update, remove and link leave get_collider of every other collider unchanged.", "quantifier": "every reachable system state, every collider kind and value, every other handle", "why_tests_cant": "Quantifies over all states, all values and all other handles.", "anchors": ["src/physics_system.rs: add_collider, update_collider, remove_collider, get_collider", "src/*_collider.rs: new_from, update_from, make_pub"]}
{"id": "C04", "title": "Links are always consistent in both directions", "statement": "At every moment, collider c is in get_entity(e).get_colliders() if and only if get_collider(c).get_entity() is Some(e); so a collider belongs to at most one entity and no entity lists a dead collider.", "quantifier": "every state reachable by any history of API calls including steps", "why_tests_cant": "An invariant of unbounded histories of link, unlink, remove and step.", "anchors": ["src/physics_system.rs: link_collider, remove_entity, remove_collider", "src/entity.rs: Entity::get_colliders", "src/collider.rs: Collider::get_entity"]}
{"id": "C05", "title": "link_collider moves exactly one collider", "statement": "link_collider(c, t) returns Err exactly when c is not alive or t is Some of a dead entity, and then nothing observable changes; otherwise afterwards c is owned by t (or by nobody for None), is gone from its previous owner, and every other collider keeps its owner.", "quantifier": "every reachable state, every collider handle, every target, every iteration order", "why_tests_cant": "Statement about all other links in all states, including relinking to the same entity and targets that died.", "anchors": ["src/physics_system.rs: link_collider"]}
{"id": "C06", "title": "remove_entity removes the entity and its colliders, nothing else", "statement": "remove_entity(h) returns true exactly when h was alive; afterwards h and every collider that was linked to h are gone, and every other entity, every other collider and all force generators are unchanged.", "quantifier": "every reachable state, every handle, every iteration order of the entity's collider set", "why_tests_cant": "Exact footprint of a cascading delete, for every state.", "anchors": ["src/physics_system.rs: remove_entity, remove_collider"]}
{"id": "C07", "title": "Rejected calls have no effect", "statement": "Whenever add_entity, add_collider, update_entity, update_collider or link_collider returns Err (and whenever remove_entity returns false), the whole system state is unchanged.", "quantifier": "every reachable state, every rejected argument", "why_tests_cant": "Atomicity on the error path for all states and all invalid arguments.", "anchors": ["src/physics_system.rs: add_entity, add_collider, update_entity, update_collider, link_collider"]}
{"id": "C08", "title": "Only valid objects are ever stored", "statement": "At every moment, every collider returned by get_collider has a mass that is not negative and not NaN, spheres have radius above 0.05, box minimum corners are componentwise below the maximum corners, plane normals were longer than EPSILON when given, meshes have at least 3 vertices, one face and one edge and all their indices are in range; and no entity has negative own mass.", "quantifier": "every state reachable by any history, for IEEE single precision values including NaN and infinities", "why_tests_cant": "NaN and infinity corner cases times unbounded histories.", "anchors": ["src/*_collider.rs: is_valid, new_from, update_from", "src/entity.rs: new_from, update_from"]}
{"id": "C09", "title": "No API call panics on a system built through the API", "statement": "Starting from PhysicsSystem::new(), any sequence of public calls returns normally (no panic, no endless loop).", "quantifier": "every finite history of API calls with arbitrary f32 arguments, non-panicking force generators, every hash-set iteration order", "why_tests_cant": "Absence of panics over unbounded histories and all f32 values.", "anchors": ["src/physics_system.rs: all of impl PhysicsSystem", "src/entity.rs: wake_up, recalculate_mass", "src/collision.rs: get_polygon_normal, collide_sphere_with_polygon_surface"]}
{"id": "C10", "title": "Waking spreads to exactly the connected sleepers and terminates", "statement": "When a call wakes an entity, the wake-up always terminates; every finite-mass entity connected to it through recorded contacts is awake afterwards, every other entity keeps its sleeping flag, and no entity is put to sleep by waking.", "quantifier": "every contact graph on any number of entities (cycles included), every start entity, every iteration order", "why_tests_cant": "Graph reachability on arbitrary graphs; termination cannot be tested.", "anchors": ["src/entity.rs: InternalEntity::wake_up", "src/physics_system.rs: update_entity, step"]}
{"id": "C11", "title": "Sleeping entities do not move", "statement": "If an entity is asleep before a step and the step does not wake it, then its position, rotation and whole orientation after the step are exactly what they were, and its velocity and angular velocity are zero.", "quantifier": "every reachable state, every dt, all forces and all collisions of other entities, exact IEEE values", "why_tests_cant": "Must hold whatever forces, collisions and wake-ups happen elsewhere in the step.", "anchors": ["src/physics_system.rs: step (lines 511-530, 638-649)", "src/entity.rs: Entity::was_asleep"]}
{"id": "C12", "title": "Entities fall asleep only after a full low-energy period", "statement": "A step puts an entity to sleep only if its energy at the end of that step is not above energy_sleep_threshold and the accumulated time of the consecutive low-energy steps since the first one has reached sleep_time_threshold; a single step ending with energy above the threshold resets the accumulated time to zero and prevents sleep.", "quantifier": "every sequence of steps of any length with any dts, every entity, every threshold values", "why_tests_cant": "Temporal property over unbounded runs of steps.", "anchors": ["src/physics_system.rs: step (638-681)", "PhysicsSystem::energy_sleep_threshold, sleep_time_threshold"]}
{"id": "C13", "title": "Tiny steps do nothing", "statement": "step(dt) with |dt| < 1e-6 leaves the entire system, including collision_records and debug, exactly as it was.", "quantifier": "every state, every such f32 dt", "why_tests_cant": "All states.", "anchors": ["src/physics_system.rs: step (333-335)"]}
{"id": "C14", "title": "A step handles at most iteration_max collisions and says when it ran out", "statement": "After step, collision_records has at most iteration_max entries, and the debug log says the system ran out of iterations exactly when there are iteration_max of them.", "quantifier": "every state, every dt that is not tiny, every iteration_max", "why_tests_cant": "All states and collision patterns.", "anchors": ["src/physics_system.rs: step (394-636), iteration_max, collision_records, debug"]}
{"id": "C15", "title": "Collision records are ordered in time and lie within the step", "statement": "After step(dt) with finite dt >= 1e-6, the times in collision_records are non-decreasing and each is between 0 and dt, in exact IEEE single precision (rounding included).", "quantifier": "every state, every finite positive f32 dt, any number of collisions in the step", "why_tests_cant": "Rounding of the running time percentage over arbitrarily many collisions cannot be enumerated.", "anchors": ["src/physics_system.rs: step (514, 542)", "src/collision_record.rs: CollisionRecord::time"]}
{"id": "C16", "title": "Collision records name live entities and the right coefficients", "statement": "Each record made by a step names two different entities that are alive, and its restitution coefficient is the product of the coefficients of a collider of the first and a collider of the second.", "quantifier": "every reachable state, every dt, every record", "why_tests_cant": "All states.", "anchors": ["src/physics_system.rs: step (457-480, 538-547)", "src/collision_record.rs"]}
{"id": "C17", "title": "Ranges behave as sets of numbers", "statement": "Membership in the intersection of two ranges is membership in both; the containing range is the smallest range holding both; empty, single, range and everything contain exactly what their documentation says; a range with a NaN bound is empty.", "quantifier": "all f32 bounds and members including NaN, infinities and signed zeros", "why_tests_cant": "Continuous domain with special values.", "anchors": ["src/range.rs: Range::intersect, contain, range, single, empty, everything, is_empty, min, max"]}
{"id": "C18", "title": "Moving ranges overlap exactly when linear_overlap says", "statement": "For two nonempty ranges, the second moving at a speed of at least EPSILON, linear_overlap returns exactly the set of times at which they overlap; below EPSILON it returns all times or none according to whether they overlap now.", "quantifier": "all real (and infinite) bounds and all speeds, in exact arithmetic", "why_tests_cant": "Continuous domain.", "anchors": ["src/range.rs: Range::linear_overlap"]}
{"id": "C19", "title": "quadratic_zeros returns the roots", "statement": "When |a| >= EPSILON and the discriminant is at least EPSILON, the returned range's ends are the two real roots of a x^2 + b x + c in increasing order; when the discriminant is below -EPSILON the range is empty; when |a| < EPSILON <= |b| it is the single root of the linear part; and whenever the true quadratic is <= 0 somewhere outside the tolerance bands, those points are exactly the returned range for a > 0.", "quantifier": "all real a, b, c, in exact arithmetic", "why_tests_cant": "Continuous domain.", "anchors": ["src/range.rs: Range::quadratic_zeros"]}
{"id": "C20", "title": "Every reported collision time lies in the step", "statement": "Whatever the two colliders and their start and end orientations, a detected collision has a start time between 0 and 1 (not NaN).", "quantifier": "all collider kinds and values, all orientations, all f32 values including NaN and infinities, any sin/cos/atan2", "why_tests_cant": "All f32 inputs across all pair kinds.", "anchors": ["src/collision.rs: collide and all collide_* functions"]}
{"id": "C21", "title": "Null colliders and unsupported pairs never collide", "statement": "collide returns no collision whenever either collider is a null collider, and for plane-plane, plane-box, mesh-box and box-box pairs.", "quantifier": "all values and orientations", "why_tests_cant": "All inputs.", "anchors": ["src/collision.rs: collide (38-40, 104, 258)", "src/null_collider.rs"]}
{"id": "C22", "title": "Collision detection is symmetric in its arguments", "statement": "Exchanging the two colliders (with their orientations) reports a collision in exactly the same cases with the same times and position and the opposite normal.", "quantifier": "all pairs of colliders and all orientations", "why_tests_cant": "All inputs.", "anchors": ["src/collision.rs: collide"]}
{"id": "C23", "title": "Sphere-plane collisions are exact", "statement": "For a unit plane normal and approach speed along the normal of at least EPSILON, a sphere-plane collision is reported exactly when the ball touches the filled half space at some time in [0,1], its start time is the first such time, the reported position is the point of the ball deepest towards the plane at that time, and the normal is the opposite of the plane normal.", "quantifier": "all real centres, radii, movements and planes, in exact arithmetic", "why_tests_cant": "Continuous domain; first-time property quantifies over all earlier instants.", "anchors": ["src/collision.rs: collide_sphere_with_plane, sphere_plane_overlap_time"]}
{"id": "C24", "title": "Sphere-sphere collision times are exact", "statement": "For relative movement of squared length at least EPSILON and discriminant at least EPSILON, a sphere-sphere collision is reported exactly when the balls touch at some time in [0,1], at the first such time, and the reported position divides the segment between the centres at that time in the ratio of the radii (so at first contact it lies on both surfaces).", "quantifier": "all real centres, radii and movements, in exact arithmetic", "why_tests_cant": "Continuous domain.", "anchors": ["src/collision.rs: collide_sphere_with_sphere"]}
{"id": "C25", "title": "The collision normal of two spheres points along the line of centres", "statement": "The reported normal of a sphere-sphere collision is the unit vector from the first centre towards the second centre at the time of the collision.", "quantifier": "all real centres, radii and movements", "why_tests_cant": "Continuous domain.", "anchors": ["src/collision.rs: collide_sphere_with_sphere (312)", "src/collision_record.rs: normal"]}
{"id": "C26", "title": "Sphere-box face contacts are sound and complete", "statement": "The face part of sphere-box detection never reports a time at which the ball and the box are apart, and whenever the ball's centre passes through the box grown by the radius along one axis, a collision no later than that is reported.", "quantifier": "all real boxes, balls and movements (components zero or at least EPSILON), in exact arithmetic", "why_tests_cant": "Continuous domain; soundness of taking one hull of three time ranges is a convexity argument.", "anchors": ["src/collision.rs: collide_sphere_with_aligned_box"]}
{"id": "C27", "title": "Sphere-box reports the earliest of faces, edges and corners", "statement": "The collision reported for a sphere and a box (and for a sphere and a mesh) starts no later than any collision of the sphere with any of its faces, edges or corners, and is one of those.", "quantifier": "all f32 inputs", "why_tests_cant": "Minimum over a candidate set with NaN-aware comparison for all inputs.", "anchors": ["src/collision.rs: EarliestCollisionAccumulator, collide_sphere_with_aligned_box, collide_sphere_with_mesh"]}
{"id": "C28", "title": "The step responds to the earliest approaching collision", "statement": "In each iteration of a step the collision acted upon is one between two entities not recorded as resting contacts, approaching at the contact point with normal speed not below EPSILON, and no other such collision between any colliders of any two entities starts earlier.", "quantifier": "every state, every pair of entities, every pair of their colliders, every iteration order, exact IEEE", "why_tests_cant": "Minimum over all pairs in all states, with NaN-aware comparisons.", "anchors": ["src/physics_system.rs: step (398-485)"]}
{"id": "C29", "title": "Free motion is semi-implicit Euler", "statement": "In a step during which nothing collides, every awake entity's velocity changes by the sum of force/mass times dt, its position then moves by the new velocity times dt and its rotation is composed with the rotation vector angular velocity times dt; nothing else about it changes except falling asleep.", "quantifier": "every state with at least one iteration allowed, every dt, any generators", "why_tests_cant": "All states and generators.", "anchors": ["src/physics_system.rs: step (349-386, 517-530)", "src/orientation.rs: affect_with"]}
{"id": "C30", "title": "Gravity accelerates everything equally", "statement": "A gravity generator changes the velocity of every entity with finite mass above EPSILON by exactly acceleration times dt, whatever its mass, shape or orientation, and does not change its angular velocity.", "quantifier": "all masses, accelerations, dts, in exact arithmetic", "why_tests_cant": "Continuous domain.", "anchors": ["src/gravity_generator.rs: make_force", "src/physics_system.rs: step (354-375)"]}
{"id": "C31", "title": "Linear momentum is conserved", "statement": "A step without force generators and without sleeping leaves the total linear momentum of all entities (sum of mass times velocity) exactly unchanged, whatever collisions and friction happen, when all masses are finite and positive.", "quantifier": "every state, dt, any number of collisions, in exact arithmetic", "why_tests_cant": "Sum over any number of entities and collisions.", "anchors": ["src/physics_system.rs: calc_collision_impulse, apply_collision_impulse, step", "src/entity.rs: apply_impulse"]}
{"id": "C32", "title": "Angular momentum is conserved in a collision", "statement": "The response to a collision (restitution and friction) leaves the total angular momentum of the two entities about any point unchanged.", "quantifier": "all masses, invertible inertia tensors, contact points, velocities, in exact arithmetic", "why_tests_cant": "Continuous domain.", "anchors": ["src/physics_system.rs: apply_collision_impulse", "src/entity.rs: apply_impulse, get_inverse_moment_of_inertia"]}
{"id": "C33", "title": "Restitution reverses the approach speed", "statement": "The restitution impulse changes the relative normal velocity at the contact point from u to exactly -e*u, where e is the recorded restitution coefficient; the tangential relative velocity is what friction then acts on.", "quantifier": "all masses, inertia tensors, velocities, unit normals, in exact arithmetic", "why_tests_cant": "Continuous domain.", "anchors": ["src/physics_system.rs: calc_collision_impulse, calc_collision_impulse_denominator"]}
{"id": "C34", "title": "Frictionless collisions never create energy", "statement": "With restitution between 0 and 1 the restitution impulse never increases the total kinetic energy of the two entities, and conserves it exactly for restitution 1.", "quantifier": "all finite positive masses, symmetric positive inertia tensors, velocities, in exact arithmetic", "why_tests_cant": "Continuous domain, real-algebraic inequality.", "anchors": ["src/physics_system.rs: calc_collision_impulse", "src/entity.rs: get_total_energy"]}
{"id": "C35", "title": "Friction opposes sliding and is tangential", "statement": "The friction impulse is parallel to the sliding velocity at the contact point with opposite sense and perpendicular to the normal; and it does not exceed the restitution impulse times the friction coefficient (Coulomb), so it never adds energy.", "quantifier": "all states of the two entities, all coefficients in [0,1], in exact arithmetic", "why_tests_cant": "Continuous domain.", "anchors": ["src/physics_system.rs: step (582-617)"]}
{"id": "C36", "title": "Infinite-mass entities are immovable", "statement": "An entity with an infinite-mass collider never changes velocity or angular velocity because of a collision or a force generator (for finite impulses).", "quantifier": "all f32 impulses, positions, orientations, exact IEEE", "why_tests_cant": "All f32 inputs.", "anchors": ["src/entity.rs: recalculate_mass, apply_impulse, get_inverse_moment_of_inertia", "src/physics_system.rs: step (357)"]}
{"id": "C37", "title": "Cached mass is always the sum of the parts", "statement": "At every moment get_last_total_mass of an entity is its own mass plus the masses of its linked colliders (infinite if one of them is infinite).", "quantifier": "every reachable state (histories of any length), every entity", "why_tests_cant": "Cache coherence over unbounded histories.", "anchors": ["src/entity.rs: recalculate_mass, get_last_total_mass", "src/physics_system.rs: update_entity, update_collider, link_collider"]}
{"id": "C38", "title": "The entity position is the centre of mass", "statement": "After any recalculation with a positive finite collider mass, the entity's position is the mass-weighted mean of its colliders' centres of mass in world space, independently of the order in which colliders are visited; otherwise it is the local origin.", "quantifier": "all collider sets, orientations, all visiting orders, in exact arithmetic", "why_tests_cant": "Any number of colliders, all orders.", "anchors": ["src/entity.rs: recalculate_mass"]}
{"id": "C39", "title": "Mass changes never move the local frame", "statement": "Linking, unlinking or updating colliders never changes where the entity's local space sits in the world: every local point keeps its world position.", "quantifier": "all states with unit rotations, all operations, all local points, in exact arithmetic", "why_tests_cant": "All points and all states.", "anchors": ["src/entity.rs: recalculate_mass", "src/orientation.rs: internal_origin_offset, position_into_world"]}
{"id": "C40", "title": "The inertia tensor is the physical one", "statement": "The entity's moment of inertia is the sum over colliders of the collider's own tensor moved to the common centre of mass by the parallel axis theorem; it is symmetric and positive semidefinite when the colliders' tensors are, and so is its world-space rotation; each collider's own tensor is that of the solid body.", "quantifier": "all collider sets and orientations, in exact arithmetic", "why_tests_cant": "Continuous domain, any number of colliders.", "anchors": ["src/orientation.rs: translate_moment_of_inertia, rotate_moment_of_inertia, prep_moment_of_inertia", "src/entity.rs: recalculate_mass", "src/sphere_collider.rs, src/aligned_box_collider.rs: get_moment_of_inertia_tensor"]}
{"id": "C41", "title": "World and local coordinates are inverse rigid motions", "statement": "position_into_local and position_into_world are inverse to each other, direction_into_local and direction_into_world are too, distances and angles are preserved, and into_world of the local origin is local_origin_in_world.", "quantifier": "all orientations with unit rotation, all points, in exact arithmetic", "why_tests_cant": "Continuous domain.", "anchors": ["src/orientation.rs: into_local, into_world, position_into_local, position_into_world, direction_into_local, direction_into_world"]}
{"id": "C42", "title": "Rotations stay rotations", "statement": "The rotation of every entity is a unit quaternion at every moment.", "quantifier": "every reachable state, any number of steps, in exact arithmetic", "why_tests_cant": "Unbounded histories.", "anchors": ["src/orientation.rs: new, affect_with, lerp", "src/entity.rs: update_from"]}
{"id": "C43", "title": "Reading an entity and writing it back changes nothing", "statement": "update_entity(h, get_entity(h)) leaves the entity's observable state unchanged and wakes nothing.", "quantifier": "every reachable state, every entity, in exact arithmetic", "why_tests_cant": "Continuous domain (rotation vectors), all states.", "anchors": ["src/entity.rs: make_pub, update_from", "src/orientation.rs: rotation_vec"]}
{"id": "C44", "title": "Mesh geometry stays well formed", "statement": "Any mesh built with MeshCollider::new and add_face has only in-range indices, faces of at least three vertices, edges with the smaller index first and no duplicate edges, and no two stored vertices within EPSILON of each other; each add_face adds exactly one face whose corners are within EPSILON of the given points.", "quantifier": "any number of faces with any f32 points accepted by add_face", "why_tests_cant": "Unbounded construction sequences.", "anchors": ["src/mesh_collider.rs: add_face, add_points, add_edge"]}
{"id": "C45", "title": "A step never touches colliders, links, masses or generators", "statement": "step leaves every collider, the set of entities, every entity's colliders, own mass, total mass and inertia exactly as they were, and keeps the set of force generators.", "quantifier": "every state, every dt, every number of collisions", "why_tests_cant": "Frame condition over all states.", "anchors": ["src/physics_system.rs: step"]}
{"id": "C46", "title": "Force generators are asked once per movable entity", "statement": "In a step every force generator is called exactly once for each entity whose total mass is finite and above EPSILON, in storage order, and never for other entities, which keep their velocity in the integration phase.", "quantifier": "every state, every set of generators, arbitrary generator behaviour", "why_tests_cant": "Arbitrary user code behind a trait object.", "anchors": ["src/physics_system.rs: step (344-386)", "src/unary_force_generator.rs"]}
{"id": "C47", "title": "A collision changes only the two entities involved", "statement": "Responding to a collision changes the velocity and angular velocity of the two colliding entities only; every other entity keeps its velocities exactly.", "quantifier": "every state, every collision, exact IEEE", "why_tests_cant": "All other entities in all states.", "anchors": ["src/physics_system.rs: step (532-632)"]}
{"id": "C48", "title": "Point-against-face contacts are real", "statement": "Each mesh-mesh corner-against-face collision is reported at a point on the face's plane and on the moving corner's path at the reported time, and for a plane against a mesh or a sphere the normal is the opposite of the plane normal.", "quantifier": "all meshes and motions, in exact arithmetic", "why_tests_cant": "Continuous domain.", "anchors": ["src/collision.rs: collide_point_with_polygon, collide_mesh_with_mesh, collide_mesh_with_plane"]}
{"id": "C49", "title": "Reported energy is the kinetic energy", "statement": "Entity::get_total_energy of a stored entity equals one half m v.v plus one half w.I w with the world inertia tensor and is never negative; it is zero for an entity at rest.", "quantifier": "all reachable entities, in exact arithmetic", "why_tests_cant": "Continuous domain.", "anchors": ["src/entity.rs: Entity::get_total_energy, InternalEntity::get_total_energy"]}
{"id": "C50", "title": "Documented input tolerance of colliders", "statement": "A box is accepted whichever of its two corners is given first as long as they differ by more than EPSILON in every coordinate, and a plane's normal is normalised whenever it is stored.", "quantifier": "all boxes and planes passed to add_collider and update_collider", "why_tests_cant": "All values.", "anchors": ["src/aligned_box_collider.rs: is_valid, doc of min_corner", "src/plane_collider.rs: doc of normal, update_from"]}
{"id": "C51", "title": "Off-centre forces produce the physical angular acceleration", "statement": "A force F applied at a point p to an entity with inertia tensor I changes its angular velocity by I^-1 ((p - position) x F) dt.", "quantifier": "all entities and forces, in exact arithmetic", "why_tests_cant": "Continuous domain.", "anchors": ["src/physics_system.rs: step (364, 374)", "doc/physics.md"]}
{"id": "C52", "title": "Detected collisions have well-defined positions and normals", "statement": "When all inputs are finite, the position and normal of a reported collision are finite (no NaN).", "quantifier": "all colliders, all orientations", "why_tests_cant": "Degenerate geometry cannot be enumerated.", "anchors": ["src/collision.rs: collide_mesh_with_plane, collide_sphere_with_sphere"]}
{"id": "C53", "title": "A box collider is where it says it is", "statement": "Sphere-box collisions happen at the place where the box is: translating the box by its position property is the same as translating its corners.", "quantifier": "all boxes, spheres and orientations", "why_tests_cant": "All inputs.", "anchors": ["src/aligned_box_collider.rs: position", "src/collision.rs: collide (209-256)"]}
{"id": "C54", "title": "Overlapping spheres are always detected", "statement": "If two spheres overlap at the start of the step, a collision is reported.", "quantifier": "all real centres, radii and movements", "why_tests_cant": "The failing relative speeds are a thin set of values.", "anchors": ["src/collision.rs: collide_sphere_with_sphere (298-319)", "src/range.rs: quadratic_zeros"]}
{"id": "C55", "title": "Sphere-edge contacts are exact", "statement": "A ball moving against a moving line is reported exactly when it touches the line at some time in [0,1], at the first such time, at the foot of the perpendicular from the centre; an edge is hit when its line is, at a point between the ends (within EPSILON).", "quantifier": "all real balls, lines and movements with squared relative speed across the line and discriminant at least EPSILON, exact arithmetic", "why_tests_cant": "A real-valued first-time claim over all inputs.", "anchors": ["src/collision.rs: collide_sphere_with_line (322-346), collide_sphere_with_mid_line_segment (349-363)"]}
{"id": "C56", "title": "Sphere-face contacts are exact", "statement": "A ball moving against a moving polygon is reported at the first time the ball touches the polygon's plane, at the foot of the perpendicular from the centre, with the unit normal from the centre to it, exactly when that foot is on the same side of all edges.", "quantifier": "all real balls and polygons, exact arithmetic", "why_tests_cant": "All shapes and movements.", "anchors": ["src/collision.rs: collide_sphere_with_polygon_surface (366-411)"]}
{"id": "C57", "title": "Mesh-plane contacts are at the lowest vertices", "statement": "A mesh meets a plane at the first time its (steadily interpolated) lowest height is not positive, with the opposite of the plane normal, at the interpolated average of the vertices within one hundredth of the spread of the lowest; for a mesh that does not turn this is the first time a vertex is behind the plane.", "quantifier": "all meshes, planes and motions, exact arithmetic", "why_tests_cant": "All shapes and movements.", "anchors": ["src/collision.rs: collide_mesh_with_plane (488-544)"]}
{"id": "C58", "title": "Rotation vectors mean what they say", "statement": "Orientation::new with rotation vector v turns space by |v| radians around v; rotation_vec gives back such a vector of length at most PI, and the same one when |v| <= PI (rotations below 2^-22 radians are dropped).", "quantifier": "all real vectors", "why_tests_cant": "Trigonometric identity over all angles.", "anchors": ["src/orientation.rs: new (52-58), rotation_vec (135-138)"]}
{"id": "C59", "title": "Interpolated orientations lead from start to end", "statement": "Orientation::lerp gives the start at 0 and the end at 1, always a rotation, with the position moving steadily; an orientation that does not turn is moved point by point.", "quantifier": "all orientations and times, exact arithmetic", "why_tests_cant": "All orientations.", "anchors": ["src/orientation.rs: lerp (76-84)", "src/collision.rs: transform_out_of (27-31)"]}
{"id": "C60", "title": "A movement turns around the centre of mass and shifts", "statement": "after_affected(linear, angular) turns every point of the entity around its position by the angular vector and shifts it by the linear one, keeping the local frame rigid.", "quantifier": "all orientations, linear and angular movements, exact arithmetic", "why_tests_cant": "All orientations.", "anchors": ["src/orientation.rs: affect_with, after_affected (141-151)"]}
{"id": "C61", "title": "Newton's second law", "statement": "In a step, an awake entity of finite mass that takes part in no collision changes its velocity by exactly dt over its mass times the sum of the forces the generators gave it, in one pass over all generators; it keeps its angular velocity when the moments of those forces cancel.", "quantifier": "all systems, generators (user functions with state included), forces and dts, exact arithmetic", "why_tests_cant": "Arbitrary user generators, continuous domain.", "anchors": ["src/physics_system.rs: step (346-376)", "src/force.rs"]}
{"id": "C62", "title": "Between collisions entities fly on straight", "statement": "In a step with any number of collisions every awake entity moves with constant velocity and constant angular velocity from one recorded time to the next and from the last one to the end of the step, and changes its velocities only in collisions whose record names it; after iteration_max collisions it stops where it is.", "quantifier": "every state, every dt, any number of collisions in the step, exact arithmetic", "why_tests_cant": "Any number of collisions among any number of entities; continuous domain.", "anchors": ["src/physics_system.rs: step (394-630)"]}
{"id": "C63", "title": "A step is a sequence of rigid-body collisions", "statement": "The effect of a whole step on all entities is this: the forces change their velocities once, then they move freely from one recorded time to the next, at each record the two named entities (and no others) receive opposite impulses along the recorded normal and of the recorded size at the recorded point, which reverse the relative normal velocity by the restitution of the record, followed by opposite tangential friction impulses, and after the last one they move freely to the end of the step (or stop there if iteration_max was reached); masses and inertia tensors do not change. An entity that falls asleep has as neighbours exactly those with which a collision left it in contact (relative normal velocity below 1e-6).", "quantifier": "every state with positive or infinite masses and finite numbers, every dt, any number of entities and collisions, exact arithmetic", "why_tests_cant": "Any number of collisions among any number of entities in one step; continuous domain.", "anchors": ["src/physics_system.rs: step (331-640)", "src/physics_system.rs: collision response (532-640)"]}
{"id": "C64", "title": "Without friction and forces a step creates no kinetic energy", "statement": "If there are no force generators, no friction, and all coefficients of restitution are between 0 and 1, then the total kinetic energy stored after a step is not greater than before it, whatever and however many collisions happen; if all coefficients are 1 and sleepers are at rest, it is the same.", "quantifier": "every state with positive tensors, every dt, any number of collisions, exact arithmetic", "why_tests_cant": "Any number of collisions among any number of entities; equality cannot be tested in floating point.", "anchors": ["src/physics_system.rs: step (331-640)"]}
{"id": "C65", "title": "A step changes the total momentum only by the forces", "statement": "If all entities are awake and of finite mass, the total momentum stored after a step is the one before it plus dt times the sum of all forces of the generators, whatever collisions happen, with or without friction.", "quantifier": "every state with positive masses, every dt, any generators and number of collisions, exact arithmetic", "why_tests_cant": "Any number of collisions and generators; equality cannot be tested in floating point.", "anchors": ["src/physics_system.rs: step (331-640)"]}
{"id": "C66", "title": "Neighbours are those touched in the step, know each other, and are forgotten on waking", "statement": "An entity that falls asleep in a step gets as neighbours only entities it collided with in this step, and each of them has it as a neighbour too. An entity that does not fall asleep gets new neighbours only in this way; it keeps its old ones if it is not woken and forgets them if it is. An update that wakes does the same. In exact arithmetic the neighbours of an entity falling asleep are exactly the entities it met in a collision after which the two hardly moved relative to each other along the normal (see C63).", "quantifier": "every state, dt, number of entities and collisions, iteration order; every arithmetic with an order", "why_tests_cant": "Any contact graph and any sequence of collisions and wake-ups in a step.", "anchors": ["src/physics_system.rs: step (583-681)", "src/entity.rs: InternalEntity::wake_up"]}
{"id": "C67", "title": "Sets of neighbours are mutual", "statement": "In every reachable state, if an entity has another live entity as a neighbour, that one has it as a neighbour too.", "quantifier": "every reachable state", "why_tests_cant": "All histories.", "anchors": ["src/physics_system.rs: step (638-681)", "src/entity.rs: neighbors"]}
{"id": "C68", "title": "Balls do not pass through each other or through planes", "statement": "Two entities with ball colliders (or a ball and a plane) that are apart before a step and would overlap while flying freely are stopped by a recorded collision.", "quantifier": "every state, dt, every number of collisions, all positions and velocities", "why_tests_cant": "Continuous domain; interplay of detection, approach test and neighbour sets.", "anchors": ["src/physics_system.rs: step (394-510)", "src/collision.rs: collide_sphere_with_sphere"]}
{"id": "C69", "title": "A ball stays above the floor", "statement": "A ball under gravity that is above (or on) a fixed floor - the half space of an infinitely heavy entity at rest - stays above it, up to a tolerance of the size of the code's thresholds, whatever the number and length of the steps.", "quantifier": "every ball, floor, gravity, start, number of steps and step lengths; every iteration order", "why_tests_cant": "Any number of steps and bounces; needs an invariant over unbounded executions that ties detection, response, thresholds and sleeping together.", "anchors": ["src/physics_system.rs: step (338-560)", "src/collision.rs: collide_sphere_with_plane"]}
{"id": "C70", "title": "A dropped ball does not rise above where it was dropped", "statement": "A ball under gravity that is released at rest over a floor, with coefficients of restitution at most 1, never gets higher than where it was released; its mechanical energy does not grow.", "quantifier": "every ball, floor, gravity, height, number and length of steps", "why_tests_cant": "Any number of bounces and step lengths; whether energy is gained depends on where in a step the bounce happens.", "anchors": ["src/physics_system.rs: step (338-392, 480-560)"]}
{"id": "C71", "title": "The debug log tells who was woken, who fell asleep and whether iterations ran out", "statement": "After a step the log holds first the wake-ups (each woken sleeper once, and each contact with an immovable entity that is dissolved), then the message that iterations ran out exactly if as many collisions were handled as iterations are allowed, then one message for each entity that fell asleep and no other. An update appends the wake-ups it causes and nothing else.", "quantifier": "every state, dt, iteration order; every arithmetic with an order", "why_tests_cant": "All collision sequences, contact graphs and hash orders.", "anchors": ["src/physics_system.rs: step (331-681), update_entity", "src/entity.rs: wake_up"]}
{"id": "C72", "title": "Every generator is asked about every pushable entity, in order, and its answers count", "statement": "In a step the generators are asked once for each pushable entity, entity by entity, each time with a view in which the entities served before already have their new velocities; afterwards the generators are as the last answer left them, and an entity that does not collide gets exactly the velocities which the sum of the answered forces gives.", "quantifier": "every state, any number and any behaviour of generators, every dt", "why_tests_cant": "Quantifies over all user-supplied generators, including stateful ones.", "anchors": ["src/physics_system.rs: step (338-392)", "src/force_generator.rs"]}
{"id": "C73", "title": "A call changes only what it is for", "statement": "Each public call leaves the settings, the records, the log, the generators, the colliders and the entities alone unless it is documented to change them; adding a generator makes it available under a fresh handle, removing returns it; a new system is empty with settings 5, 0.001, 0.1.", "quantifier": "every reachable state, every call and argument", "why_tests_cant": "All reachable states and calls.", "anchors": ["src/physics_system.rs: all public functions"]}
{"id": "C74", "title": "An update puts the entity where it was asked to be", "statement": "After a successful update of an entity from finite values its position is the given one, its orientation the given rotation, and reading the rotation gives the vector back if it is no longer than pi.", "quantifier": "every reachable state, entity, position and rotation; exact arithmetic", "why_tests_cant": "The position goes through the centre of mass and back for every set of colliders and every rotation.", "anchors": ["src/entity.rs: update_from (100-126), recalculate_mass"]}
{"id": "C75", "title": "New entities and colliders have the documented values", "statement": "Every field of a newly created entity, collider and system has the default which its documentation states.", "quantifier": "all kinds of colliders, any radius", "why_tests_cant": "Compares code with documentation.", "anchors": ["src/*_collider.rs: new", "src/entity.rs: new"]}
{"id": "C76", "title": "Opposite forces leave the total momentum alone", "statement": "If the forces the generators answer for a state cancel over the entities, a step does not change the total momentum.", "quantifier": "every state and dt, any generators", "why_tests_cant": "All user-supplied generators; depends on what a generator is shown while a step is under way.", "anchors": ["src/physics_system.rs: step (338-392)"]}
{"id": "C77", "title": "Fast sliding meets the dynamic friction coefficient, slow sliding the static one", "statement": "As the README says: if there is a lot of sliding the lower dynamic friction coefficient is used, otherwise the static one.", "quantifier": "every collision", "why_tests_cant": "The choice depends on a ratio of velocities after the bounce; tests see only one side of the threshold.", "anchors": ["src/physics_system.rs: step (590-596)", "README.md:16"]}
{"id": "C78", "title": "Balls meet boxes when they first touch them", "statement": "A collision of a moving ball with a box is reported exactly if they touch during the step; the reported time is no later than any moment of contact, and at that time they touch up to EPSILON.", "quantifier": "every ball, box and pair of orientations", "why_tests_cant": "The box is checked as three ranges of faces, twelve edges and eight corners; errors show only for particular directions of approach.", "anchors": ["src/collision.rs: collide_sphere_with_aligned_box (1112)", "src/collision.rs: collide"]}
{"id": "C79", "title": "Balls meet meshes when they first touch them", "statement": "A collision of a moving ball with a mesh is reported exactly if it touches a vertex, an edge or a face during the step; the reported time is no later than any moment of contact, and at that time they touch up to EPSILON.", "quantifier": "every ball, every mesh built with add_face, every pair of orientations", "why_tests_cant": "All meshes; special positions, such as a centre in the plane of a face, are not met by chance.", "anchors": ["src/collision.rs: collide_sphere_with_polygon_surface (366-407)", "src/collision.rs: collide_sphere_with_mesh"]}
{"id": "C80", "title": "Bodies fall as they should between collisions", "statement": "An entity of finite mass that meets nothing and is acted on by gravity alone follows Newton's parabola over any number of steps, up to half the acceleration times the sum of the squares of the step lengths; it never gains energy and never stops in mid air.", "quantifier": "every system, every number of steps of any lengths, whatever the other entities do meanwhile", "why_tests_cant": "Unboundedly many steps of arbitrary lengths; the accumulated error has a closed form that a test can only sample.", "anchors": ["src/physics_system.rs: step", "src/gravity_generator.rs"]}
{"id": "C81", "title": "The same calls give the same results", "statement": "The outcome of a history of calls (answers, entities, colliders, generators, records, contacts) does not depend on the order in which hash sets happen to iterate.", "quantifier": "every history of calls, every pair of iteration orders, which may change from call to call", "why_tests_cant": "The standard library seeds every HashSet at random; a test sees one order per run, and different orders only matter for sums that round differently or for collisions at the very same time.", "anchors": ["src/entity.rs: recalculate_mass", "src/entity.rs: wake_up", "src/physics_system.rs: step", "src/physics_system.rs: remove_entity"]}
{"id": "C82", "title": "An isolated system keeps its angular momentum", "statement": "In a system without force generators whose entities are all awake and of finite mass, the total angular momentum about any fixed point (that of the centres of mass and that of the spins) is the same after any number of steps, whatever collisions, with or without friction, happen in them.", "quantifier": "every system, every number of steps of any lengths, every point", "why_tests_cant": "Unboundedly many steps, collisions and shapes; the loss is a slow drift of direction that looks plausible on screen and is zero for balls and for bodies that spin about one of their own axes.", "anchors": ["src/physics_system.rs: step", "src/physics_system.rs: apply_collision_impulse", "src/orientation.rs: after_affected"]}
{"id": "C83", "title": "Vectors, matrices and rotations follow the laws of geometry", "statement": "The vector, matrix and quaternion operations that the crate uses are, on finite values in exact arithmetic, those of real geometry: an inner product with orthonormal axes, a right-handed cross product, matrices as linear maps with products as compositions and true inverses whenever the determinant is not zero, Hamilton's quaternions, and rotation by conjugation.", "quantifier": "all vectors, matrices and (unit) quaternions", "why_tests_cant": "A wrong sign or a swapped component shows only for inputs off the axes; the laws quantify over all real inputs, and every other theorem in exact arithmetic is phrased with these operations.", "anchors": ["src/types.rs"]}
{"id": "C84", "title": "Exact arithmetic is binary32 arithmetic up to rounding", "statement": "Every operation of binary32 used by the crate gives the same infinities and NaNs and the same answers to comparisons as the exact arithmetic in which the physical laws are stated, and otherwise the exact result with 24 good bits (or 2^-150 close to zero), or an infinity when the exact result is larger than every binary32 number.", "quantifier": "all pairs of binary32 values", "why_tests_cant": "2^64 pairs of operands.", "anchors": ["src/consts.rs", "src/types.rs"]}
{"id": "C85", "title": "Coasting bodies move at their velocity, up to rounding", "statement": "In binary32, over any number of steps in which nothing collides and no force acts, an awake body keeps its velocity exactly, and its position stays within an explicit bound of where exact arithmetic would put it, the bound growing with the number of steps and the distance from the origin. It is not true that such a body always moves: far from the origin a slow body does not.", "quantifier": "all reachable or unreachable states, any number of steps of any lengths, all hash orders", "why_tests_cant": "The error of one step is below the precision of the test's own arithmetic; it only matters after very many steps or far from the origin.", "anchors": ["src/physics_system.rs: step", "src/orientation.rs: after_affected"]}
{"id": "C86", "title": "A body in free flight turns steadily", "statement": "Over any number of steps in which an awake entity of finite mass is in no collision and only gravity acts, its angular velocity stays what it was, and its orientation at the end is the one at the start turned about that angular velocity for the time that has passed, up to an explicit angle for each step or collision of other entities (very small turns are dropped). Its angular momentum turns with it; the amount of the angular momentum and the energy of the rotation are kept for ever.", "quantifier": "every system, every entity and inertia tensor, any number of steps of any lengths, all collisions of other entities, all hash orders", "why_tests_cant": "Unboundedly many steps cut into pieces by unboundedly many collisions of others; an error of a turn per piece adds up to a visible one only after very many.", "anchors": ["src/physics_system.rs: step", "src/orientation.rs: after_affected", "src/entity.rs: get_inverse_moment_of_inertia"]}
{"id": "C87", "title": "Rotations stay rotations, up to rounding", "statement": "In single precision, after any history of calls, the square of the length of every rotation that is finite is 1, give or take 2^-18 and twice the error of the sine and cosine functions for each time an entity was turned (once per step and once per collision), as long as that is at most a quarter. Turning a vector with such a rotation keeps the square of its length up to five times that.", "quantifier": "every history of API calls in binary32 (steps of any lengths, all collisions, all hash orders), every entity, every libm whose sines and cosines square to 1 up to a given error", "why_tests_cant": "Rounding errors of unboundedly many products of quaternions; each is far too small to be seen and nothing renormalizes them.", "anchors": ["src/orientation.rs: new, affect_with", "src/entity.rs: update_from", "src/physics_system.rs: step"]}
{"id": "C88", "title": "The world has no special place", "statement": "In exact arithmetic, making the same calls with every entity placed a fixed displacement further gives the same answers and the same panics, and leaves the same system moved by that displacement: positions of entities and of collision records are moved, and handles, rotations, velocities, masses, sleep, collision times, normals and impulses are the same. Colliders have numbers as radii and normals, and gravity is the only force.", "quantifier": "every history of API calls of any length with all collider kinds (steps of any lengths, all hash orders), every displacement", "why_tests_cant": "It relates two runs of unbounded length, over every displacement; a dependence on the origin may show only in one collider kind or one branch.", "anchors": ["src/collision.rs", "src/orientation.rs", "src/entity.rs", "src/physics_system.rs: step, add_entity, update_entity, link_collider"]}
{"id": "C89", "title": "The world has no special speed", "statement": "Adding one velocity to every entity changes what a step does only by that velocity and the distance it makes in the time passed: collisions happen at the same times with the same normals and impulses. (True for the response to a given contact, for free flight, for balls against planes and for the times and places at which balls meet. False for a step as a whole: the normal of two balls depends on how the first one moves.)", "quantifier": "all bodies, contacts, velocities, flights of any length and pairs of colliders, exact arithmetic", "why_tests_cant": "It relates two runs, over every added velocity; in the frame in which the first body is at rest the normal is right.", "anchors": ["src/collision.rs: collide_sphere_with_sphere (298-319), collide_sphere_with_plane (281-295)", "src/physics_system.rs: calc_collision_impulse (698-710), step (554-616)", "src/entity.rs: apply_impulse (223-226), get_velocity_at_world_position (203-206)"]}
{"id": "C90", "title": "The world looks right in a mirror", "statement": "Turn any of the three axes round (a mirror, a half turn, or a reflection in a point) in everything the caller hands over: places, velocities, rotations, colliders, gravity. Then every call returns what the mirror shows of the original answer, panics when the original panics, and leaves what the mirror shows of the original system, the records of the last step included. (True for spheres, planes, null colliders and gravity, and for meshes under half turns. False with boxes and, under mirrors, with meshes.)", "quantifier": "all histories of calls, all choices of axes, all orders of hash sets, exact arithmetic", "why_tests_cant": "It relates two whole executions, over every history; the exceptions need exact ties (a ball exactly in the middle of a box, two triangles exactly in one plane).", "anchors": ["src/collision.rs: collide_sphere_with_sphere (298-319), collide_sphere_with_plane (281-295), get_polygon_normal (547-559), collide_mesh_points_with_mesh_faces (677-715), collide_sphere_with_aligned_box (1112-1163)", "src/physics_system.rs: step (331-616), calc_collision_impulse (698-710)", "src/orientation.rs", "src/entity.rs"]}
{"id": "C91", "title": "No axis is special", "statement": "Exchange the three axes in a circle (first to second, second to third, third to first) in everything the caller hands over: places, velocities, rotations, colliders, gravity. Then every call returns the original answer with the axes exchanged, panics when the original panics, and leaves the original system with the axes exchanged, the records of the last step included. (True for spheres, planes, meshes, null colliders and gravity while tensors of inertia are finite. False with boxes.)", "quantifier": "all histories of calls, all orders of hash sets, exact arithmetic", "why_tests_cant": "It relates two whole executions, over every history; a mistake in one component of one formula shows only along one axis, and the exception needs an exact tie between two axes of a box.", "anchors": ["src/collision.rs: all collide_ functions, collide_sphere_with_aligned_box (1145-1163)", "src/physics_system.rs: step (331-616), calc_collision_impulse (698-710)", "src/orientation.rs", "src/entity.rs"]}
{"id": "C92", "title": "The world may be turned onto any of its axes", "statement": "Turn everything the caller hands over (places, velocities, rotations, colliders, gravity) by any of the 24 rotations that take axes to axes. Then every call returns the original answer turned, panics when the original panics, and leaves the original system turned, the records of the last step included; a mesh that could be built can still be built. (True for spheres, planes, meshes, null colliders and gravity while tensors of inertia are finite. False with boxes.)", "quantifier": "all 24 rotations, all histories of calls, all orders of hash sets, exact arithmetic", "why_tests_cant": "It relates two whole executions, over every history and rotation; a sign or component that is wrong in one formula shows only for motion one way along one axis, and the exception needs an exact tie between two axes of a box.", "anchors": ["src/collision.rs: all collide_ functions, collide_sphere_with_aligned_box (1145-1163)", "src/physics_system.rs: step (331-616), calc_collision_impulse (698-710)", "src/orientation.rs", "src/entity.rs"]}
{"id": "C93", "title": "Of simultaneous collisions the one of the first pair is responded to", "statement": "Each iteration of a step that responds to a collision responds to one that no other approaching collision precedes; among those at the same time it takes the pair whose first entity, and then whose second entity, comes first in the list of moving entities, and of the colliders of that pair those that the iteration of the hash sets yields first. The record it appends names that pair.", "quantifier": "all states, all orders of hash sets, any arithmetic with an ordered comparison (binary32 with any libm, and exact)", "why_tests_cant": "Which collision wins a tie decides everything that follows in the step; ties need exactly equal times and tests would have to try every number and order of entities.", "anchors": ["src/physics_system.rs: step (398-485)"]}
{"id": "C94", "title": "Of the parts of a mesh or box that are hit first, the one listed first is reported", "statement": "What a moving ball is said to hit of a mesh is the first of the earliest among its collisions with the vertices, then the edges, then the faces, each in the order in which the mesh lists them: strictly earlier than every one before it, no later than any after it; and nothing is reported only if no part is hit. The same for a box, with its sides first, then its edges, then its corners. For two meshes the parts are the corners of the first against the faces of the second, then the corners of the second against the faces of the first; there the normal may point to the other side.", "quantifier": "all balls, movements, meshes and boxes, any arithmetic with an ordered comparison (binary32 with any libm, and exact)", "why_tests_cant": "The normal that is reported, and with it everything after, depends on how ties are broken; ties need exactly equal times, and there are any number of parts.", "anchors": ["src/collision.rs: EarliestCollisionAccumulator (410-443), collide_sphere_with_mesh (446-477), collide_sphere_with_aligned_box (1112-1213), collide_mesh_points_with_mesh_faces (677-715), collide_mesh_with_mesh (717-738)"]}
