{"id": "C01", "title": "First error wins", "statement": "Reporting an error through a polycap_error** argument stores a new error object (with the given code and message) when the slot was NULL, leaves the slot and the error already stored untouched when it was occupied, and does nothing when the argument itself is NULL. After any sequence of reports the slot holds exactly the first one.", "quantifier": "every sequence of error reports, every code and message, every initial slot (no slot, empty slot, occupied slot)", "why_tests_cant": "the number and order of reports a call can make is unbounded; a test fixes one sequence", "anchors": ["src/polycap-error.c: polycap_set_error, polycap_set_error_literal, polycap_error_new_literal", "include/polycap-error.h"]}
{"id": "C02", "title": "Error objects have exactly one owner", "statement": "Propagating, clearing, copying and freeing polycap_error objects never frees the same object twice and never loses one: after polycap_propagate_error the source is either owned by the destination slot or freed; polycap_clear_error frees the stored error and resets the slot to NULL; a copy carries the same code and message, in memory distinct from the original, so freeing either leaves the other valid.", "quantifier": "every heap, every error value, every slot state, every sequence of these operations", "why_tests_cant": "ownership faults show only under a particular history; tests do not observe leaked or doubly freed blocks", "anchors": ["src/polycap-error.c: polycap_propagate_error, polycap_clear_error, polycap_error_copy, polycap_error_free"]}
{"id": "C03", "title": "polycap_profile_new validates its arguments", "statement": "polycap_profile_new returns NULL with POLYCAP_ERROR_INVALID_ARGUMENT in an empty error slot, allocating nothing, exactly when length, one of the four radii or one of the two focal distances is not positive, a capillary radius is not smaller than the exterior radius at the same end, or the shape type is not one of the three known ones (checked in that order); otherwise (and if memory is available) it returns a profile and sets no error.", "quantifier": "all real arguments, all shape codes, all error slots", "why_tests_cant": "infinitely many argument combinations", "anchors": ["src/polycap-profile.c: polycap_profile_new"]}
{"id": "C04", "title": "Profile z axis", "statement": "In every profile made by polycap_profile_new the z array has nmax+1 = 1000 entries, starts at 0, ends at the requested length and is strictly increasing with a constant step.", "quantifier": "all positive arguments, all indices, all three shapes", "why_tests_cant": "all real lengths and every index", "anchors": ["src/polycap-profile.c: polycap_profile_new"]}
{"id": "C05", "title": "Capillary and conical radii", "statement": "The capillary radius array interpolates linearly between rad_int_upstream (at entry) and rad_int_downstream (at exit), hence stays positive and between both; for a conical profile the same holds for the exterior radius, and the capillary radius is strictly smaller than the exterior radius at every one of the 1000 points.", "quantifier": "all positive arguments, all indices", "why_tests_cant": "real-valued universally quantified inequality", "anchors": ["src/polycap-profile.c: polycap_profile_new"]}
{"id": "C06", "title": "Ellipsoidal exterior", "statement": "For an ellipsoidal profile, the exterior radius takes the requested upstream radius at entry and the requested downstream radius at exit, and every intermediate value is positive and lies on the half-ellipse through these two end points (whose tangent at the wider end is parallel to the axis).", "quantifier": "all positive lengths and unequal end radii whose defining ellipse exists, all indices", "why_tests_cant": "real algebraic identity over a continuum", "anchors": ["src/polycap-profile.c: polycap_profile_new"]}
{"id": "C07", "title": "Profile array round trip", "statement": "polycap_profile_new_from_arrays followed by polycap_profile_get_ext/get_cap/get_z returns nid and arrays equal, entry by entry, to the nid+1 entries that were supplied, in memory owned by the caller and independent of the profile.", "quantifier": "all nid > 1, all array contents, all heaps", "why_tests_cant": "arbitrary lengths and contents, and aliasing cannot be sampled", "anchors": ["src/polycap-profile.c: polycap_profile_new_from_arrays, polycap_profile_get_ext, polycap_profile_get_cap, polycap_profile_get_z"]}
{"id": "C08", "title": "Documented array length is enough", "statement": "Passing arrays with as many elements as the nid argument (documented as the number of elements) is safe: the constructor reads only inside the arrays it was given.", "quantifier": "all nid > 1 and all arrays of exactly nid elements", "why_tests_cant": "an out-of-bounds read of one element is normally invisible in a test", "anchors": ["include/polycap-profile.h: polycap_profile_new_from_arrays", "src/polycap-profile.c: polycap_profile_new_from_arrays"]}
{"id": "C09", "title": "Allocation failure in polycap_profile_new", "statement": "If memory runs out at any allocation inside polycap_profile_new the function returns NULL with POLYCAP_ERROR_MEMORY and releases everything it had allocated.", "quantifier": "every allocation point, every shape, every argument", "why_tests_cant": "each crash point needs its own fault injection; persistent exhaustion also affects the error object itself", "anchors": ["src/polycap-profile.c: polycap_profile_new, polycap_profile_free", "src/polycap-error.c: polycap_error_new_literal"]}
{"id": "C10", "title": "Validation walks the complete outer ring", "statement": "polycap_profile_validate on a poly-capillary with k > 0 shells examines, at every z, exactly the 6k capillaries of the outermost hexagonal shell, each once, and nothing else.", "quantifier": "all shell counts k", "why_tests_cant": "the ring has unbounded size", "anchors": ["src/polycap-profile.c: polycap_profile_validate"]}
{"id": "C11", "title": "Meaning of the validation result", "statement": "polycap_profile_validate returns 1 exactly when, at every z index, the outermost point of every outer-shell capillary lies inside the hexagonal exterior (for a mono-capillary: the capillary radius is smaller than the exterior radius), 0 when one does not, and never reads outside the profile arrays.", "quantifier": "all profiles with consistent array sizes, all shell counts", "why_tests_cant": "all profiles and an unbounded number of capillaries", "anchors": ["src/polycap-profile.c: polycap_profile_validate", "src/polycap-photon.c: polycap_photon_within_pc_boundary"]}
{"id": "C12", "title": "A validated optic contains all its capillaries", "statement": "If polycap_profile_validate accepts a profile for a given number of capillaries, then at every z the disc of every capillary (axis position, capillary radius), inner or outer, lies inside the hexagonal exterior.", "quantifier": "all profiles, all capillary counts, all capillaries of the stacking, all z indices", "why_tests_cant": "convexity argument over an unbounded lattice", "anchors": ["src/polycap-profile.c: polycap_profile_validate", "src/polycap-photon.c: polycap_photon_within_pc_boundary"]}
{"id": "C13", "title": "Boundary test is the regular hexagon", "statement": "The optic boundary test accepts a point exactly when it lies in the closed regular hexagon with circumradius equal to the exterior radius (flat-to-flat direction along the three axes at 0/60/120 degrees from a flat); it answers with an error for a non-positive radius. The region is convex, symmetric under 60 degree rotation and mirror, contains the inscribed disc and is contained in the circumscribed one.", "quantifier": "all points and radii in the reals", "why_tests_cant": "real plane geometry", "anchors": ["src/polycap-photon.c: polycap_photon_within_pc_boundary"]}
{"id": "C14", "title": "Shell count from capillary count", "statement": "For a full hexagonal stacking of k shells, i.e. 3k^2+3k+1 capillaries, the library derives exactly k shells, a one-capillary optic is recognised as mono-capillary, and the derived count never decreases when the number of capillaries grows.", "quantifier": "all k, all n_cap", "why_tests_cant": "unbounded integers through sqrt and rounding", "anchors": ["src/polycap-profile.c: polycap_profile_validate", "src/polycap-description.c: polycap_description_new", "src/polycap-photon.c: polycap_photon_launch", "src/polycap-source.c: polycap_source_get_photon"]}
{"id": "C15", "title": "polycap_description_new validates its arguments", "statement": "polycap_description_new returns NULL with POLYCAP_ERROR_INVALID_ARGUMENT for negative roughness, fewer than 2 capillaries, no elements, NULL arrays, an atomic number outside 1..111 or non-positive density.", "quantifier": "all arguments", "why_tests_cant": "unbounded argument lists", "anchors": ["src/polycap-description.c: polycap_description_new"]}
{"id": "C16", "title": "No description together with an error", "statement": "When polycap_description_new reports an error (in particular for weight fractions that do not add up to 1 or 100 %) it returns NULL.", "quantifier": "all compositions and profiles", "why_tests_cant": "the composition is an arbitrary list of reals", "anchors": ["src/polycap-description.c: polycap_description_new, polycap_description_check_weight"]}
{"id": "C17", "title": "Weight fraction normalisation", "statement": "After a successful composition check all fractions add up to exactly 1, and if percentages had been supplied (sum above 1) each fraction is the supplied value divided by 100; otherwise the fractions are unchanged.", "quantifier": "all lists of fractions", "why_tests_cant": "arbitrary length lists of reals", "anchors": ["src/polycap-description.c: polycap_description_check_weight"]}
{"id": "C18", "title": "Open area", "statement": "The open area of a description is the total capillary entrance area divided by the area of the hexagonal exterior at the entrance; for a validated optic it lies strictly between 0 and 1.", "quantifier": "all profiles and capillary counts of a full stacking", "why_tests_cant": "real arithmetic over all sizes", "anchors": ["src/polycap-description.c: polycap_description_new"]}
{"id": "C19", "title": "Descriptions and sources are deep copies", "statement": "Modifying or freeing the caller's iz, wi and energies arrays or the profile/description passed in, after polycap_description_new or polycap_source_new has returned, does not change what the new object holds.", "quantifier": "all arguments and all later writes to or frees of the caller's memory", "why_tests_cant": "aliasing over arbitrary histories", "anchors": ["src/polycap-description.c: polycap_description_new", "src/polycap-source.c: polycap_source_new"]}
{"id": "C20", "title": "Constructor/destructor pairs leak nothing", "statement": "For profiles, descriptions, photons, sources and leak objects, construct-then-free restores the heap exactly: every block allocated is released once, freeing NULL is a no-op, and freeing never touches another object's memory.", "quantifier": "all arguments and heaps", "why_tests_cant": "leaks and double frees are not observable through return values", "anchors": ["src/polycap-profile.c: polycap_profile_free", "src/polycap-description.c: polycap_description_free", "src/polycap-photon.c: polycap_photon_free, polycap_leak_free", "src/polycap-source.c: polycap_source_free"]}
{"id": "C21", "title": "Failed constructors leak nothing", "statement": "When polycap_description_new or polycap_source_new rejects its arguments or runs out of memory, everything allocated during the call has been released.", "quantifier": "all failing arguments and every allocation failure point", "why_tests_cant": "every crash point", "anchors": ["src/polycap-description.c: polycap_description_new", "src/polycap-source.c: polycap_source_new"]}
{"id": "C22", "title": "polycap_source_new validates its arguments", "statement": "polycap_source_new returns NULL with POLYCAP_ERROR_INVALID_ARGUMENT for a NULL description, non-positive source distance or source size, |hor_pol| > 1, no energies, or an energy outside 1..100 keV, and otherwise a source holding exactly the supplied numbers.", "quantifier": "all arguments and energy lists", "why_tests_cant": "arbitrary length lists of reals", "anchors": ["src/polycap-source.c: polycap_source_new"]}
{"id": "C23", "title": "File input is validated like API input", "statement": "polycap_source_new_from_file rejects the same out-of-range values as the API constructors.", "quantifier": "all file contents", "why_tests_cant": "all possible parameter files", "anchors": ["src/polycap-source.c: polycap_source_new_from_file, polycap_source_new"]}
{"id": "C24", "title": "Input lines are read completely", "statement": "Reading a line of the input file returns exactly the characters up to the newline or end of file, whatever their number, and never writes outside the buffer.", "quantifier": "all file contents, all line lengths", "why_tests_cant": "unbounded line length around reallocation boundaries", "anchors": ["src/polycap-description.c: polycap_read_input_line"]}
{"id": "C25", "title": "Generated photons start in the source and hit the optic plane consistently", "statement": "Every photon drawn from a source starts on the entrance plane z=0; its ray extended back over the source distance originates inside the source ellipse around the source shift; its direction is a unit vector pointing downstream.", "quantifier": "all source parameters, all random streams", "why_tests_cant": "every outcome of the random generator", "anchors": ["src/polycap-source.c: polycap_source_get_photon"]}
{"id": "C26", "title": "Generated polarisation", "statement": "The electric field vector attached to a drawn photon is a unit vector perpendicular to its direction.", "quantifier": "all source parameters, all random streams with a non-degenerate direction", "why_tests_cant": "every outcome of the random generator", "anchors": ["src/polycap-source.c: polycap_source_get_photon"]}
{"id": "C27", "title": "Uniform illumination covers the entrance only", "statement": "With a negative divergence configured (uniform illumination) every drawn start point lies inside the optic entrance: the hexagon for a poly-capillary, the bounding square of the capillary for a mono-capillary.", "quantifier": "all sources, all random streams, any number of rejections", "why_tests_cant": "rejection loop of unbounded length", "anchors": ["src/polycap-source.c: polycap_source_get_photon", "src/polycap-photon.c: polycap_photon_within_pc_boundary"]}
{"id": "C28", "title": "Photon construction validates", "statement": "polycap_photon_new rejects a NULL description, a start position with negative z and a direction with negative z; otherwise the photon's exit coordinates, direction and field equal its start values.", "quantifier": "all arguments", "why_tests_cant": "all real vectors", "anchors": ["src/polycap-photon.c: polycap_photon_new"]}
{"id": "C29", "title": "Launch return code contract", "statement": "polycap_photon_launch returns only the documented codes (1 transmitted, 0 absorbed, 2 entered the glass, -2 missed the entrance, -1 error); when it returns -1 an error has been reported.", "quantifier": "all photons, energies, descriptions and material tables", "why_tests_cant": "all trajectories", "anchors": ["src/polycap-photon.c: polycap_photon_launch", "include/polycap-photon.h"]}
{"id": "C30", "title": "Transmission weights are delivered", "statement": "Whenever polycap_photon_launch reports a transmitted or absorbed photon the weights array handed to the caller has been filled with n_energies values.", "quantifier": "all launches", "why_tests_cant": "uninitialised memory often looks plausible in a test", "anchors": ["src/polycap-photon.c: polycap_photon_launch"]}
{"id": "C31", "title": "Weights are probabilities", "statement": "Every transmission weight delivered by polycap_photon_launch lies in [0,1]; each reflection multiplies it by a factor in [0,1], so weights never increase along the path.", "quantifier": "all photons, all numbers of reflections, all optical constants in the physical range", "why_tests_cant": "unbounded number of reflections, all real inputs", "anchors": ["src/polycap-capil.c: polycap_capil_reflect", "src/polycap-photon.c: polycap_photon_launch"]}
{"id": "C32", "title": "Nearest capillary", "statement": "The photon is attributed to the capillary whose axis at the entrance plane is nearest to the photon's entrance point (axial hexagonal rounding).", "quantifier": "all entrance points, all hexagon pitches", "why_tests_cant": "real plane, all lattice cells including edges", "anchors": ["src/polycap-photon.c: polycap_photon_launch"]}
{"id": "C33", "title": "Wall hit is on the wall", "statement": "When a wall interaction is found in a profile segment, the returned point lies on the photon ray downstream of the photon, between both segment ends, and its distance to the capillary axis equals the capillary radius interpolated at that z; among the admissible intersections it is the first one; in every other case the photon coordinate is not modified.", "quantifier": "all segments, rays and radii", "why_tests_cant": "real algebra over all configurations", "anchors": ["src/polycap-capil.c: polycap_capil_segment"]}
{"id": "C34", "title": "Surface normal", "statement": "The surface normal returned with a wall interaction is a unit vector.", "quantifier": "all segments and rays producing an interaction", "why_tests_cant": "real algebra", "anchors": ["src/polycap-capil.c: polycap_capil_segment"]}
{"id": "C35", "title": "Specular reflection", "statement": "At each reflection the new direction is the mirror image of the incoming one about the wall tangent plane: it is again a unit vector, the component along the normal is negated and the tangential part is unchanged.", "quantifier": "all unit directions and normals", "why_tests_cant": "all real vectors", "anchors": ["src/polycap-capil.c: polycap_capil_trace", "src/polycap-photon.c: polycap_norm, polycap_scalar"]}
{"id": "C36", "title": "Fresnel reflectivity is physical", "statement": "The computed reflectivity for s and p polarisation is the squared modulus of the complex Fresnel coefficient and lies in [0,1] for every physical optical constant; the mixed reflectivity lies between them.", "quantifier": "all grazing angles, energies, densities and non-negative absorption", "why_tests_cant": "complex-valued analysis over a continuum", "anchors": ["src/polycap-capil.c: polycap_refl_polar"]}
{"id": "C37", "title": "Leak bookkeeping conserves intensity", "statement": "At each wall interaction the sum of the reflected weight and the weight recorded as leaking through the wall never exceeds the incoming weight, for each energy.", "quantifier": "all interactions", "why_tests_cant": "all reals", "anchors": ["src/polycap-capil.c: polycap_capil_reflect"]}
{"id": "C38", "title": "Trace keeps the profile index in range", "statement": "Following a photon through the optic never reads the profile arrays outside 0..nmax.", "quantifier": "all photons and profiles", "why_tests_cant": "out-of-bounds reads depend on rare trajectories", "anchors": ["src/polycap-capil.c: polycap_capil_trace", "src/polycap-photon.c: polycap_photon_pc_intersect", "src/polycap-capil.c: polycap_capil_trace_wall"]}
{"id": "C39", "title": "Leak copy getters", "statement": "polycap_photon_get_extleak_data/get_intleak_data return exactly n_leaks deep copies equal to the stored leaks (weights included), or report failure when there are none.", "quantifier": "all leak lists", "why_tests_cant": "arbitrary lengths, aliasing", "anchors": ["src/polycap-photon.c: polycap_photon_get_extleak_data, polycap_photon_get_intleak_data"]}
{"id": "C40", "title": "Efficiencies do not depend on the schedule", "statement": "For given per-photon outcomes, the counters, sums of weights and efficiencies returned by polycap_source_get_transmission_efficiencies are the same for every number of threads, every distribution of photons over threads and every order of the critical sections.", "quantifier": "all thread counts, distributions and interleavings", "why_tests_cant": "schedules cannot be enumerated by tests", "anchors": ["src/polycap-source.c: polycap_source_get_transmission_efficiencies"]}
{"id": "C41", "title": "Every requested photon is recorded once", "statement": "On success exactly n_photons exit records exist, each array slot is written exactly once by the photon it belongs to, and the recorded start count equals exits plus non-transmitted plus entered-in-wall photons.", "quantifier": "all schedules, all photon outcomes", "why_tests_cant": "schedules and outcomes unbounded", "anchors": ["src/polycap-source.c: polycap_source_get_transmission_efficiencies"]}
{"id": "C42", "title": "Efficiencies are between 0 and 1", "statement": "Every returned transmission efficiency lies in [0,1].", "quantifier": "all schedules, outcomes and weights in [0,1]", "why_tests_cant": "unbounded sums", "anchors": ["src/polycap-source.c: polycap_source_get_transmission_efficiencies"]}
{"id": "C43", "title": "No leak event is lost", "statement": "Leak events of photons that were not transmitted are carried over to the record of a later transmitted photon of the same worker and appear in the result exactly once.", "quantifier": "all outcome histories, all schedules", "why_tests_cant": "histories unbounded", "anchors": ["src/polycap-source.c: polycap_source_get_transmission_efficiencies"]}
{"id": "C44", "title": "Simulation does not depend on earlier simulations", "statement": "Running polycap_source_get_transmission_efficiencies does not change the source or description in a way that changes a later run with the same random streams.", "quantifier": "all sequences of runs", "why_tests_cant": "history dependence", "anchors": ["src/polycap-source.c: polycap_source_get_transmission_efficiencies"]}
{"id": "C45", "title": "Result getters are faithful", "statement": "The start, exit and leak getters of the efficiencies object return fresh arrays with the stored coordinates for every index, and reconstruct the z component of each unit downstream direction.", "quantifier": "all stored result sets and indices", "why_tests_cant": "arbitrary sizes", "anchors": ["src/polycap-transmission-efficiencies.c: polycap_transmission_efficiencies_get_start_data, get_exit_data, get_extleak_data, get_intleak_data, get_data"]}
{"id": "C46", "title": "HDF5 file", "statement": "polycap_transmission_efficiencies_write_hdf5 returns true only if the file on disk is complete: every table of the result and of its input, element (component, photon) in place, profile tables with every profile point, leak tables if and only if there are leaks. Otherwise it returns false and reports an error. Other files, the result and what is allocated are unchanged in both cases.", "quantifier": "all results, all sizes, all library failures at any call, all allocation failures", "why_tests_cant": "every one of several hundred library calls can fail; sizes are arbitrary", "anchors": ["src/polycap-transmission-efficiencies.c: polycap_transmission_efficiencies_write_hdf5, polycap_h5_write_dataset"]}
{"id": "C47", "title": "HDF5 error mapping", "statement": "A failing HDF5 call is reported with the polycap error code that belongs to the (major, minor) class of the outermost entry of the library's error stack and with the text 'outermost (innermost)'; the translation tables are made once however often a file is written, and stay intact.", "quantifier": "all error stacks, all calls, all library versions", "why_tests_cant": "all codes, all histories of calls", "anchors": ["src/polycap-transmission-efficiencies.c: tables_init, append_minor_table_entry, append_exact_table_entry, walk_cb, set_exception"]}
{"id": "C48", "title": "Python arrays are complete", "statement": "The Python accessors for profile arrays return every element of the profile.", "quantifier": "all profiles", "why_tests_cant": "the last element is garbage only sometimes", "anchors": ["python/polycap.pyx: Profile.get_ext, get_cap, get_z"]}
{"id": "C49", "title": "Relaunch", "statement": "Launching the same photon again gives the same result as launching a fresh photon with the same start values.", "quantifier": "all histories of launches of one photon object", "why_tests_cant": "history dependence", "anchors": ["src/polycap-photon.c: polycap_photon_launch"]}
{"id": "C50", "title": "NaN arguments are rejected", "statement": "Constructors that reject out-of-range numbers also reject NaN.", "quantifier": "all IEEE-754 doubles", "why_tests_cant": "NaN compares false with everything; tests rarely try it", "anchors": ["src/polycap-profile.c: polycap_profile_new", "src/polycap-photon.c: polycap_photon_new", "src/polycap-source.c: polycap_source_new"]}
{"id": "C51", "title": "Photons are attributed to real capillaries only", "statement": "Every photon whose entrance point is inside the optic exterior is attributed to one of the capillaries the optic has.", "quantifier": "all entrance points inside the hexagon, all stackings", "why_tests_cant": "a thin region near the corners, of unbounded variety", "anchors": ["src/polycap-photon.c: polycap_photon_launch"]}
{"id": "C52", "title": "Capillaries of a validated optic do not overlap", "statement": "If polycap_profile_validate accepts a profile, the discs of any two capillaries are disjoint at every z.", "quantifier": "all profiles, capillary counts, pairs of capillaries and z indices", "why_tests_cant": "all pairs in an unbounded lattice", "anchors": ["src/polycap-profile.c: polycap_profile_validate"]}
{"id": "C53", "title": "A stored error survives later calls", "statement": "A call that is handed an error variable already holding an error leaves that error in place (it is the first error that is kept), also when the call itself fails.", "quantifier": "all heaps, all stored errors, all failing argument combinations", "why_tests_cant": "history dependence: tests always start with an empty error variable", "anchors": ["src/polycap-description.c: polycap_description_new", "src/polycap-error.c: polycap_set_error_literal"]}
{"id": "C54", "title": "Accepted composition fractions are fractions", "statement": "Every weight fraction a description holds lies in [0,1].", "quantifier": "all compositions accepted by polycap_description_new", "why_tests_cant": "all real vectors adding up to 1", "anchors": ["src/polycap-description.c: polycap_description_check_weight"]}
{"id": "C55", "title": "Unreadable input files are reported", "statement": "polycap_source_new_from_file reports POLYCAP_ERROR_IO and returns NULL when the file ends early or does not hold a number where one is expected.", "quantifier": "all files, truncated at any point", "why_tests_cant": "all contents and truncation points", "anchors": ["src/polycap-source.c: polycap_source_new_from_file"]}
{"id": "C56", "title": "Surface normal is orthogonal to the wall", "statement": "The surface normal returned with a wall interaction is orthogonal to every direction tangent to the capillary wall at the interaction point.", "quantifier": "all segments and rays producing an interaction", "why_tests_cant": "a continuum of cones and hits", "anchors": ["src/polycap-capil.c: polycap_capil_segment"]}
{"id": "C57", "title": "Electric vector stays transverse", "statement": "After a reflection the photon's electric vector is again orthogonal to its direction of travel.", "quantifier": "all reflections", "why_tests_cant": "a continuum of directions and polarisations", "anchors": ["src/polycap-capil.c: polycap_refl_polar, polycap_capil_reflect"]}
{"id": "C58", "title": "Exit coordinates lie on the exit window", "statement": "The exit coordinates of a photon reported as transmitted lie on the exit plane of the optic.", "quantifier": "all transmitted photons", "why_tests_cant": "a continuum of photons", "anchors": ["src/polycap-photon.c: polycap_photon_launch", "src/polycap-capil.c: polycap_capil_trace"]}
{"id": "C59", "title": "A photon along a straight channel is transmitted", "statement": "A photon that travels parallel to the axis of a straight capillary, inside its channel, is transmitted with weight 1 and finite coordinates.", "quantifier": "all straight capillaries and points of the channel", "why_tests_cant": "a degenerate case of the quadratic equation", "anchors": ["src/polycap-photon.c: polycap_photon_launch", "src/polycap-capil.c: polycap_capil_segment"]}
{"id": "C60", "title": "Unusable composition is reported", "statement": "Launching a photon into an optic whose composition has no cross sections reports an error instead of crashing.", "quantifier": "all descriptions accepted by polycap_description_new", "why_tests_cant": "all compositions", "anchors": ["src/polycap-photon.c: polycap_photon_scatf, polycap_photon_launch", "src/polycap-capil.c: polycap_capil_reflect"]}
{"id": "C61", "title": "Simulations complete under every schedule", "statement": "Whatever the order in which the threads of polycap_source_get_transmission_efficiencies execute, the simulation has no data race, no undefined behaviour in its bookkeeping, no deadlock, and ends as soon as the random numbers have delivered the requested photons.", "quantifier": "all interleavings of all threads, all distributions of photons over threads, with and without leak calculation", "why_tests_cant": "schedules cannot be enumerated; races show rarely", "anchors": ["src/polycap-source.c: polycap_source_get_transmission_efficiencies (parallel region)"]}
{"id": "C62", "title": "Every launched photon is counted", "statement": "The number of started photons in the result of polycap_source_get_transmission_efficiencies counts every photon that entered the optic while it ran.", "quantifier": "all sources, optics and random streams", "why_tests_cant": "a photon on the wrong side of a tolerance is dropped from all counters", "anchors": ["src/polycap-source.c: polycap_source_get_transmission_efficiencies, lines 754-779"]}
{"id": "C63", "title": "Simulations end", "statement": "polycap_source_get_transmission_efficiencies ends for every source and optic the constructors accept, given enough random numbers.", "quantifier": "all accepted sources and optics, all random streams", "why_tests_cant": "a test cannot observe that a loop never ends", "anchors": ["src/polycap-source.c: polycap_source_get_transmission_efficiencies, lines 742-884"]}
{"id": "C64", "title": "Progress output is harmless", "statement": "The progress lines polycap_source_get_transmission_efficiencies prints never disturb the simulation (no division by zero, no overflow).", "quantifier": "all photon counts, thread counts, schedules and team sizes", "why_tests_cant": "depends on the team the OpenMP runtime delivers", "anchors": ["src/polycap-source.c: polycap_source_get_transmission_efficiencies, lines 886-891"]}
{"id": "C65", "title": "Recorded electric vectors are the photons'", "statement": "The electric vectors the start, exit and leak getters of a result return are those the recorded photons and leaks had.", "quantifier": "all recorded photons and leaks", "why_tests_cant": "a continuum of polarisations; uninitialised memory often happens to be zero", "anchors": ["src/polycap-source.c: polycap_source_get_transmission_efficiencies (round())", "src/polycap-transmission-efficiencies.c: polycap_transmission_efficiencies_get_start_data, get_exit_data, get_extleak_data, get_intleak_data"]}
{"id": "C66", "title": "Releasing a result", "statement": "polycap_transmission_efficiencies_free releases every block of the result, exactly once, and nothing else; what the getters handed out before stays valid.", "quantifier": "all results, all heaps", "why_tests_cant": "double frees and leaks need not show", "anchors": ["src/polycap-transmission-efficiencies.c: polycap_transmission_efficiencies_free, polycap_images_free"]}
{"id": "C67", "title": "A result outlives its source", "statement": "A result can be written to a file after the source it was computed from has been released.", "quantifier": "all results and histories of releases", "why_tests_cant": "use after free need not show", "anchors": ["src/polycap-transmission-efficiencies.c: polycap_transmission_efficiencies_write_hdf5", "src/polycap-source.c: polycap_source_free, polycap_source_get_transmission_efficiencies"]}
{"id": "C68", "title": "Python exceptions", "statement": "An error reported by the C library becomes a Python exception whose class is given by the error code and whose text is the message; the error object is released. Arrays of different sizes, or too short, are refused with ValueError.", "quantifier": "all error objects, all array arguments, all heaps", "why_tests_cant": "all codes and all call sites; a lost error object does not show", "anchors": ["python/polycap.pyx: polycap_set_exception, Profile.new_from_arrays"]}
{"id": "C69", "title": "Python array arguments", "statement": "Profile.new_from_arrays takes the array arguments element by element, whatever their memory layout.", "quantifier": "all one-dimensional numpy arrays, with any stride", "why_tests_cant": "only contiguous arrays are tested", "anchors": ["python/polycap.pyx: Profile.new_from_arrays"]}
{"id": "C70", "title": "Where the light goes", "statement": "What a launch reports about intensities is what optics prescribes: at every reflection each energy is split into a reflected part and a part that enters the glass, light in the glass loses intensity with the length of its path there, light that reaches another channel is split again, and everything that leaves the optic is recorded as a leak; the weights of a transmitted photon are what its reflections left.", "quantifier": "all photons, optics, compositions, energies and numbers of reflections", "why_tests_cant": "a tree of light paths of unbounded size for each photon", "anchors": ["src/polycap-photon.c: polycap_photon_launch", "src/polycap-capil.c: polycap_capil_reflect, polycap_capil_trace, polycap_capil_leak"]}
{"id": "C71", "title": "A leak records the light that leaves", "statement": "Every recorded leak holds the direction in which its light leaves the optic and the number of reflections after which it does.", "quantifier": "all leaks of all photons", "why_tests_cant": "a continuum of light paths", "anchors": ["src/polycap-capil.c: polycap_capil_reflect, polycap_capil_trace"]}
{"id": "C72", "title": "Side leaks lie on the outer surface", "statement": "The recorded position of a leak through the side of the optic lies on the optic's outer surface.", "quantifier": "all leaks of all photons and optics", "why_tests_cant": "a continuum of positions", "anchors": ["src/polycap-photon.c: polycap_photon_pc_intersect", "src/polycap-capil.c: polycap_capil_reflect"]}
{"id": "C73", "title": "Exit leaks lie in the exit plane", "statement": "The recorded position of a leak through the exit of the optic lies in the exit plane.", "quantifier": "all leaks of all photons and optics", "why_tests_cant": "a continuum of positions", "anchors": ["src/polycap-capil.c: polycap_capil_trace_wall, polycap_capil_reflect"]}
{"id": "C74", "title": "Bad requests are refused", "statement": "polycap_source_get_transmission_efficiencies called without a source, with a progress monitor, with a source that has no description or no energies or an energy outside 1-100 keV, or for fewer than one photon, returns NULL, reports INVALID_ARGUMENT and changes nothing else in memory.", "quantifier": "all sources, arguments, error slots and states of memory", "why_tests_cant": "combinations of arguments and memory states are unbounded", "anchors": ["src/polycap-source.c: polycap_source_get_transmission_efficiencies"]}
{"id": "C75", "title": "Running out of memory is reported", "statement": "If memory runs out while polycap_source_get_transmission_efficiencies prepares its arrays, it returns NULL, reports a MEMORY error and leaves everything the caller had as it was, wherever the allocation failed.", "quantifier": "all positions of the failing allocation, requests and states of memory", "why_tests_cant": "tests cannot make each allocation fail", "anchors": ["src/polycap-source.c: polycap_source_get_transmission_efficiencies"]}
{"id": "C76", "title": "What the caller gets", "statement": "With memory available a valid request never runs into undefined behaviour and never fails, whatever the schedule of the threads: the returned object holds exactly what the threads recorded (counts, exit data, leaks, energies, efficiencies) in arrays of its own, the description's open area is that of the simulation, and nothing else in memory has changed.", "quantifier": "all schedules, distributions of photons over threads, numbers of photons and energies, and states of memory", "why_tests_cant": "schedules and sizes are unbounded", "anchors": ["src/polycap-source.c: polycap_source_get_transmission_efficiencies"]}
{"id": "C77", "title": "A failed simulation releases its memory", "statement": "If memory runs out while polycap_source_get_transmission_efficiencies prepares its arrays, everything it had obtained is released.", "quantifier": "all positions of the failing allocation, requests and states of memory", "why_tests_cant": "tests cannot make each allocation fail", "anchors": ["src/polycap-source.c: polycap_source_get_transmission_efficiencies"]}
{"id": "C78", "title": "A launch in memory", "statement": "With memory available, a launch of a photon object leaves in memory exactly what the tracing of its photon computes: the fields of the photon, its leaks in arrays of their own with one weight per energy, the weights in a new array the caller owns, the error (if any) in the caller's variable; the temporary arrays and photons are gone, nothing else has changed, and no undefined behaviour occurs. A refused argument (NULL, no energies, an energy outside 1-100) changes nothing but the caller's error variable.", "quantifier": "all photons (fresh or launched before), optics, energies, options and states of memory, all numbers of reflections, leaks and temporary photons", "why_tests_cant": "aliasing, leaks and reads of uninitialised memory need not show; unbounded recursion through the walls", "anchors": ["src/polycap-photon.c: polycap_photon_launch, polycap_photon_scatf", "src/polycap-capil.c: polycap_capil_reflect, polycap_capil_trace"]}
{"id": "C79", "title": "A photon's life leaves nothing behind", "statement": "With memory available, creating a photon, launching it, releasing the weights and releasing the photon gives back all memory: afterwards it is as before, up to the caller's variables and a reported error.", "quantifier": "all photons, optics, energies, options and states of memory", "why_tests_cant": "leaked blocks do not show", "anchors": ["src/polycap-photon.c: polycap_photon_new, polycap_photon_launch, polycap_photon_free", "src/polycap-capil.c: polycap_capil_reflect"]}
{"id": "C80", "title": "Launching a photon again", "statement": "A photon can be launched several times before it is released; at the end all memory is given back.", "quantifier": "all photons, optics, energies and states of memory", "why_tests_cant": "leaked blocks do not show", "anchors": ["src/polycap-photon.c: polycap_photon_launch, polycap_photon_free"]}
{"id": "C81", "title": "A launch without memory", "statement": "If memory runs out during polycap_photon_launch it returns -1 and reports a MEMORY error; the photon stays the caller's, who can release it, and nothing is lost.", "quantifier": "all positions of the failing allocation, all photons, optics and energies", "why_tests_cant": "tests cannot make each allocation fail", "anchors": ["src/polycap-photon.c: polycap_photon_launch, polycap_photon_scatf", "src/polycap-capil.c: polycap_capil_reflect", "src/polycap-photon.c: polycap_leak_new"]}
{"id": "C82", "title": "Ellipsoidal exterior of focussing and confocal optics", "statement": "For an ellipsoidal profile whose end radii differ and whose taper fits its focal distance, the exterior radius takes the requested values at both ends, is monotonic and stays between them, and lies on an ellipse with horizontal tangent at the wider end and the slope towards the focal point at the narrower end.", "quantifier": "all lengths, radii and focal distances of such optics (exact arithmetic)", "why_tests_cant": "continuum of shapes, 1000 points each", "anchors": ["src/polycap-profile.c: polycap_profile_new"]}
{"id": "C83", "title": "Arrays of nid+1 elements suffice", "statement": "polycap_profile_new_from_arrays, called with arrays that hold one element more than its nid argument, reads only inside them and returns a profile.", "quantifier": "all arrays and all states of memory in which four allocations succeed", "why_tests_cant": "reads past the end of an array need not show", "anchors": ["src/polycap-profile.c: polycap_profile_new_from_arrays"]}
{"id": "C84", "title": "A failing allocation in polycap_profile_new is reported", "statement": "If any of the allocations of polycap_profile_new fails (while memory for the error report can still be had), it returns NULL with POLYCAP_ERROR_MEMORY, everything it had obtained has been released and nothing else has changed.", "quantifier": "all positions of the failing allocation, all arguments, error slots and states of memory", "why_tests_cant": "tests cannot make each allocation fail", "anchors": ["src/polycap-profile.c: polycap_profile_new"]}
{"id": "C85", "title": "Capillaries inside a validated optic", "statement": "If polycap_profile_validate accepts a profile, then at every z every capillary that is not in the outermost shell lies inside the hexagonal exterior, and with an even number of shells every capillary does.", "quantifier": "all profiles, capillary numbers, capillaries and points of their discs", "why_tests_cant": "a continuum of points for every capillary", "anchors": ["src/polycap-profile.c: polycap_profile_validate"]}
{"id": "C86", "title": "A refused profile gives no description", "statement": "When polycap_description_new refuses a profile (with otherwise valid arguments) it returns NULL and the error variable holds an INVALID_ARGUMENT error.", "quantifier": "all profiles, compositions and states of memory", "why_tests_cant": "all heaps and arguments", "anchors": ["src/polycap-description.c: polycap_description_new"]}
{"id": "C87", "title": "Composition check in exact arithmetic", "statement": "The composition check accepts weight fractions exactly when they add up to 1, or are not negative and add up to 100: then they add up to 1 afterwards, unchanged if they were fractions and divided by 100 if they were percentages, and nothing else has changed; otherwise it reports INVALID_ARGUMENT.", "quantifier": "all lists of weight fractions of any length and all states of memory", "why_tests_cant": "unbounded lists of reals", "anchors": ["src/polycap-description.c: polycap_description_check_weight"]}
{"id": "C88", "title": "Open area of separated capillaries", "statement": "The open area stored in a new description is the number of capillaries in the hexagonal stack times the area of one, divided by the area of the hexagonal exterior, at the entrance; it is strictly between 0 and 1 when the capillary diameter does not exceed the distance between neighbouring axes.", "quantifier": "all optics (exact arithmetic)", "why_tests_cant": "a continuum of radii", "anchors": ["src/polycap-description.c: polycap_description_new"]}
{"id": "C89", "title": "A failing allocation in the constructors", "statement": "If an allocation of polycap_description_new fails (while memory for the report can be had) it returns NULL and reports MEMORY, with nothing lost and nothing else changed. If the first allocation of polycap_source_new fails, or one of those that copy the description, it returns NULL and memory is as before.", "quantifier": "all positions of the failing allocation, all arguments and states of memory", "why_tests_cant": "tests cannot make each allocation fail", "anchors": ["src/polycap-description.c: polycap_description_new", "src/polycap-source.c: polycap_source_new"]}
{"id": "C90", "title": "A source read from a file", "statement": "A source that polycap_source_new_from_file returns holds the numbers of the file in their places (percentages divided by 100, energies from the start energy in steps up to the final one, the profile of the given shape); its distances are not negative, its energies lie between 1 and 100 keV, its elements between 1 and 94, its open area between 0 and 1, and its profile is a validated one.", "quantifier": "all files (as sequences of tokens)", "why_tests_cant": "unbounded set of files", "anchors": ["src/polycap-source.c: polycap_source_new_from_file", "src/polycap-description.c: polycap_description_new_from_file"]}
{"id": "C91", "title": "Launch codes", "statement": "polycap_photon_launch returns one of 1, 0, 2, -1, -2; NULL or empty energies, an energy outside 1-100 keV and a NULL weights argument give -1 with an INVALID_ARGUMENT error and leave the photon alone; -2 is always accompanied by an error and is returned exactly for photons that start outside the outline of the optic at their z.", "quantifier": "all photons, optics, energies and options; the last part in exact arithmetic", "why_tests_cant": "a continuum of start points", "anchors": ["src/polycap-photon.c: polycap_photon_launch"]}
{"id": "C92", "title": "Weights of photons from the entrance", "statement": "When leaks are not calculated, or the photon starts at or before the entrance plane, a launch that returns 1 or 0 hands out an array with one weight per energy, all of them initialised.", "quantifier": "all photons, optics, energies and numbers of reflections (exact arithmetic)", "why_tests_cant": "reads of uninitialised memory need not show", "anchors": ["src/polycap-photon.c: polycap_photon_launch"]}
{"id": "C93", "title": "Wall hits of rays that are not parallel to the wall", "statement": "For a photon travelling downstream and not parallel to the capillary wall, a reported interaction in a profile segment is the first point of its ray on the wall at least 1e-5 cm further downstream; such a point at least 1e-10 cm behind the start of the segment is not overlooked; when no interaction is reported the coordinates are unchanged.", "quantifier": "all segments, radii, rays and photon positions (exact arithmetic)", "why_tests_cant": "a continuum of rays and cones", "anchors": ["src/polycap-capil.c: polycap_capil_segment"]}
{"id": "C94", "title": "Every launch without leak calculation returns", "statement": "A launch without leak calculation, of any photon into any well-formed optic, ends and never reads the profile arrays out of their bounds.", "quantifier": "all photons, optics, energies (exact arithmetic)", "why_tests_cant": "unbounded number of reflections", "anchors": ["src/polycap-photon.c: polycap_photon_launch", "src/polycap-capil.c: polycap_capil_trace"]}
{"id": "C95", "title": "Result getters hand out faithful copies", "statement": "The start, exit, leak and efficiency getters of a result return fresh arrays with the stored values for every index and change nothing else; z components of downstream unit directions are recovered; getters of a NULL result, or of one without images, start data or leaks, report an error.", "quantifier": "all results, numbers of photons, leaks and energies, states of memory, failing allocations (except in the efficiency getter)", "why_tests_cant": "unbounded sizes, aliasing", "anchors": ["src/polycap-transmission-efficiencies.c: polycap_transmission_efficiencies_get_data, ..._get_start_data, ..._get_exit_data, ..._get_extleak_data, ..._get_intleak_data"]}
{"id": "C96", "title": "A written result file holds the result", "statement": "With a working HDF5 library and memory polycap_transmission_efficiencies_write_hdf5 returns true and the file on disk holds every table of the result and of its input, each element in its place (profile tables: all points but the last). If library calls fail, either the file is complete all the same or an error is reported and the file is not left on disk as if it were complete. Other files, the result and the rest of memory are unchanged.", "quantifier": "all results and inputs, all failing library calls, all states of memory and of the library", "why_tests_cant": "tests cannot make each library call fail", "anchors": ["src/polycap-transmission-efficiencies.c: polycap_transmission_efficiencies_write_hdf5"]}
{"id": "C97", "title": "HDF5 errors are translated", "statement": "When the file cannot be opened the error has the polycap code that belongs to the major and minor class of the outermost entry of the HDF5 error stack and the text 'outermost (innermost)'. The translation tables are made by the first call only and stay intact whatever happens later.", "quantifier": "all error stacks, library versions and histories of calls", "why_tests_cant": "unbounded histories", "anchors": ["src/polycap-transmission-efficiencies.c: polycap_transmission_efficiencies_write_hdf5, append_minor_table_entry, append_exact_table_entry"]}
{"id": "C98", "title": "Separated capillaries", "statement": "If at every z the capillary diameter is at most the distance between neighbouring axes, polycap_profile_validate accepts the profile, every capillary lies inside the exterior and the discs of different capillaries do not overlap.", "quantifier": "all profiles, numbers of capillaries and points of their discs (exact arithmetic)", "why_tests_cant": "a continuum of points", "anchors": ["src/polycap-profile.c: polycap_profile_validate"]}
{"id": "C99", "title": "Non-negative compositions", "statement": "If the weight fractions supplied are not negative and pass the composition check, the stored fractions lie in [0,1].", "quantifier": "all lists of weight fractions", "why_tests_cant": "unbounded lists of reals", "anchors": ["src/polycap-description.c: polycap_description_check_weight"]}
{"id": "C100", "title": "Surface normal of capillaries parallel to the axis", "statement": "In a segment whose axis is parallel to the optical axis (with any taper) the surface normal returned with a wall interaction is orthogonal to the wall at the interaction point.", "quantifier": "all such segments and rays (exact arithmetic)", "why_tests_cant": "a continuum of rays and cones", "anchors": ["src/polycap-capil.c: polycap_capil_segment"]}
{"id": "C101", "title": "Progress output with at least one photon per thread", "statement": "If there are at least as many photons as threads and no thread gets more than 21474836 of them, printing the progress never divides by zero nor overflows.", "quantifier": "all numbers of threads and photons and all sequences of iterations", "why_tests_cant": "unbounded sequences", "anchors": ["src/polycap-source.c: polycap_source_get_transmission_efficiencies"]}
{"id": "C102", "title": "Contiguous Python array arguments", "statement": "Profile.new_from_arrays with contiguous arrays of equal length makes a profile with exactly their elements and changes nothing else; in general it takes the cells that follow the first element in memory.", "quantifier": "all contiguous arrays and states of memory in which four allocations succeed", "why_tests_cant": "aliasing, unbounded sizes", "anchors": ["python/polycap.pyx: Profile.new_from_arrays"]}
{"id": "C103", "title": "What a launch depends on", "statement": "The outcome of a launch depends on the photon only through its start coordinates, direction and electric vector, and through the travelled distance, exit electric vector and coefficients an earlier launch left; a launch releases the energies, weights and coefficients it attached to the photon.", "quantifier": "all photons and optics (exact arithmetic)", "why_tests_cant": "all pairs of photons", "anchors": ["src/polycap-photon.c: polycap_photon_launch"]}
{"id": "C104", "title": "A Python result behaves as fixed sequences", "statement": "For a TransmissionEfficiencies object: data is the pair of energies and efficiencies of the simulation; every evaluation of one of its twelve iterable properties gives a new iterator that hands out the elements of the library's result in order and then stops (leaks: a ValueError when there are none), whatever was evaluated or iterated before, however interleaved; when the object is deleted the result and every array fetched for it are released and nothing else has changed.", "quantifier": "all results with at least one transmitted photon and all finite sequences of evaluations and next() calls, interleaved in any way, when memory does not run out", "why_tests_cant": "unbounded histories of interleaved iterators", "anchors": ["python/polycap.pyx: TransmissionEfficiencies, Leak.create"]}
{"id": "C105", "title": "A Python result survives a MemoryError", "statement": "After a property of a TransmissionEfficiencies object has raised MemoryError the object can be used again and deleted without undefined behaviour.", "quantifier": "all results, failing allocations and histories", "why_tests_cant": "tests cannot make each allocation fail", "anchors": ["python/polycap.pyx: TransmissionEfficiencies"]}
{"id": "C106", "title": "A Python photon behaves as the library's", "statement": "For a Photon: making it raises ValueError exactly when the start or the direction points against the optic; launch with a list of energies returns the weights the tracing gives, None when the photon starts in the glass, and raises an exception with the class of the reported error; fields are those of the launched photon; an iterator over leaks hands out, in order, the leaks that were fetched first (ValueError when there are none). No use is undefined; when the object is deleted all memory is given back except one block for every leak a relaunched photon had and one for every array of weights that was not handed out.", "quantifier": "all photons, optics and finite sequences of launches, reads, evaluations and next() calls, interleaved in any way, as long as every launch returns and memory does not run out", "why_tests_cant": "unbounded histories of launches and interleaved iterators", "anchors": ["python/polycap.pyx: Photon, Leak.create", "src/polycap-photon.c: polycap_photon_launch, polycap_photon_get_extleak_data, polycap_photon_get_intleak_data"]}
{"id": "C107", "title": "A Python photon launched once", "statement": "If Photon.launch returns weights, these are the weights of the tracing, all fields and all leaks read afterwards (however often and interleaved) are those of the traced photon, and when the object is deleted memory is as before.", "quantifier": "all photons, optics and finite sequences of reads and next() calls", "why_tests_cant": "unbounded histories", "anchors": ["python/polycap.pyx: Photon"]}
{"id": "C108", "title": "Leaks of the last launch", "statement": "Photon.extleak_data and intleak_data give the leaks of the most recent launch.", "quantifier": "all photons and histories", "why_tests_cant": "unbounded histories", "anchors": ["python/polycap.pyx: Photon.extleak_data, Photon.intleak_data"]}
{"id": "C109", "title": "Photon.launch loses no memory", "statement": "Whatever comes of Photon.launch (weights, None or an exception), deleting the photon gives back all memory.", "quantifier": "all photons, optics and energies", "why_tests_cant": "leaks are invisible to tests of values", "anchors": ["python/polycap.pyx: Photon.launch"]}
{"id": "C110", "title": "Weights Photon.launch returns were computed", "statement": "Every number in the array Photon.launch returns was computed by the tracing.", "quantifier": "all photons, optics and energies", "why_tests_cant": "uninitialised memory often looks plausible", "anchors": ["python/polycap.pyx: Photon.launch", "src/polycap-photon.c: polycap_photon_launch"]}
{"id": "C111", "title": "A Python photon keeps its description", "statement": "A Photon can be launched as long as it exists, even if the program no longer refers to its Description.", "quantifier": "all photons and descriptions", "why_tests_cant": "depends on when objects are collected", "anchors": ["python/polycap.pyx: Photon, Description"]}
{"id": "C112", "title": "Every Python photon can be read", "statement": "The fields of every Photon object that was made without an exception can be read.", "quantifier": "all Photon objects", "why_tests_cant": "crashes of objects made in unusual ways", "anchors": ["python/polycap.pyx: Photon"]}
{"id": "C113", "title": "Python programs see consistent objects", "statement": "Whatever sequence of Profile, Description and Source objects a Python program makes and deletes, with valid or invalid arguments: each attempt either yields an object or raises the documented exception, every object still alive holds exactly the data it was made from in memory no other object shares, and deleting an object affects no other.", "quantifier": "all programs of constructor calls and deletions", "why_tests_cant": "unbounded histories with aliasing between objects", "anchors": ["python/polycap.pyx: Profile, Description, Source"]}
{"id": "C114", "title": "Deleting all Python objects gives back all memory if no description is refused for its shape", "statement": "After all objects a program made are deleted, memory is as before, provided that no Description was refused because its capillaries do not fit into the profile.", "quantifier": "all programs of constructor calls and deletions", "why_tests_cant": "leaks over unbounded histories", "anchors": ["python/polycap.pyx: Profile, Description, Source"]}
{"id": "C115", "title": "Deleting all Python objects gives back all memory", "statement": "After all objects a program made are deleted, memory is as before, whatever exceptions were raised on the way.", "quantifier": "all programs of constructor calls and deletions", "why_tests_cant": "leaks over unbounded histories", "anchors": ["python/polycap.pyx: Description", "src/polycap-description.c: polycap_description_new"]}
{"id": "C116", "title": "Photons of a Python source", "statement": "A photon obtained with Source.get_photon is the one determined by the numbers of the source and the random numbers; it can then be launched and read like any other photon, and source and description stay as they are.", "quantifier": "all sources, random numbers and histories of the photon", "why_tests_cant": "unbounded histories, all random numbers", "anchors": ["python/polycap.pyx: Source.get_photon", "src/polycap-source.c: polycap_source_get_photon"]}
{"id": "C117", "title": "A Python photon keeps its source", "statement": "A photon from Source.get_photon can be launched as long as it exists, even if the program no longer refers to the Source.", "quantifier": "all sources and photons", "why_tests_cant": "depends on when objects are collected", "anchors": ["python/polycap.pyx: Source.get_photon"]}
{"id": "C118", "title": "Every Python profile can be used", "statement": "A Description can be made, or is refused with an exception, from every Profile object that was made without an exception.", "quantifier": "all Profile objects", "why_tests_cant": "crashes of objects made in unusual ways", "anchors": ["python/polycap.pyx: Profile, Description"]}
{"id": "C119", "title": "A Python program from profile to photon", "statement": "A program that makes profiles, descriptions and sources in any order, deletes some of them, takes a photon from a source still there and launches and reads it sees what the arguments of its constructors, the random numbers and the tracing determine, and the objects left are unaffected by the photon.", "quantifier": "all programs, random numbers and histories of the photon", "why_tests_cant": "composition of unbounded histories", "anchors": ["python/polycap.pyx: Profile, Description, Source, Photon"]}
{"id": "C120", "title": "A Python simulation", "statement": "However its threads are scheduled, Source.get_transmission_efficiencies returns an object whose energies are those of the source, whose efficiencies are those of the simulation the random numbers determine, and whose other properties answer as the stored result says; when it is deleted memory is as before, except that the description of the source now records the open area of the simulation. The source can be used again.", "quantifier": "all sources, numbers of photons and threads, schedules, random numbers and sequences of evaluations, when memory does not run out", "why_tests_cant": "unbounded schedules and histories", "anchors": ["python/polycap.pyx: Source.get_transmission_efficiencies, TransmissionEfficiencies", "src/polycap-source.c: polycap_source_get_transmission_efficiencies"]}
{"id": "C121", "title": "Exceptions of a Python simulation", "statement": "get_transmission_efficiencies with fewer than one photon raises ValueError and leaves memory as it was; if one of the allocations that prepare the simulation fails it raises MemoryError and everything the program had is intact.", "quantifier": "all sources, numbers of photons and threads, and each failing allocation of the preparation", "why_tests_cant": "tests cannot make each allocation fail", "anchors": ["python/polycap.pyx: Source.get_transmission_efficiencies", "src/polycap-source.c: polycap_source_get_transmission_efficiencies"]}
{"id": "C122", "title": "A Python program from profile to efficiencies", "statement": "A program that makes and deletes profiles, descriptions and sources, simulates with one of the sources and goes on making and deleting objects sees in the result what the arguments of its constructors, the random numbers and the tracing determine, and afterwards exactly the objects it still has; if all are deleted, and no description was refused for its shape, memory is as before.", "quantifier": "all programs, schedules and random numbers, when memory does not run out", "why_tests_cant": "composition of unbounded histories and schedules", "anchors": ["python/polycap.pyx: Profile, Description, Source, TransmissionEfficiencies"]}
{"id": "C123", "title": "A profile from three complete files", "statement": "polycap_profile_new_from_file on three files that announce the same number n of intervals (more than 100) and list n+1 complete rows returns a profile with n intervals, the positions and outer radii of the third file and the capillary radii of the first; it consists of new memory, nothing else changes and all files are closed.", "quantifier": "all files, numbers of intervals and states of memory", "why_tests_cant": "unbounded file contents", "anchors": ["src/polycap-profile.c: polycap_profile_new_from_file"]}
{"id": "C124", "title": "Refused profile files", "statement": "polycap_profile_new_from_file returns NULL, reports exactly one error of the documented kind and leaves all other memory as it was when a name is NULL, the first file cannot be opened, it announces at most 100 intervals, a second or third file cannot be opened or announces another number, or an allocation fails.", "quantifier": "all files, states of memory and failing allocations", "why_tests_cant": "tests cannot make each allocation fail or see leaks", "anchors": ["src/polycap-profile.c: polycap_profile_new_from_file"]}
{"id": "C125", "title": "Profile files are closed", "statement": "Every file polycap_profile_new_from_file opens is closed when it returns.", "quantifier": "all files and failing allocations", "why_tests_cant": "leaked streams are invisible to tests of values", "anchors": ["src/polycap-profile.c: polycap_profile_new_from_file"]}
{"id": "C126", "title": "A profile only holds numbers of its files", "statement": "Every element of a profile polycap_profile_new_from_file returns was read from one of the files; incomplete files are refused with an error.", "quantifier": "all files", "why_tests_cant": "uninitialised memory often looks plausible", "anchors": ["src/polycap-profile.c: polycap_profile_new_from_file"]}
{"id": "C127", "title": "A source from a complete input file", "statement": "polycap_source_new_from_file on a complete file with acceptable values, percentages adding up to 100 and a profile given by its shape hands out the source the file describes, in new memory: its numbers in their places, the energies from the first to the last in equal steps, fractions, the profile of that shape and the open area; nothing else in memory changes and no error is set.", "quantifier": "all such files (exact arithmetic) and states of memory in which allocations succeed", "why_tests_cant": "unbounded files and a continuum of values", "anchors": ["src/polycap-source.c: polycap_source_new_from_file"]}
{"id": "C128", "title": "Refused input files", "statement": "polycap_source_new_from_file with a NULL name, a file that cannot be opened, one with something that is no number among its first ten entries, or a complete one with a value that is not acceptable returns NULL with exactly one error of the documented kind and leaves the rest of memory as it was; an error is never reported together with a source.", "quantifier": "all such files and states of memory in which allocations succeed", "why_tests_cant": "all contents of files; leaks are invisible to tests of values", "anchors": ["src/polycap-source.c: polycap_source_new_from_file"]}
{"id": "C129", "title": "Input files are closed", "statement": "When polycap_source_new_from_file returns, every file it opened is closed.", "quantifier": "all files", "why_tests_cant": "leaked streams are invisible to tests of values", "anchors": ["src/polycap-source.c: polycap_source_new_from_file"]}
{"id": "C130", "title": "Reading an input file, whatever is in it", "statement": "Whatever an input file contains, as long as no uninitialised number is used: polycap_source_new_from_file either returns NULL, one error and memory as before, or a source in new blocks that polycap_source_free gives back completely.", "quantifier": "all token sequences and states of memory in which allocations succeed", "why_tests_cant": "all contents of files, including truncated and malformed ones", "anchors": ["src/polycap-source.c: polycap_source_new_from_file"]}
{"id": "C131", "title": "A successful run of the program", "statement": "The program polycap without arguments does nothing and exits with status 0. With a complete, acceptable input file whose percentages add up to 100 and a working HDF5 library it exits with status 0 and prints nothing on stderr; the output file (second argument or polycap_out.h5) then holds the result of a simulation of 30000 photons in the optic and with the source of the input file, made by as many threads as the third argument says if that is possible and with leaks exactly if the fourth argument is 1; no other file is changed, and all memory is given back except the tables of the HDF5 writer.", "quantifier": "all complete input files, arguments, random numbers and schedules of the threads", "why_tests_cant": "a run is one schedule and one stream of random numbers", "anchors": ["src/main.c: main"]}
{"id": "C132", "title": "A refused input file", "statement": "If the input file cannot be opened, does not hold numbers where they belong or holds a value that is not acceptable, the program exits with status 1, prints the message of the reported error on stderr, and touches no output file.", "quantifier": "all input files, arguments and states of the HDF5 library", "why_tests_cant": "all file contents", "anchors": ["src/main.c: main", "src/polycap-source.c: polycap_source_new_from_file"]}
{"id": "C133", "title": "Reported errors fail the program", "statement": "When one of the functions the program calls reports an error, the program prints it and exits with a status other than 0.", "quantifier": "all complete input files", "why_tests_cant": "all file contents", "anchors": ["src/main.c: main", "src/polycap-source.c: polycap_source_new_from_file"]}
{"id": "C134", "title": "A run with a failing HDF5 library", "statement": "Whatever the HDF5 library does, a run whose input was accepted ends without undefined behaviour and changes no other file; it exits with status 1 and prints the message of a reported error if the output file is not complete.", "quantifier": "all complete input files and all patterns of failing library calls", "why_tests_cant": "each of hundreds of library calls can fail", "anchors": ["src/main.c: main", "src/polycap-transmission-efficiencies.c: polycap_transmission_efficiencies_write_hdf5"]}
{"id": "C135", "title": "The photon on the axis", "statement": "In a mono-capillary whose bore gets narrower all the way, a photon that starts on the axis at any height before the exit and flies along the axis is transmitted with all weights 1, without a reflection, leak or error, whatever the glass, the roughness and the leak setting; every conical profile with a smaller exit radius is of this kind.", "quantifier": "all profiles of any number of points, all start heights, all energies (exact arithmetic)", "why_tests_cant": "all profiles and a continuum of heights", "anchors": ["src/polycap-photon.c: polycap_photon_launch", "src/polycap-capil.c: polycap_capil_trace, polycap_capil_segment"]}
{"id": "C136", "title": "An input file that names its profile", "statement": "polycap_source_new_from_file on a complete input file whose kind of profile is none of 0, 1, 2 and which names three complete files that agree on their number of intervals (more than 100) hands out the source of the input file's values with the profile of the named files; the names are given back, all files are closed and nothing else in memory changes. If a value is not acceptable for that profile, it returns NULL with exactly one error and memory as before.", "quantifier": "all such files, names and profiles (exact arithmetic) and states of memory in which allocations succeed", "why_tests_cant": "unbounded files, names and profiles", "anchors": ["src/polycap-source.c: polycap_source_new_from_file", "src/polycap-profile.c: polycap_profile_new_from_file", "src/polycap-source.c: polycap_read_input_line"]}
{"id": "C137", "title": "Refused files of a named profile", "statement": "If one of the files an input file names is refused, polycap_source_new_from_file returns NULL, reports the one error polycap_profile_new_from_file reported, closes the input file and gives back all memory it took.", "quantifier": "all such files and names and states of memory in which allocations succeed", "why_tests_cant": "leaked memory and streams are invisible to tests of values", "anchors": ["src/polycap-source.c: polycap_source_new_from_file", "src/polycap-profile.c: polycap_profile_new_from_file"]}
{"id": "C138", "title": "Memory running out while an input file is read", "statement": "If an allocation fails while polycap_source_new_from_file reads a complete input file, it returns NULL, reports exactly one MEMORY error and leaves the rest of memory as it was; behaviour is never undefined.", "quantifier": "all complete files with a profile given by its shape, and each single failing allocation", "why_tests_cant": "tests cannot make each allocation fail or see leaks", "anchors": ["src/polycap-source.c: polycap_source_new_from_file", "src/polycap-profile.c: polycap_profile_new", "src/polycap-rng.c: polycap_rng_new"]}
{"id": "C139", "title": "A new random generator", "statement": "polycap_rng_new_with_seed hands out a generator with the given seed. polycap_rng_new seeds it with eight bytes from /dev/urandom; if that cannot be opened, with a number made of the clock. In any state of the machine it hands out a generator or reports a failure.", "quantifier": "all seeds, all contents of the device, all clock times, all patterns of failing allocations", "why_tests_cant": "the device, the clock and the memory cannot be controlled by a test", "anchors": ["src/polycap-rng.c: polycap_rng_new_with_seed, polycap_rng_new"]}
{"id": "C140", "title": "The Python class Rng", "statement": "Rng(seed) makes a generator with that seed if it is an unsigned long; for another int it raises OverflowError, for what is no number TypeError, and nothing is allocated. Deleting the object gives back exactly what its creation took.", "quantifier": "all arguments and states of memory in which allocations succeed", "why_tests_cant": "all integers; leaks are invisible to tests", "anchors": ["python/polycap.pyx: Rng", "src/polycap-rng.c: polycap_rng_new_with_seed, polycap_rng_free"]}
{"id": "C141", "title": "The random numbers decide the result", "statement": "If the random numbers of each thread and the distribution of the photons over the threads are the same, the results of polycap_source_get_transmission_efficiencies are the same, whatever the scheduling of the threads, the contents of uninitialised memory and the runs before.", "quantifier": "all optics, sources, energies, streams of random numbers, distributions and schedules (exact arithmetic)", "why_tests_cant": "unboundedly many schedules and contents of memory", "anchors": ["src/polycap-source.c: polycap_source_get_transmission_efficiencies"]}
{"id": "C142", "title": "A launch has one outcome", "statement": "polycap_photon_launch with the same photon and optic always gives the same return value, weights and final photon: nothing that was left in uninitialised variables influences them.", "quantifier": "all optics, photons, energies, all contents of uninitialised variables, in exact arithmetic and in doubles", "why_tests_cant": "contents of the stack cannot be enumerated", "anchors": ["src/polycap-photon.c: polycap_photon_launch", "src/polycap-capil.c: polycap_capil_trace"]}
{"id": "C143", "title": "Every photon has its own random numbers", "statement": "In polycap_source_get_transmission_efficiencies every photon is simulated with random numbers that no other photon uses: the photons of one thread use consecutive pieces of its stream, and threads use different streams.", "quantifier": "all simulations", "why_tests_cant": "statistical tests cannot exclude shared numbers", "anchors": ["src/polycap-source.c: polycap_source_get_transmission_efficiencies", "src/polycap-rng.c: polycap_rng_new"]}
{"id": "C144", "title": "Which random numbers decide what of a photon", "statement": "Of the random numbers polycap_source_get_photon uses, the first three alone decide the point of the source, the last one alone the polarisation axis (x for a share (1+hor_pol)/2 of the numbers between 0 and 1, else y), and those in between the rest: with divergences, one number for each of the two tangents of the direction, linearly from one end of the divergence to the other; with uniform illumination, pairs of numbers are points of the square around the entrance, and the first that lies in the hexagon (a mono-capillary: the first) is the starting point.", "quantifier": "all sources, all streams of random numbers, any number of rejected pairs (exact arithmetic)", "why_tests_cant": "a statistical test cannot show independence, and the number of rejections is unbounded", "anchors": ["src/polycap-source.c: polycap_source_get_photon"]}
{"id": "C145", "title": "Writing a Python result to a file", "statement": "TransmissionEfficiencies.write_hdf5(filename) returns exactly when the complete file is on disk; otherwise it raises the exception that belongs to what went wrong. Either way everything that was in memory is as before and no other file is touched; with a working HDF5 library it returns; on an object without a result it raises ValueError. It may be called at any time in the life of the object.", "quantifier": "all results of any size, all file names, all patterns of failing library calls", "why_tests_cant": "each of hundreds of library calls can fail", "anchors": ["python/polycap.pyx: TransmissionEfficiencies.write_hdf5", "src/polycap-transmission-efficiencies.c: polycap_transmission_efficiencies_write_hdf5"]}
{"id": "C146", "title": "Copies of strings", "statement": "polycap_strdup returns a new block that holds the same string and not a byte more; polycap_strndup a new block that holds its first bytes, at most len, reading neither behind the end of the string nor behind the first len bytes. If there is no memory they return NULL. Nothing else changes, and freeing the copy gives back all the memory. This holds whether they are compiled from the library's own loops or call the C library.", "quantifier": "all strings of any length, all limits, both ways to compile the functions, any allocation that fails", "why_tests_cant": "lengths are unbounded; an access one byte out of bounds is usually not noticed", "anchors": ["src/polycap-aux.c: polycap_strdup, polycap_strndup"]}
