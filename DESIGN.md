# Formal model of polycap (PieterTack/polycap) in Rocq/Coq 8.16.1

Everything is under `rocq/theories` (logical name `Verif`). The code is C; it was read,
not run. The theorems are about the model; the tie to the C code is the citation
(file:lines in /repo) on every definition.

## 1. How the code is modelled

Two layers.

* **Layer A, heap level** (`Mem.v`): a program is a computation in a state monad over a
  heap of blocks of cells (integer, real, pointer, string). `malloc`/`calloc`/`strdup` may
  fail (an arbitrary oracle decides at each allocation), `free` of NULL is a no-op, every
  load/store/free through an invalid, freed or out-of-range pointer is a distinct
  outcome: undefined behaviour (`UB`). An uninitialised cell is distinct from every value.
  Used for ownership, leaks, aliasing, allocation failures: error.c, the constructors,
  getters and destructors.
* **Layer B, functional** (`Geometry.v` and later): numeric code over an abstract number
  structure (`Num.v`, the operations `double` arithmetic and libm offer), arrays are
  lists, an out-of-range read is `None` (undefined behaviour). The structure is
  instantiated with the real numbers (`R`, ideal arithmetic: no rounding, no overflow) and
  with binary64 (`PrimFloat`, with arbitrary libm functions as a parameter). The
  same Gallina definition is used for both: properties about geometry are proved over R,
  findings about NaN and rounding over binary64.

Threads: `polycap_source_get_transmission_efficiencies` is modelled per thread with an
arbitrary assignment of photons to threads and an arbitrary order of critical sections.
Random numbers are an arbitrary stream. Material constants from xraylib and file
contents are arbitrary inputs.

## 2. Trusted base

* Coq 8.16.1's kernel (and coqchk), including its primitive integers and floats where a
  theorem mentions binary64.
* What `Print Assumptions` prints under each property theorem (it is printed in each
  `Prop*.v` during the build). Three groups:
  - heap-level theorems (error objects, ownership): closed under the global context,
    `functional_extensionality_dep` (heaps are functions), or
    the axioms of the standard library's reals when a stored number is a real;
  - theorems over R: `ClassicalDedekindReals.sig_not_dec`,
    `ClassicalDedekindReals.sig_forall_dec`,
    `FunctionalExtensionality.functional_extensionality_dep`, `Classical_Prop.classic`;
  - theorems over binary64: the primitives of `PrimFloat`/`PrimInt63` and the
    specification axioms of `Coq.Floats.FloatAxioms` / `Coq.Numbers…Uint63`.
  No axiom is declared in this development.
* The reading of the C code. The model is hand written from the text.
* Over R: rounding, overflow and cancellation of `double` are not modelled. A theorem over
  R says what the algorithm computes in exact arithmetic.

## 3. Modelled and not modelled

Modelled (file:lines of each function are in the comments):
see the table in section 5, column "model".

Not modelled: the build system, the examples, `src/polycap-progress-monitor.c` (a callback
holder without logic), the GSL/EasyRNG generator itself (arbitrary stream), xraylib
(arbitrary tables), the HDF5 library itself (`H5Lib.v` is a specification of the calls the
writer makes: any call may fail, a successful one does what the HDF5 manual says), stdio, OpenMP's runtime (only: each thread runs its iterations, critical sections exclude
each other), Cython's code generation, integer overflow of `int` (unbounded `Z`/`nat`).

## 4. Files

| file | contents |
|---|---|
| `Num.v` | number structure, R and binary64 instances |
| `Mem.v` | heap monad |
| `SpecHeap.v` | specification vocabulary for ownership (what "the same memory" means) |
| `ErrorModel.v`, `ErrorProofs.v` | src/polycap-error.c |
| `ProfileModel.v`, `ProfileProofs.v` | heap level src/polycap-profile.c |
| `ProfileReal.v`, `ProfileFloat.v` | values computed by polycap_profile_new over R and binary64 |
| `Geometry.v` | hexagon test, shell count, outer-ring walk, capillary selection |
| `SpecGeom.v` | specification vocabulary for the geometry (regular hexagon, lattice) |
| `HexProofs.v`, `RingProofs.v`, `PackProofs.v` | proofs about them |
| `ConsModel.v` | heap level: description, source, photon, leak constructors, getters, destructors |
| `HeapLib.v`, `DescProofs.v`, `DescProofs2.v`, `DescOom.v`, `SrcProofs.v`, `PhotProofs.v`, `ConsReal.v` | proofs about them |
| `SpecPhoton.v` | specification vocabulary for photon and leak objects |
| `LineModel.v`, `LineProofs.v` | polycap_read_input_line |
| `SourceModel.v`, `SourceReal.v`, `SrcPhoton.v` | polycap_source_get_photon |
| `FromFile.v`, `FromFileProofs.v` | polycap_source_new_from_file, as a function of the tokens |
| `RM.v`, `RMLogic.v` | result monad of the ray tracer (undefined behaviour, fuel, error slot) and its program logic |
| `CapilModel.v`, `TraceModel.v`, `LaunchModel.v` | src/polycap-capil.c, polycap_photon_launch |
| `SpecRay.v`, `SpecPath.v` | specification vocabulary: cones, rays, Fresnel, specular paths |
| `CapilReal.v`, `NormalReal.v`, `WallNormal.v`, `FresnelReal.v`, `WeightProofs.v`, `TraceProofs.v`, `SafeProofs.v`, `PathProofs.v`, `Libm.v` | proofs about them; `Libm.v`: what is assumed of libm in binary64 |
| `SpecLeak.v` | specification vocabulary: splitting at a wall, absorption in glass, where leaked light goes |
| `SimModel.v` | heap level: polycap_source_get_transmission_efficiencies (preparation, effects of the threads, completion) |
| `SpecSim.v` | specification vocabulary: requests, a result object holding a simulation's result |
| `LenProofs.v`, `SimHeap.v`, `SimStep.v`, `SimRun.v`, `SimPrep.v`, `SimPrep2.v`, `SimEnd.v`, `SimObj.v`, `SimCount.v`, `SimFinal.v` | proofs: the threads of `RunModel.v` are refined by the heap-level ones |
| `LeakProofs.v`, `LeakProofs2.v`, `LeakProofs3.v`, `LeakProofs4.v` | proofs about leaks |
| `RunModel.v`, `ProgressModel.v` | polycap_source_get_transmission_efficiencies, threads included; its progress output |
| `SpecRun.v`, `SpecRace.v` | specification vocabulary: what a result says about the launched photons, data races |
| `TeamProofs.v`, `RunProofs.v`, `EffectProofs.v`, `FinalProofs.v`, `SimProofs.v`, `ReachProofs.v`, `TotalProofs.v`, `ExampleRun.v` | proofs about them, a complete simulation in exact arithmetic |
| `ResultModel.v` | heap level: getters and destructor of the result object |
| `SpecResult.v` | specification vocabulary for result objects |
| `ResultProofs.v`, `ResultExit.v`, `ResultLeak.v`, `ResultLeakGet.v`, `ResultMore.v` | proofs about them |
| `H5Lib.v` | the HDF5 library: state, calls, failures (specification of the environment) |
| `H5Model.v` | the HDF5 writer of src/polycap-transmission-efficiencies.c |
| `SpecH5.v` | specification vocabulary: what the file must contain |
| `H5Proofs.v`, `H5Write.v`, `H5Table.v`, `H5Main.v`, `H5File.v`, `H5All.v` | proofs about it |
| `SpecFlight.v` | specification vocabulary: a photon, an optic, an error in memory |
| `FlightMem.v` | heap level: one photon in flight (launch, reflect, trace, scatf) |
| `SepLib.v`, `FlightRep.v`, `FlightPure.v`, `FlightHeap.v`, `FlightHeap2.v`, `FlightSim.v`, `FlightLaunch.v`, `FlightLaunch2.v`, `FlightProp.v` | proofs about it |
| `PyModel.v` | python/polycap.pyx: profile accessors and constructors, exceptions |
| `PyResult.v` | python/polycap.pyx: class TransmissionEfficiencies (generators included), Leak.create |
| `SpecPy.v` | specification vocabulary: what a Python user sees of a result |
| `PyResProofs.v`, `PyResInv.v`, `PyResServe.v`, `PyResEnd.v` | proofs about them |
| `SpecPyPhoton.v`, `PyPhoton.v` | what a Python user sees of a photon; class Photon of polycap.pyx on the heap (launching by `FlightMem.v`) |
| `PyPhProofs.v`, `PyPhServe.v`, `PyPhNext.v`, `PyPhEnd.v` | proofs about them |
| `SpecPyObj.v` | what Python programs of Profile, Description and Source objects see |
| `PyObjects.v`, `PySrcPhoton.v` | model of Profile.__cinit__, Profile.new_from_arrays, Description.__cinit__, Source.__cinit__, their __dealloc__, Source.get_photon (python/polycap.pyx) |
| `PyObjHeap.v`, `PyObjKeep.v`, `PyObjCons.v`, `PyObjProofs.v`, `PyObjRun.v`, `PySrcPhProofs.v` | proofs about them |
| `PySim.v` | model of Source.get_transmission_efficiencies of python/polycap.pyx |
| `SpecFiles.v` | what a profile data file says |
| `ProfFile.v`, `ProfFileProofs.v` | model of polycap_profile_new_from_file (polycap-profile.c) on the heap, with streams counted; proofs about it |
| `SpecInput.v` | what an input file of polycap_source_new_from_file says |
| `FileSrc.v`, `FileSrcRead.v`, `FileSrcProofs.v` | model of polycap_source_new_from_file on the heap, with streams counted; agreement with `FromFile.v` |
| `OomFile.v` | one failing allocation: runs with a failure compared with runs without, followed through polycap_source_new_from_file |
| `SpecNames.v`, `FileNames.v` | input files that name the files of their profile: what they say; names, profile files and refusals on the heap |
| `MainModel.v`, `MainProofs.v` | the command line program (src/main.c) as a relation; its runs |
| `AxisProofs.v` | a photon on the axis of a narrowing mono-capillary; simulations made of such photons |
| `SpecStr.v`, `StrModel.v` | strings of bytes in memory; model of polycap-aux.c, one cell per byte (elsewhere a string is one cell, Mem.v) |
| `SpecRng.v`, `RngModel.v` | random generators: what a seeded one is; model of polycap-rng.c and of the Python class Rng |
| `FuelProofs.v`, `JunkProofs.v` | the step budgets and the contents of uninitialised variables do not influence launches and simulations |
| `MainOom.v` | the beginning of the program looks at the supply of memory only when it allocates; PropMainFail.v: hence, with C75, how the program ends when memory runs out in the simulation (C133) |
| `Prop*.v` | the property theorems, with examples and `Print Assumptions` |

## 5. Properties, plan and state

Names ending in `_partial` prove part of the English statement, names ending in `_refuted`
exhibit a case in which the code does not satisfy it.

| id | model | method | state |
|---|---|---|---|
| C01 | error.c, heap level | induction over the sequence of reports | done; also: without memory for the error object, setting an error stores/dereferences NULL (refuted part) |
| C02 | error.c, heap level | heap equalities | done |
| C03 | profile.c polycap_profile_new, heap level over R | case analysis of the checks | done |
| C04, C05 | same | induction over the fill loop, linear algebra | done |
| C06 | same | real algebra; derivative | partial: true for focussing and confocal shapes; refuted in general (equal end radii: division by zero) |
| C07, C08 | polycap_profile_new_from_arrays, getters | heap; C08: the constructor reads nid+1 elements | C07 done; C08 refuted |
| C09 | polycap_profile_new with failing oracle | heap | partial (error object itself can be allocated); refuted under persistent exhaustion |
| C10–C12 | polycap_profile_validate | induction over the ring walk; hexagon norm; convexity | C10, C11 done; C12 even shells proved, odd shells refuted |
| C13 | polycap_photon_within_pc_boundary | real geometry | done |
| C14 | shell formula | real analysis of sqrt and rounding | done |
| C15–C17 | polycap_description_new, check_weight | heap + list induction | C15 done; C16 refuted (object and error), refused profile proved; C17 proved over R, refuted in binary64 |
| C18 | open area | real algebra | formula proved; bound refuted in general, proved when capillaries do not overlap |
| C19–C21 | description/source constructors and destructors | heap | C19, C20 done; C21: out-of-memory paths proved, three leaks/crashes refuted |
| C22 | polycap_source_new | heap | done |
| C23, C55 | polycap_source_new_from_file, on a list of tokens (memory available; profiles in separate files arbitrary) | inversion of the reading program | C23: checks made proved, missing ones refuted; C55: refuted for truncated files |
| C24 | polycap_read_input_line, heap level | induction over the characters, buffer size invariant | done; out of memory refuted |
| C25–C27 | polycap_source_get_photon: choices over R from an arbitrary random list, object at heap level | real algebra; induction over rejections | done; out of memory refuted |
| C28 | polycap_photon_new | heap | done |
| C29, C30, C32 | polycap_photon_launch, functional model | inversion; runs in binary64 for the refuted parts | C32 done; C29, C30 partial with refuted parts |
| C31, C37 | launch, reflect, trace | induction over the traced path: weights and leaks per energy | done over R |
| C33, C34, C56 | polycap_capil_segment | real algebra of the cone/ray quadratic | partial: rays parallel to the wall (C33) and oblique axes (C56) refuted |
| C35 | capil_trace, capil_reflect | chain of specular reflections as an inductive specification | done over R |
| C36, C57 | polycap_refl, polycap_refl_polar | complex Fresnel algebra | C36 done; C57 refuted |
| C38, C58–C60 | launch | totality over R; runs in binary64 | C38 partial; C58–C60 refuted |
| C39 | leak getters | heap, induction over the leaks | done |
| C62–C64 | get_transmission_efficiencies: counters, retry loop, progress output (`ProgressModel`) | a run in binary64 (C62), induction over the retry loop (C63), induction over iterations (C64) (`PropLimits`) | C62, C63 refuted; C64 proved for n_photons ≥ max_threads, refuted otherwise |
| C40–C44, C61 | get_transmission_efficiencies: attempts, threads as lists of effects, small-step team semantics with barriers, critical and single | invariant over all interleavings (`TeamProofs`, `RunProofs`, `EffectProofs`, `FinalProofs`, `ReachProofs`), closed form of the final memory (`SimProofs`) | done (C40, C42 and completion in C61 over R) |
| C45, C65, C66 | transmission-efficiencies.c getters and destructor, heap level | loop invariants over the copied prefix | C66 done; C45 done for successful and failing allocations except get_data (refuted); C65 refuted |
| C46, C47, C67 | polycap_transmission_efficiencies_write_hdf5 with its helpers, on a model of the HDF5 library (`H5Lib`: handles, dataspaces, datasets, groups, files on disk, error stack; any call may fail) | program logic with a library state; frame conditions; induction over tables | success iff complete file proved; refuted: true although incomplete when a close fails, last profile point missing, memory exhaustion, source released before |
| C48, C68, C69 | polycap.pyx: profile getters, new_from_arrays, polycap_set_exception, heap level | heap | C68 done; C48: last element refuted; C69: contiguous arrays proved, strided refuted |
| C49 | relaunch | functional model | partial, refuted |
| C70 | launch with capil_reflect, capil_trace, leaks, functional model over R | inductive specification of a tree of light paths (`SpecLeak`), induction over the fuel of the tracer | partial (electric vectors) |
| C71–C73 | leak directions and positions | runs in binary64; C72: algebra of the intersection | refuted; C72: point on the ray proved |
| C74 | bad requests | `SimModel.prepare`; weakest preconditions | proved |
| C75, C77 | failing allocations in the preparation | `SimModel.prepare`, `alloc_or_leak`, `alloc_field`; ownership of a family of blocks (`SimHeap.hp`) through every failing allocation | C75 proved; C77 refuted (at most three blocks lost: proved) |
| C76 | the returned object | `SimModel.hstep`: every action of a thread on the arrays in memory; refinement `in_memory` between the heap and `RunModel.shared` for every schedule; then `complete` | proved |
| C78, C79 | polycap_photon_launch, polycap_capil_reflect, polycap_capil_trace on the heap: photon object, arrays of leaks (realloc), temporary photons, merging of their leaks, release of everything (`FlightMem`) | simulation of the functional model by induction over its step budget; states as frame plus list of owned blocks (`SepLib.hs`) | proved |
| C80 | two launches | same | refuted: exactly the leak objects of the first launch are lost (proved for all states) |
| C81 | failing allocations in a launch | runs of `FlightMem` in binary64 | refuted |
| C50 | NaN | binary64 instance | refuted |
| C51 | capillary selection | real geometry | refuted |
| C53 | polycap_description_new with an occupied slot | heap | refuted |
| C54 | composition check | real algebra | refuted; non-negative fractions proved |
| C52 | validation | real geometry | refuted; partial with separation hypothesis |
| C82–C103 | the parts of C06, C08, C09, C12, C16, C17, C18, C21, C23, C29, C30, C33, C38, C45, C46, C47, C52, C54, C56, C64, C69, C49 that hold, as properties of their own | as there | proved |
| C104, C105 | class TransmissionEfficiencies of polycap.pyx: creation, the twelve generators, deletion, on the heap | invariant on the cached arrays, induction over the history | C104 proved; C105 refuted |
| C106-C112 | class Photon of polycap.pyx: creation, launch, fields, leak iterators, deletion, on the heap | invariant on photon, caches and lost blocks, induction over the history | C106, C107 proved; C108, C109, C111, C112 refuted; C110 in part |
| C113-C119 | classes Profile, Description, Source of polycap.pyx, Source.get_photon: creation, refusal, deletion, on the heap | invariant: each object owns its blocks, induction over the program; composition with C106 | C113, C114, C116, C119 proved; C115, C117, C118 refuted |
| C120-C122 | Source.get_transmission_efficiencies and the life of its result, on the heap, over all schedules | composition of C76 (returned object), C74/C75 (errors), C104 (Python result) and the program invariant of C113 | proved |
| C123-C126 | polycap_profile_new_from_file on the heap, files as token lists | loop lemmas over the rows of each file; Hoare logic with failing allocations | C123, C124 proved; C125, C126 partial (refuted: streams left open on refusal, truncated files accepted) |
| C127-C130 | polycap_source_new_from_file on the heap, the file as a token list | simulation of the functional reader by the heap program (same outcome, same undefined behaviour), then the values over R | C127, C130 proved; C128, C129 partial (refuted: source together with an error, stream left open) |
| C131-C134 | the program as a relation between a start and its possible ends | composition of C96, C97, C76, C130; the start of a run is an example with 30000 photons | C131, C132 proved; C133 partial (refuted: a reported error can go unnoticed), C134 partial |
| C135 | polycap_photon_launch over R | induction on the segments; the discriminant is 0, the cone's tip lies beyond the segment | proved |
| C136 | polycap_source_new_from_file with a named profile, executing polycap_read_input_line and polycap_profile_new_from_file | heap program against functional reading (`FileSrcProofs.v`) with the names branch proved in `FileNames.v` | proved |
| C137 | the same when polycap_profile_new_from_file refuses | the blocks of the names and the open stream are tracked | partial: names and input file are leaked (refuted) |
| C138 | polycap_source_new_from_file with one allocation failing | up to the failing allocation and after it the run is that of a memory that suffices (`OomFile.v`) | partial: the generator's allocation is unchecked (refuted) |
| C139 | polycap_rng_new_with_seed, polycap_rng_new with the answers of the operating system as a parameter | symbolic execution on the heap | partial: full second, short read, failing allocation (refuted) |
| C140 | class Rng of polycap.pyx | the same | proved |
| C141 | the simulation (RunModel.v) run twice | the attempts of every photon are determined by the streams (`FuelProofs.v`, `JunkProofs.v`), then C40 | proved |
| C142 | polycap_photon_launch with a function `junk` for what uninitialised locals hold | every local is written before it is read (`JunkProofs.v`); more steps do not change an outcome (`FuelProofs.v`) | proved |
| C143 | the streams of the threads | each draw consumes a prefix of the stream and depends on nothing behind it | partial: equal seeds of two threads (refuted) |
| C144 | the draws of polycap_source_get_photon on a stream of numbers | induction over the rejected pairs; the parts of the stream are exchanged against others | proved |
| C145 | TransmissionEfficiencies.write_hdf5 of polycap.pyx around the HDF5 writer | C96 and C68 composed | partial: undefined after the Source is deleted (refuted) |
| C146 | polycap_strdup and polycap_strndup byte by byte (StrModel.v), own loops or C library | induction over the string with the bytes already copied; the limit 2^64-1 evaluated for every string | partial: the limit 2^64-1 overflows len+1 (refuted) |
