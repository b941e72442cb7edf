# Formal model of PR2/pr2_mechanism in Rocq (Coq 8.16.1)

## Layout

    rocq/theories/Model/   definitions only; every definition cites the file:lines of /repo it models
    rocq/theories/Spec/    small declarative specifications, written without the model's helpers
    rocq/theories/Proofs/  invariants, lemmas
    rocq/theories/Props/   the property theorems, Print Assumptions, non-vacuity examples
    rocq/theories/Upstream/ the repository's own tests run on the model
    properties.jsonl       English properties (generated by tools/mkprops.py)
    MANIFEST.json          property -> theorem names
    seeded/LOG.jsonl       mutation tests of the theorems

## Modelling conventions

* Strings are Coq `string`s ordered by `String.compare` (byte-wise, as `std::string::operator<`);
  `std::map<string,_>` is an association list kept sorted, because its iteration order is observable.
* `std::vector` is `list`; out-of-bounds access, NULL dereference, failing `assert` are explicit outcomes
  (`UB`, `Abort`), never silently totalised where a property speaks about them.
* `ros::Time`/`ros::Duration` are integers (nanoseconds).
* `double`: a numeric type class with two instances: real numbers (algebraic properties: inverses, power,
  convergence, derivatives) and IEEE-754 binary64 of Flocq (clamping, comparison, NaN/infinity properties).
  Which instance a theorem is about is visible in its statement.
* User code (controllers, plugin loader, parameter server, XML documents, message histories, clocks, scheduling
  of threads) is universally quantified.
* Manager, two levels. Level A: functions over the complete manager state (both controller lists, both schedules,
  current/used index, requests, statistics message, controller heap). Level B: small-step interleaving of one
  realtime thread and any number of service threads which uses level A's functions as its atomic blocks.
  Memory model assumption at level B: sequential consistency and atomic word-sized accesses.

## Plan per property

| id | what is modelled | how proved |
|----|------------------|-----------|
| C01-C05 | `scheduleControllers`, `getNextController`, graph as sorted assoc list, stale schedule vector | loop invariant: remaining graph = original graph minus placed; topological-order completeness by minimal counterexample; canonical order via declarative "smallest available" relation |
| C06-C08 | `Controller` lifecycle methods, `getController`, adaptive init programs | induction on request histories |
| C09-C15,C17-C20 | `loadController`, `unloadController`, `switchController`, `update`, `list/reload` services at level A | invariant over all reachable states; exact-effect theorems |
| C16,C21-C29 | level B transition system | inductive invariants over all interleavings, reachability witnesses for the refutations, ranking functions for progress |
| C30-C37 | `JointState`, `JointStatistics` | case analysis on IEEE comparison; real arithmetic for the algebraic ones; induction over sample sequences |
| C38, C40, C41, C66 | `Robot::initXml`, `RobotState` (constructor, lookups, four propagation calls, zero, enforce, isHalted), the transmission class table (Model/Builtin.v) | list induction; a "behaves" interface every transmission satisfies; totality of the cycle by a well-formedness invariant |
| C39, C59, C60, C68 | the manager wired to the robot (Model/System.v: the level A manager over a world holding clock, actuators, joints, outbox) | invariants over all histories; publish loop with fuel shown sufficient iff the period is positive |
| C42-C51 | transmissions (initXml from an abstract XML tree, four propagation directions) | field/nra over R; Coquelicot derivative and limits |
| C52-C53 | calibration simulator | induction over motion sequences |
| C54-C57 | `Chain`, `Tree` with KDL's answer as a parameter | list induction |
| C58 | `HardwareInterface` registry | map induction |
| C61-C63 | diagnostics node, over binary64 | induction over message histories |
| C64-C65, C69-C70 | python clients as programs over the level A services, interleaved with other clients (Model/Scripts.v) | invariant over the interleaved run; composition of level A lemmas |
| C67 | execution-time statistics (level A) | invariants over histories |
| C71 | the services as level B programs (end of Model/ManagerConc.v) | invariant relating every client thread to the request it executes |
| C72 | the four propagations over the transmission list (Model/Robot.v) and every built-in transmission | locality lemma per transmission (Proofs/Locality.v), induction over the list (Proofs/OverLocal.v) |
| C73 | sequences of propagations of a loaded robot, exact reals | C72 reduces to one transmission, then C42, C43, C46, C47 |
| C74 | whole-system histories (Model/System.v), binary64 with an arbitrary sin/cos | C59 (efforts sent are limited) and C72, rounding monotonicity (Proofs/NumFacts.v) |
| C75 | both manager models: calls/cycles in one piece (Model/Manager.v) and interleaved (Model/ManagerConc.v) | the rest of a cycle as a function of the program counter, one lemma per step, induction on the steps left; the trace is shown not to influence anything |
| C76–C78 | the initXml functions (with and without a Robot) of the simple, belt and gripper transmissions over TinyXML's view of an element; number conversions are parameters | a separate specification of what a description says (Spec/DescriptionSpec.v: child elements, texts, document order); loops over sibling elements by induction |
| C79–C80 | histories of propagation calls of a loaded robot (Model/Robot.v with the built-in transmissions); the ROS clock and the values of uninitialised members are parameters | one lemma per transmission for the clock flag and the switch wiring, C72 to isolate one transmission, then C52/C53 |
| C81 | whole-system histories (Model/System.v) | the remembered flag through every operation (Proofs/HaltProofs.v), C18, and that reading positions and zeroing commands changes no actuator |
| C82 | `cm_initXml` over `robot_initXml` and the RobotState constructor | C40, C41 and a loop lemma for the type check |
| C83 | level B (`ManagerConc`) over the plant of `System`: every realtime step, including one step between enforceSafety and sending the efforts; callbacks and init() bodies are single steps (further writes of an init() are covered by outside events `LEnv`) | per-step effect on the plant (`sys_step`), induction over the interleaving; a counterexample interleaving for the proviso on init() |
| C84 | the two backward calls of the belt over exact reals, as infinite histories of simulation cycles | algebra of one step gives the trapezoidal rule; convergence by the geometric-sequence lemmas also used for C47, now with a driven equilibrium |
| C85 | the system model of C59/C68 with the joint statistics of C36/C37: the output log determines the history of samples and publications of a joint | induction on histories; every cycle appends one sample, every statistics message one publication (`told`), then C36/C37 are applied to that history |
| C86 | infinite executions of level B (`Spec/LivenessSpec.v`): any labels, weak/strong fairness assumptions stated as hypotheses on the label sequence | the finite bounds of C26–C29 (cycles complete, waits end) are chained by well-founded arguments; lock waits use the strong fairness of client threads; stdlib `Classical` for "again and again or eventually never" |
| C87 | level B steps on configurations whose containers under modification hold arbitrary contents (`Spec/RaceSpec.v: half_done, looks_like`); this is what justifies modelling the bodies of load, unload and switch as single steps | every realtime helper commutes with a change of the fields it does not read (`Proofs/Race.v: rt_blind`), C21 shows those are the fields; frame lemmas for both sides; induction over stretches |
| C88 | simple and wrist transmission over IEEE binary64 (Flocq), any `Trig` instance | chains of roundings (Proofs/Rounding.v): every operation adds at most two units of 2^-53 to the accumulated error; overflow and underflow tracked by exponents |
| C89 | `getControllerByName` split into reading the index and going through the list, interleaved with everything at level B | from the level B invariant: while the realtime thread is in a cycle, the list that was current at any point of it is neither rebuilt nor cleared; induction over the steps of the cycle |
| C90 | `Model/TimeStats.v`: boost's incremental maximum, mean and variance (third party code, as documented) over the samples kept by Model/Manager.v; level B executions | induction over executions with an invariant per program point of the cycle (sample lists compared with those at the start of the cycle); the recurrences solved over R |
| C91 | whole-system model at level B (Model/System.v hooks run by ManagerConc) with the built-in transmissions | induction on the interleaving with the plant invariant of C83, then the per-transmission lemmas of C74 |
| C92 | whole-system model at level B (as C83), log vocabulary of C85 (Spec/StatSystemSpec.v) | invariant per program point of the realtime thread (a cycle that has sampled but not yet sent), then the log lemmas of C85 |
| C93 | gripper propagation over binary64 with an arbitrary mathematics library: replacing asin, acos and sqrt outside their domains changes nothing | clamps and floors located on the extended order of the doubles (b64_ord) |
| C94 | `ManagerConc.v` with `System.v` plugged in: `conc_look` names the memory seen when the realtime thread last began updating | invariant: the remembered flag is the halt state of that memory; the cycle that ends is the specified body for the decision taken at its beginning (`ConcCycle`) |
| C95 | `ManagerConc.v`: statistics live in the controller objects, the lists hold pointers | invariant over every object ever created, from the sequential history on (`OverrunConc`), one-step description of the update loop |
| C96 | level B model; every object's callback history is the history of a request sequence on the single-object model of C06 | invariant over all steps of all threads (no liveness assumption), refinement to the single-object model; destruction from C26/C27 |
| C97 | Whole robots conserve mechanical power | Spec/PowerSpec.v (totals, driven joints, calls that keep speeds); Props/PowerProps.v: C72's one-by-one lemmas lift the power identities of simple and wrist transmissions to any loaded robot in any run; whole-robot sum; example with controller write and enforcement |
| C98 | An idle robot is limp | Props/IdleProps.v: C39 (one cycle's events and writes), C18 (which callbacks run) and C34 (transparent limits) give the zero command; C74's one-transmission lemmas carry it to the motors; example: a controller is started, commands 100 (enforced 30, motor 15), is stopped, and the next cycle sends 0. Props/ConcIdleProps.v: the same in the fine-grained model, by an invariant over steps tying commands to the callbacks of the current cycle and C17's cycle record |
| C99 | Mis-sized calls are refused | Props/SizeProps.v: the wanted sizes are a separate specification (`fits`); every call of the built-in class aborts outside it and (but for positionBackwards) never aborts inside it; C51 for the gripper without slider; example with one joint too many, one actuator too few and the right sizes |
| C100 | Assertions only stop, they change nothing | Props/AssertProps.v: `agrees` (stops, or equal), congruent for the model's sequencing; proved call by call, lifted to the loops, to initXml and RobotState, and through the world steps of WorldSteps.v to a whole cycle; example where the builds agree and one where only the one with assertions stops |

No property turned out to be inexpressible; the ones first suspected (memory orderings, real time) are stated under the
level B assumption of sequential consistency.

## Trusted base

* Coq 8.16.1's kernel (`coqc`, and `coqchk` in the gate). No plugin, no native compiler; `vm_compute` is used for
  examples.
* Axioms: `ASSUMPTIONS.md` lists, for each theorem of MANIFEST.json, what `Print Assumptions` prints (regenerate with
  `tools/assumptions.py` after a build). They are all the standard library's:
  `ClassicalDedekindReals.sig_forall_dec`, `ClassicalDedekindReals.sig_not_dec` (construction of R),
  `FunctionalExtensionality.functional_extensionality_dep`, `Classical_Prop.classic` (used by Coquelicot and Flocq).
  The theorems about scheduler, controllers, manager, concurrency, scripts and statistics are closed (no axioms), except
  C86 which uses `Classical_Prop.classic`.
* Libraries: the standard library, Flocq 4.1.0 (binary64) and Coquelicot (derivatives, limits); no axioms of theirs.
* The reading of the C++/Python in `Model/` (each definition cites its lines): this is what a reviewer has to check. The
  mutation log `seeded/LOG.jsonl` shows which theorems notice which deviation of the model.

### Modelled, file by file

| source | model | left out |
|--------|-------|----------|
| pr2_controller_manager/src/scheduler.cpp | Model/Scheduler.v | log output |
| pr2_controller_interface controller.h, controller_provider.h | Model/Controller.v | dynamic_cast is a type-name relation; both `init` overloads are one |
| pr2_controller_manager/src/controller_manager.cpp 1-680 | Model/Manager.v (calls executed one at a time), Model/ManagerConc.v (interleavings), Model/System.v (message contents, initXml) | ROS parameters read at start-up except the publish rates; `listControllerTypesSrv` (returns pluginlib's catalogue) |
| controller_manager.cpp 682-833 services | Model/Manager.v, end of Model/ManagerConc.v | response fields `ok` are the answers of the calls |
| controller_spec.h | statistics in Model/Manager.v | the accumulators are the sample list they were fed; what boost computes from it (mean, max, variance) is in Model/TimeStats.v, over the reals for the theorems |
| pr2_mechanism_model joint.h/.cpp | Model/Joint.v | URDF parsing (a joint is its record of limits, safety, calibration) |
| robot.h/.cpp | Model/Robot.v, Model/Builtin.v | urdf::Model::initXml is a parameter; hardware interface from Model/Hardware.v |
| transmission.h, simple/wrist/belt/gripper transmissions | Model/Transmission.v, Simple.v, Wrist.v, Belt.v, Gripper.v | atof/lexical_cast are parameters (`parsers`); exported plugin names are a table |
| joint_calibration_simulator.cpp | Model/Transmission.v | - |
| chain.h/.cpp, tree.h/.cpp | Model/Kinematics.v | KDL and kdl_parser: their results are parameters |
| hardware_interface.h | Model/Hardware.v | data-only classes without operations (Actuator state/command fields used by the rest are in the records) |
| pr2_mechanism_diagnostics | Model/Diagnostics.v | key-value formatting of numbers (values are carried as numbers) |
| scripts spawner, unspawner, pr2_controller_manager; interface.py | Model/Scripts.v | argument parsing, printing, waiting for services; signal arrival is a choice at every service call |

## Validation: the repository's own tests on the model

`theories/Upstream/` replays the project's unit tests on the model. They are tests of the model's fidelity, not proofs of the
properties, and nothing depends on them.

| /repo test | file | what is replayed |
|---|---|---|
| pr2_mechanism_model/test/test_wrist_transmission.cpp | WristTests.v | all ten tests, in binary64 |
| pr2_mechanism_model/test/test_joint_calibration_simulator.cpp, robot.xml | CalibrationTests.v | every assertion, in binary64 (with an exact fmod) |
| pr2_mechanism_model/test/test_chain.cpp, pr2.urdf | Pr2Urdf.v (generated by tools/mkpr2.py), Pr2Tests.v | `pr2_as_shipped`: initXml returns true, nothing is loaded (none of the type names starts with "pr2"). With today's class names and the documented simulated_actuated_joint all 30 transmissions load and the hypotheses of C66 hold (`pr2_never_crashes`, any libm); with the grippers exactly as in the file the first cycle aborts (`gripper_as_shipped`) |
| pr2_controller_manager/test/test.cpp, controller_test.launch | ManagerTests.v | spawner, loading, unloading, start_stop_strict, start_stop_best_effort; not the tests of topics and rates, and the random bombardment is what C21-C27 prove for every schedule |
| pr2_mechanism_diagnostics/test/*.py, *.launch | DiagnosticsTests.v | the four launch files |

## Not modelled

ROS transport, pluginlib internals, TinyXML parsing (an abstract element tree is used), KDL internals (a chain/tree
is given by its segments), logging, memory allocation failure, compiler/hardware memory reordering. A call of the unlocked
`getControllerByName` by a client thread is one step in the level B model (in C++ it reads the index and then scans the list);
C89 treats the two parts separately. Controller callbacks (init, starting, update, stopping) are arbitrary functions on the
state, but they return: a callback that throws in the realtime thread or never returns is outside the model (init may throw).

## Findings recorded as theorems (behaviour a user might not expect)

C05 (duplicate names), C20/C65/C71 (force_kill ends the process), C22 (start-up and shutdown windows), C28 (unload in the
restart window), C31 (NaN commands pass), C57 (Tree::init true without a tree), C60 (publish period 0), C62 (minimum
position lost), C63 (stale controllers listed once more), C64/C70 (spawner/unspawner forget controllers), C66 (two
simulated joints abort), C68 (actuators registered late), C78 (the shipped gripper description without a simulated joint is
accepted but the first propagation aborts), C79 (the simulated time stamp flag is never initialised), C83 (code run in init()
can command above the limit for one cycle), C86 (a load that returns on shutdown leaves the statistics lock held), C89 (the
unlocked lookup is unsafe from other threads), C90 (`variance_time` is the standard deviation).
