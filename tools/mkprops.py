#!/usr/bin/env python3
"""Regenerates /verif/properties.jsonl (kept as code so that the list stays valid JSON)."""
import json, os
P=[]
def p(title, statement, quantifier, why, *anchors):
    P.append(dict(id="C%02d"%(len(P)+1), title=title, statement=statement, quantifier=quantifier,
                  why_tests_cant=why, anchors=list(anchors)))
CM="pr2_controller_manager/src/controller_manager.cpp"
SC="pr2_controller_manager/src/scheduler.cpp"
CI="pr2_controller_interface/include/pr2_controller_interface/controller.h"
CP="pr2_controller_interface/include/pr2_controller_interface/controller_provider.h"
MM="pr2_mechanism_model/src/"
# --- scheduler
p("A successful schedule is a permutation","When scheduling a list of uniquely named controllers succeeds, the resulting execution order contains every loaded controller exactly once, whatever the previous contents of the schedule vector were.","all lists of controllers with distinct names and arbitrary dependency lists, all previous schedule vectors","the set of dependency graphs is infinite; a unit test tries a handful",SC+": scheduleControllers",SC+": getNextController")
p("A successful schedule respects every ordering request","In a successful schedule every controller that was obtained with BEFORE_ME runs earlier in the cycle than the one that asked, and every controller obtained with AFTER_ME runs later.","all controller lists for which scheduling succeeds, all recorded before/after relations","quantifies over all graphs",SC+": scheduleControllers",CI+": getController")
p("Scheduling succeeds exactly when it is possible","Scheduling fails only if an AFTER_ME reference is not loaded earlier, a BEFORE_ME reference is not loaded, or the ordering constraints are cyclic; in every other case it succeeds.","all lists of uniquely named controllers","completeness of a topological sort cannot be tested case by case",SC+": scheduleControllers")
p("The execution order is canonical","The order produced depends only on the set of controllers and constraints, not on the order in which they were loaded: at each position it is the alphabetically smallest controller whose predecessors have all been placed.","all pairs of permuted controller lists","needs all permutations of all graphs",SC+": getNextController (std::map iteration order)")
p("Scheduling terminates without touching memory out of bounds","Scheduling uniquely named controllers always terminates and never indexes the schedule or the controller vector out of bounds; without unique names the final read can be out of bounds.","all controller lists and all stale schedule vectors","undefined behaviour need not show in a test; stale contents depend on history",SC+": scheduleControllers")
# --- controller lifecycle
p("Controller callback protocol","For every history of requests made on a controller object, no starting/update/stopping callback happens before a successful init, and update is called only when the last start/stop callback was starting (never before the first starting nor after stopping).","all finite sequences of init/start/stop/update requests with arbitrary init outcomes","all request histories",CI+": startRequest, stopRequest, updateRequest, initRequest")
p("Start/stop/init request results","start and stop succeed exactly on initialised or running controllers (even when already started/stopped) and invoke exactly one callback; init succeeds at most once; updateRequest calls update exactly when isRunning().","all controller states and histories","all histories",CI+": startRequest, stopRequest, updateRequest, initRequest")
p("getController records exactly the granted dependencies","During init, a getController call returns true iff a loaded controller of that name and castable type exists and the scheduling argument is BEFORE_ME or AFTER_ME, and then exactly that dependency is recorded; failing calls record nothing.","all init programs (arbitrary adaptive sequences of getController calls)","init code is user supplied",CI+": getController",CP+": getControllerByName")
# --- manager
p("loadController is all or nothing","loadController either returns true and the loaded list is the old one with exactly the new stopped controller appended, or it does not return true and the loaded controllers, their order, their states and the published names are unchanged.","all reachable manager states, names, plugin environments and init programs (including ones that fail or throw)","all states, all environments, all failure points",CM+": ControllerManager::loadController")
p("Loaded controller names are unique","In every reachable state no two loaded controllers have the same name; loading an already loaded name returns false.","all histories of load/unload/switch/reload/update","all histories",CM+": ControllerManager::loadController")
p("unloadController succeeds exactly when allowed","unloadController returns true iff the controller is loaded, not running, and no loaded controller depends on it; then exactly that controller disappears, the others keep identity and state; otherwise nothing changes.","all reachable states and names","all reachable states",CM+": ControllerManager::unloadController")
p("Dependencies never dangle","In every reachable state, every dependency recorded by a loaded controller is itself loaded, and is the same object that was handed out at load time, so a pointer obtained with getController stays valid as long as its owner is loaded.","all histories of load/unload/switch/reload/update","pointer validity over all histories",CM+": unloadController, loadController, getControllerByName",CI+": getController")
p("Unload never fails in rescheduling","An unload that passes the existence, running and dependency checks never fails because of scheduling: removing a controller from a schedulable set leaves a schedulable set.","all reachable states and names","requires reasoning on all graphs",CM+": unloadController",SC+": scheduleControllers")
p("STRICT switches are refused as a whole","A STRICT switch naming a controller that is not loaded returns false and starts and stops nothing, now or later; BEST_EFFORT (and strictness 0) never refuses and ignores exactly the unknown names.","all reachable states, name lists (with duplicates) and strictness values","all request lists and states",CM+": ControllerManager::switchController")
p("Switch result: exact running set","After an accepted switch is executed, the running controllers are exactly (running before minus stopped) plus started; a controller in both lists is restarted and runs.","all reachable states and request lists","all request lists and states",CM+": switchController, update")
p("A switch is atomic with respect to control cycles","All stops and starts of one switch happen at the end of one single realtime cycle, stops before starts and in request order, after all updates of that cycle and before any update of the next; switchController does not return true before.","all interleavings of service threads and the realtime thread while ros is ok","interleavings",CM+": switchController, update")
p("Each cycle updates exactly the running controllers once, in order","A control cycle calls update exactly once on each running controller, in schedule order, and on no other controller; joint state is propagated and commands zeroed before, safety enforced and efforts propagated after all updates.","all reachable states, all controller behaviours","all controllers and histories",CM+": ControllerManager::update")
p("Running controllers are restarted when motors are re-enabled","In the first cycle in which the motors are not halted after having been halted, every running controller gets stopping then starting before its update, in schedule order; other controllers and other cycles get none.","all reachable states and halt histories","all halt histories",CM+": ControllerManager::update")
p("list_controllers is complete and in execution order","list_controllers returns every loaded controller exactly once in execution order with its running/stopped state, and its internal assertions never fire.","all reachable states","all histories",CM+": listControllersSrv, getControllerNames, getControllerSchedule")
p("reload_controller_libraries never replaces the loader under loaded controllers","The plugin loader is only replaced when no controller is loaded; without force_kill a non-empty manager is left untouched. With force_kill and at least one loaded controller the service aborts on its own assertion (asserts enabled) or fails.","all reachable states, both flag values, asserts on and off","all histories",CM+": reloadControllerLibrariesSrv")
# --- concurrency
p("No data race on the controller lists in steady state","Once the realtime loop has started its first cycle, while ros is ok, no service thread ever writes a controller list or schedule that the realtime thread is using.","all interleavings of any number of service threads with the realtime thread","schedules are unbounded; races are timing dependent",CM+": loadController, unloadController, update (current_controllers_list_, used_by_realtime_)")
p("Start-up and shutdown windows of the handshake","Outside steady state the handshake is not protective: before the first cycle has published the list index, and after ros::ok() turns false, an interleaving exists in which a service thread clears the list the realtime thread is iterating.","existence of an interleaving (reachability)","tests do not hit the window",CM+": loadController (ros::ok() wait loops), ControllerManager constructor")
p("The realtime thread never blocks","In every state in which the realtime thread is inside update() it can take its next step, whatever locks the service threads hold, and a cycle ends after a number of its own steps bounded by the list, request and joint sizes.","all interleavings and lock states","schedules",CM+": update, publishMechanismStatistics, publishJointState")
p("Published controller statistics match the controllers","Whenever the realtime thread fills the controller statistics message, the message has one slot per controller of the list in use and each slot carries that controller's own name and state.","all interleavings in steady state","interleavings",CM+": publishMechanismStatistics, loadController, unloadController")
p("Service calls finish","While ros is ok and the realtime thread keeps cycling, each wait in load, unload and switch ends after at most two further realtime cycles, and no deadlock exists among the locks.","all interleavings with a cycling realtime thread","liveness over all schedules",CM+": loadController, unloadController, switchController")
p("Switch requests never name a destroyed controller","Every controller pointer in the pending start/stop requests refers to a controller that is still loaded when the realtime thread uses it.","all interleavings while ros is ok","use after free depends on schedules",CM+": switchController, unloadController, update")
p("Controllers are never destroyed by the realtime thread","No step of the realtime thread removes a controller from any list; destruction only happens in service threads.","all interleavings","all schedules",CM+": update, loadController, unloadController")
p("Motor re-enable window","During the restart of a running controller at motor re-enable it is observably 'stopped' for an instant; an interleaving exists in which an unload request then succeeds on a controller that the realtime thread goes on to run.","existence of an interleaving (reachability)","timing window of a few instructions",CM+": update (restart loop), unloadController")
p("Services are serialised","At most one service call is past its lock at any time, so completed service calls have a sequential order in which each behaves as if executed alone.","all interleavings of any number of service threads","schedules",CM+": services_lock_, controllers_lock_")
# --- joint
p("Commanded effort is always within limits","After safety enforcement the commanded effort of a joint that has limits lies within [-limits.effort, limits.effort] whenever the command was not NaN - for every position and velocity including NaN and infinities.","all IEEE doubles for command, position, velocity, all limit parameters with non-NaN effort limit","2^64 values per argument",MM+"joint.cpp: JointState::enforceLimits, getLimits")
p("NaN effort commands","A NaN effort command passes through safety enforcement unchanged.","all limit parameters","special value interplay in all parameter sets",MM+"joint.cpp: enforceLimits")
p("Effort limit interval is never empty","getLimits yields effort_low <= effort_high for every joint state (NaN and infinite positions and velocities included) whenever the limits are sane: effort limit not NaN, velocity limit >= 0, finite non-negative gains, soft_lower <= soft_upper.","all IEEE doubles states and parameters","2^64 values per argument",MM+"joint.cpp: getLimits")
p("No effort pushes a joint further beyond a soft limit","At or beyond a soft position limit (calibrated joint, positive gains, not moving back inwards) the enforced effort never points outwards, in floating point; in real arithmetic the effort is bounded by the controller k_velocity*(vmax - v) with vmax = k_position*(soft limit - position), a bound that shrinks linearly to zero at the soft limit.","all IEEE double states with sane parameters; for the linear bound all real states","continuum",MM+"joint.cpp: getLimits, enforceLimits")
p("Safety is transparent inside the envelope","A command whose value lies within the interval returned by getLimits is not modified; well inside the position and velocity envelope the interval is the full effort range.","all states and commands","continuum",MM+"joint.cpp: enforceLimits, getLimits")
p("Joints without limits or safety","A joint without limits or safety information is not clamped: every finite command passes unchanged; an uncalibrated joint gets the effort and velocity limits but no position limits.","all states","continuum",MM+"joint.cpp: getLimits")
p("Joint statistics bound the observed motion","After the first publication, between two publications max_abs_velocity/effort are the exact maxima of the non-NaN samples, the odometer grows by the total absolute displacement, and every sampled position lies within [min_position,max_position]; the reported range can however be larger than the true one because reset seeds min with the old max and vice versa.","all sample sequences","all histories",MM+"joint.cpp: JointStatistics::update, reset")
p("violated_limits flag","violated_limits is reported iff in some sample since the last reset (other than the very first sample of the joint) the joint had limits and safety information and |commanded effort| > |measured effort|; it stays raised until the statistics are reset.","all sample sequences","all histories",MM+"joint.cpp: JointStatistics::update")
# --- robot
p("Robot is halted iff some actuator is halted","isHalted() is true exactly when at least one actuator attached to a transmission reports halted.","all robots and actuator states","all configurations",MM+"robot.cpp: RobotState::isHalted")
p("Efforts sent to actuators come from clamped joint efforts","In every control cycle, whatever efforts controllers write, the commanded efforts given to the transmissions are the safety-enforced ones; a joint no controller writes has command zero before enforcement. Over every history every effort ever sent to a joint with safety limits is within its effort limit (in IEEE double arithmetic, unless it is NaN).","all robots, controller behaviours","all controllers",CM+": update",MM+"robot.cpp: zeroCommands, enforceSafety, propagateJointEffortToActuatorEffort")
p("Transmission wiring","The k-th actuator/joint pointer of a transmission is the actuator/joint whose name is the k-th name the transmission declared, every joint entry has its own state, and joint lookup by name returns the state of that joint (of the last declaration when several transmissions declare it, NULL when none does). Constructing the robot state of a successfully loaded description never fails.","all robot descriptions","all configurations",MM+"robot.cpp: RobotState::RobotState, getJointState")
p("Loading a robot description","initXml succeeds iff there is a hardware interface and the description parses. Every transmission in the result was declared with a type starting with pr2 and initialised successfully, they appear in document order and invalid ones are skipped without affecting the others; the actuators and joints they name exist, their actuators end up enabled and no other actuator data changes. An empty type element is undefined behaviour. With the exported plugins only the four namespaced types can be loaded: the fallback for short names is dead code and the exported GripperTransmission is never loadable.","all XML documents and plugin outcomes","all documents",MM+"robot.cpp: Robot::initXml","pr2_mechanism_model/transmission_plugins.xml")
# --- transmissions
p("Simple transmission is invertible and power preserving","For non-zero reduction, propagating actuator state to the joint and back (and the reverse) is the identity on position, velocity and effort, and mechanical power is conserved.","all real states and non-zero reductions, offsets","continuum",MM+"simple_transmission.cpp: SimpleTransmission::propagate*")
p("Wrist transmission is invertible","For non-zero reductions the forward and backward position, velocity and effort maps of the wrist differential are mutually inverse.","all real states, reductions, offsets","continuum",MM+"wrist_transmission.cpp: propagate*")
p("Wrist transmission conserves power","Total joint power equals total actuator power.","all real states and non-zero reductions","continuum",MM+"wrist_transmission.cpp: propagatePosition, propagateEffort")
p("Wrist URDF parsing of reductions and offsets","Both initXml variants read reductions and names consistently; with a flex joint offset the single-argument variant assigns the flex offset to the roll joint instead of the declared roll offset.","all XML elements of that shape","all documents",MM+"wrist_transmission.cpp: initXml")
p("Belt transmission at rest / rigid","A belt without compliance or motor mass is simulated exactly like a simple reduction; with the joint estimator at rest at its static equilibrium (motor position minus compliance times force) an update at any time step leaves it there and reports zero velocity, a zero time step repeats the previous position, and the simulated elastic belt held in equilibrium stays there and matches the estimator's deflection.","all real states and parameters","continuum",MM+"pr2_belt_transmission.cpp: propagatePosition")
p("Belt transmission estimator converges","For constant motor position and effort and constant positive time step the joint position estimate converges to motor position minus compliance times force, with geometric rate.","all initial filter states, all positive parameters and time steps","limits of infinite sequences",MM+"pr2_belt_transmission.cpp: propagatePosition")
p("Belt transmission effort path","The actuator effort times the reduction is the commanded joint effort plus the motor damping force, and only that actuator's effort changes; with no damping gain, effort to the actuator and back over a rigid belt is the identity; plain damping never adds energy and high-pass damping decays geometrically apart from what the change of motor velocity drives.","all real states","continuum",MM+"pr2_belt_transmission.cpp: propagateEffort, propagateEffortBackwards")
p("Gripper position maps are mutually inverse","Propagating the motor position to the gap joint and back, and from the gap joint to the motor and back, is the identity on positions wherever the triangle linkage closes and the fingers have not turned past a quarter turn; away from the singular configurations (by the code's tolerance) also on velocities and efforts. The gap and the finger angles reported are those of the linkage.","all real positions within the range, all valid geometries","continuum, trigonometry",MM+"pr2_gripper_transmission.cpp: computeGapStates, inverseGapStates")
p("Gripper velocity and effort use the true Jacobian","Along every differentiable motor trajectory the velocity reported for the gap joint (and for each passive joint) is the time derivative of the position reported, away from singular configurations and at non-negative revolutions; at negative revolutions the slope of revolution zero is reported instead. Effort is the transpose up to the mechanical reduction: joint power times the square of the reduction equals actuator power, in both directions, so power is conserved only for reduction 1 or -1.","all positions in the range","continuum, derivatives",MM+"pr2_gripper_transmission.cpp: computeGapStates")
p("Gripper assertion consistency","Forward and backward propagation assert incompatible joint vector sizes when no passive actuated joint is configured, so one of the two always aborts although initXml accepted the description; with one gap joint and no simulated joint every propagation aborts, or without assertions accesses memory out of bounds; a description with one gap joint and one simulated joint naming a passive actuated joint runs in all four directions.","all accepted descriptions","configuration space",MM+"pr2_gripper_transmission.cpp: propagatePosition, propagatePositionBackwards")
p("Calibration flag simulation","The simulated calibration flag of a joint with travel limits is high exactly above the rising reference (or below the falling one if there is only that); of a continuous joint it is high between a rising reference and the next falling one and low between a falling one and the next rising one, a missing reference lying half a turn from the other. An edge is recorded exactly when the flag changes between two calls, at the actuator position of the earlier call, and the joint has passed a reference of the recorded kind in between. A continuous joint without references reads uninitialised values.","all motion sequences","all histories",MM+"joint_calibration_simulator.cpp: JointCalibrationSimulator::simulateJointCalibration")
p("Calibration edges are of the configured kind","A joint with travel limits and a rising reference (only a falling reference) only ever records rising (falling) edges, has a valid edge exactly if it started with one or has crossed the reference, and remembers the actuator position just before the last crossing; valid flags never turn false again.","all motion sequences","all histories",MM+"joint_calibration_simulator.cpp: init, simulateJointCalibration")
# --- chain / tree / hw
p("Chain joint access","Chain::init succeeds iff KDL finds the chain and every joint that can move has a joint state; positions, velocities and measured efforts are then read joint by joint in root-to-tip order skipping fixed joints; set/addEfforts change exactly the commanded effort of each joint by its own element and nothing else, and are not visible in getEfforts; arrays of the wrong size abort (or, without assertions, are accessed out of bounds). A failed init replaces the joints by those before the missing one.","all chains","all configurations",MM+"chain.cpp: Chain::getPositions, getVelocities, getEfforts, setEfforts, addEfforts")
p("Chain calibration and bounds","allCalibrated is true iff every actuated joint of the chain is calibrated; getJoint succeeds exactly for valid indices.","all chains","all configurations",MM+"chain.cpp: allCalibrated, getJoint")
p("Tree joint access","If KDL numbers the moving joints 0..n-1, Tree::init succeeds iff all have a joint state, and the i-th element of every array is the joint KDL numbers i.","all trees","all configurations",MM+"tree.cpp: Tree::init","pr2_mechanism_model/include/pr2_mechanism_model/tree.h")
p("Tree init without kinematic tree","Tree::init reports success with zero joints when the kinematic tree could not be constructed.","all robots whose description yields no tree","configuration space",MM+"tree.cpp: Tree::init")
p("Hardware registry","addX registers a component iff the name was free and never replaces an existing one; getX returns exactly the registered component or NULL.","all registration histories","all histories","pr2_hardware_interface/include/pr2_hardware_interface/hardware_interface.h: HardwareInterface")
# --- publishing
p("Publishing rate","Counting windows of one period from initialisation, over every history at most one joint state message and at most one statistics message is published per window, in increasing order and without drift; when more than a period has passed since the reference time and the publisher's lock is free, the cycle publishes.","all clock histories, lock outcomes and positive periods","all time histories",CM+": publishJointState, publishMechanismStatistics")
p("Publishing terminates exactly for positive periods","The catch-up loop in the realtime publisher terminates iff the period is positive or nothing is due; the configured rate yields a zero period exactly for rates above 2e9 Hz (in exact arithmetic), and then the first due publication hangs the realtime loop.","all rates","non-termination",CM+": publishJointState, publishMechanismStatistics, initXml")
# --- diagnostics
p("Joint diagnostics severity","Every published diagnostics array contains exactly one entry per joint ever heard of, in name order. A joint is ERROR (NaN) iff position, velocity, measured or commanded effort of the last message about it is NaN, infinite or subnormal; else ERROR (No updates) iff that message is older than three seconds; else WARN iff uncalibrated; else OK; and it shows the values of that message.","all histories of statistics messages and reports","histories are unbounded; all binary64 values","pr2_mechanism_diagnostics/src/joint_diagnostics.cpp; pr2_mechanism_diagnostics/include/pr2_mechanism_diagnostics/joint_diagnostics.h; pr2_mechanism_diagnostics/src/pr2_mechanism_diagnostics.cpp")
p("Joint diagnostics window","For a calibrated joint the maxima shown are the maxima over the calibrated messages received since the report preceding the latest message; the minimum position shown is only that of the latest message (it is combined with the running maximum), so a smaller position in the window can be lost.","all histories of statistics messages and reports","histories are unbounded; all binary64 values","pr2_mechanism_diagnostics/src/joint_diagnostics.cpp")
p("Controller diagnostics","A controller is listed iff it was heard of and no earlier report found its last message older than three seconds (so it is listed once more by the report that finds it stale); it is WARN iff warnings are enabled, it has overruns and the last one is less than thirty seconds old, else OK, with the values of the last message; if no controller is listed one entry says so.","all histories of statistics messages and reports","histories are unbounded","pr2_mechanism_diagnostics/src/controller_diagnostics.cpp; pr2_mechanism_diagnostics/src/pr2_mechanism_diagnostics.cpp")
p("Spawner never leaves controllers behind","Whenever the spawner is killed between two service calls (while loading or later), and whatever happened to its load and start requests, as long as other clients do not load, unload or start its controllers and no outside controller depends on them: when it has terminated, the loaded controllers with the names it was given are exactly those loaded before it started. If somebody else has unloaded one of its controllers, its STRICT stop request is refused as a whole and everything running stays loaded and running. If the spawner is interrupted while the manager is executing one of its load calls and that load is accepted, the controller stays loaded after the spawner has terminated, together with every controller it uses.","all name lists, dependency structures, kill points, plugin behaviours and interleavings with other clients","all dependency graphs and interleavings","pr2_controller_manager/scripts/spawner")
p("Library reload script restores the controllers","A forced reload stops everything; if some loaded controller depends on another it fails after unloading only a prefix of the loaded list made of controllers without dependencies; otherwise it unloads everything and succeeds (or aborts the process if assertions are enabled). With restore, provided controllers without dependencies can be loaded again, the same controllers are loaded and the same are running afterwards, whatever the reload answered.","all reachable states, dependency structures and plugin behaviours","all graphs and histories","pr2_controller_manager/src/pr2_controller_manager/pr2_controller_manager_interface.py",CM+": reloadControllerLibrariesSrv")
# --- added while the model grew
p("A loaded robot's control cycle never crashes","For every loaded description whose transmission elements are usable, no sequence of control-loop calls (propagate, zero, enforce, propagate back, halt query), with arbitrary values written by hardware and controllers in between, crashes, aborts or hangs; a simple transmission with two simulated_actuated_joint elements is accepted by initXml and aborts. The same holds for the manager wired to the robot: in every history of services, cycles, hardware and controller writes, every further control cycle, including publishing, completes.","all descriptions, all call sequences and values","all histories",MM+"robot.cpp: RobotState",MM+"simple_transmission.cpp",MM+"pr2_gripper_transmission.cpp",MM+"wrist_transmission.cpp",MM+"pr2_belt_transmission.cpp")
p("Execution-time statistics","Every control cycle adds exactly one sample to every loaded controller's statistics (running or not): the time between the clock readings around its update; it is counted as an overrun and stamped with its end time iff longer than 1 ms. Nothing else changes the statistics; published entries always have at least one sample and the right overrun count.","all histories, clocks and controllers","all histories",CM+": update, publishMechanismStatistics","pr2_controller_manager/include/pr2_controller_manager/controller_spec.h")
p("Content of the published messages","In every cycle of every history, at most one statistics and one joint state message follow the efforts; they report exactly every joint and actuator as it was right after the efforts were sent; publishing the statistics resets the joint extremes and violation flags and changes nothing else. An actuator registered after initXml makes the next statistics publication write out of bounds.","all robots, histories and values","all histories",CM+": publishMechanismStatistics, publishJointState, initXml")
p("Command line kill and spawn","pr2_controller_manager kill removes all named controllers iff for each of them every controller depending on it is named too and named earlier; it never unloads, stops or starts any other controller, and named controllers that remain are stopped. spawn leaves every named controller that is loaded running, unless creating a plugin throws.","all reachable states and argument lists","all dependency graphs","pr2_controller_manager/scripts/pr2_controller_manager","pr2_controller_manager/src/pr2_controller_manager/pr2_controller_manager_interface.py")
p("Unspawner restores what it stopped","However many rounds the unspawner makes, if it is interrupted while sleeping the same controllers are loaded and running afterwards as before; if it is interrupted while waiting for the answer to its stop request, the controllers of that request stay stopped.","all reachable states, argument lists, numbers of rounds, set enumeration orders","all states","pr2_controller_manager/scripts/unspawner")
p("Services never disturb each other","When clients only use the services, under every interleaving with each other and with the realtime thread: list_controllers never fails an assertion and answers exactly the loaded controllers in execution order, each state having been true while the request was executed (and all being current if no controller was started or stopped meanwhile); the plugin loader is replaced only while no controller is loaded; the only request that can end the process is a reload with force_kill sent while controllers were loaded.","all interleavings of any number of clients and service requests with the realtime thread","schedules are unbounded",CM+": listControllersSrv, reloadControllerLibrariesSrv, services_lock_")
p("Transmissions are independent","Each propagation of the robot state gives every joint and actuator exactly what its own transmission alone computes from the memory before the call: joint positions never depend on other transmissions, actuator commands never do if no other transmission names the same actuator; the call changes nothing else. Two transmissions naming one actuator are accepted and the last one decides its command.","all robots, transmission lists and memories","all configurations","pr2_mechanism_model/src/robot.cpp: RobotState","pr2_mechanism_model/src/simple_transmission.cpp","pr2_mechanism_model/src/wrist_transmission.cpp","pr2_mechanism_model/src/pr2_gripper_transmission.cpp","pr2_mechanism_model/src/pr2_belt_transmission.cpp")
p("Robot level round trips","Mapping joints to actuators and back (or the reverse) through a whole loaded robot restores position, velocity and measured effort of every joint and actuator of an invertible transmission that owns its actuators; mapping commanded efforts to the motors and back restores every joint for directly driven transmissions.","all loaded robots with exact arithmetic, all memories","all values","pr2_mechanism_model/src/robot.cpp: RobotState")
p("Motor command bounds","In every cycle of every history, the effort sent to the motor of a simple transmission whose joint has a safety controller and a finite effort limit is the limited joint command divided by the reduction and never exceeds |limit / reduction|; for wrist transmissions each motor stays within (|l0/r0| + |l1/r1|) / |2 a|, in binary64, unless the command is NaN.","all histories, robots and binary64 values","all controllers and floating point values",CM+": update","pr2_mechanism_model/src/robot.cpp: RobotState","pr2_mechanism_model/src/joint.cpp: enforceLimits")
p("Undisturbed use is sequential","A cycle during which no client makes a step is exactly one sequential update(); a load or unload call of one client, followed by a cycle, and a switch call (answered after one cycle), nobody else interfering, have exactly the effect and answer of the call executed in one piece, and leave locks and other clients as they were. Whenever no call is in progress between cycles, the manager is in the state these statements start from.","all manager states, calls and results of trylock; all executions for the last sentence","all states",CM+": update, loadController, unloadController, switchController")
p("Simple transmission descriptions","Initialising a simple transmission succeeds exactly for descriptions naming a known joint and a known actuator and giving a reduction (inside the actuator element if it is there, else directly below the transmission) and a readable simulated reduction for every simulated joint that counts; then the transmission holds exactly the described name, joints in document order, actuator and reductions, and that actuator alone is enabled. Refusal changes at most the enable flag of the named actuator. Without a reduction text the call reads through a null pointer.","all XML elements, robots, hardware memories and number parsers","all descriptions","pr2_mechanism_model/src/simple_transmission.cpp: SimpleTransmission::initXml")
p("Belt transmission descriptions","Initialising a belt compensator transmission succeeds exactly for descriptions naming a known joint and actuator, giving a reduction and a compensator element with all six constants; the transmission then holds those constants (compliance 1/k_belt, or 0 for a belt stiffness that is not positive) and all its filter states start at zero. Refusal changes at most the enable flag of the named actuator; a missing reduction (or, without a robot, a missing actuator) is undefined behaviour.","all XML elements, robots, hardware memories and number parsers","all descriptions","pr2_mechanism_model/src/pr2_belt_transmission.cpp: PR2BeltCompensatorTransmission::initXml")
p("Gripper transmission descriptions","Initialising a gripper transmission succeeds exactly if the actuator is named and known, every gap, passive and simulated joint element is readable and every joint named is known; then joints are listed gap first, passive second, simulated (with their passive partners) last, the geometry is that of the last gap element with the PR2 defaults for omitted numbers, and that actuator alone is enabled. The call never crashes.","all XML elements, robots, hardware memories and number parsers","all descriptions","pr2_mechanism_model/src/pr2_gripper_transmission.cpp: PR2GripperTransmission::initXml")
p("Simulated actuator time stamps","In a simulation (any history of propagation calls and controller writes of a loaded robot), each position call from the joints to the actuators stamps every actuator of every transmission with the time since the first such call made while ROS was running, and with zero before; while the clock does not run backwards the stamps never decrease. This holds for transmission objects created with a cleared start flag; the constructors do not clear it, and an object created with the flag set instead counts from whatever start time its memory held.","all robots loaded from any description, all sequences of calls and clock readings","all call histories and clocks","pr2_mechanism_model/src/simple_transmission.cpp: SimpleTransmission::propagatePositionBackwards","pr2_mechanism_model/src/wrist_transmission.cpp: WristTransmission::propagatePositionBackwards","pr2_mechanism_model/src/pr2_belt_transmission.cpp: PR2BeltCompensatorTransmission::propagatePositionBackwards","pr2_mechanism_model/src/pr2_gripper_transmission.cpp: PR2GripperTransmission::propagatePositionBackwards")
p("Simulated calibration switches of a whole robot","In a simulation of a loaded robot, the calibration switch of a joint is read on the actuator it is wired to (the only one of its transmission; in a wrist the flex joint's on the left and the roll joint's on the right motor) exactly as the joint's calibration element says: high beyond the rising (or short of the falling) reference of a limited joint, high between a rising and the next falling reference of a continuous one. An edge is recorded exactly when the reading changes, at the actuator position of the previous call and with a reference crossed since; a recorded edge stays valid for ever. Such simulations exist and never crash, whatever else is called in between.","all robots loaded from any description, all infinite simulations in which nobody else writes the calibration fields, exact reals","unbounded histories over real positions","pr2_mechanism_model/src/joint_calibration_simulator.cpp: JointCalibrationSimulator::simulateJointCalibration","pr2_mechanism_model/src/wrist_transmission.cpp: WristTransmission::propagatePositionBackwards","pr2_mechanism_model/include/pr2_mechanism_model/robot.h: RobotState::propagateJointPositionToActuatorPosition")
p("Halted motors and restarted controllers, end to end","In every history of the manager wired to a loaded robot, a control cycle stops and restarts the running controllers (each once, in execution order, before any update) exactly if some motor of the robot reported being halted when the previous cycle (or initXml, before the first cycle) began and none does when this one begins; otherwise it restarts none.","all robots, histories of services, cycles and hardware writes; controllers that do not write the motors' halted flags","all histories and halt patterns","pr2_controller_manager/src/controller_manager.cpp: ControllerManager::initXml, ControllerManager::update","pr2_mechanism_model/src/robot.cpp: RobotState::isHalted")
p("When the controller manager starts","The manager's initXml succeeds exactly if the description parses and every joint driven by a loaded transmission is revolute, continuous or prismatic. It then has one fresh joint state per driven joint and no other, the loaded transmissions, the actuators as initialisation left them, and messages with one entry per joint state and registered actuator. It crashes only if loading the transmissions does.","all descriptions, hardware interfaces and memories","all inputs","pr2_controller_manager/src/controller_manager.cpp: ControllerManager::initXml","pr2_mechanism_model/src/robot.cpp: RobotState::RobotState")
p("Safe efforts and consistent messages under concurrency","With the realtime thread, any number of service calls and the hardware interleaved in any way: a loaded robot never crashes and the realtime thread can always make its next step; every effort sent to the transmissions is what limit enforcement made of a command written since the commands were last reset (zero if nobody wrote), hence within the joint's effort limit unless NaN, provided no init() code and nobody outside writes that joint's command; each message reports the joints and actuators exactly as they are when it is filled; at most one joint state and one statistics message per period. The proviso is needed: an init() that writes a command while a service call runs between enforcement and sending gets an unlimited effort through.","all interleavings of any length, all controllers, all service calls, all hardware values","schedules are unbounded; the unsafe window lies between two adjacent calls of the realtime loop","pr2_controller_manager/src/controller_manager.cpp:ControllerManager::update","pr2_controller_manager/src/controller_manager.cpp:ControllerManager::loadController","pr2_mechanism_model/src/robot.cpp:RobotState::enforceSafety")
p("The simulated belt is a damped spring","In every simulation with an elastic belt (the force on the joint computed, the simulator moving the joint arbitrarily, then the motor computed), successive motor positions and velocities are trapezoidal steps of a motor mass on a critically damped spring whose other end is the joint, over the time between the actuator's time stamps; the force on the joint is the one the spring would carry had the joint kept its last velocity; the measured effort is the commanded one. With the joint held and a constant command, from any state, the motor settles geometrically where the spring balances the command, the joint feels the whole force, and the position estimator fed with the simulated motor recovers the joint position. Estimator and simulation share no state.","all simulations: any joint motion, commands, non-decreasing time stamps, initial states; all compliances, time constants and reductions","trajectories of any length over the reals; convergence is an infinite property","pr2_mechanism_model/src/pr2_belt_transmission.cpp:PR2BeltCompensatorTransmission::propagateEffortBackwards","pr2_mechanism_model/src/pr2_belt_transmission.cpp:PR2BeltCompensatorTransmission::propagatePositionBackwards","pr2_mechanism_model/src/pr2_belt_transmission.cpp:PR2BeltCompensatorTransmission::propagatePosition")
p("Statistics messages describe the control cycles","In every run of the whole system (any controllers that do not overwrite measurements, any service calls, any hardware readings between cycles), the entry of a joint in every statistics message is what the statistics rules give for exactly the control cycles since start, one sample per cycle taken with the measurements of that cycle, published and reset at each earlier statistics message, and nothing else. Hence: the odometer of a message is the total displacement over all cycles so far; the first message's range is exactly the range of positions of the cycles before it; every later message's range contains every position, and its maxima bound every velocity and effort, of the cycles since the previous message, the maxima being attained; and the violated-limits flag is raised exactly if in one of those cycles a joint with limits and safety measured less effort than was sent to it in the cycle before.","all runs of any length, all publication schedules, all measurements including NaN","the message depends on the whole interleaving of cycles and publications","pr2_controller_manager/src/controller_manager.cpp:ControllerManager::update","pr2_controller_manager/src/controller_manager.cpp:ControllerManager::publishMechanismStatistics","pr2_mechanism_model/src/joint.cpp:JointStatistics::update","pr2_mechanism_model/src/robot.cpp:RobotState::propagateActuatorPositionToJointPosition")
p("Service calls return under fair scheduling","In every infinite execution in which ROS stays up, the realtime loop keeps being executed, the publisher gives the statistics message back after sending it, and no client thread that is able to proceed again and again is starved: every load, unload, switch, list and reload call of every client returns an answer, every client's program ends, both locks of the manager are free again and again, and the realtime loop completes cycle after cycle. Such executions exist beyond every finite one that leaves the clients idle. The proviso on ROS is needed: when ROS goes down while a load call waits for the realtime thread to leave the old list, the call answers false although the controller is in the list, leaves the statistics message locked, and a later load or unload call then never returns and no statistics are published any more.","all infinite fair executions: any number of client threads and programs, any interleaving with the realtime and publisher threads","termination under fairness is a property of infinite executions","pr2_controller_manager/src/controller_manager.cpp:ControllerManager::loadController","pr2_controller_manager/src/controller_manager.cpp:ControllerManager::unloadController","pr2_controller_manager/src/controller_manager.cpp:ControllerManager::switchController","pr2_controller_manager/src/controller_manager.cpp:ControllerManager::update")
p("Half-done modifications are invisible","While a service thread is rebuilding the spare controller list, collecting a switch request, resizing the statistics message or clearing the old list, whatever it has written there so far (arbitrary contents): every step the control loop, the publisher, other clients and the outside can take does exactly what it would do if nothing had been written yet, over any stretch of the execution - same callbacks, same events, same controllers, same hardware - and no step becomes possible or impossible. Service threads change those containers in these sections only and never a field the control loop owns or an existing controller; the control loop never changes lists, schedules, types or dependencies. What a call decides depends only on data nobody else changes while it holds the lock, apart from whether the controller to be unloaded is running.","all live configurations, all partial contents, all interleavings of any length","data races show up only for particular interleavings of individual memory writes","pr2_controller_manager/src/controller_manager.cpp:ControllerManager::update","pr2_controller_manager/src/controller_manager.cpp:ControllerManager::loadController","pr2_controller_manager/src/controller_manager.cpp:ControllerManager::unloadController","pr2_controller_manager/src/controller_manager.cpp:ControllerManager::switchController")
p("The transmissions are accurate in double arithmetic",
  "With IEEE doubles instead of real numbers, the joint position, velocity and effort the simple and the wrist transmission compute, the motor efforts they send, and the values recovered after going from motors to joints and back or from joints to motors and back, differ from the exact values by no more than a stated number of roundings (between 2 and 20 units of relative error 2^-53, measured against the sum of the absolute values of the quantities added up, plus 2^-600 for underflow), and never overflow, as long as reductions lie between 2^-100 and 2^100 and values are at most 2^500. Exact equality does not hold.",
  "every reduction, offset and reference position of ordinary size, every measured or commanded value of moderate size, every build (asserts on or off) and any mathematics library",
  "the inputs are all pairs of doubles; a test samples a few and cannot bound the rounding error of the rest",
  "pr2_mechanism_model/src/simple_transmission.cpp:SimpleTransmission::propagatePosition", "pr2_mechanism_model/src/simple_transmission.cpp:SimpleTransmission::propagatePositionBackwards", "pr2_mechanism_model/src/simple_transmission.cpp:SimpleTransmission::propagateEffort", "pr2_mechanism_model/src/wrist_transmission.cpp:WristTransmission::propagatePosition", "pr2_mechanism_model/src/wrist_transmission.cpp:WristTransmission::propagatePositionBackwards", "pr2_mechanism_model/src/wrist_transmission.cpp:WristTransmission::propagateEffort")

p("Controllers may look up other controllers from realtime code",
  "getControllerByName takes no lock. Called by a controller from starting(), update() or stopping(), however long it takes within the cycle and whatever load, unload and switch calls run meanwhile, the list it reads is not modified by anybody until the cycle ends, and it finds for every name the controller that was loaded under that name when the lookup began. A thread outside the services that calls it does not have this guarantee: one cycle later the list it reads may be cleared under it.",
  "every interleaving of the control loop with any number of threads making any calls, every point of the cycle at which the lookup starts and ends, while ROS is running",
  "needs all interleavings of an unlocked read with concurrent list replacement; a test sees a few schedules",
  "pr2_controller_manager/src/controller_manager.cpp:ControllerManager::getControllerByName",
  "pr2_controller_manager/src/controller_manager.cpp:ControllerManager::loadController",
  "pr2_controller_manager/src/controller_manager.cpp:ControllerManager::update")

p("Published execution times",
  "Under any interleaving of control loop and service calls, every cycle adds exactly one sample to the statistics of every controller of the list it took, and nothing else changes them. In every published statistics message each controller has at least one sample (so maximum and mean are never taken of nothing); max_time is the longest of its update durations since it was loaded, mean_time their average and variance_time (despite its name) their standard deviation.",
  "all executions, controllers, clocks whose differences fit a ros::Duration",
  "all interleavings of cycles with load/unload/switch and all sequences of durations; the published values come from incremental formulas",
  "pr2_controller_manager/src/controller_manager.cpp:148-159,659-671",
  "pr2_controller_manager/include/pr2_controller_manager/controller_spec.h:49-61")

p("Motor commands stay bounded under every interleaving",
  "While services are being served by any number of threads and hardware or simulation code runs between any two steps of the realtime thread, each set of efforts that update() sends to the motors is, for every transmission that does not share its actuators, exactly what that transmission computes (with the parameters read from the robot description) from the commands of its own joints; if neither controllers' init() code nor anybody outside writes a joint's command, that command is the result of limit enforcement, so a simple transmission's motor never receives more than limit/reduction and each wrist motor never more than (|limit0/reduction0|+|limit1/reduction1|)/|2 actuator reduction| in floating point.",
  "every interleaving of realtime steps, service threads, publishers and hardware, every robot with usable transmissions, every controller code that keeps joint descriptions, every finite limit and non-zero finite reduction",
  "the number of interleavings of a control cycle with the service threads is unbounded and the bound must hold in each of them, for all commands including infinities and for every rounding",
  "pr2_controller_manager/src/controller_manager.cpp: ControllerManager::update",
  "pr2_mechanism_model/src/robot.cpp: RobotState::enforceSafety, propagateJointEffortToActuatorEffort",
  "pr2_mechanism_model/src/simple_transmission.cpp: propagateEffort",
  "pr2_mechanism_model/src/wrist_transmission.cpp: propagateEffort")

p("Statistics messages describe the control cycles under every interleaving",
  "Also when any number of service threads, publishers and the hardware run between any two steps of the realtime thread, the entry of a joint in every published mechanism statistics message is what the statistics rules give for exactly the control cycles before it: one sample per cycle with the measurements of that cycle, published and reset at every earlier statistics message. Hence the odometer is the displacement over all cycles so far, the first message's range and maxima are those of its cycles, every later message's range and maxima cover the cycles since the previous message, and its violated-limits flag is raised exactly if in one of those cycles a joint with limits and safety measured less effort than was sent to it in the cycle before.",
  "every interleaving of realtime steps with service threads, publishers and hardware writes to actuators, every robot with usable transmissions, all controllers that do not overwrite measurements",
  "a sample could be lost or duplicated at any of unboundedly many interleaving points, and the message at the end of a long history depends on all of them",
  "pr2_controller_manager/src/controller_manager.cpp: ControllerManager::update, publishMechanismStatistics",
  "pr2_mechanism_model/src/joint.cpp: JointStatistics::update",
  "pr2_mechanism_model/include/pr2_mechanism_model/joint.h: JointStatistics::reset",
  "pr2_mechanism_model/src/robot.cpp: RobotState::propagateActuatorPositionToJointPosition")

p("Gripper functions stay in their domain",
  "In double arithmetic, for every parameter set, every joint and actuator number (NaN and the infinities included) and all four propagation directions, the gripper transmission calls asin and acos only with arguments in [-1, 1] (or with a NaN it was given) and sqrt only with arguments above zero, as far as anything it writes is concerned: whatever the mathematics library answers elsewhere changes no result, so a gap joint or motor reported beyond the linkage's range is treated as being at its end rather than giving NaN.",
  "every parameter set, memory, mathematics library and direction",
  "floating point overshoot past the ends of the range cannot be enumerated",
  "pr2_mechanism_model/src/pr2_gripper_transmission.cpp: inverseGapStates",
  "pr2_mechanism_model/src/pr2_gripper_transmission.cpp: computeGapStates")

p("Restart after halted motors, under every interleaving",
  "With service threads, the joint state and statistics publishers and the hardware running between any two steps of the realtime thread: whenever an update cycle begins to update controllers while no motor is halted, and some motor was halted when the previous cycle did so, that cycle stops and starts again every controller that is running in the cycle's list, in list order, before it updates any; and it does so in no other case. What changes in the motors or in the controllers after the cycle has begun has no effect on the decision.",
  "for every robot, plugin library, controller set, clock behaviour, initial halt state and every interleaving of service threads, publishers, shutdown and outside events with the realtime thread that meets no stale start flag",
  "the decision depends on what the actuators showed in two different cycles and on whatever ran between any two steps of the realtime thread; a test fixes one interleaving",
  "pr2_controller_manager/src/controller_manager.cpp: ControllerManager::update",
  "pr2_mechanism_model/src/robot.cpp: RobotState::isHalted",
  "pr2_controller_manager/include/pr2_controller_manager/controller_manager.h: motors_previously_halted_")

p("Execution times and overruns under every interleaving",
  "Whatever service threads and publishers do between any two steps of the realtime thread: each iteration of the update loop gives the controller whose turn it is exactly one more sample, the time between the clock readings just before and just after its update, calling update() iff it is running; if the sample is longer than a millisecond the overrun counter grows by one and the overrun time becomes the second reading, otherwise both stay; no other controller's statistics change. At every moment and in every published statistics message the overrun count of each controller is the number of its samples longer than a millisecond, there is at least one sample, and without overruns the overrun time is zero.",
  "for every clock behaviour, controller set, schedule of service threads, publishers, shutdown and outside events without a stale start flag, every list in use and every position in it",
  "the counters are written by the realtime thread while other threads build new lists, move controllers to them and resize the message; a test observes one schedule and cannot see whether a counter can be lost, copied stale or counted twice in another",
  "pr2_controller_manager/src/controller_manager.cpp: ControllerManager::update",
  "pr2_controller_manager/src/controller_manager.cpp: publishMechanismStatistics",
  "pr2_controller_manager/include/pr2_controller_manager/controller_spec.h: Statistics")

p("The life of every controller object, under every interleaving",
  "In every run of the system - any client calls interleaved in any way with the control cycles, start-up and shutdown included - the callbacks ever made on any one controller object form a proper life: init exactly once and first, nothing at all after an init that failed, and update only after a starting with no stopping in between. A controller that is in a list was initialised successfully, and the manager treats it as running exactly if starting was called on it and stopping not since. Once a controller has been destroyed (neither list holds it) no callback is made on it ever again. Every completed cycle calls update exactly once on each controller of the list it works on that has been started and not stopped since, and on nobody else.",
  "all histories of the manager, all numbers of threads, programs and interleavings, all controllers",
  "the protocol of one object is the combined effect of the load, switch, update, motor restart and unload paths running in different threads; a test runs one interleaving of a few calls",
  "pr2_controller_manager/src/controller_manager.cpp",
  "pr2_controller_interface/include/pr2_controller_interface/controller.h")

p("Whole robots conserve mechanical power",
  "For a robot loaded from a description, after any calls: once propagateActuatorPositionToJointPosition has run, the measured power (effort times velocity) of the joints each simple or wrist transmission drives equals the measured power of its actuators; and whatever the controllers then command, after limit enforcement the commanded power propagateJointEffortToActuatorEffort sends to those actuators equals the power the joints' commands ask for. A robot made only of such transmissions conserves power as a whole.",
  "All descriptions that load, all reductions other than zero, all actuator readings and joint commands, all earlier histories of calls and writes, all calls between reading and commanding that leave velocities alone; over the real numbers; transmissions that have their actuators for themselves.",
  "Tests check one transmission alone with one ratio; conservation is an identity over all ratios, readings, commands and histories of the whole robot.",
  "pr2_mechanism_model/src/robot.cpp: propagateActuatorPositionToJointPosition, propagateJointEffortToActuatorEffort",
  "pr2_mechanism_model/src/simple_transmission.cpp: propagatePosition, propagateEffort",
  "pr2_mechanism_model/src/wrist_transmission.cpp: propagatePosition, propagateEffort")

p("An idle robot is limp",
  "In every realtime cycle, also while service calls and the hardware run between any two of its steps, the effort command sent for a joint that no running controller's starting, stopping or update writes is exactly what limit enforcement makes of zero, whatever was commanded in earlier cycles; and where the joint's limits allow zero, the motors of its simple or wrist transmission are commanded zero effort, the motor of its gripper is commanded zero or not a number, and the motor of its belt transmission is commanded only that transmission's damping force. So a robot on which no controller runs, or runs no longer, is sent no effort.",
  "All reachable states (all earlier loads, unloads, starts, stops and cycles), all interleavings of realtime and service threads, all descriptions that load, all controllers (in the interleaved version: whose init() leaves the joint's command alone), all other joints' commands, all finite non-zero reductions, IEEE-754 binary64 arithmetic.",
  "Tests see a few cycles of one robot; a stale command left over from a stopped controller depends on the history of starts and stops.",
  "pr2_controller_manager/src/controller_manager.cpp: update",
  "pr2_mechanism_model/src/robot.cpp: zeroCommands, enforceSafety",
  "pr2_mechanism_model/src/simple_transmission.cpp: propagateEffort",
  "pr2_mechanism_model/src/wrist_transmission.cpp: propagateEffort")

p("Mis-sized calls are refused",
  "In a build with assertions, each call of the transmission plugin interface (position and effort, forwards and backwards) on a simple, wrist, belt or gripper transmission stops at once, reading and writing no joint or actuator, when the actuator or joint vector does not have exactly the size that transmission works on: 1 actuator (wrist 2) and 1 joint (wrist 2; simple 2 when its simulated actuated joint is used; gripper the gap joint, each passive joint, the screw joint and the slider joint if there is one). With the right sizes the forward calls and the backward effort call are never refused (a gripper's backward effort call also requires a positive simulated reduction), except that a gripper without slider joint accepts no joint vector both forwards and backwards.",
  "All transmissions of the four kinds in any state, all vectors of actuators and joints of any length, all memory contents, every arithmetic.",
  "Tests pass the sizes their fixture has; the claim ranges over all vectors and over every number of passive joints.",
  "pr2_mechanism_model/src/simple_transmission.cpp: propagatePosition, propagatePositionBackwards, propagateEffort, propagateEffortBackwards",
  "pr2_mechanism_model/src/wrist_transmission.cpp: propagatePosition, propagatePositionBackwards, propagateEffort, propagateEffortBackwards",
  "pr2_mechanism_model/src/pr2_belt_transmission.cpp: propagatePosition, propagatePositionBackwards, propagateEffort, propagateEffortBackwards",
  "pr2_mechanism_model/src/pr2_gripper_transmission.cpp: propagatePosition, propagatePositionBackwards, propagateEffort, propagateEffortBackwards")

p("Assertions only stop, they change nothing",
  "A build with assertions (assert, ROS_ASSERT) either stops at a failed assertion or does exactly what a build without them does: the same result, the same joint and actuator memory, the same transmission state. This holds for each call on each built-in transmission, for the four propagation loops over a robot, for loading a description (initXml of the ControllerManager with the RobotState), for reading and writing the joints of a chain or tree, for the list_controllers service, and for a whole realtime cycle: if update() of the build with assertions ends without a failed assertion, the other build calls the same controllers, leaves the same memory and manager state and publishes the same messages.",
  "All robots of built-in transmissions in any state, all memory contents, vectors of any size, all descriptions, controllers, clocks, lock outcomes and manager states, every arithmetic.",
  "Tests run one build; equality of the two builds concerns every input, and an assertion with a side effect would show only on some of them.",
  "pr2_mechanism_model/src/robot.cpp: RobotState, propagateActuatorPositionToJointPosition, propagateJointEffortToActuatorEffort, propagateJointPositionToActuatorPosition, propagateActuatorEffortToJointEffort",
  "pr2_mechanism_model/src/simple_transmission.cpp",
  "pr2_mechanism_model/src/wrist_transmission.cpp",
  "pr2_mechanism_model/src/pr2_belt_transmission.cpp",
  "pr2_mechanism_model/src/pr2_gripper_transmission.cpp",
  "pr2_mechanism_model/src/joint_calibration_simulator.cpp: GetJointCalibrationInfo",
  "pr2_mechanism_model/src/chain.cpp: getPositions, setEfforts",
  "pr2_controller_manager/src/controller_manager.cpp: initXml, update, publishJointState, publishMechanismStatistics, listControllersSrv")

with open(os.path.join(os.path.dirname(__file__),"..","properties.jsonl"),"w") as f:
    for q in P: f.write(json.dumps(q)+"\n")
print(len(P))
