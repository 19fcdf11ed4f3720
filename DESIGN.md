# Formal model of acrobotics in Rocq (Coq 8.16.1)

The source in `/repo` was only read, never built or run.  Everything below is
about a hand-written Gallina model of that text.  Each definition in a model
file has a comment with the source file and lines it follows; deliberate
simplifications are named in the header comment of the file and again here.

## 1. How to read the development

`rocq/theories/` has four kinds of files.

| kind | files | content |
|------|-------|---------|
| model | `PyBase Cost Dp GraphCommon PyGraph PyCost CppGraph Planning Mat Util Geometry Robot Ik Path Optim Io Urdf Resources Pipeline Iterative Puma Plot Gui Examples Tasks OptScript Scripts Draw` | definitions that follow the code branch by branch |
| specification | `SpecPath` and the small definitions named in the header of each `Prop*` file | what the theorems are stated with |
| lemmas | `*Proofs`, `GraphWalks`, `PyGraphSeg`, `PyGraphMain`, `CppSearch`, `CppHeap`, `CppHeapOrder`, `Separate`, `OptimDual`, `Motion`, `MotionKuka`, `GuiKuka`, `GuiLayout`, `ExamplesTable`, `PipelineRail`, `PipelineExamples`, `CppMain`, `CppExamples`, `CppFinal`, `PlanningCart`, `PlanningIter`, `PlanningToy`, `RobotForms`, `CostFloat`, `ErrorProofs2`, `ErrorProofs5`, `ErrorProofs6`, `ScriptsPose`, `ScriptsRuns`, `ScriptsMore`, `IncAgain`, `Extents`, `LocalIk`, `Margin`, `GridCover`, `Resolution`, `ResolutionExamples`, `Turn`, `IterativeExamples`, `FloatIkArm`, `FloatIkWrist`, `FloatIkKuka`, `FloatIkDouble`, `FloatPlanExamples`, `FloatIkAll`, `FloatPlanAll`, `FloatPlanAllExamples`, `ErrorProofs3` | proofs, witnesses and instances |
| theorems | `Prop*` | only theorems named `Cnn_…`, each closed by `exact lemma`, non-vacuity examples, and `Print Assumptions` |

Conventions.

* An exception is a value (`Raise e`); undefined behaviour of C++ is the
  exception `NullDeref` or `OutOfBounds`.  `res` is the result type, with
  `x <- r ;; k` for sequencing.
* A loop without a static bound runs on fuel and returns `OutOfFuel` when it is
  used up.  Theorems either exclude that value or prove it for every fuel
  (non-termination).
* Mutable objects are explicit state.  Every call on a robot returns the robot
  after the call, because the link matrices are cached and overwritten and the
  collision order changes.
* A theorem ending in `_refuted` gives a witness against the property as stated.
  A theorem ending in `_partial` proves part of a property; the manifest note
  says what is missing.  A property with a refutation has status `partial`.

## 2. Trusted base

1. The Coq 8.16.1 kernel (`coqc`; `vm_compute` is used for concrete witnesses,
   so the virtual machine is included).
2. The axioms listed in section 7 for each theorem.  All are axioms of the Coq
   standard library: `ClassicalDedekindReals.sig_forall_dec`,
   `ClassicalDedekindReals.sig_not_dec`,
   `FunctionalExtensionality.functional_extensionality_dep` (these three come
   with the real numbers) and `Classical_Prop.classic` (comes with the
   inverse trigonometric functions and with Flocq rounding).  No axiom of
   another library is used, and none is added.
3. The reading of the source: that the definitions in the model files say what
   the cited lines do.  The kernel cannot check this.
4. What the model assumes about code outside the repository (section 4).

## 3. What is modelled

| source | model | modelled | left out |
|--------|-------|----------|----------|
| `dp.py` | `Dp.v`, `Nan.v` | all four functions, numpy argmin order, infinities, NaN (C169) | |
| `pygraph.py` | `PyGraph.v`, `PyCost.v`, `Nan.v` | nodes, FIFO queue, visited flags, init, get_path, reset, multi-source, segments loop, arccos cost, NaN costs (C169) | printing, negative caller indices |
| `cpp/include/graph.h`, `cpp/src/graph.cpp` | `CppGraph.v` | add_data_column, set_weights, init, run_bfs, run_dijkstra with the libstdc++ heap on pointers whose keys change, get_path, get_path_cost, reset, NaN values (C169); the unused functions cost_function (exact), visit, init_unvisited, sort_function, and set_graph_data, and add_data_column with a 32-bit index, in `CppUnused.v` (C170) | cost_function in float; int overflow of node indices |
| `graph.cpp` with addresses | `CppMem.v` | node and joint vectors in blocks that move and are freed when push_back grows them, every read through an address, the print functions (C167) | set_graph_data; reuse of freed blocks; the text of the printed lines |
| `cpp/graph.py`, `graph_wrap.cpp` | none | | generated SWIG code |
| `planning.py` | `Planning.v` | get_shortest_path with dtype conversion, cart_to_joint_no_redundancy, _simple, _incremental, _iterative, SolutionPoint, resampling, get_new_bounds, PlanningTask; PlanningTask.plot in `Draw.v` | timing values, cart_to_joint_tool_first_cc (it always raises: `Link` has no `tf_shape`) |
| `util.py` | `Util.v` | rot_*, pose_*, tf_inverse, create_grid, vdc, next_prime, HaltonSampler, sample_SO3; plot_reference_frame in `Draw.v` | get_default_axes3d |
| `geometry.py` | `Geometry.v` | Shape (vertices, edges, polyhedron), Collection, collision of collections; plotting in `Plot.v` | the box test of fcl is a parameter |
| `robot.py` | `Robot.v`, `Plot.v` | Link, Tool, Robot: fk, fk_all_links, casadi versions, self collision, collision with priority list; plot, plot_path, animate_path as lists of segments; plot_kinematics in `Draw.v` | matplotlib |
| `robot.py` in floating point | `FloatFk.v` | get_link_relative_transform, fk, fk_all_links with a rounding after every operation (C130) | overflow, NaN |
| `resources/robots.py` in floating point | `FloatIk.v`, `FloatAnthro.v`, `FloatRail.v` | tf_inverse, Arm2.ik, SphericalWrist.ik, Kuka.ik (C152), AnthropomorphicArm.ik (C172), KukaOnRail.ik (C173) with a rounding after every operation | overflow, NaN, signed zeros; Arm2.ik with lengths other than the Kuka's 0.18, 0.6, 0.62 and AnthropomorphicArm.ik with lengths other than 1 have definitions but no theorem |
| `path.py`, `planning.py` in floating point | `FloatPlan.v` | np.linspace, TolEulerPt.get_samples, cart_to_joint_no_redundancy, PlanningTask.solve with "grid" for the Kuka, a rounding after every operation (C153) | overflow, NaN; the other point classes, planners and robots; the search itself (exact) |
| `examples/kingpin.py` | `Kingpin.v` | path, scene, robot (C135) | solve and plots are the functions modelled elsewhere |
| `graph.cpp` in floating point | `FloatCost.v` | cost_function_2 and the sums of distances in float and double (C131) | NaN |
| `resources/robots.py` | `Robot.v`, `Ik.v` | all constructors (Denavit-Hartenberg tables), all five ik functions; link geometry of the Kuka in `Resources.v`, of the Puma in `Puma.v` | |
| `path.py` | `Path.v` | TolerancedNumber, TolEulerPt, TolPositionPt, AxisAnglePt, FreeOrientationPt, TolOrientationPt, point_to_frame; plot in `Draw.v` | |
| `optimization.py` | `Optim.v` | all constraints and the objective | the solver |
| `io.py` | `Io.v` | all parsing functions | json text, file access, true/false |
| `urdfio.py` | `Urdf.v` | export (documents and file operations) and import | XML text |
| `resources/torch_model.py`, `workpiece_model.py`, `path_on_table.py` | `Resources.v` | shapes, transforms, paths | plotting |
| planning, ik, path and collision together | `Pipeline.v` | cart_to_joint_no_redundancy of the Kuka and cart_to_joint_simple of KukaOnRail with the modelled sampler, ik, fk and collision check | |
| the same for the other two planners | `Iterative.v` | cart_to_joint_incremental, SolutionPoint, cart_to_joint_iterative with the robot object threaded through | printing, time values |
| `tests/kuka_forward_kinematics.py` | `Puma.v` | fk_kuka | |
| `tests/test_*.py` | `Suite.v`, `SuiteDraw.v` | the data and calls of the tests (C168; the fk tests are C45) | the decimals of assert_almost_equal |
| `examples/*.json` (tasks), `examples/scenes`, `examples/tasks` | `Tasks.v` | every file as a JSON value or URDF document (C156) | their text |
| `examples/optimization_based.py` | `OptScript.v` | the script up to the returned path; ipopt is any function of the guess (C159) | the plots |
| `examples/quat_graph.py`, `tool_first_cc.py`, `iterative_grid_refining.py`, `follow_line_orientation_free.py`, `weld_circle.py` | `Scripts.v` | the calls that compute something, from the loaded task to the path (C160); `np.random` is any sequence of rows | plots, animations, printed text, the saved file |
| `gui/task_editor.py` | `Gui.v` | create_layout_slots; TaskEditor as a state with one step per callback, exceptions of callbacks printed and ignored as matplotlib does | widgets, drawing; the text of the log; files are parameters |
| `gui/gui_template.py` | `GuiTemplate.v` | the values, the line and its colour, one step per callback; Slider and RadioButtons as far as the callbacks see them (C171) | axes, drawing |
| `samplers.py`, `examples/small_passage.py`, `examples/rotation_table.py` | `Examples.v` | Sampler, the row and cost computation of the passage, the planning function of the table; cost_function_2 and the picture of the passage in `Draw.v` | plots of the table |
| `examples/multiple_paths.py`, `examples/task_to_urdf.py` | `Draw.v` | the task drawn (C163), the exported file (C165) | the figure |
| `docs/`, `setup.py`, other examples | none | | |

## 4. Simplifications

* Real numbers.  Geometry, kinematics and sampling use exact reals, so rounding
  errors, inf, nan and signed zeros are not modelled.  `atan2` is the real
  function; a division by zero is an error value.  A theorem about exact equality
  therefore speaks about the algorithm, not about the last bits.  For forward
  kinematics C130 bounds the difference to double precision.
* Costs.  The graph searches and the dynamic program are proved for any ordered
  cost arithmetic with monotone addition.  `Cost.v` and `CostFloat.v` give the
  integers, the reals and IEEE binary32/binary64 rounding as instances.  NaN is
  excluded there and treated in `Nan.v` (C169).
* Python values.  Integers are unbounded.  numpy shapes are modelled where the
  code depends on them; other shape errors are not.
* External code.  fcl's box test is a parameter (C75 states what it assumes);
  casadi and ipopt are not modelled, a solution is any value meeting the
  constraints; pyquaternion functions are written out as exact formulas;
  lxml/urdfpy are taken to read and write trees faithfully; numpy's random
  numbers are arbitrary inputs.
* matplotlib is not modelled, except that a Slider rounds to its step counted from
  its lower end, clips, and tells its observers only about changes (C171).
* `random_near` of the patched pyquaternion is an arbitrary input; it does not
  exist in the released library.

## 5. What was found

The properties were written before the proofs.  These turned out false of the
code (each with a machine-checked witness or a general theorem).

| property | what goes wrong |
|----------|-----------------|
| C13 | `get_shortest_path_segments` never ends for some inputs, and raises IndexError for one or two columns |
| C18 | `run_dijkstra` changes keys inside a heap that is not rebuilt: the path need not be shortest (45 against 35; already with three columns 17 against 13, never with two columns and non-negative weights) |
| C23 | a second `init` makes every search dereference a null pointer |
| C26 | an empty first entry, or any empty entry with float64 data, raises AttributeError instead of reporting failure |
| C29 | `cart_to_joint_simple` resets its list per sample: only the last sample survives |
| C30 | `cart_to_joint_incremental` counts solutions, not tries: it never ends when nothing is reachable |
| C33 | `SolutionPoint` uses the undefined name `TolPositionPoint`: every class but FreeOrientationPt raises NameError |
| C36 | a task without scene raises AttributeError with every method |
| C44 | the casadi forward kinematics ignores the joint type: prismatic joints turn |
| C52 | the spherical wrist reports success with a wrong orientation at a vertical approach axis |
| C55 | KukaOnRail ignores the dimensions given to its constructor |
| C56 | the third Kuka joint can exceed its limit of pi |
| C57 | SphericalWrist returns its internal array: the next call changes earlier results |
| C66 | inverted bounds without nominal value are accepted |
| C82 | the degree test looks at signed values: -90 is taken as radians |
| C86 | rotations are lost on URDF export |
| C93 | only the first box of a link is constrained in the optimisation |
| C96 | an even number of samples misses the nominal value |
| C99 | exporting an empty scene leaves the old file in place |
| C100 | chains of joints and collision origins are dropped on URDF import |
| C101 | the boxes of Arm2 are centred on the joint, those of PlanarArm have a negative side; the last box of SphericalWrist with d3 > 0.1 (default 1) and of an extended SphericalArm leave the link uncovered |
| C102 | PlanarArm never reports an obstacle |
| C105 | a band of a full turn samples the same frame at both ends |
| C107 | lowering a queued distance in place breaks the heap |
| C109 | at the wrist singularity a plan can hold only configurations that miss the pose |
| C112 | `cart_to_joint_simple` works for TolEulerPt only |
| C116 | the optimisation does not constrain the tool, the base or self collision |
| C118 | the first two joints of `Puma` turn about the same axis, the wrist axes do not meet, and its Collections are built from non-lists: every collision check raises TypeError |
| C119 | `Robot.plot` passes `tf_base` in the wrong position: the base is drawn at the origin |
| C121 | the task editor keeps the old solution when another path or scene is loaded or planning fails |
| C122 | loading paths before a scene, a path with a position tolerance, and a point without solution raise in the editor |
| C124 | `samplers.py` uses the undefined name `Quaternion`; random_quaternion_near returns None for small distances |
| C127 | `rotation_table.py` overwrites the frame in its loop: the table angles add up |
| C129 | rpy means fixed axes in URDF files and moving axes in path points |
| C132 | the docstring of get_shortest_path names the l1-norm, the code adds squares: the path returned can travel further than another |
| C133 | collisions are checked only at the planned configurations: a robot can pass through a plate between two of them, and rounding to float32 can cause a collision |
| C134 | the torch overlaps link 6 by 5 mm in every configuration; only the missing pair in the self-collision check hides it |
| C135 | the nominal frames of kingpin.py aim at the seam, but none of the samples does: 20 values leave out the middle |
| C136 | a paths file holding an empty list empties the paths shown but keeps the previous path as the one planned |
| C148 | angles are reported within one turn: a path that turns the tool once around is planned with a jump |
| C150 | further iterations of the iterative planner can raise the cost or lose the solution; with the published pyquaternion the second one raises AttributeError |
| C151 | the incremental planner uses only the first frame of the grid of a toleranced point: it never ends when that frame is out of reach |
| C164 | `cost_function_2` of small_passage.py charges no distance from the goal at the last point |
| C171 | gui_template.py starts with a line of frequency 3 under a slider that shows 3.1; Reset gives 3.1; the line is not red although "red" is active |

Other facts proved along the way: `vdc` does not end for negative n or base 1
(C61); a zero rotation axis raises (C70); AnthropomorphicArm and Arm2 ignore
the base frame (C46); an interrupted export loses the previous file (C87).

Read but not modelled: `PlanarArm` draws boxes of negative size,
`Shape.is_in_collision_multi` raises TypeError.

## 6. Property by property

Status and notes are those of `MANIFEST.json`; the full statements are in `properties.jsonl`.

| id | property | status | how proved; notes |
|----|----------|--------|-------------------|
| C01 | dp.shortest_path returns the cheapest state sequence | proved | Bellman equation by induction on the stages, for any monotone cost arithmetic; the returned indices realise the value and no sequence beats it.  |
| C02 | dp.shortest_path: the returned path realises the returned length | proved | The forward pass follows the stored arg-min of the value function; cost accumulated in the order of the code.  |
| C03 | dp.shortest_path breaks ties towards the first index | proved | Lexicographic minimality by induction; the companion shows that with infinite costs plain optimality does not give it. The refuted companion shows why plain optimality is not enough with infinite costs. |
| C04 | dp.calculate_value_function computes the cost-to-go of every state | proved | Induction from the last stage backwards.  |
| C05 | dp.shortest_path rejects a problem with fewer than two stages, or an empty stage, with an exception | proved | Case analysis on the first raising operation.  |
| C06 | pygraph.get_shortest_path returns a minimum-cost path | proved | Loop invariant of the FIFO search: when a column has been popped its distances are minimal over all walks (GraphProofs), then walks = picks of one sample per column (GraphWalks). Any cost arithmetic, any cost function that returns a value on samples of consecutive columns; also instantiated with the code's arccos cost over the reals. |
| C07 | pygraph.get_shortest_path: path and cost agree | proved | Parent pointers form a walk whose accumulated cost is the stored distance. Index sequence existential; the walk cost is accumulated in the order of the code. |
| C08 | pygraph.get_shortest_path fails exactly when no finite-cost path exists | proved | Success and failure are both characterised, including empty columns. Includes totality for non-empty lists and the empty-column case. |
| C09 | pygraph step limit is respected and optimal | proved | Step limit turns costs into infinity; same invariant.  |
| C10 | pygraph partial path reaches the furthest reachable column | proved | Invariant on visited columns.  |
| C11 | pygraph search terminates and expands each node at most once | proved | Potential = unvisited nodes; fuel equal to the number of samples suffices. Loop bound = number of samples; second theorem covers cost functions that raise. |
| C12 | pygraph Graph objects can be reused | proved | A run starts by resetting the state; equality after any history including failing runs. History of arbitrary runs (also failing ones), get_path and reset calls. |
| C13 | pygraph.get_shortest_path_segments returns for every input | partial | The loop repeats a state: provable cycle; the witness is computed, the general theorem bounds the terminating runs. REFUTED: witness where the loop never ends; one and two columns always raise IndexError. Proved instead: the loop ends within (columns - 2) rounds or never. |
| C14 | pygraph.get_shortest_path_segments: single path case equals the step-limited optimum | proved | Unfolding of the loop for one and two segments. Also the two-segment case. |
| C15 | graph.Graph BFS search is optimal | proved | Same layered invariant as C06, on the C++ state, plus column-major expansion. run_bfs is optimal for every arithmetic of Cost.v; companion: it returns iff some path has finite cost, otherwise null dereference. |
| C16 | graph.Graph get_path returns one valid row index per column | proved | Index bounds from the invariant; for Dijkstra every queue that permutes its content is allowed, and the libstdc++ sift functions are proved to permute. run_bfs for all inputs; run_dijkstra for every queue obeying the permutation laws when path costs are finite and no column is empty; the libstdc++ heap is proved to obey the laws. |
| C17 | graph.Graph get_path_cost is the cost of the returned path | proved | Distance = cost along parents. Both searches; Dijkstra under the hypotheses of C16. |
| C18 | graph.Graph Dijkstra search is optimal | partial | Two columns: the heap keeps the start nodes (distance zero) above every goal of positive distance, whatever distances changed since they were pushed, so all starts are expanded before the search ends; a goal at distance zero is already cheapest. Computed witnesses for three and four columns and for a negative weight, exact integers. Proved for two columns with finite non-negative costs (generic and for real numbers with non-negative weights), with the libstdc++ heap as it is. REFUTED for three and four columns with exact integers and unit weights, and for two columns with a negative weight. |
| C19 | graph.Graph Dijkstra would be optimal with a queue that always pops a minimum | proved | Dijkstra invariant (settled nodes have minimal distance) under pops-minimum and non-negative costs. Queue popping a current minimum and non-negative costs; also instantiated to exact reals with non-negative weights. |
| C20 | graph.Graph searches terminate | proved | Each row is pushed once: fuel = number of rows. Fuel equal to the number of rows is enough from the loaded graph, for any queue obeying the permutation laws. |
| C21 | graph.Graph repeated searches are stable | proved | A visited column is not expanded again, and relaxation cannot improve. The object is unchanged by a second run_bfs. |
| C22 | graph.Graph reset restores the state after init | proved | reset restores every field written by any operation. Histories of run_bfs, run_dijkstra, reset and get_path. |
| C23 | graph.Graph init may be called again | partial | Start and goal nodes are appended a second time; general crash theorem. REFUTED: after a second init every run_bfs dereferences a null pointer. |
| C24 | graph.Graph weights are used exactly when their number matches the joint count | proved | Case split on the length test. Selection of the weights and their use in the path cost. |
| C25 | planning.get_shortest_path returns rows of the given arrays | proved | Composition of the C++ theorems with dtype conversion and row selection. Both methods, both dtypes; rows theorem holds for arbitrary Q. |
| C26 | planning.get_shortest_path reports an unreachable trajectory point as success=False | partial | Order of the tests: the dtype test reads Q[0] before the emptiness test. REFUTED when the first entry is empty or another entry is empty and the first is float64: AttributeError. Proved when the first entry is a float32 array. |
| C27 | planning.get_shortest_path rejects unknown methods | proved | Case analysis.  |
| C28 | cart_to_joint_no_redundancy keeps exactly the collision-free IK solutions | proved | Induction over path, samples and solutions with the collision state threaded through. For every robot and every collision checker with history independent answers. |
| C29 | cart_to_joint_simple keeps the solutions of all samples | partial | The inner list is re-created; induction gives the exact result for every robot. REFUTED: q_sol is reset for every sample, only the last sample survives (proved for every robot). Proved when there is one sample per point. |
| C30 | cart_to_joint_incremental stops for every point | partial | The counter is unchanged when no solution is found; induction over fuel. REFUTED: counter counts solutions, not tries; never ends when no sample has a collision-free solution. Proved to end when every sample has one. |
| C31 | cart_to_joint_incremental yields enough valid solutions when it returns | proved | Invariant of the while loop: draws so far, solutions so far.  |
| C32 | cart_to_joint_iterative: success means every iteration succeeded | proved | Induction over iterations; the state of each SolutionPoint is related to the path found before.  |
| C33 | iterative planning accepts every documented path point type | partial | The class test evaluates an undefined name. REFUTED: undefined name TolPositionPoint, NameError for every class but FreeOrientationPt. |
| C34 | get_new_bounds stays inside the old interval and shrinks it | proved | Case split on the clipping; geometric factor by induction. On real numbers. |
| C35 | PlanningTask.set_initial_path stores an (N, ndof) array or raises | proved | Case split on rank.  |
| C36 | PlanningTask.solve works without a scene | partial | Attribute scene is only set when a scene is given. REFUTED: attribute scene is never set without scene, AttributeError for all four methods. Dispatch with scene proved. |
| C37 | Robot.is_in_collision answers independently of history | proved | `good` invariant of robots; the answer is a function of invariant data. Holds after any sequence of fk/fk_all_links/collision/link calls, including failing ones. |
| C38 | Robot.is_in_collision is true exactly when some checked pair collides | proved | Unfolding of both loops, the priority list being a permutation. Excluded case (tool on a robot with no links) is characterised separately. |
| C39 | collision_priority stays a permutation of the links | proved | Permutation invariant.  |
| C40 | Robot.fk does not depend on earlier calls | proved | The cached matrix keeps its constant entries and all others are overwritten.  |
| C41 | Robot.fk returns a rigid transform | proved | Product of rigid matrices.  |
| C42 | Link transform follows the Denavit-Hartenberg convention | proved | Matrix algebra (`ring`).  |
| C43 | fk_all_links is consistent with fk | proved | Induction over the links.  |
| C44 | symbolic and numeric forward kinematics agree | partial | Witness with a prismatic joint; equality for revolute robots by induction. REFUTED as stated: the symbolic version ignores the joint type, so a prismatic joint turns instead of sliding (C44_casadi_refuted). Holds for robots with revolute joints only (C44_casadi_revolute_partial). |
| C45 | textbook forward kinematics of the bundled robots | proved | Computation of the product of the link matrices, addition theorems. Closed forms of all eight bundled robots, plus base/tool factorisation. |
| C46 | AnthropomorphicArm.ik solutions reach the position | proved | Elbow equation, atan2 identities, fk closed form of C45. Exact position for identity base without tool when the elbow cosine is at most 1-1e-6; the base is shown to be ignored. |
| C47 | AnthropomorphicArm.ik error in the snapping zone is bounded | proved | Snapping changes the cosine by at most 1e-6; propagated to the squared distance. Squared error at most 2 /a2 a3/ 1e-6 for every returned solution. |
| C48 | AnthropomorphicArm.ik fails only for unreachable positions and finds all solutions | proved | Law of cosines for failure; uniqueness of angle from sine and cosine for completeness. Failure means unreachable; completeness away from the axis and the stretched elbow. |
| C49 | Arm2.ik solutions reach the position | proved | As C46 with the two shoulder branches and the offset a1. Exact for identity base without tool unless the elbow is stretched or folded, error bound otherwise. |
| C50 | Arm2.ik fails only for unreachable positions | proved | As C48 with both branches. Failure means unreachable, never raises, completeness away from the axis and the stretched elbow. |
| C51 | SphericalWrist.ik solutions reproduce the orientation away from the singularity | proved | ZYZ angles of a rotation from its third column and row. Both returned solutions reproduce the orientation when the approach axis is not vertical; completeness as well. |
| C52 | SphericalWrist.ik is correct for every orientation it reports success for | partial | Witness: half turn about the vertical axis. REFUTED: at a vertical approach axis ik returns success with wrong orientations; C51 is the guarded version. |
| C53 | Kuka.ik solutions reproduce the pose | proved | Decoupling: arm solution positions the wrist centre, wrist solution fixes the orientation; loop over the arm solutions. Exact for every rigid base and tool off the wrist and elbow singularities, with an error bound at the elbow singularity. |
| C54 | KukaOnRail.ik solutions reproduce the pose | proved | Reduction to C53 with a moved base. Exact for the default dimensions, off the singularities. |
| C55 | KukaOnRail respects its constructor dimensions in ik | partial | Witness; and equality with the default robot for every dimension. REFUTED for other constructor dimensions: the helper Kuka always has the default ones; proved that the dimensions are ignored. |
| C56 | IK solutions respect the default joint limits | partial | Range of atan2; witness for joint 3. REFUTED for joint 3, which can exceed pi; the other joints are within limits. |
| C57 | results of an ik call are not changed by later calls | partial | The wrist result refers to the array of the robot; Kuka copies. REFUTED for SphericalWrist, which returns its internal array; proved for Kuka. |
| C58 | rotation and pose constructors give rigid transforms with the expected group laws | proved | Matrix algebra, addition theorems. exact real arithmetic |
| C59 | tf_inverse inverts rigid transforms | proved | Matrix algebra. exact real arithmetic, rigid T |
| C60 | create_grid enumerates every combination exactly once | proved | Order of numpy meshgrid and flatten as an explicit permutation of the Cartesian product. non-empty input list; scalars are one-element lists |
| C61 | van der Corput values lie in [0,1) and are distinct | proved | Digit expansion; injectivity from uniqueness of digits. base >= 2, n >= 0, exact rational values as reals; the loop diverges for n < 0 and for base 1 (proved too) |
| C62 | van der Corput sequence is perfectly stratified | proved | Leading digits of the mirrored expansion. all bases >= 2, all k, all blocks |
| C63 | next_prime yields exactly the odd primes in increasing order | proved | Invariant of the sieve loop: trial division up to the integer square root decides primality. int(num**0.5) taken as the exact integer root |
| C64 | HaltonSampler continues its sequence | proved | State = last index; concatenation of requests. all dims and request sequences |
| C65 | sample_SO3 returns unit quaternions | proved | sin^2 + cos^2 = 1. pyquaternion taken as exact; also: unknown rep gives None |
| C66 | TolerancedNumber keeps its nominal value within the bounds | partial | Case analysis of the constructor. REFUTED for inverted bounds without nominal value; proved when a nominal value is given or the bounds are ordered. |
| C67 | TolerancedNumber.discretise stays in the tolerance and hits the ends | proved | linspace formulas. Number, spacing, end points and range of the samples. |
| C68 | TolEulerPt samples respect the tolerances | proved | create_grid composed with frames. Exact set and number of samples, rigid and within tolerance. |
| C69 | TolPositionPt samples keep the orientation and respect position tolerances | proved | As C68 with a quaternion rotation. Exact set and number of samples, orientation kept, within tolerance. |
| C70 | AxisAnglePt samples rotate the nominal orientation about the axis within the angle tolerance | proved | Quaternion algebra against the Rodrigues formula. Rotation about the axis by evenly spaced angles, for axes exactly one long or off by more than 1e-12 (pyquaternion does not normalise in between). |
| C71 | FreeOrientationPt samples keep the position | proved | Quaternion rotations are rotations. Position kept and rigid for both sampling methods; unknown rep raises. |
| C72 | Shape.get_polyhedron describes exactly the transformed box | proved | Row by row expansion in the box frame.  |
| C73 | Shape vertices and edges describe the box | proved | Enumeration of the eight corners and twelve edges. sizes non-negative for the inclusion of vertices |
| C74 | Collection.is_in_collision is the disjunction over all shape pairs | proved | Double loop with early return. fcl box test is a parameter |
| C75 | Collision answers are symmetric and frame independent | proved | Uses the hypothesis that the box test is exact, with a non-vacuity witness. assumes an exact fcl box test on rigid transforms (hypothesis exact_prim, shown satisfiable) |
| C76 | collision constraints certify separation | proved | Farkas-type argument: multipliers give a separating direction of length at most one. Duality certificate: distance at least eps, no common point. |
| C77 | per-pose collision constraints certify every link against every obstacle | proved | C76 for every link and obstacle, polyhedra moved by the link frames. For robots with one box per link, as the code assumes. |
| C78 | a feasible solution of the optimisation problem follows the path without link collisions | proved | C77 plus the position constraints and C44. For robots with revolute joints and one box per link; ipopt and casadi are external and a solution is any values meeting the constraints exactly. |
| C79 | create_line gives num_points evenly spaced points from start to end | proved | linspace formulas. points and end points; errors for bad counts and lengths |
| C80 | create_circle points lie on the circle | proved | Rodrigues formula; constant radius and plane; even angular spacing. circle points, closed, evenly spaced; zero axis (nan in numpy) excluded |
| C81 | symmetric tolerances are centred on the nominal path | proved | Case split on the tolerance sign. position and euler tolerances |
| C82 | angle unit guessing treats angles and their opposites alike | partial | Case split on the magnitude test. refuted for values above 10 (degrees); holds exactly for -10..10 |
| C83 | parse_path gives one path point per requested point or raises | proved | Inversion of the parser, both directions. soundness for every dictionary, completeness for complete fields, unknown types raise |
| C84 | parse_obstacles keeps every obstacle, in order, with a rigid transform | proved | Inversion of the parser, both directions. iff characterisation of the parsed boxes; other types raise |
| C85 | URDF export followed by import preserves axis-aligned scenes | proved | Reader after writer on trees and numbers. text of numbers modelled, XML as a tree |
| C86 | URDF export preserves every scene | partial | Exact set of preserved scenes. REFUTED: rotations are not exported; proved: exactly the unrotated scenes are kept, positions always |
| C87 | an interrupted URDF export leaves a loadable prefix | proved | Every prefix of the file operations. completed writes describe the first k boxes; the window between open and write loses the file |
| C88 | Kuka.ik is complete and fails only for unreachable poses | proved | C50 and C51 composed. Completeness and unreachability for Kuka. |
| C89 | Kuka and KukaOnRail ik do not depend on earlier calls | proved | `kuka_ok` invariant over histories. History independence of ik for Kuka and KukaOnRail. |
| C90 | KukaOnRail.ik is complete for the given rail position | proved | C88 with a moved base. Completeness and unreachability for KukaOnRail with default dimensions. |
| C91 | nominal transforms agree with point_to_frame | proved | Matrix algebra. Nominal transform and point_to_frame. |
| C92 | TolOrientationPt samples keep the position | proved | Quaternion rotations. The quaternions of random_near are arbitrary inputs. |
| C93 | collision constraints cover links with several boxes | partial | Witness with two boxes on one link, the second meeting a wall. REFUTED: boxes beyond the first of a link are not constrained; C77 is the guarded version. |
| C94 | the optimisation objective measures joint motion | proved | Sum of squares. Non-negative, zero exactly for constant paths. |
| C95 | samples of a loaded task stay near the described path | proved | C79/C80/C81 composed with C68/C69. composition of parse_path with the sample grids |
| C96 | the nominal position of a toleranced point is among its samples | partial | Parity of the grid. refuted: ten samples of a band never contain its middle |
| C97 | tasks and path lists are parsed entry by entry | proved | Induction over the document.  |
| C98 | rpy_to_quaternion represents the given rotation | proved | Quaternion of the matrix and back, four branches of pyquaternion.  |
| C99 | after export_urdf the file describes the exported scene | partial | File operations of the empty scene. REFUTED for the empty scene, which writes nothing; proved for non-empty scenes (up to rotation, C86) |
| C100 | import_urdf places every box where the URDF puts it | partial | Witnesses; star-shaped documents by induction. REFUTED for chains and collision origins; proved for star-shaped documents |
| C101 | the boxes of the links cover the arm | partial | Segment in link coordinates (the previous origin is a constant there), then interval arithmetic per box; counterexamples by evaluation. Proved for the Kuka (lengths up to the default d4 and d6, a1 <= 0.24, a2 <= 0.7), the Kuka on a rail from its second link on (the rail itself has no box), the anthropomorphic arm with any non-negative lengths and the wrist with /d3/ <= 0.1. Refuted for the wrist with a longer d3 (default 1), SphericalArm with an extended slide, Arm2 (boxes centred on the joint instead of the link) and PlanarArm (a negative side, read here as an empty box). |
| C102 | an obstacle on the arm is always reported | partial | C101 and C38 with an exact box test. Proved for the robots covered in C101, with an exact box test and rigid scene, and for the tool of any robot. Refuted for PlanarArm with positive lengths: no obstacle is ever reported. |
| C103 | the torch has rigid shapes and a free tip | proved | Matrix algebra; the tip is compared with each box in a common frame. Numbers read as exact decimals, angles exact. |
| C104 | weld lines follow their seam clear of the workpiece | proved | C68 for one point, induction over linspace, one coordinate separates sample and box. The number of points is universally quantified; the code uses 10, 6 and 6. |
| C105 | the samples of a point are distinct frames | partial | Entries of the rotation determine the angles away from the poles; full turn by periodicity. Refuted for a band of a full turn, hence for every weld line. Proved when rx and rz bands are narrower than a full turn and ry stays strictly between -pi/2 and pi/2. Exact reals: rounded samples may differ. |
| C106 | the table paths stay above the table | proved | C69 for one point, then as C104. The number of points is universally quantified; the code uses 20 and 15. The plotting at import is not modelled. |
| C107 | the C++ priority queue pops a nearest node | partial | Heap invariant of the libstdc++ push and pop by induction over the sift loops. Proved while the distances of queued nodes stay the same. REFUTED when a queued distance is lowered in place, which run_dijkstra does; this is the cause of the refutation of C18. |
| C108 | a Kuka plan is made of all collision-free solutions | proved | Loops over samples and solutions by induction, with the robot states of C37, C40 and C89 as invariant.  |
| C109 | every configuration of a Kuka plan is safe and on the path | partial | C108, C25 for the search, C53 for ik, C68-C71 for the samples, C38 and C75 for collisions; the arm stretched ahead as witness against. Proved away from wrist and elbow singularities. Refuted at the wrist singularity: the only planned configuration is off by half a turn although the pose is reachable. |
| C110 | a Kuka plan is found whenever one exists | proved | C88 finds the configuration, C108 keeps it, C15 and C16 find a path of least cost. Optimality for "bfs"; "dijkstra" only finds a path (C18). |
| C111 | every configuration of a KukaOnRail plan is safe and on the path | partial | As C108 and C109, with C54 for the rail. Proved for default dimensions away from singularities; the singular case is wrong as in C109. Only the last sample of a point is used, so reachable points can be missed (C29). |
| C112 | cart_to_joint_simple takes every point class | partial | By the definition of each class; `FreeOrientationPt.discretise` returns rows, not frames, so ik fails to unpack them. TolEulerPt works. TolPositionPt and AxisAnglePt have no discretise, FreeOrientationPt yields rows that ik rejects. |
| C113 | small joint changes move the robot little | proved | Induction over the chain: a turn about z moves a point by at most the angle times its distance, later links are rigid.  |
| C114 | float32 plans stay within micrometres of the path | proved | Flocq's rounding error for the bounded joints of C56, C113 and C109. Stated away from the wrist singularity (see C109). |
| C115 | the optimisation constraints are exact | proved | Separation of a point and a convex set at positive distance (by projecting on finer and finer approximations), then the support function of a box gives the multipliers; soundness as in C92. Both directions: soundness of the multipliers and their existence, for one pair of boxes, one pose and the whole problem. Numerical tolerance of the solver is not modelled. |
| C116 | a feasible motion passes is_in_collision | partial | C115 and the exact form of `is_in_collision` (C48); the counterexample is computed. Refuted in general: the tool (like the base and the robot against itself) is not constrained; a feasible motion with the tool inside the wall. Proved: only base, tool or self collisions can remain. |
| C117 | Kuka.fk agrees with the closed form used as oracle in the tests | proved | Both matrices are brought to the same product of turns and then compared entry by entry. the geometry with the real trigonometric functions; numpy rounding is not modelled |
| C118 | the Puma is a six-axis arm with a spherical wrist that can be checked for collisions | partial | The product of the link matrices is written out; the meeting point is solved for. refuted: the first two joints turn about one axis, the last three axes meet only for a4 = 0 (default 0.0203), and every collision check raises TypeError because Collection is given a Shape instead of a list |
| C119 | a plotted robot is the robot the collision check sees | partial | Fold over links and shapes; the frames after each call are those of `frame`; a vertex of the misplaced base refutes the rest. proved for robots without base geometry or with tf_base = eye(4); refuted for a base elsewhere, which is drawn without tf_base (C119_drawn says what is drawn in general); lines are segments in space, matplotlib is not modelled |
| C120 | frame k of an animation shows joint vector k | proved | Invariant of the animation: lines have the fixed number and order, caches are overwritten by each call. base geometry is not animated by the code, so the comparison is with the robot without base; matplotlib is not modelled |
| C121 | the solution the task editor shows belongs to the scene and path on screen | partial | Invariants over runs of the step function (the solution changes by a returning plan only; the robot changes in its caches only), then C109 and C111; the witness runs C110 on one point and loads two. refuted: loading a path or scene, or a failing plan, keeps the old solution; proved instead for all runs with Kuka and KukaOnRail: it is the result of the last planning that returned, valid for scene and path of that moment, up to the wrist and elbow singularities of C109 |
| C122 | callbacks of the task editor do not raise | partial | Case analysis of `plot_setup` and of the columns without scene; C110 for the positive part. refuted for states without scene, for paths with position tolerances and for points without solution; proved to return for the Kuka from a fresh editor when the points are drawable and reachable away from singularities |
| C123 | layout slots are disjoint and inside the figure | proved | Form of the slots by `nth_error`, then arithmetic (GuiProofs.v, GuiLayout.v).  |
| C124 | the quaternion sampler returns unit quaternions | partial | Evaluation of the model: the global name is missing from the module; the formulas give a sum of squares equal to one. Refuted: samplers.py never imports Quaternion, so random_quaternion raises NameError for every draw and random_quaternion_near either raises or returns None. The formulas themselves give unit quaternions (C124_imported_partial). |
| C125 | the orientation cost is a metric on rotations | proved | trace(R1^T R2) = 4 d^2 - 1 by ring; the triangle inequality from the Cauchy-Schwarz inequality in R^4 for the components orthogonal to the middle quaternion and monotonicity of cos. Exact real arithmetic; for unit quaternions, which sample_SO3 produces (C65). |
| C126 | the passage example moves the tool through the scene with the least turning | proved | The rows are characterised by the exact collision test (C75); C01 and C02 give optimality for the matrix of costs, rewritten as the sum along the chosen orientations. Exact arithmetic and an exact box test; the class of the exception raised when a point has no free sample is not followed. |
| C127 | the rotation table example solves for each table angle | partial | Induction over the loops with the state of table and robot threaded through; Rx(b) Rx(a) = Rx(a+b). The refutation uses a frame ten units along the rail that is out of reach after half a turn. Refuted: the loop overwrites Ti, so the frame is turned by the sum of the angles so far, and only the last sample of each point is used. C127_sums_partial says exactly which columns are computed. |
| C128 | get_optimal_path returns the solver's motion exactly on success | proved | The constraints are equivalent to being on the points and clear (C115); the solver is a parameter with a soundness or optimality hypothesis. The solver (casadi, ipopt) is a parameter; its soundness and optimality are hypotheses. Robots with one box per link (C93 is the refutation without). |
| C129 | rpy angles mean the same in URDF files and path points | partial | Matrix algebra; the counterexample compares one entry at quarter turns. Refuted: URDF uses fixed axes, TolEulerPt moving axes. C129_inverse_partial relates the two; they agree for a single non-zero angle. |
| C130 | forward kinematics is accurate in double precision | proved | Row by row: the exact link rotation keeps the length of a row error, so errors add up linearly; one lemma per operation (rounded product, sum of four products), induction over the links; Flocq gives the error of one binary64 operation. Floats are reals with a rounding function (no overflow or NaN); sin and cos within one rounding unit and any order of the sums in np.dot are hypotheses, met by binary64 with correctly rounded sin and cos (C130_double). |
| C131 | the planned motion is optimal up to float rounding | proved | A cost with k roundings behind it lies between (1-u)^k and (1+u)^k times the exact one; one lemma per operation from Flocq (sums have no underflow error), induction over joints and steps, then C25. Floats are reals with a rounding function and overflow to infinity; std::pow(x, 2.0) is taken to be correctly rounded; NaN is excluded by the bound on the data. Dijkstra: cost only, since its path need not be optimal (C18). |
| C132 | get_shortest_path minimises the l1-norm of its docstring | partial | Three columns refute it; the bound by the Cauchy-Schwarz inequality over all steps and joints. Refuted: graph.cpp adds squared differences (cost_function_2), the l1 version cost_function is never called. Proved: the squares are minimised, so the l1 length is at most sqrt(n(N-1)) times the least. |
| C133 | The motion between planned configurations is collision-free | partial | A cube sliding through a plate refutes it, as does a plate at exact contact for rounding; the positive part by the motion bound of C113, applied from the nearer end, and exactness of the collision check (C98). The code checks only the points of the plan. Refuted for the motion in between and for the rounding to float32; proved when the clearance exceeds the motion bound. |
| C134 | The torch fits the robot and the workpiece is a hollow box | proved | The boxes of the torch are bounded in flange coordinates (sin and cos of 11.3 degrees from simple bounds), then compared with link 5 by height or by distance from the axis, which the last joint keeps. Workpiece: case analysis on the five plates. The torch overlaps link 6 by 5 mm in every configuration; the code leaves that pair out. |
| C135 | The kingpin example can be welded only with a steep torch beside the obstacle | proved | The grid of the samples by euler_spec (C65), the boxes of the scene by case analysis. The wire of the torch contains the ray from 1 to 11 cm behind the tip, which meets the obstacle when the axis is flat. For the steep torch all boxes but the wire lie at least 10 cm behind the tip, with bounds for pi, sin and cos of 31.5 and 11.3 degrees from Taylor polynomials. That no sample aims at the seam: 2 i = 19 has no solution. Path, clearance, aim, rejected flat samples and a free steep sample of the kingpin example, for every number of points; that none of the samples aims at the seam is part of the statement. |
| C136 | The task editor works on the files last named | partial | By induction on the callbacks from the right: one step changes the names only when one is submitted, the scene and paths only when a file is read. An empty list of paths leaves the old path in place, which refutes that the path is the first of the paths. Refuted that the planned path is always the first path shown (an empty paths file); proved when no file holds an empty list, and everything else in full. |
| C137 | sample_SO3 is uniform and misses no orientation | proved | Onto and one-to-one from polar coordinates of the pairs (w,x) and (y,z); the derivatives componentwise; near every rotation from C138 for the bases 3, 5, 7 with the continuity of square root, sine and cosine and of the rotation in the quaternion. Uniformity is stated as constant volume factor of a one-to-one map onto the unit quaternions, not with measure theory. |
| C138 | Halton points fill boxes evenly in every dimension | proved | The part of the unit interval that holds a van der Corput value depends on the index modulo p^k (induction on k); the moduli of different primes are coprime, so the Chinese remainder theorem leaves one residue modulo the number of boxes.  |
| C139 | The collision check is right up to rounding | proved | Positions of every frame from C130 with their sizes kept; one more product per box; a matrix within 1/100 of a rotation has a determinant different from 0, so a point of a shrunk box is a point of the rounded box; the loops of the check are the same as in C76 with another comparison. Every robot, scene and arithmetic of C130; double precision for arms of at most seven joints and ten metres; the box sizes themselves are taken as given doubles; the box test of fcl is a parameter with a tolerance. |
| C140 | Malformed input is refused with a definite exception | proved | each function is evaluated on a general malformed argument; index paths, float loops and plotting by induction on the list, circles of links by showing that no fuel is enough for a height  |
| C141 | the samples of a point cover what it allows | partial | GridCover.v: linspace has a member within half a step of every number of the interval (`nearest`); turning by two angles moves a vector by at most the difference times its length (`turn_x`, `turn_y`, `turn_axis`), and the bounds add up over the three angles.  `resampled m` replaces the sample count of each tolerance.  The counterexample takes n equal draws. Proved for the three point classes with a grid, to half a step and in the limit of many samples. Refuted for FreeOrientationPt, whose random draws may all coincide. |
| C142 | enough samples find a plan | partial | Resolution.v: C141 gives a sample near the served frame, C144 joint values near the given ones that reach the sample, C145 that they are still clear, and continuity that they are still off the singularities; completeness of the planner on samples (C109) then applies.  The counterexample is a tolerance of twenty metres with two samples, both out of reach. Proved for every large enough number of samples, bfs and dijkstra, exact box test, real arithmetic in sampling and inverse kinematics. Refuted for the number of samples a point was built with: a wide tolerance with two samples makes get_shortest_path raise although the arm can serve the point. |
| C143 | finer sampling approaches the cheapest motion | proved | Resolution.v: `served_candidate` shows that the nearby joint values are among the candidates, so optimality over candidates (C109) bounds the cost; the cost is continuous in the joint values (`walk_near`). Costs in real numbers, joint values rounded by any map near the identity; the motion must lie inside the ranges of angles Kuka.ik reports. |
| C144 | inverse kinematics is continuous off the singularities | proved | LocalIk.v: limits of the branch of the closed-form inverse that belongs to the given joint values, written with an arc tangent around each angle (`ang`); each angle tends to the given one and the six together reproduce the pose (`solved`, `local_ik`); `kuka_finds_all` shows Kuka.ik reports them. Solutions are compared up to whole turns; a link table with a2*d4 = 0 is excluded. |
| C145 | collision-free joint values have a margin | proved | Margin.v: two disjoint closed boxes have a positive distance (compactness from Coquelicot, `boxes_margin`), so have finitely many; a joint moves every point of the robot by at most a bound that tends to 0 (`move_small`). The box test is exact; the distance is found by compactness and carries no number. |
| C146 | The bundled boxes fill the stated space | proved | all boxes are axis-aligned in their frame, so membership is a comparison with the corners, which are computed with linear arithmetic The geometry of Puma and the torch (rotated boxes) is not covered here. |
| C147 | Planners, graphs and readers fail with a definite exception | proved | each function is evaluated on a general argument of the class; columns, samples and URDF entries by induction on the list Out-of-bounds reads of graph.cpp count as the error value OutOfBounds. |
| C148 | A plan costs no more than any motion through the points | partial | Turn.v: the solutions for the frame turned by t differ only in the last angle (`sols_prefix`), finitely many prefixes have a least distance (`apart`); without a jump of the first five the last angle grows by h per step and leaves (-pi, pi] (`walk`) Refuted: Kuka.ik reports each angle in one turn only, so a path that turns the tool once around costs at least a fixed d although motions cheaper than any e exist. What holds is C143: motions inside the reported ranges are matched up to e. |
| C149 | Iterative planning on a Kuka returns valid paths of every iteration | proved | IterativeProofs.v: the loops on robot objects return what the pure loops of Planning.v return (`kuka_it_eq`), then C32, C109 and the rounding bound of C133; induction over the iterations for the drift, over the loop for the prefix Robot state threaded through all loops; random_near is an arbitrary function without zero quaternions. The positions are exact or drift as stated when the rows stay away from stretched elbow and wrist. |
| C150 | More iterations do not make the iterative plan worse | partial | IterativeExamples.v: a free point is drawn with any given orientation (`free_frame`); the solution sets of two sideways frames are compared (`side_fk`, `rot_z_apart`), and a turn of pi/8 about the vertical moves the wrist centre out of reach (`swung_out`); with kept orientations the rows of the last iteration are again among the candidates of every point, so the optimal path costs no more (IterativeKept.v) Refuted twice, with generators that respect the distance: the cost can grow from 0, and success can turn into failure for every larger number of iterations. With the published pyquaternion a second iteration raises AttributeError. If the draws contain the orientation they start from, the queue pops a minimum, rows are kept exactly and are away from a stretched elbow and wrist, one more iteration succeeds and does not cost more, and the recorded costs never grow. Missing: random draws that miss the orientation (false then), binary32 rows, stretched rows. Further positive parts are in C149 (prefix, one iteration). |
| C151 | Incremental planning on a Kuka | partial | IterativeProofs.v: loops as in C149, then C30 and C31; a grid does not depend on the call (`grid_first`), the example has its first frame ten metres away Soundness and the stopping rule are proved; ending is refuted: get_samples(1) of a toleranced point always returns the whole grid and only its first frame is used, so the loop never ends when that one is out of reach although others are reachable. It ends when every first frame has a clear solution. |
| C152 | Inverse kinematics of the Kuka in floating point | proved | errors in multiples of u through every operation (FloatIkProofs.v); the elbow in the arm plane (`planar`, FloatIkArm.v), where 1e-6 of tolerance keeps sin q3 above 1.2e-3 or sets it to zero; the three wrist angles against exact ones (`fwrist_one`, FloatIkWrist.v); target, loop and mounting in FloatIkKuka.v; the double instance and C130 give the round trip (FloatIkDouble.v) Floats are real numbers with a rounding after each operation; overflow, NaN and signed zeros are left out. Halving fpi and changing a sign are exact. Nothing is said of the direction of the flange when /sin q5/ is below 54000 (kp + 120) u, of the accuracy of a single angle, or that every exact solution has a row. |
| C153 | A planning task of the Kuka in double precision | proved | sampling by induction over the grid (`feuler_e`); C152 for each sample and C139 for each row, carried through the three loops with the invariant `same_kuka` (`frobot_collision_fst`, `reset_near`); angles at most 4.8 (`fkuka_range`), so float32 moves a link point as in C114; the search as in C110 (FloatPlanProofs.v) Floats are real numbers with a rounding after each operation; overflow, NaN and signed zeros are left out. np.linspace follows numpy's formula; integers below 2**53 are exact. The costs and the search are exact here; C145 treats float32 costs. Nothing is said of the direction of the flange when /sin q5/ is below 1.5e-8. The success statement here needs all that inverse kinematics may return for the sample to be clear; C154 needs one configuration only, away from the singularities. |
| C154 | Double precision loses no solution away from the singularities | proved | perturbation of each step at an exact solution: the first angle by its sine and cosine, the elbow through the square root of the discriminant with m3, the second angle by division by w, the wrist matrix by products, its three angles by division by m5; each yields a row among those the loop builds (FloatIkAll.v); angles recovered from sines and cosines, frames do not see whole turns, C114 bounds the movement of each box, so a distance survives; the three planner loops again (FloatPlanAll.v) Same arithmetic as in C152 and C153, unit roundoff at most 2e-16. The constants are those of the proof, not sharp. Solutions closer than 0.01 to a singularity are not covered; C152 says what is returned there. The example has the robot's own links not compared, as in examples/path_in_box.py. |
| C155 | The cost function of the Python graph is a distance between orientations | proved | the squared length of a combination of three vectors is not negative (induction on the coordinates), so the Gram determinant of three unit vectors bounds the third product by the other two; cosine decreases on [0, pi]; sums along a path by induction; the search from C06, C07 and C08 (PyCostProofs.v) real arithmetic; unit vectors, since for other lengths the cost of staying put is not 0 (C155_other_lengths_refuted) |
| C156 | The bundled scene and task files hold the boxes and paths their examples use, with three mistakes | proved | evaluation of the parsers on the file contents, linspace by its closed form; the two mistakes in angles by bounds on sin 20 - 6 pi and sin 3 pi / 4 (TasksProofs.v, TorchProofs.v) all files of examples/; the property includes the three mistakes found in them; JSON and XML text are not modelled, the values are |
| C157 | Three of the bundled tasks cannot be solved | proved | the nozzle contains a cylinder of radius 12.5 mm from 1 to 11 cm behind the tip (its wire box), so for any yaw it meets the edge of a box near the tip; the base of the Kuka meets the bottom plate of the workpiece; the editor by its invariant (TorchProofs.v) the part about configurations is for frames reached exactly; what the planner can still return (rows at singular elbow or wrist) is stated by the two plan theorems |
| C158 | The torch passes the small passage only upright, and then without turning | proved | a torch tilted by more than the cone puts a point of the nozzle in the top box or one of the side boxes; an upright one lies behind the tip below the top box and between the sides; then C125 (TorchProofs.v) the scene and points of the file, any unit quaternions as samples |
| C159 | The optimisation example starts from colliding configurations although its problem is solvable | proved | closed form of the inverse kinematics with both elbow cosines below one half in size, and a forearm that is never vertical; link 5 of an upright hand reaches into the table; a hand pointing down with the elbow up is clear link by link; C115 turns both into constraints (OptScriptProofs.v) The plots are not modelled; the solver is a parameter; arithmetic over the reals. |
| C160 | What the remaining example scripts return | proved | quat_graph.py by C121 and the metric of C138; tool_first_cc.py and the first round of the refinement by C130 and the exact frame of a hand that points down over the line, which stays solvable for near quaternions (near_solved); incremental planning ends because the number of solutions grows with every fruitful draw; weld_circle.py by C151 and C158 ; how the refinement ends by the first round with or without candidates (ScriptsRuns.v, ScriptsMore.v, IncAgain.v). That some sequence of draws lets weld_circle.py return is checked numerically only The five scripts are modelled up to printing, plotting and saving. The draws of np.random are arbitrary. That weld_circle.py ever returns a path is not proved. For it the height of the torch axis in the middle row is proved only where sin q5 and cos q3 are not 0. |
| C161 | Reference frames are drawn as right-handed tripods along the axes of their transform | proved | expansion of the products; columns of a rotation are orthonormal and c0 x c1 = c2 because the difference has norm 0 (DrawProofs.v)  |
| C162 | plot_kinematics draws the chain of the robot as its forward kinematics places it | proved | frames of the chain as a fold over the first k joints; the distance is the norm of the translation of one Denavit-Hartenberg matrix; state by C14's reset (DrawProofs.v)  |
| C163 | A task is drawn with one marker per path point at its nominal position | proved | every parsed point is the result of its constructor, so its nominal position is that of its coordinates; pictures of boxes as in C99 (DrawProofs.v)  |
| C164 | The alternative cost of small_passage.py keeps all orientations near the goal | partial | C01 and C02 for the matrix of costs written out; a plan of cost 0 turns nowhere; the counterexample with rotations about y at 0.6 and 0.4 from the goal (DrawProofs.v) Refuted for the last point, whose distance from the goal is not charged; partial: optimal for the cost without it. |
| C165 | task_to_urdf.py exports the scene of the task | proved | C85 with the scene of the parsed task, C156 for the file (DrawProofs.v) Stated for unrotated boxes; that rotation is lost by the export is C86. |
| C166 | The picture of small_passage.py shows the torch at every second point, clear of the passage | proved | C125 for the frames, induction in steps of two for the enumeration, C99 for the boxes (DrawProofs.v)  |
| C167 | Addresses in the C++ graph: the searches follow none that is out of date | proved | Simulation between addresses and positions: relations on pointers, nodes, arrays, queue and heap, one lemma per function of graph.cpp, three modes (no parents, parents valid, parents out of date); C15 for the optimum; an invariant on sizes and capacities (capacity below twice the size) shows that the second init always moves the first column (CppMemProofs.v, CppMemRuns.v, CppMemStale.v) Equality with the address-level program holds for every call sequence without print_graph, and with it when init is not called between a search and a reset; C167_answers_all_refuted shows that this restriction is needed |
| C168 | The assertions of the test suite | proved | C46-C54 and C88 for the round trips; explicit frames of the Kuka, a common point or separating coordinates, and Taylor bounds on sin and cos for the collisions; computation for the graphs (SuiteProofs.v) The wrist and rotation parts need sin q5 <> 0 (the tests draw random angles); the tests that only draw or check array shapes of util are C163 and types of the model; test_pygraph.py is commented out in the repository and uses the l1 cost. |
| C169 | NaN transition costs | proved | The searches with NaN equal the searches of C06-C20 with a cost not below infinity in place of NaN, function by function; for dp.py induction over the stages on where the values are NaN (NanProofs.v) get_shortest_path, run_bfs, run_dijkstra and shortest_path with costs that may be NaN. Distances stay numbers since only a true comparison assigns one. |
| C170 | Unused functions and the int index of graph.cpp | proved | Both searches keep the labels equal to those of the visits done so far; the FIFO order is column after column; overflow by the last entry of the matrix (CppUnusedProofs.v) The triangle inequality of cost_function_2 is refuted, as stated. cost_function is taken in exact arithmetic; int overflow is an exception. |
| C171 | gui_template.py: after the first move the line follows the sliders, and its first picture never comes back | proved | Invariant over the events: sliders keep range and initial value, and either the line is the curve of the sliders or nothing moved yet. The curves differ at sample 500 (frequency 0.1 + k) or 250 (frequency 30). Exact reals; the behaviour of matplotlib's Slider and RadioButtons is assumed as in GuiTemplate.v. |
| C172 | Inverse kinematics of the AnthropomorphicArm in floating point | proved | the errors of the cosine of the elbow and of its sine in multiples of u (`anthro_c3_e`, `q3_cs`); a shoulder pointing slightly wrong for an arm at least 1.19e-3 long (`planar_long`) or folded (`planar_short`); the law of cosines (`arm_pos_norm`) refutes a hit near the shoulder; C130 closes the round trip (FloatAnthroProofs.v) For the default lengths a2 = a3 = 1 and a base at the origin without tool. The theorem C172_folded shows where the code misses. |
| C173 | Inverse kinematics of the KukaOnRail in floating point | proved | the frame of the carriage (`carriage_e`) and the extra inverse and product in multiples of u (`tw_e`, `rail_target_e`), then the second half of C152 for a known target (`core_e`); C130 with ten times the unit roundoff closes the round trip (FloatRailProofs.v, FloatRailDouble.v) Default dimensions; no claim about other lengths, overflow, NaN or signed zeros. |

## 7. Print Assumptions of every theorem

* S = `ClassicalDedekindReals.sig_forall_dec`
* N = `ClassicalDedekindReals.sig_not_dec`
* F = `FunctionalExtensionality.functional_extensionality_dep`
* C = `Classical_Prop.classic`

"closed" means closed under the global context.

| theorem | axioms |
|---------|--------|
| `C01_dp_shortest_path_optimal` | closed |
| `C02_dp_path_realises_length` | closed |
| `C03_dp_first_index_tie_break` | closed |
| `C03_dp_first_index_tie_break_exact` | closed |
| `C03_dp_lexicographic_with_infinite_costs_refuted` | closed |
| `C04_dp_value_function_is_cost_to_go` | closed |
| `C05_dp_rejects_degenerate_input` | closed |
| `C06_pygraph_shortest_path_optimal` | closed |
| `C06_pygraph_shortest_path_optimal_arccos` | S N F C |
| `C07_pygraph_path_and_cost_agree` | closed |
| `C08_pygraph_fails_iff_no_finite_path` | closed |
| `C08_pygraph_fails_with_empty_column` | closed |
| `C09_pygraph_step_limit_respected_and_optimal` | closed |
| `C10_pygraph_partial_path_reaches_furthest_column` | closed |
| `C11_pygraph_search_terminates` | closed |
| `C11_pygraph_search_never_out_of_fuel` | closed |
| `C12_pygraph_graph_reuse` | closed |
| `C13_pygraph_segments_returns_refuted` | closed |
| `C13_pygraph_segments_two_columns_raise` | closed |
| `C13_pygraph_segments_termination_decided_partial` | closed |
| `C14_pygraph_segments_single_path` | closed |
| `C14_pygraph_segments_two_paths` | closed |
| `C15_cpp_bfs_optimal` | closed |
| `C15_cpp_bfs_returns_iff_finite_path` | closed |
| `C16_cpp_get_path_valid_bfs` | closed |
| `C16_cpp_get_path_valid_dijkstra` | closed |
| `C16_cpp_stl_heap_keeps_elements` | closed |
| `C16_cpp_get_path_other_length` | closed |
| `C16_cpp_get_path_before_search` | closed |
| `C17_cpp_cost_of_path_bfs` | closed |
| `C17_cpp_cost_of_path_dijkstra` | closed |
| `C18_cpp_dijkstra_optimal_refuted` | closed |
| `C19_cpp_dijkstra_optimal_with_min_queue` | closed |
| `C19_cpp_dijkstra_optimal_real` | S F |
| `C20_cpp_bfs_terminates` | closed |
| `C20_cpp_dijkstra_terminates` | closed |
| `C21_cpp_bfs_idempotent` | closed |
| `C22_cpp_reset_forgets_history` | closed |
| `C23_cpp_init_twice_refuted` | closed |
| `C23_cpp_init_twice_always_crashes` | closed |
| `C24_cpp_weights_selected` | closed |
| `C24_cpp_weights_enter_the_cost` | closed |
| `C107_heap_pops_minimum` | closed |
| `C107_lowered_distance_refuted` | closed |
| `C167_answers` | closed |
| `C167_answers_printed` | closed |
| `C167_plan` | closed |
| `C167_print_graph` | closed |
| `C167_second_init_frees` | closed |
| `C167_answers_all_refuted` | closed |
| `C25_shortest_path_bfs` | closed |
| `C25_shortest_path_dijkstra` | closed |
| `C25_shortest_path_rows` | closed |
| `C26_empty_entry_refuted` | closed |
| `C26_empty_entry_partial` | closed |
| `C26_empty_first_entry_raises` | closed |
| `C26_empty_among_float64_raises` | closed |
| `C26_failure_means_empty_entry` | closed |
| `C27_unknown_method` | closed |
| `C28_no_redundancy_exact` | closed |
| `C28_no_redundancy_returns` | closed |
| `C29_simple_all_samples_refuted` | closed |
| `C29_simple_last_sample_only` | closed |
| `C29_simple_one_sample_partial` | closed |
| `C29_simple_no_samples` | closed |
| `C30_incremental_stops_refuted` | closed |
| `C30_incremental_never_ends` | closed |
| `C30_incremental_stops_partial` | closed |
| `C31_incremental_enough` | closed |
| `C32_iterative_success` | closed |
| `C32_iterative_failure` | closed |
| `C32_iterative_zero_iterations_raises` | closed |
| `C33_point_types_refuted` | closed |
| `C33_other_point_types_raise` | closed |
| `C33_free_orientation_points_partial` | closed |
| `C34_new_bounds` | S F |
| `C34_refinement_halves` | S F |
| `C34_new_bounds_exact` | S F |
| `C34_red2_keeps_interval` | S F |
| `C35_set_initial_path` | closed |
| `C36_solve_without_scene_refuted` | closed |
| `C36_solve_with_scene_partial` | closed |
| `C36_solve_unknown_method` | closed |
| `C58_rotations` | S N F |
| `C58_rotations_add` | S N F |
| `C58_rotation_axes` | S N F |
| `C58_poses` | S N F |
| `C59_tf_inverse` | S F |
| `C60_grid_order` | closed |
| `C60_grid_complete` | closed |
| `C60_grid_length` | closed |
| `C60_grid_rows` | closed |
| `C61_vdc_value` | S F |
| `C61_vdc_returns` | S F |
| `C61_vdc_range` | S F |
| `C61_vdc_distinct` | S F |
| `C61_vdc_negative_diverges` | S F |
| `C61_vdc_base1_diverges` | S F |
| `C62_vdc_stratified` | S F |
| `C63_is_prime` | closed |
| `C63_next_prime` | closed |
| `C63_next_prime_terminates` | closed |
| `C63_prime_stream` | closed |
| `C63_prime_stream_terminates` | closed |
| `C64_halton_chunks` | S F |
| `C64_halton_continues` | S F |
| `C64_halton_rows` | S F |
| `C64_halton_bases` | closed |
| `C64_halton_init_terminates` | closed |
| `C65_so3_random` | S N F |
| `C65_so3_halton` | S N F |
| `C65_so3_unknown_method` | S N F |
| `C72_polyhedron_local` | S F |
| `C72_polyhedron_is_box` | S F |
| `C72_polyhedrons_of_collection` | S F |
| `C73_vertices` | S F |
| `C73_vertices_inside` | S F |
| `C73_edges` | S F |
| `C73_edge_length` | S F |
| `C74_collision_pairs` | S |
| `C75_collision_points` | S F |
| `C75_collision_symmetric` | S F |
| `C75_collision_frame` | S F |
| `C37_collision_history` | S N F |
| `C37_self_collision_history` | S N F |
| `C38_collision_iff` | S N F |
| `C38_self_collision_iff` | S N F |
| `C38_default_pairs` | S N F |
| `C38_tool_without_links` | S N F |
| `C39_priority_permutation` | S N F |
| `C39_priority_order` | S N F |
| `C40_fk_history` | S N F |
| `C40_fk_all_links_history` | S N F |
| `C41_fk_rigid` | S N F |
| `C41_fk_returns` | S N F |
| `C41_fk_raises` | S N F |
| `C42_dh_convention` | S N F |
| `C43_frames` | S N F |
| `C44_casadi_refuted` | S N F |
| `C44_casadi_revolute_partial` | S N F |
| `C45_planar` | S N F |
| `C45_spherical` | S N F |
| `C45_wrist` | S N F |
| `C45_anthropomorphic` | S N F |
| `C45_arm2` | S N F |
| `C45_kuka` | S N F |
| `C45_kuka_on_rail` | S N F |
| `C45_base_tool` | S N F |
| `C46_anthropomorphic_exact` | S N F C |
| `C46_anthropomorphic_returns` | S N F C |
| `C46_base_ignored` | S N F C |
| `C47_anthropomorphic_error` | S N F C |
| `C48_anthropomorphic_unreachable` | S N F C |
| `C48_anthropomorphic_complete` | S N F C |
| `C49_arm2_correct` | S N F C |
| `C49_arm2_snapped` | S N F C |
| `C50_arm2_unreachable` | S N F C |
| `C50_arm2_returns` | S N F C |
| `C50_arm2_complete` | S N F C |
| `C51_wrist_correct` | S N F C |
| `C51_wrist_complete` | S N F C |
| `C52_wrist_singular_refuted` | S N F C |
| `C53_kuka_correct` | S N F C |
| `C54_rail_correct` | S N F C |
| `C55_rail_dimensions_refuted` | S N F C |
| `C55_rail_default_partial` | S N F C |
| `C56_kuka_limits_refuted` | S N F C |
| `C56_kuka_limits_partial` | S N F C |
| `C57_wrist_aliased_refuted` | S N F C |
| `C57_kuka_own_partial` | S N F C |
| `C88_kuka_unreachable` | S N F C |
| `C88_kuka_complete` | S N F C |
| `C88_kuka_returns` | S N F C |
| `C89_kuka_history` | S N F C |
| `C89_rail_history` | S N F C |
| `C90_rail_unreachable` | S N F C |
| `C90_rail_complete` | S N F C |
| `C66_nominal_refuted` | S F |
| `C66_nominal_partial` | S F |
| `C66_fields` | S F |
| `C66_outside_raises` | S F |
| `C67_discretise` | S F |
| `C67_discretise_returns` | S F |
| `C67_discretise_negative` | S F |
| `C68_euler_grid` | S N F |
| `C68_euler_within` | S N F |
| `C68_euler_constructed` | closed |
| `C69_position_grid` | S N F |
| `C69_position_within` | S N F |
| `C70_axis_samples` | S N F |
| `C70_angle_within` | S F |
| `C70_axis_returns` | S N F |
| `C70_zero_axis_raises` | S N F |
| `C70_rodrigues` | S N F |
| `C71_free_transform` | S N F |
| `C71_random` | S N F |
| `C71_halton` | S N F |
| `C71_free_rpy` | S N F |
| `C71_free_unknown` | S N F |
| `C91_nominal_transform` | S N F |
| `C91_point_to_frame` | S N F |
| `C92_orientation_samples` | S N F |
| `C76_separation` | S F |
| `C76_disjoint` | S F |
| `C77_pose_clear` | S N F |
| `C77_no_collision` | S N F |
| `C78_path_followed` | S N F |
| `C78_links_clear` | S N F |
| `C93_two_boxes_refuted` | S N F |
| `C94_objective_nonneg` | S F |
| `C94_objective_zero` | S F |
| `C94_objective_constant` | S F |
| `C79_line` | S F |
| `C79_line_errors` | S F |
| `C80_circle` | S N F |
| `C81_position` | S N F |
| `C81_position_returns` | S N F |
| `C81_euler` | S N F |
| `C81_euler_returns` | S N F |
| `C82_unit_refuted` | S N F |
| `C82_unit_exactly_partial` | S N F |
| `C83_parse_path` | S N F |
| `C83_parse_path_returns` | S N F |
| `C83_unknown_type` | S N F |
| `C83_unknown_tolerance` | S N F |
| `C84_obstacles` | S N F |
| `C84_entries` | S N F |
| `C84_not_a_box` | S N F |
| `C95_free` | S N F |
| `C95_position` | S N F |
| `C95_euler` | S N F |
| `C96_nominal_sampled_refuted` | S N F |
| `C96_nominal_never_sampled` | S N F |
| `C97_task` | S N F |
| `C97_import_paths` | S N F |
| `C98_matrix_quaternion` | S N F |
| `C98_rpy_quaternion` | S N F |
| `C85_round_trip` | S N F |
| `C86_rotated_refuted` | S N F |
| `C86_flattened_partial` | S N F |
| `C86_exactly_unrotated` | S N F |
| `C87_completed_writes` | S N F |
| `C87_operations` | S |
| `C87_between_open_and_write` | S N F |
| `C99_export_overwrites_refuted` | S N F |
| `C99_empty_writes_nothing` | S |
| `C99_export_overwrites_partial` | S N F |
| `C100_import_refuted` | S N F |
| `C100_chain_and_offset_lost` | S N F |
| `C100_star_partial` | S N F |
| `C100_star_returns` | S N F |
| `C100_refused` | S N F |
| `C129_rpy_refuted` | S N F |
| `C129_origin` | S N F |
| `C129_inverse_partial` | S N F |
| `C129_single_partial` | S N F |
| `C101_kuka_boxes` | S N F |
| `C101_rail_boxes_partial` | S N F |
| `C101_anthropomorphic_boxes` | S N F |
| `C101_arm2_refuted` | S N F |
| `C101_planar_refuted` | S N F |
| `C102_kuka_skeleton` | S N F |
| `C102_rail_skeleton` | S N F |
| `C102_anthropomorphic_skeleton` | S N F |
| `C102_tool_free` | S N F |
| `C102_planar_refuted` | S N F |
| `C103_rigid` | S N F |
| `C103_tip_position` | S N F |
| `C103_tip_axis` | S N F |
| `C103_tip_outside` | S N F C |
| `C104_weld_line` | S N F |
| `C104_clearance1` | S N F |
| `C104_clearance2` | S N F |
| `C104_clearance3` | S N F |
| `C104_into_corner1` | S N F C |
| `C104_into_corner2` | S N F C |
| `C104_into_corner3` | S N F C |
| `C104_aim1` | S N F |
| `C104_aim2` | S N F |
| `C104_aim3` | S N F |
| `C105_distinct_partial` | S N F C |
| `C105_full_turn_refuted` | S N F |
| `C105_weld_line_refuted` | S N F |
| `C106_path_pos_tol` | S N F |
| `C106_path_pos_tol_clear` | S N F |
| `C106_path_ori_free` | S F |
| `C106_path_ori_free_clear` | S F |
| `C108_kuka_columns` | S N F C |
| `C108_kuka_kept` | S N F C |
| `C109_kept_iff_clear` | S N F |
| `C109_kuka_plan_partial` | S N F C |
| `C109_singular_refuted` | S N F C |
| `C110_kuka_plan_found` | S N F C |
| `C110_kuka_plan_dijkstra` | S N F C |
| `C111_rail_columns` | S N F C |
| `C111_rail_plan_partial` | S N F C |
| `C112_point_classes_refuted` | S N F |
| `C112_free_point_refuted` | S N F |
| `C112_euler_partial` | S N F |
| `C113_link_points` | S N F C |
| `C113_tool_points` | S N F C |
| `C113_directions` | S N F C |
| `C114_kuka_plan_rounded` | S N F C |
| `C115_boxes_apart` | S N F C |
| `C115_pose` | S N F C |
| `C115_problem` | S N F C |
| `C116_links_partial` | S N F |
| `C116_tool_refuted` | S N F |
| `C128_reported` | S N F |
| `C128_returned` | S N F C |
| `C128_no_scene` | S N F |
| `C128_least` | S N F C |
| `C117_kuka_oracle` | S N F |
| `C118_puma_joints_refuted` | S N F |
| `C118_puma_wrist_partial` | S N F |
| `C118_puma_collision_refuted` | S N F |
| `C118_puma_proper` | S N F |
| `C119_plot_partial` | S N F |
| `C119_same_boxes` | S N F |
| `C119_drawn` | S N F |
| `C119_base_refuted` | S N F |
| `C120_animation` | S N F |
| `C45_puma` | S N F |
| `C118_puma_cylinder` | S N F |
| `C121_stale_refuted` | S N F C |
| `C121_kuka_partial` | S N F C |
| `C121_rail_partial` | S N F C |
| `C122_no_scene_refuted` | S N F |
| `C122_position_refuted` | S N F |
| `C122_position_file_refuted` | S N F |
| `C122_unreachable_refuted` | S N F C |
| `C122_works_partial` | S N F C |
| `C123_layout` | S F |
| `C136_names` | S N F |
| `C136_scene` | S N F |
| `C136_paths` | S N F |
| `C136_path_partial` | S N F |
| `C136_path_refuted` | S N F |
| `C136_frames` | S N F |
| `C136_messages` | S N F |
| `C136_all_messages` | S N F |
| `C136_no_paths` | S N F |
| `C136_missing` | S N F |
| `C124_random_refuted` | closed |
| `C124_near_refuted` | S N F |
| `C124_imported_partial` | S N F |
| `C125_half_angle` | S N F C |
| `C125_metric` | S N F C |
| `C126_optimal` | S N F C |
| `C126_poses` | S N F C |
| `C126_complete` | S N F C |
| `C126_still` | S N F C |
| `C127_angles_refuted` | S N F C |
| `C127_sums_partial` | S N F C |
| `C127_poses` | S N F |
| `C127_table_fk` | S N F |
| `C127_table_top` | S N F |
| `C130_fk` | S N F C |
| `C130_double` | S N F C |
| `C130_arms` | S N F C |
| `C130_kuka` | S N F C |
| `C130_rounded` | S N F C |
| `C130_state` | S |
| `C131_bfs_near_optimal` | S N F C |
| `C131_bfs_practical` | S N F C |
| `C131_dijkstra_cost` | S N F C |
| `C132_l1_refuted` | S N F C |
| `C132_squares_partial` | S F |
| `C133_between_refuted` | S N F |
| `C133_rounded_refuted` | S N F C |
| `C133_between_partial` | S N F C |
| `C133_rounded_partial` | S N F C |
| `C134_mount` | S N F |
| `C134_tip` | S N F |
| `C134_kuka_link5` | S N F C |
| `C134_rail_link5` | S N F C |
| `C134_kuka_link6` | S N F |
| `C134_self_collision` | S N F C |
| `C134_workpiece` | S N F |
| `C134_plates` | S N F |
| `C101_kuka_dimensions` | S N F |
| `C101_rail_dimensions_partial` | S N F |
| `C101_wrist_boxes` | S N F |
| `C101_wrist_refuted` | S N F |
| `C101_spherical_refuted` | S N F |
| `C101_spherical_partial` | S N F |
| `C137_images` | S N F |
| `C137_onto` | S N F C |
| `C137_every_rotation` | S N F C |
| `C137_once` | S N F |
| `C137_volume` | S N F |
| `C137_halton_near` | S N F C |
| `C137_halton_dense` | S N F C |
| `C138_boxes` | S F |
| `C138_near` | S F |
| `C135_path` | S N F |
| `C135_scene` | S F |
| `C135_clearance` | S N F |
| `C135_aim` | S N F |
| `C135_no_sample_aims` | S N F |
| `C135_into_corner` | S N F |
| `C135_flat_hits` | S N F C |
| `C135_down_free` | S N F C |
| `C139_check` | S N F C |
| `C139_double` | S N F C |
| `C139_kuka` | S N F C |
| `C140_frame_short` | S N F |
| `C140_frame_long` | S N F |
| `C140_tolerance_short` | closed |
| `C140_tolerance_long` | closed |
| `C140_no_path` | S N F |
| `C140_no_obstacles` | S N F |
| `C140_no_paths` | S N F |
| `C140_no_object` | S N F |
| `C140_scalar_list` | S N F |
| `C140_circle_negative` | S N F |
| `C140_line_negative` | S F |
| `C140_cost_shapes` | S N F C |
| `C140_start_outside` | closed |
| `C140_target_outside` | closed |
| `C140_path_data` | closed |
| `C140_extract_short` | closed |
| `C140_pack` | closed |
| `C140_shape_multi` | closed |
| `C140_fk_short` | S |
| `C140_fk_unknown` | S |
| `C140_plot_stops` | S N F |
| `C140_read3` | S |
| `C140_cyclic` | S N F |
| `C140_no_nominal` | S N F |
| `C78_no_scene` | S N F |
| `C146_kuka_extents` | S N F |
| `C146_rail_extents` | S N F |
| `C146_anthropomorphic_extents` | S F |
| `C146_workpiece_extent` | S N F |
| `C104_seam_axis1` | S N F |
| `C104_seam_axis2` | S N F |
| `C104_seam_axis3` | S N F |
| `C146_scene1_extent` | S F |
| `C146_scene2_extent` | S F |
| `C122_unloaded_refuted` | S N F |
| `C147_axis_position` | S N F |
| `C147_tolerance_flags` | closed |
| `C147_mixed_types` | closed |
| `C147_resample` | closed |
| `C147_cost2_short` | closed |
| `C147_empty_graph` | closed |
| `C147_ik_raises` | S N F |
| `C147_ik_simple_raises` | S N F |
| `C147_kuka_short` | S N F C |
| `C147_rail_short` | S N F C |
| `C147_load_only` | S N F |
| `C147_load_refused` | S N F |
| `C147_circle_axis` | S N F |
| `C147_box_size` | S N F |
| `C141_cover` | S N F C |
| `C141_dense` | S N F C |
| `C141_same` | S N F |
| `C141_random_refuted` | S N F |
| `C142_bfs` | S N F C |
| `C142_dijkstra` | S N F C |
| `C142_few_samples_refuted` | S N F C |
| `C143_near_optimal` | S N F C |
| `C143_cost` | S N F C |
| `C144_ik_continuous` | S N F C |
| `C145_margin` | S N F |
| `C145_open` | S N F C |
| `C145_check_open` | S N F C |
| `C170_bfs_is_visits` | closed |
| `C170_dijkstra_is_visits` | closed |
| `C170_unvisited` | closed |
| `C170_sort_function` | closed |
| `C170_set_graph_data` | closed |
| `C170_index_fits` | closed |
| `C170_index_overflows` | closed |
| `C170_cost_function_metric` | S F |
| `C170_cost_function_2_triangle_refuted` | S F |
| `C170_l1_outside` | S F |
| `C148_full_turn_refuted` | S N F C |
| `C149_iterative_sound` | S N F C |
| `C149_positions_kept` | S N F C |
| `C149_positions_drift` | S N F C |
| `C149_one_iteration` | S N F C |
| `C149_prefix` | S N F C |
| `C150_cost_grows_refuted` | S N F C |
| `C150_success_lost_refuted` | S N F C |
| `C150_published_refuted` | S N F C |
| `C150_kept_partial` | S N F C |
| `C150_costs_descend_partial` | S N F C |
| `C151_incremental_sound` | S N F C |
| `C151_columns` | S N F C |
| `C151_draws` | S N F C |
| `C151_first_only` | S N F |
| `C151_ends_partial` | S N F C |
| `C151_never_ends` | S N F C |
| `C151_reachable_refuted` | S N F C |
| `C152_ik` | S N F C |
| `C152_double` | S N F C |
| `C152_roundtrip` | S N F C |
| `C152_rounded` | S N F C |
| `C153_samples` | S N F C |
| `C153_plan` | S N F C |
| `C153_columns` | S N F C |
| `C153_found` | S N F C |
| `C154_rows` | S N F C |
| `C154_angles` | S N F C |
| `C154_columns` | S N F C |
| `C154_found` | S N F C |
| `C155_value` | S N F C |
| `C155_range` | S N F C |
| `C155_cosine` | S N F C |
| `C155_symmetric` | S N F C |
| `C155_sign` | S N F C |
| `C155_zero` | S N F C |
| `C155_triangle` | S N F C |
| `C155_search` | S N F C |
| `C155_other_lengths_refuted` | S N F C |
| `C146_planar_corners` | S F |
| `C147_value_only` | closed |
| `C147_value_none` | closed |
| `C147_value_mismatch` | closed |
| `C147_three_sizes` | S N F |
| `C147_helper_short` | S N F C |
| `C147_passage_blocked` | S N F C |
| `C147_table_raises` | S N F |
| `C156_scenes` | S N F |
| `C156_obstacle` | S N F |
| `C156_same` | S N F |
| `C156_moved` | S N F |
| `C156_line` | S N F |
| `C156_passage` | S N F |
| `C156_x_tol` | S N F |
| `C156_circle` | S N F |
| `C156_box` | S N F |
| `C156_industrial` | S N F |
| `C156_torch` | S N F |
| `C156_not_joined` | S N F |
| `C156_pitch_units` | S N F C |
| `C156_other_tilt` | S N F C |
| `C157_industrial` | S N F |
| `C157_obstacle` | S N F C |
| `C157_industrial_plan` | S N F C |
| `C157_obstacle_plan` | S N F C |
| `C157_in_box` | S N F |
| `C157_editor` | S N F C |
| `C158_upright` | S N F C |
| `C158_none` | S N F C |
| `C158_still` | S N F C |
| `C158_robot` | S N F |
| `C131_overflow64` | S N F C |
| `C131_overflow32` | S N F C |
| `C134_boxes` | S N F |
| `C147_plot_path` | S N F |
| `C147_animate_short` | S N F |
| `C147_puma_short` | S N F |
| `C147_turns_short` | S N F |
| `C147_rail_unknown` | S N F C |
| `C147_import_bare` | S N F |
| `C147_ragged` | closed |
| `C147_broadcast` | closed |
| `C159_rows` | S N F C |
| `C159_up` | S N F |
| `C159_rows_hit` | S N F C |
| `C159_guess` | S N F C |
| `C159_feasible` | S N F C |
| `C159_built` | S N F |
| `C159_run` | S N F C |
| `C159_returned` | S N F C |
| `C131_precision64` | S N F C |
| `C131_precision32` | S N F C |
| `C147_grid_short` | S N F |
| `C147_object_xyz` | S N F |
| `C160_quat_graph` | S N F C |
| `C160_tool_first_raises` | closed |
| `C160_tool_first` | S N F C |
| `C160_tool_first_found` | S N F C |
| `C160_refine_never` | S N F C |
| `C160_refine_raises` | S N F C |
| `C160_ends` | S N F C |
| `C160_succeeds` | S N F C |
| `C160_line_ends` | S N F C |
| `C160_line_sound` | S N F C |
| `C160_weld` | S N F C |
| `C160_refine_lost` | S N F C |
| `C160_refine_ends` | S N F C |
| `C160_floor` | S N F |
| `C147_no_columns` | closed |
| `C147_no_points` | closed |
| `C147_no_graph` | closed |
| `C147_free_table` | S N F |
| `C161_axes` | S F |
| `C161_tripod` | S F |
| `C161_default` | S F |
| `C161_moves` | S F |
| `C162_drawn` | S N F |
| `C162_last` | S N F |
| `C162_links` | S N F |
| `C162_again` | S N F |
| `C162_short` | S N F |
| `C162_no_links` | S N F |
| `C163_task` | S N F |
| `C163_points` | S N F |
| `C163_short` | S N F |
| `C163_euler` | S N F |
| `C163_multiple_paths` | S N F |
| `C164_last_refuted` | S N F C |
| `C164_optimal_partial` | S N F C |
| `C164_returns` | S N F C |
| `C164_goal` | S N F C |
| `C165_export` | S N F |
| `C165_passage` | S N F |
| `C165_text` | S N F |
| `C166_picture` | S N F C |
| `C168_anthropomorphic` | S N F C |
| `C168_arm2` | S N F C |
| `C168_wrist` | S N F C |
| `C168_kuka` | S N F C |
| `C168_rail` | S N F C |
| `C168_self_collision` | S N F C |
| `C168_collision` | S N F C |
| `C168_vertices` | S F |
| `C168_polyhedron` | S F |
| `C168_boxes` | S N F |
| `C168_task` | S N F |
| `C168_discretise` | S F |
| `C168_samplers` | S N F |
| `C168_free_samples` | S N F |
| `C168_dp` | closed |
| `C168_graph` | closed |
| `C168_pygraph` | closed |
| `C168_planning_task` | S N F |
| `C18_two_columns_partial` | closed |
| `C18_two_columns_real_partial` | S F |
| `C18_three_columns_refuted` | closed |
| `C18_two_columns_negative_refuted` | closed |
| `C171_ranges` | S N F |
| `C171_drag` | S N F |
| `C171_tie` | S N F |
| `C171_line_follows` | S N F |
| `C171_before_moving` | S N F |
| `C171_reset` | S N F |
| `C171_color` | S N F |
| `C169_pygraph_avoids_nan` | closed |
| `C169_cpp_bfs_avoids_nan` | closed |
| `C169_cpp_dijkstra_reads_nan_as_infinite` | closed |
| `C169_dp_returns_nan` | closed |
| `C169_dp_without_nan` | closed |
| `C172_ik` | S N F C |
| `C172_branches` | S N F C |
| `C172_folded` | S N F C |
| `C172_roundtrip` | S N F C |
| `C173_ik` | S N F C |
| `C173_far` | S N F C |
| `C173_roundtrip` | S N F C |
| `C123_cells` | S F |
| `C123_none` | S F |

## 8. Checking the theorems against wrong programs

`seeded/LOG.jsonl` has one line per attempt: a realistic bug is put into a model
definition in a scratch copy, everything is rebuilt, and the theorems that no
longer prove are recorded.  When nothing failed, the theorem was tightened or
the reason is given.


The entries with ids `A<n>_`, `FI_`, `IT_`, `FP_` and `Rail<n>` are edits made by a
script.  For these the build stops at the first lemma that no longer compiles
(`lemmas_failed`), and `theorems_failed` lists the property theorems whose proofs
depend on that lemma.  This shows that the proofs notice the edit.  It does not
show that each listed statement became false: a proof script can also stop on an
edit that keeps the statement true.  Where this was noticed the entry has a note.
For `Rail<n>` only FloatRail.v and FloatRailProofs.v were rebuilt, and that C173_ik
becomes false was judged by reading, not proved.
For `Lay<n>` the negation of the listed theorem was proved for the edited
definition, with proof scripts that fail on the unedited one.
