-Q theories Verif
theories/PyBase.v
theories/Cost.v
theories/CostFloat.v
theories/SpecPath.v
theories/Dp.v
theories/DpProofs.v
theories/PropDp.v
theories/GraphCommon.v
theories/PyGraph.v
theories/GraphProofs.v
theories/GraphWalks.v
theories/PyGraphProofs.v
theories/PyGraphSeg.v
theories/PyCost.v
theories/PyGraphMain.v
theories/PropPyGraph.v
theories/CppGraph.v
theories/CppGraphProofs.v
theories/CppSearch.v
theories/CppHeap.v
theories/CppHeapOrder.v
theories/CppMain.v
theories/CppExamples.v
theories/CppFinal.v
theories/PropCppGraph.v
theories/CppMem.v
theories/CppMemProofs.v
theories/CppMemRuns.v
theories/CppMemStale.v
theories/PropCppMem.v
theories/Planning.v
theories/PlanningProofs.v
theories/PlanningCart.v
theories/PlanningIter.v
theories/PlanningToy.v
theories/PropPlanning.v
theories/Mat.v
theories/Util.v
theories/UtilProofs.v
theories/HaltonProofs.v
theories/PropUtil.v
theories/Geometry.v
theories/GeometryProofs.v
theories/PropGeometry.v
theories/Robot.v
theories/RobotProofs.v
theories/RobotForms.v
theories/PropRobot.v
theories/Ik.v
theories/IkProofs.v
theories/KukaProofs.v
theories/RailProofs.v
theories/IkCases.v
theories/PropIk.v
theories/Path.v
theories/PathProofs.v
theories/PropPath.v
theories/Optim.v
theories/OptimProofs.v
theories/PropOptim.v
theories/Io.v
theories/IoProofs.v
theories/PropIo.v
theories/Urdf.v
theories/UrdfProofs.v
theories/PropUrdf.v
theories/Resources.v
theories/ResourcesProofs.v
theories/TaskProofs.v
theories/PropResources.v
theories/Pipeline.v
theories/PipelineProofs.v
theories/PipelineRail.v
theories/PipelineExamples.v
theories/PropPipeline.v
theories/Motion.v
theories/MotionKuka.v
theories/PropMotion.v
theories/Separate.v
theories/OptimDual.v
theories/PropOptimDual.v
theories/Puma.v
theories/PumaProofs.v
theories/Plot.v
theories/PlotProofs.v
theories/PropPlot.v
theories/PumaForm.v
theories/PropPuma.v
theories/Gui.v
theories/GuiProofs.v
theories/GuiKuka.v
theories/GuiLayout.v
theories/PropGui.v
theories/GuiFiles.v
theories/PropGuiFiles.v
theories/Examples.v
theories/ExamplesProofs.v
theories/ExamplesTable.v
theories/PropExamples.v
theories/FloatFk.v
theories/FloatFkProofs.v
theories/FloatColl.v
theories/PropFloatFk.v
theories/FloatCost.v
theories/FloatCostProofs.v
theories/PropFloatCost.v
theories/MotionGap.v
theories/PropMotionGap.v
theories/Mount.v
theories/PropMount.v
theories/Cover.v
theories/PropCover.v
theories/HaltonBox.v
theories/Uniform.v
theories/UniformHalton.v
theories/PropUniform.v
theories/Kingpin.v
theories/KingpinProofs.v
theories/PropKingpin.v
theories/FloatCollProofs.v
theories/PropFloatColl.v
theories/ErrorProofs.v
theories/ErrorProofs2.v
theories/Extents.v
theories/PropErrors.v
theories/PropErrors2.v
theories/LocalIk.v
theories/Margin.v
theories/GridCover.v
theories/Resolution.v
theories/ResolutionExamples.v
theories/PropResolution.v
theories/Turn.v
theories/Iterative.v
theories/IterativeProofs.v
theories/IterativeExamples.v
theories/IterativeKept.v
theories/CppUnused.v
theories/CppUnusedProofs.v
theories/PropUnused.v
theories/PropIterative.v
theories/FloatIk.v
theories/FloatIkProofs.v
theories/FloatIkArm.v
theories/FloatIkWrist.v
theories/FloatIkKuka.v
theories/FloatIkDouble.v
theories/PropFloatIk.v
theories/FloatPlan.v
theories/FloatPlanProofs.v
theories/FloatPlanExamples.v
theories/PropFloatPlan.v
theories/FloatIkAll.v
theories/FloatPlanAll.v
theories/FloatPlanAllExamples.v
theories/PropFloatIkAll.v
theories/PyCostProofs.v
theories/PropPyCost.v
theories/ErrorProofs3.v
theories/PropErrors3.v
theories/Tasks.v
theories/TasksProofs.v
theories/TorchProofs.v
theories/PropTasks.v
theories/ErrorProofs4.v
theories/PropErrors4.v
theories/OptScript.v
theories/OptScriptProofs.v
theories/PropOptScript.v
theories/ErrorProofs5.v
theories/PropErrors5.v
theories/Scripts.v
theories/ScriptsPose.v
theories/ScriptsProofs.v
theories/IncAgain.v
theories/ScriptsRuns.v
theories/ScriptsMore.v
theories/PropScripts.v
theories/PropScripts2.v
theories/ErrorProofs6.v
theories/PropErrors6.v
theories/Draw.v
theories/DrawProofs.v
theories/PropDraw.v
theories/Suite.v
theories/SuiteProofs.v
theories/SuiteDraw.v
theories/PropSuite.v
theories/PropSuiteDraw.v
theories/CppTwo.v
theories/PropCppTwo.v
theories/GuiTemplate.v
theories/GuiTemplateProofs.v
theories/PropGuiTemplate.v
theories/Nan.v
theories/NanProofs.v
theories/PropNan.v
theories/FloatAnthro.v
theories/FloatAnthroProofs.v
theories/PropFloatAnthro.v
theories/FloatRail.v
theories/FloatRailProofs.v
theories/FloatRailDouble.v
theories/PropFloatRail.v
