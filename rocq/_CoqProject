-Q theories Verif
theories/L_Aero.v
theories/L_Again.v
theories/L_AgainProps.v
theories/L_AgainRun.v
theories/L_Airfoil.v
theories/L_Analysis.v
theories/L_AnalysisExample.v
theories/L_AnalysisExample2.v
theories/L_AnySolver.v
theories/L_Apart.v
theories/L_ApartExample.v
theories/L_ApartHorseshoe.v
theories/L_ApartRing.v
theories/L_ApartRun.v
theories/L_Arrays.v
theories/L_Averages.v
theories/L_AveragesExample.v
theories/L_Base.v
theories/L_BiotSavart.v
theories/L_Camber.v
theories/L_Causal.v
theories/L_CausalExample.v
theories/L_CausalMovement.v
theories/L_Chord.v
theories/L_Continuous.v
theories/L_ContinuousDefault.v
theories/L_ContinuousDefaultRun.v
theories/L_ContinuousExample.v
theories/L_ContinuousFlight.v
theories/L_ContinuousMovement.v
theories/L_ContinuousMovementRun.v
theories/L_ContinuousRing.v
theories/L_ContinuousRun.v
theories/L_ContinuousShape.v
theories/L_ContinuousShapeExample.v
theories/L_ContinuousStep.v
theories/L_ContinuousUnsteady.v
theories/L_ContinuousVertical.v
theories/L_ContinuousWalk.v
theories/L_Contour.v
theories/L_Convergence.v
theories/L_Cycles.v
theories/L_CyclesExample.v
theories/L_Decay.v
theories/L_Divide.v
theories/L_DivideExample.v
theories/L_DivideMove.v
theories/L_DivideRun.v
theories/L_DivideUnsteady.v
theories/L_Dominant.v
theories/L_Example.v
theories/L_Example2.v
theories/L_Example3.v
theories/L_Example4.v
theories/L_Example5.v
theories/L_Example6.v
theories/L_Files.v
theories/L_FlapExample.v
theories/L_FloatExample.v
theories/L_FloatSteps.v
theories/L_Floats.v
theories/L_Flow.v
theories/L_Flow2.v
theories/L_Flow3.v
theories/L_FlowExample.v
theories/L_FlowSolvers.v
theories/L_FlowUnsteady.v
theories/L_Frames.v
theories/L_FreeWake.v
theories/L_Functions.v
theories/L_Gaps.v
theories/L_Gauss.v
theories/L_Geometry.v
theories/L_Grazing.v
theories/L_GrazingExample.v
theories/L_GrazingLoads.v
theories/L_GrazingProps.v
theories/L_GrazingRun.v
theories/L_Horseshoe.v
theories/L_ImageExample.v
theories/L_ImageFinal.v
theories/L_ImageFlow.v
theories/L_ImageGeometry.v
theories/L_ImageMovement.v
theories/L_ImageNets.v
theories/L_ImagePlaces.v
theories/L_ImageRun.v
theories/L_ImageSteps.v
theories/L_ImageWake.v
theories/L_Labels.v
theories/L_LabelsUnsteady.v
theories/L_Limits.v
theories/L_Loads.v
theories/L_Meshing.v
theories/L_Mirror.v
theories/L_MirrorHorseshoe.v
theories/L_MirrorRing.v
theories/L_Movement.v
theories/L_Names.v
theories/L_NoLoads.v
theories/L_OnlyFinal.v
theories/L_Options.v
theories/L_Order.v
theories/L_OrderExample.v
theories/L_Output.v
theories/L_OutputExample.v
theories/L_OwnPoints.v
theories/L_Pairs.v
theories/L_Panel.v
theories/L_PanelVelocity.v
theories/L_Planform.v
theories/L_PlanformChords.v
theories/L_PlanformExample.v
theories/L_PlanformWing.v
theories/L_Print.v
theories/L_Problems.v
theories/L_Progress.v
theories/L_Reference.v
theories/L_ReferenceFinal.v
theories/L_ReferenceMovement.v
theories/L_ReferenceRun.v
theories/L_ReferenceUnsteady.v
theories/L_Remesh.v
theories/L_Rerun.v
theories/L_Rigid.v
theories/L_RigidExample.v
theories/L_RigidShift.v
theories/L_RigidSolvers.v
theories/L_RingLegs.v
theories/L_Rotations.v
theories/L_Scaling.v
theories/L_Search.v
theories/L_Similar.v
theories/L_SimilarExample.v
theories/L_SimilarMovement.v
theories/L_SimilarRun.v
theories/L_Size.v
theories/L_SizeExample.v
theories/L_SizeMovement.v
theories/L_SizeRun.v
theories/L_SizeRunExample.v
theories/L_SizeSmall.v
theories/L_SizeSolvers.v
theories/L_SizeUnsteady.v
theories/L_SizeWing.v
theories/L_Snapshots.v
theories/L_Solvable.v
theories/L_SolvableExample.v
theories/L_SolvableFolded.v
theories/L_SolvableTwice.v
theories/L_Statements3.v
theories/L_Statements4.v
theories/L_Statements5.v
theories/L_Static.v
theories/L_SteadyRing.v
theories/L_Surface.v
theories/L_SymmetricExample.v
theories/L_SymmetricFlight.v
theories/L_Symmetry.v
theories/L_Tighten.v
theories/L_Trim.v
theories/L_Unsteady.v
theories/L_UnsteadyFinal.v
theories/L_UnsteadyFlow.v
theories/L_UnsteadyLoads.v
theories/L_UnsteadyProps.v
theories/L_UnsteadyProps2.v
theories/L_UnsteadyRun.v
theories/L_UnsteadyStep.v
theories/L_UnsteadyStill.v
theories/L_UnsteadyTrim.v
theories/L_Wake.v
theories/L_WakeGap.v
theories/L_WakeWings.v
theories/M_Aero.v
theories/M_Airfoil.v
theories/M_Arrays.v
theories/M_Base.v
theories/M_Convergence.v
theories/M_Files.v
theories/M_Floats.v
theories/M_Functions.v
theories/M_Geometry.v
theories/M_Horseshoe.v
theories/M_Loads.v
theories/M_Meshing.v
theories/M_Movement.v
theories/M_OperatingPoint.v
theories/M_Output.v
theories/M_Panel.v
theories/M_Progress.v
theories/M_SteadyRing.v
theories/M_Trim.v
theories/M_Unsteady.v
theories/M_Vortices.v
theories/P_Again.v
theories/P_Airfoil.v
theories/P_AnySolver.v
theories/P_Apart.v
theories/P_Arrays.v
theories/P_Averages.v
theories/P_Causal.v
theories/P_Continuous.v
theories/P_ContinuousMovement.v
theories/P_ContinuousShape.v
theories/P_ContinuousUnsteady.v
theories/P_Convergence.v
theories/P_Cycles.v
theories/P_Divide.v
theories/P_Files.v
theories/P_Floats.v
theories/P_Flow.v
theories/P_Functions.v
theories/P_Geometry.v
theories/P_Grazing.v
theories/P_Image.v
theories/P_Labels.v
theories/P_Loads.v
theories/P_Movement.v
theories/P_OperatingPoint.v
theories/P_Options.v
theories/P_Order.v
theories/P_Output.v
theories/P_OwnPoints.v
theories/P_Panel.v
theories/P_PanelVelocity.v
theories/P_Planform.v
theories/P_Progress.v
theories/P_Reference.v
theories/P_Rigid.v
theories/P_Similar.v
theories/P_Size.v
theories/P_SizeUnsteady.v
theories/P_Solvable.v
theories/P_Steady.v
theories/P_Streamlines.v
theories/P_Symmetry.v
theories/P_Trim.v
theories/P_Unsteady.v
theories/P_UnsteadyLoads.v
theories/P_Vortices.v
theories/S_Again.v
theories/S_Airfoil.v
theories/S_Apart.v
theories/S_Arrays.v
theories/S_Averages.v
theories/S_BiotSavart.v
theories/S_Causal.v
theories/S_Continuous.v
theories/S_ContinuousDefault.v
theories/S_ContinuousMovement.v
theories/S_ContinuousShape.v
theories/S_ContinuousUnsteady.v
theories/S_Convergence.v
theories/S_Cycles.v
theories/S_Divide.v
theories/S_Files.v
theories/S_Floats.v
theories/S_Flow.v
theories/S_Folded.v
theories/S_Geometry.v
theories/S_Grazing.v
theories/S_Image.v
theories/S_Labels.v
theories/S_Loads.v
theories/S_Mirror.v
theories/S_Movement.v
theories/S_Names.v
theories/S_Order.v
theories/S_Output.v
theories/S_Planform.v
theories/S_Progress.v
theories/S_Reference.v
theories/S_Rigid.v
theories/S_Similar.v
theories/S_Size.v
theories/S_SizeUnsteady.v
theories/S_Solvable.v
theories/S_Solve.v
theories/S_Streamlines.v
theories/S_Trim.v
theories/S_Unsteady.v
theories/S_UnsteadyRun.v
theories/S_Vortices.v
theories/S_Wing.v
