-Q theories Verif
theories/Py.v
theories/NdArray.v
theories/PyStr.v
theories/M_Primitives.v
theories/M_Utilities.v
theories/S_Layout.v
theories/L_Utilities.v
theories/L_Layout.v
theories/Props_Layout.v
theories/M_ScenarioHeap.v
theories/L_Scenario.v
theories/M_Simulate.v
theories/L_Simulate.v
theories/Props_Scenario.v
theories/M_Expand.v
theories/S_Markers.v
theories/L_Markers.v
theories/S_Expand.v
theories/M_ExpandHeap.v
theories/L_Expand.v
theories/L_Expand2.v
theories/L_Unpacked.v
theories/M_Equations.v
theories/L_Equations.v
theories/L_Dims.v
theories/Props_Expand.v
theories/M_Registry.v
theories/S_Registry.v
theories/L_Registry.v
theories/L_Registry2.v
theories/L_Lookup.v
theories/Props_Registry.v
theories/M_Results.v
theories/L_Results.v
theories/S_Results.v
theories/L_Results2.v
theories/Props_Results.v
theories/M_Wrappers.v
theories/L_Wrappers.v
theories/M_Graph.v
theories/S_Graph.v
theories/L_Graph.v
theories/M_SimResult.v
theories/L_SimResult.v
theories/Props_Wrappers.v
theories/Props_Graph.v
theories/Props_SimResult.v
theories/M_Euler.v
theories/L_Euler.v
theories/L_Euler2.v
theories/S_Euler.v
theories/L_Euler3.v
theories/Props_Euler.v
theories/M_Newton.v
theories/S_Newton.v
theories/L_Newton.v
theories/Props_Newton.v
theories/M_Rebalance.v
theories/S_Rebalance.v
theories/L_Rebalance.v
theories/L_Rebalance2.v
theories/L_Rebalance3.v
theories/Props_Rebalance.v
theories/M_Plotting.v
theories/L_Plotting.v
theories/M_Output.v
theories/S_Output.v
theories/L_Output.v
theories/L_Output2.v
theories/M_Build.v
theories/S_Build.v
theories/L_Build.v
theories/Props_Build.v
theories/Props_Output.v
theories/Props_Plotting.v
theories/M_PyExpr.v
theories/S_PyExpr.v
theories/L_PyExpr.v
theories/S_Meaning.v
theories/L_Meaning.v
theories/M_Production.v
theories/S_Production.v
theories/L_Production.v
theories/L_Production2.v
theories/L_Production3.v
theories/L_Production4.v
theories/L_Production5.v
theories/L_Production6.v
theories/L_Production7.v
theories/L_ProdExamples.v
theories/Props_Parsing.v
theories/Props_Production.v
theories/M_SymExpr.v
theories/S_Reduce.v
theories/L_Reduce.v
theories/L_Reduce2.v
theories/L_Reduce3.v
theories/L_Reduce4.v
theories/L_Reduce5.v
theories/Props_Reduce.v
theories/M_Calculus.v
theories/S_Calculus.v
theories/L_Calculus.v
theories/L_Calculus2.v
theories/Props_Calculus.v
theories/S_Lambdify.v
theories/M_Lambdify.v
theories/L_Lambdify.v
theories/M_NumbaStep.v
theories/L_NumbaStep.v
theories/Props_NumbaStep.v
theories/L_Lambdify2.v
theories/Props_Lambdify.v
theories/M_Recursive.v
theories/S_Recursive.v
theories/L_Recursive.v
theories/L_Recursive2.v
theories/Props_Recursive.v
theories/M_NumbaSource.v
theories/S_NumbaSource.v
theories/L_NumbaSource.v
theories/L_NumbaSource2.v
theories/Props_NumbaSource.v
theories/M_Simplify.v
theories/S_Simplify.v
theories/L_Simplify.v
theories/L_Simplify2.v
theories/Props_Simplify.v
theories/M_Jacobian.v
theories/S_Jacobian.v
theories/L_Jacobian.v
theories/L_Jacobian2.v
theories/Props_Jacobian.v
theories/M_Indices.v
theories/S_Indices.v
theories/L_Indices.v
theories/L_Symbols.v
theories/Props_Indices.v
theories/M_NumbaModel.v
theories/S_NumbaModel.v
theories/L_NumbaModel.v
theories/Props_NumbaModel.v
theories/M_Tensor.v
theories/S_Tensor.v
theories/L_Tensor.v
theories/L_Tensor2.v
theories/L_Tensor3.v
theories/L_Tensor4.v
theories/L_Tensor5.v
theories/L_Tensor6.v
theories/L_Production8.v
theories/Props_Tensor.v
theories/Props_ProdTensor.v
theories/M_ArrayModel.v
theories/S_ArrayModel.v
theories/L_ArrayModel.v
theories/L_ArrayModel2.v
theories/L_ArrayModel3.v
theories/Props_ArrayModel.v
theories/M_SympyTensor.v
theories/S_SympyTensor.v
theories/L_SympyTensor.v
theories/L_SympyTensor2.v
theories/Props_SympyTensor.v
theories/M_Calibrate.v
theories/S_Calibrate.v
theories/L_Calibrate.v
theories/Props_Calibrate.v
theories/M_Tables.v
theories/S_Tables.v
theories/L_Tables.v
theories/Props_Tables.v
theories/M_Finalize.v
theories/S_Finalize.v
theories/L_Finalize.v
theories/Props_Finalize.v
theories/M_Stats.v
theories/S_Stats.v
theories/L_Stats.v
theories/Props_Stats.v
theories/M_Greek.v
theories/S_Greek.v
theories/L_Greek.v
theories/Props_Greek.v
theories/M_PlotLines.v
theories/S_PlotLines.v
theories/L_PlotLines.v
theories/Props_PlotLines.v
theories/M_Solve.v
theories/S_Solve.v
theories/L_Solve.v
theories/Props_Solve.v
theories/S_Solved.v
theories/L_Solved.v
theories/L_Solved2.v
theories/Props_Solved.v
theories/L_Solved3.v
theories/Props_Solved2.v
theories/M_Run.v
theories/S_Run.v
theories/L_Run.v
theories/Props_Run.v
theories/M_NoZero.v
theories/S_NoZero.v
theories/L_NoZero.v
theories/Props_NoZero.v
theories/M_Piecewise.v
theories/S_Piecewise.v
theories/L_Piecewise.v
theories/Props_Piecewise.v
theories/M_PlotBars.v
theories/S_PlotBars.v
theories/L_PlotBars.v
theories/Props_PlotBars.v
theories/M_Nodes.v
theories/S_Nodes.v
theories/L_Nodes.v
theories/Props_Nodes.v
theories/M_Info.v
theories/S_Info.v
theories/L_Info.v
theories/Props_Info.v
theories/M_PlotTogether.v
theories/L_PlotTogether.v
theories/Props_PlotTogether.v
theories/M_Inputs.v
theories/S_Inputs.v
theories/L_Inputs.v
theories/Props_Inputs.v
theories/M_Dummy.v
theories/S_Dummy.v
theories/L_Dummy.v
theories/Props_Dummy.v
theories/M_Declare.v
theories/S_Declare.v
theories/L_Declare.v
theories/Props_Declare.v
theories/M_Modes.v
theories/L_Modes.v
theories/Props_Modes.v
theories/M_PlotGiven.v
theories/S_PlotGiven.v
theories/L_PlotGiven.v
theories/Props_PlotGiven.v
theories/M_Ops.v
theories/S_Ops.v
theories/L_Ops.v
theories/Props_Ops.v
theories/M_Order.v
theories/S_Order.v
theories/L_Order.v
theories/Props_Order.v
theories/M_Parse.v
theories/S_Parse.v
theories/L_Parse.v
theories/L_Parse2.v
theories/L_Parse3.v
theories/L_Parse4.v
theories/Props_Parse.v
theories/S_Written.v
theories/L_Written.v
theories/L_Written2.v
theories/L_Written3.v
theories/Props_Written.v
theories/S_Scale.v
theories/L_Scale.v
theories/L_Scale2.v
theories/Props_Scale.v
theories/S_Numeraire.v
theories/L_Numeraire.v
theories/Props_Numeraire.v
theories/M_Access.v
theories/S_Access.v
theories/L_Access.v
theories/Props_Access.v
theories/S_Converge.v
theories/L_Converge.v
theories/L_Converge2.v
theories/Props_Converge.v
theories/S_Kantorovich.v
theories/L_Kantorovich.v
theories/L_Kantorovich2.v
theories/Props_Kantorovich.v
theories/M_Kink.v
theories/S_Kink.v
theories/L_Kink.v
theories/Props_Kink.v
theories/M_NumbaEuler.v
theories/S_Trace.v
theories/L_Trace.v
theories/L_Trace2.v
theories/L_Trace3.v
theories/L_Trace4.v
theories/L_Trace5.v
theories/Props_Trace.v
theories/S_NewtonNear.v
theories/L_NewtonNear.v
theories/L_NewtonNear2.v
theories/Props_NewtonNear.v
theories/L_SmallShock.v
theories/L_SmallShock2.v
theories/Props_SmallShock.v
theories/S_AllEuler.v
theories/L_AllEuler.v
theories/Props_AllEuler.v
theories/S_PriceLevel.v
theories/L_PriceLevel.v
theories/Props_PriceLevel.v
theories/S_Walras.v
theories/L_Walras.v
theories/Props_Walras.v
theories/S_Stationary.v
theories/L_Stationary.v
theories/Props_Stationary.v
theories/S_Backtrack.v
theories/L_Backtrack.v
theories/Props_Backtrack.v
theories/M_NewtonNan.v
theories/S_NewtonNan.v
theories/L_NewtonNan.v
theories/Props_NewtonNan.v
theories/S_Units.v
theories/L_Units.v
theories/L_Units2.v
theories/L_Units3.v
theories/Props_Units.v
theories/L_NumbaRows.v
theories/Props_NumbaRows.v
theories/S_Parse2.v
theories/L_Parse5.v
theories/Props_Parse2.v
theories/L_ListArrays.v
theories/Props_ListArrays.v
