-Q theories Verif
theories/Base.v
theories/Num.v
theories/Serie.v
theories/Spec.v
theories/BaseFacts.v
theories/SerieFacts.v
theories/F64.v
theories/History.v
theories/Props_Serie.v
theories/Functional.v
theories/FunctionalFacts.v
theories/F64Facts.v
theories/Props_Functional.v
theories/Props_Filter.v
theories/Props_Fold.v
theories/Utils.v
theories/UtilsFacts.v
theories/Props_Merge.v
theories/Props_Partition.v
theories/Props_Zip.v
theories/OrderFacts.v
theories/Props_Sort.v
theories/Exec.v
theories/Props_Memo.v
theories/Props_Parallel.v
theories/Dataframe.v
theories/Props_Dataframe.v
theories/Mathf.v
theories/F64Arith.v
theories/MathFacts.v
theories/RNum.v
theories/MinMaxFacts.v
theories/Props_AddSub.v
theories/Props_MultDiv.v
theories/Props_Weighted.v
theories/Props_MinMax.v
theories/Props_Equals.v
theories/Props_Dimension.v
theories/Stats.v
theories/StatsFacts.v
theories/Props_Mean.v
theories/Props_Quantile.v
theories/Props_Bins.v
theories/Views.v
theories/Algebra.v
theories/AlgebraFacts.v
theories/LinSpec.v
theories/Props_Algebra.v
theories/Props_Det.v
theories/ViewFacts.v
theories/Props_Views.v
theories/Eigen.v
theories/EigenFacts.v
theories/JacobiSpec.v
theories/JacobiFacts.v
theories/Props_Eigen.v
theories/Geo.v
theories/Props_Grid.v
theories/Props_Geo.v
theories/Attributes.v
theories/Props_Manager.v
theories/Props_Components.v
theories/Props_Mesh.v
theories/Props_Resolve.v
theories/F64Round.v
theories/Random.v
theories/Props_Random.v
theories/Life.v
theories/Props_Life.v
theories/Props_F64Quantile.v
theories/Props_Names.v
theories/F64Sum.v
theories/Props_F64Normalize.v
theories/Props_F64Sum.v
theories/Streams.v
theories/Props_Streams.v
theories/Props_Shapes.v
theories/Props_F64Int.v
theories/Props_F64Cross.v
theories/Props_F64Grid.v
theories/Props_F64Norm.v
theories/Props_F64Weighted.v
theories/Examples.v
theories/Props_Examples.v
theories/Props_Source.v
theories/Props_Critical.v
theories/ExecMemo.v
theories/Props_ParMemo.v
theories/Props_Readme.v
theories/Props_F64Inv.v
theories/FrameDump.v
theories/Props_FrameDump.v
theories/Props_Tolerance.v
theories/Documented.v
theories/Props_Documented.v
theories/Props_Seeded.v
theories/Props_Empty.v
theories/Props_Constants.v
theories/F64Error.v
theories/F64Angle.v
theories/F64Rot.v
theories/F64Jacobi.v
theories/F64Step.v
theories/F64Sweep.v
theories/F64Eig.v
theories/Props_F64Eigen.v
theories/EigenExact.v
theories/Props_EigenValues.v
theories/Props_F64Bins.v
theories/Props_Order.v
theories/Props_Merged.v
theories/StressState.v
theories/Props_StressState.v
theories/Props_F64Det.v
theories/Props_F64Normals.v
theories/Props_Units.v
theories/Props_F64Fringes.v
theories/Props_EigenUnits.v
theories/Props_MeshTransform.v
theories/Props_F64QuantileErr.v
theories/F64Scale.v
theories/Props_F64Scale.v
theories/Helpers.v
theories/Props_Helpers.v
theories/Props_Laws.v
theories/Props_Close.v
theories/ToString.v
theories/Props_ToString.v
theories/Props_VecLaws.v
theories/Props_InvEigen.v
theories/SafeFacts.v
theories/Props_Safe.v
theories/Props_Ask.v
theories/SubAdd.v
theories/Props_SubAdd.v
theories/Make.v
theories/Props_Make.v
theories/Assertions.v
theories/Props_Assertions.v
theories/Props_F64Length.v
theories/DocComments.v
theories/Props_DocComments.v
theories/Props_Axes.v
theories/Props_F64Cov.v
theories/Props_Safe2.v
theories/Props_Programs.v
theories/Props_Throws.v
theories/Props_DataframeOrder.v
theories/Props_NaN.v
theories/Props_Parts.v
theories/UnitTests.v
theories/UnitTestsAttributes.v
