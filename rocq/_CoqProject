-Q theories Verif
theories/Prelude.v
theories/F64.v
theories/F64Facts.v
theories/Model_Thresholds.v
theories/Spec_Thresholds.v
theories/Proofs_Thresholds.v
theories/Props_Thresholds.v
theories/Model_Intersection.v
theories/Spec_Intersection.v
theories/Proofs_Intersection.v
theories/Props_Intersection.v
theories/Model_Mpi.v
theories/Spec_Mpi.v
theories/Proofs_MpiSem.v
theories/Proofs_Mpi.v
theories/Props_Mpi.v
theories/F64Order.v
theories/Model_Fit.v
theories/Spec_Fit.v
theories/Proofs_FitMpi.v
theories/Proofs_FitRuns.v
theories/Proofs_FitSerial.v
theories/Proofs_Fit.v
theories/Proofs_FitProps.v
theories/Proofs_FitDist.v
theories/Proofs_FitFind.v
theories/Props_Fit.v
theories/Num.v
theories/Model_Scores.v
theories/Spec_Scores.v
theories/Proofs_Scores.v
theories/Props_Scores.v
theories/Model_Rescale.v
theories/Model_Refit.v
theories/Spec_Rescale.v
theories/Proofs_Rescale.v
theories/Proofs_Refit.v
theories/Props_Rescale.v
theories/Model_Poisson.v
theories/Deriv.v
theories/Spec_Poisson.v
theories/Proofs_Poisson.v
theories/Proofs_PoissonOpt.v
theories/Proofs_PoissonFit.v
theories/Proofs_PoissonMore.v
theories/Props_Poisson.v
theories/Model_Logistic.v
theories/Spec_Logistic.v
theories/Proofs_Logistic.v
theories/Proofs_LogisticGrad.v
theories/Proofs_LogisticGrid.v
theories/Proofs_Multinomial.v
theories/Proofs_MultiGrid.v
theories/Proofs_LogisticIntercept.v
theories/Proofs_LogisticMain.v
theories/Proofs_LogisticEx.v
theories/Props_Logistic.v
theories/Model_Lbfgs.v
theories/Spec_Lbfgs.v
theories/Proofs_Lbfgs.v
theories/Proofs_LbfgsTrace.v
theories/Proofs_LbfgsVec.v
theories/Proofs_LbfgsReal.v
theories/Proofs_LbfgsTop.v
theories/Proofs_LbfgsDir.v
theories/Proofs_LbfgsDescent.v
theories/Proofs_LbfgsCurv.v
theories/Proofs_LbfgsMain.v
theories/Proofs_LbfgsOpts.v
theories/Proofs_LbfgsStop.v
theories/Proofs_LbfgsEx.v
theories/Proofs_LbfgsNan.v
theories/Props_Lbfgs.v
theories/Model_LogisticFit.v
theories/Spec_LogisticFit.v
theories/Proofs_LogisticAbandon.v
theories/Proofs_LogisticConvex.v
theories/Proofs_LogisticFit.v
theories/Proofs_LogisticOpt.v
theories/Proofs_LogisticMulti.v
theories/Proofs_LogisticL2.v
theories/Proofs_LogisticL2Ex.v
theories/Props_LogisticL2.v
theories/Proofs_LogisticLost.v
theories/Proofs_LogisticFitEx.v
theories/Props_LogisticFit.v
theories/Model_PoissonFit.v
theories/Proofs_PoissonNan.v
theories/Proofs_PoissonReset.v
theories/Proofs_PoissonGap.v
theories/Proofs_PoissonFitEx.v
theories/Props_PoissonFit.v
theories/Model_Cur.v
theories/Spec_Cur.v
theories/Proofs_Cur.v
theories/Proofs_CurFit.v
theories/Proofs_CurReal.v
theories/Proofs_CurMain.v
theories/Proofs_CurEx.v
theories/Props_Cur.v
theories/Model_Nmf.v
theories/Spec_Nmf.v
theories/Proofs_Nmf.v
theories/Proofs_NmfFit.v
theories/Proofs_NmfMain.v
theories/Proofs_NmfNan.v
theories/Proofs_NmfTrans.v
theories/Proofs_NmfEx.v
theories/Props_Nmf.v
theories/Model_Logging.v
theories/Spec_Logging.v
theories/Proofs_Logging.v
theories/Props_Logging.v
theories/Model_Pyc.v
theories/Spec_Pyc.v
theories/Proofs_Pyc.v
theories/Proofs_PycReal.v
theories/Props_Pyc.v
theories/Model_Datasets.v
theories/Spec_Datasets.v
theories/Proofs_Datasets.v
theories/Proofs_DatasetsMore.v
theories/Proofs_DatasetsF64.v
theories/Props_Datasets.v
theories/Model_Labels.v
theories/Spec_Labels.v
theories/Model_Options.v
theories/Spec_Options.v
theories/Proofs_Options.v
theories/Proofs_OptionsFit.v
theories/Props_Options.v
theories/Proofs_Labels.v
theories/Proofs_LabelScores.v
theories/Proofs_LabelTies.v
theories/Proofs_LabelPredict.v
theories/Proofs_LabelWeights.v
theories/Proofs_LabelMain.v
theories/Proofs_LabelL2.v
theories/Proofs_LabelEx.v
theories/Props_Labels.v
theories/Model_Linear.v
theories/Spec_Linear.v
theories/Proofs_Linear.v
theories/Proofs_LinearUnits.v
theories/Props_Linear.v
theories/Spec_Median.v
theories/Proofs_Median.v
theories/Props_Median.v
theories/Num64.v
theories/Proofs_Num64.v
theories/Spec_LbfgsFloat.v
theories/Proofs_LbfgsFloat.v
theories/Props_LbfgsFloat.v
theories/Spec_LbfgsQuad.v
theories/Proofs_LbfgsQuad1.v
theories/Proofs_LbfgsQuad2.v
theories/Proofs_LbfgsQuad3.v
theories/Props_LbfgsQuad.v
theories/Spec_LbfgsRate.v
theories/Proofs_LbfgsRate.v
theories/Proofs_LbfgsRate2.v
theories/Props_LbfgsRate.v
theories/Spec_LbfgsBack.v
theories/Proofs_LbfgsBack.v
theories/Props_LbfgsBack.v
theories/Spec_Softmax64.v
theories/Proofs_Softmax64.v
theories/Props_Softmax64.v
theories/Spec_LbfgsTrial.v
theories/Proofs_LbfgsTrial.v
theories/Props_LbfgsTrial.v
theories/Spec_LbfgsFall.v
theories/Proofs_LbfgsFall.v
theories/Props_LbfgsFall.v
theories/Spec_Columns.v
theories/Proofs_Columns.v
theories/Props_Columns.v
theories/Spec_Cone.v
theories/Proofs_Cone.v
theories/Props_Cone.v
theories/Model_Split.v
theories/Proofs_Split.v
theories/Props_Split.v
theories/Spec_Boots.v
theories/Proofs_Boots.v
theories/Props_Boots.v
theories/Model_Classes.v
theories/Spec_Classes.v
theories/Proofs_Classes.v
theories/Proofs_Classes2.v
theories/Props_Classes.v
theories/Spec_PoissonNull.v
theories/Proofs_PoissonNull.v
theories/Proofs_PoissonOverflow.v
theories/Props_PoissonNull.v
theories/Spec_ZeroColumn.v
theories/Proofs_ZeroColumn.v
theories/Props_ZeroColumn.v
theories/Spec_LbfgsRules.v
theories/Proofs_LbfgsRules1.v
theories/Proofs_LbfgsRules2.v
theories/Proofs_LbfgsRules3.v
theories/Proofs_LbfgsRules4.v
theories/Proofs_LbfgsRules5.v
theories/Props_LbfgsRules.v
theories/Model_Estimation.v
theories/Spec_Estimation.v
theories/Proofs_Estimation.v
theories/Proofs_Estimation2.v
theories/Proofs_Estimation3.v
theories/Proofs_Estimation4.v
theories/Proofs_Estimation5.v
theories/Props_Estimation.v
theories/Spec_Choice.v
theories/Proofs_Choice.v
theories/Proofs_Choice2.v
theories/Proofs_Choice3.v
theories/Props_Choice.v
theories/Model_Selection.v
theories/Spec_Units.v
theories/Proofs_Units.v
theories/Proofs_Units2.v
theories/Proofs_Units3.v
theories/Proofs_Units4.v
theories/Props_Units.v
theories/Spec_Flat.v
theories/Proofs_Flat.v
theories/Proofs_Flat2.v
theories/Props_Flat.v
theories/Model_CountFit.v
theories/Spec_CountFit.v
theories/Proofs_CountFit.v
theories/Proofs_CountFit2.v
theories/Proofs_CountFit3.v
theories/Proofs_CountFit4.v
theories/Props_CountFit.v
theories/Proofs_Totals.v
theories/Proofs_FlatCount.v
theories/Props_Totals.v
theories/Spec_CountChoice.v
theories/Proofs_CountChoice.v
theories/Props_CountChoice.v
theories/Model_ClassFit.v
theories/Spec_ClassFit.v
theories/Proofs_ClassFit.v
theories/Proofs_ClassFit2.v
theories/Proofs_ClassFit3.v
theories/Proofs_ClassFit4.v
theories/Proofs_ClassFit5.v
theories/Proofs_ClassFit6.v
theories/Props_ClassFit.v
theories/Spec_ClassChoice.v
theories/Proofs_ClassChoice.v
theories/Proofs_ClassChoice2.v
theories/Props_ClassChoice.v
theories/Proofs_ClassTotals.v
theories/Props_ClassTotals.v
theories/Proofs_FlatClass.v
theories/Props_FlatClass.v
theories/Spec_SampleOrder.v
theories/Proofs_SampleOrder.v
theories/Proofs_SampleOrder2.v
theories/Proofs_SampleOrder3.v
theories/Props_SampleOrder.v
theories/Spec_Origin.v
theories/Proofs_Origin.v
theories/Proofs_Origin2.v
theories/Proofs_Origin3.v
theories/Proofs_Origin4.v
theories/Props_Origin.v
theories/Spec_Copies.v
theories/Proofs_Copies.v
theories/Proofs_Copies2.v
theories/Proofs_Copies3.v
theories/Props_Copies.v
theories/Proofs_Unique.v
theories/Proofs_Unique2.v
theories/Props_Unique.v
