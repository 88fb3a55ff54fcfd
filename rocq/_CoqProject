-Q theories Verif

theories/Model/Base.v
theories/Model/Preprocessing.v
theories/Proof/BaseLemmas.v
theories/Spec/Common.v
theories/Model/Dataset.v
theories/Spec/Preprocessing.v
theories/Proof/Preprocessing.v
theories/Spec/Dataset.v
theories/Proof/Dataset.v
theories/Proof/Features.v
theories/Model/Hull.v
theories/Spec/Hull.v
theories/Proof/Hull.v
theories/Model/Ops.v
theories/Spec/Ops.v
theories/Proof/Ops.v
theories/Model/Tree.v
theories/Proof/Impurity.v
theories/Spec/Tree.v
theories/Proof/Tree.v
theories/Proof/TreeGen.v
theories/Proof/TreeMain.v
theories/Proof/TreeBest.v
theories/Model/Pruner.v
theories/Spec/Pruner.v
theories/Proof/Pruner.v
theories/Model/Metrics.v
theories/Spec/Metrics.v
theories/Proof/Counting.v
theories/Proof/Metrics.v
theories/Model/Stump.v
theories/Spec/Stump.v
theories/Proof/Stump.v
theories/Proof/TwoLevel.v
theories/Model/Kernels.v
theories/Model/Smo.v
theories/Spec/Smo.v
theories/Proof/Smo.v
theories/Proof/Kernels.v
theories/Proof/SmoExample.v
theories/Proof/SmoMain.v
theories/Model/KMeans.v
theories/Spec/KMeans.v
theories/Proof/KMeans.v
theories/Proof/KMeansMain.v
theories/Model/Matrix.v
theories/Model/Gmm.v
theories/Spec/Gmm.v
theories/Proof/Gmm.v
theories/Proof/GmmMain.v
theories/Proof/Cholesky.v
theories/Proof/GmmAscent.v
theories/Model/Bayes.v
theories/Spec/Bayes.v
theories/Proof/Bayes.v
theories/Proof/BayesMain.v
theories/Proof/BayesNan.v
theories/Model/Ensemble.v
theories/Spec/Ensemble.v
theories/Proof/Ensemble.v
theories/Proof/AdaBoost.v
theories/Proof/RealField.v
theories/Spec/Matrix.v
theories/Proof/Determinant.v
theories/Model/Activations.v
theories/Model/Logistic.v
theories/Model/Lda.v
theories/Model/Network.v
theories/Model/Rbf.v
theories/Model/Training.v
theories/Model/Misfit.v
theories/Proof/Misfit.v
theories/Model/Store.v
theories/Model/Callbacks.v
theories/Model/ProgressBar.v
theories/Model/Life.v
theories/Spec/Activations.v
theories/Spec/Logistic.v
theories/Spec/Lda.v
theories/Spec/Network.v
theories/Spec/Rbf.v
theories/Spec/Store.v
theories/Spec/Training.v
theories/Proof/Activations.v
theories/Proof/Logistic.v
theories/Proof/LogisticMain.v
theories/Proof/Lda.v
theories/Proof/Network.v
theories/Proof/NetworkMain.v
theories/Proof/NetworkGrad.v
theories/Proof/NetworkStep.v
theories/Proof/Adam.v
theories/Proof/Rbf.v
theories/Proof/Store.v
theories/Proof/StoreNet.v
theories/Proof/StoreCrash.v
theories/Proof/RoundTrip.v
theories/Proof/Life.v
theories/Proof/StoreMain.v
theories/Proof/Callbacks.v
theories/Proof/ProgressBar.v
theories/Props/Preprocessing.v
theories/Props/Tree.v
theories/Props/Stump.v
theories/Props/Svm.v
theories/Props/Metrics.v
theories/Props/Pruner.v
theories/Props/Dataset.v
theories/Props/KMeans.v
theories/Props/Gmm.v
theories/Props/Bayes.v
theories/Props/Ensemble.v
theories/Props/Activations.v
theories/Props/Logistic.v
theories/Props/Lda.v
theories/Props/Network.v
theories/Props/Rbf.v
theories/Props/Hull.v
theories/Props/Ops.v
theories/Props/Store.v
theories/Props/Training.v
theories/Model/Cpp.v
theories/Spec/Cpp.v
theories/Proof/Cpp.v
theories/Proof/CppOps.v
theories/Proof/CppMore.v
theories/Props/Cpp.v
theories/Model/Initializers.v
theories/Spec/Initializers.v
theories/Proof/Initializers.v
theories/Props/Initializers.v
theories/Model/Loader.v
theories/Model/TreePlot.v
theories/Model/Plots.v
theories/Model/Benchmark.v
theories/Model/Config.v
theories/Spec/Loader.v
theories/Spec/TreePlot.v
theories/Spec/Plots.v
theories/Spec/Benchmark.v
theories/Proof/Loader.v
theories/Proof/TreePlot.v
theories/Proof/Plots.v
theories/Proof/Benchmark.v
theories/Proof/Config.v
theories/Props/Loader.v
theories/Props/TreePlot.v
theories/Props/Plots.v
theories/Props/Benchmark.v
theories/Props/Config.v
theories/Model/Float.v
theories/Model/FloatOps.v
theories/Spec/Float.v
theories/Proof/Float.v
theories/Proof/FloatScale.v
theories/Proof/FloatSmo.v
theories/Proof/FloatAct.v
theories/Proof/FloatAct2.v
theories/Proof/FloatLoss.v
theories/Proof/FloatEx.v
theories/Proof/FloatIEEE.v
theories/Proof/FloatLists.v
theories/Props/Float.v
theories/Model/Svc.v
theories/Spec/Svc.v
theories/Proof/SmoSymmetry.v
theories/Proof/SmoRational.v
theories/Proof/Svc.v
theories/Proof/SvcSym.v
theories/Proof/SvcShift.v
theories/Props/Svc.v
theories/Spec/RowOrder.v
theories/Proof/RowOrder.v
theories/Proof/RowOrderTree.v
theories/Proof/RowOrderBayes.v
theories/Props/RowOrder.v
theories/Model/Process.v
theories/Spec/Process.v
theories/Proof/SmoDraws.v
theories/Proof/Process.v
theories/Props/Process.v
theories/Model/Fit.v
theories/Model/Named.v
theories/Spec/Fit.v
theories/Spec/Resume.v
theories/Spec/Named.v
theories/Proof/Fit.v
theories/Proof/Named.v
theories/Proof/FitFail.v
theories/Proof/Resume.v
theories/Props/Fit.v
theories/Props/Resume.v
theories/Props/Named.v
theories/Spec/Units.v
theories/Proof/Units.v
theories/Proof/UnitsTree.v
theories/Proof/UnitsMore.v
theories/Props/Units.v
theories/Props/UnitsMore.v
theories/Model/Dispatch.v
theories/Spec/Dispatch.v
theories/Proof/Dispatch.v
theories/Proof/DispatchCalls.v
theories/Props/Dispatch.v
theories/Model/ProgressText.v
theories/Spec/ProgressText.v
theories/Proof/ProgressText.v
theories/Props/ProgressText.v
theories/Model/Batch.v
theories/Spec/Batch.v
theories/Proof/Batch.v
theories/Props/Batch.v
theories/Spec/BayesUnits.v
theories/Proof/BayesUnits.v
theories/Props/BayesUnits.v
theories/Spec/UnitsLinear.v
theories/Proof/UnitsLinear.v
theories/Proof/UnitsShift.v
theories/Proof/UnitsGmmEx.v
theories/Props/UnitsLinear.v
theories/Spec/Labels.v
theories/Proof/Labels.v
theories/Proof/LabelsTree.v
theories/Proof/LabelsBayes.v
theories/Props/Labels.v
theories/Spec/Columns.v
theories/Proof/ColumnsMx.v
theories/Proof/Columns.v
theories/Proof/ColumnsLinear.v
theories/Proof/ColumnsNet.v
theories/Proof/ColumnsStump.v
theories/Proof/ColumnsLda.v
theories/Props/Columns.v
theories/Spec/Copies.v
theories/Proof/Copies.v
theories/Proof/CopiesTree.v
theories/Proof/CopiesBayes.v
theories/Props/Copies.v
theories/Spec/Redundant.v
theories/Proof/Redundant.v
theories/Proof/RedundantGmm.v
theories/Proof/RedundantKMeans.v
theories/Props/Redundant.v
theories/Spec/Twins.v
theories/Proof/Twins.v
theories/Props/Twins.v
theories/Model/Reload.v
theories/Spec/Reload.v
theories/Proof/Reload.v
theories/Proof/ReloadMain.v
theories/Props/Reload.v
theories/Spec/HiddenOrder.v
theories/Proof/HiddenOrder.v
theories/Proof/HiddenOrderRun.v
theories/Proof/HiddenOrderRbf.v
theories/Props/HiddenOrder.v
theories/Spec/ClassOrder.v
theories/Proof/ClassOrder.v
theories/Proof/ClassScore.v
theories/Props/ClassOrder.v
theories/Spec/ClusterOrder.v
theories/Proof/ClusterOrder.v
theories/Proof/ClusterKMeans.v
theories/Props/ClusterOrder.v
theories/Spec/Misfit.v
theories/Props/Misfit.v
