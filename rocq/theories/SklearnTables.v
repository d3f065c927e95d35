(** The declarations of the sklearn wrapper, as data: the calls of [_a] in what_sklearn.py:105-210 and 213-558, in their order (the notes, that
    are for people, are left out). Transcribed from the source by a script. *)
From Verif Require Import Py.
Set Implicit Arguments.

(** One call of [_a] (what_sklearn.py:97-102): name of the class, nickname, non_id_params. *)
Definition declaration := (pystr * option pystr * list pystr)%type.
(** what_sklearn.py:97-102, one call of [_a]. *)
Definition decl (name : string) (nickname : option string) (non_id : list string) : declaration :=
  (py name, match nickname with Some s => Some (py s) | None => None end, map (fun s => py s) non_id).
Arguments decl name%string nickname%string non_id%string.
Local Open Scope string_scope.

(** what_sklearn.py:105-210. *)
Definition declare0dot15dot1 : list declaration := [
  decl "RandomForestClassifier" (Some "rfc") ["verbose"; "n_jobs"; "oob_score"];
  decl "RandomForestRegressor" (Some "rfr") ["verbose"; "n_jobs"; "oob_score"];
  decl "ExtraTreesClassifier" (Some "etc") ["n_jobs"; "verbose"; "oob_score"];
  decl "ExtraTreesRegressor" (Some "etr") ["n_jobs"; "verbose"; "oob_score"];
  decl "GradientBoostingClassifier" (Some "gbc") ["verbose"];
  decl "GradientBoostingRegressor" (Some "gbr") ["verbose"];
  decl "Ridge" (Some "ridge") ["copy_X"];
  decl "Lasso" (Some "lasso") ["copy_X"];
  decl "ElasticNet" (Some "elnet") ["copy_X"];
  decl "Lars" (Some "lars") ["verbose"; "copy_X"; "fit_path"];
  decl "LassoLars" (Some "lassolars") ["verbose"; "copy_X"; "fit_path"];
  decl "OrthogonalMatchingPursuit" (Some "omp") ["copy_X"; "copy_Xy"; "copy_Gram"];
  decl "BayesianRidge" (Some "bayridge") ["copy_X"; "verbose"];
  decl "ARDRegression" (Some "ardr") ["copy_X"; "verbose"];
  decl "LogisticRegression" (Some "logreg") [];
  decl "SGDClassifier" (Some "sgdc") ["verbose"; "n_jobs"];
  decl "SGDRegressor" (Some "sgdr") ["verbose"];
  decl "Perceptron" (Some "perceptron") ["verbose"; "n_jobs"];
  decl "LinearRegression" (Some "lr") ["copy_X"];
  decl "SVC" (Some "svc") ["cache_size"; "verbose"];
  decl "NuSVC" (Some "nusvc") ["cache_size"; "verbose"];
  decl "LinearSVC" (Some "linsvc") ["verbose"];
  decl "SVR" (Some "svr") ["cache_size"; "verbose"];
  decl "NuSVR" (Some "nusvr") ["cache_size"; "verbose"];
  decl "GaussianNB" (Some "gnb") [];
  decl "MultinomialNB" (Some "mnb") [];
  decl "BernoulliNB" (Some "bnb") [];
  decl "DecisionTreeClassifier" (Some "dtc") [];
  decl "DecisionTreeRegressor" (Some "dtr") [];
  decl "KNeighborsClassifier" (Some "knc") ["warn_on_equidistant"];
  decl "RadiusNeighborsClassifier" (Some "rnc") ["outlier_label"];
  decl "KNeighborsRegressor" (Some "knr") ["warn_on_equidistant"];
  decl "RadiusNeighborsRegressor" (Some "rnr") [];
  decl "NearestCentroid" (Some "nc") [];
  decl "PLSRegression" (Some "plsr") ["copy"];
  decl "PLSCanonical" (Some "plscan") ["copy"];
  decl "CCA" (Some "cca") ["copy"];
  decl "PLSSVD" (Some "plssvd") [];
  decl "GaussianProcess" (Some "gp") ["storage_mode"; "verbose"];
  decl "KMeans" None ["n_jobs"; "copy_x"; "verbose"; "precompute_distances"];
  decl "MiniBatchKMeans" None ["verbose"];
  decl "MeanShift" None ["n_jobs"];
  decl "AffinityPropagation" None ["copy"; "verbose"];
  decl "SpectralClustering" None [];
  decl "DBSCAN" None [];
  decl "AgglomerativeClustering" None ["memory"];
  decl "Birch" None ["compute_labels"; "copy"];
  decl "FeatureAgglomeration" None ["memory"];
  decl "SpectralCoclustering" None ["n_jobs"];
  decl "SpectralBiclustering" None ["n_jobs"];
  decl "Normalizer" None ["copy"];
  decl "MinMaxScaler" None ["copy"];
  decl "FeatureUnion" (Some "f_union") ["n_jobs"]
].

(** what_sklearn.py:213-558. *)
Definition declare0dot19dot1 : list declaration := [
  decl "CalibratedClassifierCV" None [];
  decl "AffinityPropagation" None ["copy"; "verbose"];
  decl "AgglomerativeClustering" None ["memory"];
  decl "Birch" None ["copy"; "compute_labels"];
  decl "DBSCAN" None ["n_jobs"];
  decl "FeatureAgglomeration" None ["memory"];
  decl "KMeans" None ["copy_x"; "n_jobs"; "precompute_distances"; "verbose"];
  decl "MiniBatchKMeans" None ["compute_labels"; "verbose"];
  decl "MeanShift" None ["n_jobs"];
  decl "SpectralClustering" None ["n_jobs"];
  decl "SpectralCoclustering" None ["n_jobs"];
  decl "SpectralBiclustering" None ["n_jobs"];
  decl "EmpiricalCovariance" None [];
  decl "EllipticEnvelope" None ["store_precision"];
  decl "GraphLasso" None ["verbose"];
  decl "GraphLassoCV" None ["n_jobs"; "verbose"];
  decl "LedoitWolf" None [];
  decl "MinCovDet" None [];
  decl "OAS" None [];
  decl "ShrunkCovariance" None [];
  decl "PLSRegression" (Some "plsr") ["copy"];
  decl "PLSCanonical" (Some "plscan") ["copy"];
  decl "CCA" (Some "cca") ["copy"];
  decl "PLSSVD" (Some "plssvd") ["copy"];
  decl "DictionaryLearning" None ["n_jobs"; "verbose"];
  decl "FactorAnalysis" None ["copy"];
  decl "FastICA" None [];
  decl "IncrementalPCA" None ["copy"];
  decl "KernelPCA" None ["copy_X"; "n_jobs"];
  decl "LatentDirichletAllocation" None ["n_jobs"; "verbose"];
  decl "MiniBatchDictionaryLearning" None ["n_jobs"; "verbose"];
  decl "MiniBatchSparsePCA" None ["callback"; "n_jobs"; "verbose"];
  decl "NMF" None ["verbose"];
  decl "PCA" None ["copy"];
  decl "SparsePCA" None ["n_jobs"; "verbose"];
  decl "SparseCoder" None ["n_jobs"];
  decl "TruncatedSVD" None [];
  decl "LinearDiscriminantAnalysis" None ["store_covariance"];
  decl "QuadraticDiscriminantAnalysis" None ["store_covariance"];
  decl "DummyClassifier" None [];
  decl "DummyRegressor" None [];
  decl "AdaBoostClassifier" None [];
  decl "AdaBoostRegressor" None [];
  decl "BaggingClassifier" None ["n_jobs"; "oob_score"; "verbose"];
  decl "BaggingRegressor" None ["n_jobs"; "oob_score"; "verbose"];
  decl "ExtraTreesClassifier" (Some "etc") ["n_jobs"; "oob_score"; "verbose"];
  decl "ExtraTreesRegressor" (Some "etr") ["n_jobs"; "oob_score"; "verbose"];
  decl "GradientBoostingClassifier" (Some "gbc") ["verbose"];
  decl "GradientBoostingRegressor" (Some "gbr") ["verbose"];
  decl "IsolationForest" None ["n_jobs"; "verbose"];
  decl "RandomForestClassifier" (Some "rfc") ["verbose"; "n_jobs"; "oob_score"];
  decl "RandomForestRegressor" (Some "rfr") ["verbose"; "n_jobs"; "oob_score"];
  decl "RandomTreesEmbedding" (Some "rte") ["verbose"; "n_jobs"];
  decl "VotingClassifier" None ["n_jobs"];
  decl "DictVectorizer" None [];
  decl "FeatureHasher" None [];
  decl "PatchExtractor" None [];
  decl "CountVectorizer" None [];
  decl "HashingVectorizer" None [];
  decl "TfidfTransformer" None [];
  decl "TfidfVectorizer" None [];
  decl "GenericUnivariateSelect" None [];
  decl "SelectPercentile" None [];
  decl "SelectKBest" None [];
  decl "SelectFpr" None [];
  decl "SelectFdr" None [];
  decl "SelectFromModel" None [];
  decl "SelectFwe" None [];
  decl "RFE" None ["verbose"];
  decl "RFECV" None ["n_jobs"; "verbose"];
  decl "VarianceThreshold" None [];
  decl "GaussianProcessClassifier" (Some "gpc") ["copy_X_train"; "n_jobs"];
  decl "GaussianProcessRegressor" (Some "gpr") ["copy_X_train"];
  decl "CompoundKernel" None [];
  decl "ConstantKernel" None [];
  decl "DotProduct" None [];
  decl "ExpSineSquared" None [];
  decl "Exponentiation" None [];
  decl "Matern" None [];
  decl "PairwiseKernel" None [];
  decl "Product" None [];
  decl "RBF" None [];
  decl "RationalQuadratic" None [];
  decl "Sum" None [];
  decl "WhiteKernel" None [];
  decl "IsotonicRegression" None [];
  decl "AdditiveChi2Sampler" None [];
  decl "Nystroem" None [];
  decl "RBFSampler" None [];
  decl "SkewedChi2Sampler" None [];
  decl "KernelRidge" None [];
  decl "ARDRegression" (Some "ardr") ["copy_X"; "verbose"];
  decl "BayesianRidge" (Some "bayridge") ["copy_X"; "verbose"];
  decl "ElasticNet" (Some "elnet") ["copy_X"];
  decl "ElasticNetCV" (Some "elnetcv") ["copy_X"; "n_jobs"; "verbose"];
  decl "HuberRegressor" None [];
  decl "Lars" (Some "lars") ["copy_X"; "fit_path"; "verbose"];
  decl "LarsCV" (Some "larscv") ["copy_X"; "fit_path"; "n_jobs"; "verbose"];
  decl "Lasso" (Some "lasso") ["copy_X"];
  decl "LassoCV" (Some "lassocv") ["copy_X"; "n_jobs"; "verbose"];
  decl "LassoLars" (Some "lassolars") ["copy_X"; "fit_path"; "verbose"];
  decl "LassoLarsCV" (Some "lassolarscv") ["copy_X"; "fit_path"; "n_jobs"; "verbose"];
  decl "LassoLarsIC" (Some "lassolarsic") ["copy_X"; "verbose"];
  decl "LinearRegression" (Some "linreg") ["copy_X"; "n_jobs"];
  decl "LogisticRegression" (Some "logreg") ["n_jobs"; "verbose"];
  decl "LogisticRegressionCV" (Some "logregcv") ["n_jobs"; "verbose"];
  decl "MultiTaskLasso" None ["copy_X"];
  decl "MultiTaskLassoCV" None ["copy_X"; "n_jobs"; "verbose"];
  decl "MultiTaskElasticNet" None ["copy_X"];
  decl "MultiTaskElasticNetCV" None ["copy_X"; "n_jobs"; "verbose"];
  decl "OrthogonalMatchingPursuit" (Some "omp") [];
  decl "OrthogonalMatchingPursuitCV" (Some "ompcv") ["copy"; "n_jobs"; "verbose"];
  decl "PassiveAggressiveClassifier" None ["n_jobs"; "verbose"];
  decl "PassiveAggressiveRegressor" None ["verbose"];
  decl "Perceptron" (Some "perceptron") ["n_jobs"; "verbose"];
  decl "RANSACRegressor" None [];
  decl "Ridge" (Some "ridge") ["copy_X"];
  decl "RidgeClassifier" None ["copy_X"];
  decl "RidgeClassifierCV" None [];
  decl "RidgeCV" None [];
  decl "SGDClassifier" (Some "sgdc") ["n_jobs"; "verbose"];
  decl "SGDRegressor" (Some "sgdr") ["verbose"];
  decl "TheilSenRegressor" None ["copy_X"; "n_jobs"; "verbose"];
  decl "Isomap" None ["n_jobs"];
  decl "LocallyLinearEmbedding" None ["n_jobs"; "neighbors_algorithm"];
  decl "MDS" None ["n_jobs"; "verbose"];
  decl "SpectralEmbedding" None ["n_jobs"];
  decl "TSNE" None ["verbose"];
  decl "BayesianGaussianMixture" None ["verbose"; "verbose_interval"];
  decl "GaussianMixture" None ["verbose"; "verbose_interval"];
  decl "GroupKFold" None [];
  decl "GroupShuffleSplit" None [];
  decl "KFold" None [];
  decl "LeaveOneGroupOut" None [];
  decl "LeavePGroupsOut" None [];
  decl "LeaveOneOut" None [];
  decl "LeavePOut" None [];
  decl "PredefinedSplit" None [];
  decl "RepeatedStratifiedKFold" None [];
  decl "ShuffleSplit" None [];
  decl "StratifiedKFold" None [];
  decl "StratifiedShuffleSplit" None [];
  decl "TimeSeriesSplit" None [];
  decl "GridSearchCV" None ["error_score"; "n_jobs"; "pre_dispatch"; "refit"; "return_train_score"; "verbose"];
  decl "RandomizedSearchCV" None ["error_score"; "n_jobs"; "pre_dispatch"; "refit"; "return_train_score"; "verbose"];
  decl "OneVsRestClassifier" None ["n_jobs"];
  decl "OneVsOneClassifier" None ["n_jobs"];
  decl "OutputCodeClassifier" None ["n_jobs"];
  decl "ClassifierChain" None [];
  decl "MultiOutputClassifier" None ["n_jobs"];
  decl "MultiOutputRegressor" None ["n_jobs"];
  decl "BernoulliNB" (Some "bnb") [];
  decl "GaussianNB" (Some "gnb") [];
  decl "MultinomialNB" (Some "mnb") [];
  decl "KernelDensity" None [];
  decl "KNeighborsClassifier" (Some "knc") ["n_jobs"];
  decl "KNeighborsRegressor" (Some "knr") ["n_jobs"];
  decl "LocalOutlierFactor" (Some "lof") ["n_jobs"];
  decl "RadiusNeighborsClassifier" (Some "rnc") [];
  decl "RadiusNeighborsRegressor" (Some "rnr") [];
  decl "NearestCentroid" (Some "nc") [];
  decl "NearestNeighbors" None ["n_jobs"];
  decl "BernoulliRBM" None ["verbose"];
  decl "MLPClassifier" None ["verbose"];
  decl "MLPRegressor" None ["verbose"];
  decl "FeatureUnion" None ["n_jobs"];
  decl "Pipeline" None ["memory"];
  decl "Binarizer" None ["copy"];
  decl "FunctionTransformer" None [];
  decl "Imputer" None ["copy"; "verbose"];
  decl "KernelCenterer" None [];
  decl "LabelBinarizer" None [];
  decl "LabelEncoder" None [];
  decl "MultiLabelBinarizer" None [];
  decl "MaxAbsScaler" None ["copy"];
  decl "MinMaxScaler" None ["copy"];
  decl "Normalizer" None ["copy"];
  decl "OneHotEncoder" None [];
  decl "PolynomialFeatures" None [];
  decl "QuantileTransformer" None ["copy"];
  decl "RobustScaler" None ["copy"];
  decl "StandardScaler" None ["copy"];
  decl "GaussianRandomProjection" None [];
  decl "SparseRandomProjection" None [];
  decl "LabelPropagation" None ["n_jobs"];
  decl "LabelSpreading" None ["n_jobs"];
  decl "LinearSVC" (Some "linsvc") ["verbose"];
  decl "LinearSVR" (Some "linsvr") ["verbose"];
  decl "NuSVC" (Some "nusvc") ["cache_size"; "verbose"];
  decl "NuSVR" (Some "nusvr") ["cache_size"; "verbose"];
  decl "OneClassSVM" (Some "ocsvm") ["cache_size"; "verbose"];
  decl "SVC" (Some "svc") ["cache_size"; "verbose"];
  decl "SVR" (Some "svr") ["cache_size"; "verbose"];
  decl "DecisionTreeClassifier" (Some "dtc") [];
  decl "DecisionTreeRegressor" (Some "dtr") [];
  decl "ExtraTreeClassifier" None [];
  decl "ExtraTreeRegressor" None []
].
