(** wrappers/what_sklearn.py:615-635, whatamize_sklearn. *)
From Verif Require Import Py Value Protocol SklearnTables Sklearn.
Set Implicit Arguments.

(** what_sklearn.py:66-70 *)
Definition whatamized_bases : list pystr :=
  [py "sklearn.base.BaseEstimator"; py "sklearn.gaussian_process.kernels.Kernel"; py "sklearn.model_selection.BaseCrossValidator";
   py "sklearn.model_selection._split.BaseShuffleSplit"; py "sklearn.model_selection._split._RepeatedSplits"].

Section Whatamize.
  (** Functions that are the attribute what of classes, and among them _what_for_sklearn. *)
  Variable W : Type.
  Variable what_for_sklearn : W.
  (** [c.__mro__] by the full name of the class. *)
  Variable mro : pystr -> list pystr.
  (** whatutils.py:46-47: [getattr(maybe_import(module), name)] for the full name of a class: the class, ImportError if there is no such module, AttributeError if the module
      has no such class. *)
  Variable get_class : pystr -> outcome pystr.

  (** what_sklearn.py:630-631 *)
  Fixpoint whatamize_bases (bases : list pystr) (ws : whats W) : outcome (whats W) :=
    match bases with
    | [] => Gives ws
    | b :: bases' => then_ (whatamize_object mro ws (get_class b) what_for_sklearn false false) (whatamize_bases bases')
    end.
  (** what_sklearn.py:630-631. The attributes what of the classes when it ends, also if it raises: what was done before is done. *)
  Fixpoint whatamized_at_end (bases : list pystr) (ws : whats W) : whats W :=
    match bases with
    | [] => ws
    | b :: bases' => match whatamize_object mro ws (get_class b) what_for_sklearn false false with Gives ws' => whatamized_at_end bases' ws' | _ => ws end
    end.
  (** what_sklearn.py:615-635 without checks nor log. BaseEstimator has been imported with the module (line 55). The result: the registry of declarations, whether there is
      a warning about the version, and the attributes what of the classes. *)
  Definition whatamize_sklearn (sklearn_version : pystr) (r : skl_registry) (ws : whats W) : outcome (skl_registry * bool * whats W) :=
    match declare_attributes sklearn_version r with                                              (* 626 *)
    | Err e => Raises e
    | Ok (r', warning) =>
      then_ (then_ (whatamize_object mro ws (Gives (py "sklearn.base.BaseEstimator")) what_for_sklearn true false)   (* 628 *)
                   (whatamize_bases whatamized_bases)) (fun ws' => Gives (r', warning, ws'))
    end.
End Whatamize.
(** The attribute what that python finds for a class. *)
Fixpoint find_what {W} (classes : list pystr) (ws : whats W) : option W :=
  match classes with [] => None | c :: l => match assoc c ws with Some f => Some f | None => find_what l ws end end.
