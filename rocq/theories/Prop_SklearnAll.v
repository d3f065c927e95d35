(** C57: whatamize_sklearn. *)
From Verif Require Import SpecSklearn SklearnFacts.
From Verif Require Import Py PyFacts Value SpecId Protocol SklearnTables Sklearn SklearnAll.
From Verif Require RegistryFacts MiscFacts PrintingFacts SpecSklearn SklearnFacts.
Set Implicit Arguments.

Section Facts.
  Variable W : Type.
  Variable skl : W.
  Variable mro : pystr -> list pystr.
  Variable get_class : pystr -> outcome pystr.
  Hypothesis mro_self : forall c, In c (mro c).

  Lemma object_facts ws t fail ws' : whatamize_object mro ws t skl fail false = Gives ws' ->
    (forall c f, assoc c ws = Some f -> assoc c ws' = Some f) /\
    (forall c f, assoc c ws' = Some f -> assoc c ws = Some f \/ (t = Gives c /\ f = skl)) /\
    (forall c, t = Gives c -> exists b f, In b (mro c) /\ assoc b ws' = Some f).
  Proof.
    unfold whatamize_object. destruct t as [c|e|]; cbn [then_]; [| |discriminate].
    - intros [= <-]. rewrite orb_false_r. destruct (has_what mro ws c) eqn:H; cbn [negb].
      + split; [auto|]. split; [auto|]. intros c' [= <-]. unfold has_what in H. apply existsb_exists in H as (b & B & K). rewrite MiscFacts.has_key_assoc in K.
        destruct (assoc b ws) as [f|] eqn:E; [eauto|discriminate].
      + split; [|split].
        * intros c' f E. rewrite RegistryFacts.assoc_set. destruct (str_eqb_spec c' c) as [->|]; [|exact E]. exfalso.
          assert (has_what mro ws c = true); [|congruence]. apply existsb_exists. exists c. split; [apply mro_self|]. now rewrite MiscFacts.has_key_assoc, E.
        * intros c' f. rewrite RegistryFacts.assoc_set. destruct (str_eqb_spec c' c) as [->|]; [|auto]. intros [= <-]. auto.
        * intros c' [= <-]. exists c, skl. split; [apply mro_self|]. now rewrite RegistryFacts.assoc_set, str_eqb_refl.
    - destruct e; try discriminate. destruct fail; [discriminate|]. intros [= <-]. split; [auto|]. split; [auto|]. discriminate.
  Qed.
  Lemma bases_facts bases : forall ws ws', whatamize_bases skl mro get_class bases ws = Gives ws' ->
    (forall c f, assoc c ws = Some f -> assoc c ws' = Some f) /\
    (forall c f, assoc c ws' = Some f -> assoc c ws = Some f \/ (f = skl /\ exists b, In b bases /\ get_class b = Gives c)) /\
    (forall b c, In b bases -> get_class b = Gives c -> exists b f, In b (mro c) /\ assoc b ws' = Some f).
  Proof.
    induction bases as [|b bases IH]; intros ws ws' H; cbn [whatamize_bases] in H.
    - injection H as <-. split; [auto|]. split; [auto|]. intros b c [].
    - destruct (whatamize_object mro ws (get_class b) skl false false) as [ws1| |] eqn:E; try discriminate. cbn [then_] in H.
      destruct (@object_facts _ _ _ _ E) as (K & N & L). destruct (IH _ _ H) as (K' & N' & L'). split; [auto|]. split.
      + intros c f A. apply N' in A as [A|(-> & x & X & G)]; [apply N in A as [A|[A ->]]; [auto|]|]; right; split; auto; [exists b|exists x]; split; auto; [now left|now right].
      + intros x c [<-|X] G; [|eauto]. destruct (L _ G) as (y & f & Y & A). eauto.
  Qed.
  Lemma object_again ws t ws' : whatamize_object mro ws t skl false false = Gives ws' -> forall ws2, (forall c f, assoc c ws' = Some f -> exists g, assoc c ws2 = Some g) ->
    whatamize_object mro ws2 t skl false false = Gives ws2.
  Proof.
    intros H ws2 L. destruct (@object_facts _ _ _ _ H) as (_ & _ & T). unfold whatamize_object in *. destruct t as [c|e|]; cbn [then_] in *; [| |discriminate].
    - rewrite orb_false_r. destruct (T c eq_refl) as (b & f & B & A). destruct (L _ _ A) as [g G]. 
      assert (has_what mro ws2 c = true) as ->; [|reflexivity]. apply existsb_exists. exists b. split; [exact B|]. now rewrite MiscFacts.has_key_assoc, G.
    - destruct e; try discriminate. reflexivity.
  Qed.
  Lemma bases_again bases : forall ws ws', whatamize_bases skl mro get_class bases ws = Gives ws' ->
    forall ws2, (forall c f, assoc c ws' = Some f -> exists g, assoc c ws2 = Some g) -> whatamize_bases skl mro get_class bases ws2 = Gives ws2.
  Proof.
    induction bases as [|b bases IH]; intros ws ws' H ws2 L; cbn [whatamize_bases] in *; [reflexivity|].
    destruct (whatamize_object mro ws (get_class b) skl false false) as [ws1| |] eqn:E; try discriminate. cbn [then_] in H.
    rewrite (@object_again ws (get_class b) ws1 E ws2); [|intros c f A; eapply L; apply (@bases_facts _ _ _ H); exact A]. cbn [then_]. eapply IH; [exact H|exact L].
  Qed.
End Facts.

(** Updating a dictionary twice with the same is updating it once. *)
Lemma set_present A k (v : A) d : assoc k d = Some v -> dict_set k v d = d.
Proof. induction d as [|[k' w] d IH]; cbn; [discriminate|]. destruct (str_eqb_spec k k') as [->|]; [intros [= ->]; reflexivity|]. intros H. now rewrite IH. Qed.
Lemma set_set A k (v w : A) d : dict_set k w (dict_set k v d) = dict_set k w d.
Proof.
  induction d as [|[k' x] d IH]; cbn; [now rewrite str_eqb_refl|]. destruct (str_eqb k k') eqn:E; cbn; rewrite E; [reflexivity|now rewrite IH].
Qed.
Lemma set_comm A k k' (v w : A) d : k <> k' -> In k (map fst d) -> dict_set k v (dict_set k' w d) = dict_set k' w (dict_set k v d).
Proof.
  intros N. induction d as [|[x y] d IH]; cbn; [intros []|]. intros H. destruct (str_eqb_spec k' x) as [->|N'].
  - destruct (str_eqb_spec k x) as [->|]; [congruence|]. cbn. destruct (str_eqb_spec k x); [congruence|]. rewrite str_eqb_refl. reflexivity.
  - cbn. destruct (str_eqb_spec k x) as [->|].
    + cbn. destruct (str_eqb_spec k' x); [congruence|reflexivity].
    + cbn. destruct (str_eqb_spec k' x); [congruence|]. rewrite IH; [reflexivity|]. destruct H; [congruence|assumption].
Qed.
Lemma set_fold A k (v : A) e : forall d, In k (map fst d) -> ~ In k (map fst e) ->
  fold_left (fun d kv => dict_set (fst kv) (snd kv) d) e (dict_set k v d) = dict_set k v (fold_left (fun d kv => dict_set (fst kv) (snd kv) d) e d).
Proof.
  induction e as [|[x y] e IH]; intros d K N; cbn; [reflexivity|]. cbn in N. rewrite <- IH; [|apply PrintingFacts.dict_set_keys; auto|tauto]. f_equal. symmetry. apply set_comm; [|exact K].
  intros ->. tauto.
Qed.
Lemma update_present A (e : list (pystr * A)) : forall d, NoDup (map fst e) -> (forall k v, In (k, v) e -> assoc k d = Some v) -> dict_update d e = d.
Proof.
  unfold dict_update. induction e as [|[k v] e IH]; intros d N H; cbn; [reflexivity|]. rewrite set_present by (apply H; now left). cbn in N. apply NoDup_cons_iff in N as [_ N].
  apply IH; [exact N|]. intros; apply H; now right.
Qed.
Definition as_update (ds : list declaration) : list (pystr * meta) :=
  map (fun d => let '(name, nickname, non_id) := d in (name, Meta (match nickname with Some s => s | None => name end) non_id)) ds.
Lemma declare_update ds : forall r, fold_left declare ds r = dict_update r (as_update ds).
Proof. unfold dict_update. induction ds as [|[[n k] x] ds IH]; intros r; cbn; [reflexivity|]. now rewrite IH. Qed.
Lemma declare_twice ds r : NoDup (map fst (as_update ds)) -> fold_left declare ds (fold_left declare ds r) = fold_left declare ds r.
Proof.
  intros N. rewrite !declare_update. apply update_present; [exact N|]. intros k v H. rewrite MiscFacts.assoc_update by exact N.
  now rewrite (RegistryFacts.assoc_nodup _ _ _ N H).
Qed.

Local Notation base := (py "sklearn.base.BaseEstimator").
Lemma supported_once v ds : In (v, ds) supported_versions -> NoDup (map fst (as_update ds)).
Proof.
  intros H. assert (F : Forall (fun x => nodup_str (map fst (as_update (snd x))) = true) supported_versions) by (vm_compute; repeat constructor).
  rewrite Forall_forall in F. apply F in H. now apply PrintingFacts.nodup_str_spec.
Qed.
Lemma base_gives W (skl : W) mro ws : whatamize_object mro ws (Gives base) skl true false = whatamize_object mro ws (Gives base) skl false false.
Proof. unfold whatamize_object. cbn [then_]. reflexivity. Qed.

(** C57. After whatamize_sklearn the declarations are those of the version; the classes that had a what keep it; the only change is that BaseEstimator, or the other bases that
    can be imported, may get _what_for_sklearn; they all end up with a what; *)
Theorem C57_bases : forall W (skl : W) mro get_class version r ws r' warning ws', (forall c, In c (mro c)) ->
  whatamize_sklearn skl mro get_class version r ws = Gives (r', warning, ws') ->
  declare_attributes version r = Ok (r', warning) /\
  (forall c f, assoc c ws = Some f -> assoc c ws' = Some f) /\
  (forall c f, assoc c ws' = Some f -> assoc c ws = Some f \/ (f = skl /\ (c = base \/ exists b, In b whatamized_bases /\ get_class b = Gives c))) /\
  (forall c, c = base \/ (exists b, In b whatamized_bases /\ get_class b = Gives c) -> find_what (mro c) ws' <> None).
Proof.
  intros W skl mro get_class version r ws r' warning ws' M H. unfold whatamize_sklearn in H. destruct (declare_attributes version r) as [[r1 w1]|] eqn:D; [|discriminate].
  destruct (whatamize_object mro ws (Gives base) skl true false) as [ws1| |] eqn:E; try discriminate. cbn [then_] in H.
  destruct (whatamize_bases skl mro get_class whatamized_bases ws1) as [ws2| |] eqn:F; try discriminate. injection H as <- <- <-.
  destruct (@object_facts _ skl mro M _ _ _ _ E) as (K & N & T). destruct (@bases_facts _ skl mro get_class M _ _ _ F) as (K' & N' & T'). split; [reflexivity|]. split; [auto|]. split.
  - intros c f A. apply N' in A as [A|(-> & b & B & G)]; [apply N in A as [A|[[= <-] ->]]; auto|]. right. split; [reflexivity|]. eauto.
  - assert (FW : forall l b f, In b l -> assoc b ws2 = Some f -> find_what l ws2 <> None).
    { induction l as [|a l IH]; intros b f B A; [destruct B|]. cbn. destruct (assoc a ws2) eqn:Q; [discriminate|]. destruct B as [->|B]; [congruence|]. eapply IH; eassumption. }
    intros c [->|(b & B & G)].
    + destruct (T _ eq_refl) as (b & f & B & A). eapply FW; [exact B|]. apply K'. exact A.
    + destruct (T' _ _ B G) as (x & f & X & A). eapply FW; [exact X|exact A].
Qed.
Print Assumptions C57_bases.
(** instances of estimators whose classes had no what answer with _what_for_sklearn; *)
Theorem C57_estimators : forall W (skl : W) mro get_class version r ws r' warning ws' c, (forall c, In c (mro c)) ->
  whatamize_sklearn skl mro get_class version r ws = Gives (r', warning, ws') ->
  In base (mro c) -> (forall b, In b (mro base) -> In b (mro c)) -> (forall b, In b (mro c) -> assoc b ws = None) -> find_what (mro c) ws' = Some skl.
Proof.
  intros W skl mro get_class version r ws r' warning ws' c M H B I N. destruct (@C57_bases _ _ _ _ _ _ _ _ _ _ M H) as (_ & _ & New & T).
  assert (X : find_what (mro c) ws' <> None).
  { specialize (T base (or_introl eq_refl)). assert (exists b f, In b (mro base) /\ assoc b ws' = Some f) as (b & f & Bb & A).
    { clear - T. induction (mro base) as [|a l IH]; cbn in *; [congruence|]. destruct (assoc a ws') eqn:Q; [eauto|]. destruct (IH T) as (b & f & Hb & Hf). eauto. }
    apply I in Bb. clear - Bb A. induction (mro c) as [|a l IH]; [destruct Bb|]. cbn. destruct (assoc a ws') eqn:Q; [discriminate|]. destruct Bb as [->|Bb]; [congruence|auto]. }
  clear - New N X. induction (mro c) as [|a l IH]; [cbn in X; congruence|]. cbn in *. destruct (assoc a ws') as [f|] eqn:Q.
  - apply New in Q as [Q|[-> _]]; [|reflexivity]. rewrite N in Q by now left. discriminate.
  - apply IH; [|exact X]. intros; apply N. now right.
Qed.
Print Assumptions C57_estimators.
(** doing it again changes nothing; *)
Theorem C57_again : forall W (skl : W) mro get_class version r ws r' warning ws', (forall c, In c (mro c)) ->
  whatamize_sklearn skl mro get_class version r ws = Gives (r', warning, ws') ->
  whatamize_sklearn skl mro get_class version r' ws' = Gives (r', warning, ws').
Proof.
  intros W skl mro get_class version r ws r' warning ws' M H. unfold whatamize_sklearn in *. destruct (declare_attributes version r) as [[r1 w1]|] eqn:D; [|discriminate].
  destruct (whatamize_object mro ws (Gives base) skl true false) as [ws1| |] eqn:E; try discriminate. cbn [then_] in H.
  destruct (whatamize_bases skl mro get_class whatamized_bases ws1) as [ws2| |] eqn:F; try discriminate. injection H as <- <- <-.
  assert (declare_attributes version r1 = Ok (r1, w1)) as ->.
  { unfold declare_attributes in *. destruct (parse_version version) as [v|e]; cbn [bind] in *; [|discriminate]. destruct (choose v supported_versions None) as [[u ds]|] eqn:C; [|discriminate].
    injection D as <- <-. rewrite declare_twice; [reflexivity|]. apply (@supported_once u). clear - C.
    assert (G : forall (l : list (Sklearn.version * list declaration)) cur x, (forall y, cur = Some y -> In y supported_versions) -> (forall y, In y l -> In y supported_versions) ->
                choose v l cur = Some x -> In x supported_versions).
    { induction l as [|a l IH]; intros cur x Hc Hl H; cbn in H; [auto|]. destruct (ge_version (fst a) v); [injection H as <-; apply Hl; now left|].
      eapply IH; [| |exact H]; [intros y [= <-]; apply Hl; now left|intros; apply Hl; now right]. }
    eapply G; [| |exact C]; [discriminate|auto]. }
  destruct (@bases_facts _ skl mro get_class M _ _ _ F) as (K' & _ & _). rewrite base_gives in E |- *.
  rewrite (@object_again _ _ _ M _ _ _ E) by eauto. cbn [then_]. rewrite (@bases_again _ _ _ _ M _ _ _ F) by eauto. reflexivity.
Qed.
Print Assumptions C57_again.
Lemma raises_when : forall W (skl : W) mro get_class version r ws, (forall x, In x whatamized_bases -> get_class x <> Interrupts) ->
  ((exists e, whatamize_sklearn skl mro get_class version r ws = Raises e) <->
   ((exists e, parse_version version = Err e) \/ exists b e, In b whatamized_bases /\ get_class b = Raises e /\ e <> ImportError)).
Proof.
  intros W skl mro get_class version r ws NI. unfold whatamize_sklearn.
  assert (D : (exists e, declare_attributes version r = Err e) <-> exists e, parse_version version = Err e).
  { unfold declare_attributes. destruct (parse_version version) as [v|e]; cbn [bind]; [|split; eauto]. split; intros [e H]; [|discriminate].
    destruct (choose v supported_versions None) as [[u ds]|] eqn:C; [discriminate|]. exfalso. clear - C. revert C.
    assert (G : forall (l : list (Sklearn.version * list declaration)) x, choose v l (Some x) <> None).
    { induction l as [|a l IH]; intros x; cbn; [discriminate|]. destruct (ge_version (fst a) v); [discriminate|apply IH]. }
    destruct supported_versions as [|a l] eqn:S; [vm_compute in S; discriminate|]. cbn. destruct (ge_version (fst a) v); [discriminate|apply G]. }
  assert (B : forall bases ws, (forall x, In x bases -> get_class x <> Interrupts) ->
              (exists ws', whatamize_bases skl mro get_class bases ws = Gives ws' /\ ~ exists b e, In b bases /\ get_class b = Raises e /\ e <> ImportError) \/
              (exists e, whatamize_bases skl mro get_class bases ws = Raises e /\ exists b e, In b bases /\ get_class b = Raises e /\ e <> ImportError)).
  { induction bases as [|b bases IH]; intros ws0 N; cbn [whatamize_bases]; [left; eexists; split; [reflexivity|intros (? & ? & [] & _)]|].
    assert (N' : forall x, In x bases -> get_class x <> Interrupts) by (intros; apply N; now right). specialize (N b (or_introl eq_refl)).
    unfold whatamize_object. destruct (get_class b) as [c|e|] eqn:G; cbn [then_]; [| |congruence].
    - match goal with |- context [whatamize_bases _ _ _ bases ?x] => generalize x; intros ws1 end. destruct (IH ws1 N') as [(ws' & E & Q)|(e & E & Q)]; rewrite E; [left|right]; eexists; split; [reflexivity| |reflexivity|].
      + intros (x & e & [<-|X] & Gx & Ne); [congruence|]. apply Q. eauto.
      + destruct Q as (x & e' & X & Gx). exists x, e'. split; [now right|exact Gx].
    - destruct (match e with ImportError => true | _ => false end) eqn:I.
      + destruct e; try discriminate I. cbn [then_]. destruct (IH ws0 N') as [(ws' & E & Q)|(e & E & Q)]; rewrite E; [left|right]; eexists; split; [reflexivity| |reflexivity|].
        * intros (x & e & [<-|X] & Gx & Ne); [congruence|]. apply Q. eauto.
        * destruct Q as (x & e' & X & Gx). exists x, e'. split; [now right|exact Gx].
      + right. exists e. split; [destruct e; try reflexivity; discriminate I|]. exists b, e. split; [now left|]. split; [exact G|]. intros ->. discriminate I. }
  destruct (declare_attributes version r) as [[r1 w1]|e] eqn:E.
  - assert (P : ~ exists e, parse_version version = Err e) by (intros X; apply D in X as [e X]; discriminate). cbn [then_].
    unfold whatamize_object; cbn [then_]. match goal with |- context [whatamize_bases _ _ _ _ ?x] => generalize x; intros ws1 end.
    destruct (B whatamized_bases ws1 NI) as [(ws' & F & Q)|(e & F & Q)]; rewrite F; cbn [then_].
    + split; [intros [e X]; discriminate|]. intros [X|X]; contradiction.
    + split; [auto|]. eauto.
  - split; [intros _; left; apply D; eauto|eauto].
Qed.
(** it raises exactly if the version is not a strict version, or if getting a base raises something else than ImportError, *)
Theorem C57_raises : forall W (skl : W) mro get_class version r ws, (forall x, In x whatamized_bases -> get_class x <> Interrupts) ->
  ((exists e, whatamize_sklearn skl mro get_class version r ws = Raises e) <->
   (~ (exists v, version_text v version) \/ exists b e, In b whatamized_bases /\ get_class b = Raises e /\ e <> ImportError)).
Proof.
  intros W skl mro get_class version r ws NI. rewrite (raises_when skl mro get_class version r ws NI).
  assert (X : (exists e, parse_version version = Err e) <-> ~ (exists v, version_text v version)); [|now rewrite X].
  destruct (parse_version version) as [v|e] eqn:E.
  - split; [intros [e H]; discriminate|]. intros H. destruct H. exists v. now apply version_spec.
  - split; [|eauto]. intros _ [v H]. apply version_spec in H. congruence.
Qed.
Print Assumptions C57_raises.
(** What is done before it raises stays done, and nothing else is: the bases before the first that cannot be found have a what. *)
Theorem C57_raised : forall W (skl : W) mro get_class ws before b e after, (forall c, In c (mro c)) ->
  (forall x, In x before -> get_class x = Raises ImportError \/ exists c, get_class x = Gives c) -> get_class b = Raises e -> e <> ImportError ->
  let ws' := whatamized_at_end skl mro get_class (before ++ b :: after) ws in
  (forall c f, assoc c ws = Some f -> assoc c ws' = Some f) /\
  (forall c f, assoc c ws' = Some f -> assoc c ws = Some f \/ (f = skl /\ exists x, In x before /\ get_class x = Gives c)) /\
  (forall x c, In x before -> get_class x = Gives c -> find_what (mro c) ws' <> None).
Proof.
  intros W skl mro get_class ws before b e after M B Eb Ne. cbv zeta.
  assert (H : exists ws', whatamize_bases skl mro get_class before ws = Gives ws' /\ whatamized_at_end skl mro get_class (before ++ b :: after) ws = ws').
  { revert ws. induction before as [|x before IH]; intros ws; cbn [app whatamize_bases whatamized_at_end].
    - exists ws. split; [reflexivity|]. unfold whatamize_object. rewrite Eb. cbn [then_]. destruct e; try reflexivity. contradiction.
    - assert (X : exists ws1, whatamize_object mro ws (get_class x) skl false false = Gives ws1).
      { unfold whatamize_object. destruct (B x (or_introl eq_refl)) as [->|[c ->]]; cbn [then_]; [eauto|]. eauto. }
      destruct X as [ws1 X]. rewrite X. cbn [then_]. apply IH. intros y Hy. apply B. now right. }
  destruct H as (ws' & H1 & ->). destruct (@bases_facts _ skl mro get_class M _ _ _ H1) as (K & N & L). split; [exact K|]. split; [exact N|]. intros x c Hx Gx. destruct (L _ _ Hx Gx) as (y & f & Hy & A).
  clear -Hy A. induction (mro c) as [|z l IH]; [contradiction|]. cbn [find_what]. destruct (assoc z ws') eqn:E; [discriminate|]. destruct Hy as [->|Hy]; [congruence|now apply IH].
Qed.
Print Assumptions C57_raised.
(** and that is the case with a supported range of versions: sklearn 0.18 has the module model_selection._split, but no class _RepeatedSplits there. Everything but the
    message is done when it raises. *)
Theorem C57_missing_class_refuted : exists get_class, (forall b, In b whatamized_bases -> get_class b = Gives b \/ get_class b = Raises AttributeError) /\
  whatamize_sklearn 1 (fun c => [c]) get_class (py "0.18.2") [] [] = Raises AttributeError /\
  map fst (whatamized_at_end 1 (fun c => [c]) get_class whatamized_bases []) = firstn 4 whatamized_bases.
Proof.
  exists (fun b => if str_eqb b (py "sklearn.model_selection._split._RepeatedSplits") then Raises AttributeError else Gives b).
  split; [intros b _; destruct (str_eqb b _); auto|]. split; vm_compute; reflexivity.
Qed.
Print Assumptions C57_missing_class_refuted.

(** A case: the third base inherits from the second one, the last two modules are missing, and BaseCrossValidator had a what. *)
Example C57_case : 
  let get_class b := if startswith b (py "sklearn.model_selection._split") then Raises ImportError else Gives b in
  exists r, whatamize_sklearn 1 (fun c => [c; py "object"]) get_class (py "0.19.1") [] [(py "sklearn.model_selection.BaseCrossValidator", 7)] =
    Gives (r, false, [(py "sklearn.model_selection.BaseCrossValidator", 7); (base, 1); (py "sklearn.gaussian_process.kernels.Kernel", 1)]) /\ List.length r > 100.
Proof. eexists. split; [vm_compute; reflexivity|]. vm_compute. repeat constructor. Qed.
