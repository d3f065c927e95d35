(** Property theorems about What objects: C12, C13, C14, C16, C17. *)
From Verif Require Import Py Value Printing SpecId Peg Grammar Visitor SpecParse SpecAlpha SpecWhat WhatOps.
From Verif Require PyFacts AlphaFacts WhatFacts GetFacts EqFacts DictFacts.
From Verif Require Import Prop_Ids Prop_Parse.

(** A nested configuration: x is 1, y a tuple with a dictionary, z a nested configuration with a non-id key. *)
Definition tree : value :=
  VWhat (py "w")
    [(py "z", VWhat (py "in") [(py "b", VStr (py "s")); (py "verbose", VInt 3); (py "a", VInt 2)] [py "verbose"] None);
     (py "x", VInt 1);
     (py "y", VTuple [VInt 1; VList [VNone]; VDict [(VNone, VInt 3)]])] [] None.
(** A sort of dictionary items that is total (any order does). *)
Definition as_given (d : list (value * value)) : res (list (value * value)) := Ok d.
Lemma as_given_permutes : forall d d', as_given d = Ok d' -> Permutation d d'.
Proof. intros d d' [= <-]. reflexivity. Qed.

(** C12: positional_id is name(v1,v2,...) with the texts of the values below the configuration in key order, depth first; it fails iff
    one of these texts fails. [below] in SpecWhat.v says which values. *)
Theorem C12_positional_id : forall sorted_items non_ids_too name conf nonids out,
  let texts := mapM (fun v => do t <- build v; match t with Some s => Ok s | None => Err TypeError end)
                    (below non_ids_too (VWhat name conf nonids out)) in
  positional_id sorted_items non_ids_too (VWhat name conf nonids out)
  = match texts with
    | Ok ts => Ok (match out with None => [] | Some o => o ++ py "=" end ++ name ++ py "(" ++ join (py ",") ts ++ py ")")
    | Err e => Err e
    end.
Proof.
  intros si all n c ni o texts. rewrite WhatFacts.positional_eq. subst texts.
  change (fun v : value => do t <- build v; match t with Some s => Ok s | None => Err TypeError end) with (fun v : value => do t <- build v; joined t).
  destruct (mapM _ _); cbn [bind]; [|reflexivity]. destruct o; cbn [with_out app]; [|reflexivity]. now rewrite <- !app_assoc.
Qed.
Print Assumptions C12_positional_id.
(** The values below a configuration are those of its keys, in alphabetical order, each one before those below it. *)
Theorem C12_below : forall non_ids_too name conf nonids out, exists conf',
  Permutation conf' (visible non_ids_too nonids conf) /\ StronglySorted (fun a b => alphabetical (fst a) (fst b)) conf' /\
  below non_ids_too (VWhat name conf nonids out) = flat_map (fun kv => snd kv :: below non_ids_too (snd kv)) conf'.
Proof.
  intros all n c ni o. exists (id_conf all ni c). split; [|split].
  - unfold id_conf. rewrite WhatFacts.filter_sort_items'. apply Permutation_sym, PyFacts.sort_items_perm_self.
  - unfold id_conf. rewrite WhatFacts.filter_sort_items'. apply AlphaFacts.alpha_sorted, PyFacts.sort_by_sorted; [apply PyFacts.key_leb_total|apply PyFacts.key_leb_trans].
  - cbn [below]. rewrite (WhatFacts.id_conf_map (fun v => v :: below all v)). rewrite flat_map_concat_map, map_map. cbn [snd]. now rewrite <- flat_map_concat_map.
Qed.
Print Assumptions C12_below.
(** Without nested configurations it is the id without the keys: k1=t1,...,kn=tn becomes t1,...,tn. *)
Theorem C12_flat : forall sorted_items non_ids_too name conf nonids s,
  (forall k v, In (k, v) conf -> below non_ids_too v = [] /\ match strip_what v with VWhat _ _ _ _ => False | _ => True end) ->
  what_id non_ids_too (VWhat name conf nonids None) = Ok s ->
  exists kts : list (pystr * pystr),
    Permutation (map fst kts) (map fst (visible non_ids_too nonids conf)) /\ StronglySorted alphabetical (map fst kts) /\
    s = name ++ py "(" ++ join (py ",") (map (fun kt => fst kt ++ py "=" ++ snd kt) kts) ++ py ")" /\
    positional_id sorted_items non_ids_too (VWhat name conf nonids None) = Ok (name ++ py "(" ++ join (py ",") (map snd kts) ++ py ")").
Proof.
  intros si all n c ni s Hf Hs.
  destruct (@GetFacts.positional_flat si all n c ni None s) as (ts & HF & E & Hp); auto.
  { intros k v Hin. apply (Hf k v Hin). }
  exists (combine (map fst (id_conf all ni c)) ts).
  assert (Hlen := PyFacts.Forall2_length HF). clear HF. cbn [with_out] in *. rewrite Hp, E. clear - Hlen.
  assert (H : map fst (combine (map fst (id_conf all ni c)) ts) = map fst (id_conf all ni c) /\
              map (fun kt : pystr * pystr => fst kt ++ py "=" ++ snd kt) (combine (map fst (id_conf all ni c)) ts)
              = map (fun kt : (pystr * value) * pystr => fst (fst kt) ++ py "=" ++ snd kt) (combine (id_conf all ni c) ts) /\
              map snd (combine (map fst (id_conf all ni c)) ts) = ts).
  { revert ts Hlen. induction (id_conf all ni c) as [|[k v] l IH]; intros [|t ts] H; try discriminate H; cbn [map combine fst snd]; auto.
    destruct (IH ts) as (H1 & H2 & H3); [now injection H|]. rewrite H1, H2, H3. auto. }
  destruct H as (H1 & H2 & H3). unfold pystr in *. rewrite H1, H2, H3. split; [|split; [|auto]].
  - unfold id_conf. rewrite WhatFacts.filter_sort_items'. apply Permutation_map. apply Permutation_sym, PyFacts.sort_items_perm_self.
  - unfold id_conf. rewrite WhatFacts.filter_sort_items'. assert (S : StronglySorted (fun x y => key_leb x y = true) (sort_items (visible all ni c))) by (apply PyFacts.sort_by_sorted; [apply PyFacts.key_leb_total|apply PyFacts.key_leb_trans]).
    apply (AlphaFacts.alpha_sorted fst) in S. unfold visible in S. clear - S. revert S. match goal with |- context [sort_items ?l] => generalize (sort_items l) end.
    intros l S. induction S as [|x l _ IH F]; cbn [map]; constructor; auto. apply Forall_map. exact F.
Qed.
Print Assumptions C12_flat.
(** The order of the configuration dictionary does not matter. *)
Theorem C12_order : forall sorted_items non_ids_too name conf1 conf2 nonids out,
  NoDup (map fst conf1) -> Permutation conf1 conf2 ->
  positional_id sorted_items non_ids_too (VWhat name conf1 nonids out) = positional_id sorted_items non_ids_too (VWhat name conf2 nonids out).
Proof. intros. rewrite !WhatFacts.positional_eq. now rewrite (GetFacts.below_perm non_ids_too name nonids out H H0). Qed.
Print Assumptions C12_order.
Example C12_hypotheses_met :
  below false tree = [VInt 1; VTuple [VInt 1; VList [VNone]; VDict [(VNone, VInt 3)]];
                      VWhat (py "in") [(py "b", VStr (py "s")); (py "verbose", VInt 3); (py "a", VInt 2)] [py "verbose"] None; VInt 2; VStr (py "s")] /\
  positional_id as_given false tree = Ok (py "w(1,(1,[None],{None:3}),in(a=2,b='s'),2,'s')") /\
  positional_id as_given true tree = Ok (py "w(1,(1,[None],{None:3}),in(a=2,b='s'),2,'s',3)") /\
  positional_id as_given false (VWhat (py "w") [(py "b", VInt 2); (py "a", VInt 1)] [] (Some (py "o"))) = Ok (py "o=w(1,2)").
Proof. repeat split; vm_compute; reflexivity. Qed.

(** C13: flatten lists exactly the addresses that can be walked down... *)
Theorem C13_flatten_lists_addresses : forall sorted_items, (forall d d', sorted_items d = Ok d' -> Permutation d d') ->
  forall non_ids_too collections_too recursive w kvs, flatten sorted_items non_ids_too collections_too recursive w = Ok kvs ->
  forall k v, In (k, v) kvs <-> exists p, k = shown p /\ addr non_ids_too collections_too recursive w p v.
Proof. intros si Hs all colls deep w kvs H. exact (WhatFacts.flatten_addr Hs all colls deep w H). Qed.
Print Assumptions C13_flatten_lists_addresses.
(** ... once each, whatever the flags... *)
Theorem C13_keys_differ : forall sorted_items, (forall d d', sorted_items d = Ok d' -> Permutation d d') ->
  forall non_ids_too collections_too recursive name conf nonids out kvs, keyed (VWhat name conf nonids out) = true ->
  flatten sorted_items non_ids_too collections_too recursive (VWhat name conf nonids out) = Ok kvs ->
  distinct (map fst kvs) = true.
Proof. intros si Hs all colls deep n c ni o kvs Hw H. exact (@WhatFacts.flatten_distinct si Hs all colls deep n c ni o kvs Hw H). Qed.
Print Assumptions C13_keys_differ.
(** ... [] gives the value of each key; keys() and values() are aligned... *)
Theorem C13_getitem : forall sorted_items, (forall d d', sorted_items d = Ok d' -> Permutation d d') ->
  forall non_ids_too collections_too recursive name conf nonids out ks, let w := VWhat name conf nonids out in
  keyed w = true -> keys sorted_items non_ids_too collections_too recursive w = Ok ks ->
  exists vs, values sorted_items non_ids_too collections_too recursive w = Ok vs /\ List.length vs = List.length ks /\
    forall i k v, nth_error ks i = Some k -> nth_error vs i = Some v -> getitem w k = Ok v.
Proof.
  intros si Hs all colls deep n c ni o ks w Hw. unfold keys, values.
  destruct (flatten si all colls deep w) as [kvs|] eqn:E; cbn [bind]; [|discriminate]. intros [= <-].
  exists (map snd kvs). split; [reflexivity|]. split; [now rewrite !map_length|]. intros i k v Hk Hv.
  rewrite nth_error_map in Hk, Hv. destruct (nth_error kvs i) as [[k' v']|] eqn:En; cbn in Hk, Hv; [|discriminate].
  injection Hk as ->. injection Hv as ->. apply nth_error_In in En.
  apply (WhatFacts.flatten_addr Hs _ _ _ _ E) in En as (p & -> & Ha). eapply WhatFacts.getitem_addr; eauto.
Qed.
Print Assumptions C13_getitem.
(** ... and it always succeeds, as long as the keys of the dictionaries that are visited can be compared. *)
Theorem C13_flatten_total : forall sorted_items, (forall d d', sorted_items d = Ok d' -> Permutation d d') ->
  forall non_ids_too collections_too recursive w, (collections_too = true -> forall d, exists d', sorted_items d = Ok d') ->
  exists kvs, flatten sorted_items non_ids_too collections_too recursive w = Ok kvs.
Proof. intros si Hs all colls deep w H. exact (WhatFacts.flatten_total Hs all deep w H). Qed.
Print Assumptions C13_flatten_total.
Example C13_hypotheses_met :
  (forall d d', as_given d = Ok d' -> Permutation d d') /\ keyed tree = true /\
  keys as_given false true true tree
  = Ok [VStr (py "x"); VStr (py "y"); VTuple [VStr (py "y"); VInt 0]; VTuple [VStr (py "y"); VInt 1]; VTuple [VStr (py "y"); VInt 1; VInt 0];
        VTuple [VStr (py "y"); VInt 2]; VTuple [VStr (py "y"); VInt 2; VNone]; VStr (py "z"); VTuple [VStr (py "z"); VStr (py "a")];
        VTuple [VStr (py "z"); VStr (py "b")]] /\
  getitem tree (VTuple [VStr (py "y"); VInt 2; VNone]) = Ok (VInt 3) /\
  keys as_given false false false tree = Ok [VStr (py "x"); VStr (py "y"); VStr (py "z")].
Proof. split; [exact as_given_permutes|]. repeat split; vm_compute; reflexivity. Qed.

(** C14: get finds what is there... *)
Theorem C14_found : forall name conf nonids out p v default, let w := VWhat name conf nonids out in
  keyed w = true -> p <> [] -> leads w p v -> get w (shown p) default = Ok v.
Proof. intros n c ni o p v d w. exact (@GetFacts.get_found n c ni o p v d). Qed.
Print Assumptions C14_found.
(** ... and gives the default when a key is missing, at any depth, in a configuration or dictionary... *)
Theorem C14_missing : forall name conf nonids out p x k q default, let w := VWhat name conf nonids out in
  keyed w = true -> leads w p x -> lacks x k -> forallb hashable q = true -> get w (shown (p ++ k :: q)) default = Ok default.
Proof. intros n c ni o p x k q d w. exact (@GetFacts.get_missing n c ni o p x k q d). Qed.
Print Assumptions C14_missing.
(** ... but it always raises AttributeError for a path that goes on after a number, None, a set or other objects... *)
Theorem C14_beyond_scalar_raises : forall name conf nonids out p x k q default, let w := VWhat name conf nonids out in
  keyed w = true -> leads w p x -> atomic x = true -> forallb hashable (k :: q) = true ->
  get w (shown (p ++ k :: q)) default = Err AttributeError.
Proof. intros n c ni o p x k q d w. exact (@GetFacts.get_atomic n c ni o p x k q d). Qed.
Print Assumptions C14_beyond_scalar_raises.
(** ... and IndexError for an index over the end of a list or tuple: the property as first stated is false. *)
Theorem C14_index_raises : forall name conf nonids out p x l i q default, let w := VWhat name conf nonids out in
  keyed w = true -> leads w p x -> seq_items x = Some l -> List.length l <= i -> forallb hashable q = true ->
  get w (shown (p ++ VInt (Z.of_nat i) :: q)) default = Err IndexError.
Proof. intros n c ni o p x l i q d w. exact (@GetFacts.get_index n c ni o p x l i q d). Qed.
Print Assumptions C14_index_raises.
Theorem C14_missing_gives_default_refuted :
  get tree (VTuple [VStr (py "x"); VStr (py "a")]) VNone = Err AttributeError /\
  get tree (VTuple [VStr (py "y"); VInt 7]) VNone = Err IndexError.
Proof. split; vm_compute; reflexivity. Qed.
Print Assumptions C14_missing_gives_default_refuted.
Example C14_hypotheses_met :
  keyed tree = true /\ (exists v, leads tree [VStr (py "z"); VStr (py "verbose")] v) /\
  (exists x, leads tree [VStr (py "z")] x /\ lacks x (VStr (py "nope"))) /\
  (exists x, leads tree [VStr (py "y"); VInt 2] x /\ lacks x (VInt 5)) /\
  (exists x, leads tree [VStr (py "x")] x /\ atomic x = true) /\
  get tree (VTuple [VStr (py "z"); VStr (py "nope")]) (VInt 9) = Ok (VInt 9) /\
  get tree (VStr (py "nope")) (VInt 9) = Ok (VInt 9) /\
  get tree (VTuple [VStr (py "z"); VStr (py "verbose")]) VNone = Ok (VInt 3).
Proof.
  assert (Z : leads tree [VStr (py "z")] (VWhat (py "in") [(py "b", VStr (py "s")); (py "verbose", VInt 3); (py "a", VInt 2)] [py "verbose"] None)).
  { eapply leads_step; [|apply leads_here]. apply step_child, child_what; [cbn; auto|auto]. }
  repeat split; try (vm_compute; reflexivity).
  - exists (VInt 3). eapply leads_step; [|eapply leads_step; [|apply leads_here]].
    + apply step_child, child_what; [left; reflexivity|auto].
    + apply step_child, child_what; [right; left; reflexivity|auto].
  - eexists. split; [exact Z|]. apply lacks_what; [exact I|reflexivity|]. intros s v H.
    repeat (destruct H as [H|H]; [injection H as <- <-; discriminate|]). destruct H.
  - eexists. split.
    + eapply leads_step; [apply step_child, child_what; [right; right; left; reflexivity|auto]|].
      change (VInt 2) with (VInt (Z.of_nat 2)). eapply leads_step; [eapply step_child, child_seq; reflexivity|apply leads_here].
    + eapply lacks_dict; [reflexivity|reflexivity|]. intros k v [[= <- <-]|[]]. reflexivity.
  - exists (VInt 1). split; [|reflexivity]. eapply leads_step; [apply step_child, child_what; [right; left; reflexivity|auto]|apply leads_here].
Qed.

(** C16: equality of What objects compares name, out_name, the set of keys and the values of each key (with [==]), nothing else. *)
Theorem C16_what_eq : forall n1 c1 ni1 o1 n2 c2 ni2 o2, NoDup (map fst c1) -> NoDup (map fst c2) ->
  py_eq (VWhat n1 c1 ni1 o1) (VWhat n2 c2 ni2 o2) = true <->
  n1 = n2 /\ o1 = o2 /\ (forall k, In k (map fst c1) <-> In k (map fst c2)) /\
  (forall k v1 v2, In (k, v1) c1 -> In (k, v2) c2 -> py_eq v1 v2 = true).
Proof. intros. now apply EqFacts.eq_what. Qed.
Print Assumptions C16_what_eq.
(** It is an equivalence relation on plain data without nan. *)
Theorem C16_reflexive : forall w, comparable w = true -> py_eq w w = true.
Proof. exact EqFacts.py_eq_refl. Qed.
Print Assumptions C16_reflexive.
Theorem C16_symmetric : forall w1 w2, comparable w1 = true -> comparable w2 = true -> py_eq w1 w2 = py_eq w2 w1.
Proof. exact EqFacts.py_eq_sym. Qed.
Print Assumptions C16_symmetric.
Theorem C16_transitive : forall w1 w2 w3, comparable w1 = true -> comparable w2 = true -> comparable w3 = true ->
  py_eq w1 w2 = true -> py_eq w2 w3 = true -> py_eq w1 w3 = true.
Proof. exact EqFacts.py_eq_trans. Qed.
Print Assumptions C16_transitive.
(** Plain configurations without non-id keys and with the same id are equal... *)
Theorem C16_same_id_equal : forall w1 w2, plain_what false w1 = true -> plain_what false w2 = true ->
  all_ids w1 = true -> all_ids w2 = true -> comparable w1 = true -> what_id false w1 = what_id false w2 -> py_eq w1 w2 = true.
Proof. exact DictFacts.same_id_eq. Qed.
Print Assumptions C16_same_id_equal.
(** ... but equal ones can have different ids: numbers are equal across types, and non-id keys are not compared. *)
Theorem C16_equal_same_id_refuted :
  (py_eq (one (VInt 1)) (one (VBool true)) = true /\ what_id false (one (VInt 1)) <> what_id false (one (VBool true))) /\
  (let a := VWhat (py "w") [(py "k", VInt 1)] [] None in let b := VWhat (py "w") [(py "k", VInt 1)] [py "k"] None in
   py_eq a b = true /\ what_id false a <> what_id false b) /\
  py_eq (one (VFloat FNan)) (one (VFloat FNan)) = false.
Proof. repeat split; vm_compute; discriminate. Qed.
Print Assumptions C16_equal_same_id_refuted.
Example C16_hypotheses_met :
  let w := VWhat (py "w") [(py "a", VSet [VInt 1; VStr (py "x")]); (py "b", VDict [(VInt 1, VNone); (VInt 2, VFloat (FFin false (py "15") 1))])] [] None in
  let w' := VWhat (py "w") [(py "b", VDict [(VInt 2, VFloat (FFin false (py "15") 1)); (VFloat (FFin false (py "1") 1), VNone)]); (py "a", VFrozen [VStr (py "x"); VBool true])] [] None in
  comparable w = true /\ comparable w' = true /\ comparable tree = true /\ py_eq w w' = true /\ all_ids w = true /\ plain_what false w = true /\
  py_eq w tree = false.
Proof. repeat split; vm_compute; reflexivity. Qed.

(** C17: to_dict() gives the dictionary of the configuration. *)
Theorem C17_to_dict : forall lookup : environ, (forall m c v, lookup m c = Ok v -> wf_keys v = true) ->
  forall fuel nonids_too w, vsize w < fuel -> wf_keys w = true ->
  parseable_what lookup nonids_too w = true -> stable_what nonids_too w = true ->
  exists d, to_dict lookup fuel nonids_too w = Ok d /\ dict_for nonids_too w d.
Proof.
  intros lookup HL n all w Hn HW HP HS. destruct (@DictFacts.to_dict_shape lookup HL n all w Hn HW HP HS) as (s & d & Hs & Hd & Hf).
  exists d. unfold to_dict. rewrite Hs. auto.
Qed.
Print Assumptions C17_to_dict.
(** It contains no What objects if none is inside of a collection... *)
Theorem C17_no_whats : forall nonids_too w d, dict_for nonids_too w d -> nested_directly nonids_too w = true -> whatless d = true.
Proof. intros all w d. apply (@DictFacts.dict_whatless (S (vsize w))). apply Nat.lt_succ_diag_r. Qed.
Print Assumptions C17_no_whats.
(** ... but the ones inside of collections stay there: the property as first stated is false. *)
Theorem C17_plain_data_refuted :
  to_dict world 9 false (one (VList [VWhat (py "a") [(py "b", VInt 1)] [] None]))
  = Ok (VDict [(VStr (py "whatami_name"), VStr (py "w")); (VStr (py "whatami_out_name"), VNone);
               (VStr (py "whatami_conf"), VDict [(VStr (py "k"), VList [VWhat (py "a") [(py "b", VInt 1)] [] None])])]).
Proof. vm_compute. reflexivity. Qed.
Print Assumptions C17_plain_data_refuted.
Example C17_hypotheses_met :
  wf_keys tree = true /\ parseable_what world false tree = true /\ stable_what false tree = true /\ nested_directly false tree = true /\
  to_dict world 3 false (one (VWhat (py "a") [(py "b", VInt 1)] [] (Some (py "o"))))
  = Ok (VDict [(VStr (py "whatami_name"), VStr (py "w")); (VStr (py "whatami_out_name"), VNone);
               (VStr (py "whatami_conf"),
                VDict [(VStr (py "k"), VDict [(VStr (py "whatami_name"), VStr (py "a")); (VStr (py "whatami_out_name"), VStr (py "o"));
                                              (VStr (py "whatami_conf"), VDict [(VStr (py "b"), VInt 1)])])])]).
Proof. repeat split; vm_compute; reflexivity. Qed.

(** C11 for positional_id: the length limit works as for id. *)
Theorem C11_positional : forall sorted_items sha1 non_ids_too m w s,
  positional_id sorted_items non_ids_too w = Ok s ->
  positional_id_max sorted_items sha1 non_ids_too m w
  = if (Z.leb m 0 || Z.leb (Z.of_nat (List.length s)) m)%bool then Ok s else if encodable s then Ok (sha1 s) else Err AttributeError.
Proof. intros si sha1 all m w s H. unfold positional_id_max. rewrite H. cbn [bind]. apply IdFacts.trim_cases. Qed.
Print Assumptions C11_positional.
Example C11_positional_hypotheses_met :
  positional_id as_given false (one (VInt 1)) = Ok (py "w(1)") /\
  positional_id_max as_given (fun _ => repeat 97%N 40) false 3 (one (VInt 1)) = Ok (repeat 97%N 40) /\
  positional_id_max as_given (fun _ => repeat 97%N 40) false 4 (one (VInt 1)) = Ok (py "w(1)").
Proof. repeat split; vm_compute; reflexivity. Qed.
