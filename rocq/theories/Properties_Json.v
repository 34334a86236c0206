(** * C129: the json formatter's text. *)
From Verif Require Import PyBase Outputs JsonDump Files SpecVariable SpecAttr SpecFiles SpecOutput SpecJson.
From Verif Require Import DictFacts PyEqFacts JsonDumpFacts.
Local Open Scope string_scope.
Local Open Scope list_scope.

(** the text: sorted by keys, one item per line, indented by four *)
Theorem C129_text : forall v t, vok v -> (json_formatter v = Ok (VStr t) <-> printed 0 v t).
Proof.
  intros v t V. rewrite <- (dumps_iff v V). unfold json_formatter. destruct (json_dumps 0 v) as [x|e]; cbn [rbind]; [|split; discriminate]. split; intros K; congruence.
Qed.
Print Assumptions C129_text.
(** what has a text, and the only error *)
Theorem C129_total : forall v, vok v ->
  (serializable v /\ exists t, json_formatter v = Ok (VStr t)) \/ (~ serializable v /\ json_formatter v = Raise TypeError).
Proof.
  intros v V. unfold json_formatter. pose proof (serializable_iff v V 0) as S. destruct (json_dumps 0 v) as [x|e] eqn:D; cbn [rbind].
  - left. split; [apply S; eauto|eauto].
  - right. split; [intros K; apply S in K as [t K]; discriminate|]. now rewrite (dumps_raise _ _ _ D).
Qed.
Print Assumptions C129_total.
(** a JSON reader, such as that of a vars or lookup tag, gets the value back, with keys as texts *)
Theorem C129_read : forall v t, vok v -> json_formatter v = Ok (VStr t) -> exists v', json_loads t = Ok v' /\ read_back v v'.
Proof.
  intros v t V K. apply (dumps_loads v t V). unfold json_formatter in K. destruct (json_dumps 0 v) as [x|e]; cbn [rbind] in K; congruence.
Qed.
Print Assumptions C129_read.
(** the same value if all keys are texts *)
Theorem C129_same : forall v t, vok v -> text_keys v -> json_formatter v = Ok (VStr t) -> exists v', json_loads t = Ok v' /\ py_eq v v' = true.
Proof. intros v t V T K. destruct (C129_read v t V K) as (v' & L & R). exists v'. split; [exact L|]. apply py_eq_veq. now apply read_equal. Qed.
Print Assumptions C129_same.

Definition v129 : val :=
  VList [VDict [(KS (t_ "vlan"), VInt (-12)); (KS (t_ "if"), VList [VStr (t_ "Gi1" ++ [dquote; tab; chr 233]); VNone; VList []]); (KS (t_ "a"), VDict [])]; VBool true].
Definition out129 : list string :=
  ["[";
   "    {";
   "        'a': {},";
   "        'if': [";
   "            'Gi1\'\t\u00e9',";
   "            null,";
   "            []";
   "        ],";
   "        'vlan': -12";
   "    },";
   "    true";
   "]"].
Definition dq129 (s : string) : str := map (fun c => if Ascii.eqb c "'" then dquote else c) (t_ s).
Example C129_text_case : json_formatter v129 = Ok (VStr (join [nl] (map dq129 out129))).
Proof. vm_compute. reflexivity. Qed.
Lemma v129_ok : vok v129 /\ text_keys v129.
Proof.
  split.
  - apply vok_list. repeat (apply Forall_cons; [|]); [| |constructor]; [|constructor]. apply vok_dict.
    + repeat (constructor; [cbn; intuition discriminate|]). constructor.
    + repeat (apply Forall_cons; [cbn [snd]|]); [constructor| | |constructor].
      * apply vok_list. repeat (apply Forall_cons; [constructor|]); [|constructor]. constructor.
      * apply vok_dict; constructor.
  - apply tk_list. repeat (apply Forall_cons; [|]); [|apply tk_other; discriminate|constructor]. apply tk_dict.
    repeat (apply Forall_cons; [cbn [fst snd]; split; [now eexists|]|]); [apply tk_other; discriminate| | |constructor].
    + apply tk_list. repeat (apply Forall_cons; [apply tk_other; discriminate|]). apply Forall_cons; [|constructor]. apply tk_list. constructor.
    + apply tk_dict. constructor.
Qed.
Example C129_same_case : exists t v', json_formatter v129 = Ok (VStr t) /\ json_loads t = Ok v' /\ py_eq v129 v' = true.
Proof. exists (join [nl] (map dq129 out129)). destruct v129_ok as [V T]. destruct (C129_same v129 _ V T C129_text_case) as (v' & L & E). exists v'. split; [exact C129_text_case|now split]. Qed.
Example C129_total_case :
  json_formatter (VDict [(KS (t_ "a"), VInt 1); (KI 2, VInt 1)]) = Raise TypeError /\ json_formatter (VList [VObj 3]) = Raise TypeError /\
  json_formatter (VDict [(KI 10, VNone); (KI 9, VNone)]) = Ok (VStr (join [nl] (map dq129 ["{"; "    '9': null,"; "    '10': null"; "}"]))) /\
  json_formatter (VDict [(KNone, VBool false)]) = Ok (VStr (join [nl] (map dq129 ["{"; "    'null': false"; "}"]))).
Proof. vm_compute. repeat split. Qed.
(** with other keys it need not be the same *)
Theorem C129_limits : ~ (forall v t v', vok v -> json_formatter v = Ok (VStr t) -> json_loads t = Ok v' -> py_eq v v' = true).
Proof.
  intros H. specialize (H (VDict [(KI 1, VNone)]) (join [nl] (map dq129 ["{"; "    '1': null"; "}"])) (VDict [(KS (t_ "1"), VNone)])).
  assert (K : py_eq (VDict [(KI 1, VNone)]) (VDict [(KS (t_ "1"), VNone)]) = true); [|discriminate K].
  apply H; [|vm_compute; reflexivity|vm_compute; reflexivity]. apply vok_dict; [repeat (constructor; [intros []|]); constructor|repeat constructor].
Qed.
Print Assumptions C129_limits.
