(** * Properties_Attributes: C120. *)
From Verif Require Import PyBase DictFacts Attributes SpecAttr LexFacts LexFacts2 GrammarFacts GrammarFacts2 ReprFacts.
Local Open Scope string_scope.
Local Open Scope list_scope.

(** C120: a line of functions is read as the functions that the grammar gives, item by item, and as nothing else *)
Theorem C120_line : forall line l, get_attributes line = Ok l <-> Forall2 item_means (items_of line) l.
Proof. exact attributes_iff. Qed.
Print Assumptions C120_line.
(** a line that the grammar does not give ends the program *)
Theorem C120_exit : forall line, (forall l, ~ Forall2 item_means (items_of line) l) <-> get_attributes line = Raise SystemExit.
Proof.
  intros line. split.
  - intros H. destruct (get_attributes line) as [l|e] eqn:E; [apply attributes_iff in E; now apply H in E|]. now rewrite (attributes_exit _ _ E).
  - intros H l K. apply attributes_iff in K. congruence.
Qed.
Print Assumptions C120_exit.
(** the grammar gives an item one meaning at most *)
Theorem C120_one_meaning : forall line l l', Forall2 item_means (items_of line) l -> Forall2 item_means (items_of line) l' -> l = l'.
Proof. intros line l l' H H'. apply attributes_iff in H, H'. congruence. Qed.
Print Assumptions C120_one_meaning.
(** what Python prints for the arguments is read as these arguments, whatever they are *)
Theorem C120_round_trip : forall l, l <> [] -> Forall call_ok l -> get_attributes (join ["|"%char] (map padded l)) = Ok (map call_of l).
Proof. exact line_of_calls. Qed.
Print Assumptions C120_round_trip.

(** non-vacuity: the grammar at work *)
Definition x120_call : padded_call :=
  ($"  ", ($"let", [VInt (-12); VStr $"a'b""c\"; VList [VNone; VBool true; VDict [(KS $"k", VInt 0); (KI 3, VList [])]]], [($"default", VStr [nl; chr 200; chr 1])]), $" ").
Example C120_ex_text : padded x120_call = $"  let(-12, 'a\'b""c\\', [None, True, {'k': 0, 3: []}], default='\n" ++ [chr 200] ++ $"\x01') ".
Proof. vm_compute. reflexivity. Qed.
Example C120_ex_ok : call_ok x120_call.
Proof.
  cbv [x120_call call_ok]. split; [now repeat constructor|]. split; [now repeat constructor|]. split; [split; [discriminate|repeat (apply Forall_cons; [vm_compute; repeat split; discriminate|]); constructor]|].
  split; [repeat (apply Forall_cons; [|]); try apply Forall_nil; try constructor|].
  - repeat (apply Forall_cons; [|]); try apply Forall_nil; try constructor; cbn [map fst].
    + constructor; [intros [K|[]]; discriminate|]. constructor; [intros []|constructor].
    + constructor; [constructor|]. constructor; [|constructor]. constructor. constructor.
  - split; [|split].
    + apply Forall_cons; [|constructor]. cbn [fst snd]. split; [|constructor]. exists "d"%char, $"efault". split; [reflexivity|]. split; [unfold a_letter; cbn; now right; left|].
      repeat (apply Forall_cons; [left; unfold a_letter; cbn; right; left; split; discriminate|]). constructor.
    + split; cbn [map fst]; [constructor; [intros []|constructor]|]. constructor; [|constructor]. split; intros K; vm_compute in K; repeat (destruct K as [K|K]; [discriminate|]); exact K.
    + vm_compute. intros K. repeat (destruct K as [K|K]; [discriminate|]). exact K.
Qed.
Example C120_ex_read : get_attributes (join ["|"%char] (map padded [x120_call; ([], ($"upper", [], []), $" ")])) = Ok (map call_of [x120_call; ([], ($"upper", [], []), $" ")]).
Proof. vm_compute. reflexivity. Qed.
(** other ways of writing arguments *)
Example C120_ex_ways :
  get_attributes $"f(a, FALSE, r'\d' '\101\x42\d', {x: 1, x: 2,}, (3), k=none,) | g ( 0 ) ||" =
  Ok [{| at_name := $"f"; at_args := [VStr $"a"; VBool false; VStr $"\dAB\d"; VDict [(KS $"x", VInt 2)]; VInt 3]; at_kwargs := [(KS $"k", VNone)] |};
      {| at_name := $"g"; at_args := [VInt 0]; at_kwargs := [] |}].
Proof. vm_compute. reflexivity. Qed.
Example C120_ex_exit : map get_attributes [$"f(a, k=1, 2)"; $"f(k=1, k=2)"; $"f(lambda)"; $"f(01)"; $"f(a b)"; $"f('a)"; $"a b"; $"f(,)"; $"f([1)"; $"f(import=1)"] = repeat (Raise SystemExit) 10.
Proof. vm_compute. reflexivity. Qed.
