(** * InputLoad: the structure that an input tag's text loads.
    Models the [parameters] of _input_class (ttp/ttp.py 1445, 1474-1480), which of them a template keeps when two tags have the
    same name (update_input, 1028-1055) and get_input_load (670-694).

    Simplification: the parameters are kept next to the input, not in it: nothing but the making of the object sets them. *)
From Verif Require Import PyBase Results Template Attributes MatchVar Compile FuncTable Loaders Session Files Inputs.
Local Open Scope string_scope.
Local Open Scope list_scope.

Section L.
Variable w : world.
Variable tgs : list tgroup.
(** get_attributes and extract_load: ttp.py 1474-1480, 1583-1595.  [p]: the parameters so far.  [depth] is that of [read_attrs] *)
Fixpoint read_params (depth : nat) (text : str) (data : dict) (l : dict) (p : dict) {struct depth} : res dict :=
  match depth with
  | O => out_of_model
  | S depth =>
      rfold (fun p kv =>
        match fst kv with
        | KS k =>
            if str_eqb (lower k) $"load" then
              match snd kv with
              | VStr s =>
                  if str_eqb (strip s) $"text" then Ok p
                  else do o <- load_struct w text (strs_of_dict data);
                       match o with
                       | None => Ok p
                       | Some x => if truthy x then
                                     match x with VDict d => read_params depth [] d d d | _ => Raise AttributeError end
                                   else Ok p
                       end
              | _ => Raise AttributeError
              end
            else Ok p
        | _ => Raise AttributeError
        end) l p
  end.
(** the name of a tag's input and its parameters: ttp.py 1426-1464 *)
Definition tag_load (base : str) (e : elem) : res (str * dict) :=
  do (n, _) <- tag_input w tgs base e; do p <- read_params 4 (e_text e) (tag_attrs e) (tag_attrs e) []; Ok (n, p).
(** the object of the first tag of a name stays: ttp.py 1048-1055 *)
Definition keep_first (l : list (str * dict)) (np : str * dict) : list (str * dict) :=
  match aget l (fst np) with Some _ => l | None => aset l (fst np) (snd np) end.
Definition template_loads (base : str) (tags : list elem) : res (list (str * dict)) :=
  do nps <- rmap (tag_load base) tags; Ok (fold_left keep_first nps []).
End L.

(** ** get_input_load: ttp.py 689-694.  Each template comes with the loads of its tags; an input that no tag has made, of
    add_input or of a group's input attribute, has the parameters {} of ttp.py 1445 *)
Definition params_of (ls : list (str * dict)) (n : str) : dict := match aget ls n with Some p => p | None => [] end.
Section G.
Context {Fn : Type}.
Definition inputs_load (t : @template Fn) (ls : list (str * dict)) : dict :=
  fold_left (fun d ni => dset d (KS (fst ni)) (VDict (params_of ls (fst ni)))) (t_inputs t) [].
Definition get_input_load (ts : list (@template Fn * list (str * dict))) : dict :=
  fold_left (fun ret x => dset ret (KS (t_name (fst x))) (VDict (inputs_load (fst x) (snd x)))) ts [].
End G.
