(** * ApiFacts3: one text and one parse are the program of RunSeen.v; a path is its texts. *)
From Verif Require Import PyBase DictFacts Results Template Attributes FormRegex MatchVar MatchFuncs GroupFuncs Parser Compile FuncTable Session Files Inputs OutputTags Load Run SpecSession SessionFacts RunSeen SpecSeen SeenRefine Api SpecApi ApiFacts.
Local Open Scope string_scope.
Local Open Scope list_scope.

Section W.
Variables (clock : str -> option val) (k2i : bool) (order : list nat -> list nat) (w : world) (base : str).
Local Notation do_ := (Api.do_call clock k2i order w base).

(** adding an input to each template changes nothing but the inputs, and the outputs do not matter for it *)
Definition input_fun (x : val * str) (t : tmpl) : tmpl :=
  match load_input w (fst x) with [] => t | items => if selected (snd x) t then update_input [] order t $"Default_Input" [$"all"] items else t end.
Definition inputs_fun (texts : list (val * str)) (t : tmpl) : tmpl := fold_left (fun t x => input_fun x t) texts t.
Lemma add_texts_map texts : forall s, add_texts order w texts s = set_templates s (map (inputs_fun texts) (ss_templates s)).
Proof.
  unfold add_texts. induction texts as [|x texts IH]; intros s; cbn [fold_left].
  - unfold inputs_fun. cbn [fold_left]. rewrite map_id. now destruct s.
  - rewrite IH. unfold add_input. replace (map (inputs_fun (x :: texts)) (ss_templates s)) with (map (inputs_fun texts) (map (input_fun x) (ss_templates s))) by (rewrite map_map; reflexivity).
    assert (K : map (input_fun x) (ss_templates s) = match load_input w (fst x) with [] => ss_templates s | items => map (fun t => if selected (snd x) t then update_input [] order t $"Default_Input" [$"all"] items else t) (ss_templates s) end).
    { unfold input_fun. destruct (load_input w (fst x)); [apply map_id|reflexivity]. }
    rewrite K. destruct (load_input w (fst x)); [reflexivity|]. reflexivity.
Qed.
Lemma input_fun_outputs x t l : input_fun x (set_outputs t l) = set_outputs (input_fun x t) l.
Proof.
  unfold input_fun. destruct (load_input w (fst x)) as [|d ds]; [reflexivity|]. change (selected (snd x) (set_outputs t l)) with (selected (snd x) t).
  destruct (selected (snd x) t); [|reflexivity]. unfold update_input. change (t_inputs (set_outputs t l)) with (t_inputs t). now destruct (aget (t_inputs t) $"Default_Input").
Qed.
Lemma inputs_fun_outputs texts : forall t l, inputs_fun texts (set_outputs t l) = set_outputs (inputs_fun texts t) l.
Proof.
  induction texts as [|x texts IH]; intros t l; [reflexivity|]. change (inputs_fun (x :: texts) (set_outputs t l)) with (inputs_fun texts (input_fun x (set_outputs t l))).
  now rewrite input_fun_outputs, IH.
Qed.
Lemma outputs_later texts ts : forall ms n,
  length ms = length ts ->
  map (fun x => set_outputs (fst x) (t_outputs (template_of (snd (snd x)) (t_id (fst x), fst (snd x))))) (combine (map (inputs_fun texts) (map (template_of []) (number n ts))) (combine ts ms)) =
  map (inputs_fun texts) (map (fun x => template_of (snd x) (fst x)) (combine (number n ts) ms)).
Proof.
  induction ts as [|t ts IH]; intros [|m ms] n L; try discriminate; [reflexivity|]. cbn [number map combine fst snd]. rewrite IH by (cbn in L; congruence). f_equal.
  rewrite <- inputs_fun_outputs. reflexivity.
Qed.
Definition inputs_of_texts (texts : list (val * str)) : list call := map (fun x => AddInput (fst x) $"Default_Input" (snd x) []) texts.
Lemma calls_inputs texts : forall o, rfold do_ (inputs_of_texts texts) o = Ok (with_session o (add_texts order w texts (o_session o))).
Proof.
  unfold add_texts. induction texts as [|x texts IH]; intros o; cbn [inputs_of_texts map rfold fold_left]; [now destruct o|]. cbn [do_call rbind]. fold (inputs_of_texts texts). now rewrite IH.
Qed.
Theorem calls_seen vars text texts structure : template_texts w (VStr text) = Ok [text] ->
  ttp_calls clock k2i order w base (AddTemplate (VStr text) :: inputs_of_texts texts ++ [ParseOne]) vars [] structure = ttp_seen clock k2i order w base vars text texts structure.
Proof.
  intros E. unfold ttp_calls, run, ttp_seen. cbn [rfold do_call]. unfold add_template. rewrite E. cbn [rbind rmap created o_vars o_tpls o_session].
  destruct (load_template w order base vars text) as [ts|e]; cbn [rbind]; [|reflexivity]. cbn [concat app length]. rewrite app_nil_r, rfold_app, calls_inputs. cbn [rbind rfold do_call].
  cbn [with_session o_session o_tpls]. rewrite add_texts_map. cbn [ss_templates set_templates session_of map combine number app].
  unfold parse_now, parsed_seen. cbv zeta. rewrite add_texts_map.
  assert (K : with_outputs ts (set_templates (set_templates (session_of []) (map (template_of []) (number 0 ts))) (map (inputs_fun texts) (map (template_of []) (number 0 ts)))) =
              set_templates (session_of ts) (map (inputs_fun texts) (ss_templates (session_of ts)))).
  { unfold with_outputs. cbn [ss_templates set_templates session_of]. rewrite outputs_later by apply macros_len. reflexivity. }
  change (map (template_of []) (number 0 ts)) with (map (template_of []) (Load.number 0 ts)) in *. rewrite K.
  destruct (data_size _ _ _); cbn [rbind]; [|reflexivity]. destruct (each_seen _ _ _ _ _ _ _) as [[g l]|]; cbn [rbind]; [|reflexivity].
  destruct (rmap run_outputs l); cbn [rbind]; reflexivity.
Qed.

(** ** a path is its texts *)
Theorem path_texts o path texts : template_texts w path = Ok texts -> Forall (fun x => template_texts w (VStr x) = Ok [x]) texts ->
  do_ o (AddTemplate path) = rfold do_ (map (fun x => AddTemplate (VStr x)) texts) o.
Proof.
  intros E F. cbn [do_call]. unfold add_template. rewrite E. cbn [rbind]. clear E. revert o. induction F as [|x texts E F IH]; intros o; cbn [rmap map rfold rbind].
  - rewrite app_nil_r. cbn. rewrite app_nil_r. destruct o as [v l s]. cbn. now destruct s.
  - cbn [do_call]. unfold add_template at 1. rewrite E. cbn [rbind rmap]. destruct (load_template w order base (o_vars o) x) as [ts|e]; cbn [rbind]; [|reflexivity].
    cbn [concat]. rewrite app_nil_r. rewrite <- IH. cbn [o_vars o_tpls o_session ss_templates set_templates].
    destruct (rmap (load_template w order base (o_vars o)) texts) as [tss|e]; cbn [rbind]; [|reflexivity]. cbn [concat]. rewrite number_app, map_app, app_length, !app_assoc. reflexivity.
Qed.
End W.
