(** * C128: the host name of the data, and the outputs of commands. *)
From Verif Require Import PyBase Regex Template Attributes FuncTable Loaders Session Files Inputs SpecVariable SpecText SpecHost.
From Verif Require Import StrFacts TextFacts HostFacts CommandFacts.
Local Open Scope string_scope.
Local Open Scope list_scope.

(** the host name that gethostname gives *)
Theorem C128_hostname : forall text h, gethostname text = Some h <-> host_in text h.
Proof. exact hostname_iff. Qed.
Print Assumptions C128_hostname.
(** it gives none exactly if no line looks like a prompt *)
Theorem C128_no_hostname : forall text, gethostname text = None <-> forall ls p, inner_lines text ls -> never p ls.
Proof. exact no_hostname. Qed.
Print Assumptions C128_no_hostname.
Definition lines128 (l : list string) : str := [nl] ++ join [nl] (map t_ l) ++ [nl; nl].
Example C128_hostname_case :
  gethostname (lines128 ["uptime 5"; "switch-1#show run"; "x>y#"]) = Some (t_ "switch-1") /\
  (* the order of the prompts goes before the order of the lines *)
  gethostname (lines128 ["host-b>"; "RP/0/4/CPU0:host-a#show ver"]) = Some (t_ "host-a") /\
  gethostname (lines128 ["*A:ALA-12>config>system# info"]) = Some (t_ "ALA-12") /\
  gethostname (lines128 ["some.user@router-fw-host> show"]) = Some (t_ "router-fw-host") /\
  gethostname (lines128 ["<quidway>dis cur"]) = Some (t_ "quidway") /\
  gethostname (lines128 ["forti-1 (Default) # get system"]) = Some (t_ "forti-1 (Default)") /\
  (* the longest host *)
  gethostname (lines128 ["a#b#c d#"]) = Some (t_ "a#b") /\
  (* the first and the last line do not count *)
  gethostname (t_ "sw1#show" ++ [nl] ++ t_ "sw2#") = None /\
  gethostname ([nl] ++ [chr 239; chr 187; chr 191] ++ t_ "sw1#" ++ [nl]) = Some (t_ "sw1").
Proof. vm_compute. repeat split. Qed.
Example C128_no_hostname_case : forall ls p, inner_lines (t_ "sw1#show" ++ [nl] ++ t_ "sw2#") ls -> never p ls.
Proof. apply C128_no_hostname. vm_compute. reflexivity. Qed.

(** extract_commands, for commands and host names that are plain text *)
Theorem C128_commands : forall ms cmds text r, Forall command_ok cmds -> (forall h, host_in text h -> plain h) ->
  input_call ms text {| at_name := t_ "extract_commands"; at_args := map VStr cmds; at_kwargs := [] |} = Ok (r, true) <-> commands_give cmds text r.
Proof. exact commands_iff. Qed.
Print Assumptions C128_commands.
Definition call128 (l : list string) : attribute := {| at_name := t_ "extract_commands"; at_args := map VStr (map t_ l); at_kwargs := [] |}.
Definition text128 : str := lines128 ["sw1#show clock"; "10:05"; "sw1#  show version  "; "ver 7"; "up 3"; "sw1#show arp"; "1.1.1.1"].
Example C128_commands_case :
  input_call [] text128 (call128 ["show version"]) = Ok ([nl] ++ join [nl] (map t_ ["sw1#  show version  "; "ver 7"; "up 3"; ""; ""]), true) /\
  input_call [] text128 (call128 ["show arp"; "show clock"; "show nothing"]) =
    Ok ([nl] ++ join [nl] (map t_ ["sw1#show arp"; "1.1.1.1"; ""; ""; "sw1#show clock"; "10:05"; ""; ""]), true) /\
  input_call [] text128 (call128 ["show nothing"]) = Ok (text128, true) /\ input_call [] (t_ "no host") (call128 ["show version"]) = Ok (t_ "no host", true).
Proof. vm_compute. repeat split. Qed.
Example C128_commands_hypotheses : Forall command_ok (map t_ ["show version"; "show arp"]) /\ (forall h, host_in text128 h -> plain h).
Proof.
  split.
  - repeat (apply Forall_cons; [split; [|eexists _, _; split; [reflexivity|discriminate]]|]); [| |constructor]; apply Forall_forall; intros c H K; apply in_chars_iff in K; cbn in H; repeat (destruct H as [<-|H]; [discriminate K|]); destruct H.
  - intros h H. apply C128_hostname in H. assert (E : gethostname text128 = Some (t_ "sw1")) by (vm_compute; reflexivity). assert (h = t_ "sw1") by congruence. subst h.
    apply Forall_forall. intros c H' K; apply in_chars_iff in K; cbn in H'; repeat (destruct H' as [<-|H']; [discriminate K|]); destruct H'.
Qed.

(** the variables that are functions *)
Theorem C128_variables : forall clock name text h,
  (var_function clock name $"gethostname" text = Some h <-> exists s, h = VStr s /\ host_in text s) /\
  (var_function clock name $"getfilename" text = Some (VStr name)) /\
  (forall f, f <> $"gethostname" -> f <> $"getfilename" -> var_function clock name f text = clock f).
Proof.
  intros clock name text h. split; [|split].
  - unfold var_function. rewrite DictFacts.str_eqb_refl. destruct (gethostname text) as [s|] eqn:G; cbn [option_map].
    + split; [intros K; exists s; split; [congruence|now apply hostname_iff]|]. intros (s' & -> & H). apply hostname_iff in H. congruence.
    + split; [discriminate|]. intros (s' & _ & H). apply hostname_iff in H. congruence.
  - reflexivity.
  - intros f A B. unfold var_function. apply DictFacts.str_eqb_neq in A, B. now rewrite A, B.
Qed.
Print Assumptions C128_variables.
Example C128_variables_case :
  map (fun f => var_function (fun f => Some (VStr (t_ "12:00"))) (t_ "a.log") (t_ f) (lines128 ["sw1#"])) ["gethostname"; "getfilename"; "get_time"] = map (fun s => Some (VStr (t_ s))) ["sw1"; "a.log"; "12:00"].
Proof. vm_compute. reflexivity. Qed.
