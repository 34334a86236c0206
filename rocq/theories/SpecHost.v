(** * SpecHost: the host name in a device's output (specification for C128). *)
From Verif Require Import PyBase SpecVariable SpecText.
Local Open Scope string_scope.
Local Open Scope list_scope.

Definition solid (s : str) : Prop := Forall (fun c => ~ white c) s.
Definition word (s : str) : Prop := s <> [] /\ solid s.
(** the prompts, in the order in which they are tried *)
Inductive prompt := AluSros | IosXr | IosPriv | Juniper | Huawei | IosExec | Fortigate.
Definition prompts : list prompt := [AluSros; IosXr; IosPriv; Juniper; Huawei; IosExec; Fortigate].
(** [shaped p line a h]: the line has the form of prompt [p] with [h] for the host and [a] before it *)
Inductive shaped : prompt -> str -> str -> str -> Prop :=
| sh_alu a h e r : word a -> length a <= 2 -> word h -> In e (t_ ">#") -> shaped AluSros (a ++ t_ ":" ++ h ++ [e] ++ r) a h
| sh_xr a h r : word a -> word h -> shaped IosXr (a ++ t_ ":" ++ h ++ t_ "#" ++ r) a h
| sh_priv h r : word h -> shaped IosPriv (h ++ t_ "#" ++ r) [] h
| sh_juniper a h r : solid a -> word h -> shaped Juniper (a ++ t_ "@" ++ h ++ t_ ">" ++ r) a h
| sh_huawei h r : word h -> shaped Huawei (t_ "<" ++ h ++ t_ ">" ++ r) [] h
| sh_exec h r : word h -> shaped IosExec (h ++ t_ ">" ++ r) [] h
| sh_forti x y r : word x -> word y -> shaped Fortigate (x ++ t_ " (" ++ y ++ t_ ") #" ++ r) [] (x ++ t_ " (" ++ y ++ t_ ")").
(** of the ways in which a line has a form: the longest text before the host, then the longest host; the first prompt takes the shortest *)
Definition preferred (p : prompt) (a h a' h' : str) : Prop :=
  length a' < length a \/ (length a' = length a /\ match p with AluSros => length h <= length h' | _ => length h' <= length h end).
Definition line_host (p : prompt) (line h : str) : Prop :=
  exists a, shaped p line a h /\ forall a' h', shaped p line a' h' -> preferred p a h a' h'.
(** the lines but the first and the last one *)
Definition inner_lines (text : str) (ls : list str) : Prop :=
  (exists first last, cut_at [nl] text (first :: ls ++ [last])) \/ (cut_at [nl] text [text] /\ ls = []).
Definition never (p : prompt) (ls : list str) : Prop := forall l a h, In l ls -> ~ shaped p l a h.
(** byte order marks, as they look in Latin-1 *)
Definition marks : list str := [[chr 239; chr 187; chr 191]; [chr 254; chr 255]; [chr 255; chr 254]].
Inductive without_marks : list str -> str -> str -> Prop :=
| wm_end s : without_marks [] s s
| wm_mark m ms s s1 s2 : stripped true false (fun c => In c m) s s1 -> without_marks ms s1 s2 -> without_marks (m :: ms) s s2.
(** the first prompt that some line has, and the first line that has it *)
Definition host_in (text host : str) : Prop :=
  exists ls ps p ps' ls1 line ls2 h,
    inner_lines text ls /\ prompts = ps ++ p :: ps' /\ Forall (fun q => never q ls) ps /\
    ls = ls1 ++ line :: ls2 /\ never p ls1 /\ line_host p line h /\ without_marks marks h host.

(** ** the outputs of commands *)
(** characters that stand for themselves in a regular expression *)
Definition plain (s : str) : Prop := Forall (fun c => ~ In c (t_ "\()|[.*+?{^$")) s.
Definition prompt_end (c : ascii) : Prop := In c (t_ "#>").
(** what ends an output: the prompt again, the end of the text, or a newline that ends it *)
Definition closes (host s : str) : Prop := s = [] \/ s = [nl] \/ exists c r, s = host ++ c :: r /\ prompt_end c.
(** [s] begins with the prompt, the command, a newline and the output up to the first end after it *)
Definition output_at (host cmd s o rest : str) : Prop :=
  s = o ++ rest /\ exists c sp1 sp2 body,
    o = host ++ [c] ++ sp1 ++ cmd ++ sp2 ++ [nl] ++ body /\ prompt_end c /\ Forall (eq space) sp1 /\ Forall (eq space) sp2 /\
    body <> [] /\ closes host rest /\ forall b r, body ++ rest = b ++ r -> b <> [] -> length b < length body -> ~ closes host r.
(** the first of them in the text *)
Definition command_output (host cmd text o : str) : Prop :=
  exists pre s rest, text = pre ++ s /\ output_at host cmd s o rest /\
    forall pre' s' o' rest', text = pre' ++ s' -> length pre' < length pre -> ~ output_at host cmd s' o' rest'.
(** each command's output stands between newlines *)
Definition outputs_of (host : str) (cmds : list str) (text r : str) : Prop :=
  exists ls, Forall2 (fun cmd l => (exists o, command_output host cmd text o /\ l = [nl] ++ o ++ [nl]) \/ ((forall o, ~ command_output host cmd text o) /\ l = [])) cmds ls /\
    r = concat ls.
(** without a host name or without any output, the text stays *)
Inductive commands_give (cmds : list str) (text : str) : str -> Prop :=
| cg_no_host : (forall h, ~ host_in text h) -> commands_give cmds text text
| cg_empty_host : host_in text [] -> commands_give cmds text text
| cg_none h : host_in text h -> h <> [] -> outputs_of h cmds text [] -> commands_give cmds text text
| cg_some h r : host_in text h -> h <> [] -> outputs_of h cmds text r -> r <> [] -> commands_give cmds text r.
