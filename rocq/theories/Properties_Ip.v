(** * Properties_Ip: C136, is_ip and cidr_match.  What [spells], [network_text], [member] say is in SpecIp. *)
From Coq Require Import Lia.
From Verif Require Import PyBase MatchFuncs SpecVariable SpecOutcome Ip SpecIp IpFacts IpFacts2.
Local Open Scope string_scope.
Local Open Scope list_scope.
Local Open Scope N_scope.

(** is_ip holds of the texts that write an address, or an interface, of the version asked for, and of nothing else; the match is not changed *)
Theorem C136_is_ip args d r : f_is_ip d args = r <-> is_ip_gives args d r.
Proof. exact (is_ip_iff args d r). Qed.

(** cidr_match holds when the address, or its network, has an address in common with the network given *)
Theorem C136_cidr_match vars prefix d r : f_cidr_match vars d prefix = r <-> cidr_gives vars prefix d r.
Proof. exact (cidr_iff vars prefix d r). Qed.

(** a text has one reading: the version, the number and the prefix length are determined by it *)
Theorem C136_one_reading args s six n p six' n' p' : spells args s six n p -> spells args s six' n' p' -> six = six' /\ n = n' /\ p = p'.
Proof. intros H1 H2. exact (obj_inj _ _ _ _ _ _ (spells_det _ _ _ _ _ _ _ _ H1 H2)). Qed.

(** an address alone is in a network exactly when the network has it: no other address of its own is looked at *)
Theorem C136_member vars prefix s six n m q : spells [] s six n None -> given_network vars prefix (Ok (six, m, q)) ->
  (f_cidr_match vars (VStr s) prefix = checked (VStr s) true <-> member six m q n).
Proof.
  intros S G. rewrite (cidr_text _ _ _ _ _ _ S), (proj1 (gives_net _ _ _) G). cbv beta iota zeta.
  pose proof (cidr_test _ _ _ _ _ _ _ _ _ S G) as T. cbv beta iota zeta in T. unfold checked.
  assert (E : forall b : bool, @Ok (val * mflag) (VStr s, FBool b) = Ok (VStr s, FBool true) <-> b = true) by (intros [|]; split; congruence).
  rewrite E, T. unfold member. destruct (spells_below _ _ _ _ _ S) as [B _]. rewrite N.sub_diag. change (2 ^ 0) with 1. split.
  - intros (_ & a & _ & H1 & H2). rewrite !N.div_1_r in H1. now subst a.
  - intros H. split; [reflexivity|]. exists n. split; [exact B|]. split; [reflexivity|exact H].
Qed.

(** examples *)
Example C136_ex_ip : f_is_ip (VStr $"10.0.0.1") [] = checked (VStr $"10.0.0.1") true /\ f_is_ip (VStr $"10.0.0.1") [VStr $"ipv6"] = checked (VStr $"10.0.0.1") false /\
  f_is_ip (VStr $"10.0.0.256") [] = checked (VStr $"10.0.0.256") false /\ f_is_ip (VStr $"10.0.0.1 255.255.255.0") [] = checked (VStr $"10.0.0.1 255.255.255.0") true /\
  f_is_ip (VStr $"fe80::1%eth0") [] = checked (VStr $"fe80::1%eth0") true /\ f_is_ip (VStr $"::ffff:1.2.3.4/96") [VStr $"ipv6"] = checked (VStr $"::ffff:1.2.3.4/96") true /\
  f_is_ip (VInt 5) [] = checked (VInt 5) false.
Proof. vm_compute. repeat split. Qed.
Example C136_ex_spells : spells [] (t_ "192.168.1.7/24") false 3232235783 (Some 24) /\ spells [] (t_ "2001:db8::5") true 42540766411282592856903984951653826565 None.
Proof.
  split.
  - assert (E : exists six n p, spells [] $"192.168.1.7/24" six n p /\ Iface false 3232235783 24 = obj six n p) by (apply to_ip_iff; vm_compute; reflexivity).
    destruct E as (six & n & p & H & E). apply (obj_inj false _ (Some 24)) in E as (<- & <- & <-). exact H.
  - assert (E : exists six n p, spells [] $"2001:db8::5" six n p /\ Addr true 42540766411282592856903984951653826565 = obj six n p) by (apply to_ip_iff; vm_compute; reflexivity).
    destruct E as (six & n & p & H & E). apply (obj_inj true _ None) in E as (<- & <- & <-). exact H.
Qed.
Example C136_ex_cidr :
  f_cidr_match [] (VStr $"10.1.2.3") $"10.0.0.0/8" = checked (VStr $"10.1.2.3") true /\ f_cidr_match [] (VStr $"11.1.2.3") $"10.0.0.0/8" = checked (VStr $"11.1.2.3") false /\
  f_cidr_match [(KS $"net", VStr $"10.1.0.0/16")] (VStr $"10.0.0.0/8") $"net" = checked (VStr $"10.0.0.0/8") true /\
  f_cidr_match [] (VStr $"10.1.2.3") $"10.0.0.1/8" = Raise ValueError /\ f_cidr_match [] (VStr $"abc") $"no net" = becomes (VStr $"abc") /\
  f_cidr_match [] (VStr $"2001:db8::5") $"2001:db8::/32" = checked (VStr $"2001:db8::5") true /\ f_cidr_match [] (VStr $"::1") $"0.0.0.0/0" = checked (VStr $"::1") false.
Proof. vm_compute. repeat split. Qed.
Example C136_ex_net : given_network [] (t_ "10.0.0.0/8") (Ok (false, 167772160, 8)) /\ given_network [] (t_ "10.0.0.1/8") (Raise ValueError).
Proof. split; apply gives_net; vm_compute; reflexivity. Qed.

Print Assumptions C136_is_ip.
Print Assumptions C136_cidr_match.
Print Assumptions C136_one_reading.
Print Assumptions C136_member.
