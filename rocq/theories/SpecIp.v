(** * SpecIp: the texts of addresses and networks, what the functions is_ip and cidr_match say of them (specification for C136). *)
From Verif Require Import PyBase MatchFuncs SpecVariable SpecOutcome.
Local Open Scope string_scope.
Local Open Scope list_scope.
Local Open Scope N_scope.

(** digits and the number they write, most significant first *)
Inductive digit (base : N) (c : ascii) : N -> Prop :=
| dg_09 : 48 <= code c <= 57 -> code c - 48 < base -> digit base c (code c - 48)
| dg_af : 97 <= code c <= 102 -> code c - 87 < base -> digit base c (code c - 87)
| dg_AF : 65 <= code c <= 70 -> code c - 55 < base -> digit base c (code c - 55).
Inductive reads (base : N) : str -> N -> Prop :=
| rd_one c d : digit base c d -> reads base [c] d
| rd_more s n c d : reads base s n -> digit base c d -> reads base (s ++ [c]) (base * n + d).

(** four numbers up to 255 without leading zeros *)
Definition quarter (s : str) (n : N) : Prop := reads 10 s n /\ n <= 255 /\ (s = t_ "0" \/ forall t, s <> t_ "0" ++ t).
Inductive ipv4 : str -> N -> Prop :=
| quad a b c d x y z w : quarter a x -> quarter b y -> quarter c z -> quarter d w ->
    ipv4 (a ++ t_ "." ++ b ++ t_ "." ++ c ++ t_ "." ++ d) (x * 2 ^ 24 + y * 2 ^ 16 + z * 2 ^ 8 + w).

(** eight groups of up to four hexadecimal digits; the last two may be written as IPv4; one run of zeros may be left out *)
Definition group (s : str) (n : N) : Prop := reads 16 s n /\ (length s <= 4)%nat.
Inductive ending : list str -> list N -> Prop :=
| en_nil : ending [] []
| en_ipv4 s n : ipv4 s n -> ending [s] [n / 2 ^ 16; n mod 2 ^ 16]
| en_group s n l ns : group s n -> ending l ns -> ending (s :: l) (n :: ns).
Definition number_of (groups : list N) : N := fold_left (fun n g => n * 2 ^ 16 + g) groups 0.
Inductive ipv6 : str -> N -> Prop :=
| ip6_full l ns : ending l ns -> length ns = 8%nat -> ipv6 (join (t_ ":") l) (number_of ns)
| ip6_short l1 ns1 l2 ns2 k : Forall2 group l1 ns1 -> ending l2 ns2 -> (length ns1 + k + length ns2 = 8)%nat -> (0 < k)%nat ->
    ipv6 (join (t_ ":") l1 ++ t_ "::" ++ join (t_ ":") l2) (number_of (ns1 ++ repeat 0 k ++ ns2)).
(** an IPv6 address may name its scope *)
Inductive address : bool -> str -> N -> Prop :=
| ad_v4 s n : ipv4 s n -> address false s n
| ad_v6 s n : ipv6 s n -> address true s n
| ad_scope s n z : ipv6 s n -> z <> [] -> ~ In "%"%char z -> ~ In "/"%char z -> address true (s ++ t_ "%" ++ z) n.

(** prefix lengths: a number, a netmask, or its inverse *)
Definition width (six : bool) : N := if six then 128 else 32.
Inductive prefix_length : bool -> str -> N -> Prop :=
| pl_number six s p : reads 10 s p -> p <= width six -> prefix_length six s p
| pl_netmask s p : p <= 32 -> ipv4 s (2 ^ 32 - 2 ^ (32 - p)) -> prefix_length false s p
| pl_hostmask s p : 0 < p < 32 -> ipv4 s (2 ^ (32 - p) - 1) -> prefix_length false s p.
Inductive interface : bool -> str -> N -> N -> Prop :=
| if_alone six s n : address six s n -> interface six s n (width six)
| if_prefix six a m n p : address six a n -> prefix_length six m p -> interface six (a ++ t_ "/" ++ m) n p.

(** what a text is as an argument of is_ip and cidr_match: of which version, the address, and the prefix length if it has one *)
Definition asked_for (args : list val) (six : bool) : Prop :=
  if existsb (py_eq (VStr (t_ "ipv4"))) args then six = false else if existsb (py_eq (VStr (t_ "ipv6"))) args then six = true else True.
(** with ipv6 (and not ipv4) asked for, spaces are not for the slash *)
Definition spaced (args : list val) : Prop := existsb (py_eq (VStr (t_ "ipv4"))) args = true \/ existsb (py_eq (VStr (t_ "ipv6"))) args = false.
Inductive spells (args : list val) (s : str) : bool -> N -> option N -> Prop :=
| sp_address six n : asked_for args six -> address six s n -> ~ In "/"%char s -> (spaced args -> ~ In " "%char s) -> spells args s six n None
| sp_interface six n p : asked_for args six -> spaced args -> In "/"%char s \/ In " "%char s ->
    interface six (map (fun c => if Ascii.eqb c " " then "/"%char else c) s) n p -> spells args s six n (Some p)
| sp_interface6 n p : ~ spaced args -> In "/"%char s -> interface true s n p -> spells args s true n (Some p).

(** the addresses of the network around an address *)
Definition member (six : bool) (n p a : N) : Prop := a / 2 ^ (width six - p) = n / 2 ^ (width six - p).
(** a network is written with its first address *)
Definition network_text (s : str) (six : bool) (n p : N) : Prop := interface six s n p /\ n mod 2 ^ (width six - p) = 0.

Inductive is_ip_gives (args : list val) : val -> outcome -> Prop :=
| ig_yes s six n p : spells args s six n p -> is_ip_gives args (VStr s) (checked (VStr s) true)
| ig_no s : (forall six n p, ~ spells args s six n p) -> is_ip_gives args (VStr s) (checked (VStr s) false)
| ig_other v : not_text v -> (forall o, v <> VObj o) -> is_ip_gives args v (checked v false)
| ig_object o : is_ip_gives args (VObj o) (Raise RuntimeError).

(** the network that the argument gives; objects, numbers and lists are outside of the model *)
Inductive given_network (vars : dict) (prefix : str) : res (bool * N * N) -> Prop :=
| gn_net s six n p : stands_for vars prefix (VStr s) -> network_text s six n p -> given_network vars prefix (Ok (six, n, p))
| gn_bad s : stands_for vars prefix (VStr s) -> (forall six n p, ~ network_text s six n p) -> given_network vars prefix (Raise ValueError)
| gn_other v : stands_for vars prefix v -> (v = VNone \/ exists d, v = VDict d) -> given_network vars prefix (Raise ValueError)
| gn_outside v : stands_for vars prefix v -> ((exists z, v = VInt z) \/ (exists b, v = VBool b) \/ (exists l, v = VList l) \/ exists o, v = VObj o) ->
    given_network vars prefix (Raise RuntimeError).
Inductive cidr_gives (vars : dict) (prefix : str) : val -> outcome -> Prop :=
| cg_no_address s : (forall six n p, ~ spells [] s six n p) -> cidr_gives vars prefix (VStr s) (becomes (VStr s))
| cg_tested s six n p six' m q (b : bool) : spells [] s six n p -> given_network vars prefix (Ok (six', m, q)) ->
    (b = true <-> six = six' /\ exists a, a < 2 ^ width six /\ member six n (match p with Some p => p | None => width six end) a /\ member six m q a) ->
    cidr_gives vars prefix (VStr s) (checked (VStr s) b)
| cg_bad s six n p e : spells [] s six n p -> given_network vars prefix (Raise e) -> cidr_gives vars prefix (VStr s) (Raise e)
| cg_other v x : not_text v -> (forall o, v <> VObj o) -> given_network vars prefix (Ok x) -> cidr_gives vars prefix v (becomes v)
| cg_other_bad v e : not_text v -> (forall o, v <> VObj o) -> given_network vars prefix (Raise e) -> cidr_gives vars prefix v (Raise e)
| cg_object o : cidr_gives vars prefix (VObj o) (Raise RuntimeError).
