(** * Ip: the match functions is_ip and cidr_match.
    Models ttp/match/ip.py 7-35 (to_ip, is_ip), 38-50 (to_net) and 131-182 (cidr_match) and what they use of Python's [ipaddress] module
    (Python 3.11): ip_address, ip_interface, ip_network and the reading of IPv4 and IPv6 addresses, netmasks and prefix lengths.
    Simplifications.  Python's limit of 4300 digits for [int] is not modelled.  Every exception that reading raises is a subclass of ValueError and every caller treats these alike: [None] here.
    The address objects do not leave these functions: to_ip and to_net as match functions are not modelled. *)
From Verif Require Import PyBase Regex Parser Attributes MatchFuncs.
Local Open Scope string_scope.
Local Open Scope list_scope.
Local Open Scope N_scope.

(** ** IPv4, ipaddress.py 1139-1260 *)
(** _parse_octet *)
Definition octet (s : str) : option N :=
  match s with
  | [] => None
  | c :: t => if negb (forallb is_dec s) then None
              else if (3 <? length s)%nat then None
              else if (Ascii.eqb c "0" && negb (match t with [] => true | _ => false end))%bool then None
              else let n := digits_val s 0 in if 255 <? n then None else Some n
  end.
(** IPv4Address(text), _ip_int_from_string.  A "/" is in no octet *)
Definition v4_int (s : str) : option N :=
  match map octet (split $"." s) with
  | [Some a; Some b; Some c; Some d] => Some (((a * 256 + b) * 256 + c) * 256 + d)
  | _ => None
  end.
(** _count_righthand_zero_bits *)
Fixpoint ctz (p : positive) : N := match p with xO q => N.succ (ctz q) | _ => 0 end.
Definition zero_bits (n bits : N) : N := match n with N0 => bits | Npos p => N.min bits (ctz p) end.
(** _prefix_from_ip_int *)
Definition mask_length (bits n : N) : option N :=
  let z := zero_bits n bits in
  let p := bits - z in
  if N.shiftr n z =? N.shiftl 1 p - 1 then Some p else None.
(** _prefix_from_prefix_string *)
Definition prefix_number (bits : N) (s : str) : option N :=
  match s with
  | [] => None
  | _ => if forallb is_dec s then let n := digits_val s 0 in if bits <? n then None else Some n else None
  end.
(** _make_netmask, _prefix_from_ip_string *)
Definition v4_mask (s : str) : option N :=
  match prefix_number 32 s with
  | Some p => Some p
  | None => match v4_int s with
            | None => None
            | Some n => match mask_length 32 n with
                        | Some p => Some p
                        | None => mask_length 32 (N.lxor n (N.ones 32))
                        end
            end
  end.

(** ** IPv6, ipaddress.py 1611-1780, 1889-1905 *)
(** _parse_hextet; the part may be a number that comes from an IPv4 suffix.  An empty text is refused by [int] *)
Notation part := (str + N)%type.
Fixpoint hex_val (s : str) (acc : N) : option N :=
  match s with [] => Some acc | c :: t => match hexval c with Some d => hex_val t (16 * acc + d) | None => None end end.
Definition hextet (p : part) : option N :=
  match p with
  | inl [] => None
  | inl s => match hex_val s 0 with Some n => if (4 <? length s)%nat then None else Some n | None => None end
  | inr n => Some n
  end.
Definition empty_part (p : part) : bool := match p with inl [] => true | _ => false end.
Fixpoint add_hextets (l : list part) (n : N) : option N :=
  match l with [] => Some n | p :: t => match hextet p with Some h => add_hextets t (N.shiftl n 16 + h) | None => None end end.
(** the first empty part *)
Fixpoint cut_empty (l : list part) : option (list part * list part) :=
  match l with
  | [] => None
  | p :: t => if empty_part p then Some ([], t) else match cut_empty t with Some (a, b) => Some (p :: a, b) | None => None end
  end.
Definition is_nil {A} (l : list A) : bool := match l with [] => true | _ => false end.
(** an end next to "::" is empty only when nothing else is on that side *)
Definition beside (e : bool) (without whole : list part) : option (list part) :=
  if e then if is_nil without then Some [] else None else Some whole.
(** _ip_int_from_string with the parts: first, those between, last *)
Definition v6_parts (p0 : part) (mid : list part) (pl : part) : option N :=
  if (9 <? S (S (length mid)))%nat then None else
  match cut_empty mid with
  | Some (a, b) =>
      if existsb empty_part b then None else
      match beside (empty_part p0) a (p0 :: a), beside (empty_part pl) b (b ++ [pl]) with
      | Some hi, Some lo =>
          let n := (length hi + length lo)%nat in
          if (8 - n <? 1)%nat then None else
          match add_hextets hi 0 with
          | Some x => add_hextets lo (N.shiftl x (16 * N.of_nat (8 - n)))
          | None => None
          end
      | _, _ => None
      end
  | None => if (Nat.eqb (length mid) 6 && negb (empty_part p0) && negb (empty_part pl))%bool then add_hextets (p0 :: mid ++ [pl]) 0 else None
  end.
Definition v6_int (s : str) : option N :=
  match split $":" s with
  | p0 :: rest =>
      if (length rest <? 2)%nat then None else
      let mid := map inl (removelast rest) in
      let pl := last rest [] in
      if existsb (Ascii.eqb ".") pl then
        match v4_int pl with Some n => v6_parts (inl p0) (mid ++ [inr (N.shiftr n 16)]) (inr (N.land n 65535)) | None => None end
      else v6_parts (inl p0) mid (inl pl)
  | [] => None
  end.
(** _split_scope_id and IPv6Address(text), which refuses a slash in the scope *)
Definition v6_addr (s : str) : option N :=
  if existsb (Ascii.eqb "/") s then None else
  match split $"%" s with
  | [a] => v6_int a
  | [a; z] => if is_nil z then None else v6_int a
  | _ => None
  end.

(** ** addresses and interfaces.  The address as a number and the prefix length *)
Inductive ipobj := Addr (six : bool) (n : N) | Iface (six : bool) (n p : N).
Definition width (six : bool) : N := if six then 128 else 32.
Definition read_addr (six : bool) (s : str) : option N := if six then v6_addr s else v4_int s.
Definition read_mask (six : bool) (s : str) : option N := if six then prefix_number 128 s else v4_mask s.
(** _split_addr_prefix, IPv4Interface(text), IPv6Interface(text) *)
Definition read_iface (six : bool) (s : str) : option ipobj :=
  match split $"/" s with
  | [a] => match read_addr six a with Some n => Some (Iface six n (width six)) | None => None end
  | [a; m] => match read_addr six a, read_mask six m with Some n, Some p => Some (Iface six n p) | _, _ => None end
  | _ => None
  end.
Definition read_address (six : bool) (s : str) : option ipobj := match read_addr six s with Some n => Some (Addr six n) | None => None end.
(** ip_interface, ip_address, ip_network(strict): IPv4 first *)
Definition or_six (f : bool -> option ipobj) : option ipobj := match f false with Some x => Some x | None => f true end.
(** _ip_int_from_prefix *)
Definition netmask (bits p : N) : N := N.lxor (N.ones bits) (N.shiftr (N.ones bits) p).
(** IPv4Network(text, strict): no host bits *)
Definition strict (o : option ipobj) : option ipobj :=
  match o with Some (Iface six n p) => if N.land n (netmask (width six) p) =? n then o else None | _ => o end.
Definition slashed (s : str) : bool := (existsb (Ascii.eqb "/") s || existsb (Ascii.eqb " ") s)%bool.
(** to_ip, ip.py 7-26 *)
Definition to_ip (s : str) (args : list val) : option ipobj :=
  if existsb (py_eq (VStr $"ipv4")) args then
    if slashed s then read_iface false (replace_all $" " $"/" s) else read_address false s
  else if existsb (py_eq (VStr $"ipv6")) args then
    if existsb (Ascii.eqb "/") s then read_iface true s else read_address true s
  else if slashed s then or_six (fun six => read_iface six (replace_all $" " $"/" s))
  else or_six (fun six => read_address six s).
(** to_net without arguments, ip.py 38-50.  A text with host bits as IPv4 is none as IPv6 *)
Definition to_net (s : str) : option ipobj := or_six (fun six => strict (read_iface six s)).

(** ** the functions *)
(** ip.py 29-34.  What is not a text is no address: the tests and the constructors raise *)
Definition f_is_ip (data : val) (args : list val) : mres :=
  match data with
  | VStr s => Ok (data, FBool (match to_ip s args with Some _ => true | None => false end))
  | VObj _ => Raise RuntimeError
  | _ => Ok (data, FBool false)
  end.
(** IPv4Network.__init__, network_address; __contains__; broadcast_address; overlaps *)
Definition network (six : bool) (n p : N) : N := N.land n (netmask (width six) p).
Definition within (six : bool) (net p : N) (a : N) : bool := N.land a (netmask (width six) p) =? net.
Definition broadcast (six : bool) (net p : N) : N := N.lor net (N.lxor (netmask (width six) p) (N.ones (width six))).
Definition overlaps (six : bool) (n1 p1 n2 p2 : N) : bool :=
  (within six n2 p2 n1 || within six n2 p2 (broadcast six n1 p1) || within six n1 p1 n2 || within six n1 p1 (broadcast six n2 p2))%bool.
(** ip.py 131-182.  Simplifications: an address is not printed and read again with a full prefix; a prefix in vars that is a number, list
    or object is outside of the model, other values that are no texts are no networks *)
Definition f_cidr_match (vars : dict) (data : val) (prefix : str) : mres :=
  let net (k : bool -> N -> N -> mres) : mres :=
    match dget vars (KS prefix) with
    | Some (VInt _) | Some (VBool _) | Some (VList _) | Some (VObj _) => Raise RuntimeError
    | Some VNone | Some (VDict _) => Raise ValueError
    | Some (VStr s) => match to_net s with Some (Iface x n p) => k x n p | _ => Raise ValueError end
    | None => match to_net prefix with Some (Iface x n p) => k x n p | _ => Raise ValueError end
    end in
  match data with
  | VObj _ => Raise RuntimeError
  | VStr s =>
      let matches x n p := net (fun y m q => Ok (data, FBool (Bool.eqb x y && overlaps x (network x n p) p m q))) in
      match to_ip s [] with
      | None => Ok (data, FNone)
      | Some (Addr x n) => matches x n (width x)
      | Some (Iface x n p) => matches x n p
      end
  | _ => net (fun _ _ _ => Ok (data, FNone))
  end.
