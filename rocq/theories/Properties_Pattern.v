(** * Properties_Pattern: C109, C110 - what the built-in patterns and user-written character classes match.

    [patterns] models /repo/ttp/patterns/get_pattern.py 1-11, [re_compile] the reader of regular expressions (FormRegex.v),
    [rel] is the meaning of expressions (SpecRegex.v); the texts are described in SpecPattern.v. *)
From Verif Require Import PyBase DictFacts Regex SpecRegex FormRegex Parser SpecPattern PatternFacts.
Local Open Scope string_scope.
Local Open Scope list_scope.

Theorem C109_WORD : names_pattern $"WORD" p_word. Proof. exact pat_WORD. Qed.
Theorem C109_DIGIT : names_pattern $"DIGIT" p_digit. Proof. exact pat_DIGIT. Qed.
Theorem C109_line : names_pattern $"_line_" p_line. Proof. exact pat_line. Qed.
Theorem C109_PHRASE : names_pattern $"PHRASE" p_phrase. Proof. exact pat_PHRASE. Qed.
Theorem C109_ORPHRASE : names_pattern $"ORPHRASE" p_orphrase. Proof. exact pat_ORPHRASE. Qed.
Theorem C109_ROW : names_pattern $"ROW" p_row. Proof. exact pat_ROW. Qed.
Theorem C109_IP : names_pattern $"IP" p_ip. Proof. exact pat_IP. Qed.
Theorem C109_PREFIX : names_pattern $"PREFIX" p_prefix. Proof. exact pat_PREFIX. Qed.
Theorem C109_IPV6 : names_pattern $"IPV6" p_ipv6. Proof. exact pat_IPV6. Qed.
Theorem C109_PREFIXV6 : names_pattern $"PREFIXV6" p_prefixv6. Proof. exact pat_PREFIXV6. Qed.
Theorem C109_MAC : names_pattern $"MAC" p_mac. Proof. exact pat_MAC. Qed.
(** there are no others *)
Theorem C109_names : map fst patterns = [$"PHRASE"; $"ROW"; $"ORPHRASE"; $"DIGIT"; $"IP"; $"PREFIX"; $"IPV6"; $"PREFIXV6"; $"_line_"; $"WORD"; $"MAC"].
Proof. reflexivity. Qed.
Example C109_ex : p_ip $"10.0.0.1" /\ p_ip $"999.1.1.1" /\ p_phrase $"foo bar baz" /\ p_mac $"aabb.ccdd.eeff" /\ p_ipv6 $"fe80::1" /\ p_row $"a   b c" /\
  p_prefix $"10.0.0.0/8" /\ ~ p_phrase $"foo".
Proof.
  assert (W : forall w, Forall (fun c => is_space c = false) w -> w <> [] -> word w) by (intros w H1 H2; now split).
  split; [exists [$"10"; $"0"; $"0"; $"1"]; repeat (constructor || (cbn; lia))|].
  split; [exists [$"999"; $"1"; $"1"; $"1"]; repeat (constructor || (cbn; lia))|].
  split; [exists [$"foo"; $"bar"; $"baz"]; split; [cbn; lia|split; [|reflexivity]]; repeat constructor; discriminate|].
  split; [right; apply (f_more 4 2 $"aabb" "."%char $"ccdd.eeff"); [split; [cbn; lia|repeat constructor]|right; now left|];
          apply (f_more 4 1 $"ccdd" "."%char $"eeff"); [split; [cbn; lia|repeat constructor]|right; now left|]; apply f_one; split; [cbn; lia|repeat constructor]|].
  split; [exists [$"fe80"; $""; $"1"]; split; [repeat (constructor || (cbn; lia))|split; [reflexivity|left; cbn; lia]]|].
  split; [apply (row_more $"a" 2 $"b c"); [apply W; [repeat constructor|discriminate]|]; apply (row_two $"b" 0 $"c"); apply W; repeat constructor; discriminate|].
  split; [exists $"10.0.0.0", $"8"; split; [exists [$"10"; $"0"; $"0"; $"0"]; repeat (constructor || (cbn; lia))|split; [split; [cbn; lia|repeat constructor]|reflexivity]]|].
  intros (ws & Hl & HF & E). destruct ws as [|a [|b ws]]; cbn in Hl; try lia.
  assert (HI : In " "%char ($"foo")). { rewrite E. change (join $" " (a :: b :: ws)) with (a ++ $" " ++ join $" " (b :: ws)). apply in_or_app. right. now left. }
  cbn in HI. intuition discriminate.
Qed.

(** ** C110 user-written character classes *)
Theorem C110_class : forall (neg : bool) ps, ps <> [] -> Forall part_ok ps ->
  exists r, re_compile ((if neg then $"[^" else $"[") ++ flat_map part_text ps ++ $"]+") = Some r /\
    denotes r (fun w => w <> [] /\ Forall (fun x => if neg then ~ Exists (in_part x) ps else Exists (in_part x) ps) w).
Proof. exact class_denotes. Qed.
Example C110_ex : Forall part_ok [Range "a" "z"; One "_"] /\ $"[^" ++ flat_map part_text [Range "a" "z"; One "_"] ++ $"]+" = $"[^a-z_]+".
Proof. split; [|reflexivity]. repeat (constructor; try (vm_compute; (discriminate || reflexivity))). Qed.
Print Assumptions C109_WORD. Print Assumptions C109_DIGIT. Print Assumptions C109_line. Print Assumptions C109_PHRASE. Print Assumptions C109_ORPHRASE.
Print Assumptions C109_ROW. Print Assumptions C109_IP. Print Assumptions C109_PREFIX. Print Assumptions C109_IPV6. Print Assumptions C109_PREFIXV6.
Print Assumptions C109_MAC. Print Assumptions C110_class.
