(** * Properties_Uptime: C138, uptimeparse.  How a time is written ([time], [tight]) and what is made of it ([time_gives]) is in SpecUptime. *)
From Verif Require Import PyBase MatchFuncs SpecOutcome Uptime SpecUptime UptimeFacts UptimeFacts2 UptimeFacts3 UptimeFacts4.
Local Open Scope string_scope.
Local Open Scope list_scope.

(** a text that is no time, or blank, is left; of another the result is that of a way to read it *)
Theorem C138_uptimeparse s format : exists v, f_uptimeparse (VStr s) format = becomes v /\
  ((v = VStr s /\ forall l, time s l -> l = []) \/ exists l, l <> [] /\ time s l /\ time_gives s format l v).
Proof. exact (uptime_spec s format). Qed.
(** there is one way to read it, unless a digit or dot follows an abbreviation of years or months directly *)
Theorem C138_one_way s l l' : ~ tight s -> time s l -> time s l' -> l = l'.
Proof. exact (time_unique s l l'). Qed.
Theorem C138_exact s format l v : ~ tight s -> time s l -> l <> [] -> f_uptimeparse (VStr s) format = becomes v <-> time_gives s format l v.
Proof. exact (uptime_exact s format l v). Qed.
(** counts written out, each with the name of its unit, with commas between: the sum *)
Theorem C138_written c : (forall u n, c u = Some n -> n <> [] /\ integer n) -> (exists u n, c u = Some n) ->
  f_uptimeparse (VStr (written (given c))) (VStr $"seconds") = becomes (VInt (total (given c))).
Proof. exact (written_seconds c). Qed.
(** what is no text fails *)
Theorem C138_no_text d format r : (forall s, d <> VStr s) -> f_uptimeparse d format <> Ok r.
Proof. intros H. destruct d as [|b|z|s|l|dd|o]; try (intros K; discriminate K). now destruct (H s). Qed.

(** ** A case that meets the hypotheses *)
Example C138_text : str := $"2 years, 27 weeks, 3 days, 10 hours, 46 minutes".
Example C138_reading : list (unit_ * str) := [(Years, $"2"); (Weeks, $"27"); (Days, $"3"); (Hours, $"10"); (Mins, $"46")].
Ltac bl := solve [apply Forall_forall; intros c Hc; vm_compute in Hc; repeat (destruct Hc as [<-|Hc]; [reflexivity|]); destruct Hc].
Ltac spell x := left; exists x; split; [cbn; tauto|reflexivity].
Ltac cnt := split; [discriminate|]; apply Forall_forall; intros c Hc; vm_compute in Hc; repeat (destruct Hc as [<-|Hc]; [now left|]); destruct Hc.
Example C138_time : time C138_text C138_reading.
Proof.
  unfold time, C138_text, C138_reading.
  change ($"2 years, 27 weeks, 3 days, 10 hours, 46 minutes") with
    ([] ++ $"2" ++ $" " ++ $"years" ++ [] ++ $"," ++ $" " ++ $"27" ++ $" " ++ $"weeks" ++ [] ++ $"," ++ $" " ++ $"3" ++ $" " ++ $"days" ++ [] ++ $"," ++
     $" " ++ $"10" ++ $" " ++ $"hours" ++ [] ++ $"," ++ $" " ++ $"46" ++ $" " ++ $"minutes" ++ [] ++ [] ++ []).
  apply wr_count; [bl|cnt|bl|spell "years"|bl|right; split; [discriminate|now left]|]. apply wr_absent.
  apply wr_count; [bl|cnt|bl|spell "weeks"|bl|right; split; [discriminate|now left]|].
  apply wr_count; [bl|cnt|bl|spell "days"|bl|right; split; [discriminate|now left]|].
  apply wr_count; [bl|cnt|bl|spell "hours"|bl|right; split; [discriminate|now left]|].
  apply wr_count; [bl|cnt|bl|spell "minutes"|bl|now left|]. apply wr_end. bl.
Qed.
Example C138_example :
  f_uptimeparse (VStr C138_text) (VStr $"seconds") = becomes (VInt (2 * 31536000 + 27 * 604800 + 3 * 86400 + 10 * 3600 + 46 * 60)) /\
  f_uptimeparse (VStr C138_text) (VStr $"dict") = becomes (VDict [(KS $"years", VStr $"2"); (KS $"weeks", VStr $"27"); (KS $"days", VStr $"3"); (KS $"hours", VStr $"10"); (KS $"mins", VStr $"46")]) /\
  f_uptimeparse (VStr C138_text) (VStr $"minutes") = becomes (VStr C138_text) /\
  f_uptimeparse (VStr $"1Y2W") (VStr $"seconds") = becomes (VInt 32745600) /\ f_uptimeparse (VStr $"5m 3s") (VStr $"seconds") = becomes (VInt 303) /\
  f_uptimeparse (VStr $" 1 mo. 2 d ") (VStr $"seconds") = becomes (VInt 2764800) /\
  f_uptimeparse (VStr $"1.5 days") (VStr $"seconds") = becomes (VStr $"1.5 days") /\ f_uptimeparse (VStr $"3 days 2 weeks") (VStr $"seconds") = becomes (VStr $"3 days 2 weeks") /\
  f_uptimeparse (VStr $"  ") (VStr $"seconds") = becomes (VStr $"  ").
Proof. vm_compute. repeat split. Qed.
Example C138_written_example : let c := fun u => match u with Weeks => Some $"27" | Secs => Some $"007" | _ => None end in
  written (given c) = $"27 weeks, 007 seconds" /\ total (given c) = 16329607%Z.
Proof. vm_compute. split; reflexivity. Qed.
(** the one character that an abbreviation can be followed by takes a digit of the next count *)
Example C138_limits : tight $"1 yr12 weeks" /\ f_uptimeparse (VStr $"1 yr12 weeks") (VStr $"dict") = becomes (VDict [(KS $"years", VStr $"1"); (KS $"weeks", VStr $"2")]).
Proof.
  split; [|vm_compute; reflexivity]. exists $"1 ", $"yr", "1"%char, $"2 weeks". split; [reflexivity|]. split; [left; exists "yr"; split; [now left|reflexivity]|now left].
Qed.
Print Assumptions C138_uptimeparse.
Print Assumptions C138_one_way.
Print Assumptions C138_exact.
Print Assumptions C138_written.
Print Assumptions C138_no_text.
