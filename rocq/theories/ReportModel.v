(* Model of the memory report at the start of main(), /repo/src/teufel_hybrid.cpp:103-151.
   /proc/meminfo and /proc/{PID}/status are text files, or cannot be opened.
   Simplification: the texts are shorter than 2^64 characters, no read error occurs.
   The result are the two numbers printed, in units of kB. *)
From Coq Require Import ZArith String Ascii List Bool.
From Verif Require Import Base.
Import ListNotations.
Local Open Scope string_scope.
Local Open Scope Z_scope.
Local Open Scope res_scope.

Definition newline : ascii := "010"%char.
(* while(getline(myfile, line)): a last line without end of line is read if it is not empty *)
Fixpoint getlines (cur text : string) : list string :=
  match text with
  | "" => match cur with "" => [] | _ => [cur] end
  | String c r => if Ascii.eqb c newline then cur :: getlines "" r else getlines (cur ++ String c "") r
  end.

(* isspace *)
Definition is_space (c : ascii) : bool := let n := Z.of_N (N_of_ascii c) in (n =? 32) || ((9 <=? n) && (n <=? 13)).
Definition digit (c : ascii) : option Z := let n := Z.of_N (N_of_ascii c) in if (48 <=? n) && (n <=? 57) then Some (n - 48) else None.
Fixpoint skip_space (s : string) : string := match s with String c r => if is_space c then skip_space r else s | "" => "" end.
Fixpoint number (acc : option Z) (s : string) : option Z :=
  match s with
  | "" => acc
  | String c r => match digit c with Some d => number (Some (10 * match acc with Some a => a | None => 0 end + d)) r | None => acc end
  end.
(* std::stoi: without any digit invalid_argument, beyond int (or long) out_of_range *)
Definition stoi (s : string) : res Z :=
  let s := skip_space s in
  let v := match s with
    | String "-" r => option_map Z.opp (number None r)
    | String "+" r => number None r
    | _ => number None s
    end in
  match v with
  | Some n => if (int_min <=? n) && (n <=? int_max) then Ok n else Throw STDexc
  | None => Throw STDexc
  end.

(* lines 117-126 and 139-147: pos = line.find(":"), name = line.substr(0,pos), rest = line.erase(0,pos+1);
   if there is no ":" then pos+1 is 0 and both are the whole line *)
Definition split_line (line : string) : string * string :=
  match index 0 ":" line with
  | Some n => (substring 0 n line, substring (S n) (String.length line - S n) line)
  | None => (line, line)
  end.
Definition scan_line (key : string) (mem : Z) (line : string) : res Z :=
  let '(name, rest) := split_line line in if String.eqb name key then stoi rest else Ok mem.
Definition scan (key : string) (file : option string) (mem : Z) : res Z :=
  match file with None => Ok mem | Some text => fold_res (scan_line key) (getlines "" text) mem end.
(* lines 105, 113-128, 136-151: total memory and memory used *)
Definition memory_report (meminfo status : option string) : res (Z * Z) :=
  total <- scan "MemTotal" meminfo (-1);;
  used <- scan "VmSize" status total;;
  Ok (total, used).
