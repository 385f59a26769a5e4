(* C89: the memory report at the start of the program. *)
From Coq Require Import ZArith String Ascii List Bool Lia.
From Verif Require Import Base BaseFacts ReportModel.
Import ListNotations.
Local Open Scope string_scope.
Local Open Scope list_scope.
Local Open Scope Z_scope.

(* ---- specification ---- *)
(* decimal text of a number *)
Inductive prints : Z -> string -> Prop :=
| P_digit d : 0 <= d <= 9 -> prints d (String (ascii_of_N (Z.to_N (48 + d))) "")
| P_more v s d : prints v s -> 0 <= d <= 9 -> prints (10 * v + d) (s ++ String (ascii_of_N (Z.to_N (48 + d))) "").
Fixpoint without (c : ascii) (s : string) : Prop := match s with "" => True | String a r => a <> c /\ without c r end.
Fixpoint blanks (s : string) : Prop := match s with "" => True | String a r => (a = " "%char \/ a = "009"%char) /\ blanks r end.
(* a status file of the kernel: lines  name:value  *)
Definition status_text (entries : list (string * string)) : string :=
  fold_right (fun e s => (fst e ++ ":" ++ snd e ++ String newline s)%string) "" entries.
Definition entry_ok (e : string * string) : Prop := without ":" (fst e) /\ without newline (fst e) /\ without newline (snd e).
(* the value of an entry: blanks, a number, a unit *)
Definition holds (v : Z) (text : string) : Prop := exists b n, text = (b ++ n ++ " kB")%string /\ blanks b /\ prints v n.

(* ---- strings ---- *)
Lemma app_assoc_s (a b c : string) : ((a ++ b) ++ c = a ++ (b ++ c))%string.
Proof. induction a as [|x a IH]; cbn; [reflexivity|]. rewrite IH. reflexivity. Qed.
Lemma app_empty (a : string) : (a ++ "" = a)%string.
Proof. induction a as [|x a IH]; cbn; [reflexivity|]. rewrite IH. reflexivity. Qed.
Lemma eqb_ne a c : a <> c -> Ascii.eqb a c = false.
Proof. intros H. destruct (Ascii.eqb_spec a c); congruence. Qed.
Lemma getlines_line l : forall cur r, without newline l -> getlines cur (l ++ String newline r)%string = (cur ++ l)%string :: getlines "" r.
Proof.
  induction l as [|c l IH]; intros cur r H; cbn [append getlines].
  - rewrite Ascii.eqb_refl, app_empty. reflexivity.
  - destruct H as (H1 & H2). rewrite (eqb_ne _ _ H1), (IH _ _ H2), app_assoc_s. reflexivity.
Qed.
Lemma without_app c a b : without c a -> without c b -> without c (a ++ b)%string.
Proof. induction a as [|x a IH]; cbn; [auto|]. intros (H & H1) H2. split; auto. Qed.
Lemma lines_of es : Forall entry_ok es -> getlines "" (status_text es) = map (fun e => (fst e ++ ":" ++ snd e)%string) es.
Proof.
  intros F. induction F as [|e es (H1 & H2 & H3) F IH]; [reflexivity|]. cbn [status_text fold_right map]. fold (status_text es).
  replace (fst e ++ ":" ++ snd e ++ String newline (status_text es))%string with ((fst e ++ ":" ++ snd e) ++ String newline (status_text es))%string by (rewrite !app_assoc_s; reflexivity).
  rewrite getlines_line; [rewrite IH; reflexivity|]. apply without_app; [exact H2|]. cbn. split; [discriminate|exact H3].
Qed.
Lemma prefix_nil s : prefix "" s = true. Proof. destruct s; reflexivity. Qed.
Lemma index_colon n : forall r, without ":" n -> index 0 ":" (n ++ String ":" r)%string = Some (String.length n).
Proof.
  induction n as [|c n IH]; intros r H; cbn [append].
  - cbn. rewrite prefix_nil. reflexivity.
  - destruct H as (H1 & H2). cbn [index prefix]. destruct (ascii_dec ":" c) as [E|E]; [congruence|]. rewrite (IH r H2). reflexivity.
Qed.
Lemma sub_first a : forall b, substring 0 (String.length a) (a ++ b)%string = a.
Proof. induction a as [|c a IH]; intros b; cbn [append String.length substring]; [destruct b; reflexivity|]. rewrite IH. reflexivity. Qed.
Lemma sub_whole b : substring 0 (String.length b) b = b.
Proof. induction b as [|c b IH]; cbn; [reflexivity|]. rewrite IH. reflexivity. Qed.
Lemma sub_rest a : forall c b, substring (S (String.length a)) (String.length b) (a ++ String c b)%string = b.
Proof. induction a as [|x a IH]; intros c b; cbn [append String.length substring]; [apply sub_whole|]. apply IH. Qed.
Lemma length_app a b : String.length (a ++ b)%string = (String.length a + String.length b)%nat.
Proof. induction a as [|c a IH]; cbn; [reflexivity|]. rewrite IH. reflexivity. Qed.
Lemma split_entry n r : without ":" n -> split_line (n ++ ":" ++ r)%string = (n, r).
Proof.
  intros H. unfold split_line. change (n ++ ":" ++ r)%string with (n ++ String ":" r)%string. rewrite (index_colon n r H), sub_first. f_equal.
  rewrite length_app. cbn [String.length]. replace (String.length n + S (String.length r) - S (String.length n))%nat with (String.length r) by lia. apply sub_rest.
Qed.

(* ---- numbers ---- *)
Lemma code_of d : 0 <= d <= 9 -> Z.of_N (N_of_ascii (ascii_of_N (Z.to_N (48 + d)))) = 48 + d.
Proof. intros H. rewrite N_ascii_embedding; [apply Z2N.id; lia|]. apply N2Z.inj_lt. rewrite Z2N.id by lia. change (Z.of_N 256) with 256. lia. Qed.
Lemma digit_of d : 0 <= d <= 9 -> digit (ascii_of_N (Z.to_N (48 + d))) = Some d.
Proof.
  intros H. unfold digit. rewrite (code_of d H). destruct (48 <=? 48 + d) eqn:A; [|apply Z.leb_gt in A; lia]. destruct (48 + d <=? 57) eqn:B; [|apply Z.leb_gt in B; lia]. cbn [andb]. f_equal. lia.
Qed.
Lemma number_from v s : prints v s -> forall r, number None (s ++ r)%string = number (Some v) r.
Proof.
  induction 1 as [d Hd|v s d H IH Hd]; intros r.
  - cbn [append number]. rewrite (digit_of d Hd). reflexivity.
  - rewrite app_assoc_s. rewrite IH. cbn [append number]. rewrite (digit_of d Hd). reflexivity.
Qed.
Lemma prints_pos v s : prints v s -> 0 <= v.
Proof. induction 1; lia. Qed.
(* the first character is a digit *)
Lemma prints_first v s : prints v s -> exists d r, 0 <= d <= 9 /\ s = String (ascii_of_N (Z.to_N (48 + d))) r.
Proof. induction 1 as [d Hd|v s d H (d1 & r & H1 & ->) Hd]; [exists d, ""; auto|]. cbn [append]. eauto. Qed.
Lemma not_space d : 0 <= d <= 9 -> is_space (ascii_of_N (Z.to_N (48 + d))) = false.
Proof.
  intros H. unfold is_space. rewrite (code_of d H). destruct (48 + d =? 32) eqn:A; [apply Z.eqb_eq in A; lia|]. destruct (48 + d <=? 13) eqn:B; [apply Z.leb_le in B; lia|]. rewrite andb_false_r. reflexivity.
Qed.
Lemma skip_blanks b : forall r, blanks b -> skip_space (b ++ r)%string = skip_space r.
Proof. induction b as [|c b IH]; intros r H; [reflexivity|]. destruct H as ([->| ->] & H); cbn; apply IH, H. Qed.
Lemma not_sign d : 0 <= d <= 9 -> ascii_of_N (Z.to_N (48 + d)) <> "-"%char /\ ascii_of_N (Z.to_N (48 + d)) <> "+"%char.
Proof. intros H. split; intros E; apply (f_equal (fun c => Z.of_N (N_of_ascii c))) in E; cbv beta in E; rewrite (code_of d H) in E; revert E; [change (Z.of_N (N_of_ascii "-")) with 45|change (Z.of_N (N_of_ascii "+")) with 43]; lia. Qed.
Lemma unsigned_text c r (f g h : string -> option Z) : c <> "-"%char -> c <> "+"%char ->
  match String c r with String "-" r => f r | String "+" r => g r | _ => h (String c r) end = h (String c r).
Proof.
  intros A B. destruct c as [[] [] [] [] [] [] [] []]; try reflexivity; exfalso; [apply B|apply A]; reflexivity.
Qed.
Lemma stoi_holds v t : holds v t -> stoi t = if v <=? int_max then Ok v else Throw STDexc.
Proof.
  intros (b & n & -> & Hb & Hn). unfold stoi. rewrite (skip_blanks b _ Hb). destruct (prints_first v n Hn) as (d & r & Hd & En).
  assert (S : skip_space (n ++ " kB")%string = (n ++ " kB")%string) by (rewrite En; cbn [append skip_space]; rewrite (not_space d Hd); reflexivity).
  rewrite S. destruct (not_sign d Hd) as (S1 & S2).
  assert (E : number None (n ++ " kB")%string = Some v) by (rewrite (number_from v n Hn); reflexivity).
  rewrite En in E |- *. cbn [append] in E |- *. rewrite (unsigned_text _ _ (fun r => option_map Z.opp (number None r)) (fun r => number None r) (fun s => number None s) S1 S2), E.
  pose proof (prints_pos v n Hn). destruct (int_min <=? v) eqn:A; [reflexivity|]. apply Z.leb_gt in A. unfold int_min in A. lia.
Qed.

(* ---- the report ---- *)
Lemma scan_entries key es mem : Forall entry_ok es -> scan key (Some (status_text es)) mem = fold_res (fun m e => if String.eqb (fst e) key then stoi (snd e) else Ok m) es mem.
Proof.
  intros F. unfold scan. rewrite (lines_of es F). revert mem. induction F as [|e es (H1 & _) F IH]; intros mem; [reflexivity|]. cbn [map fold_res]. unfold scan_line at 1. rewrite (split_entry _ _ H1).
  destruct (String.eqb (fst e) key); [destruct (stoi (snd e)); cbn [bind]; [apply IH|reflexivity..]|cbn [bind]; apply IH].
Qed.
Lemma scan_absent key es : forall mem, (forall e, In e es -> fst e <> key) -> fold_res (fun m e => if String.eqb (fst e) key then stoi (snd e) else Ok m) es mem = Ok mem.
Proof.
  induction es as [|e es IH]; intros mem H; [reflexivity|]. cbn [fold_res]. destruct (String.eqb_spec (fst e) key) as [E|E]; [exfalso; apply (H e); [left; reflexivity|exact E]|]. cbn [bind]. apply IH. intros x I. apply H. right. exact I.
Qed.
Lemma fold_res_app {A S} (f : S -> A -> res S) a b : forall s, fold_res f (a ++ b) s = bind (fold_res f a s) (fold_res f b).
Proof. induction a as [|x a IH]; intros s; cbn [app fold_res bind]; [reflexivity|]. destruct (f s x); cbn [bind]; [apply IH|reflexivity..]. Qed.
Definition single (key : string) (v : Z) (es : list (string * string)) : Prop :=
  exists a t b, es = a ++ (key, t) :: b /\ holds v t /\ (forall e, In e (a ++ b) -> fst e <> key).
Lemma scan_single key v es mem : Forall entry_ok es -> single key v es -> scan key (Some (status_text es)) mem = if v <=? int_max then Ok v else Throw STDexc.
Proof.
  intros F (a & t & b & -> & Hh & Hn). rewrite (scan_entries key _ mem F). rewrite fold_res_app. rewrite scan_absent by (intros e I; apply Hn, in_or_app; left; exact I).
  cbn [bind fold_res fst snd]. rewrite String.eqb_refl, (stoi_holds v t Hh). destruct (v <=? int_max); cbn [bind]; [|reflexivity]. apply scan_absent. intros e I. apply Hn, in_or_app. right. exact I.
Qed.

(* files with exactly one entry each: the numbers of these entries are reported if they are
   below 2^31, that is less than 2 TiB *)
Theorem C89_report_partial : forall info status total used,
  Forall entry_ok info -> Forall entry_ok status -> single "MemTotal" total info -> single "VmSize" used status ->
  total <= int_max -> used <= int_max ->
  memory_report (Some (status_text info)) (Some (status_text status)) = Ok (total, used).
Proof.
  intros info status total used F1 F2 S1 S2 L1 L2. unfold memory_report. rewrite (scan_single _ _ _ _ F1 S1). apply Z.leb_le in L1, L2. rewrite L1. cbn [bind].
  rewrite (scan_single _ _ _ _ F2 S2), L2. reflexivity.
Qed.
Print Assumptions C89_report_partial.
(* files which cannot be opened: -1 for unknown *)
Theorem C89_unknown : memory_report None None = Ok (-1, -1).
Proof. reflexivity. Qed.
Print Assumptions C89_unknown.
(* otherwise the program ends with an exception before it reads its input *)
Theorem C89_large : forall info status total,
  Forall entry_ok info -> single "MemTotal" total info -> int_max < total -> memory_report (Some (status_text info)) status = Throw STDexc.
Proof. intros info status total F S L. unfold memory_report. rewrite (scan_single _ _ _ _ F S). apply Z.leb_gt in L. rewrite L. reflexivity. Qed.
Print Assumptions C89_large.
Theorem C89_large_address_space : forall info status total used,
  Forall entry_ok info -> Forall entry_ok status -> single "MemTotal" total info -> single "VmSize" used status -> int_max < used ->
  memory_report (Some (status_text info)) (Some (status_text status)) = Throw STDexc.
Proof.
  intros info status total used F1 F2 S1 S2 L. unfold memory_report. rewrite (scan_single _ _ _ _ F1 S1). destruct (total <=? int_max); [|reflexivity]. cbn [bind].
  rewrite (scan_single _ _ _ _ F2 S2). apply Z.leb_gt in L. rewrite L. reflexivity.
Qed.
Print Assumptions C89_large_address_space.
(* without a VmSize entry the total memory is reported as used *)
Theorem C89_missing : forall info status total,
  Forall entry_ok info -> Forall entry_ok status -> single "MemTotal" total info -> total <= int_max -> (forall e, In e status -> fst e <> "VmSize") ->
  memory_report (Some (status_text info)) (Some (status_text status)) = Ok (total, total).
Proof.
  intros info status total F1 F2 S1 L N. unfold memory_report. rewrite (scan_single _ _ _ _ F1 S1). apply Z.leb_le in L. rewrite L. cbn [bind].
  rewrite (scan_entries _ _ _ F2), (scan_absent _ _ _ N). reflexivity.
Qed.
Print Assumptions C89_missing.

(* a machine with 2 TiB of memory *)
Definition info_2TiB : list (string * string) := [("MemTotal", "       2147483648 kB"); ("MemFree", "       1 kB")].
Definition status_ex : list (string * string) := [("Name", "	teufel"); ("VmSize", "	  123456 kB")].
Lemma prints_app v v' s s' d : prints v s -> 0 <= d <= 9 -> v' = 10 * v + d -> s' = (s ++ String (ascii_of_N (Z.to_N (48 + d))) "")%string -> prints v' s'.
Proof. intros H Hd -> ->. apply P_more; assumption. Qed.
Lemma prints_2 : prints 2 "2". Proof. apply (P_digit 2). lia. Qed.
Lemma prints_2TiB : prints 2147483648 "2147483648".
Proof.
  assert (H : prints 21 "21") by (apply (prints_app 2 21 "2" "21" 1 prints_2); [lia|reflexivity|reflexivity]).
  assert (H1 : prints 214 "214") by (apply (prints_app _ _ _ _ 4 H); [lia|reflexivity|reflexivity]).
  assert (H2 : prints 2147 "2147") by (apply (prints_app _ _ _ _ 7 H1); [lia|reflexivity|reflexivity]).
  assert (H3 : prints 21474 "21474") by (apply (prints_app _ _ _ _ 4 H2); [lia|reflexivity|reflexivity]).
  assert (H4 : prints 214748 "214748") by (apply (prints_app _ _ _ _ 8 H3); [lia|reflexivity|reflexivity]).
  assert (H5 : prints 2147483 "2147483") by (apply (prints_app _ _ _ _ 3 H4); [lia|reflexivity|reflexivity]).
  assert (H6 : prints 21474836 "21474836") by (apply (prints_app _ _ _ _ 6 H5); [lia|reflexivity|reflexivity]).
  assert (H7 : prints 214748364 "214748364") by (apply (prints_app _ _ _ _ 4 H6); [lia|reflexivity|reflexivity]).
  apply (prints_app _ _ _ _ 8 H7); [lia|reflexivity|reflexivity].
Qed.
Theorem C89_2TiB_refuted : exists info status, Forall entry_ok info /\ Forall entry_ok status /\ single "MemTotal" 2147483648 info /\
  memory_report (Some (status_text info)) (Some (status_text status)) = Throw STDexc.
Proof.
  exists info_2TiB, status_ex. assert (F : Forall entry_ok info_2TiB) by (repeat constructor; cbn; discriminate).
  assert (S : single "MemTotal" 2147483648 info_2TiB).
  { exists [], "       2147483648 kB", [("MemFree", "       1 kB")]. split; [reflexivity|]. split; [exists "       ", "2147483648"; split; [reflexivity|]; split; [cbn; tauto|exact prints_2TiB]|]. intros e [<-|[]]. discriminate. }
  split; [exact F|]. split; [repeat constructor; cbn; discriminate|]. split; [exact S|]. apply (C89_large _ _ 2147483648); [exact F|exact S|unfold int_max; lia].
Qed.
Print Assumptions C89_2TiB_refuted.
Example C89_ex : Forall entry_ok [("MemTotal", " 21 kB")] /\ single "MemTotal" 21 [("MemTotal", " 21 kB")] /\ Forall entry_ok status_ex /\
  memory_report (Some (status_text [("MemTotal", " 21 kB")])) (Some (status_text status_ex)) = Ok (21, 123456).
Proof.
  split; [repeat constructor; cbn; discriminate|]. split; [|split; [repeat constructor; cbn; discriminate|reflexivity]].
  exists [], " 21 kB", []. split; [reflexivity|]. split; [|intros e []]. exists " ", "21". split; [reflexivity|]. split; [cbn; tauto|]. apply (prints_app 2 21 "2" "21" 1 prints_2); [lia|reflexivity|reflexivity].
Qed.
