(* Property theorems about the JSON that is read (C95). *)
From Coq Require Import String.
From Verif Require Import Base JsonModel JsonProofs JsonlModel RunStateModel CodecModel CodecSpec CodecProofs ManifestCodecModel ManifestCodecSpec ManifestCodecProofs
  SpellSpec SpellProofs.
Local Open Scope nat_scope. Local Open Scope list_scope.
Opaque read_json.

(* What is read is exactly the JSON of the standard that is nested less than 128 deep: every way to write a value, with
   blanks between its parts and any escapes in its strings, is read as that value, and no other text is read. *)
Theorem C95_reads_exactly b j : read_json b = Some j <-> is_text_of j b /\ nesting j < 128.
Proof. exact (read_iff b j). Qed.

(* A text has one meaning at most, however deep. *)
Theorem C95_one_meaning b j j' : is_text_of j b -> is_text_of j' b -> j = j'.
Proof.
  intros (w1 & v & w2 & -> & W1 & V & W2) (w1' & v' & w2' & E & W1' & V' & W2'). set (d := S (Nat.max (nesting j) (nesting j'))).
  assert (N : forall w, blanks w -> ends w) by (intros w W; rewrite <- (app_nil_r w); now apply blanks_ends).
  pose proof (proj1 spelt_is_read j v V d w2 ltac:(lia) (N _ W2)) as R.
  pose proof (proj1 spelt_is_read j' v' V' d w2' ltac:(lia) (N _ W2')) as R'.
  rewrite <- (value_blanks d w1) in R by auto. rewrite <- (value_blanks d w1') in R' by auto. rewrite E, R' in R. congruence.
Qed.

(* A value nested 128 deep or more is refused, however it is written. *)
Theorem C95_too_deep b j : is_text_of j b -> 128 <= nesting j -> read_json b = None.
Proof.
  intros T D. destruct (read_json b) as [j'|] eqn:E; [|reflexivity]. apply read_iff in E as [T' N]. rewrite (C95_one_meaning _ _ _ T T') in D. lia.
Qed.

(* What ABQ writes is JSON, which any other reader takes for the same value. *)
Theorem C95_written_is_standard j : json_ok j -> is_text_of j (write j).
Proof.
  intros O. pose proof (read_write j O (S (nesting j)) [] ltac:(lia) Logic.I) as R. apply value_spelt in R as (w & v & E & W & V).
  rewrite !app_nil_r in E. exists w, v, []. rewrite app_nil_r. repeat split; auto. constructor.
Qed.

(* The messages of native runners are understood however the runner's library writes JSON. *)
Theorem C95_messages_however_written b :
  (forall m, c_ok c_manifest_message m -> nesting (c_enc c_manifest_message m) < 128 -> is_text_of (c_enc c_manifest_message m) b ->
     from_text c_manifest_message b = Some m) /\
  (forall m, c_ok c_result_message m -> nesting (c_enc c_result_message m) < 128 -> is_text_of (c_enc c_result_message m) b ->
     from_text c_result_message b = Some m).
Proof.
  assert (G : forall A (c : codec A) m, lawful c -> c_ok c m -> nesting (c_enc c m) < 128 -> is_text_of (c_enc c m) b -> from_text c b = Some m).
  { intros A c m [W _] O N T. unfold from_text. rewrite (proj2 (read_iff b _) (conj T N)). apply W, O. }
  split; intros m; [apply (G _ _ m lawful_manifest_message)|apply (G _ _ m lawful_result_message)].
Qed.

(* [ {"a\/b" : "A" } , -1e2 ] with blanks and escapes, as ABQ would not write it *)
Definition a_text : bytes := text " [ {""a\/b"" : ""A"" } , -1e2 ]
".
Definition a_value : json := JArr [JObj [(text "a/b", JStr (text "A"))]; JNum (text "-1e2")].
Example a_text_is_read : read_json a_text = Some a_value /\ is_text_of a_value a_text /\ write a_value <> a_text.
Proof.
  assert (R : read_json a_text = Some a_value) by (vm_compute; reflexivity). split; [exact R|]. split; [now apply C95_reads_exactly|discriminate].
Qed.
(* e with an accent, and a character beyond those of one code unit, as libraries write them that keep to ASCII *)
Example escapes_are_read : read_json (text """\u00e9\uD83D\ude00\u20AC""") = Some (JStr [195; 169; 240; 159; 152; 128; 226; 130; 172]) /\
  read_json (text """\ud83d""") = None /\ read_json (text """\ude00\ud83d""") = None.
Proof. vm_compute. auto. Qed.
(* not JSON: a comma too many, an unknown escape, a raw newline in a string *)
Example not_read : read_json (text "[1,]") = None /\ read_json (text """\q""") = None /\ read_json (34 :: 10 :: 34 :: nil) = None.
Proof. vm_compute. auto. Qed.
(* numbers: a leading zero, a bare dot, an empty exponent, a lone minus, a plus and a fraction without integer are not *)
Example numbers : read_json (text "-0.50e+10") = Some (JNum (text "-0.50e+10")) /\ read_json (text "10E-07") = Some (JNum (text "10E-07")) /\
  Forall (fun t => read_json t = None) [text "01"; text "1."; text "1e"; text "-"; text "+1"; text ".5"; text "1.e2"; text "-01"; text "1e5.0"; text "1-2"].
Proof. split; [vm_compute; reflexivity|]. split; [vm_compute; reflexivity|]. repeat constructor. Qed.
(* nested too deep *)
Definition deep (n : nat) : json := Nat.iter n (fun j => JArr [j]) JNull.
Example deep_refused : is_text_of (deep 128) (write (deep 128)) /\ 128 <= nesting (deep 128) /\ read_json (write (deep 128)) = None /\ read_json (write (deep 127)) <> None.
Proof.
  assert (O : forall n, json_ok (deep n)) by (induction n as [|n IH]; [exact Logic.I|]; change (deep (S n)) with (JArr [deep n]); apply json_ok_arr; auto).
  split; [apply C95_written_is_standard, O|]. split; [vm_compute; lia|]. split; [vm_compute; reflexivity|vm_compute; discriminate].
Qed.

Print Assumptions C95_reads_exactly.
Print Assumptions C95_one_meaning.
Print Assumptions C95_too_deep.
Print Assumptions C95_written_is_standard.
Print Assumptions C95_messages_however_written.
