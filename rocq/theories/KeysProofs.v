From Verif Require Import Base KeysModel KeysSpec.
From Coq Require Import String Ascii.
Local Open Scope string_scope.

Notation la := list_ascii_of_string.

Lemma la_app a b : la (a ++ b) = (la a ++ la b)%list.
Proof. induction a; simpl; congruence. Qed.
Lemma la_inj a b : la a = la b -> a = b.
Proof. intros H. now rewrite <- (string_of_list_ascii_of_string a), H, string_of_list_ascii_of_string. Qed.

Lemma sapp_inv_l p a b : p ++ a = p ++ b -> a = b.
Proof. intros H. apply la_inj. apply (f_equal la) in H. rewrite !la_app in H. now apply app_inv_head in H. Qed.
Lemma sapp_inv_r p a b : a ++ p = b ++ p -> a = b.
Proof. intros H. apply la_inj. apply (f_equal la) in H. rewrite !la_app in H. now apply app_inv_tail in H. Qed.
Lemma sapp_assoc (a b c : string) : a ++ (b ++ c) = (a ++ b) ++ c.
Proof. induction a; simpl; congruence. Qed.
Lemma sapp_nil a : a ++ "" = a.
Proof. induction a; simpl; congruence. Qed.

Definition tail_of (k : kind) : string := "/" ++ kind_str k ++ "." ++ file_extension k.

Lemma tails_differ k k' a b : a ++ tail_of k = b ++ tail_of k' -> k = k'.
Proof.
  intros H. apply (f_equal la) in H. rewrite !la_app in H. apply (f_equal (@rev _)) in H. rewrite !rev_app_distr in H.
  destruct k, k'; auto; vm_compute in H; discriminate.
Qed.

Lemma build_key_tail p k r : build_key p k r = (p ++ "/" ++ r) ++ tail_of k.
Proof. unfold build_key, tail_of. now rewrite !sapp_assoc. Qed.

(* Splitting at the last slash. *)
Lemma last_slash p p' r r' : ~ occurs "/" r -> ~ occurs "/" r' -> p ++ "/" ++ r = p' ++ "/" ++ r' -> p = p' /\ r = r'.
Proof.
  revert p'. induction p as [|c p IH]; intros [|c' p'] N N' H; simpl in H.
  - injection H as <-. auto.
  - exfalso. injection H as <- ->. apply N. clear. induction p'; simpl; auto.
  - exfalso. injection H as -> H. subst r'. apply N'. clear. induction p; simpl; auto.
  - injection H as <- H. destruct (IH p' N N' H) as [-> ->]. auto.
Qed.

Lemma file_name_plain cur s : ~ occurs "/" s -> file_name_from cur s = cur ++ s.
Proof.
  revert cur. induction s as [|c s IH]; intros cur N; simpl; [now rewrite sapp_nil|].
  destruct (Ascii.eqb_spec c "/") as [->|]; [exfalso; apply N; simpl; auto|].
  rewrite IH; [|intros H; apply N; simpl; auto]. now rewrite <- sapp_assoc.
Qed.

Lemma file_name_root cur root s : ~ occurs "/" s -> file_name_from cur (root ++ "/" ++ s) = s.
Proof.
  intros N. revert cur. induction root as [|c root IH]; intros cur; simpl.
  - now rewrite file_name_plain.
  - destruct (Ascii.eqb c "/"); apply IH.
Qed.

Lemma length_app (a b : string) : String.length (a ++ b) = String.length a + String.length b.
Proof. induction a; simpl; auto. Qed.

Lemma strip_suffix_app suf r : strip_suffix suf (r ++ suf) = Some r.
Proof.
  induction r as [|c r IH]; cbn [append strip_suffix].
  - destruct suf; [reflexivity|]. cbn [strip_suffix]. now rewrite String.eqb_refl.
  - destruct (String.eqb_spec (String c (r ++ suf)) suf) as [E|_].
    + exfalso. apply (f_equal String.length) in E. cbn [String.length] in E. rewrite length_app in E. lia.
    + now rewrite IH.
Qed.

Lemma occurs_app c a b : occurs c (a ++ b) <-> occurs c a \/ occurs c b.
Proof. induction a; simpl; tauto. Qed.

Lemma name_plain k r : ~ occurs "/" r -> ~ occurs "/" (r ++ suffix k).
Proof.
  intros N H. apply occurs_app in H as [H|H]; auto. destruct k; vm_compute in H;
    repeat match type of H with _ \/ _ => destruct H as [H|H]; try discriminate end; auto.
Qed.

Lemma get_path_plain k root r : ~ occurs "/" r -> get_path k root r = root ++ "/" ++ r ++ suffix k.
Proof.
  intros N. unfold get_path, join. destruct (starts_with_slash _) eqn:E; auto.
  exfalso. apply (name_plain k r N). destruct (r ++ suffix k) as [|c s]; [discriminate|]. simpl in *.
  apply Ascii.eqb_eq in E. auto.
Qed.

Lemma suffixes_differ k k' a b : a ++ suffix k = b ++ suffix k' -> k = k'.
Proof.
  intros H. apply (f_equal la) in H. rewrite !la_app in H. apply (f_equal (@rev _)) in H. rewrite !rev_app_distr in H.
  destruct k, k'; auto; vm_compute in H; discriminate.
Qed.
