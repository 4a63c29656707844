From Coq Require Import String Ascii.
From Verif Require Import Base JsonModel JsonProofs CliModel PoolModel WorkerModel TellModel TellSpec.
Import ListNotations.
Local Open Scope list_scope.

Lemma same_text_refl a : same_text a a = true.
Proof. unfold same_text. destruct (list_eq_dec _ a a); congruence. Qed.
Lemma same_text_true a b : same_text a b = true -> a = b.
Proof. unfold same_text. destruct (list_eq_dec _ a b); congruence. Qed.

(* ---- texts ---- *)
Lemma split_app c a b : split_at c (a ++ c :: b) = split_at c a ++ split_at c b.
Proof.
  induction a as [|x a IH]; cbn [app split_at].
  - now rewrite Nat.eqb_refl.
  - rewrite IH. destruct (x =? c); [reflexivity|]. destruct (split_at c a) eqn:E; [|reflexivity].
    exfalso. clear -E. destruct a as [|y a]; cbn in E; [discriminate|]. destruct (y =? c); [discriminate|]. destruct (split_at c a); discriminate.
Qed.
Lemma split_none c a : ~ In c a -> split_at c a = [a].
Proof.
  induction a as [|x a IH]; cbn [split_at]; [reflexivity|]. intros H. destruct (Nat.eqb_spec x c) as [->|N]; [exfalso; apply H; now left|].
  rewrite IH; [reflexivity|]. intros I. apply H. now right.
Qed.
Lemma cut_first c a b : ~ In c a -> cut c (a ++ c :: b) = (a, b).
Proof.
  induction a as [|x a IH]; cbn [app cut].
  - intros _. now rewrite Nat.eqb_refl.
  - intros H. destruct (Nat.eqb_spec x c) as [->|N]; [exfalso; apply H; now left|]. rewrite IH; [reflexivity|]. intros I. apply H. now right.
Qed.

Lemma segments_push p seg : (exists t, p = 47 :: t) -> seg <> [] -> ~ In 47 seg ->
  segments (p ++ (if List.length p =? 1 then [] else [47]) ++ seg) = segments p ++ [seg].
Proof.
  intros [t ->] N S. destruct t as [|x t].
  - cbn [List.length Nat.eqb app]. destruct seg as [|y seg]; [congruence|]. unfold segments at 1. rewrite split_none by exact S. reflexivity.
  - cbn [List.length Nat.eqb]. cbn [app]. unfold segments. rewrite (app_comm_cons t), split_app, (split_none 47 seg) by exact S. reflexivity.
Qed.

(* ---- form encoding ---- *)
Lemma hex_value_upper n : n < 16 -> hex_value (hex_upper n) = Some n.
Proof. intros H. do 16 (destruct n as [|n]; [reflexivity|]). lia. Qed.
Lemma hex_upper_range n : n < 16 -> 48 <= hex_upper n <= 57 \/ 65 <= hex_upper n <= 70.
Proof. intros H. unfold hex_upper. destruct (Nat.ltb_spec n 10); lia. Qed.

Lemma unreserved_not b c : unreserved b = true -> unreserved c = false -> b <> c.
Proof. congruence. Qed.

Lemma decode_encode t : is_bytes t -> form_decode (form_encode t) = t.
Proof.
  unfold is_bytes. induction t as [|b t IH]; intros H; [reflexivity|]. inversion H as [|? ? Hb Ht]; subst. specialize (IH Ht).
  unfold form_encode in *. cbn [flat_map]. unfold form_byte at 1. destruct (unreserved b) eqn:U.
  - cbn [app form_decode]. assert (N1 : (b =? 43) = false) by (apply Nat.eqb_neq; intros ->; discriminate).
    assert (N2 : (b =? 37) = false) by (apply Nat.eqb_neq; intros ->; discriminate). rewrite N1, N2, IH. reflexivity.
  - destruct (Nat.eqb_spec b 32) as [->|N].
    + cbn [app form_decode]. cbn [Nat.eqb]. now rewrite IH.
    + assert (D := Nat.div_mod b 16). assert (M := Nat.mod_upper_bound b 16). assert (L : b / 16 < 16) by (apply Nat.div_lt_upper_bound; lia).
      set (x := b / 16) in *. set (y := b mod 16) in *. cbn [app form_decode].
      change (37 =? 43) with false. change (37 =? 37) with true. cbv iota.
      rewrite !hex_value_upper by lia. rewrite IH. f_equal. lia.
Qed.

Lemma encode_safe t c : is_bytes t -> (c = 38 \/ c = 61) -> ~ In c (form_encode t).
Proof.
  intros H Hc I. unfold form_encode in I. apply in_flat_map in I as (b & Hb & I).
  assert (Hb' : b < 256) by (unfold is_bytes in H; rewrite Forall_forall in H; auto).
  unfold form_byte in I. destruct (unreserved b) eqn:U.
  - destruct I as [->|[]]. destruct Hc; subst; discriminate.
  - destruct (Nat.eqb_spec b 32).
    + destruct I as [<-|[]]. lia.
    + assert (M := Nat.mod_upper_bound b 16). assert (L : b / 16 < 16) by (apply Nat.div_lt_upper_bound; lia).
      assert (A1 := hex_upper_range (b / 16) L). assert (A2 := hex_upper_range (b mod 16) ltac:(lia)).
      destruct I as [I|[I|[I|[]]]]; lia.
Qed.

Lemma pairs_add k v u : is_bytes k -> is_bytes v -> pairs_of (u_query (add_pair k v u)) = pairs_of (u_query u) ++ [(k, v)].
Proof.
  intros Hk Hv. unfold add_pair. cbn [u_query].
  assert (X : split_at 38 (form_encode k ++ [61] ++ form_encode v) = [form_encode k ++ [61] ++ form_encode v]).
  { apply split_none. rewrite !in_app_iff. intros [I|[I|I]]; [revert I; apply encode_safe; auto| |revert I; apply encode_safe; auto].
    destruct I as [I|[]]; discriminate. }
  assert (Y : map pair_of (filter (fun p => negb (same_text p [])) [form_encode k ++ [61] ++ form_encode v]) = [(k, v)]).
  { cbn [filter]. assert (Z : same_text (form_encode k ++ [61] ++ form_encode v) [] = false).
    { unfold same_text. destruct (list_eq_dec _ _ _) as [E|]; [|reflexivity]. destruct (form_encode k); discriminate. }
    rewrite Z. cbn [negb map]. unfold pair_of. change ([61] ++ form_encode v) with (61 :: form_encode v).
    rewrite cut_first by (apply encode_safe; auto). now rewrite !decode_encode. }
  destruct (u_query u) as [[|x q]|].
  - rewrite ?app_nil_l. unfold pairs_of. rewrite X, Y. reflexivity.
  - unfold pairs_of. rewrite <- app_assoc. change ([38] ++ form_encode k ++ [61] ++ form_encode v) with (38 :: form_encode k ++ [61] ++ form_encode v).
    rewrite split_app, X, filter_app, map_app, Y. reflexivity.
  - rewrite ?app_nil_l. unfold pairs_of. rewrite X, Y. reflexivity.
Qed.

(* ---- the pool ---- *)
Lemma loop_info rs : forall (a : acc spec) id, a_info (pool_loop a id rs) = or (a_info a) (first_known rs).
Proof.
  induction rs as [|r rs IH]; intros a id; cbn [pool_loop first_known].
  - destruct (a_info a); reflexivity.
  - rewrite IH. destruct r as [c m f p [s|]|e o [s|]]; cbn [pool_step a_info]; destruct (a_info a); reflexivity.
Qed.
Lemma shutdown_info rs : x_info (shutdown rs) = first_known rs.
Proof. unfold shutdown. cbn [x_info]. rewrite loop_info. reflexivity. Qed.

Lemma loop_forget rs : forall (a : acc spec) (b : acc unit) id, a_errors a = a_errors b -> a_code a = a_code b ->
  a_errors (pool_loop a id rs) = a_errors (pool_loop b id (map forget rs)) /\ a_code (pool_loop a id rs) = a_code (pool_loop b id (map forget rs)).
Proof.
  induction rs as [|r rs IH]; intros a b id E C; cbn [pool_loop map]; [auto|].
  apply IH; destruct r; cbn; congruence.
Qed.
Lemma status_forget n rs : x_status (workers_exit n rs) = x_status (exit_of n (map forget rs)).
Proof.
  destruct n; cbn [workers_exit exit_of x_status]; try reflexivity. unfold shutdown. cbn [x_status].
  destruct (loop_forget rs pool_init pool_init 1 eq_refl eq_refl) as [-> ->]. reflexivity.
Qed.

(* ---- requests ---- *)
Lemma header_ok_sent t : header_ok t = true <-> can_be_sent t.
Proof.
  unfold header_ok, can_be_sent, header_byte. rewrite forallb_forall. split; intros H b I; specialize (H b I).
  - apply orb_true_iff in H as [H|H]; [right|left; now apply Nat.eqb_eq].
    apply andb_true_iff in H as [H1 H2]. apply Nat.leb_le in H1. apply negb_true_iff, Nat.eqb_neq in H2. auto.
  - apply orb_true_iff. destruct H as [->|[H1 H2]]; [right; reflexivity|left].
    apply andb_true_iff. split; [now apply Nat.leb_le|]. now apply negb_true_iff, Nat.eqb_neq.
Qed.
Lemma header_ok_bearer t : header_ok (bearer t) = header_ok t.
Proof. unfold header_ok, bearer. rewrite forallb_app. reflexivity. Qed.

Section Told.
Context (version : list nat).
Definition the_request (u : url) (token run_id : list nat) (s : spec) : request :=
  {| q_method := POST; q_url := push (lit "record_test_run") u;
     q_headers := [(lit "authorization", bearer token); (lit "user-agent", user_agent version); (lit "content-type", lit "application/json")];
     q_body := Some (write (body_of run_id s)) |}.

Lemma build_tell_eq u token r s : build_tell version u token r s =
  if header_ok token && header_ok version then Some (the_request u token r s) else None.
Proof.
  unfold build_tell, with_json, with_header, plain. rewrite header_ok_bearer.
  assert (X : header_ok (user_agent version) = header_ok version) by (unfold header_ok, user_agent; rewrite forallb_app; reflexivity).
  destruct (header_ok token); cbn [andb]; [|reflexivity]. rewrite X. destruct (header_ok version); reflexivity.
Qed.

Lemma says_request u token r s : says (the_request u token r s) = Some (r, (n_name s, n_version s, n_host s)).
Proof.
  unfold says, the_request. cbn [q_body]. rewrite read_json_write; [|cbn; tauto|unfold body_of, recursion_limit; cbn; lia].
  unfold body_of. rewrite !same_text_refl. reflexivity.
Qed.

Lemma try_two (r : option request) service : try_loop ATTEMPTS 1 r service =
  match r with
  | None => ([], TPanics)
  | Some q =>
      match service 1 with
      | Silent => ([q], THangs)
      | NoAnswer => ([q], TFailed)
      | Answer s => if is_success s then ([q], TDone s)
                    else ([q; q], match service 2 with Silent => THangs | NoAnswer => TFailed | Answer s' => TDone s' end)
      end
  end.
Proof.
  unfold ATTEMPTS. cbn [try_loop]. destruct r as [q|]; [|reflexivity]. destruct (service 1); try reflexivity.
  destruct (is_success status); [reflexivity|]. cbn. destruct (service 2); try reflexivity. now rewrite orb_true_r.
Qed.
End Told.
