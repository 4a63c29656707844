From Coq Require Import String.
From Verif Require Import Base StatusModel ReportModel.
From Verif Require SummaryModel SummaryProofs ReportersSpec ReportersProofs.
From Verif Require Import ReportersModel JunitFileModel JunitFileSpec.
From Coq Require Import NArith ZArith Lia.
Open Scope N_scope.

(* ---- trees and how they are written ---- *)
Definition wattr (a : text * text) : text := 32 :: fst a ++ 61 :: 34 :: escape (snd a) ++ [34].
Fixpoint wr (e : node) : text :=
  let '(Elem n l kids) := e in
  60 :: n ++ flat_map wattr l ++
  match kids with [] => [47; 62] | _ => 62 :: flat_map wr kids ++ 60 :: 47 :: n ++ [62] end.
Fixpoint mapv (g : text -> text) (e : node) : node :=
  let '(Elem n l kids) := e in Elem n (map (fun a => (fst a, g (snd a))) l) (map (mapv g) kids).
Definition word (n : text) : Prop := n <> [] /\ Forall (fun c => letter c = true) n.
Inductive wf : node -> Prop :=
| Wf n l kids : word n -> Forall (fun a => word (fst a)) l -> NoDup (map fst l) -> Forall wf kids -> wf (Elem n l kids).
Inductive wv (P : text -> Prop) : node -> Prop :=
| Wv n l kids : Forall (fun a => P (snd a)) l -> Forall (wv P) kids -> wv P (Elem n l kids).

Section NodeInd.
Variable P : node -> Prop.
Hypothesis H : forall n l kids, Forall P kids -> P (Elem n l kids).
Fixpoint node_ind' (e : node) : P e :=
  match e with
  | Elem n l kids => H n l kids ((fix go ks : Forall P ks := match ks with [] => Forall_nil _ | k :: ks' => Forall_cons k (node_ind' k) (go ks') end) kids)
  end.
End NodeInd.

(* ---- little things ---- *)
Lemma same_iff a b : same a b = true <-> a = b.
Proof.
  revert b. induction a as [|x a IH]; intros [|y b]; cbn; try easy. rewrite andb_true_iff, N.eqb_eq, IH.
  split; [intros [-> ->]; auto | intros E; injection E; auto].
Qed.
Lemma after_app w x : after w (w ++ x) = Some x.
Proof. induction w as [|a w IH]; cbn; auto. now rewrite N.eqb_refl. Qed.
Lemma escape_app a b : escape (a ++ b) = escape a ++ escape b. Proof. apply flat_map_app. Qed.
Lemma letter_range c : letter c = true -> 65 <= c <= 122.
Proof. unfold letter. rewrite orb_true_iff, !andb_true_iff, !N.leb_le. lia. Qed.

Lemma letters_word n r : Forall (fun c => letter c = true) n -> (forall c r', r = c :: r' -> letter c = false) -> letters (n ++ r) = (n, r).
Proof.
  intros F R. induction F as [|c n C F IH]; cbn.
  - destruct r as [|c r]; cbn; auto. now rewrite (R c r eq_refl).
  - now rewrite C, IH.
Qed.
Lemma name_word n r : word n -> (forall c r', r = c :: r' -> letter c = false) -> name (n ++ r) = Some (n, r).
Proof. intros [N F] R. unfold name. rewrite letters_word; auto. destruct n; [easy|auto]. Qed.

Ltac special c := destruct (c =? 60) eqn:?E60; [|destruct (c =? 62) eqn:?E62; [|destruct (c =? 39) eqn:?E39; [|destruct (c =? 38) eqn:?E38; [|destruct (c =? 34) eqn:?E34]]]].

Lemma value_escape v : forall f r, (List.length (escape v) < f)%nat -> value f (escape v ++ 34 :: r) = Some (map spaced v, r).
Proof.
  induction v as [|c v IH]; intros f r L.
  - destruct f; [cbn in L; lia|reflexivity].
  - cbn [escape flat_map] in L |- *. fold (escape v) in L |- *. rewrite app_length in L. rewrite <- app_assoc. unfold escape_char in *.
    destruct f as [|f]; [lia|].
    special c; try (apply N.eqb_eq in E60; subst c; cbn in L |- *; rewrite IH by (cbn in L; lia); reflexivity).
    + apply N.eqb_eq in E62; subst c; cbn in L |- *; rewrite IH by lia; reflexivity.
    + apply N.eqb_eq in E39; subst c; cbn in L |- *; rewrite IH by lia; reflexivity.
    + apply N.eqb_eq in E38; subst c; cbn in L |- *; rewrite IH by lia; reflexivity.
    + apply N.eqb_eq in E34; subst c; cbn in L |- *; rewrite IH by lia; reflexivity.
    + cbn [app value map]. cbn in L. rewrite E34, E60, E38, IH by lia. reflexivity.
Qed.

Definition rd (e : node) : node := mapv (map spaced) e.
Definition closes (x : text) : option (bool * text) := match x with 62 :: x' => Some (false, x') | 47 :: 62 :: x' => Some (true, x') | _ => None end.

Lemma attributes_read l : Forall (fun a => word (fst a)) l -> NoDup (map fst l) -> forall f x e r,
  closes x = Some (e, r) -> (List.length l < f)%nat ->
  attributes f (flat_map wattr l ++ x) = Some (map (fun a => (fst a, map spaced (snd a))) l, e, r).
Proof.
  intros W D. induction l as [|[n v] l IH]; intros f x e r C L.
  - destruct f; [cbn in L; lia|]. cbn [flat_map app attributes map].
    destruct x as [|[|p] x]; cbn in C; try discriminate.
    destruct (Pos.eq_dec p 62) as [->|N62]; [now injection C as <- <-|].
    destruct (Pos.eq_dec p 47) as [->|N47].
    + destruct x as [|d x]; [discriminate|]. destruct (N.eq_dec d 62) as [->|N].
      * now injection C as <- <-.
      * exfalso. revert C. destruct d as [|d]; [discriminate|]. repeat (destruct d as [d|d|]; try discriminate; try (now destruct N)).
    + exfalso. revert C. repeat (destruct p as [p|p|]; try discriminate; try (now destruct N62); try (now destruct N47)).
  - inversion W as [|? ? Wn Wl]; subst. inversion D as [|? ? Dn Dl]; subst. cbn [List.length] in L. destruct f as [|f]; [lia|].
    cbn [flat_map]. unfold wattr at 1. cbn [fst snd app]. rewrite <- !app_assoc. cbn [app attributes].
    rewrite name_word; [|exact Wn|intros c r' [= <- _]; reflexivity].
    rewrite <- app_assoc. cbn [app].
    rewrite value_escape by (rewrite app_length; cbn; lia).
    rewrite (IH Wl Dl f x e r C) by lia. cbn [map fst snd].
    replace (existsb _ _) with false; auto. symmetry. apply not_true_is_false. intros E. apply existsb_exists in E.
    destruct E as (a & I & S). apply same_iff in S. apply in_map_iff in I. destruct I as (b & <- & I). cbn [fst] in S. cbn in Dn. apply Dn. rewrite <- S. now apply in_map.
Qed.

Definition stops (rest : text) : Prop := rest = [] \/ exists r, rest = 60 :: 47 :: r.
Lemma attrs_length l : (List.length l <= List.length (flat_map wattr l))%nat.
Proof. induction l as [|a l IH]; cbn; auto. rewrite app_length. lia. Qed.
Lemma attrs_start l x : (exists c x', x = c :: x' /\ letter c = false) -> forall c r, flat_map wattr l ++ x = c :: r -> letter c = false.
Proof. intros (d & x' & -> & D) c r E. destruct l; cbn in E; injection E as <- _; auto. Qed.

Lemma elements_read : forall f l rest, Forall wf l -> stops rest -> (List.length (flat_map wr l) < f)%nat ->
  elements f (flat_map wr l ++ rest) = Some (map rd l, rest).
Proof.
  induction f as [|f IH]; intros l rest W ST L; [lia|]. destruct l as [|e l].
  - cbn [flat_map app map]. destruct ST as [->|[r ->]]; reflexivity.
  - inversion W as [|? ? We Wl]; subst. destruct We as [n al kids Wn Wa D Wk]. cbn [flat_map] in L |- *. rewrite app_length in L. rewrite <- app_assoc.
    cbn [wr app]. cbn [wr List.length] in L. rewrite !app_length in L. rewrite <- !app_assoc.
    assert (E : forall y z, (exists c y', y = c :: y' /\ letter c = false) -> elements (S f) (60 :: n ++ y) = z ->
       z = match name (n ++ y) with
          | Some (n, x2) =>
              match attributes (List.length x2) x2 with
              | Some (l, true, x3) => match elements f x3 with Some (es, r) => Some (Elem n l [] :: es, r) | None => None end
              | Some (l, false, x3) =>
                  match elements f x3 with
                  | Some (kids, x4) =>
                      match after (lit "</" ++ n ++ lit ">") x4 with
                      | Some x5 => match elements f x5 with Some (es, r) => Some (Elem n l kids :: es, r) | None => None end
                      | None => None
                      end
                  | None => None
                  end
              | None => None
              end
          | None => None
          end).
    { intros y z _ <-. destruct Wn as [Nn Fn]. destruct n as [|c n]; [easy|]. inversion Fn as [|? ? C _]; subst.
      cbn [app]. assert (N47 : c <> 47) by (apply letter_range in C; lia). cbn [elements].
      destruct c as [|p]; [reflexivity|]. destruct (Pos.eq_dec p 47) as [->|N]; [easy|].
      repeat (destruct p as [p|p|]; try reflexivity; try (now destruct N)). }
    pose proof (fun y Y => E y _ Y eq_refl) as E'. clear E. 
    destruct kids as [|k kids].
    + rewrite E'.
      2:{ destruct al; cbn; eauto. }
      rewrite name_word by (auto; apply attrs_start; cbn; eauto).
      rewrite (attributes_read al Wa D _ _ true (flat_map wr l ++ rest)); [|reflexivity|].
      * rewrite (IH l rest Wl ST) by lia. reflexivity.
      * rewrite app_length. pose proof (attrs_length al). cbn. lia.
    + set (ks := k :: kids) in *. cbn [app]. rewrite <- !app_assoc. cbn [app].
      rewrite E'.
      2:{ destruct al; cbn; eauto. }
      rewrite name_word by (auto; apply attrs_start; cbn; eauto).
      assert (Lk : (S (List.length (flat_map wr ks)) < f)%nat) by (cbn [List.length] in L; rewrite app_length in L; cbn [List.length] in L; lia).
      rewrite (attributes_read al Wa D _ _ false (flat_map wr ks ++ 60 :: 47 :: (n ++ [62]) ++ flat_map wr l ++ rest)); [|reflexivity|].
      * rewrite (IH ks _ Wk) by (try lia; right; eauto).
        change (60 :: 47 :: (n ++ [62]) ++ flat_map wr l ++ rest) with (lit "</" ++ (n ++ lit ">") ++ flat_map wr l ++ rest).
        rewrite (app_assoc (lit "</") (n ++ lit ">") (flat_map wr l ++ rest)), after_app. rewrite (IH l rest Wl ST) by lia. reflexivity.
      * rewrite app_length. pose proof (attrs_length al). cbn. lia.
Qed.

(* ---- the ends of lines ---- *)
Lemma two_ind (P : list N -> Prop) : P [] -> (forall c, P [c]) -> (forall c d x, P x -> P (d :: x) -> P (c :: d :: x)) -> forall x, P x.
Proof.
  intros A B C x. assert (H : P x /\ forall c, P (c :: x)); [|tauto]. induction x as [|d x [I J]]; [split; auto|]. split; [apply J|].
  intros c. apply C; auto.
Qed.
Lemma line_ends_cons c x : c <> 13 -> line_ends (c :: x) = c :: line_ends x.
Proof. intros N. cbn. apply N.eqb_neq in N. now rewrite N. Qed.
Lemma line_ends_app (a : list N) c b : c <> 10 -> line_ends (a ++ c :: b) = line_ends a ++ line_ends (c :: b).
Proof.
  intros N. apply N.eqb_neq in N. induction a as [|x|x y a IH1 IH2] using two_ind; [reflexivity| |].
  - cbn [app]. destruct (x =? 13) eqn:X.
    + cbn [line_ends] in *. rewrite X, N. reflexivity.
    + apply N.eqb_neq in X. now rewrite (line_ends_cons x (c :: b)), (line_ends_cons x []) by auto.
  - cbn [app] in *. destruct (x =? 13) eqn:X.
    + remember (line_ends (c :: b)) as Z. cbn [line_ends] in *. rewrite X. destruct (y =? 10); [now rewrite IH1|]. now rewrite IH2.
    + apply N.eqb_neq in X. rewrite !(line_ends_cons x) by auto. cbn [app]. now rewrite IH2.
Qed.
Lemma line_ends_free x : Forall (fun c => c <> 13) x -> line_ends x = x.
Proof. induction 1 as [|c x C F IH]; [reflexivity|]. now rewrite line_ends_cons, IH. Qed.
Lemma line_ends_pre x y : Forall (fun c => c <> 13) x -> line_ends (x ++ y) = x ++ line_ends y.
Proof. induction 1 as [|c x C F IH]; [reflexivity|]. cbn [app]. now rewrite line_ends_cons, IH. Qed.
Lemma escape_char_start c : exists d x, escape_char c = d :: x /\ (d = 10 -> c = 10) /\ (c <> 13 -> Forall (fun e => e <> 13) (escape_char c)) /\ (d = 13 -> c = 13).
Proof.
  unfold escape_char. special c; eexists _, _; (split; [reflexivity|]); (split; [intros; try discriminate; auto|]); (split; [|intros; try discriminate; auto]); intros; repeat constructor; auto; discriminate.
Qed.
Lemma escape_char_free c : c <> 13 -> Forall (fun e => e <> 13) (escape_char c).
Proof. destruct (escape_char_start c) as (d & x & _ & _ & F & _). exact F. Qed.
Lemma line_ends_escape (v : list N) : line_ends (escape v) = escape (line_ends v).
Proof.
  induction v as [|x|x y a IH1 IH2] using two_ind; [reflexivity| |].
  - cbn [escape flat_map]. rewrite app_nil_r. destruct (N.eq_dec x 13) as [->|N]; [reflexivity|].
    rewrite line_ends_free; [|now apply escape_char_free]. rewrite line_ends_cons by auto. cbn [line_ends escape flat_map]. now rewrite app_nil_r.
  - change (escape (x :: y :: a)) with (escape_char x ++ escape (y :: a)). destruct (N.eq_dec x 13) as [->|N].
    + change (escape_char 13) with [13]. change (escape (y :: a)) with (escape_char y ++ escape a) in *. cbn [app line_ends N.eqb Pos.eqb].
      destruct (escape_char_start y) as (d & z & E & D & _).
      destruct (y =? 10) eqn:Y.
      * apply N.eqb_eq in Y. subst y. change (escape_char 10) with [10]. cbn [app N.eqb Pos.eqb]. rewrite IH1. reflexivity.
      * rewrite E. cbn [app]. destruct (d =? 10) eqn:D'; [apply N.eqb_eq in D'; apply N.eqb_neq in Y; tauto|].
        rewrite E in IH2. cbn [app] in IH2. rewrite IH2. reflexivity.
    + rewrite line_ends_pre by (now apply escape_char_free). rewrite (line_ends_cons x) by auto. now rewrite IH2.
Qed.

Lemma word_free n : word n -> Forall (fun c => c <> 13) n.
Proof. intros [_ F]. eapply Forall_impl; [|exact F]. intros c C. apply letter_range in C. lia. Qed.
Lemma line_ends_attr a x : word (fst a) -> line_ends (wattr a ++ x) = wattr (fst a, line_ends (snd a)) ++ line_ends x.
Proof.
  intros W. unfold wattr. cbn [app]. rewrite line_ends_cons by discriminate. rewrite <- app_assoc, line_ends_pre by (now apply word_free).
  cbn [app fst snd]. rewrite !line_ends_cons by discriminate. rewrite <- !app_assoc. cbn [app].
  rewrite line_ends_app by discriminate. rewrite line_ends_escape, line_ends_cons by discriminate. rewrite <- !app_assoc. cbn [app]. reflexivity.
Qed.
Lemma line_ends_attrs l x : Forall (fun a => word (fst a)) l -> line_ends (flat_map wattr l ++ x) = flat_map wattr (map (fun a => (fst a, line_ends (snd a))) l) ++ line_ends x.
Proof. induction 1 as [|a l W F IH]; cbn [flat_map map app]; auto. now rewrite <- !app_assoc, line_ends_attr, IH. Qed.
Lemma line_ends_wr e : wf e -> forall x, line_ends (wr e ++ x) = wr (mapv line_ends e) ++ line_ends x.
Proof.
  induction e as [n l kids IH] using node_ind'. intros W x. inversion W as [? ? ? Wn Wl D Wk]; subst.
  cbn [wr mapv app]. rewrite line_ends_cons by discriminate. rewrite <- !app_assoc, line_ends_pre by (now apply word_free). rewrite line_ends_attrs by auto.
  destruct kids as [|k kids].
  - cbn [map app]. now rewrite !line_ends_cons by discriminate.
  - set (ks := k :: kids) in *. assert (K : forall y, line_ends (flat_map wr ks ++ y) = flat_map wr (map (mapv line_ends) ks) ++ line_ends y).
    { clear W. induction ks as [|k' ks' IHk]; intros y; [reflexivity|]. inversion IH; subst. inversion Wk; subst. cbn [flat_map map]. rewrite <- !app_assoc. rewrite H1 by auto. f_equal. apply IHk; auto. }
    change (map (mapv line_ends) ks) with (mapv line_ends k :: map (mapv line_ends) kids) in *. cbv beta iota.
    cbn [app]. rewrite line_ends_cons by discriminate. rewrite <- !app_assoc. rewrite K. cbn [app]. rewrite !line_ends_cons by discriminate.
    rewrite <- !app_assoc, line_ends_pre by (now apply word_free). cbn [app]. rewrite line_ends_cons by discriminate. reflexivity.
Qed.
Lemma wf_mapv g e : wf e -> wf (mapv g e).
Proof.
  induction e as [n l kids IH] using node_ind'. intros W. inversion W as [? ? ? Wn Wl D Wk]; subst. cbn. constructor; auto.
  - rewrite Forall_map. exact Wl.
  - rewrite map_map. exact D.
  - rewrite Forall_map. clear W. induction kids; inversion IH; inversion Wk; subst; constructor; auto.
Qed.
Lemma mapv_comp g h e : mapv g (mapv h e) = mapv (fun x => g (h x)) e.
Proof.
  induction e as [n l kids IH] using node_ind'. cbn. f_equal; rewrite map_map; [reflexivity|]. apply map_ext_Forall. exact IH.
Qed.

(* ---- the characters ---- *)
Lemma escape_writable v : writable v -> forallb xml_char (escape v) = true.
Proof.
  induction 1 as [|c v C F IH]; [reflexivity|]. cbn [escape flat_map]. rewrite forallb_app. fold (escape v). rewrite IH, andb_true_r.
  unfold escape_char. special c; try reflexivity. cbn. now rewrite C.
Qed.
Lemma word_writable n : word n -> forallb xml_char n = true.
Proof.
  intros [_ F]. apply forallb_forall. intros c I. rewrite Forall_forall in F. specialize (F c I). apply letter_range in F.
  unfold xml_char. replace (32 <=? c) with true by (symmetry; apply N.leb_le; lia). replace (c <=? 55295) with true by (symmetry; apply N.leb_le; lia).
  cbn [andb]. now rewrite !orb_true_r.
Qed.
Lemma wr_writable e : wf e -> wv writable e -> forallb xml_char (wr e) = true.
Proof.
  induction e as [n l kids IH] using node_ind'. intros W V. inversion W as [? ? ? Wn Wl D Wk]; subst. inversion V as [? ? ? Vl Vk]; subst.
  cbn [wr forallb]. rewrite !forallb_app, (word_writable n) by auto. cbn [andb].
  assert (A : forallb xml_char (flat_map wattr l) = true).
  { clear W V D. induction l as [|a l IHl]; [reflexivity|]. inversion Wl; inversion Vl; subst. cbn [flat_map]. rewrite forallb_app, IHl by auto.
    unfold wattr. cbn [forallb]. rewrite forallb_app. rewrite (word_writable (fst a)) by auto. cbn [forallb]. rewrite forallb_app, escape_writable by auto. reflexivity. }
  rewrite A. destruct kids as [|k kids]; [reflexivity|]. set (ks := k :: kids) in *. cbn [forallb]. rewrite forallb_app. cbn [forallb]. rewrite forallb_app, (word_writable n) by auto.
  assert (K : forallb xml_char (flat_map wr ks) = true).
  { clear W V. induction ks as [|k' ks' IHk]; [reflexivity|]. inversion IH; inversion Wk; inversion Vk; subst. cbn [flat_map]. rewrite forallb_app, H1 by auto. apply IHk; auto. }
  rewrite K. reflexivity.
Qed.

Definition declaration : text := lit "<?xml version=""1.0"" encoding=""utf-8""?>".
Lemma read_tree e : wf e -> wv writable e -> read_xml (declaration ++ wr e) = Some (mapv as_read e).
Proof.
  intros W V. unfold read_xml. rewrite forallb_app, wr_writable by auto. change (forallb xml_char declaration) with true. cbn [andb].
  rewrite line_ends_pre by (unfold declaration; repeat constructor; discriminate).
  fold declaration. rewrite after_app. pose proof (line_ends_wr e W []) as X. rewrite !app_nil_r in X. rewrite X.
  pose proof (elements_read (S (List.length (wr (mapv line_ends e)))) [mapv line_ends e] []) as Y. cbn [flat_map map] in Y. rewrite !app_nil_r in Y.
  rewrite Y; [|repeat constructor; now apply wf_mapv|now left|lia].
  unfold rd. rewrite mapv_comp. reflexivity.
Qed.

(* ---- the report as a tree ---- *)
Section Trees.
Context (seconds : Z -> text) (timestamp : text).
Definition problem_tree (n : string) (type message : text) : node := Elem (lit n) [(lit "type", type); (lit "message", message)] [].
Definition case_tree (c : case) : node :=
  Elem (lit "testcase") [(lit "name", c_name c); (lit "time", seconds (c_time c))]
    match c_verdict c with
    | CSuccess => []
    | CSkipped => [Elem (lit "skipped") [] []]
    | CFailure type message => [problem_tree "failure" type message]
    | CError type message => [problem_tree "error" type message]
    end.
Definition suite_tree (s : junit_suite) : node :=
  Elem (lit "testsuite")
    [(lit "id", lit "0"); (lit "name", j_name s); (lit "package", lit "testsuite/" ++ j_name s); (lit "tests", count (junit_tests s));
     (lit "errors", count (junit_errors s)); (lit "failures", count (junit_failures s)); (lit "hostname", lit "localhost");
     (lit "timestamp", timestamp); (lit "time", seconds (junit_time s))] (map case_tree (j_cases s)).
Definition tree (s : junit_suite) : node := Elem (lit "testsuites") [] [suite_tree s].

Lemma t_lit s : t s = lit s.
Proof. unfold t, lit. induction s as [|c s IH]; cbn; auto. now rewrite IH. Qed.
Lemma attr_wattr n v x : attr n v ++ x = wattr (lit n, v) ++ x.
Proof. unfold attr, wattr. cbn [fst snd app]. rewrite <- !app_assoc, t_lit. reflexivity. Qed.
Lemma case_xml_wr c : case_xml seconds c = wr (case_tree c).
Proof.
  unfold case_xml, case_tree, problem_tree. destruct (c_verdict c); cbn [wr flat_map]; rewrite !attr_wattr, ?app_nil_r, <- ?app_assoc; cbn [app]; rewrite <- ?app_assoc; reflexivity.
Qed.
Lemma write_xml_wr s : write_xml seconds timestamp s = declaration ++ wr (tree s).
Proof.
  unfold write_xml, tree, suite_xml, suite_tree. cbn [wr flat_map]. rewrite !app_nil_r.
  change (t "<?xml version=""1.0"" encoding=""utf-8""?>") with declaration. f_equal.
  change (t "<testsuites>") with (60 :: lit "testsuites" ++ [] ++ [62]). cbn [app]. rewrite <- !app_assoc. cbn [app]. f_equal. f_equal. f_equal.
  rewrite !attr_wattr. rewrite <- ?app_assoc.
  destruct (j_cases s) as [|c l]; cbn [map].
  - reflexivity.
  - cbn [app]. rewrite <- !app_assoc. cbn [flat_map]. rewrite <- !app_assoc, case_xml_wr.
    replace (flat_map (case_xml seconds) l) with (flat_map wr (map case_tree l)); [reflexivity|].
    induction l as [|d l IH]; cbn [flat_map map]; auto. now rewrite IH, case_xml_wr.
Qed.
Ltac wordy := split; [discriminate|repeat constructor].
Ltac nodup := repeat (constructor; [cbn; intros X; repeat (destruct X as [X|X]; try discriminate); exact X|]); constructor.
Lemma case_tree_wf c : wf (case_tree c).
Proof.
  unfold case_tree, problem_tree. constructor; [wordy|repeat (constructor; [wordy|]); constructor|cbn; nodup|].
  destruct (c_verdict c); repeat constructor; try (wordy); cbn; try discriminate; try (intros X; repeat (destruct X as [X|X]; try discriminate); exact X).
Qed.
Lemma tree_wf s : wf (tree s).
Proof.
  unfold tree, suite_tree. constructor; [wordy|constructor|constructor|]. constructor; [|constructor]. constructor; [wordy|repeat (constructor; [wordy|]); constructor|cbn; nodup|].
  rewrite Forall_map. apply Forall_forall. intros c _. apply case_tree_wf.
Qed.
End Trees.

(* ---- what the tree tells ---- *)
Lemma spaced_plain c : 32 <= c -> spaced c = c.
Proof. intros L. unfold spaced. replace (c =? 9) with false by (symmetry; apply N.eqb_neq; lia). replace (c =? 10) with false by (symmetry; apply N.eqb_neq; lia). now replace (c =? 13) with false by (symmetry; apply N.eqb_neq; lia). Qed.
Lemma as_read_plain x : Forall (fun c => 32 <= c) x -> as_read x = x.
Proof.
  intros F. unfold as_read. rewrite line_ends_free by (eapply Forall_impl; [|exact F]; intros c C; cbn in C; lia).
  rewrite (map_ext_in _ (fun c => c)); [apply map_id|]. intros c I. rewrite Forall_forall in F. apply spaced_plain. auto.
Qed.
Lemma as_read_one_line x : one_line x -> as_read x = x.
Proof.
  intros F. unfold as_read. rewrite line_ends_free by (eapply Forall_impl; [|exact F]; cbn; tauto).
  rewrite (map_ext_in _ (fun c => c)); [apply map_id|]. intros c I. unfold one_line in F. rewrite Forall_forall in F. destruct (F c I) as (A & B & C). unfold spaced.
  apply N.eqb_neq in A, B, C. now rewrite A, B, C.
Qed.
Lemma digit_iff c : SummarySpec.is_digit c = digit c. Proof. reflexivity. Qed.
Lemma count_digits n : Forall (fun c => digit c = true) (count n).
Proof. apply SummaryProofs.dec_digit. Qed.
Lemma digit_32 c : digit c = true -> 32 <= c.
Proof. unfold digit. rewrite andb_true_iff, !N.leb_le. lia. Qed.
Lemma as_read_count n : as_read (count n) = count n.
Proof. apply as_read_plain. eapply Forall_impl; [|apply count_digits]. apply digit_32. Qed.
Lemma horner_fold x : forall a, SummaryProofs.horner x a = fold_left (fun a c => 10 * a + (c - 48)) x a.
Proof. induction x as [|c x IH]; intros a; cbn [SummaryProofs.horner fold_left]; auto. Qed.
Lemma count_number n : is_number (Some (as_read (count n))) n.
Proof.
  rewrite as_read_count. exists (count n). split; [reflexivity|]. split; [apply SummaryProofs.dec_nonempty|]. split.
  - apply forallb_forall. intros c I. pose proof (count_digits n) as F. rewrite Forall_forall in F. auto.
  - unfold decimal. rewrite <- horner_fold. apply SummaryProofs.horner_dec.
Qed.
Lemma collect_cases strip n rs : forall cs, j_cases (fold_left (junit_push strip) rs {| j_name := n; j_cases := cs |}) = cs ++ map (junit_case strip) rs /\
  j_name (fold_left (junit_push strip) rs {| j_name := n; j_cases := cs |}) = n.
Proof.
  induction rs as [|r rs IH]; intros cs; cbn [fold_left map]; [now rewrite app_nil_r|].
  destruct (IH (cs ++ [junit_case strip r])) as [A B]. unfold junit_push at 2 4. cbn [j_name j_cases]. rewrite A, B, <- app_assoc. auto.
Qed.
Lemma collect_is strip n rs : collect strip n rs = {| j_name := n; j_cases := map (junit_case strip) rs |}.
Proof.
  destruct (collect_cases strip n rs []) as [A B]. unfold collect. revert A B. set (s := fold_left _ _ _). clearbody s. destruct s as [m l]. cbn. now intros -> ->.
Qed.
Definition output_text (r : full) : text := match f_output r with Some o => o | None => [] end.
Lemma case_tells seconds strip r : tells as_read strip r (mapv as_read (case_tree seconds (junit_case strip r))).
Proof.
  unfold tells, junit_case, case_tree. destruct (f_status r); cbn [c_verdict c_name mapv map problem_tree fst snd]; (split; [reflexivity|]); (split; [reflexivity|]);
    try reflexivity; try (eexists; split; [reflexivity|]; repeat split; reflexivity).
Qed.
Lemma filter_map_length {A B} (f : B -> bool) (g : A -> B) l : List.length (filter f (map g l)) = List.length (filter (fun a => f (g a)) l).
Proof. induction l as [|a l IH]; cbn; auto. destruct (f (g a)); cbn; auto. Qed.
Lemma failures_many strip n rs : junit_failures {| j_name := n; j_cases := map (junit_case strip) rs |} = how_many [Failure] rs.
Proof.
  unfold junit_failures, how_many. cbn [j_cases]. rewrite filter_map_length. f_equal. apply filter_ext. intros r.
  unfold is_failure, junit_case. destruct (f_status r); cbn [c_verdict]; destruct (in_dec _ _ _) as [I|I]; auto; cbn in I; try (exfalso; intuition discriminate); exfalso; apply I; auto.
Qed.
Lemma errors_many strip n rs : junit_errors {| j_name := n; j_cases := map (junit_case strip) rs |} = how_many [Error; TimedOut; PrivateNativeRunnerError] rs.
Proof.
  unfold junit_errors, how_many. cbn [j_cases]. rewrite filter_map_length. f_equal. apply filter_ext. intros r.
  unfold is_error, junit_case. destruct (f_status r); cbn [c_verdict]; destruct (in_dec _ _ _) as [I|I]; auto; cbn in I; try (exfalso; intuition discriminate); exfalso; apply I; auto.
Qed.
Lemma tree_tells seconds timestamp strip n rs :
  tells_all as_read strip rs (mapv as_read (tree seconds timestamp {| j_name := n; j_cases := map (junit_case strip) rs |})).
Proof.
  unfold tells_all, tree. cbn [mapv map]. split; [reflexivity|]. eexists. split; [reflexivity|]. unfold suite_tree. cbn [mapv map fst snd j_cases j_name]. split; [reflexivity|]. split; [|split; [|split]].
  - cbn [children]. rewrite !map_map. induction rs as [|r rs IH]; constructor; auto. apply case_tells.
  - replace (List.length rs) with (junit_tests {| j_name := n; j_cases := map (junit_case strip) rs |}) by (unfold junit_tests; cbn [j_cases]; apply map_length). apply count_number.
  - rewrite <- (failures_many strip n). apply count_number.
  - rewrite <- (errors_many strip n). apply count_number.
Qed.

(* ---- the characters of the report ---- *)
Lemma plain_writable x : Forall plain x -> writable x.
Proof.
  intros F. eapply Forall_impl; [|exact F]. intros c (L & _). cbn beta. unfold xml_char.
  replace (32 <=? c) with true by (symmetry; apply N.leb_le; lia). replace (c <=? 55295) with true by (symmetry; apply N.leb_le; lia). cbn [andb]. now rewrite !orb_true_r.
Qed.
Lemma lit_writable s : forallb xml_char (lit s) = true -> writable (lit s).
Proof. intros H. apply Forall_forall. rewrite forallb_forall in H. exact H. Qed.
Lemma count_writable n : writable (count n).
Proof.
  eapply Forall_impl; [|apply count_digits]. intros c C. cbn beta. unfold digit in C. apply andb_true_iff in C. rewrite !N.leb_le in C. unfold xml_char.
  replace (32 <=? c) with true by (symmetry; apply N.leb_le; lia). replace (c <=? 55295) with true by (symmetry; apply N.leb_le; lia). cbn [andb]. now rewrite !orb_true_r.
Qed.
Lemma tree_writable seconds timestamp strip n rs : (forall z, Forall plain (seconds z)) -> Forall plain timestamp -> writable n ->
  (forall r, In r rs -> writable (f_name r) /\ writable (strip (output_text r))) ->
  wv writable (tree seconds timestamp {| j_name := n; j_cases := map (junit_case strip) rs |}).
Proof.
  intros S T N R. unfold tree, suite_tree. cbn [j_name j_cases]. constructor; [constructor|]. constructor; [|constructor]. constructor.
  - assert (P : writable (lit "testsuite/" ++ n)) by (apply Forall_app; split; [now apply lit_writable|exact N]).
    do 9 (apply Forall_cons; [cbn [snd]; first [exact P | exact N | apply count_writable | apply plain_writable; solve [auto] | now apply lit_writable]|]). constructor.
  - rewrite map_map, Forall_map. apply Forall_forall. intros r I. destruct (R r I) as [A B]. unfold output_text in B. unfold case_tree, junit_case, problem_tree. constructor.
    + do 2 (apply Forall_cons; [cbn [snd]; destruct (f_status r); first [exact A | apply plain_writable; auto]|]). constructor.
    + destruct (f_status r); cbn [c_verdict]; repeat constructor; cbn [snd]; auto; try (now apply (lit_writable "failure")); try (now apply (lit_writable "error")); try (now apply (lit_writable "timed out")).
Qed.
Lemma read_report seconds timestamp strip n rs : (forall z, Forall plain (seconds z)) -> Forall plain timestamp -> writable n ->
  (forall r, In r rs -> writable (f_name r) /\ writable (strip (output_text r))) ->
  exists d, read_xml (write_xml seconds timestamp (collect strip n rs)) = Some d /\ tells_all as_read strip rs d.
Proof.
  intros S T N R. rewrite collect_is, write_xml_wr, read_tree; [|apply tree_wf|now apply tree_writable]. eexists. split; [reflexivity|]. apply tree_tells.
Qed.

Lemma in_escape c x : In c x -> xml_char c = false -> In c (escape x).
Proof.
  intros I X. unfold escape. apply in_flat_map. exists c. split; auto. unfold escape_char. special c; try (apply N.eqb_eq in E60; subst; discriminate); try (apply N.eqb_eq in E62; subst; discriminate);
    try (apply N.eqb_eq in E39; subst; discriminate); try (apply N.eqb_eq in E38; subst; discriminate); try (apply N.eqb_eq in E34; subst; discriminate). now left.
Qed.
Lemma in_attr c n x : In c x -> xml_char c = false -> In c (attr n x).
Proof. intros I X. unfold attr. do 3 (apply in_or_app; right). apply in_or_app; left. now apply in_escape. Qed.
Lemma refused_name seconds timestamp strip n rs r c : In r rs -> In c (f_name r) -> xml_char c = false ->
  read_xml (write_xml seconds timestamp (collect strip n rs)) = None.
Proof.
  intros I C X. unfold read_xml. replace (forallb xml_char _) with false; [reflexivity|]. symmetry. apply not_true_is_false. intros F. rewrite forallb_forall in F.
  rewrite F in X; [discriminate|]. rewrite collect_is. unfold write_xml, suite_xml. cbn [j_cases j_name]. do 2 (apply in_or_app; right). apply in_or_app; left. do 10 (apply in_or_app; right).
  destruct (map (junit_case strip) rs) as [|c0 l] eqn:M.
  { apply map_eq_nil in M. subst. destruct I. }
  apply in_or_app; right. apply in_or_app; left. rewrite <- M, flat_map_concat_map, map_map, <- flat_map_concat_map. apply in_flat_map. exists r. split; auto.
  unfold case_xml. apply in_or_app; right. apply in_or_app; left. apply in_attr; auto. unfold junit_case. destruct (f_status r); exact C.
Qed.
Lemma string_writable strip r : strips strip -> a_string (output_text r) -> (forall c, In c (output_text r) -> c <> 65534 /\ c <> 65535) -> writable (strip (output_text r)).
Proof.
  intros S A N. apply Forall_forall. intros c I. destruct (S _ _ I) as [J K]. unfold a_string in A. rewrite Forall_forall in A. specialize (A c J). destruct (N c J) as [N1 N2].
  unfold scalar in A. unfold xml_char. destruct K as [K| ->]; [|reflexivity].
  rewrite !orb_true_iff, !andb_true_iff, !N.leb_le, !N.eqb_eq. lia.
Qed.
Lemma tells_ext reads reads' strip rs d :
  (forall r, In r rs -> reads (f_name r) = reads' (f_name r) /\ reads (strip (output_text r)) = reads' (strip (output_text r))) ->
  tells_all reads strip rs d -> tells_all reads' strip rs d.
Proof.
  intros H [A (s & B & C & D & E)]. split; auto. exists s. split; [|split; [|split]]; auto. clear A B C E.
  induction D as [|r e rs es T D IH]; constructor; [|apply IH; intros q I; apply H; now right].
  destruct (H r (or_introl eq_refl)) as [X Y]. unfold output_text in Y. unfold tells in *. rewrite <- X, <- Y. exact T.
Qed.

Lemma plain_read x : Forall plain x -> as_read x = x.
Proof. intros F. apply as_read_plain. eapply Forall_impl; [|exact F]. intros c (L & _). lia. Qed.
Lemma tree_times seconds timestamp strip rs : (forall z, Forall plain (seconds z)) -> Forall plain timestamp ->
  tells_times seconds timestamp rs (mapv as_read (tree seconds timestamp {| j_name := t_suite; j_cases := map (junit_case strip) rs |})).
Proof.
  intros S T. exists (mapv as_read (suite_tree seconds timestamp {| j_name := t_suite; j_cases := map (junit_case strip) rs |})), (map (fun r => c_time (junit_case strip r)) rs).
  split; [reflexivity|]. split; [reflexivity|]. split; [|split; [|split]].
  - rewrite <- (plain_read timestamp T) at 2. reflexivity.
  - induction rs as [|r rs IH]; cbn [map]; constructor; auto. pose proof (ReportersProofs.cases_say strip [r]) as X. cbn [map] in X. inversion X as [|? ? ? ? (_ & _ & SK & _ & _ & Z0 & TM) _]; subst.
    clear - SK Z0 TM. unfold junit_case in *. destruct (f_status r); cbn [c_verdict c_time] in *; auto; apply TM; discriminate.
  - unfold suite_tree. cbn [mapv children j_cases]. rewrite !map_map. apply map_ext. intros r. unfold case_tree. cbn [mapv map fst snd].
    rewrite <- (plain_read (seconds (c_time (junit_case strip r)))) at 2 by auto. reflexivity.
  - transitivity (Some (as_read (seconds (junit_time {| j_name := t_suite; j_cases := map (junit_case strip) rs |})))); [reflexivity|].
    rewrite plain_read by auto. unfold junit_time. cbn [j_cases]. rewrite map_map. reflexivity.
Qed.
Lemma read_times seconds timestamp strip rs : (forall z, Forall plain (seconds z)) -> Forall plain timestamp ->
  (forall r, In r rs -> writable (f_name r) /\ writable (strip (output_text r))) ->
  exists d, read_xml (write_xml seconds timestamp (collect strip t_suite rs)) = Some d /\ tells_times seconds timestamp rs d.
Proof.
  intros S T R. rewrite collect_is, write_xml_wr, read_tree; [|apply tree_wf|apply tree_writable; auto; unfold t_suite; repeat constructor]. eexists. split; [reflexivity|]. now apply (tree_times seconds timestamp strip).
Qed.
