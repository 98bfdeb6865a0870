(** Property C105: names of the variations of the IST files. *)
From Verif Require Import Base SortLib StrLib NameModel NameLemmas BatchModel BatchProps ParamModel IstModel.
From Coq Require Import Qcanon.
Close Scope Qc_scope. Open Scope list_scope.

(** The names of the comparison: parameters and displacements. *)
Definition ist_pars : list (string * string) :=
  [("Ob", "Omb"); ("Ode", "OmDE"); ("Om", "Omm"); ("h", "h"); ("ns", "ns"); ("s8", "sigma8"); ("w0", "w0"); ("wa", "wa")]%string.
Definition ist_disps : list (string * (Z * Z)) :=
  [("6p3E-3", (1, 625)); ("1p3E-2", (2, 1250)); ("1p9E-2", (3, 1875)); ("2p5E-2", (4, 2500)); ("3p8E-2", (5, 3750)); ("5p0E-2", (6, 5000)); ("1p0E-1", (7, 10000))]%string%Z.
Definition sgn (minus : bool) (k : Z) : Z := if minus then (- k)%Z else k.
Definition sign_text (minus : bool) : string := if minus then "_mn_eps_" else "_pl_eps_".
Definition eps_shape (e : string) : Prop := exists a b c, is_digit a = true /\ is_digit b = true /\ is_digit c = true /\
  e = String a (String "p" (String b (String "E" (String "-" (String c ""))))).
(** [s] names a variation: a name of letters and digits, the sign, the size. *)
Definition names_var (s pre name : string) (minus : bool) (eps post : string) : Prop :=
  s = (pre ++ name ++ sign_text minus ++ eps ++ post)%string /\ name <> ""%string /\ all_chars is_alnum name = true /\ eps_shape eps.

Lemma span_spec f r : let (d, r') := span f r in r = (d ++ r')%string /\ all_chars f d = true /\ match r' with EmptyString => True | String a _ => f a = false end.
Proof.
  induction r as [|a r IH]; [cbn; auto|]. cbn [span]. destruct (f a) eqn:E; [|cbn; auto].
  destruct (span f r) as [d r']. destruct IH as (-> & A & B). cbn. rewrite E. auto.
Qed.
Lemma match_eps_shape e post : eps_shape e -> match_eps (e ++ post) = Some e.
Proof. intros (a & b & c & A & B & C & ->). cbn. rewrite A, B, C. reflexivity. Qed.
Lemma match_eps_inv s e : match_eps s = Some e -> eps_shape e /\ exists post, s = (e ++ post)%string.
Proof.
  destruct s as [|a [|p [|b [|x [|m [|c s]]]]]]; try discriminate. cbn [match_eps]. intros H.
  destruct (is_digit a) eqn:A; [|discriminate H]. destruct (Ascii.eqb_spec p "p") as [->|]; [|discriminate H]. destruct (is_digit b) eqn:B; [|discriminate H].
  destruct (Ascii.eqb_spec x "E") as [->|]; [|discriminate H]. destruct (Ascii.eqb_spec m "-") as [->|]; [|discriminate H]. destruct (is_digit c) eqn:C; [|discriminate H].
  cbn [andb] in H. injection H as <-. split; [exists a, b, c; auto|]. exists s. reflexivity.
Qed.
Lemma match_ist_here name minus eps post : name <> ""%string -> all_chars is_alnum name = true -> eps_shape eps ->
  match_ist (name ++ sign_text minus ++ eps ++ post) = Some (name, minus, eps).
Proof.
  intros N A E. unfold match_ist. assert (B : match (sign_text minus ++ eps ++ post)%string with EmptyString => True | String c _ => is_alnum c = false end) by (destruct minus; reflexivity).
  rewrite (span_app is_alnum name _ A B). destruct name as [|x name]; [congruence|]. cbn [nonempty].
  destruct minus.
  - change (strip_prefix "_mn_eps_" (sign_text true ++ eps ++ post)) with (strip_prefix "_mn_eps_" ("_mn_eps_" ++ eps ++ post)). rewrite strip_prefix_app, match_eps_shape by exact E. reflexivity.
  - assert (Q : strip_prefix "_mn_eps_" (sign_text false ++ eps ++ post) = None) by reflexivity. rewrite Q.
    change (strip_prefix "_pl_eps_" (sign_text false ++ eps ++ post)) with (strip_prefix "_pl_eps_" ("_pl_eps_" ++ eps ++ post)). rewrite strip_prefix_app, match_eps_shape by exact E. reflexivity.
Qed.
Lemma match_ist_inv s name minus eps : match_ist s = Some (name, minus, eps) -> exists post, names_var s "" name minus eps post.
Proof.
  unfold match_ist. pose proof (span_spec is_alnum s) as H. destruct (span is_alnum s) as [n r]. destruct H as (-> & A & _).
  destruct (nonempty n) eqn:N; [|discriminate]. destruct (strip_prefix "_mn_eps_" r) as [r'|] eqn:P.
  - destruct (match_eps r') as [e|] eqn:M; [|discriminate]. cbn [option_map]. intros X. injection X as <- <- <-. apply match_eps_inv in M. destruct M as (Sh & post & ->).
    apply strip_prefix_some in P. subst r. exists post. split; [reflexivity|]. split; [intros ->; discriminate N|auto].
  - destruct (strip_prefix "_pl_eps_" r) as [r'|] eqn:P'; [|discriminate]. destruct (match_eps r') as [e|] eqn:M; [|discriminate]. cbn [option_map]. intros X. injection X as <- <- <-. apply match_eps_inv in M. destruct M as (Sh & post & ->).
    apply strip_prefix_some in P'. subst r. exists post. split; [reflexivity|]. split; [intros ->; discriminate N|auto].
Qed.
Lemma search_var_unfold s : search_var s = match match_ist s with Some x => Some x | None => match s with EmptyString => None | String _ r => search_var r end end.
Proof. destruct s; reflexivity. Qed.
Lemma search_var_spec s : match search_var s with
  | Some (name, minus, eps) => exists pre post, names_var s pre name minus eps post
  | None => forall pre name minus eps post, ~ names_var s pre name minus eps post
  end.
Proof.
  induction s as [|c s IH]; rewrite search_var_unfold.
  - destruct (match_ist "") as [[[n m] e]|] eqn:M; [discriminate M|]. intros pre name minus eps post (E & N & _). destruct name; [congruence|]. destruct pre; cbn in E; discriminate E.
  - destruct (match_ist (String c s)) as [[[n m] e]|] eqn:M.
    + apply match_ist_inv in M. destruct M as (post & V). exists ""%string, post. exact V.
    + destruct (search_var s) as [[[n m] e]|].
      * destruct IH as (pre & post & -> & R). exists (String c pre), post. split; [reflexivity|exact R].
      * intros pre name minus eps post (E & N & A & Sh). destruct pre as [|c' pre].
        -- change ("" ++ ?x)%string with x in E. rewrite E in M. rewrite (match_ist_here name minus eps post N A Sh) in M. discriminate M.
        -- cbn in E. injection E as -> E. apply (IH pre name minus eps post). split; auto.
Qed.
(** Text before the name: without underscores, ending with something that is
    not a letter or digit. *)
Definition lead (pre : string) : Prop := has "_" pre = false /\ (pre = ""%string \/ exists p a, pre = (p ++ String a "")%string /\ is_alnum a = false).
Lemma match_ist_lead c pre q r : lead (String c pre) -> match_ist (String c pre ++ q) = Some r -> False.
Proof.
  intros (U & [C|(p & a & E & Na)]) M; [discriminate C|]. destruct r as [[name minus] eps]. apply match_ist_inv in M. destruct M as (post & V & N & A & _).
  rewrite E in V, U. change ("" ++ ?x)%string with x in V. rewrite has_app in U. apply orb_false_iff in U. destruct U as (Up & Ua).
  clear -V N A Na Up Ua. revert p V Up. induction name as [|x name IH]; [congruence|]. intros p V Up. cbn in A. apply andb_true_iff in A. destruct A as (Ax & A).
  destruct p as [|y p].
  - cbn in V. injection V as -> _. congruence.
  - cbn in V. injection V as -> V. cbn in Up. apply orb_false_iff in Up. destruct Up as (_ & Up).
    destruct name as [|x' name].
    + cbn in V. destruct p as [|y' p]; cbn in V.
      * destruct minus; cbn in V; injection V as -> _; cbn in Ua; discriminate Ua.
      * destruct minus; cbn in V; injection V as -> _; cbn in Up; discriminate Up.
    + apply (IH ltac:(discriminate) A p V Up).
Qed.
Lemma lead_tail c pre : lead (String c pre) -> lead pre.
Proof.
  intros (U & [C|(p & a & E & Na)]); [discriminate C|]. cbn in U. apply orb_false_iff in U. split; [apply U|].
  destruct p as [|y p]; cbn in E; injection E as -> E; [left; exact E|right; exists p, a; auto].
Qed.
Lemma search_var_lead pre q : lead pre -> search_var (pre ++ q) = search_var q.
Proof.
  induction pre as [|c pre IH]; [reflexivity|]. intros L. rewrite search_var_unfold. destruct (match_ist (String c pre ++ q)) eqn:M; [elim (match_ist_lead _ _ _ _ L M)|].
  cbn [append]. apply IH, (lead_tail _ _ L).
Qed.
Lemma search_named pre name minus eps post : lead pre -> name <> ""%string -> all_chars is_alnum name = true -> eps_shape eps ->
  search_var (pre ++ name ++ sign_text minus ++ eps ++ post) = Some (name, minus, eps).
Proof. intros L N A E. rewrite search_var_lead by exact L. rewrite search_var_unfold, match_ist_here by assumption. reflexivity. Qed.

Definition ist_steps : dict Z Qc := stem_dict (ist_reader (mkColl [] [] [] false)).
Lemma steps_eq c : stem_dict (ist_reader c) = ist_steps.
Proof. reflexivity. Qed.

(** A file of the comparison is taken for the parameter and step it is named
    after, and that step is the displacement of the name. *)
Theorem C105_parse c pre name par minus eps k v post : lead pre -> In (name, par) ist_pars -> In (eps, (k, v)) ist_disps ->
  parse_ist (stem_dict (ist_reader c)) (pre ++ name ++ sign_text minus ++ eps ++ post) = Ok (par, sgn minus k) /\
  dget Z.eqb (stem_dict (ist_reader c)) (sgn minus k) = Some (Q2Qc (QArith_base.Qmake (sgn minus v) 100000)).
Proof.
  intros L Hn He. rewrite steps_eq.
  assert (N : name <> ""%string /\ all_chars is_alnum name = true /\ dget String.eqb ist_map name = Some par).
  { cbn [In ist_pars] in Hn. decompose [or] Hn; try contradiction; match goal with X : (_, _) = (_, _) |- _ => injection X; intros; subst end; (split; [discriminate|split; reflexivity]). }
  assert (E : eps_shape eps).
  { cbn [In ist_disps] in He. decompose [or] He; try contradiction; match goal with X : (_, _) = (_, _) |- _ => injection X; intros; subst end;
      match goal with |- eps_shape (String ?a (String _ (String ?b (String _ (String _ (String ?c _)))))) => exists a, b, c; repeat split; reflexivity end. }
  unfold parse_ist. rewrite search_named by (try exact L; try exact E; apply N). destruct N as (_ & _ & ->).
  clear -He. cbn [In ist_disps] in He.
  decompose [or] He; try contradiction; match goal with X : (_, _) = (_, _) |- _ => injection X; intros; subst end; destruct minus; (split; [vm_compute; reflexivity|vm_compute; f_equal; apply Qc_is_canon; reflexivity]).
Qed.
(** Everything that does not name a variation is taken for the fiducial case,
    and nothing else is. *)
Theorem C105_central c s : parse_ist (stem_dict (ist_reader c)) s = Ok ("central"%string, 0%Z) <-> forall pre name minus eps post, ~ names_var s pre name minus eps post.
Proof.
  rewrite steps_eq. unfold parse_ist. pose proof (search_var_spec s) as H. destruct (search_var s) as [[[name minus] eps]|].
  - split.
    + destruct (dget String.eqb ist_stem eps); [|discriminate]. cbn [rbind]. destruct (dget String.eqb ist_map name) as [p|] eqn:P; [|discriminate]. cbn [rbind].
      destruct (dget qc_eqb (inv_stem ist_steps) (if minus then Qcopp q else q)); [|discriminate]. cbn [rbind]. intros X. injection X as -> _. exfalso.
      apply (dget_In _ String.eqb_spec) in P. cbn in P. decompose [or] P; try contradiction; congruence.
    + intros C. destruct H as (pre & post & V). elim (C _ _ _ _ _ V).
  - split; [intros _; exact H|reflexivity].
Qed.
(** Unknown parameters and displacements are refused. *)
Theorem C105_unknown c pre name minus eps post : lead pre -> name <> ""%string -> all_chars is_alnum name = true -> eps_shape eps ->
  (forall par, ~ In (name, par) ist_pars) \/ (forall kv, ~ In (eps, kv) ist_disps) ->
  parse_ist (stem_dict (ist_reader c)) (pre ++ name ++ sign_text minus ++ eps ++ post) = Err EKeyError.
Proof.
  intros L N A E H. unfold parse_ist. rewrite search_named by assumption. destruct (dget String.eqb ist_stem eps) as [q|] eqn:Ee; [|reflexivity].
  cbn [rbind]. destruct (dget String.eqb ist_map name) as [par|] eqn:En; [|reflexivity]. exfalso. destruct H as [H|H].
  - apply (H par). apply (dget_In _ String.eqb_spec) in En. exact En.
  - apply (dget_In _ String.eqb_spec) in Ee. unfold ist_stem in Ee. cbn [combine ist_eps map] in Ee. cbn [In] in Ee. unfold ist_disps in H. cbn [In] in H.
    decompose [or] Ee; try contradiction; match goal with X : (_, _) = (_, _) |- _ => injection X; intros; subst end; eapply H; tauto.
Qed.
(** Distinct variations never share a step. *)
Theorem C105_injective c pre name par minus eps k v post pre' name' minus' eps' k' v' post' : lead pre -> lead pre' ->
  In (name, par) ist_pars -> In (eps, (k, v)) ist_disps -> In (name', par) ist_pars -> In (eps', (k', v')) ist_disps ->
  parse_ist (stem_dict (ist_reader c)) (pre ++ name ++ sign_text minus ++ eps ++ post) = parse_ist (stem_dict (ist_reader c)) (pre' ++ name' ++ sign_text minus' ++ eps' ++ post') ->
  name = name' /\ minus = minus' /\ eps = eps'.
Proof.
  intros L L' Hn He Hn' He'. rewrite (proj1 (C105_parse c _ _ _ _ _ _ _ post L Hn He)), (proj1 (C105_parse c _ _ _ _ _ _ _ post' L' Hn' He')). intros X. injection X as X.
  split; [|split].
  - clear -Hn Hn'. cbn [In ist_pars] in Hn, Hn'. decompose [or] Hn; decompose [or] Hn'; try contradiction; clear Hn Hn';
      repeat match goal with X : (_, _) = (_, _) |- _ => injection X; clear X; intros end; subst; first [reflexivity|discriminate].
  - assert (K : (0 < k)%Z /\ (0 < k')%Z). { clear -He He'. cbn [In ist_disps] in He, He'. decompose [or] He; decompose [or] He'; try contradiction; repeat match goal with X : (_, _) = (_, _) |- _ => injection X; clear X; intros end; lia. }
    destruct minus, minus'; cbn in X; try reflexivity; lia.
  - assert (K : k = k'). { clear -X He He'. assert (0 < k /\ 0 < k')%Z by (cbn [In ist_disps] in He, He'; decompose [or] He; decompose [or] He'; try contradiction; repeat match goal with X : (_, _) = (_, _) |- _ => injection X; clear X; intros end; lia). destruct minus, minus'; cbn in X; lia. }
    subst k'. clear -He He'. cbn [In ist_disps] in He, He'. decompose [or] He; decompose [or] He'; try contradiction; repeat match goal with X : (_, _) = (_, _) |- _ => injection X; clear X; intros end; subst; first [reflexivity|discriminate].
Qed.
(** A displacement written with another number of digits is not noticed: the
    file is taken for the fiducial case. *)
Theorem C105_digits_refuted c : parse_ist (stem_dict (ist_reader c)) "pkz-Om_pl_eps_1p25E-2.txt" = Ok ("central"%string, 0%Z).
Proof. reflexivity. Qed.
Example C105_instance c : parse_ist (stem_dict (ist_reader c)) "pkz-Om_mn_eps_6p3E-3.txt" = Ok ("Omm"%string, (-1)%Z).
Proof.
  refine (proj1 (C105_parse c "pkz-" "Om" "Omm" true "6p3E-3" 1 625 ".txt" _ _ _)); [|cbn; tauto|cbn; tauto].
  split; [reflexivity|]. right. exists "pkz"%string, "-"%char. split; reflexivity.
Qed.

Print Assumptions C105_parse.
Print Assumptions C105_central.
Print Assumptions C105_unknown.
Print Assumptions C105_injective.
Print Assumptions C105_digits_refuted.
