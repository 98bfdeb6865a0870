From Verif Require Import Base StrLib SortLib FrameModel KeyModel KeySpec.
Open Scope string_scope.

Definition pkey (k : kind) (p q : probe) : clkey :=
  mkKey (spell k p q) k (match k with Alias => None | _ => Some (pname k p, pname k q) end).
Definition skey (e : spelled) : clkey := pkey (fst e) (fst (snd e)) (snd (snd e)).
Definition same_pair (p q p' q' : probe) : bool := probe_eqb p p' && probe_eqb q q'.

Lemma clkey_spell k p q : clkey_of (spell k p q) = Ok (pkey k p q).
Proof. destruct k, p, q; vm_compute; reflexivity. Qed.
Lemma is_key_iff k p q c : is_key k p q c <-> c = pkey k p q.
Proof. unfold is_key. rewrite clkey_spell. split; congruence. Qed.
Lemma parts_key k p q : to_parts (pkey k p q) = Ok (pname k p, pname k q).
Proof. destruct k; reflexivity. Qed.
Lemma transform_key k k' p q : transform_to k' (pkey k p q) = Ok (pkey k' p q).
Proof. destruct k, k', p, q; vm_compute; reflexivity. Qed.
Lemma from_parts_key k p q : from_parts (pname k p) (pname k q) k = Ok (pkey k p q).
Proof. destruct k, p, q; vm_compute; reflexivity. Qed.
Lemma reverse_pkey k p q : reverse_key (pkey k p q) = Ok (pkey k q p).
Proof. unfold reverse_key. rewrite parts_key. cbn [rbind fst snd]. apply from_parts_key. Qed.
Lemma raw_eqb_spell k p q p' q' : raw_eqb (spell k p q) (spell k p' q') = same_pair p q p' q'.
Proof. destruct k, p, q, p', q'; vm_compute; reflexivity. Qed.
Lemma equiv_key k k' p q p' q' : equivalent_to (pkey k p q) (pkey k' p' q') = Ok (same_pair p q p' q').
Proof.
  unfold equivalent_to. cbn [pkey kkind]. rewrite transform_key. cbn [rbind pkey kkey kkind].
  rewrite raw_eqb_spell. destruct k'; cbn; rewrite andb_true_r; reflexivity.
Qed.
Lemma hash_key k p q : key_hash (pkey k p q) = Ok (spell Short p q).
Proof. unfold key_hash, to_short_raw. rewrite transform_key. reflexivity. Qed.
Lemma tuple_raw_key k p q : to_tuple_raw (pkey k p q) = Ok (pname Alias p, pname Alias q).
Proof. unfold to_tuple_raw. rewrite transform_key. cbn [rbind]. apply parts_key. Qed.
Lemma same_pair_iff p q p' q' : same_pair p q p' q' = true <-> p = p' /\ q = q'.
Proof.
  unfold same_pair. rewrite andb_true_iff. split.
  - intros [H1 H2]. destruct (probe_eqb_spec p p'), (probe_eqb_spec q q'); try discriminate. auto.
  - intros [-> ->]. split; [destruct p'|destruct q']; reflexivity.
Qed.
Lemma same_pair_refl p q : same_pair p q p q = true.
Proof. apply same_pair_iff; auto. Qed.
Lemma pname_eqb k p q : String.eqb (pname k p) (pname k q) = probe_eqb p q.
Proof. destruct k, p, q; reflexivity. Qed.
Lemma auto_key k p q : is_auto (pkey k p q) = Ok (probe_eqb p q).
Proof. unfold is_auto. rewrite parts_key. cbn [rbind fst snd]. rewrite pname_eqb. reflexivity. Qed.

(** ** Dictionaries *)
Section Dict.
  Context {V : Type}.
  Implicit Types d : list (spelled * V).
  Definition kd_of d : list (clkey * V) := map (fun ev => (skey (fst ev), snd ev)) d.
  Fixpoint sfind d (p q : probe) : option V :=
    match d with
    | [] => None
    | ((_, (a, b)), v) :: d' => if same_pair a b p q then Some v else sfind d' p q
    end.
  Fixpoint sput d (e : spelled) (v : V) : list (spelled * V) :=
    match d with
    | [] => [(e, v)]
    | (e', v') :: d' => if same_pair (fst (snd e')) (snd (snd e')) (fst (snd e)) (snd (snd e)) then (e', v) :: d'
                        else (e', v') :: sput d' e v
    end.

  Lemma kd_find_key d k p q :
    kd_find (kd_of d) (spell Short p q) (pkey k p q) =
    match sfind d p q with Some v => Ok v | None => Err EKeyError end.
  Proof.
    induction d as [|[[k' [a b]] v] d IH]; cbn [kd_of map kd_find sfind]; [reflexivity|].
    cbn [fst snd]. unfold skey. cbn [fst snd]. rewrite hash_key, raw_eqb_spell, equiv_key.
    destruct (same_pair a b p q); cbn [rbind]; [reflexivity|exact IH].
  Qed.
  Lemma kd_get_key d k p q :
    kd_get (kd_of d) (pkey k p q) = match sfind d p q with Some v => Ok v | None => Err EKeyError end.
  Proof. unfold kd_get. rewrite hash_key. cbn [rbind]. apply kd_find_key. Qed.
  Lemma kd_put_key d k p q v :
    kd_put (kd_of d) (spell Short p q) (pkey k p q) v = Ok (kd_of (sput d (k, (p, q)) v)).
  Proof.
    induction d as [|[[k' [a b]] w] d IH]; [reflexivity|].
    change (kd_of (((k', (a, b)), w) :: d)) with ((pkey k' a b, w) :: kd_of d). cbn [kd_put sput fst snd].
    rewrite hash_key, raw_eqb_spell, equiv_key, IH.
    destruct (same_pair a b p q); reflexivity.
  Qed.
  Lemma kd_set_key d e v : kd_set (kd_of d) (skey e) v = Ok (kd_of (sput d e v)).
  Proof. destruct e as [k [p q]]. unfold kd_set, skey. cbn [fst snd]. rewrite hash_key. cbn [rbind]. apply kd_put_key. Qed.
  Lemma sfind_sput d e v p q :
    sfind (sput d e v) p q = if same_pair (fst (snd e)) (snd (snd e)) p q then Some v else sfind d p q.
  Proof.
    destruct e as [k [a b]]. cbn [fst snd].
    induction d as [|[[k' [x y]] w] d IH]; cbn [sput sfind fst snd]; [reflexivity|].
    destruct (same_pair x y a b) eqn:E.
    - apply same_pair_iff in E. destruct E as [-> ->]. cbn [sfind]. destruct (same_pair a b p q); reflexivity.
    - cbn [sfind]. destruct (same_pair x y p q) eqn:E2; [|exact IH].
      apply same_pair_iff in E2. destruct E2 as [-> ->].
      destruct (same_pair a b p q) eqn:E3; [|reflexivity].
      apply same_pair_iff in E3. destruct E3 as [-> ->]. rewrite same_pair_refl in E. discriminate.
  Qed.
  Lemma smart_fill_key d acc :
    smart_fill (map (fun ev => (spell1 (fst ev), snd ev)) d) (kd_of acc) =
    Ok (kd_of (fold_left (fun a ev => sput a (fst ev) (snd ev)) d acc)).
  Proof.
    revert acc. induction d as [|[[k [p q]] v] d IH]; intros acc; [reflexivity|].
    cbn [map smart_fill fst snd fold_left]. unfold spell1. cbn [fst snd]. rewrite clkey_spell. cbn [rbind].
    change (pkey k p q) with (skey (k, (p, q))). rewrite kd_set_key. cbn [rbind]. apply IH.
  Qed.
  Lemma sfind_fold d acc p q :
    sfind (fold_left (fun a ev => sput a (fst ev) (snd ev)) d acc) p q =
    fold_left (fun acc ev => let '((_, (a, b)), v) := ev in
                             if probe_eqb a p && probe_eqb b q then Some v else acc) d (sfind acc p q).
  Proof.
    revert acc. induction d as [|[[k [a b]] v] d IH]; intros acc; [reflexivity|].
    cbn [fold_left fst snd]. rewrite IH, sfind_sput. reflexivity.
  Qed.

  Lemma smart_lookup d tr k p q :
    exists sd, smart_of (map (fun ev => (spell1 (fst ev), snd ev)) d) = Ok sd /\
      forall c, is_key k p q c ->
      smart_get tr sd c =
        match stored d p q with
        | Some v => Ok v
        | None => match stored d q p with Some v => Ok (tr v) | None => Err EKeyError end
        end.
  Proof.
    unfold smart_of. change (@nil (clkey * V)) with (kd_of []). rewrite smart_fill_key. eexists. split; [reflexivity|].
    intros c Hc. apply is_key_iff in Hc. subst c.
    unfold smart_get. rewrite kd_get_key, sfind_fold. cbn [sfind]. fold (stored d p q).
    destruct (stored d p q) as [v|]; [reflexivity|]. rewrite reverse_pkey. cbn [rbind].
    rewrite kd_get_key, sfind_fold. cbn [sfind]. fold (stored d q p). destruct (stored d q p); reflexivity.
  Qed.
  Lemma smart_fill_bad (l l' : list (rawkey * V)) r (v : V) acc : (exists e, clkey_of r = Err e) ->
    exists e, smart_fill (l ++ (r, v) :: l') acc = Err e.
  Proof.
    intros (e & He). revert acc. induction l as [|[r' v'] l IH]; intros acc; cbn [app smart_fill].
    - rewrite He. eexists; reflexivity.
    - destruct (clkey_of r') as [k|]; cbn [rbind]; [|eexists; reflexivity].
      destruct (kd_set acc k v') as [acc'|]; cbn [rbind]; [apply IH|eexists; reflexivity].
  Qed.
End Dict.

(** ** Data vectors *)
Lemma rmapM_key {A} (g : clkey -> res A) (h : spelled -> A) l :
  (forall e, g (skey e) = Ok (h e)) -> rmapM g (map skey l) = Ok (map h l).
Proof. intros H. induction l as [|e l IH]; cbn; [reflexivity|]. rewrite H. cbn. rewrite IH. reflexivity. Qed.
Lemma rmapM_map {A B} (f : A -> B) (g : B -> res A) (h : A -> A) l :
  (forall e, g (f e) = Ok (h e)) -> rmapM g (map f l) = Ok (map h l).
Proof. intros H. induction l as [|e l IH]; cbn; [reflexivity|]. rewrite H. cbn. rewrite IH. reflexivity. Qed.
Lemma rmapM_gen {A B C} (f : A -> B) (g : B -> res C) (h : A -> C) l :
  (forall e, In e l -> g (f e) = Ok (h e)) -> rmapM g (map f l) = Ok (map h l).
Proof.
  induction l as [|e l IH]; intros H; cbn; [reflexivity|]. rewrite H by (left; reflexivity). cbn.
  rewrite IH; [reflexivity|]. intros x Hx; apply H; right; exact Hx.
Qed.

Definition frepr (e : spelled) : string :=
  let '(_, (p, q)) := e in
  if probe_eqb p q then pname Alias p else "XC(" ++ pname Alias p ++ "," ++ pname Alias q ++ ")".
Definition brief1 (e : spelled) : string := let '(_, (p, q)) := e in pname Short p ++ pname Short q.

Lemma repr_key e : to_fisher_repr (skey e) = Ok (frepr e).
Proof. destruct e as [k [p q]]. destruct k, p, q; vm_compute; reflexivity. Qed.
Lemma from_repr_key e : from_fisher_repr (frepr e) = Ok (skey (respell Alias e)).
Proof. destruct e as [k [p q]]. destruct p, q; vm_compute; reflexivity. Qed.
Lemma frepr_clean e c : In c ["+"; "["; "]"; ":"]%char -> has c (frepr e) = false.
Proof.
  destruct e as [k [p q]]. intros [<-|[<-|[<-|[<-|[]]]]]; destruct p, q; vm_compute; reflexivity.
Qed.
Lemma name_key l : dv_name (map skey l) = Ok ("[" ++ join "+" (map frepr l) ++ "]").
Proof. unfold dv_name. rewrite (rmapM_key _ frepr) by apply repr_key. reflexivity. Qed.
Lemma make_key l : dv_make (map skey l) = Ok (map skey l).
Proof. unfold dv_make. rewrite name_key. reflexivity. Qed.
Lemma dv_of_key l : dv_of (map spell1 l) = Ok (map skey l).
Proof.
  unfold dv_of. rewrite (rmapM_gen spell1 clkey_of skey); [cbn [rbind]; apply make_key|].
  intros [k [p q]] _. apply clkey_spell.
Qed.
Lemma dv_eq_key l m : dv_eq (map skey l) (map skey m) =
  Ok (forallb (fun xy => same_pair (fst (snd (fst xy))) (snd (snd (fst xy))) (fst (snd (snd xy))) (snd (snd (snd xy)))) (combine l m)).
Proof.
  revert m. induction l as [|[k [p q]] l IH]; intros [|[k' [p' q']] m]; cbn [map dv_eq combine forallb]; try reflexivity.
  unfold skey at 1 2. cbn [fst snd]. rewrite equiv_key. cbn [rbind].
  destruct (same_pair p q p' q'); cbn [andb]; [apply IH|reflexivity].
Qed.
Lemma dv_eq_respell l k : dv_eq (map skey l) (map skey (map (respell k) l)) = Ok true.
Proof.
  rewrite dv_eq_key. f_equal. induction l as [|[k' [p q]] l IH]; cbn [map combine forallb]; [reflexivity|].
  cbn [fst snd respell]. rewrite same_pair_refl. exact IH.
Qed.

Lemma from_name_key l : l <> [] ->
  dv_from_name ("[" ++ join "+" (map frepr l) ++ "]") = Ok (map skey (map (respell Alias) l)).
Proof.
  intros Hn. unfold dv_from_name.
  assert (C : forall c, In c ["+"; "["; "]"; ":"]%char -> c <> "+"%char -> has c (join "+" (map frepr l)) = false).
  { intros c Hc Hne. apply (has_join c "+"%char); [exact Hne|]. intros x Hx. apply in_map_iff in Hx.
    destruct Hx as (e & <- & _). apply frepr_clean; exact Hc. }
  assert (E : remove_char "]" (remove_char "[" ("[" ++ join "+" (map frepr l) ++ "]")) = join "+" (map frepr l)).
  { set (m := join "+" (map frepr l)) in *. rewrite !remove_app.
    rewrite (remove_none "[" m) by (apply C; [cbn; tauto|discriminate]).
    rewrite (remove_none "]" m) by (apply C; [cbn; tauto|discriminate]).
    change (m ++ "" = m). apply sapp_nil_r. }
  rewrite E. change "+" with (cstr "+"%char). rewrite split_join.
  - rewrite (rmapM_gen frepr from_fisher_repr (fun e => skey (respell Alias e))) by (intros e _; apply from_repr_key).
    cbn [rbind]. rewrite <- map_map. apply make_key.
  - destruct l; [congruence|discriminate].
  - intros x Hx. apply in_map_iff in Hx. destruct Hx as (e & <- & _). apply frepr_clean. left; reflexivity.
Qed.

Lemma brief_key l : dv_brief (map skey l) = Ok (join "_" (map brief1 l)).
Proof.
  unfold dv_brief. rewrite (rmapM_key _ brief1); [reflexivity|].
  intros [k [p q]]. destruct k, p, q; vm_compute; reflexivity.
Qed.
Lemma tuple_key_brief e : tuple_key (RStr (brief1 e)) = Ok (skey (respell Alias e)).
Proof. destruct e as [k [p q]]. destruct p, q; vm_compute; reflexivity. Qed.
Lemma from_brief_key l : l <> [] -> dv_from_brief (join "_" (map brief1 l)) = Ok (map skey (map (respell Alias) l)).
Proof.
  intros Hn. unfold dv_from_brief. change "_" with (cstr "_"%char). rewrite split_join.
  - rewrite (rmapM_gen brief1 (fun p => tuple_key (RStr p)) (fun e => skey (respell Alias e))) by (intros e _; apply tuple_key_brief).
    cbn [rbind]. rewrite <- map_map. apply make_key.
  - destruct l; [congruence|discriminate].
  - intros x Hx. apply in_map_iff in Hx. destruct Hx as ([k [p q]] & <- & _). destruct p, q; vm_compute; reflexivity.
Qed.

Lemma findall4_skip a s : is_lower a = false -> findall4 (String a s) = findall4 s.
Proof.
  intros H. destruct s as [|b [|c [|d r]]]; try reflexivity.
  change (findall4 (String a (String b (String c (String d r))))) with
    (if is_lower a && is_lower b && is_lower c && is_lower d
     then String a (String b (String c (String d ""))) :: findall4 r else findall4 (String b (String c (String d r)))).
  rewrite H. reflexivity.
Qed.
Lemma findall4_emit e s : findall4 (brief1 e ++ s) = brief1 e :: findall4 s.
Proof. destruct e as [k [p q]]. destruct p, q; reflexivity. Qed.
Lemma findall4_list l : findall4 (join ", " (map repr_str (map brief1 l)) ++ "]") = map brief1 l.
Proof.
  induction l as [|x l IH]; [reflexivity|]. destruct l as [|y l].
  - cbn [map join String.concat]. unfold repr_str. rewrite !sapp_assoc.
    change ("'" ++ brief1 x ++ "'" ++ "]") with (String "'" (brief1 x ++ "'" ++ "]")).
    rewrite findall4_skip by reflexivity. rewrite findall4_emit. reflexivity.
  - change (join ", " (map repr_str (map brief1 (x :: y :: l)))) with
      (repr_str (brief1 x) ++ (", " ++ join ", " (map repr_str (map brief1 (y :: l))))).
    unfold repr_str at 1. rewrite !sapp_assoc.
    match goal with |- findall4 ("'" ++ ?r) = _ => change ("'" ++ r) with (String "'" r) end.
    rewrite findall4_skip by reflexivity. rewrite findall4_emit.
    match goal with |- _ :: findall4 ("'" ++ ", " ++ ?r) = _ => change ("'" ++ ", " ++ r) with (String "'" (String "," (String " " r))) end.
    rewrite !findall4_skip by reflexivity. rewrite IH. reflexivity.
Qed.

Lemma to_string_key l : dv_to_string (map skey l) =
  Ok (("[" ++ join "+" (map frepr l) ++ "]") ++ ": [" ++ join ", " (map repr_str (map brief1 l)) ++ "]").
Proof.
  unfold dv_to_string.
  rewrite (rmapM_key _ (fun e => skey (respell Short e))); cbn [rbind].
  - rewrite <- map_map, name_key. cbn [rbind]. rewrite map_map.
    rewrite (rmapM_gen (fun e => skey (respell Short e)) _ brief1); cbn [rbind].
    + assert (E1 : map frepr (map (respell Short) l) = map frepr l) by (rewrite map_map; apply map_ext; intros [k [p q]]; reflexivity).
      rewrite E1. reflexivity.
    + intros [k [p q]] _. destruct k, p, q; vm_compute; reflexivity.
  - intros [k [p q]]. destruct k, p, q; vm_compute; reflexivity.
Qed.

Lemma from_string_key l :
  dv_from_string (("[" ++ join "+" (map frepr l) ++ "]") ++ ": [" ++ join ", " (map repr_str (map brief1 l)) ++ "]")
  = Ok (map skey (map (respell Alias) l)).
Proof.
  unfold dv_from_string. set (n := "[" ++ join "+" (map frepr l) ++ "]").
  set (t := join ", " (map repr_str (map brief1 l)) ++ "]").
  assert (Hn : has ":" n = false).
  { unfold n. rewrite !has_app. change "+" with (cstr "+"%char). rewrite (has_join ":" "+"); [reflexivity|discriminate|].
    intros x Hx. apply in_map_iff in Hx. destruct Hx as (e & <- & _). apply frepr_clean. cbn; tauto. }
  assert (Ht : has ":" t = false).
  { unfold t. rewrite has_app. cbn [has Ascii.eqb Bool.eqb orb]. rewrite orb_false_r || idtac.
    assert (J : forall m, (forall x, In x m -> has ":" x = false) -> has ":" (join ", " m) = false).
    { unfold join. induction m as [|x m IH]; intros H; [reflexivity|]. destruct m as [|y m].
      - cbn. apply H; left; reflexivity.
      - change (String.concat ", " (x :: y :: m)) with (x ++ (", " ++ String.concat ", " (y :: m))).
        rewrite !has_app, (H x) by (left; reflexivity). rewrite IH; [reflexivity|]. intros z Hz; apply H; right; exact Hz. }
    rewrite J; [reflexivity|]. intros x Hx. apply in_map_iff in Hx. destruct Hx as (y & <- & Hy).
    apply in_map_iff in Hy. destruct Hy as ([k [p q]] & <- & _). destruct p, q; vm_compute; reflexivity. }
  change (n ++ ": [" ++ t) with (n ++ String ":" (" [" ++ t)). rewrite split_app by exact Hn.
  rewrite split_none by (rewrite has_app, Ht; reflexivity).
  change (" [" ++ t) with (String " " (String "[" t)). rewrite !findall4_skip by reflexivity.
  unfold t. rewrite findall4_list.
  rewrite (rmapM_gen brief1 (fun p => tuple_key (RStr p)) (fun e => skey (respell Alias e))) by (intros e _; apply tuple_key_brief).
  cbn [rbind]. rewrite <- map_map. apply make_key.
Qed.

(** ** Acceptance *)
Lemma match_pair_iff alts sep s :
  (exists m, match_pair alts sep s = Some m) <-> exists p q r, In p alts /\ In q alts /\ s = (p ++ sep ++ q) ++ r.
Proof.
  unfold match_pair. split.
  - intros ([p q] & H). apply find_some in H. destruct H as [Hi Hs]. cbn [fst snd] in Hs. apply in_prod_iff in Hi.
    apply starts_iff in Hs. destruct Hs as (r & ->). exists p, q, r. tauto.
  - intros (p & q & r & Hp & Hq & ->).
    destruct (find _ _) as [m|] eqn:E; [eexists; reflexivity|]. exfalso.
    apply (find_none _ _ E (p, q)) in Hp || (assert (H := find_none _ _ E (p, q)); cbn [fst snd] in H).
    assert (T : starts (p ++ sep ++ q) ((p ++ sep ++ q) ++ r) = true) by (apply starts_iff; eexists; reflexivity).
    rewrite T in H. discriminate H. apply in_prod; assumption.
Qed.
Lemma alts_probe k p : In p (match k with Long => long_alts | Short => short_alts | Alias => alias_alts end) <-> exists x, p = pname k x.
Proof.
  split.
  - destruct k; cbn; intros [<-|[<-|[<-|[<-|[]]]]];
      solve [exists Ph; reflexivity|exists Sp; reflexivity|exists Wl; reflexivity|exists Vd; reflexivity].
  - intros (x & ->). destruct k, x; cbn; tauto.
Qed.
Lemma accepted_iff s : is_ok (clkey_of (RStr s)) = true <->
  exists k p q t r, spell k p q = RStr t /\ s = t ++ r.
Proof.
  assert (HL := match_pair_iff long_alts "_" s). assert (HS := match_pair_iff short_alts "" s).
  unfold clkey_of. cbn [infer_kind]. unfold long_match, short_match. split.
  - destruct (match_pair long_alts "_" s) as [m|].
    + intros _. destruct (proj1 HL (ex_intro _ m eq_refl)) as (p & q & r & Hp & Hq & ->).
      apply (alts_probe Long) in Hp, Hq. destruct Hp as (x & ->), Hq as (y & ->).
      exists Long, x, y. eexists. exists r. split; reflexivity.
    + destruct (match_pair short_alts "" s) as [m|]; [|discriminate]. intros _.
      destruct (proj1 HS (ex_intro _ m eq_refl)) as (p & q & r & Hp & Hq & ->).
      apply (alts_probe Short) in Hp, Hq. destruct Hp as (x & ->), Hq as (y & ->).
      exists Short, x, y. eexists. exists r. split; reflexivity.
  - intros (k & x & y & t & r & E & ->). destruct k; cbn in E; [| |discriminate]; injection E as <-.
    + destruct (proj2 HL) as (m & ->); [|reflexivity]. exists (pname Long x), (pname Long y), r.
      split; [apply (alts_probe Long); eauto|]. split; [apply (alts_probe Long); eauto|reflexivity].
    + destruct (match_pair long_alts "_" _) as [m'|]; [reflexivity|].
      destruct (proj2 HS) as (m & ->); [|reflexivity]. exists (pname Short x), (pname Short y), r.
      split; [apply (alts_probe Short); eauto|]. split; [apply (alts_probe Short); eauto|reflexivity].
Qed.

Lemma dv_eq_iff l m d e : dv_of (map spell1 l) = Ok d -> dv_of (map spell1 m) = Ok e -> length l = length m ->
  exists b, dv_eq d e = Ok b /\ (b = true <-> map pair_of l = map pair_of m).
Proof.
  rewrite !dv_of_key. intros Hd He HL. injection Hd as <-. injection He as <-. rewrite dv_eq_key. eexists. split; [reflexivity|].
  revert m HL. induction l as [|[k [p q]] l IH]; intros [|[k' [p' q']] m] HL; cbn [length] in HL; try discriminate.
  - cbn. tauto.
  - cbn [combine forallb map pair_of fst snd]. injection HL as HL. rewrite andb_true_iff, (IH m HL), same_pair_iff. split.
    + intros [[-> ->] ->]. reflexivity.
    + intros H. injection H as -> -> ->. auto.
Qed.

Lemma equal_hash k k' p q p' q' c d : is_key k p q c -> is_key k' p' q' d ->
  exists b h h', equivalent_to c d = Ok b /\ key_hash c = Ok h /\ key_hash d = Ok h' /\
    (b = true <-> p = p' /\ q = q') /\ (h = h' <-> p = p' /\ q = q').
Proof.
  rewrite !is_key_iff. intros -> ->. rewrite equiv_key, !hash_key. do 3 eexists. repeat (split; [reflexivity|]).
  split; [apply same_pair_iff|]. split.
  - intros H. apply same_pair_iff. rewrite <- (raw_eqb_spell Short), H, raw_eqb_spell. apply same_pair_refl.
  - intros [-> ->]. reflexivity.
Qed.
Lemma reverse_twice k p q c : is_key k p q c ->
  exists r, reverse_key c = Ok r /\ is_key k q p r /\ reverse_key r = Ok c.
Proof. rewrite is_key_iff. intros ->. exists (pkey k q p). rewrite !reverse_pkey. repeat split. apply clkey_spell. Qed.
Lemma reverse_commutes k k' p q c : is_key k p q c ->
  exists x, (r <- reverse_key c ;; transform_to k' r) = Ok x /\ (t <- transform_to k' c ;; reverse_key t) = Ok x /\
    is_key k' q p x.
Proof.
  rewrite is_key_iff. intros ->. exists (pkey k' q p). rewrite reverse_pkey, transform_key. cbn [rbind].
  rewrite transform_key, reverse_pkey. repeat split. apply clkey_spell.
Qed.
Lemma name_round l d : l <> [] -> dv_of (map spell1 l) = Ok d ->
  exists s d', dv_name d = Ok s /\ dv_from_name s = Ok d' /\ dv_eq d d' = Ok true /\ length d' = length d /\
    dv_of (map spell1 (map (respell Alias) l)) = Ok d'.
Proof.
  intros Hl. rewrite !dv_of_key. intros H. injection H as <-. eexists. eexists. split; [apply name_key|].
  split; [apply from_name_key; exact Hl|]. split; [apply dv_eq_respell|]. rewrite !map_length. auto.
Qed.
Lemma brief_round l d : l <> [] -> dv_of (map spell1 l) = Ok d ->
  exists s d', dv_brief d = Ok s /\ dv_from_brief s = Ok d' /\ dv_eq d d' = Ok true /\ length d' = length d /\
    dv_of (map spell1 (map (respell Alias) l)) = Ok d'.
Proof.
  intros Hl. rewrite !dv_of_key. intros H. injection H as <-. eexists. eexists. split; [apply brief_key|].
  split; [apply from_brief_key; exact Hl|]. split; [apply dv_eq_respell|]. rewrite !map_length. auto.
Qed.
Lemma string_round l d : dv_of (map spell1 l) = Ok d ->
  exists s d', dv_to_string d = Ok s /\ dv_from_string s = Ok d' /\ dv_eq d d' = Ok true /\ length d' = length d /\
    dv_of (map spell1 (map (respell Alias) l)) = Ok d'.
Proof.
  rewrite !dv_of_key. intros H. injection H as <-. eexists. eexists. split; [apply to_string_key|].
  split; [apply from_string_key|]. split; [apply dv_eq_respell|]. rewrite !map_length. auto.
Qed.
Lemma dv_eq_prefix l m d e : dv_of (map spell1 l) = Ok d -> dv_of (map spell1 (l ++ m)) = Ok e -> dv_eq d e = Ok true.
Proof.
  rewrite !dv_of_key. intros H H'. injection H as <-. injection H' as <-. rewrite dv_eq_key. f_equal.
  induction l as [|[k [p q]] l IH]; [reflexivity|]. cbn [app combine forallb fst snd]. rewrite same_pair_refl. exact IH.
Qed.
Lemma garbage_accepted : exists s c, clkey_of (RStr s) = Ok c /\ forall k p q, spell k p q <> RStr s.
Proof.
  exists "wlwlgarbage". eexists. split; [vm_compute; reflexivity|]. intros k p q. destruct k, p, q; discriminate.
Qed.
