From Verif Require Import Base SortLib StrLib FrameModel KeyModel KeySpec FisherModel FsModel FisherFileModel FisherFileSpec.
Open Scope string_scope.
Open Scope list_scope.

Definition nonempty (s : string) : bool := negb (String.eqb s "").
Lemma nonempty_iff s : nonempty s = true <-> s <> ""%string.
Proof. unfold nonempty. destruct (String.eqb_spec s ""); split; cbn; congruence. Qed.

Section Norm.
  Variable c : ascii.
  Implicit Types l : list string.
  Let us := cstr c.
  Definition dropf : list string -> list string :=
    fix go l := match l with [] => [] | p :: l' => if String.eqb p "" then go l' else l end.
  Fixpoint dropb (l : list string) : list string :=
    match l with
    | [] => []
    | p :: l' => match dropb l' with [] => if String.eqb p "" then [] else [p] | r => p :: r end
    end.
  Lemma join_cons p q l : join us (p :: q :: l) = (p ++ String c (join us (q :: l)))%string.
  Proof. reflexivity. Qed.
  Lemma lstrip_clean p s : has c p = false -> p <> ""%string -> lstrip c (p ++ s) = (p ++ s)%string.
  Proof. destruct p as [|a p]; [congruence|]. cbn. intros H _. apply orb_false_iff in H. destruct H as [H _]. rewrite H. reflexivity. Qed.
  Lemma lstrip_join l : (forall x, In x l -> has c x = false) -> lstrip c (join us l) = join us (dropf l).
  Proof.
    induction l as [|p l IH]; intros H; [reflexivity|]. cbn [dropf].
    destruct (String.eqb_spec p "") as [->|Np].
    - destruct l as [|q l]; [reflexivity|]. rewrite join_cons. cbn [append lstrip]. rewrite Ascii.eqb_refl. apply IH.
      intros x Hx. apply H. right; exact Hx.
    - destruct l as [|q l].
      + cbn. rewrite <- (sapp_nil_r p). apply lstrip_clean; [apply H; left; reflexivity|exact Np].
      + rewrite join_cons. apply lstrip_clean; [apply H; left; reflexivity|exact Np].
  Qed.
  Lemma rstrip_app p s : has c p = false -> rstrip c (p ++ s) = match rstrip c s with EmptyString => p | r => (p ++ r)%string end.
  Proof.
    induction p as [|a p IH]; intros H.
    - cbn. destruct (rstrip c s); reflexivity.
    - cbn in H. apply orb_false_iff in H. destruct H as [Ha Hp]. cbn [append rstrip]. rewrite (IH Hp).
      destruct (rstrip c s) as [|b r].
      + destruct p; [rewrite Ha; reflexivity|reflexivity].
      + destruct p; reflexivity.
  Qed.
  Lemma rstrip_join l : (forall x, In x l -> has c x = false) -> rstrip c (join us l) = join us (dropb l).
  Proof.
    induction l as [|p l IH]; intros H; [reflexivity|].
    assert (Hp : has c p = false) by (apply H; left; reflexivity).
    assert (Hl : forall x, In x l -> has c x = false) by (intros x Hx; apply H; right; exact Hx).
    specialize (IH Hl). destruct l as [|q l].
    - cbn [join String.concat dropb]. rewrite <- (sapp_nil_r p) at 1. rewrite rstrip_app by exact Hp. cbn [rstrip].
      destruct (String.eqb_spec p "") as [->|]; reflexivity.
    - rewrite join_cons, rstrip_app by exact Hp. cbn [rstrip]. rewrite IH. cbn [dropb] in *.
      destruct (match dropb l with [] => if (q =? "")%string then [] else [q] | s :: l0 => q :: s :: l0 end) as [|w r] eqn:E.
      + cbn. rewrite Ascii.eqb_refl. destruct (String.eqb_spec p "") as [->|]; reflexivity.
      + assert (Nw : join us (w :: r) <> ""%string).
        { clear -E. intros C. destruct r as [|x r].
          - cbn in C. subst w. destruct (dropb l); [destruct (String.eqb_spec q ""); [discriminate|congruence]|discriminate].
          - rewrite join_cons in C. destruct w; discriminate C. }
        destruct (join us (w :: r)) as [|b s] eqn:Ej; [congruence|]. rewrite join_cons, Ej. reflexivity.
  Qed.
  Lemma squeeze_app p s : has c p = false -> squeeze c (p ++ s) = (p ++ squeeze c s)%string.
  Proof.
    induction p as [|a p IH]; intros H; [reflexivity|]. cbn in H. apply orb_false_iff in H. destruct H as [Ha Hp].
    cbn [append squeeze]. rewrite (IH Hp), Ha. reflexivity.
  Qed.
  Definition ends_word (l : list string) : Prop := exists l' w, l = l' ++ [w] /\ w <> ""%string.
  Lemma squeeze_join l : (forall x, In x l -> has c x = false) -> ends_word l ->
    squeeze c (String c (join us l)) = String c (join us (filter nonempty l)) /\ filter nonempty l <> [].
  Proof.
    induction l as [|p l IH]; intros H E; [destruct E as ([|x l'] & w & E & _); discriminate E|].
    assert (Hp : has c p = false) by (apply H; left; reflexivity).
    assert (Hl : forall x, In x l -> has c x = false) by (intros x Hx; apply H; right; exact Hx).
    destruct l as [|q l].
    - destruct E as ([|x l'] & w & E & Nw); [|destruct l'; discriminate E]. injection E as ->.
      cbn [filter]. rewrite (proj2 (nonempty_iff w) Nw). split; [|discriminate]. cbn [join String.concat squeeze].
      rewrite Ascii.eqb_refl. rewrite <- (sapp_nil_r w), squeeze_app by exact Hp. cbn [squeeze]. rewrite sapp_nil_r.
      destruct w as [|a w]; [congruence|]. cbn in Hp. apply orb_false_iff in Hp. destruct Hp as [Ha _]. cbv beta iota. rewrite Ha. reflexivity.
    - assert (E' : ends_word (q :: l)).
      { destruct E as ([|x l'] & w & E & Nw); [discriminate E|]. injection E as -> E. exists l', w. split; [exact E|exact Nw]. }
      destruct (IH Hl E') as [I1 I2]. rewrite join_cons. cbn [filter]. destruct (String.eqb_spec p "") as [->|Np].
      + cbn [nonempty String.eqb negb append]. change (nonempty "") with false. cbv iota. split; [|exact I2].
        cbn [squeeze]. rewrite Ascii.eqb_refl. cbn [squeeze] in I1. rewrite Ascii.eqb_refl in I1. rewrite I1. rewrite Ascii.eqb_refl. reflexivity.
      + rewrite (proj2 (nonempty_iff p) Np). split; [|discriminate]. cbn [squeeze]. rewrite Ascii.eqb_refl.
        rewrite squeeze_app by exact Hp. cbn [filter] in I1, I2. rewrite I1.
        destruct p as [|a p]; [congruence|]. cbn in Hp. apply orb_false_iff in Hp. destruct Hp as [Ha _]. cbv beta iota. cbn [append]. rewrite Ha.
        destruct (if nonempty q then q :: filter nonempty l else filter nonempty l) as [|w r]; [congruence|]. reflexivity.
  Qed.
  Lemma filter_dropf l : filter nonempty (dropf l) = filter nonempty l.
  Proof.
    induction l as [|p l IH]; [reflexivity|]. cbn [dropf]. destruct (String.eqb_spec p "") as [->|Np]; [|reflexivity].
    rewrite IH. reflexivity.
  Qed.
  Lemma filter_dropb l : filter nonempty (dropb l) = filter nonempty l.
  Proof.
    induction l as [|p l IH]; [reflexivity|]. cbn [dropb filter]. rewrite <- IH. destruct (dropb l) as [|w r].
    - destruct (String.eqb_spec p "") as [->|Np]; reflexivity.
    - reflexivity.
  Qed.
  Lemma dropb_ends l : dropb l = [] \/ ends_word (dropb l).
  Proof.
    induction l as [|p l IH]; [left; reflexivity|]. cbn [dropb]. destruct (dropb l) as [|w r] eqn:E.
    - destruct (String.eqb_spec p "") as [->|Np]; [left; reflexivity|right; exists [], p; split; [reflexivity|exact Np]].
    - right. destruct IH as [C|(l' & v & -> & Nv)]; [discriminate C|]. exists (p :: l'), v. split; [reflexivity|exact Nv].
  Qed.
  Lemma dropf_first l p l' : dropf l = p :: l' -> p <> ""%string.
  Proof.
    induction l as [|q l IH]; [discriminate|]. cbn [dropf]. destruct (String.eqb_spec q "") as [->|Nq]; [exact IH|].
    intros E. injection E as -> _. exact Nq.
  Qed.
  Lemma dropb_first p l' : p <> ""%string -> exists l'', dropb (p :: l') = p :: l''.
  Proof.
    intros Np. cbn [dropb]. destruct (dropb l') as [|w r]; [|eexists; reflexivity].
    destruct (String.eqb_spec p ""); [congruence|eexists; reflexivity].
  Qed.
  Lemma dropf_incl l x : In x (dropf l) -> In x l.
  Proof. induction l as [|q l IH]; [tauto|]. cbn [dropf]. destruct (String.eqb q ""); [intros H; right; exact (IH H)|tauto]. Qed.
  Lemma dropb_incl l x : In x (dropb l) -> In x l.
  Proof.
    induction l as [|q l IH]; [tauto|]. cbn [dropb]. destruct (dropb l) as [|w r].
    - destruct (String.eqb q ""); [intros []|cbn; tauto].
    - intros [->|H]; [left; reflexivity|right; exact (IH H)].
  Qed.
  Lemma norm_join l : (forall x, In x l -> has c x = false) ->
    squeeze c (rstrip c (lstrip c (join us l))) = join us (filter nonempty l).
  Proof.
    intros H. rewrite lstrip_join by exact H.
    assert (H1 : forall x, In x (dropf l) -> has c x = false) by (intros x Hx; apply H, dropf_incl, Hx).
    rewrite rstrip_join by exact H1.
    assert (H2 : forall x, In x (dropb (dropf l)) -> has c x = false) by (intros x Hx; apply H1, dropb_incl, Hx).
    rewrite <- (filter_dropf l), <- (filter_dropb (dropf l)).
    destruct (dropf l) as [|p m] eqn:E; [reflexivity|]. pose proof (dropf_first _ _ _ E) as Np.
    destruct (dropb_first p m Np) as (m' & E'). destruct (dropb_ends (p :: m)) as [C|En]; [congruence|].
    rewrite E' in *. cbn [filter]. rewrite (proj2 (nonempty_iff p) Np).
    destruct m' as [|q m'].
    - cbn. rewrite <- (sapp_nil_r p), squeeze_app; [cbn; rewrite sapp_nil_r; reflexivity|apply H2; left; reflexivity].
    - rewrite join_cons, squeeze_app by (apply H2; left; reflexivity).
      destruct (squeeze_join (q :: m')) as [I1 I2].
      + intros x Hx. apply H2. right; exact Hx.
      + destruct En as ([|x l'] & w & En & Nw); [discriminate En|]. injection En as -> En. exists l', w. split; [exact En|exact Nw].
      + rewrite I1. destruct (filter nonempty (q :: m')) as [|w r]; [congruence|]. reflexivity.
  Qed.
  Lemma norm_split s : squeeze c (rstrip c (lstrip c s)) = join us (filter nonempty (split_char c s)).
  Proof.
    rewrite <- (join_split c s) at 1. apply norm_join. intros x Hx. exact (split_parts _ _ _ Hx).
  Qed.
End Norm.

(** The words of the model's normal form. *)
Lemma smap_app g a b : smap g (a ++ b)%string = (smap g a ++ smap g b)%string.
Proof. induction a as [|x a IH]; cbn; [reflexivity|rewrite IH; reflexivity]. Qed.
Lemma split_app_nil c a b : has c a = false ->
  split_char c (a ++ b)%string = match split_char c b with p :: ps => (a ++ p)%string :: ps | [] => [a] end.
Proof.
  induction a as [|x a IH]; intros H.
  - cbn. destruct (split_char c b) eqn:E; [exfalso; exact (split_nonempty _ _ E)|reflexivity].
  - cbn in H. apply orb_false_iff in H. destruct H as [Hx Ha]. cbn [append split_char]. rewrite Hx, (IH Ha).
    destruct (split_char c b); reflexivity.
Qed.
Lemma sub_sep a : is_sep a = Ascii.eqb (sub_char a) "_".
Proof. destruct a as [[] [] [] [] [] [] [] []]; reflexivity. Qed.
Lemma sub_word a : is_sep a = false -> sub_char a = word_char a.
Proof. destruct a as [[] [] [] [] [] [] [] []]; cbn; intros H; first [discriminate H|reflexivity]. Qed.
Lemma words_model s : forall cur, has "_" cur = false ->
  words_from cur s = filter nonempty (split_char "_" (cur ++ smap sub_char s)%string).
Proof.
  induction s as [|a s IH]; intros cur Hc.
  - cbn [smap]. rewrite sapp_nil_r, split_none by exact Hc. cbn [words_from filter]. unfold nonempty. destruct (String.eqb cur ""); reflexivity.
  - cbn [words_from smap]. rewrite sub_sep. destruct (Ascii.eqb_spec (sub_char a) "_") as [E|E].
    + rewrite E. rewrite split_app by exact Hc. cbn [filter]. unfold nonempty at 1. rewrite (IH ""%string eq_refl). destruct (String.eqb cur ""); reflexivity.
    + assert (Hs : is_sep a = false) by (rewrite sub_sep; destruct (Ascii.eqb_spec (sub_char a) "_"); [contradiction|reflexivity]).
      rewrite <- (sub_word a Hs). rewrite IH.
      * rewrite sapp_assoc. reflexivity.
      * rewrite has_app, Hc. cbn. destruct (Ascii.eqb_spec (sub_char a) "_"); [contradiction|reflexivity].
Qed.
Lemma suffix_words n : fisher_suffix n = join "_" (name_words n).
Proof. unfold fisher_suffix, name_words. rewrite norm_split, words_model by reflexivity. reflexivity. Qed.
Lemma words_from_clean s : forall cur w, has "_" cur = false -> In w (words_from cur s) -> has "_" w = false /\ w <> ""%string.
Proof.
  intros cur w Hc H. rewrite words_model in H by exact Hc. apply filter_In in H. destruct H as [H1 H2].
  split; [exact (split_parts _ _ _ H1)|apply nonempty_iff; exact H2].
Qed.
Lemma sapp_inj_r a b c : (a ++ c = b ++ c)%string -> a = b.
Proof.
  revert b. induction a as [|x a IH]; intros [|y b] H.
  - reflexivity.
  - exfalso. apply (f_equal String.length) in H. cbn in H. rewrite slen_app in H. lia.
  - exfalso. apply (f_equal String.length) in H. cbn in H. rewrite slen_app in H. lia.
  - cbn in H. injection H as -> H. f_equal. exact (IH _ H).
Qed.
Lemma collision_iff n m : fisher_filename n = fisher_filename m <-> name_words n = name_words m.
Proof.
  unfold fisher_filename. split; intros H.
  - apply sapp_inj_l in H. apply sapp_inj_r in H. rewrite !suffix_words in H.
    assert (Cn : forall w, In w (name_words n) -> has "_" w = false /\ w <> ""%string) by (intros w; apply words_from_clean; reflexivity).
    assert (Cm : forall w, In w (name_words m) -> has "_" w = false /\ w <> ""%string) by (intros w; apply words_from_clean; reflexivity).
    destruct (name_words n) as [|v l], (name_words m) as [|w k].
    + reflexivity.
    + exfalso. destruct (Cm w (or_introl eq_refl)) as [_ Nw]. destruct w as [|a w]; [congruence|]. destruct k; discriminate H.
    + exfalso. destruct (Cn v (or_introl eq_refl)) as [_ Nw]. destruct v as [|a v]; [congruence|]. destruct l; discriminate H.
    + rewrite <- (split_join "_" (v :: l)) by (try discriminate; intros x Hx; apply Cn; exact Hx).
      rewrite <- (split_join "_" (w :: k)) by (try discriminate; intros x Hx; apply Cm; exact Hx).
      change (cstr "_") with "_"%string. rewrite H. reflexivity.
  - rewrite !suffix_words, H. reflexivity.
Qed.

(** ** Reading a combination back from the words of its name *)
Fixpoint last_char (s : string) : ascii :=
  match s with EmptyString => "000" | String a EmptyString => a | String _ r => last_char r end.
Lemma last_app a b : b <> ""%string -> last_char (a ++ b) = last_char b.
Proof.
  intros Nb. induction a as [|x a IH]; [reflexivity|]. cbn [append last_char]. rewrite IH.
  destruct (a ++ b)%string eqn:E; [|reflexivity]. destruct a; [cbn in E; congruence|discriminate E].
Qed.
Definition uncomma (a : ascii) : ascii := if Ascii.eqb a "-" then ","%char else a.
Fixpoint dec (l : list string) : string :=
  match l with
  | [] => ""
  | w :: r =>
      let z := last_char w in
      if Ascii.eqb z "+" || Ascii.eqb z "-" then ("] " ++ w ++ " [" ++ dec r)%string
      else if Ascii.eqb z "C" then match r with
                                   | x :: r' => (w ++ "(" ++ smap uncomma x ++ ")" ++ dec r')%string
                                   | [] => ""
                                   end
      else if Ascii.eqb z "k" then ("(Pk)" ++ dec r)%string
      else (w ++ dec r)%string
  end.
Definition pw (p q : probe) : string := (pname Alias p ++ "-" ++ pname Alias q)%string.
Fixpoint dw (cur : string) (e : entry) (l : list entry) : list string :=
  match e with
  | EAuto p => match l with [] => [(cur ++ pname Alias p)%string] | e' :: l' => dw (cur ++ pname Alias p ++ "+") e' l' end
  | EXc p q => (cur ++ "XC")%string :: pw p q :: match l with [] => [] | e' :: l' => dw "+" e' l' end
  | EPk => (cur ++ "GCsp")%string :: "Pk"%string :: match l with [] => [] | e' :: l' => dw "+" e' l' end
  end.
Lemma dec_dw l : forall cur e rest,
  dec (dw cur e l ++ rest) = (cur ++ join "+" (map entry_name (e :: l)) ++ dec rest)%string.
Proof.
  induction l as [|e' l IH]; intros cur e rest; destruct e as [p|p q|]; cbn [dw map].
  - cbn [app dec]. rewrite last_app by (destruct p; discriminate). cbn [join String.concat].
    destruct p; cbn; rewrite !sapp_assoc; reflexivity.
  - cbn [app dec]. rewrite last_app by discriminate. cbn [join String.concat]. destruct p, q; cbn; rewrite !sapp_assoc; reflexivity.
  - cbn [app dec]. rewrite last_app by discriminate. cbn. rewrite !sapp_assoc. reflexivity.
  - rewrite IH. destruct p; cbn [entry_name pname map]; rewrite !sapp_assoc; reflexivity.
  - cbn [app dec]. rewrite last_app by discriminate. rewrite IH. destruct p, q; cbn; rewrite !sapp_assoc; reflexivity.
  - cbn [app dec]. rewrite last_app by discriminate. rewrite IH. cbn. rewrite !sapp_assoc. reflexivity.
Qed.
Definition vw (d : vect) : list string := dw "" (fst d) (snd d).
Lemma flush cur a r : is_sep a = true ->
  words_from cur (String a r) = (if String.eqb cur "" then [] else [cur]) ++ words_from "" r.
Proof. intros H. cbn [words_from]. rewrite H. destruct (String.eqb cur ""); reflexivity. Qed.
Fixpoint noseps (s : string) : bool := match s with EmptyString => true | String a r => negb (is_sep a) && noseps r end.
Lemma words_app w : forall cur s, noseps w = true -> words_from cur (w ++ s)%string = words_from (cur ++ smap word_char w)%string s.
Proof.
  induction w as [|a w IH]; intros cur s H; cbn [append smap].
  - rewrite sapp_nil_r. reflexivity.
  - cbn [noseps] in H. apply andb_true_iff in H. destruct H as [Ha Hw]. cbn [words_from]. apply negb_true_iff in Ha. rewrite Ha.
    rewrite IH by exact Hw. rewrite sapp_assoc. reflexivity.
Qed.
Lemma eqb_app_nil a b : b <> ""%string -> String.eqb (a ++ b) "" = false.
Proof. intros H. destruct (String.eqb_spec (a ++ b) ""); [|reflexivity]. destruct a; [cbn in e; congruence|discriminate e]. Qed.
Lemma words_dw l : forall cur e a r, is_sep a = true ->
  words_from cur (join "+" (map entry_name (e :: l)) ++ String a r)%string = dw cur e l ++ words_from "" r.
Proof.
  induction l as [|e' l IH]; intros cur e a r Ha.
  - destruct e as [p|p q|]; cbn [map join String.concat entry_name].
    + rewrite words_app by (destruct p; reflexivity). rewrite flush by exact Ha.
      rewrite eqb_app_nil by (destruct p; discriminate). destruct p; reflexivity.
    + replace (("XC(" ++ pname Alias p ++ "," ++ pname Alias q ++ ")") ++ String a r)%string
        with ("XC" ++ String "(" ((pname Alias p ++ "," ++ pname Alias q) ++ String ")" (String a r)))%string
        by (destruct p, q; reflexivity).
      rewrite words_app by reflexivity. rewrite flush by reflexivity. rewrite eqb_app_nil by discriminate.
      rewrite words_app by (destruct p, q; reflexivity). rewrite flush by reflexivity. rewrite flush by exact Ha.
      destruct p, q; reflexivity.
    + replace ("GCsp(Pk)" ++ String a r)%string with ("GCsp" ++ String "(" ("Pk" ++ String ")" (String a r)))%string by reflexivity.
      rewrite words_app by reflexivity. rewrite flush by reflexivity. rewrite eqb_app_nil by discriminate.
      rewrite words_app by reflexivity. rewrite flush by reflexivity. rewrite flush by exact Ha. reflexivity.
  - assert (E : join "+" (map entry_name (e :: e' :: l)) = (entry_name e ++ "+" ++ join "+" (map entry_name (e' :: l)))%string) by reflexivity.
    rewrite E. clear E. rewrite !sapp_assoc. destruct e as [p|p q|]; cbn [dw].
    + rewrite words_app by (destruct p; reflexivity). rewrite (words_app "+"%string) by reflexivity. rewrite IH by exact Ha.
      rewrite sapp_assoc. destruct p; reflexivity.
    + cbn [entry_name]. rewrite !sapp_assoc.
      match goal with |- words_from cur ("XC(" ++ ?A ++ "," ++ ?B ++ ")" ++ ?R)%string = _ =>
        replace ("XC(" ++ A ++ "," ++ B ++ ")" ++ R)%string with ("XC" ++ String "(" ((A ++ "," ++ B) ++ String ")" R))%string
          by (rewrite !sapp_assoc; reflexivity) end.
      rewrite words_app by reflexivity. rewrite flush by reflexivity. rewrite eqb_app_nil by discriminate.
      rewrite words_app by (destruct p, q; reflexivity). rewrite flush by reflexivity.
      rewrite (words_app "+"%string) by reflexivity. rewrite IH by exact Ha. destruct p, q; reflexivity.
    + cbn [entry_name].
      match goal with |- words_from cur ("GCsp(Pk)" ++ ?R)%string = _ =>
        replace ("GCsp(Pk)" ++ R)%string with ("GCsp" ++ String "(" ("Pk" ++ String ")" R))%string by reflexivity end.
      rewrite words_app by reflexivity. rewrite flush by reflexivity. rewrite eqb_app_nil by discriminate.
      rewrite words_app by reflexivity. rewrite flush by reflexivity. rewrite (words_app "+"%string) by reflexivity. rewrite IH by exact Ha. reflexivity.
Qed.
Definition cw (c : comb) : list string := vw (fst c) ++ flat_map (fun bd => op_name (fst bd) :: vw (snd bd)) (snd c).
Lemma words_comb c : name_words (comb_name c) = cw c.
Proof.
  destruct c as [d ops]. unfold comb_name, cw, name_words. cbn [fst snd].
  assert (V : forall d r, words_from "" (vect_name d ++ r)%string = vw d ++ words_from "" r).
  { intros [e l] r. unfold vect_name. cbn [fst snd]. rewrite !sapp_assoc. cbn [append]. rewrite flush by reflexivity.
    cbn [String.eqb app]. apply words_dw. reflexivity. }
  rewrite V. f_equal. induction ops as [|[b d'] ops IH]; [reflexivity|]. cbn [map flat_map fst snd].
  replace (String.concat "" ((" " ++ op_name b ++ " " ++ vect_name d') :: map (fun bd => (" " ++ op_name (fst bd) ++ " " ++ vect_name (snd bd))) ops))%string
    with (" " ++ op_name b ++ " " ++ vect_name d' ++ String.concat "" (map (fun bd => (" " ++ op_name (fst bd) ++ " " ++ vect_name (snd bd))) ops))%string.
  2:{ destruct ops; cbn [map String.concat]; rewrite ?sapp_nil_r, ?sapp_assoc; reflexivity. }
  rewrite <- IH. match goal with |- context [String.concat "" ?m] => generalize (String.concat "" m) end. intros T.
  cbn [append]. rewrite flush by reflexivity. cbn [String.eqb app].
  rewrite words_app by (destruct b; reflexivity). rewrite flush by reflexivity. rewrite eqb_app_nil by (destruct b; discriminate).
  rewrite V. destruct b; reflexivity.
Qed.
Lemma dec_comb c : ("[" ++ dec (cw c) ++ "]")%string = comb_name c.
Proof.
  destruct c as [d ops]. unfold cw, comb_name. cbn [fst snd].
  assert (V : forall d rest, dec (vw d ++ rest) = (join "+" (map entry_name (fst d :: snd d)) ++ dec rest)%string).
  { intros [e l] rest. unfold vw. rewrite dec_dw. reflexivity. }
  rewrite V. unfold vect_name at 1. rewrite !sapp_assoc. f_equal. f_equal. clear d.
  induction ops as [|[b d'] ops IH]; [reflexivity|]. cbn [flat_map map fst snd app].
  replace (String.concat "" ((" " ++ op_name b ++ " " ++ vect_name d') :: map (fun bd => (" " ++ op_name (fst bd) ++ " " ++ vect_name (snd bd))) ops))%string
    with (" " ++ op_name b ++ " " ++ vect_name d' ++ String.concat "" (map (fun bd => (" " ++ op_name (fst bd) ++ " " ++ vect_name (snd bd))) ops))%string.
  2:{ destruct ops; cbn [map String.concat]; rewrite ?sapp_nil_r, ?sapp_assoc; reflexivity. }
  assert (D : dec (op_name b :: (vw d' ++ flat_map (fun bd => op_name (fst bd) :: vw (snd bd)) ops))
              = ("] " ++ op_name b ++ " [" ++ dec (vw d' ++ flat_map (fun bd => op_name (fst bd) :: vw (snd bd)) ops))%string) by (destruct b; reflexivity).
  rewrite D, V. rewrite !sapp_assoc. cbn [append]. unfold vect_name at 1. rewrite !sapp_assoc. cbn [append].
  f_equal. f_equal. f_equal. f_equal. f_equal. f_equal. exact IH.
Qed.
Lemma filename_inj c c' : fisher_filename (comb_name c) = fisher_filename (comb_name c') -> comb_name c = comb_name c'.
Proof. intros H. apply collision_iff in H. rewrite !words_comb in H. rewrite <- !dec_comb, H. reflexivity. Qed.
