(** Property C106: files of angular coefficients and their headers. *)
From Verif Require Import Base SortLib StrLib NameModel NameLemmas BatchModel BatchProps ParamModel IstModel.
From Coq Require Import Qcanon.
Close Scope Qc_scope. Open Scope nat_scope. Open Scope list_scope.

(** ** Headers *)
Definition first_not_digit (s : string) : Prop := match s with EmptyString => True | String a _ => is_digit a = false end.
Definition no_digit (s : string) : Prop := all_chars (fun a => negb (is_digit a)) s = true.
Definition number (s : string) : Prop := s <> ""%string /\ all_chars is_digit s = true.
Definition value (s : string) : nat := num (chars s).
(** Headers and the pairs of numbers they announce, in order: two numbers with
    one character between them, no line break, or one number right before a last
    digit when nothing can be taken for a second number; any text without digits around
    the pairs. *)
Inductive header : string -> list (nat * nat) -> Prop :=
| h_end t : no_digit t -> header t []
| h_wide t i c j r ps : no_digit t -> number i -> number j -> is_digit c = false -> c <> newline -> first_not_digit r -> header r ps ->
    header (t ++ i ++ String c (j ++ r)) ((value i, value j) :: ps)
| h_compact t i j r ps : no_digit t -> number i -> is_digit j = true ->
    match r with EmptyString => True | String c r' => is_digit c = false /\ (first_not_digit r' \/ c = newline) end -> header r ps ->
    header (t ++ i ++ String j r) ((value i, digit_val j) :: ps).

Lemma skip_app a s : find_pairs (String.length a) (a ++ s) = find_pairs 0 s.
Proof. induction a as [|c a IH]; [reflexivity|]. cbn. exact IH. Qed.
Lemma match_no_digit c s : is_digit c = false -> match_pair (String c s) = None.
Proof.
  intros E. unfold match_pair. cbn [span]. rewrite E. cbn [chars list_ascii_of_string rev app nonempty andb]. destruct (span is_digit s). reflexivity.
Qed.
Lemma pairs_no_digit t s : no_digit t -> find_pairs 0 (t ++ s) = find_pairs 0 s.
Proof.
  induction t as [|c t IH]; [reflexivity|]. unfold no_digit. cbn [all_chars]. intros H. apply andb_true_iff in H. destruct H as (Hc & Ht).
  apply negb_true_iff in Hc. cbn [append find_pairs]. rewrite match_no_digit by exact Hc. exact (IH Ht).
Qed.
Lemma pairs_match s i j a r : s <> ""%string -> match_pair s = Some (i, j, String.length a) -> s = (a ++ r)%string -> a <> ""%string ->
  find_pairs 0 s = (value i, value j) :: find_pairs 0 r.
Proof.
  intros N M E Na. destruct s as [|c s]; [congruence|]. cbn [find_pairs]. rewrite M. f_equal. destruct a as [|c' a]; [congruence|]. cbn in E. injection E as -> ->.
  cbn [String.length]. rewrite Nat.sub_succ, Nat.sub_0_r. apply skip_app.
Qed.
Lemma match_wide i c j r : number i -> number j -> is_digit c = false -> c <> newline -> first_not_digit r ->
  match_pair (i ++ String c (j ++ r)) = Some (i, j, String.length i + 1 + String.length j).
Proof.
  intros (Ni & Di) (Nj & Dj) Ec En Fr. unfold match_pair. rewrite (span_app is_digit i (String c (j ++ r)) Di Ec). rewrite (span_app is_digit j r Dj Fr).
  destruct i as [|x i]; [congruence|]. destruct j as [|y j]; [congruence|]. cbn [nonempty andb]. destruct (Ascii.eqb_spec c newline) as [C|_]; [elim En; exact C|]. reflexivity.
Qed.
Lemma match_compact i j r : number i -> is_digit j = true -> match r with EmptyString => True | String c r' => is_digit c = false /\ (first_not_digit r' \/ c = newline) end ->
  match_pair (i ++ String j r) = Some (i, String j ""%string, String.length i + 1).
Proof.
  intros (Ni & Di) Ej Fr. unfold match_pair.
  assert (Ad : all_chars is_digit (i ++ String j "") = true). { clear -Di Ej. induction i as [|c i IH]; cbn in *; [rewrite Ej; reflexivity|]. apply andb_true_iff in Di. destruct Di as (-> & Di). exact (IH Di). }
  assert (E : (i ++ String j r = (i ++ String j "") ++ r)%string) by (rewrite sapp_assoc; reflexivity). rewrite E.
  rewrite (span_app is_digit (i ++ String j "") r Ad) by (destruct r; [exact I|apply Fr]).
  assert (C : rev (chars (i ++ String j "")) = j :: rev (chars i)). { rewrite chars_app. cbn [chars list_ascii_of_string]. rewrite rev_app_distr. reflexivity. }
  rewrite C. assert (Nr : exists y l, rev (chars i) = y :: l). { destruct (rev (chars i)) as [|y l] eqn:R; [|exists y, l; reflexivity]. exfalso. apply (f_equal (@length _)) in R. rewrite rev_length in R. destruct i; [congruence|discriminate R]. }
  destruct Nr as (y & l & Nr). rewrite Nr. cbv match. rewrite <- Nr, rev_involutive, text_chars.
  assert (Ln : String.length (i ++ String j "") = String.length i + 1) by (rewrite slen_app; reflexivity). rewrite Ln.
  destruct r as [|c r']; [reflexivity|]. destruct Fr as (Fc & [Fr' | ->]); [|destruct (span is_digit r'); rewrite andb_false_r; reflexivity].
  assert (S0 : fst (span is_digit r') = ""%string). { destruct r' as [|a r']; [reflexivity|]. cbn in *. rewrite Fr'. reflexivity. }
  destruct (span is_digit r') as [e v]. cbn in S0. subst e. cbn [nonempty]. rewrite andb_false_r. reflexivity.
Qed.
(** The pairs found in a header are the ones it announces. *)
Lemma header_pairs s ps : header s ps -> find_pairs 0 s = ps.
Proof.
  induction 1 as [t T|t i c j r ps T Ni Nj Ec En Fr H IH|t i j r ps T Ni Ej Fr H IH].
  - rewrite <- (sapp_nil_r t), pairs_no_digit by exact T. reflexivity.
  - rewrite pairs_no_digit by exact T.
    rewrite (pairs_match _ i j (i ++ String c j) r); [rewrite IH; reflexivity| | |rewrite sapp_assoc; reflexivity|].
    + destruct Ni as (Ni & _). destruct i; [congruence|discriminate].
    + rewrite match_wide by assumption. rewrite slen_app. cbn [String.length]. do 2 f_equal. lia.
    + destruct Ni as (Ni & _). destruct i; [congruence|discriminate].
  - rewrite pairs_no_digit by exact T.
    rewrite (pairs_match _ i (String j "") (i ++ String j "") r); [rewrite IH; reflexivity| | |rewrite sapp_assoc; reflexivity|].
    + destruct Ni as (Ni & _). destruct i; [congruence|discriminate].
    + rewrite match_compact by assumption. rewrite slen_app. reflexivity.
    + destruct Ni as (Ni & _). destruct i; [congruence|discriminate].
Qed.

(** ** Files *)
(** Smallest and largest element. *)
Definition smallest (m : nat) (l : list nat) : Prop := In m l /\ forall x, In x l -> m <= x.
Definition largest (m : nat) (l : list nat) : Prop := In m l /\ forall x, In x l -> x <= m.
Lemma lmin_spec l m : smallest m l -> lmin l = m.
Proof.
  intros (I & B). destruct l as [|a l]; [destruct I|]. cbn [lmin].
  assert (G : forall l a, (fold_left Nat.min l a <= a /\ (forall x, In x l -> fold_left Nat.min l a <= x)) /\ (fold_left Nat.min l a = a \/ In (fold_left Nat.min l a) l)).
  { clear. induction l as [|x l IH]; intros a; cbn [fold_left]; [split; [split; [lia|intros x []]|left; reflexivity]|].
    destruct (IH (Nat.min a x)) as ((A & B) & C). split; [split; [lia|]|].
    - intros y [<-|Hy]; [lia|exact (B y Hy)].
    - destruct C as [C|C]; [|right; right; exact C]. rewrite C. destruct (Nat.min_spec a x) as [(_ & ->)|(_ & ->)]; [left; reflexivity|right; left; reflexivity]. }
  destruct (G l a) as ((A & L) & C). apply Nat.le_antisymm.
  - destruct I as [->|I]; [exact A|exact (L m I)].
  - apply B. destruct C as [C|C]; [left; symmetry; exact C|right; exact C].
Qed.
Lemma lmax_spec l m : largest m l -> lmax l = m.
Proof.
  intros (I & B). unfold lmax.
  assert (G : forall l a, (a <= fold_left Nat.max l a /\ (forall x, In x l -> x <= fold_left Nat.max l a)) /\ (fold_left Nat.max l a = a \/ In (fold_left Nat.max l a) l)).
  { clear. induction l as [|x l IH]; intros a; cbn [fold_left]; [split; [split; [lia|intros x []]|left; reflexivity]|].
    destruct (IH (Nat.max a x)) as ((A & B) & C). split; [split; [lia|]|].
    - intros y [<-|Hy]; [lia|exact (B y Hy)].
    - destruct C as [C|C]; [|right; right; exact C]. rewrite C. destruct (Nat.max_spec a x) as [(_ & ->)|(_ & ->)]; [right; left; reflexivity|left; reflexivity]. }
  destruct (G l 0) as ((A & L) & C). apply Nat.le_antisymm; [|exact (L m I)].
  destruct C as [C|C]; [rewrite C; lia|exact (B _ C)].
Qed.

Section Files.
  Context {F : Type} {K : Fld F}.
  Implicit Types data : list (list F).

  Lemma put_other ps : forall (row : list F) m a b, ~ In (a, b) ps -> put ps row m a b = m a b.
  Proof.
    unfold put. induction ps as [|p ps IH]; intros row m a b N; [reflexivity|]. destruct row as [|v row]; [reflexivity|]. cbn [combine fold_left]. rewrite IH by (intros C; apply N; right; exact C).
    cbn [fst snd]. destruct (Nat.eqb_spec a (fst p)) as [->|_]; [|reflexivity]. destruct (Nat.eqb_spec b (snd p)) as [->|_]; [|reflexivity]. elim N. left. destruct p; reflexivity.
  Qed.
  Lemma put_at ps : forall (row : list F) m k a b, NoDup ps -> length row = length ps -> k < length ps -> nth k ps (0, 0) = (a, b) -> put ps row m a b = nth k row fz.
  Proof.
    unfold put. induction ps as [|p ps IH]; intros row m k a b N L Hk E; [cbn in Hk; lia|]. destruct row as [|v row]; [discriminate L|]. inversion N as [|? ? Np Nps]; subst. cbn [combine fold_left].
    destruct k as [|k]; cbn [nth] in *.
    - subst p. fold (put ps row (fun a0 b0 => if Nat.eqb a0 (fst (fst ((a, b), v))) && Nat.eqb b0 (snd (fst ((a, b), v))) then snd ((a, b), v) else m a0 b0)). rewrite put_other by exact Np. cbn [fst snd]. rewrite !Nat.eqb_refl. reflexivity.
    - apply (IH row _ k a b Nps); [cbn in L; lia|cbn in Hk; lia|exact E].
  Qed.

  (** A file with a header for the pairs [ps]: as many value columns, at least
      two multipoles. *)
  Definition cl_file_ok (lines : list string) data (ps : list (nat * nat)) : Prop :=
    (exists l0 r, lines = l0 :: r /\ starts "#" l0 = true) /\ header (join " " (filter (starts "#") lines)) ps /\
    2 <= length data /\ forall r, In r data -> length r = S (length ps).
  (** The numbers start both at 0 or both at the same number. *)
  Definition shift (m n : nat) : nat := if Nat.eqb m 0 then n else n - 1.
  (** The pair of an entry, for a file whose lowest number is [m]. *)
  Definition pair_of (m a b : nat) : nat * nat := if Nat.eqb m 0 then (a, b) else (a + 1, b + 1).
  Lemma shifted_NoDup m ps : (forall i j, In (i, j) ps -> m <= i /\ m <= j) -> NoDup ps -> NoDup (map (fun p => (shift m (fst p), shift m (snd p))) ps).
  Proof.
    intros B N. induction N as [|p ps Np N IH]; [constructor|]. cbn. constructor; [|apply IH; intros; apply B; right; assumption].
    rewrite in_map_iff. intros (q & E & Hq). apply Np. replace p with q; [exact Hq|]. destruct p as [i j], q as [i' j'].
    destruct (B i j (or_introl eq_refl)), (B i' j' (or_intror Hq)). cbn in E. unfold shift in E. destruct (Nat.eqb_spec m 0); injection E as E1 E2; f_equal; lia.
  Qed.
  Lemma shifted_In m ps a b : (forall i j, In (i, j) ps -> m <= i /\ m <= j) -> (In (a, b) (map (fun p => (shift m (fst p), shift m (snd p))) ps) <-> In (pair_of m a b) ps).
  Proof.
    intros B. rewrite in_map_iff. unfold pair_of, shift. split.
    - intros ([i j] & E & H). destruct (B i j H). cbn in E. destruct (Nat.eqb_spec m 0); injection E as E1 E2; replace (_, _) with (i, j); try exact H; f_equal; lia.
    - intros H. destruct (Nat.eqb_spec m 0); [exists (a, b); split; [reflexivity|exact H]|]. exists (a + 1, b + 1). split; [cbn; f_equal; lia|exact H].
  Qed.
  Lemma read_unfold lines data symmetric ps m mi mj : cl_file_ok lines data ps -> NoDup ps -> smallest m (map fst ps) -> smallest m (map snd ps) ->
    largest mi (map fst ps) -> largest mj (map snd ps) -> (symmetric = true -> mi = mj) ->
    let qs := map (fun p => (shift m (fst p), shift m (snd p))) ps in
    let sh := if Nat.eqb m 0 then (mi + 1, mj + 1) else (mi, mj) in
    let M := fun l => let m1 := put qs (tl (nth l data [])) (fun _ _ => fz) in if symmetric then put (map (fun p => (snd p, fst p)) qs) (tl (nth l data [])) m1 else m1 in
    read_cl lines data symmetric = Ok (if fst sh <? snd sh then mkCl (map (fun r => nth 0 r fz) data) (snd sh, fst sh) (fun l a b => M l b a) else mkCl (map (fun r => nth 0 r fz) data) sh M).
  Proof.
    intros ((l0 & r & -> & Hl) & H & L2 & W) N S1 S2 L1 L3 Sy. cbv zeta. unfold read_cl. rewrite Hl. cbn [negb]. unfold header_indices. rewrite (header_pairs _ _ H).
    rewrite (lmin_spec _ _ S1), (lmin_spec _ _ S2), (lmax_spec _ _ L1), (lmax_spec _ _ L3). rewrite Nat.eqb_refl. cbn [negb].
    assert (Wh : length (hd [] data) = S (length ps)). { destruct data as [|x data]; [cbn in L2; lia|]. apply W. left; reflexivity. }
    assert (Np : 1 <= length ps). { destruct ps; [destruct S1 as ([] & _)|cbn; lia]. }
    assert (Q : symmetric && negb (Nat.eqb mi mj) = false). { destruct symmetric; [|reflexivity]. rewrite (Sy eq_refl), Nat.eqb_refl. reflexivity. }
    destruct ps as [|p0 ps0] eqn:Eps; [cbn in Np; lia|]. rewrite <- Eps in *. cbv match. rewrite Q.
    assert (X : forall qs sh, length qs = length ps ->
      (let w := length (hd [] data) in
       if (length data <? 2) || (w <? 2) then Err EIndexError
       else if negb (w - 1 =? length qs) && negb (w - 1 =? 1) then Err EValueError
       else
        let vals := fun l => let r0 := tl (nth l data []) in if w - 1 =? length qs then r0 else repeat (nth 0 r0 fz) (length qs) in
        let m0 := fun l => let m1 := put qs (vals l) (fun _ _ => fz) in if symmetric then put (map (fun p => (snd p, fst p)) qs) (vals l) m1 else m1 in
        let ells := map (fun r0 => nth 0 r0 fz) data in
        if fst sh <? snd sh then Ok (mkCl ells (snd sh, fst sh) (fun l a b => m0 l b a)) else Ok (mkCl ells sh m0)) =
      Ok (if fst sh <? snd sh then mkCl (map (fun r0 => nth 0 r0 fz) data) (snd sh, fst sh) (fun l a b => (let m1 := put qs (tl (nth l data [])) (fun _ _ => fz) in if symmetric then put (map (fun p => (snd p, fst p)) qs) (tl (nth l data [])) m1 else m1) b a)
          else mkCl (map (fun r0 => nth 0 r0 fz) data) sh (fun l => let m1 := put qs (tl (nth l data [])) (fun _ _ => fz) in if symmetric then put (map (fun p => (snd p, fst p)) qs) (tl (nth l data [])) m1 else m1))).
    { intros qs sh Lq. cbv zeta. rewrite Wh, Lq. replace (length data <? 2) with false by (symmetry; apply Nat.ltb_ge; exact L2). replace (S (length ps) <? 2) with false by (symmetry; apply Nat.ltb_ge; lia).
      replace (S (length ps) - 1) with (length ps) by lia. rewrite Nat.eqb_refl. cbn [negb andb orb]. destruct (fst sh <? snd sh); reflexivity. }
    destruct (Nat.eqb_spec m 0) as [E0|E0]; cbn [rbind].
    - assert (Id : map (fun p => (shift m (fst p), shift m (snd p))) ps = ps). { rewrite <- (map_id ps) at 2. apply map_ext. intros [a b]. unfold shift. subst m. reflexivity. }
      rewrite Id. apply (X ps (mi + 1, mj + 1) eq_refl).
    - assert (Id : map (fun p => (shift m (fst p), shift m (snd p))) ps = map (fun p => (fst p - 1, snd p - 1)) ps). { apply map_ext. intros p. unfold shift. destruct (Nat.eqb_spec m 0); [contradiction|reflexivity]. }
      rewrite Id. apply (X (map (fun p => (fst p - 1, snd p - 1)) ps) (mi, mj) (map_length _ _)).
  Qed.
  (** The entry of the file's numbering: the array is transposed when it would
      be wider than long. *)
  Definition entry (A : cl_arr (F := F)) (mi mj l a b : nat) : F := if mi <? mj then c_val A l b a else c_val A l a b.
  Definition bounds (ps : list (nat * nat)) (m mi mj : nat) : Prop :=
    smallest m (map fst ps) /\ smallest m (map snd ps) /\ largest mi (map fst ps) /\ largest mj (map snd ps).
  Lemma bounds_ge ps m mi mj : bounds ps m mi mj -> forall i j, In (i, j) ps -> m <= i /\ m <= j.
  Proof. intros ((_ & A) & (_ & B) & _) i j H. split; [apply A|apply B]; apply in_map_iff; exists (i, j); auto. Qed.
  Definition extent (m n : nat) : nat := if Nat.eqb m 0 then n + 1 else n.
  Lemma extent_lt m mi mj : (extent m mi <? extent m mj) = (mi <? mj).
  Proof. unfold extent. destruct (Nat.eqb m 0); [|reflexivity]. destruct (Nat.ltb_spec mi mj); [apply Nat.ltb_lt|apply Nat.ltb_ge]; lia. Qed.
  Lemma read_entry lines data symmetric ps m mi mj : cl_file_ok lines data ps -> NoDup ps -> bounds ps m mi mj -> (symmetric = true -> mi = mj) ->
    exists A, read_cl lines data symmetric = Ok A /\ c_ells A = map (fun r => nth 0 r fz) data /\
      c_shape A = (if mi <? mj then (extent m mj, extent m mi) else (extent m mi, extent m mj)) /\
      let qs := map (fun p => (shift m (fst p), shift m (snd p))) ps in
      forall l a b, entry A mi mj l a b = (let m1 := put qs (tl (nth l data [])) (fun _ _ => fz) in if symmetric then put (map (fun p => (snd p, fst p)) qs) (tl (nth l data [])) m1 else m1) a b.
  Proof.
    intros Ok N (S1 & S2 & L1 & L2) Sy. rewrite (read_unfold lines data symmetric ps m mi mj Ok N S1 S2 L1 L2 Sy).
    assert (E : (if Nat.eqb m 0 then (mi + 1, mj + 1) else (mi, mj)) = (extent m mi, extent m mj)) by (unfold extent; destruct (Nat.eqb m 0); reflexivity).
    rewrite E. cbn [fst snd]. rewrite extent_lt. eexists. split; [reflexivity|]. unfold entry. destruct (mi <? mj); cbn [c_ells c_shape c_val]; split; try reflexivity; split; reflexivity.
  Qed.
  Lemma row_length data n l : (forall r, In r data -> length r = S n) -> l < length data -> length (tl (nth l data [])) = n /\ forall k, nth k (tl (nth l data [])) fz = nth (S k) (nth l data []) fz.
  Proof.
    intros W Hl. specialize (W (nth l data []) (nth_In _ _ Hl)). destruct (nth l data []) as [|x r]; [discriminate W|]. cbn in *. split; [lia|reflexivity].
  Qed.
  Lemma nth_shift m ps k i j : nth_error ps k = Some (i, j) -> nth k (map (fun p => (shift m (fst p), shift m (snd p))) ps) (0, 0) = (shift m i, shift m j) /\ k < length ps.
  Proof.
    intros H. assert (k < length ps) by (apply nth_error_Some; congruence). split; [|assumption].
    rewrite nth_indep with (d' := (fun p : nat * nat => (shift m (fst p), shift m (snd p))) (0, 0)) by (rewrite map_length; assumption).
    rewrite (map_nth (fun p : nat * nat => (shift m (fst p), shift m (snd p)))). rewrite (nth_error_nth _ _ _ H). reflexivity.
  Qed.

  (** Cross correlations: the k-th value column is the entry of the k-th pair,
      counted from zero, and the remaining entries are zero. *)
  Theorem C106_read lines data ps m mi mj : cl_file_ok lines data ps -> NoDup ps -> bounds ps m mi mj ->
    exists A, read_cl lines data false = Ok A /\ c_ells A = map (fun r => nth 0 r fz) data /\
      c_shape A = (if mi <? mj then (extent m mj, extent m mi) else (extent m mi, extent m mj)) /\
      forall l, l < length data ->
        (forall k i j, nth_error ps k = Some (i, j) -> entry A mi mj l (shift m i) (shift m j) = nth (S k) (nth l data []) fz) /\
        (forall a b, ~ In (pair_of m a b) ps -> entry A mi mj l a b = fz).
  Proof.
    intros Ok N B. destruct (read_entry lines data false ps m mi mj Ok N B ltac:(discriminate)) as (A & E & E1 & E2 & V). exists A. split; [exact E|]. split; [exact E1|]. split; [exact E2|].
    intros l Hl. destruct Ok as (_ & _ & _ & W). destruct (row_length data (length ps) l W Hl) as (Lr & Nr). pose proof (bounds_ge _ _ _ _ B) as G. split.
    - intros k i j H. rewrite V. cbv zeta. destruct (nth_shift m ps k i j H) as (Hk & Lk). rewrite (put_at _ _ _ k _ _ (shifted_NoDup m ps G N)); [apply Nr|rewrite map_length; exact Lr|rewrite map_length; exact Lk|exact Hk].
    - intros a b H. rewrite V. cbv zeta. rewrite put_other; [reflexivity|]. rewrite (shifted_In m ps a b G). exact H.
  Qed.
  (** Auto correlations: the column also is the mirrored entry, and this is
      decided last. *)
  Theorem C106_symmetric lines data ps m mx : cl_file_ok lines data ps -> NoDup ps -> bounds ps m mx mx ->
    exists A, read_cl lines data true = Ok A /\ c_ells A = map (fun r => nth 0 r fz) data /\ c_shape A = (extent m mx, extent m mx) /\
      forall l, l < length data ->
        (forall k i j, nth_error ps k = Some (i, j) -> c_val A l (shift m j) (shift m i) = nth (S k) (nth l data []) fz /\
           (~ In (j, i) ps -> c_val A l (shift m i) (shift m j) = nth (S k) (nth l data []) fz)) /\
        (forall a b, ~ In (pair_of m a b) ps -> ~ In (pair_of m b a) ps -> c_val A l a b = fz).
  Proof.
    intros Ok N B. destruct (read_entry lines data true ps m mx mx Ok N B ltac:(reflexivity)) as (A & E & E1 & E2 & V). exists A. split; [exact E|]. split; [exact E1|].
    rewrite Nat.ltb_irrefl in E2. split; [exact E2|]. unfold entry in V. rewrite Nat.ltb_irrefl in V. cbv zeta in V.
    intros l Hl. destruct Ok as (_ & _ & _ & W). destruct (row_length data (length ps) l W Hl) as (Lr & Nr). pose proof (bounds_ge _ _ _ _ B) as G.
    pose proof (shifted_NoDup m ps G N) as Nq. pose proof (shifted_In m ps) as Iq. set (qs := map (fun p => (shift m (fst p), shift m (snd p))) ps) in *.
    assert (Nm : NoDup (map (fun p : nat * nat => (snd p, fst p)) qs)).
    { apply FinFun.Injective_map_NoDup; [|exact Nq]. intros [a b] [c d] X. cbn in X. congruence. }
    assert (Im : forall a b, In (a, b) (map (fun p : nat * nat => (snd p, fst p)) qs) <-> In (b, a) qs).
    { intros a b. rewrite in_map_iff. split; [intros ([c d] & X & H); cbn in X; injection X as <- <-; exact H|intros H; exists (b, a); auto]. }
    assert (Lq : length qs = length ps) by apply map_length.
    split.
    - intros k i j H. destruct (nth_shift m ps k i j H) as (Hk & Lk). fold qs in Hk. split.
      + rewrite V. rewrite (put_at _ _ _ k _ _ Nm); [apply Nr|rewrite map_length; congruence|rewrite map_length; congruence|].
        rewrite nth_indep with (d' := (fun p : nat * nat => (snd p, fst p)) (0, 0)) by (rewrite map_length; congruence). rewrite (map_nth (fun p : nat * nat => (snd p, fst p))), Hk. reflexivity.
      + intros Nj. rewrite V. rewrite put_other.
        * rewrite (put_at _ _ _ k _ _ Nq); [apply Nr|congruence|congruence|exact Hk].
        * rewrite Im, (Iq _ _ G). destruct (G i j (nth_error_In _ _ H)). intros C. apply Nj. replace (j, i) with (pair_of m (shift m j) (shift m i)); [exact C|].
          unfold pair_of, shift. destruct (Nat.eqb_spec m 0); [reflexivity|]. f_equal; lia.
    - intros a b H1 H2'. rewrite V, put_other by (rewrite Im, (Iq _ _ G); exact H2'). rewrite put_other; [reflexivity|]. rewrite (Iq _ _ G). exact H1.
  Qed.
  (** A file with both of two mirrored entries therefore comes back with the
      two exchanged. *)
  Theorem C106_mirrored lines data ps m mx k k' i j : cl_file_ok lines data ps -> NoDup ps -> bounds ps m mx mx ->
    nth_error ps k = Some (i, j) -> nth_error ps k' = Some (j, i) ->
    exists A, read_cl lines data true = Ok A /\ forall l, l < length data -> c_val A l (shift m i) (shift m j) = nth (S k') (nth l data []) fz.
  Proof.
    intros Ok N B _ H'. destruct (C106_symmetric lines data ps m mx Ok N B) as (A & E & _ & _ & V). exists A. split; [exact E|]. intros l Hl. apply (proj1 (V l Hl) k' j i H').
  Qed.
  (** Files the reader refuses: no header line, no pairs, different first
      numbers, different last numbers for an auto correlation, a single
      multipole, another number of columns. *)
  Theorem C106_refused lines data symmetric ps :
    (lines <> [] -> starts "#" (hd ""%string lines) = false -> read_cl lines data symmetric = Err EAssertion) /\
    (forall l0 r, lines = l0 :: r -> starts "#" l0 = true -> header (join " " (filter (starts "#") lines)) ps ->
      (ps = [] -> read_cl lines data symmetric = Err EValueError) /\
      (forall m m', smallest m (map fst ps) -> smallest m' (map snd ps) -> m <> m' -> read_cl lines data symmetric = Err EAssertion) /\
      (forall m mi mj, bounds ps m mi mj ->
         (symmetric = true -> mi <> mj -> read_cl lines data symmetric = Err EException) /\
         ((symmetric = true -> mi = mj) -> length data <= 1 -> read_cl lines data symmetric = Err EIndexError) /\
         ((symmetric = true -> mi = mj) -> 2 <= length data -> 3 <= length (hd [] data) -> length (hd [] data) <> S (length ps) -> read_cl lines data symmetric = Err EValueError))).
  Proof.
    split; [intros N H; destruct lines as [|l0 r]; [congruence|]; cbn [hd] in H; unfold read_cl; rewrite H; reflexivity|].
    intros l0 r -> Hl H. unfold read_cl. rewrite Hl. cbn [negb]. unfold header_indices. rewrite (header_pairs _ _ H). split; [intros ->; reflexivity|]. split.
    - intros m m' S1 S2 N. rewrite (lmin_spec _ _ S1), (lmin_spec _ _ S2). destruct ps as [|p ps]; [destruct S1 as ([] & _)|]. destruct (Nat.eqb_spec m m'); [contradiction|]. reflexivity.
    - intros m mi mj (S1 & S2 & L1 & L2). rewrite (lmin_spec _ _ S1), (lmin_spec _ _ S2), (lmax_spec _ _ L1), (lmax_spec _ _ L2), Nat.eqb_refl. cbn [negb].
      destruct ps as [|p ps]; [destruct S1 as ([] & _)|]. cbv match. split; [|split].
      + intros -> N. destruct (Nat.eqb_spec mi mj); [contradiction|]. reflexivity.
      + intros Sy Ld. assert (Q : symmetric && negb (Nat.eqb mi mj) = false). { destruct symmetric; [|reflexivity]. rewrite (Sy eq_refl), Nat.eqb_refl. reflexivity. }
        rewrite Q. assert (Q2 : (length data <? 2) = true) by (apply Nat.ltb_lt; lia). destruct (Nat.eqb m 0); cbn [rbind]; rewrite Q2; reflexivity.
      + intros Sy Ld Lw Nw. assert (Q : symmetric && negb (Nat.eqb mi mj) = false). { destruct symmetric; [|reflexivity]. rewrite (Sy eq_refl), Nat.eqb_refl. reflexivity. }
        rewrite Q. assert (Q2 : (length data <? 2) = false) by (apply Nat.ltb_ge; lia). assert (Q3 : (length (hd [] data) <? 2) = false) by (apply Nat.ltb_ge; lia).
        destruct (Nat.eqb m 0); cbn [rbind]; rewrite Q2, Q3; cbn [orb]; rewrite ?map_length.
        * destruct (Nat.eqb_spec (length (hd [] data) - 1) (length (p :: ps))); [lia|]. destruct (Nat.eqb_spec (length (hd [] data) - 1) 1); [lia|]. reflexivity.
        * destruct (Nat.eqb_spec (length (hd [] data) - 1) (length (p :: ps))); [lia|]. destruct (Nat.eqb_spec (length (hd [] data) - 1) 1); [lia|]. reflexivity.
  Qed.
End Files.

(** Numbers written without a character between them: pairs with two digits, and
    pairs separated by a single character, are misread. *)
Theorem C106_no_separator_refuted : find_pairs 0 "# l C109 C1010" = [(10, 9); (101, 0)] /\ find_pairs 0 "# 11 12" = [(11, 12)].
Proof. split; reflexivity. Qed.

(** A cross correlation of three by two bins, counted from one and given in
    another order. *)
Definition ex_hdr : string := "# l 1-1 2-1 1-2 3-1 3-2 2-2".
Definition ex_ps : list (nat * nat) := [(1, 1); (2, 1); (1, 2); (3, 1); (3, 2); (2, 2)].
Lemma ex_header : header ex_hdr ex_ps.
Proof.
  refine (h_wide "# l " "1" "-" "1" " 2-1 1-2 3-1 3-2 2-2" _ _ _ _ _ _ _ _); try reflexivity; try (split; [discriminate|reflexivity]); try discriminate.
  refine (h_wide " " "2" "-" "1" " 1-2 3-1 3-2 2-2" _ _ _ _ _ _ _ _); try reflexivity; try (split; [discriminate|reflexivity]); try discriminate.
  refine (h_wide " " "1" "-" "2" " 3-1 3-2 2-2" _ _ _ _ _ _ _ _); try reflexivity; try (split; [discriminate|reflexivity]); try discriminate.
  refine (h_wide " " "3" "-" "1" " 3-2 2-2" _ _ _ _ _ _ _ _); try reflexivity; try (split; [discriminate|reflexivity]); try discriminate.
  refine (h_wide " " "3" "-" "2" " 2-2" _ _ _ _ _ _ _ _); try reflexivity; try (split; [discriminate|reflexivity]); try discriminate.
  refine (h_wide " " "2" "-" "2" "" _ _ _ _ _ _ _ _); try reflexivity; try (split; [discriminate|reflexivity]); try discriminate.
  apply h_end. reflexivity.
Qed.
Example C106_instance (r0 r1 : list Qc) : length r0 = 7 -> length r1 = 7 ->
  exists A, read_cl [ex_hdr; "10 1 2 3 4 5 6"; "20 1 2 3 4 5 6"]%string [r0; r1] false = Ok A /\ c_shape A = (3, 2) /\ c_val A 1 2 1 = nth 5 r1 fz /\ c_val A 0 1 0 = nth 2 r0 fz.
Proof.
  intros L0 L1. destruct (C106_read [ex_hdr; "10 1 2 3 4 5 6"; "20 1 2 3 4 5 6"]%string [r0; r1] ex_ps 1 3 2) as (A & E & _ & Sh & V).
  - split; [exists ex_hdr; eexists; split; reflexivity|]. split; [exact ex_header|]. split; [cbn; lia|]. intros r [<-|[<-|[]]]; assumption.
  - repeat constructor; cbn; intuition discriminate.
  - assert (X : forall l : list nat, (forall x, In x l -> In x [1; 2; 3]) -> In 1 l -> smallest 1 l) by (intros l H I; split; [exact I|intros x Hx; specialize (H x Hx); cbn in H; lia]).
    split; [apply X; cbn; tauto|]. split; [apply X; cbn; tauto|]. split; (split; [cbn; tauto|cbn; lia]).
  - exists A. split; [exact E|]. split; [exact Sh|]. split.
    + exact (proj1 (V 1 ltac:(cbn; lia)) 4 3 2 eq_refl).
    + exact (proj1 (V 0 ltac:(cbn; lia)) 1 2 1 eq_refl).
Qed.

Print Assumptions C106_read.
Print Assumptions C106_symmetric.
Print Assumptions C106_mirrored.
Print Assumptions C106_refused.
Print Assumptions C106_no_separator_refuted.
