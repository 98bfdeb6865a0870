(** Properties C31-C34: probe-pair keys and data vectors. *)
From Verif Require Import Base StrLib SortLib FrameModel KeyModel KeySpec KeyLemmas.
Open Scope string_scope.

(** ** C31 *)
Theorem C31_accepted k p q : exists c, is_key k p q c /\ kkey c = spell k p q /\ kkind c = k /\
  to_parts c = Ok (pname k p, pname k q).
Proof. exact (ex_intro _ (pkey k p q) (conj (clkey_spell k p q) (conj eq_refl (conj eq_refl (parts_key k p q))))). Qed.
Theorem C31_conversion k k' p q c : is_key k p q c -> exists c', transform_to k' c = Ok c' /\ is_key k' p q c'.
Proof.
  exact (fun H => eq_ind_r (fun c => exists c', transform_to k' c = Ok c' /\ is_key k' p q c')
    (ex_intro _ (pkey k' p q) (conj (transform_key k k' p q) (clkey_spell k' p q))) (proj1 (is_key_iff k p q c) H)).
Qed.
(** Equality and hash look at the pair only. *)
Theorem C31_equal_and_hash k k' p q p' q' c d : is_key k p q c -> is_key k' p' q' d ->
  exists b h h', equivalent_to c d = Ok b /\ key_hash c = Ok h /\ key_hash d = Ok h' /\
    (b = true <-> p = p' /\ q = q') /\ (h = h' <-> p = p' /\ q = q').
Proof. exact (equal_hash k k' p q p' q' c d). Qed.
Theorem C31_reverse k p q c : is_key k p q c ->
  exists r, reverse_key c = Ok r /\ is_key k q p r /\ reverse_key r = Ok c.
Proof. exact (reverse_twice k p q c). Qed.
Theorem C31_reverse_commutes k k' p q c : is_key k p q c ->
  exists x, (r <- reverse_key c ;; transform_to k' r) = Ok x /\ (t <- transform_to k' c ;; reverse_key t) = Ok x /\
    is_key k' q p x.
Proof. exact (reverse_commutes k k' p q c). Qed.

(** ** C32 *)
Theorem C32_lookup {V} (d : list (spelled * V)) tr k p q :
  exists sd, smart_of (map (fun ev => (spell1 (fst ev), snd ev)) d) = Ok sd /\
    forall c, is_key k p q c ->
    smart_get tr sd c =
      match stored d p q with
      | Some v => Ok v
      | None => match stored d q p with Some v => Ok (tr v) | None => Err EKeyError end
      end.
Proof. exact (smart_lookup d tr k p q). Qed.
Theorem C32_malformed_key_rejected {V} (l l' : list (rawkey * V)) r v : (exists e, clkey_of r = Err e) ->
  exists e, smart_of (l ++ (r, v) :: l') = Err e.
Proof. exact (smart_fill_bad l l' r v []). Qed.

(** ** C33 *)
Theorem C33_name l d : l <> [] -> dv_of (map spell1 l) = Ok d ->
  exists s d', dv_name d = Ok s /\ dv_from_name s = Ok d' /\ dv_eq d d' = Ok true /\ length d' = length d /\
    dv_of (map spell1 (map (respell Alias) l)) = Ok d'.
Proof. exact (name_round l d). Qed.
Theorem C33_brief l d : l <> [] -> dv_of (map spell1 l) = Ok d ->
  exists s d', dv_brief d = Ok s /\ dv_from_brief s = Ok d' /\ dv_eq d d' = Ok true /\ length d' = length d /\
    dv_of (map spell1 (map (respell Alias) l)) = Ok d'.
Proof. exact (brief_round l d). Qed.
Theorem C33_printed l d : dv_of (map spell1 l) = Ok d ->
  exists s d', dv_to_string d = Ok s /\ dv_from_string s = Ok d' /\ dv_eq d d' = Ok true /\ length d' = length d /\
    dv_of (map spell1 (map (respell Alias) l)) = Ok d'.
Proof. exact (string_round l d). Qed.
(** The empty data vector has a name and a brief text that do not parse. *)
Theorem C33_empty_refuted : exists s, dv_of [] = Ok [] /\ dv_name [] = Ok s /\ dv_from_name s = Err EException /\
  dv_brief [] = Ok "" /\ dv_from_brief "" = Err EKeyError.
Proof. exact (ex_intro _ "[]" (conj eq_refl (conj eq_refl (conj eq_refl (conj eq_refl eq_refl))))). Qed.

(** ** C34 *)
Theorem C34_same_length_partial l m d e : dv_of (map spell1 l) = Ok d -> dv_of (map spell1 m) = Ok e -> length l = length m ->
  exists b, dv_eq d e = Ok b /\ (b = true <-> map pair_of l = map pair_of m).
Proof. exact (dv_eq_iff l m d e). Qed.
(** A data vector equals every extension of itself. *)
Theorem C34_prefix_refuted l m d e : dv_of (map spell1 l) = Ok d -> dv_of (map spell1 (l ++ m)) = Ok e -> dv_eq d e = Ok true.
Proof. exact (dv_eq_prefix l m d e). Qed.
(** The exact set of accepted texts: anything that begins with a key. *)
Theorem C34_accepted_texts s : is_ok (clkey_of (RStr s)) = true <->
  exists k p q t r, spell k p q = RStr t /\ s = t ++ r.
Proof. exact (accepted_iff s). Qed.
Theorem C34_garbage_accepted_refuted : exists s c, clkey_of (RStr s) = Ok c /\ forall k p q, spell k p q <> RStr s.
Proof. exact garbage_accepted. Qed.

(** ** Concrete cases *)
Example C31_ex : is_key Long Ph Wl (mkKey (RStr "PhotometricGalaxy_Lensing") Long (Some ("PhotometricGalaxy", "Lensing"))) /\
  is_key Short Ph Wl (mkKey (RStr "phwl") Short (Some ("ph", "wl"))) /\
  is_key Alias Ph Wl (mkKey (RTup ["GCph"; "WL"]) Alias None).
Proof. repeat split. Qed.
Example C32_ex : let d := [((Long, (Wl, Ph)), 1); ((Short, (Ph, Ph)), 2); ((Alias, (Wl, Ph)), 3)]%nat in
  stored d Wl Ph = Some 3%nat /\ stored d Ph Wl = None /\ stored d Ph Ph = Some 2%nat /\
  (exists e, clkey_of (RStr "foo") = Err e).
Proof. repeat split. exists EKeyError. reflexivity. Qed.
Example C33_ex : exists d, dv_of (map spell1 [(Long, (Wl, Wl)); (Short, (Ph, Wl)); (Alias, (Ph, Ph))]) = Ok d /\
  dv_name d = Ok "[WL+XC(GCph,WL)+GCph]" /\ dv_brief d = Ok "wlwl_phwl_phph" /\
  dv_to_string d = Ok "[WL+XC(GCph,WL)+GCph]: ['wlwl', 'phwl', 'phph']".
Proof. eexists. split; [reflexivity|]. repeat split; reflexivity. Qed.

Print Assumptions C31_accepted.
Print Assumptions C31_conversion.
Print Assumptions C31_equal_and_hash.
Print Assumptions C31_reverse.
Print Assumptions C31_reverse_commutes.
Print Assumptions C32_lookup.
Print Assumptions C32_malformed_key_rejected.
Print Assumptions C33_name.
Print Assumptions C33_brief.
Print Assumptions C33_printed.
Print Assumptions C33_empty_refuted.
Print Assumptions C34_same_length_partial.
Print Assumptions C34_prefix_refuted.
Print Assumptions C34_accepted_texts.
Print Assumptions C34_garbage_accepted_refuted.
