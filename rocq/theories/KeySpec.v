(** Vocabulary of the statements about keys: the four probes and their spellings. *)
From Verif Require Import Base StrLib KeyModel.
Open Scope string_scope.

Inductive probe := Ph | Sp | Wl | Vd.
Definition probe_eqb (p q : probe) : bool :=
  match p, q with Ph, Ph | Sp, Sp | Wl, Wl | Vd, Vd => true | _, _ => false end.
Lemma probe_eqb_spec p q : reflect (p = q) (probe_eqb p q).
Proof. destruct p, q; cbn; constructor; congruence. Qed.
Definition pname (k : kind) (p : probe) : string :=
  match k, p with
  | Long, Ph => "PhotometricGalaxy" | Long, Sp => "SpectroscopicGalaxy" | Long, Wl => "Lensing" | Long, Vd => "Void"
  | Short, Ph => "ph" | Short, Sp => "sp" | Short, Wl => "wl" | Short, Vd => "vd"
  | Alias, Ph => "GCph" | Alias, Sp => "GCsp" | Alias, Wl => "WL" | Alias, Vd => "V"
  end.
(** The three spellings of a pair. *)
Definition spell (k : kind) (p q : probe) : rawkey :=
  match k with
  | Long => RStr (pname Long p ++ "_" ++ pname Long q)
  | Short => RStr (pname Short p ++ pname Short q)
  | Alias => RTup [pname Alias p; pname Alias q]
  end.
(** [c] is a key object for the pair (p,q), written in spelling k. *)
Definition is_key (k : kind) (p q : probe) (c : clkey) : Prop := clkey_of (spell k p q) = Ok c.
(** Spelled pairs and the data vector they make. *)
Definition spelled := (kind * (probe * probe))%type.
Definition spell1 (e : spelled) : rawkey := spell (fst e) (fst (snd e)) (snd (snd e)).
Definition pair_of (e : spelled) : probe * probe := snd e.
Definition respell (k : kind) (e : spelled) : spelled := (k, snd e).
(** What a dictionary stores for a pair: the last value bound to one of its spellings. *)
Definition stored {V} (d : list (spelled * V)) (p q : probe) : option V :=
  fold_left (fun acc ev => let '((_, (a, b)), v) := ev in
                           if probe_eqb a p && probe_eqb b q then Some v else acc) d None.
