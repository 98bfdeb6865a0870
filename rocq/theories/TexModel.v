(** Model of seyfert/utils/tex_utils.py:6-105 (TeXTranslator). *)
From Verif Require Import Base SortLib StrLib NameModel KeyModel IniModel.
Open Scope string_scope.

(** 11-19. *)
Definition probe_name_to_tex : dict string string := [
  ("Lensing", "\mathrm{WL}"); ("WL", "\mathrm{WL}");
  ("Void", "\mathrm{V}"); ("V", "\mathrm{V}");
  ("PhotometricGalaxy", "\mathrm{GC_{ph}}"); ("GCph", "\mathrm{GC_{ph}}");
  ("SpectroscopicGalaxy", "\mathrm{GC_{sp}}"); ("GCsp", "\mathrm{GC_{sp}}");
  ("GCsp(Pk)", "\mathrm{GC_{sp}}(P_k)");
  ("XC", "\mathrm{XC}");
  ("IST_GCsp", "\mathrm{GC_{sp}}")].
(** 27-42. *)
Definition phys_par_name_to_tex : dict string string := [
  ("w0", "w_0"); ("wa", "w_a"); ("mnu", "M_\nu[\mathrm{eV}]"); ("Omm", "\Omega_m"); ("OmDE", "\Omega_{DE}"); ("Omb", "\Omega_b");
  ("sigma8", "\sigma_8"); ("ns", "n_s"); ("h", "h"); ("gamma", "\gamma"); ("aIA", "\mathcal{A}_{\rm IA}"); ("etaIA", "\eta_{\rm IA}");
  ("betaIA", "\beta_{\rm IA}"); ("FoM", "\mathrm{FoM}")].
(** 43-48. *)
Definition cosmology_name_to_tex : dict string string := [
  ("LCDM", "\Lambda\mathrm{CDM}");
  ("mnu_LCDM", "\nu\Lambda\mathrm{CDM}"); ("mnuLCDM", "\nu\Lambda\mathrm{CDM}");
  ("w0_wa_CDM", "w_0w_a\mathrm{CDM}"); ("w0waCDM", "w_0w_a\mathrm{CDM}");
  ("mnu_w0_wa_CDM", "\nu w_0w_a\mathrm{CDM}"); ("mnuw0waCDM", "\nu w_0w_a\mathrm{CDM}")].
(** 49-51: {v: k for k, v in ...}. *)
Definition inverse (d : dict string string) : dict string string := fold_left (fun acc kv => dset String.eqb acc (snd kv) (fst kv)) d [].
Definition probe_tex_to_name := inverse probe_name_to_tex.
Definition cosmo_par_tex_to_name := inverse phys_par_name_to_tex.
Definition cosmology_tex_to_name := inverse cosmology_name_to_tex.

(** 53-60. *)
Definition probe_to_tex (name : string) : res string :=
  if has "+" name
  then l <- rmapM (dgetr probe_name_to_tex) (map strip (split_char "+" name)) ;; Ok (join "+" l)
  else dgetr probe_name_to_tex name.
(** 62-68. *)
Definition probe_from_tex (tex : string) : res string :=
  if has "+" tex
  then l <- rmapM (fun p => dgetr probe_tex_to_name (strip p)) (split_char "+" tex) ;; Ok (join "+" l)
  else dgetr probe_name_to_tex tex.
(** 70-74. *)
Definition cosmo_par_to_tex (name : string) : res string := dgetr phys_par_name_to_tex name.
Definition cosmo_par_from_tex (tex : string) : res string := dgetr cosmo_par_tex_to_name tex.
(** 8: bg(ph|sp)([0-9]) at the start of the name. *)
Definition match_bias (s : string) : option (string * string) :=
  let get r := match r with String d _ => if is_digit d then Some (String d "") else None | _ => None end in
  match strip_prefix "bgph" s with
  | Some r => option_map (pair "ph") (get r)
  | None => match strip_prefix "bgsp" s with
            | Some r => option_map (pair "sp") (get r)
            | None => None
            end
  end.
(** 76-93, for a name without "_".  The return in the finally block discards
    the KeyError. *)
Definition phys_par_text (before s : string) : string :=
  match dget String.eqb phys_par_name_to_tex s with
  | Some t => t
  | None => match match_bias s with
            | Some (b, i) => "b^{\mathrm{" ++ b ++ "}}_{" ++ i ++ "}"
            | None => before
            end
  end.
Definition dollars (b : bool) (s : string) : string := if b then "$" ++ s ++ "$" else s.
(** The recursive calls are on names without "_" and without dollars. *)
Definition phys_par_to_tex (s : string) (include_dollar : bool) : res string :=
  Ok (dollars include_dollar (phys_par_text (if has "_" s then join " " (map (phys_par_text "") (split_char "_" s)) else "") s)).
(** 95-99; the translations of a set form a set. *)
Definition phys_pars_to_tex (l : list string) (include_dollar : bool) : res (list string) := rmapM (fun s => phys_par_to_tex s include_dollar) l.
(** 101-105. *)
Definition cosmology_to_tex (name : string) : res string := dgetr cosmology_name_to_tex name.
Definition cosmology_from_tex (tex : string) : res string := dgetr cosmology_tex_to_name tex.
