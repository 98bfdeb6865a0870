(** Property C103, continued: when the final results are complete, and what a
    second run into the same directory does. *)
From Verif Require Import Base MatInv LabLin SortLib StrLib FrameModel FrameLemmas FisherModel FisherSpec FisherLemmas FisherLemmas2 FisherLemmas5 RealInst FsModel FisherFileModel FileLemmas2 TableModel NameModel
  HeapModel ResultsModel ResultsSpec HeapLemmas ResultsLemmas ResultsLemmas2 ResultsLemmas3 ResultsProps ResultsProps2 WsLemmas OutModel OutLemmas OutLemmas2 OutLemmas3 OutLemmas4 OutProps OutProps2.
From Coq Require Import Permutation Qcanon Reals.
Close Scope Qc_scope. Close Scope R_scope. Open Scope list_scope.

Section Props.
  Context {F : Type} {K : Fld F} {O : OFld (F := F)} {S : SqrtFld F} {SO : SetOrder}.
  Context (csv xlsx : table (F := F) -> h5 F).
  Implicit Types s : fs (h5 F).
  Implicit Types f g : fisher F.

  (** Base matrices and combinations every result set can be made of: positive
      definite, the parameters to fix are in every matrix, combinations are
      sums. *)
  Definition fit s (d : path) (fids : dict string F) (cs : list comb) : Prop :=
    sound s d /\ (exists f, holds s d f) /\ (forall f, holds s d f -> plain (fname f)) /\ (forall x n, In x cs -> needs x n -> plain n) /\
    (forall k k', result_name s d cs k -> result_name s d cs k' -> fisher_filename k = fisher_filename k' -> k = k') /\
    (forall f, holds s d f -> posdef f /\ forall x, In x (dkeys fids) -> ~ varies "LCDM" x -> In x (labels f)) /\
    (forall x on, In x cs -> In on (snd x) -> fst on = true).

  (** The heap holds the base matrices. *)
  Definition based s (d : path) (b : odict) (h : heap F) : Prop :=
    (forall f, holds s d f -> at_key h b (fname f) = Some f) /\ (forall k a, In (k, a) b -> exists f, holds s d f /\ k = fname f /\ view h a = Some f /\ wf f).
  Lemma varies_more c x : In c cosmologies -> varies "LCDM" x -> varies c x.
  Proof. intros Hc [V|[(V & _)|(V & _)]]; [left; exact V|congruence|discriminate V]. Qed.
  Lemma results_exist s d fids cs b h c mb fx : fit s d fids cs -> NoDup (dkeys b) -> NoDup (map snd b) -> based s d b h -> In c cosmologies ->
    exists h' an, create_results b c fids (map cname cs) mb fx h = (h', Ok an).
  Proof.
    intros (Hs & (f0 & Hf0) & Pl & Pc & Dist & Pd & Plus) Nk Na (A & B) Hc.
    apply (C100_positive_definite b c fids cs mb fx h Nk Na).
    - intros ->. specialize (A f0 Hf0). discriminate A.
    - intros k a Hin. destruct (B k a Hin) as (f & Hf & _ & V & W). exists f. split; [exact V|]. split; [exact W|]. destruct (Pd f Hf) as (P1 & P2). split; [exact P1|].
      intros x Hx Nv. apply P2; [exact Hx|]. intros V'. apply Nv. apply varies_more; assumption.
    - intros k Hk. unfold dkeys in Hk. apply in_map_iff in Hk. destruct Hk as ([k' a] & <- & Hin). destruct (B k' a Hin) as (f & Hf & -> & _). apply Pl; exact Hf.
    - exact Pc.
    - exact Plus.
    - destruct Hc as [<-|[<-|[]]]; cbn; auto.
  Qed.
  Lemma one_total s d fids cs main ow b h s1 c mb fx : fit s d fids cs -> NoDup (dkeys b) -> NoDup (map snd b) -> based s d b h -> In c cosmologies ->
    let o := out_dir main c mb fx in free_way s1 o -> (forall n, lookup s1 (o ++ [n]) = None) ->
    exists t an, save_results csv xlsx b fids (map cname cs) main ow c mb fx (h, s1) = (t, Ok an).
  Proof.
    intros Ft Nk Na Hb Hc o Fw Fresh. destruct (results_exist s d fids cs b h c mb fx Ft Nk Na Hb Hc) as (h' & an & Ec).
    destruct Ft as (Hs & _ & Pl & Pc & Dist & _). destruct Hb as (A & B).
    destruct (result_names b h c fids cs mb fx h' an d s Hs Nk Na A B Pl Pc Ec) as (Nk' & Kr & Vn & _ & (te & Te1 & Te2 & _) & _).
    unfold save_results. unfold pbind at 1, on_heap. cbn [fst snd]. rewrite Ec. cbn zeta. change (main ++ [c; variant_dir mb fx]) with o.
    unfold pbind at 1, on_disk. cbn [fst snd]. pose proof (mkdirs_total (rev o) s1) as Mt. rewrite rev_involutive in Mt. specialize (Mt Fw).
    pose proof (mkdirs_isdir (rev o) s1 Mt) as Dm. rewrite rev_involutive in Dm. pose proof (deep_still o o s1 h' (le_n _)) as Sm. unfold still in Sm. cbn [snd] in Sm. unfold p_mkdirs in *.
    destruct (mkdirs_rev (rev o) s1) as [s2 [[]|e]]; [|discriminate Mt]. cbn [fst snd] in *.
    assert (L2 : forall n, lookup s2 (o ++ [n]) = None) by (intros n; exact (eq_trans (Sm n) (Fresh n))).
    assert (El : exists l, Forall2 (fun ka f => view h' (snd ka) = Some f) (an_fishers an) l /\ Forall2 (fun ka f => fname f = fst ka) (an_fishers an) l).
    { clear -Vn. induction (an_fishers an) as [|[k a] b IH]; [exists []; split; constructor|]. destruct IH as (l & P1 & P2); [intros k' a' Hin; apply (Vn k' a'); right; exact Hin|].
      destruct (Vn k a (or_introl eq_refl)) as (t & V & _ & Nt). exists (t :: l). split; constructor; assumption. }
    destruct El as (l & Fa & Fn).
    assert (Nd : NoDup (map (file_of o) l)).
    { apply (Forall2_NoDup l (an_fishers an) (fun f => fname f) (fun k => o ++ [fisher_filename k]) Fn Nk'). intros k k' Q1 Q2 Eq. apply app_inj_tail in Eq. destruct Eq as [_ Eq]. apply Dist; [apply Kr; exact Q1|apply Kr; exact Q2|exact Eq]. }
    pose proof (save_fishers_total o ow (an_fishers an) h' s2 l Dm Fa Nd (fun f _ => L2 _)) as Tf. unfold pbind at 1, save_fishers at 1.
    destruct (peach (fun ka => save_fisher o ow (snd ka)) (an_fishers an) (h', s2)) as [[h3 s3] [[]|e]] eqn:Ef; [|discriminate Tf].
    destruct (save_fishers_inv o ow _ _ _ _ Ef) as (l' & _ & Eh & _ & Kl & _). cbn [fst snd] in Eh, Kl. subst h3.
    assert (D3 : p_isdir s3 o = true).
    { rewrite (isdir_kept s2 s3 o); [exact Dm|]. apply Kl. intros (f & _ & E). symmetry in E. exact (snoc_neq _ _ E). }
    assert (L3 : forall n, In n table_names -> lookup s3 (o ++ [n]) = None).
    { intros n Hn. rewrite Kl; [apply L2|]. intros (f & _ & E). apply app_inj_tail in E. destruct E as [_ E]. exact (filename_not_table _ _ Hn (eq_sym E)). }
    pose proof (save_tables_total csv xlsx o ow an te _ h' s3 Te1 Te2 D3 L3) as Tt. unfold pbind at 1.
    destruct (save_tables csv xlsx o ow an (h', s3)) as [t [[]|e]]; [|discriminate Tt]. exists t, an. reflexivity.
  Qed.
  Lemma free_way_shallow main o (t t' : st (F := F)) : length o <= 2 + length main -> shallow main t t' -> free_way (snd t) o -> free_way (snd t') o.
  Proof.
    intros L Sh W q r E Nq. assert (Lq : length q <= 2 + length main) by (apply (f_equal (@length _)) in E; rewrite app_length in E; lia).
    destruct (Sh q Lq) as [Eq|(_ & Eq)]; [rewrite Eq; exact (W q r E Nq)|right; exact Eq].
  Qed.

  (** With such matrices, into a directory that is new, all six result sets are
      written. *)
  Theorem C103_complete base_dir main fids cs ow h s : fit s base_dir fids cs ->
    (forall q r, main = q ++ r -> q <> [] -> lookup s q = None \/ lookup s q = Some NDir) -> (forall r, r <> [] -> lookup s (main ++ r) = None) ->
    exists h' s', create_final csv xlsx H2 base_dir main fids (map cname cs) ow (h, s) = ((h', s'), Ok tt).
  Proof.
    intros Ft Fw Fresh. pose proof Ft as (Hs & _).
    destruct (load_base_spec h s base_dir Hs) as (h1 & b & l0 & El & Gr & Hl0 & Nk & Na & A & B).
    unfold create_final. cbn [snd]. unfold pbind at 1. rewrite El. unfold pbind at 1, on_disk at 1. cbn [fst snd].
    pose proof (mkdirs_total (rev main) s) as Mt. rewrite rev_involutive in Mt. specialize (Mt Fw). fold (p_mkdirs main s) in Mt.
    pose proof (mkdirs_shallow main main s h1) as Sh0.
    assert (St0 : forall c v, still (out_dir main c (fst v) (snd v)) (h1, s) (h1, fst (p_mkdirs main s))) by (intros c v; apply deep_still; rewrite out_dir_length; lia).
    destruct (p_mkdirs main s) as [s1 [[]|e]]; [|discriminate Mt]. cbn [fst] in *.
    assert (Fw0 : forall c v, free_way s (out_dir main c (fst v) (snd v))).
    { intros c v q r E Nq. destruct (prefix_out main [c; variant_dir (fst v) (snd v)] q) as [(u & ->)|(u & E')]; [exists r; exact E| |].
      - destruct u as [|x u]; [rewrite app_nil_r in *; apply (Fw main []); [rewrite app_nil_r; reflexivity|exact Nq]|left; apply Fresh; discriminate].
      - exact (Fw q u E' Nq). }
    set (common := fun t : st (F := F) => based s base_dir b (fst t) /\ forall c v, free_way (snd t) (out_dir main c (fst v) (snd v))).
    set (new := fun c v (t : st (F := F)) => forall n, lookup (snd t) (out_dir main c (fst v) (snd v) ++ [n]) = None).
    assert (Lv : forall t, common t -> live (fst t) b) by (intros t ((_ & B') & _) k a Hin; destruct (B' k a Hin) as (f & _ & _ & V & _); congruence).
    assert (Step : forall c v t, In c cosmologies -> In v variants -> common t -> new c v t ->
      exists t' an, save_results csv xlsx b fids (map cname cs) main ow c (fst v) (snd v) t = (t', Ok an) /\ common t' /\
        forall c' v', In v' variants -> c' <> c \/ v' <> v -> new c' v' t -> new c' v' t').
    { intros c v [g s2] Hc Hv Ht Hn. destruct (one_total s base_dir fids cs main ow b g s2 c (fst v) (snd v) Ft Nk Na (proj1 Ht) Hc (proj2 Ht c v) Hn) as (t' & an & E).
      exists t', an. split; [exact E|]. split; [split|].
      - pose proof (save_results_heap csv xlsx b fids (map cname cs) main ow c (fst v) (snd v) (g, s2)) as Hk. rewrite E in Hk. cbn [fst] in Hk. specialize (Hk (Lv _ Ht)). cbn [fst] in Hk.
        destruct Ht as ((A' & B') & _). cbn [fst] in *. split.
        + intros f Hf. specialize (A' f Hf). unfold at_key in *. destruct (dget String.eqb b (fname f)); [apply Hk; exact A'|discriminate A'].
        + intros k a Hin. destruct (B' k a Hin) as (f & R1 & R2 & R3 & R4). exists f. auto 6.
      - intros c' v'. pose proof (save_results_shallow csv xlsx b fids (map cname cs) main ow c (fst v) (snd v) (g, s2)) as Sh. rewrite E in Sh. cbn [fst] in Sh.
        apply (free_way_shallow main _ (g, s2)); [rewrite out_dir_length; lia|exact Sh|apply Ht].
      - intros c' v' Hv' N Hn' n. pose proof (save_results_still csv xlsx b fids (map cname cs) main ow c (fst v) (snd v) (out_dir main c' (fst v') (snd v'))) as Sl.
        specialize (Sl (out_dir_length _ _ _ _)). assert (Nd : out_dir main c' (fst v') (snd v') <> out_dir main c (fst v) (snd v)).
        { intros C. apply out_dir_inj in C; [destruct C; intuition congruence|exact Hv'|exact Hv]. }
        specialize (Sl Nd (g, s2) n). rewrite E in Sl. cbn [fst snd] in Sl. exact (eq_trans Sl (Hn' n)). }
    set (I := fun (l : list string) (t : st (F := F)) => common t /\ NoDup l /\ (forall c, In c l -> In c cosmologies) /\ forall c v, In c l -> In v variants -> new c v t).
    destruct (peach_total I (fun c => peach (fun v => pbind (save_results csv xlsx b fids (map cname cs) main ow c (fst v) (snd v)) (fun _ => pret tt)) variants)) with (l := cosmologies) (t := (h1, s1)) as ([h2 s2] & E2 & _).
    - intros c l t (Ht & Nl & Sub & Hn). inversion Nl as [|? ? Nc Nl']; subst.
      set (J := fun (m : list (bool * bool)) (t : st (F := F)) => common t /\ NoDup m /\ (forall v, In v m -> In v variants) /\ (forall v, In v m -> new c v t) /\ forall c' v, In c' l -> In v variants -> new c' v t).
      destruct (peach_total J (fun v => pbind (save_results csv xlsx b fids (map cname cs) main ow c (fst v) (snd v)) (fun _ => pret tt))) with (l := variants) (t := t) as (t' & E' & J').
      + intros v m u (Hu & Nm & Sm & Hm & Hl). inversion Nm as [|? ? Nv Nm']; subst.
        destruct (Step c v u) as (u' & an & E & Hu' & Hk); [apply Sub; left; reflexivity|apply Sm; left; reflexivity|exact Hu|apply Hm; left; reflexivity|].
        exists u'. split; [unfold pbind; rewrite E; reflexivity|]. split; [exact Hu'|]. split; [exact Nm'|]. split; [intros; apply Sm; right; assumption|]. split.
        * intros w Hw. apply Hk; [apply Sm; right; exact Hw|right; intros ->; exact (Nv Hw)|apply Hm; right; exact Hw].
        * intros c' w Hc' Hw. apply Hk; [exact Hw|left; intros ->; exact (Nc Hc')|apply Hl; assumption].
      + split; [exact Ht|]. split; [exact variants_NoDup|]. split; [auto|]. split; [intros v Hv; apply Hn; [left; reflexivity|exact Hv]|intros c' v Hc' Hv; apply Hn; [right; exact Hc'|exact Hv]].
      + exists t'. split; [exact E'|]. destruct J' as (J1 & _ & _ & _ & J5). split; [exact J1|]. split; [exact Nl'|]. split; [intros; apply Sub; right; assumption|exact J5].
    - split; [split; [split; [exact A|exact B]|]|split; [exact cosmologies_NoDup|split; [auto|]]].
      + intros c v. apply (free_way_shallow main _ (h1, s)); [rewrite out_dir_length; lia|exact Sh0|apply Fw0].
      + intros c v _ _ n. unfold new. cbn [snd]. pose proof (St0 c v n) as X. cbn [snd] in X. rewrite X. unfold out_dir. rewrite <- app_assoc. apply Fresh. discriminate.
    - exists h2, s2. exact E2.
  Qed.

  (** A second run without overwriting raises FileExistsError and leaves the
      disk as it was. *)
  Theorem C103_rerun_raises base_dir main fids cs h s h' s' : fit s base_dir fids cs -> apart base_dir main ->
    create_final csv xlsx H2 base_dir main fids (map cname cs) false (h, s) = ((h', s'), Ok tt) ->
    forall h0, exists h2, create_final csv xlsx H2 base_dir main fids (map cname cs) false (h0, s') = ((h2, s'), Err EFileExists).
  Proof.
    intros Ft Ap E h0. pose proof Ft as (Hs & (f0 & Hf0) & Pl & Pc & Dist & Pd & Plus).
    pose proof (base_kept csv xlsx base_dir main fids (map cname cs) false h s Ap) as Kb. rewrite E in Kb. cbn [fst snd] in Kb. destruct Kb as (Kb1 & Kb2).
    destruct (holds_kept s s' base_dir Kb1 Kb2) as (Hh & Hso).
    assert (Av : forall n, available s' base_dir n <-> available s base_dir n) by (intros n; unfold available; split; intros (g & P1 & P2); exists g; (split; [apply Hh; exact P1|exact P2])).
    assert (Rn : forall k, result_name s' base_dir cs k <-> result_name s base_dir cs k).
    { intros k. unfold result_name. rewrite Av. split; (intros [H|(x & P1 & P2 & P3)]; [left; exact H|right; exists x; split; [exact P1|split; [exact P2|]]; intros n Hn; apply Av, P3, Hn]). }
    assert (Ft' : fit s' base_dir fids cs).
    { split; [exact (Hso Hs)|]. split; [exists f0; apply Hh; exact Hf0|]. split; [intros f Hf; apply Pl, Hh, Hf|]. split; [exact Pc|]. split; [intros k k' P1 P2; apply Dist; apply Rn; assumption|].
      split; [intros f Hf; apply Pd, Hh, Hf|exact Plus]. }
    assert (Hc : In "w0_wa_CDM"%string ["w0_wa_CDM"; "LCDM"]%string) by (left; reflexivity).
    assert (Hv : In (true, false) [(true, false); (false, false); (true, true)]) by (left; reflexivity).
    destruct (final_core csv xlsx base_dir main fids cs false h s h' s' Hs Pl Pc Dist E _ _ _ Hc Hv) as (Dd & _ & _ & _ & te0 & tr0 & _ & _ & _ & Files). cbn iota in *.
    set (o := main ++ ["w0_wa_CDM"; "marg_before"]%string) in *.
    assert (Dmain : p_isdir s' main = true).
    { pose proof E as E0. unfold create_final in E0. cbn [snd] in E0. unfold pbind at 1 in E0. destruct (load_base H2 base_dir (fisher_files base_dir s) [] (h, s)) as [[h1 s1] [b|e]]; [|discriminate E0].
      unfold pbind at 1, on_disk at 1 in E0. cbn [fst snd] in E0. pose proof (mkdirs_isdir (rev main) s1) as Dm. rewrite rev_involutive in Dm. fold (p_mkdirs main s1) in Dm.
      destruct (p_mkdirs main s1) as [s2 [[]|e]]; [|discriminate E0]. specialize (Dm eq_refl). cbn [fst] in Dm.
      assert (Ds : dirs_stay (h1, s2) (h', s')).
      { pose proof (save_all_pres csv xlsx dirs_stay b fids (map cname cs) main false dirs_rt) as Q. specialize (Q (fun c v => save_results_dirs csv xlsx b fids (map cname cs) main false c (fst v) (snd v)) (h1, s2)). rewrite E0 in Q. exact Q. }
      destruct main as [|x m]; [reflexivity|]. apply isdir_lookup in Dm; [|discriminate]. specialize (Ds (x :: m) Dm). cbn [snd] in Ds. unfold p_isdir. rewrite Ds. reflexivity. }
    destruct (load_base_spec h0 s' base_dir (Hso Hs)) as (h1 & b & l0 & El & Gr & Hl0 & Nk & Na & A & B).
    unfold create_final. cbn [snd]. unfold pbind at 1. rewrite El. unfold pbind at 1, on_disk at 1. cbn [fst snd]. rewrite (mkdirs_there main s' Dmain).
    destruct (results_exist s' base_dir fids cs b h1 "w0_wa_CDM" true false Ft' Nk Na (conj A B) Hc) as (h2 & an & Ec).
    destruct (result_names b h1 "w0_wa_CDM" fids cs true false h2 an base_dir s' (Hso Hs) Nk Na A B) as (Nk' & Kr & Vn & _); auto; [intros f Hf; apply Pl, Hh, Hf|].
    exists h2. unfold save_all, cosmologies. cbn [peach]. unfold variants at 1. unfold pbind at 1. cbn [peach fst snd]. unfold pbind at 1. unfold pbind at 1. unfold save_results at 1. unfold pbind at 1, on_heap at 1. cbn [fst snd]. rewrite Ec. cbn zeta. cbn [variant_dir]. fold o.
    unfold pbind at 1, on_disk at 1. cbn [fst snd]. rewrite (mkdirs_there o s' Dd).
    assert (Sf : save_fishers o false an (h2, s') = ((h2, s'), Err EFileExists)).
    { unfold save_fishers. destruct (an_fishers an) as [|[k a] r] eqn:Ea.
      - exfalso. assert (In (fname f0) (dkeys (an_fishers an))) by (rewrite Ea; apply Kr, Rn; left; exists f0; auto). rewrite Ea in H. destruct H.
      - cbn [peach snd]. unfold pbind, save_fisher. cbn [fst]. destruct (Vn k a (or_introl eq_refl)) as (t & Vt & _ & Nt). rewrite (proj2 (hget_view _ _ _) Vt). unfold on_disk. cbn [fst snd].
        rewrite fisher_write_exists; [reflexivity|]. rewrite Nt. assert (Hk : result_name s base_dir cs k) by (apply Rn, Kr; left; reflexivity).
        destruct (Files k Hk) as (g & _ & Lg & _). apply load_exists in Lg. unfold p_exists in Lg. fold o. destruct (lookup s' (o ++ [fisher_filename k])); [discriminate|discriminate Lg]. }
    unfold pbind at 1. rewrite Sf. reflexivity.
  Qed.
End Props.

(** ** A concrete case meeting the hypotheses *)
#[local] Existing Instance id_order.
Definition onamed (n x y : string) : fisher R := mkFisher (mat2 2%R 1%R 1%R 1%R x y) n [x] [y] None None true.
Definition ofile (n : string) : string := fisher_filename n.
Definition odisk : fs (h5 R) :=
  [(["base"], NDir); (["base"; ofile "[GCph]"], NFile (datasets (onamed "[GCph]" "Omm" "bgph0")));
   (["base"; ofile "[WL]"], NFile (datasets (onamed "[WL]" "Omm" "aIA")))]%string.
Definition ofids : dict string R := [("Omm"%string, 3%R)].
Lemma onamed_good n x y : x <> y -> wf (onamed n x y) /\ posdef (onamed n x y).
Proof. intros N. split; [exact (fish2_wf 2%R 1%R 1%R 1%R x y N)|exact (rm_pd x y N)]. Qed.
Lemma odisk_load n f : fisher_load H2 ["base"; n]%string odisk = Ok f ->
  exists k y, In (k, y) [("[GCph]", "bgph0"); ("[WL]", "aIA")]%string /\ n = ofile k /\ loaded (onamed k "Omm" y) [y] f.
Proof.
  intros E. assert (L : exists d, lookup odisk ["base"; n]%string = Some (NFile d)).
  { unfold fisher_load, p_read in E. destruct (lookup odisk ["base"; n]%string) as [[|d]|]; [discriminate E|eexists; reflexivity|discriminate E]. }
  destruct L as (d & L). rewrite (load_unfold _ _ _ _ L) in E. unfold lookup, odisk in L. cbn [dget] in L.
  assert (N0 : sl_eqb ["base"]%string ["base"; n]%string = false) by reflexivity.
  assert (N1 : forall k, sl_eqb ["base"; ofile k]%string ["base"; n]%string = String.eqb (ofile k) n).
  { intros k. destruct (String.eqb_spec (ofile k) n) as [->|Ne].
    - destruct (sl_eqb_spec ["base"; n]%string ["base"; n]%string); congruence.
    - destruct (sl_eqb_spec ["base"; ofile k]%string ["base"; n]%string) as [C|]; [injection C as C; congruence|reflexivity]. }
  assert (N1' : forall k, sl_eqb ["base"; n]%string ["base"; ofile k]%string = String.eqb n (ofile k)).
  { intros k. destruct (String.eqb_spec n (ofile k)) as [->|Ne].
    - destruct (sl_eqb_spec ["base"; ofile k]%string ["base"; ofile k]%string); congruence.
    - destruct (sl_eqb_spec ["base"; n]%string ["base"; ofile k]%string) as [C|]; [injection C as C; congruence|reflexivity]. }
  assert (N0' : sl_eqb ["base"; n]%string ["base"]%string = false) by reflexivity.
  rewrite ?N0, ?N0', ?N1, ?N1' in L.
  assert (G : forall k y, "Omm"%string <> y -> load_of H2 (datasets (onamed k "Omm" y)) = Ok f -> loaded (onamed k "Omm" y) [y] f).
  { intros k y Ny Ef. destruct (load_datasets (onamed k "Omm" y) (proj1 (onamed_good k "Omm" y Ny))) as (g & Eg & Lg). rewrite Ef in Eg. injection Eg as <-. exact Lg. }
  match type of L with (if ?b then _ else _) = _ => destruct b eqn:B1 end.
  - apply String.eqb_eq in B1. injection L as <-. exists "[GCph]"%string, "bgph0"%string. split; [left; reflexivity|]. split; [congruence|]. apply G; [discriminate|exact E].
  - match type of L with (if ?b then _ else _) = _ => destruct b eqn:B2 end; [|discriminate L].
    apply String.eqb_eq in B2. injection L as <-. exists "[WL]"%string, "aIA"%string. split; [right; left; reflexivity|]. split; [congruence|]. apply G; [discriminate|exact E].
Qed.
Lemma odisk_fit : fit odisk ["base"%string] ofids rcombs.
Proof.
  assert (Dec : forall f, holds odisk ["base"%string] f -> exists k y, In (k, y) [("[GCph]", "bgph0"); ("[WL]", "aIA")]%string /\ loaded (onamed k "Omm" y) [y] f).
  { intros f (_ & n & _ & E). destruct (odisk_load n f E) as (k & y & A & _ & B). exists k, y. auto. }
  assert (Nm : forall k y f, loaded (onamed k "Omm" y) [y] f -> fname f = k) by (intros k y f L; exact (proj1 L)).
  assert (Av : forall n, available odisk ["base"%string] n -> n = "[GCph]"%string \/ n = "[WL]"%string).
  { intros n (f & Hf & <-). destruct (Dec f Hf) as (k & y & [H|[H|[]]] & L); injection H as <- <-; rewrite (Nm _ _ _ L); auto. }
  split; [split|].
  - intros n _ Ex. assert (H : exists f, fisher_load H2 ["base"; n]%string odisk = Ok f /\ exists k y, "Omm"%string <> y /\ loaded (onamed k "Omm" y) [y] f).
    { unfold p_exists, lookup, odisk in Ex. cbn [app dget] in Ex.
      assert (Q : forall k y, In (k, y) [("[GCph]", "bgph0"); ("[WL]", "aIA")]%string -> exists f, fisher_load H2 ["base"; ofile k]%string odisk = Ok f /\ exists k' y', "Omm"%string <> y' /\ loaded (onamed k' "Omm" y') [y'] f).
      { intros k y Hk. assert (Ny : "Omm"%string <> y) by (destruct Hk as [H|[H|[]]]; injection H as _ <-; discriminate).
        destruct (load_datasets (onamed k "Omm" y) (proj1 (onamed_good k "Omm" y Ny))) as (g & Eg & Lg). exists g. split; [|exists k, y; auto].
        rewrite <- Eg. apply load_unfold. destruct Hk as [H|[H|[]]]; injection H as <- <-; reflexivity. }
      match type of Ex with context [sl_eqb ?a ?b] => destruct (sl_eqb a b) eqn:B0 end.
      { idtac. exfalso. discriminate B0. }
      match type of Ex with context [sl_eqb ?a ?b] => destruct (sl_eqb a b) eqn:B1 end.
      { assert (H : ["base"; n]%string = ["base"; ofile "[GCph]"]%string).
        { match type of B1 with sl_eqb ?a ?b = true => destruct (sl_eqb_spec a b) as [C|_]; [first [exact C|symmetry; exact C]|discriminate B1] end. }
        rewrite H. exact (Q "[GCph]" "bgph0" (or_introl eq_refl))%string. }
      match type of Ex with context [sl_eqb ?a ?b] => destruct (sl_eqb a b) eqn:B2 end; [|discriminate Ex].
      assert (H : ["base"; n]%string = ["base"; ofile "[WL]"]%string).
      { match type of B2 with sl_eqb ?a ?b = true => destruct (sl_eqb_spec a b) as [C|_]; [first [exact C|symmetry; exact C]|discriminate B2] end. }
      rewrite H. exact (Q "[WL]" "aIA" (or_intror (or_introl eq_refl)))%string. }
    destruct H as (f & E & k & y & Ny & L). exists f. split; [exact E|]. exact (proj1 (loaded_same _ _ (proj1 (onamed_good k "Omm" y Ny)) L)).
  - intros n n' f f' _ _ E E' En. destruct (odisk_load n f E) as (k & y & _ & -> & L). destruct (odisk_load n' f' E') as (k' & y' & _ & -> & L').
    rewrite (Nm _ _ _ L), (Nm _ _ _ L') in En. congruence.
  - split; [|split; [|split; [|split; [|split]]]].
    + destruct (load_datasets (onamed "[WL]" "Omm" "aIA") (proj1 (onamed_good "[WL]" "Omm" "aIA" ltac:(discriminate)))) as (g & Eg & _).
      exists g. split; [reflexivity|]. exists (ofile "[WL]"). split; [reflexivity|]. rewrite <- Eg. apply load_unfold. reflexivity.
    + intros f Hf. destruct (Av (fname f)) as [->| ->]; [exists f; auto|apply rplain; cbn; auto..].
    + intros x n [<-|[<-|[]]] [->|[<-|[]]]; apply rplain; cbn; auto.
    + assert (R : forall k, result_name odisk ["base"%string] rcombs k -> In k ["[GCph]"; "[WL]"; "[GCph] + [WL]"; "[GCph] + [GCsp]"]%string).
      { intros k [A|(c & [<-|[<-|[]]] & -> & _)]; [destruct (Av k A) as [->| ->]; cbn; auto|cbn; auto..]. }
      intros k k' A B E. apply R in A, B. cbn in A, B. destruct A as [<-|[<-|[<-|[<-|[]]]]], B as [<-|[<-|[<-|[<-|[]]]]]; reflexivity || discriminate E.
    + intros f Hf. destruct (Dec f Hf) as (k & y & Hk & L). assert (Ny : "Omm"%string <> y) by (destruct Hk as [H|[H|[]]]; injection H as _ <-; discriminate).
      destruct (onamed_good k "Omm" y Ny) as (W & Pd). destruct (loaded_same _ _ W L) as (_ & Sm). split.
      * pose proof (proj1 (proj2 L)) as Ll. unfold posdef in *. rewrite Ll. apply (pd_ext _ (fval (onamed k "Omm" y))); [|exact Pd].
        intros a b Ha Hb. symmetry. apply (proj1 (proj2 Sm)); rewrite Ll; assumption.
      * intros x [<-|[]] Nv. exfalso. apply Nv. left. left. reflexivity.
    + intros c on [<-|[<-|[]]] [<-|[]]; reflexivity.
Qed.
Example C103_instance (csv xlsx : table (F := R) -> h5 R) :
  apart ["base"]%string ["run"; "final_results"]%string /\
  exists h' s', create_final csv xlsx H2 ["base"]%string ["run"; "final_results"]%string ofids (map cname rcombs) false (mkHeap [] [], odisk) = ((h', s'), Ok tt) /\
    result_name odisk ["base"%string] rcombs "[GCph] + [WL]"%string /\ ~ result_name odisk ["base"%string] rcombs "[GCph] + [GCsp]"%string.
Proof.
  split; [split; intros r; discriminate|].
  destruct (C103_complete csv xlsx ["base"]%string ["run"; "final_results"]%string ofids rcombs false (mkHeap [] []) odisk odisk_fit) as (h' & s' & E).
  - intros q r Eq Nq. left. destruct q as [|a [|b [|]]]; [congruence|injection Eq as <- _; reflexivity|injection Eq as <- <- _; reflexivity|discriminate Eq].
  - intros r Nr. reflexivity.
  - exists h', s'. split; [exact E|]. assert (Av : forall k y, In (k, y) [("[GCph]", "bgph0"); ("[WL]", "aIA")]%string -> available odisk ["base"%string] k).
    { intros k y Hk. assert (Ny : "Omm"%string <> y) by (destruct Hk as [H|[H|[]]]; injection H as _ <-; discriminate).
      destruct (load_datasets (onamed k "Omm" y) (proj1 (onamed_good k "Omm" y Ny))) as (g & Eg & Lg). exists g. split; [|exact (proj1 Lg)].
      split; [reflexivity|]. exists (ofile k). destruct Hk as [H|[H|[]]]; injection H as <- <-; (split; [reflexivity|rewrite <- Eg; apply load_unfold; reflexivity]). }
    split.
    + right. exists ("[GCph]", [(true, "[WL]")])%string. split; [left; reflexivity|]. split; [reflexivity|].
      intros n [->|[<-|[]]]; [exact (Av _ _ (or_introl eq_refl))|exact (Av _ _ (or_intror (or_introl eq_refl)))].
    + assert (Un : forall n, available odisk ["base"%string] n -> n = "[GCph]"%string \/ n = "[WL]"%string).
      { intros n (f & (_ & m & _ & Em) & <-). destruct (odisk_load m f Em) as (k & y & Hk & _ & L). rewrite (proj1 L). destruct Hk as [H|[H|[]]]; injection H as <- <-; auto. }
      intros [A|(c & [<-|[<-|[]]] & Ek & A)]; [destruct (Un _ A); discriminate|discriminate Ek|].
      destruct (Un "[GCsp]"%string) as [C|C]; [apply A; right; left; reflexivity|discriminate C..].
Qed.
#[local] Remove Hints id_order : typeclass_instances.

(** The base matrices of a run are the files of its directory named
    fisher*.hdf5, each once. *)
Theorem C103_glob {F} {K : Fld F} {SO : SetOrder} (d : path) (s : fs (h5 F)) :
  NoDup (fisher_files d s) /\ forall n, In n (fisher_files d s) <->
  p_isdir s d = true /\ p_exists s (d ++ [n]) = true /\ exists m, n = ("fisher" ++ m ++ ".hdf5")%string.
Proof.
  split; [apply files_NoDup|]. intros n. rewrite files_In. unfold is_fisher_file. split.
  - intros (D & E & X). split; [exact D|]. split; [exact X|]. destruct (strip_prefix "fisher" n) as [r|] eqn:P; [|discriminate E].
    apply ends_iff in E. destruct E as (m & ->). exists m. apply strip_prefix_some in P. exact P.
  - intros (D & X & m & ->). split; [exact D|]. split; [|exact X]. rewrite strip_prefix_app. apply ends_iff. exists m. reflexivity.
Qed.

Print Assumptions C103_glob.
Print Assumptions C103_untouched.
Print Assumptions C103_final.
Print Assumptions C103_tables.
Print Assumptions C103_rerun.
Print Assumptions C103_reload.
Print Assumptions C103_complete.
Print Assumptions C103_rerun_raises.
