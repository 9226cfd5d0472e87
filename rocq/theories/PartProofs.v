(* Tables of several series, each in a unit and with weights of its own (C73, C81). *)
From Coq Require Import ZArith String List Bool Lia Reals Lra.
From Verif Require Import Num Py Cal Model Freq Normalize Fit Pi Forecast.
From Verif Require Import NumProofs ListProofs NormalizeProofs FitProofs ForecastProofs ForecastProofs2 SourceProofs.
From Verif Require ShiftProofs.
Import ListNotations.
Local Open Scope string_scope.
Local Open Scope list_scope.

(* tables whose rows are changed one by one *)
Definition change_raw {T} (g : row T -> row T) (t : raw T) : raw T :=
  mkTable (t_y t) (t_w t) (t_x t) (t_date t) (t_src t) (t_dtindex t) (map (fun q => mkRaw (q_idx q) (g (q_row q))) (t_rows t)).
Definition change_rows {T} (g : row T -> row T) (f : frame T) : frame T := mkFrame (has_date f) (has_src f) (has_w f) (map g (rows f)).

Section Change.
  Context {T : Type}.
  Variable g : row T -> row T.
  (* the change leaves date, source and x as they are, and does not look at date and x *)
  Hypothesis Gs : forall r, r_src (g r) = r_src r.
  Hypothesis Gx : forall r, r_x (g r) = r_x r.
  Hypothesis Gt : forall r, r_date (g r) = r_date r.
  Hypothesis Gd : forall r d, g (set_date r d) = set_date (g r) d.
  Hypothesis Gp : forall r x, g (set_x r x) = set_x (g r) x.
  Let gq (q : rawrow T) : rawrow T := mkRaw (q_idx q) (g (q_row q)).
  Lemma prepare_change t qs : prepare (change_raw g t) (map gq qs) = Py.rmap (map g) (prepare t qs).
  Proof.
    unfold prepare, change_raw. cbn [t_date t_dtindex t_x]. unfold has_date_after. cbn [t_date t_dtindex]. rewrite map_map.
    assert (E : map (fun x => if t_date t then q_row (gq x) else if t_dtindex t then set_date (q_row (gq x)) (q_idx (gq x)) else q_row (gq x)) qs =
                map g (map (fun q => if t_date t then q_row q else if t_dtindex t then set_date (q_row q) (q_idx q) else q_row q) qs)).
    { rewrite map_map. apply map_ext. intros q. cbn [gq q_row q_idx]. destruct (t_date t); [reflexivity|]. destruct (t_dtindex t); [now rewrite Gd|reflexivity]. }
    rewrite E. set (rs := map (fun q : rawrow T => _) qs). destruct (t_x t); [reflexivity|]. destruct (t_date t || t_dtindex t)%bool.
    - replace (map r_date (map g rs)) with (map r_date rs) by (rewrite map_map; apply map_ext; intros r; now rewrite Gt).
      destruct (get_normalized_x_from_date (map r_date rs)) as [xs|e]; [|reflexivity]. cbn [rbind Py.rmap]. f_equal.
      rewrite ShiftProofs.combine_map_left, !map_map. apply map_ext. intros [r x]. cbn [fst snd]. now rewrite Gp.
    - cbn [Py.rmap rbind]. f_equal. unfold enumerate. generalize 0%nat. induction rs as [|r rs IH]; intros n; [reflexivity|]. cbn [map enum_from fst snd]. rewrite IH. f_equal. now rewrite Gp.
  Qed.
  Lemma groups_change t : groups_of (change_raw g t) = map (map gq) (groups_of t).
  Proof.
    unfold groups_of, change_raw. cbn [t_src t_rows]. destruct (t_src t); [|reflexivity]. unfold sources_of. rewrite !map_map. cbn [q_row].
    rewrite (map_ext (fun x => r_src (g (q_row x))) (fun x => r_src (q_row x))) by (intros; apply Gs).
    apply map_ext. intros s. apply (ShiftProofs.filter_maps gq). intros q. cbn [gq q_row]. now rewrite Gs.
  Qed.
  Lemma normalize_change t : normalize_df (change_raw g t) = Py.rmap (option_map (change_rows g)) (normalize_df t).
  Proof.
    unfold normalize_df. change (t_rows (change_raw g t)) with (map gq (t_rows t)). change (t_y (change_raw g t)) with (t_y t).
    destruct (t_rows t) as [|q0 qq] eqn:Eq; [reflexivity|]. cbn [map]. destruct (negb (t_y t)); [reflexivity|]. rewrite groups_change.
    rewrite rmapM_map, (ShiftProofs.rmapM_maps (prepare t) _ (map g)) by (intros qs _; apply prepare_change). destruct (rmapM (prepare t) (groups_of t)) as [gs|e]; [|reflexivity].
    cbn [Py.rmap rbind option_map]. do 2 f_equal. unfold change_rows. cbn [has_date has_src has_w rows].
    change (has_date_after (change_raw g t)) with (has_date_after t). change (t_src (change_raw g t)) with (t_src t). change (t_w (change_raw g t)) with (t_w t). f_equal.
    rewrite <- concat_map. apply ShiftProofs.isort_map. intros a b. unfold row_leb. now rewrite !Gs, !Gx.
  Qed.
  Lemma sorted_change t : sorted_sources (change_raw g t) = sorted_sources t.
  Proof. unfold sorted_sources, change_raw. cbn [t_rows]. rewrite map_map. cbn [q_row]. do 2 f_equal. apply map_ext. intros q. apply Gs. Qed.
  Lemma series_change f s : series_of (change_rows g f) s = change_rows g (series_of f s).
  Proof.
    unfold series_of, change_rows, with_rows. cbn [has_date has_src has_w rows]. f_equal. apply ShiftProofs.filter_maps. intros r. now rewrite Gs.
  Qed.
End Change.
Lemma part_change {T} `{NumOps T} g (Gs : forall r, r_src (g r) = r_src r) (Gx : forall r, r_x (g r) = r_x r) (Gt : forall r, r_date (g r) = r_date r)
  (Gd : forall r d, g (set_date r d) = set_date (g r) d) (Gp : forall r x, g (set_x r x) = set_x (g r) x)
  (W : string -> world T) c id t f r s : t_src t = true -> normalize_df t = Ok (Some f) -> run_forecast W c id (change_raw g t) = Ok (Some r) -> In s (sorted_sources t) ->
  run_forecast_single (W s) c s (change_rows g (series_of f s)) = Ok (part s r).
Proof.
  intros Hs En Er Hi. rewrite <- (series_change g Gs). apply (run_part W c id (change_raw g t)); [exact Hs| |exact Er|now rewrite sorted_change].
  now rewrite (normalize_change g Gs Gx Gt Gd Gp), En.
Qed.
