(** C95: what the text user interface shows. *)
From Verif Require Import Base BaseLemmas PyStrModel TuiModel TuiSpec.
From Coq Require Import ZifyBool ZifyNat Lia.

Lemma addstr_cell : forall y x s g g' b r c,
  addstr y x s g = (g', b) -> (y < g_rows g)%nat -> (x < g_cols g)%nat -> (x + List.length s <= g_cols g)%nat ->
  (c < g_cols g)%nat ->
  g_cell g' r c = if (Nat.eqb r y && Nat.leb x c && Nat.ltb (c - x) (List.length s))%bool then nth (c - x) s 0 else g_cell g r c.
Proof.
  intros y x s g g' b r c E Hy Hx Hf Hc. unfold addstr in E.
  destruct (Nat.leb (g_rows g) y || Nat.leb (g_cols g) x)%bool eqn:B; [lia|].
  injection E as Eg Eb. subst g' b. cbn [g_cell].
  destruct (Nat.eq_dec r y) as [->|Hn].
  - replace ((y - y) * g_cols g)%nat with 0%nat by lia. rewrite Nat.add_0_l, Nat.eqb_refl.
    replace (Nat.leb y y) with true by lia. replace (Nat.ltb c (g_cols g)) with true by lia. reflexivity.
  - replace (Nat.eqb r y) with false by lia. cbn [andb].
    destruct (Nat.leb y r) eqn:L; [|reflexivity].
    assert (M : (1 * g_cols g <= (r - y) * g_cols g)%nat) by (apply Nat.mul_le_mono_r; lia).
    replace (Nat.ltb ((r - y) * g_cols g + c - x) (List.length s)) with false by lia.
    rewrite !andb_false_r. reflexivity.
Qed.

Lemma addstr_dims : forall y x s g, g_rows (fst (addstr y x s g)) = g_rows g /\ g_cols (fst (addstr y x s g)) = g_cols g.
Proof.
  intros y x s g. unfold addstr. destruct (Nat.leb (g_rows g) y || Nat.leb (g_cols g) x)%bool; split; reflexivity.
Qed.

Lemma addstr_ok : forall y x s g,
  (y + 1 < g_rows g)%nat -> (x < g_cols g)%nat -> (x + List.length s <= g_cols g)%nat ->
  snd (addstr y x s g) = false.
Proof.
  intros y x s g Hy Hx Hf. unfold addstr.
  destruct (Nat.leb (g_rows g) y || Nat.leb (g_cols g) x)%bool eqn:B; [lia|]. cbn [snd].
  assert (M : (2 * g_cols g <= (g_rows g - y) * g_cols g)%nat) by (apply Nat.mul_le_mono_r; lia).
  lia.
Qed.

Section Props.
Context {F : Type} (ftext : F -> str).
Implicit Types (names : list str) (env : str -> value F).

Lemma draw_names_cells : forall names i g col,
  Forall (fun n => (1 + List.length n < g_cols g)%nat) names ->
  (i + List.length names + 1 < g_rows g)%nat ->
  exists g', draw_names i names g col = (g', Nat.max col (longest names), false) /\
    g_rows g' = g_rows g /\ g_cols g' = g_cols g /\
    forall r c, (c < g_cols g)%nat ->
      g_cell g' r c =
        match nth_error names (r - 1 - i) with
        | Some n => if (Nat.leb (1 + i) r && Nat.leb 1 c && Nat.ltb (c - 1) (List.length n))%bool
                    then nth (c - 1) n 0 else g_cell g r c
        | None => g_cell g r c
        end.
Proof.
  induction names as [|n ns IH]; intros i g col Hf Hr.
  - exists g. cbn [draw_names]. change (longest []) with 0%nat. rewrite Nat.max_0_r.
    split; [reflexivity|]. split; [reflexivity|]. split; [reflexivity|].
    intros r c Hc. destruct (r - 1 - i)%nat; reflexivity.
  - cbn [draw_names]. inversion Hf as [|? ? Hn Hns]; subst. cbn [List.length] in Hr.
    destruct (addstr (1 + i) 1 n g) as [g1 b] eqn:E.
    pose proof (addstr_dims (1 + i) 1 n g) as [D1 D2]. rewrite E in D1, D2. cbn [fst] in D1, D2.
    assert (Eb : b = false).
    { pose proof (addstr_ok (1 + i) 1 n g) as O. rewrite E in O. cbn [snd] in O. apply O; lia. }
    subst b.
    assert (Hns' : Forall (fun m => (1 + List.length m < g_cols g1)%nat) ns).
    { rewrite D2. exact Hns. }
    destruct (IH (S i) g1 (Nat.max col (List.length n)) Hns' ltac:(lia)) as (g' & Eg & R1 & R2 & C).
    exists g'. rewrite Eg. split.
    { unfold longest. cbn [map fold_right]. rewrite Nat.max_assoc. reflexivity. }
    split; [lia|]. split; [lia|].
    intros r c Hc. rewrite (C r c ltac:(lia)).
    rewrite (addstr_cell (1 + i) 1 n g g1 false r c E ltac:(lia) ltac:(lia) ltac:(lia) Hc).
    destruct (Nat.eq_dec r (1 + i)) as [->|Hne].
    + replace (1 + i - 1 - S i)%nat with 0%nat by lia. replace (1 + i - 1 - i)%nat with 0%nat by lia.
      rewrite Nat.eqb_refl. replace (Nat.leb (1 + i) (1 + i)) with true by lia.
      cbn [nth_error]. destruct ns as [|m ms]; cbn [nth_error]; [reflexivity|].
      replace (Nat.leb (1 + S i) (1 + i)) with false by lia. cbn [andb]. reflexivity.
    + replace (Nat.eqb r (1 + i)) with false by lia. cbn [andb].
      destruct (Nat.leb (1 + S i) r) eqn:L.
      * replace (r - 1 - i)%nat with (S (r - 1 - S i)) by lia. cbn [nth_error].
        replace (Nat.leb (1 + i) r) with true by lia. reflexivity.
      * replace (Nat.leb (1 + i) r) with false by lia. cbn [andb].
        destruct (nth_error ns (r - 1 - S i)), (nth_error (n :: ns) (r - 1 - i)); reflexivity.
Qed.

Lemma draw_values_cells : forall (vals : list (value F)) i col g,
  Forall (fun v => (col + List.length (val_str ftext v) <= g_cols g)%nat) vals ->
  (col < g_cols g)%nat ->
  (i + List.length vals + 1 < g_rows g)%nat ->
  exists g', draw_values ftext i vals col g = (g', false) /\
    g_rows g' = g_rows g /\ g_cols g' = g_cols g /\
    forall r c, (c < g_cols g)%nat ->
      g_cell g' r c =
        match nth_error vals (r - 1 - i) with
        | Some v => if (Nat.leb (1 + i) r && Nat.leb col c && Nat.ltb (c - col) (List.length (val_str ftext v)))%bool
                    then nth (c - col) (val_str ftext v) 0 else g_cell g r c
        | None => g_cell g r c
        end.
Proof.
  induction vals as [|n ns IH]; intros i col g Hf Hcol Hr.
  - exists g. cbn [draw_values].
    split; [reflexivity|]. split; [reflexivity|]. split; [reflexivity|].
    intros r c Hc. destruct (r - 1 - i)%nat; reflexivity.
  - cbn [draw_values]. inversion Hf as [|? ? Hn Hns]; subst. cbn [List.length] in Hr.
    destruct (addstr (1 + i) col (val_str ftext n) g) as [g1 b] eqn:E.
    pose proof (addstr_dims (1 + i) col (val_str ftext n) g) as [D1 D2]. rewrite E in D1, D2. cbn [fst] in D1, D2.
    assert (Eb : b = false).
    { pose proof (addstr_ok (1 + i) col (val_str ftext n) g) as O. rewrite E in O. cbn [snd] in O. apply O; lia. }
    subst b.
    assert (Hns' : Forall (fun v => (col + List.length (val_str ftext v) <= g_cols g1)%nat) ns).
    { rewrite D2. exact Hns. }
    destruct (IH (S i) col g1 Hns' ltac:(lia) ltac:(lia)) as (g' & Eg & R1 & R2 & C).
    exists g'. rewrite Eg. split; [reflexivity|]. split; [lia|]. split; [lia|].
    intros r c Hc. rewrite (C r c ltac:(lia)).
    rewrite (addstr_cell (1 + i) col _ g g1 false r c E ltac:(lia) Hcol Hn Hc).
    destruct (Nat.eq_dec r (1 + i)) as [->|Hne].
    + replace (1 + i - 1 - S i)%nat with 0%nat by lia. replace (1 + i - 1 - i)%nat with 0%nat by lia.
      rewrite Nat.eqb_refl. replace (Nat.leb (1 + i) (1 + i)) with true by lia.
      cbn [nth_error]. destruct ns as [|m ms]; cbn [nth_error]; [reflexivity|].
      replace (Nat.leb (1 + S i) (1 + i)) with false by lia. cbn [andb]. reflexivity.
    + replace (Nat.eqb r (1 + i)) with false by lia. cbn [andb].
      destruct (Nat.leb (1 + S i) r) eqn:L.
      * replace (r - 1 - i)%nat with (S (r - 1 - S i)) by lia. cbn [nth_error].
        replace (Nat.leb (1 + i) r) with true by lia. reflexivity.
      * replace (Nat.leb (1 + i) r) with false by lia. cbn [andb].
        destruct (nth_error ns (r - 1 - S i)), (nth_error (n :: ns) (r - 1 - i)); reflexivity.
Qed.

(** One after the other: what each line holds after several drawings. *)
Lemma dispatches_cells : forall (envs : list (str -> value F)) t g,
  tu_body t = Some g ->
  (forall env n, In env envs -> In n (tu_names t) -> (tu_col t + List.length (val_str ftext (env n)) <= g_cols g)%nat) ->
  (tu_col t < g_cols g)%nat ->
  (List.length (tu_names t) + 1 < g_rows g)%nat ->
  exists g', run ftext (map (@ODispatch F) envs) t = mkTui (tu_window t) (Some g') (tu_names t) (tu_col t) /\
    g_rows g' = g_rows g /\ g_cols g' = g_cols g /\
    forall r c, (c < g_cols g)%nat ->
      g_cell g' r c =
        match nth_error (tu_names t) (r - 1) with
        | Some n => if (Nat.leb 1 r && Nat.leb (tu_col t) c)%bool
                    then fold_left (fun seen s => if Nat.ltb (c - tu_col t) (List.length s) then nth (c - tu_col t) s 0 else seen)
                                   (map (fun env => val_str ftext (env n)) envs) (g_cell g r c)
                    else g_cell g r c
        | None => g_cell g r c
        end.
Proof.
  induction envs as [|env envs IH]; intros t g Eg Hf Hcol Hr.
  - exists g. cbn [map run fold_left]. split; [destruct t; cbn in *; subst; reflexivity|].
    split; [reflexivity|]. split; [reflexivity|].
    intros r c Hc. cbn [map fold_left]. destruct (nth_error (tu_names t) (r - 1)); [|reflexivity].
    destruct (Nat.leb 1 r && Nat.leb (tu_col t) c)%bool; reflexivity.
  - assert (Hv : Forall (fun v => (tu_col t + List.length (val_str ftext v) <= g_cols g)%nat) (map env (tu_names t))).
    { apply Forall_forall. intros v Hv. apply in_map_iff in Hv. destruct Hv as (n & <- & Hn).
      apply Hf; [left; reflexivity|exact Hn]. }
    destruct (draw_values_cells (map env (tu_names t)) 0 (tu_col t) g Hv Hcol) as (g1 & E1 & R1 & C1 & K1).
    { rewrite map_length. lia. }
    set (t1 := mkTui (tu_window t) (Some g1) (tu_names t) (tu_col t)).
    destruct (IH t1 g1 eq_refl) as (g' & Eg' & R' & C' & K').
    + cbn [t1 tu_names tu_col]. intros e n He Hn. rewrite C1. apply Hf; [right; exact He|exact Hn].
    + cbn [t1 tu_col]. lia.
    + cbn [t1 tu_names]. lia.
    + exists g'. split.
      * cbn [map]. unfold run. cbn [fold_left step]. unfold dispatch. rewrite Eg, E1. cbn [fst]. exact Eg'.
      * split; [lia|]. split; [lia|].
        intros r c Hc. rewrite (K' r c ltac:(lia)). cbn [t1 tu_names tu_col]. rewrite (K1 r c Hc).
        rewrite nth_error_map, Nat.sub_0_r.
        destruct (nth_error (tu_names t) (r - 1)) as [n|] eqn:En; cbn [option_map]; [|reflexivity].
        cbn [map fold_left]. change (1 + 0)%nat with 1%nat.
        destruct (Nat.leb 1 r); cbn [andb]; [|reflexivity].
        destruct (Nat.leb (tu_col t) c); reflexivity.
Qed.

Lemma longest_ge : forall names n, In n names -> (List.length n <= longest names)%nat.
Proof.
  induction names as [|m ms IH]; intros n Hn; [destruct Hn|].
  unfold longest. cbn [map fold_right]. fold (longest ms). destruct Hn as [->|Hn]; [lia|].
  specialize (IH n Hn). lia.
Qed.

Lemma fresh_inner : forall rows cols r c, (0 < r)%nat -> (r + 1 < rows)%nat -> (0 < c)%nat -> (c + 1 < cols)%nat ->
  g_cell (fresh rows cols) r c = 32.
Proof.
  intros rows cols r c H1 H2 H3 H4. cbn [fresh g_cell].
  replace (Nat.eqb r 0) with false by lia. replace (Nat.eqb r (rows - 1)) with false by lia.
  replace (Nat.eqb c 0) with false by lia. replace (Nat.eqb c (cols - 1)) with false by lia. reflexivity.
Qed.

Lemma init_cells : forall h w names,
  room h names -> (value_column names + 3 <= w)%nat ->
  exists g, init h w names tui_new = (mkTui true (Some g) names (value_column names), Returned true) /\
    g_rows g = (h - 8)%nat /\ g_cols g = (w - 2)%nat /\
    forall r c, (c < w - 2)%nat ->
      g_cell g r c =
        match nth_error names (r - 1) with
        | Some n => if (Nat.leb 1 r && Nat.leb 1 c && Nat.ltb (c - 1) (List.length n))%bool
                    then nth (c - 1) n 0 else g_cell (fresh (h - 8) (w - 2)) r c
        | None => g_cell (fresh (h - 8) (w - 2)) r c
        end.
Proof.
  intros h w names Hr Hw. unfold room in Hr. unfold value_column in *.
  unfold init, update_dimensions. cbn [tui_new tu_window tu_body tu_names tu_col].
  replace (Nat.ltb 8 h && Nat.ltb 2 w)%bool with true by lia. cbn [tu_body tu_col tu_names tu_window].
  destruct (draw_names_cells names 0 (fresh (h - 8) (w - 2)) 0) as (g & Eg & R & C & K).
  - apply Forall_forall. intros n Hn. pose proof (longest_ge names n Hn). cbn [fresh g_cols]. lia.
  - cbn [fresh g_rows]. lia.
  - cbn [fresh g_rows g_cols] in R, C, K.
    exists g. rewrite Eg. cbn [Nat.max]. split; [reflexivity|]. split; [exact R|]. split; [exact C|].
    intros r c Hc. rewrite (K r c Hc). rewrite Nat.sub_0_r. reflexivity.
Qed.

Theorem C95_screen : forall h w names (envs : list (str -> value F)) i n,
  room h names -> (value_column names + 3 <= w)%nat ->
  (forall env m, In env envs -> In m names -> (value_column names + List.length (val_str ftext (env m)) + 3 <= w)%nat) ->
  nth_error names i = Some n ->
  exists g, tu_body (run ftext (OInit h w names :: map (@ODispatch F) envs) tui_new) = Some g /\
    (** the name, *)
    shows g (1 + i) 1 n /\
    empty_between g (1 + i) (1 + List.length n) (value_column names) /\
    (** and each text over those before it. *)
    (forall k, (value_column names + k + 3 < w)%nat ->
      g_cell g (1 + i) (value_column names + k) = over (map (fun env => val_str ftext (env n)) envs) k).
Proof.
  intros h w names envs i n Hr Hw Hf Hn.
  destruct (init_cells h w names Hr Hw) as (g & Eg & R & C & K).
  set (t := mkTui true (Some g) names (value_column names)).
  destruct (dispatches_cells envs t g eq_refl) as (g' & Eg' & R' & C' & K').
  - cbn [t tu_names tu_col]. intros env m He Hm. specialize (Hf env m He Hm). lia.
  - cbn [t tu_col]. lia.
  - cbn [t tu_names]. unfold room in Hr. lia.
  - assert (Hi : (i < List.length names)%nat) by (apply nth_error_Some; congruence).
    assert (Ln : (List.length n <= longest names)%nat) by (apply longest_ge; eapply nth_error_In; exact Hn).
    assert (V : value_column names = (longest names + 2)%nat) by reflexivity.
    unfold room in Hr.
    exists g'. split.
    { change (run ftext (OInit h w names :: map (@ODispatch F) envs) tui_new)
        with (run ftext (map (@ODispatch F) envs) (fst (init h w names tui_new))).
      rewrite Eg. cbn [fst]. fold t. rewrite Eg'. reflexivity. }
    assert (A : forall c, (c < w - 2)%nat -> (c < value_column names)%nat -> g_cell g' (1 + i) c = g_cell g (1 + i) c).
    { intros c Hc Hv. rewrite (K' (1 + i)%nat c ltac:(lia)). cbn [t tu_names tu_col].
      destruct (nth_error names (1 + i - 1)); [|reflexivity].
      replace (Nat.leb (value_column names) c) with false by lia. rewrite andb_false_r. reflexivity. }
    assert (En : nth_error names (1 + i - 1) = Some n) by (replace (1 + i - 1)%nat with i by lia; exact Hn).
    split; [|split].
    + intros k Hk. rewrite (A (1 + k)%nat ltac:(lia) ltac:(lia)). rewrite (K (1 + i)%nat (1 + k)%nat ltac:(lia)), En.
      replace (Nat.leb 1 (1 + i) && Nat.leb 1 (1 + k) && Nat.ltb (1 + k - 1) (List.length n))%bool with true by lia.
      f_equal. lia.
    + intros c Hc. rewrite (A c ltac:(lia) ltac:(lia)). rewrite (K (1 + i)%nat c ltac:(lia)), En.
      replace (Nat.ltb (c - 1) (List.length n)) with false by lia. rewrite andb_false_r.
      apply fresh_inner; lia.
    + intros k Hk. rewrite (K' (1 + i)%nat (value_column names + k)%nat ltac:(lia)). cbn [t tu_names tu_col]. rewrite En.
      replace (Nat.leb 1 (1 + i) && Nat.leb (value_column names) (value_column names + k))%bool with true by lia.
      replace (value_column names + k - value_column names)%nat with k by lia.
      unfold over. f_equal. rewrite (K (1 + i)%nat (value_column names + k)%nat ltac:(lia)), En.
      replace (Nat.ltb (value_column names + k - 1) (List.length n)) with false by lia. rewrite andb_false_r.
      apply fresh_inner; lia.
Qed.

(** Nothing raises when there is room. *)
Theorem C95_draws : forall h w names (envs : list (str -> value F)) env,
  room h names -> (value_column names + 3 <= w)%nat ->
  (forall e m, In e (env :: envs) -> In m names -> (value_column names + List.length (val_str ftext (e m)) + 3 <= w)%nat) ->
  snd (init h w names tui_new) = Returned true /\
  snd (dispatch ftext env (run ftext (OInit h w names :: map (@ODispatch F) envs) tui_new)) = Returned true.
Proof.
  intros h w names envs env Hr Hw Hf.
  destruct (init_cells h w names Hr Hw) as (g & Eg & R & C & K).
  split; [rewrite Eg; reflexivity|].
  set (t := mkTui true (Some g) names (value_column names)).
  destruct (dispatches_cells envs t g eq_refl) as (g' & Eg' & R' & C' & K').
  - cbn [t tu_names tu_col]. intros e m He Hm. specialize (Hf e m (or_intror He) Hm). lia.
  - cbn [t tu_col]. lia.
  - cbn [t tu_names]. unfold room in Hr. lia.
  - change (run ftext (OInit h w names :: map (@ODispatch F) envs) tui_new)
      with (run ftext (map (@ODispatch F) envs) (fst (init h w names tui_new))).
    rewrite Eg. cbn [fst]. fold t. rewrite Eg'. cbn [t tu_names tu_window tu_col].
    unfold dispatch. cbn [tu_body tu_names tu_col].
    destruct (draw_values_cells (map env names) 0 (value_column names) g') as (g2 & E2 & _).
    + apply Forall_forall. intros v Hv. apply in_map_iff in Hv. destruct Hv as (m & <- & Hm).
      specialize (Hf env m (or_introl eq_refl) Hm). lia.
    + lia.
    + rewrite map_length. unfold room in Hr. lia.
    + rewrite E2. reflexivity.
Qed.

(** ** What [over] means *)
Lemma over_last : forall texts t k, (k < List.length t)%nat -> over (texts ++ [t]) k = nth k t 0.
Proof.
  intros texts t k Hk. unfold over. rewrite fold_left_app. cbn [fold_left].
  replace (Nat.ltb k (List.length t)) with true by lia. reflexivity.
Qed.
Lemma over_short : forall later texts k, Forall (fun t => (List.length t <= k)%nat) later -> over (texts ++ later) k = over texts k.
Proof.
  intros later texts k H. unfold over. rewrite fold_left_app.
  generalize (fold_left (fun (seen : Z) (t : list Z) => if Nat.ltb k (List.length t) then nth k t 0 else seen) texts 32).
  induction H as [|t ts Ht _ IH]; intros z; [reflexivity|].
  cbn [fold_left]. replace (Nat.ltb k (List.length t)) with false by lia. apply IH.
Qed.

(** The line of a channel shows the text of its value at the last drawing ... *)
Theorem C95_current_value : forall h w names (envs : list (str -> value F)) env i n,
  room h names -> (value_column names + 3 <= w)%nat ->
  (forall e m, In e (envs ++ [env]) -> In m names -> (value_column names + List.length (val_str ftext (e m)) + 3 <= w)%nat) ->
  nth_error names i = Some n ->
  exists g, tu_body (run ftext (OInit h w names :: map (@ODispatch F) (envs ++ [env])) tui_new) = Some g /\
    shows g (1 + i) (value_column names) (val_str ftext (env n)) /\
    (** ... and nothing after it exactly when no text before it was longer in a column
        that is not blank. *)
    (empty_between g (1 + i) (value_column names + List.length (val_str ftext (env n))) (w - 3) <->
     forall k, (List.length (val_str ftext (env n)) <= k)%nat -> (value_column names + k + 3 < w)%nat ->
       over (map (fun e => val_str ftext (e n)) envs) k = 32).
Proof.
  intros h w names envs env i n Hr Hw Hf Hn.
  destruct (C95_screen h w names (envs ++ [env]) i n Hr Hw Hf Hn) as (g & Eg & _ & _ & V).
  exists g. split; [exact Eg|].
  rewrite map_app in V. cbn [map] in V.
  split; [|split].
  - intros k Hk.
    assert (Hb : (value_column names + List.length (val_str ftext (env n)) + 3 <= w)%nat).
    { apply Hf; [apply in_or_app; right; left; reflexivity|]. eapply nth_error_In; exact Hn. }
    rewrite V by lia. apply over_last. exact Hk.
  - intros E k Hk Hk2. specialize (E (value_column names + k)%nat). rewrite V in E by lia.
    rewrite <- E by lia. symmetry. apply over_short. repeat constructor. exact Hk.
  - intros E c Hc. replace c with (value_column names + (c - value_column names))%nat by lia.
    rewrite V by lia. rewrite over_short by (repeat constructor; lia). apply E; lia.
Qed.

Lemma over_all_short : forall texts k, Forall (fun t => (List.length t <= k)%nat) texts -> over texts k = 32.
Proof. intros texts k H. apply (over_short texts [] k H). Qed.

(** While texts do not become shorter, the line is exactly the last text. *)
Theorem C95_no_remains_partial : forall h w names (envs : list (str -> value F)) env i n,
  room h names -> (value_column names + 3 <= w)%nat ->
  (forall e m, In e (envs ++ [env]) -> In m names -> (value_column names + List.length (val_str ftext (e m)) + 3 <= w)%nat) ->
  nth_error names i = Some n ->
  (forall e, In e envs -> (List.length (val_str ftext (e n)) <= List.length (val_str ftext (env n)))%nat) ->
  exists g, tu_body (run ftext (OInit h w names :: map (@ODispatch F) (envs ++ [env])) tui_new) = Some g /\
    shows g (1 + i) (value_column names) (val_str ftext (env n)) /\
    empty_between g (1 + i) (value_column names + List.length (val_str ftext (env n))) (w - 3).
Proof.
  intros h w names envs env i n Hr Hw Hf Hn Hl.
  destruct (C95_current_value h w names envs env i n Hr Hw Hf Hn) as (g & Eg & S1 & S2).
  exists g. split; [exact Eg|]. split; [exact S1|]. apply S2. intros k Hk _.
  apply over_all_short. apply Forall_forall. intros s Hs. apply in_map_iff in Hs. destruct Hs as (e & <- & He).
  specialize (Hl e He). lia.
Qed.

(** But what a longer text left stays: for whatever was drawn before and whatever
    shorter texts come after. *)
Theorem C95_remains_stay : forall h w names (envs later : list (str -> value F)) env i n k,
  room h names -> (value_column names + 3 <= w)%nat ->
  (forall e m, In e (envs ++ env :: later) -> In m names -> (value_column names + List.length (val_str ftext (e m)) + 3 <= w)%nat) ->
  nth_error names i = Some n ->
  (k < List.length (val_str ftext (env n)))%nat ->
  (forall e, In e later -> (List.length (val_str ftext (e n)) <= k)%nat) ->
  exists g, tu_body (run ftext (OInit h w names :: map (@ODispatch F) (envs ++ env :: later)) tui_new) = Some g /\
    g_cell g (1 + i) (value_column names + k) = nth k (val_str ftext (env n)) 0.
Proof.
  intros h w names envs later env i n k Hr Hw Hf Hn Hk Hl.
  destruct (C95_screen h w names (envs ++ env :: later) i n Hr Hw Hf Hn) as (g & Eg & _ & _ & V).
  exists g. split; [exact Eg|].
  assert (Hb : (value_column names + List.length (val_str ftext (env n)) + 3 <= w)%nat).
  { apply Hf; [apply in_or_app; right; left; reflexivity|]. eapply nth_error_In; exact Hn. }
  rewrite V by lia.
  replace (envs ++ env :: later) with ((envs ++ [env]) ++ later) by (rewrite <- app_assoc; reflexivity).
  rewrite map_app, over_short.
  - rewrite map_app. cbn [map]. apply over_last. exact Hk.
  - apply Forall_forall. intros s Hs. apply in_map_iff in Hs. destruct Hs as (e & <- & He). apply Hl. exact He.
Qed.

(** A channel with an enumeration: its value never appears. *)
Theorem C95_enumerated_not_shown : forall h w names (envs : list (str -> value F)) i n,
  room h names -> (value_column names + 3 <= w)%nat ->
  (forall env m, In env envs -> In m names -> (value_column names + List.length (val_str ftext (env m)) + 3 <= w)%nat) ->
  nth_error names i = Some n ->
  (forall env, In env envs -> exists s, env n = VName s) ->
  exists g, tu_body (run ftext (OInit h w names :: map (@ODispatch F) envs) tui_new) = Some g /\
    empty_between g (1 + i) (1 + List.length n) (w - 3).
Proof.
  intros h w names envs i n Hr Hw Hf Hn He.
  destruct (C95_screen h w names envs i n Hr Hw Hf Hn) as (g & Eg & _ & B & V).
  exists g. split; [exact Eg|]. intros c Hc.
  destruct (Nat.ltb c (value_column names)) eqn:L.
  - apply B. lia.
  - replace c with (value_column names + (c - value_column names))%nat by lia. rewrite V by lia.
    apply over_all_short. apply Forall_forall. intros s Hs. apply in_map_iff in Hs. destruct Hs as (e & <- & Hin).
    destruct (He e Hin) as (s & ->). cbn [val_str List.length]. lia.
Qed.

(** The texts of integers: the digits, then blanks up to five characters. *)
Theorem C95_integer_text : forall z,
  exists blanks, val_str ftext (VInt z) = dec z ++ repeat 32 blanks /\
    List.length (val_str ftext (VInt z)) = Nat.max 5 (List.length (dec z)).
Proof.
  intros z. exists (5 - List.length (dec z))%nat. cbn [val_str]. split; [reflexivity|].
  rewrite app_length, repeat_length. lia.
Qed.

(** ** Set up once *)
Theorem C95_once : forall h w names t, tu_window t = true -> init h w names t = (t, Returned false).
Proof. intros h w names t H. unfold init. rewrite H. reflexivity. Qed.

(** The list of channels and the column are those of the first set-up, for ever. *)
Theorem C95_list_is_fixed : forall ops t, tu_window t = true ->
  tu_names (run ftext ops t) = tu_names t /\ tu_col (run ftext ops t) = tu_col t /\ tu_window (run ftext ops t) = true.
Proof.
  induction ops as [|o ops IH]; intros t H; [repeat split; assumption|].
  assert (A : tu_names (fst (step ftext t o)) = tu_names t /\ tu_col (fst (step ftext t o)) = tu_col t /\
              tu_window (fst (step ftext t o)) = true).
  { destruct o as [h w names|h w|env]; cbn [step].
    - rewrite C95_once by exact H. repeat split; assumption.
    - unfold update_dimensions. destruct (Nat.ltb 8 h && Nat.ltb 2 w)%bool; cbn [fst tu_names tu_col tu_window]; repeat split; assumption.
    - unfold dispatch. destruct (tu_body t) as [g|]; [|repeat split; assumption].
      destruct (draw_values ftext 0 (map env (tu_names t)) (tu_col t) g) as [g1 b].
      cbn [fst tu_names tu_col tu_window]. repeat split; assumption. }
  destruct A as (A1 & A2 & A3). destruct (IH (fst (step ftext t o)) A3) as (B1 & B2 & B3).
  change (run ftext (o :: ops) t) with (run ftext ops (fst (step ftext t o))).
  rewrite B1, B2, A1, A2. repeat split; assumption.
Qed.

(** ** Another size: the names are gone and do not come back, the values do. *)
Theorem C95_names_lost : forall ops t h w (envs : list (str -> value F)) i n,
  tu_window t = true ->
  room h (tu_names (run ftext ops t)) -> (tu_col t + 3 <= w)%nat ->
  (forall env m, In env envs -> In m (tu_names t) -> (tu_col t + List.length (val_str ftext (env m)) + 3 <= w)%nat) ->
  nth_error (tu_names t) i = Some n ->
  exists g, tu_body (run ftext (ops ++ OResize h w :: map (@ODispatch F) envs) t) = Some g /\
    empty_between g (1 + i) 1 (tu_col t) /\
    (forall k, (tu_col t + k + 3 < w)%nat -> (0 < tu_col t + k)%nat ->
      g_cell g (1 + i) (tu_col t + k) = over (map (fun env => val_str ftext (env n)) envs) k).
Proof.
  intros ops t h w envs i n Ht Hr Hw Hf Hn.
  destruct (C95_list_is_fixed ops t Ht) as (N & C & W).
  set (t1 := run ftext ops t) in *. rewrite N in Hr. unfold room in Hr.
  set (t2 := mkTui (tu_window t1) (Some (fresh (h - 8) (w - 2))) (tu_names t1) (tu_col t1)).
  assert (E2 : fst (step ftext t1 (OResize h w)) = t2).
  { cbn [step update_dimensions]. unfold update_dimensions. replace (Nat.ltb 8 h && Nat.ltb 2 w)%bool with true by lia. reflexivity. }
  destruct (dispatches_cells envs t2 (fresh (h - 8) (w - 2)) eq_refl) as (g & Eg & R & Cc & K).
  - cbn [t2 tu_names tu_col fresh g_cols]. rewrite N, C. intros e m He Hm. specialize (Hf e m He Hm). lia.
  - cbn [t2 tu_col fresh g_cols]. lia.
  - cbn [t2 tu_names fresh g_rows]. rewrite N. lia.
  - cbn [fresh g_cols g_rows] in R, Cc. change (g_cols (fresh (h - 8) (w - 2))) with (w - 2)%nat in K.
    assert (Hi : (i < List.length (tu_names t))%nat) by (apply nth_error_Some; congruence).
    exists g. split.
    { unfold run. rewrite fold_left_app. fold (run ftext ops t). fold t1. cbn [fold_left]. rewrite E2.
      fold (run ftext (map (@ODispatch F) envs) t2). rewrite Eg. reflexivity. }
    assert (En : nth_error (tu_names t2) (1 + i - 1) = Some n).
    { cbn [t2 tu_names]. rewrite N. replace (1 + i - 1)%nat with i by lia. exact Hn. }
    split.
    + intros c Hc. rewrite (K (1 + i)%nat c ltac:(lia)). rewrite En. cbn [t2 tu_col]. rewrite C.
      replace (Nat.leb (tu_col t) c) with false by lia. rewrite andb_false_r. apply fresh_inner; lia.
    + intros k Hk Hp. rewrite (K (1 + i)%nat (tu_col t + k)%nat ltac:(lia)). rewrite En. cbn [t2 tu_col]. rewrite C.
      replace (Nat.leb 1 (1 + i) && Nat.leb (tu_col t) (tu_col t + k))%bool with true by lia.
      replace (tu_col t + k - tu_col t)%nat with k by lia.
      unfold over. f_equal. apply fresh_inner; lia.
Qed.

(** ** Too many channels *)
Lemma addstr_beyond : forall y x s g, (g_rows g <= y)%nat -> snd (addstr y x s g) = true.
Proof.
  intros y x s g H. unfold addstr. replace (Nat.leb (g_rows g) y || Nat.leb (g_cols g) x)%bool with true by lia. reflexivity.
Qed.
Lemma draw_names_beyond : forall names i g col, names <> [] -> (g_rows g <= i + List.length names)%nat ->
  snd (draw_names i names g col) = true.
Proof.
  induction names as [|n ns IH]; intros i g col Hne H; [congruence|]. clear Hne.
  cbn [draw_names]. cbn [List.length] in H.
  destruct (addstr (1 + i) 1 n g) as [g1 b] eqn:E. destruct b; [reflexivity|].
  pose proof (addstr_dims (1 + i) 1 n g) as [D1 _]. rewrite E in D1. cbn [fst] in D1.
  destruct ns as [|m ms].
  - exfalso. pose proof (addstr_beyond (1 + i) 1 n g) as B. rewrite E in B. cbn [snd] in B. cbn [List.length] in H.
    specialize (B ltac:(lia)). discriminate.
  - apply IH; [discriminate|]. cbn [List.length] in *. lia.
Qed.
Lemma draw_values_beyond : forall (vals : list (value F)) i g col, vals <> [] -> (g_rows g <= i + List.length vals)%nat ->
  snd (draw_values ftext i vals col g) = true.
Proof.
  induction vals as [|n ns IH]; intros i g col Hne H; [congruence|]. clear Hne.
  cbn [draw_values]. cbn [List.length] in H.
  destruct (addstr (1 + i) col (val_str ftext n) g) as [g1 b] eqn:E. destruct b; [reflexivity|].
  pose proof (addstr_dims (1 + i) col (val_str ftext n) g) as [D1 _]. rewrite E in D1. cbn [fst] in D1.
  destruct ns as [|m ms].
  - exfalso. pose proof (addstr_beyond (1 + i) col (val_str ftext n) g) as B. rewrite E in B. cbn [snd] in B. cbn [List.length] in H.
    specialize (B ltac:(lia)). discriminate.
  - apply IH; [discriminate|]. cbn [List.length] in *. lia.
Qed.
Lemma draw_names_rows : forall names i g col, g_rows (fst (fst (draw_names i names g col))) = g_rows g.
Proof.
  induction names as [|n ns IH]; intros i g col; [reflexivity|]. cbn [draw_names].
  destruct (addstr (1 + i) 1 n g) as [g1 b] eqn:E.
  pose proof (addstr_dims (1 + i) 1 n g) as [D1 _]. rewrite E in D1. cbn [fst] in D1.
  destruct b; cbn [fst]; [exact D1|]. rewrite IH. exact D1.
Qed.

(** With more channels than lines setting up raises, and the interface is of no use
    afterwards: it counts as set up, and drawing raises. *)
Theorem C95_too_many : forall h w names env,
  names <> [] -> (h <= List.length names + 8)%nat ->
  snd (init h w names tui_new) = Raised /\
  (forall h' w' names', snd (init h' w' names' (fst (init h w names tui_new))) = Returned false) /\
  (8 < h -> 2 < w -> snd (dispatch ftext env (fst (init h w names tui_new))) = Raised)%nat.
Proof.
  intros h w names env Hne Hh.
  destruct (Nat.ltb 8 h && Nat.ltb 2 w)%bool eqn:B.
  - assert (A : exists g1 col, init h w names tui_new = (mkTui true (Some g1) names col, Raised) /\ g_rows g1 = (h - 8)%nat).
    { unfold init. cbn [tui_new tu_window tu_body tu_names tu_col]. unfold update_dimensions. rewrite B. cbn [tu_body tu_col tu_names].
      pose proof (draw_names_beyond names 0 (fresh (h - 8) (w - 2)) 0 Hne) as R.
      pose proof (draw_names_rows names 0 (fresh (h - 8) (w - 2)) 0) as D.
      destruct (draw_names 0 names (fresh (h - 8) (w - 2)) 0) as [[g1 col] b]. cbn [snd fst] in R, D.
      replace b with true by (symmetry; apply R; cbn [fresh g_rows]; lia). exists g1, col. split; [reflexivity|]. rewrite D. reflexivity. }
    destruct A as (g1 & col & E & D). rewrite E. cbn [fst snd]. split; [reflexivity|]. split; [reflexivity|].
    intros _ _. unfold dispatch. cbn [tu_body tu_names tu_col].
    pose proof (draw_values_beyond (map env names) 0 g1 col) as R.
    destruct (draw_values ftext 0 (map env names) col g1) as [g2 b]. cbn [snd] in *.
    replace b with true; [reflexivity|]. symmetry. apply R; [destruct names; [congruence|discriminate]|]. rewrite map_length. lia.
  - unfold init. cbn [tui_new tu_window]. unfold update_dimensions. rewrite B.
    cbn [fst snd tu_window]. split; [reflexivity|]. split; [reflexivity|]. intros; lia.
Qed.
End Props.

(** ** The cursor *)
Theorem C95_cursor_move : forall ny nx c,
  let y := match ny with Some v => v | None => cu_y c end in
  let x := match nx with Some v => v | None => cu_x c end in
  (snd (cu_move ny nx c) = true <-> y < cu_h c /\ x < cu_w c) /\
  (snd (cu_move ny nx c) = true ->
     cu_y (fst (cu_move ny nx c)) = y mod 2 ^ 32 /\ cu_x (fst (cu_move ny nx c)) = x mod 2 ^ 32) /\
  (snd (cu_move ny nx c) = false -> fst (cu_move ny nx c) = c).
Proof.
  intros ny nx c y x. unfold cu_move. fold y. fold x.
  destruct ((y <? cu_h c) && (x <? cu_w c)) eqn:B; cbn [fst snd].
  - split; [split; [lia|reflexivity]|]. split; [intros _; split; reflexivity|discriminate].
  - split; [split; [discriminate|lia]|]. split; [discriminate|reflexivity].
Qed.

(** Inside stays inside when positions are not negative. *)
Theorem C95_cursor_inside_partial : forall ny nx c,
  inside c -> cu_h c < 2 ^ 32 -> cu_w c < 2 ^ 32 ->
  (forall v, ny = Some v -> 0 <= v) -> (forall v, nx = Some v -> 0 <= v) ->
  inside (fst (cu_move ny nx c)).
Proof.
  intros ny nx c (Hy & Hx) Hh Hw Py Px.
  destruct (C95_cursor_move ny nx c) as (I & P & N).
  destruct (cu_move ny nx c) as [c' b] eqn:E. cbn [fst snd] in *. destruct b.
  - destruct (proj1 I eq_refl) as (B1 & B2). destruct (P eq_refl) as (P1 & P2).
    assert (S1 : cu_h c' = cu_h c /\ cu_w c' = cu_w c).
    { unfold cu_move in E. destruct (_ && _); inversion E; split; reflexivity. }
    destruct S1 as (S1 & S2). unfold inside. rewrite S1, S2, P1, P2.
    rewrite !Z.mod_small; [|destruct nx as [v|]; [specialize (Px v eq_refl)|]; lia|destruct ny as [v|]; [specialize (Py v eq_refl)|]; lia].
    destruct nx as [vx|], ny as [vy|]; try specialize (Px _ eq_refl); try specialize (Py _ eq_refl); lia.
  - rewrite (N eq_refl). split; assumption.
Qed.

(** A negative position passes the test, and the cursor is then outside. *)
Theorem C95_cursor_inside_refuted : forall c n,
  inside c -> cu_w c < 2 ^ 31 -> 0 < n -> n < 2 ^ 31 -> cu_x c < n ->
  snd (cu_inc_x (- n) c) = true /\ ~ inside (fst (cu_inc_x (- n) c)).
Proof.
  intros c n (Hy & Hx) Hw Hn Hn2 Hlt. unfold cu_inc_x, cu_move.
  replace ((cu_y c <? cu_h c) && (cu_x c + - n <? cu_w c)) with true by lia.
  split; [reflexivity|]. cbn [fst]. unfold inside. cbn [cu_x cu_w cu_y cu_h]. unfold u32.
  intros (_ & H).
  assert (E : (cu_x c + - n) mod 2 ^ 32 = cu_x c - n + 2 ^ 32).
  { symmetry. apply (Z.mod_unique _ _ (-1)); lia. }
  rewrite E in H. lia.
Qed.

(** Asking for the size says whether it changed and leaves the cursor where it is. *)
Theorem C95_cursor_size : forall h w c,
  0 <= h < 2 ^ 32 -> 0 <= w < 2 ^ 32 ->
  (snd (cu_poll h w c) = true <-> h <> cu_h c \/ w <> cu_w c) /\
  fst (cu_poll h w c) = mkCursor (cu_y c) (cu_x c) h w.
Proof.
  intros h w c Hh Hw. unfold cu_poll, u32. rewrite !Z.mod_small by lia. cbn [fst snd]. split; [lia|reflexivity].
Qed.

(** A cursor can be made for a window exactly when it has a position. *)
Theorem C95_cursor_reset : forall h w c,
  0 <= h < 2 ^ 32 -> 0 <= w < 2 ^ 32 ->
  (cu_reset h w c <> None <-> 0 < h /\ 0 < w) /\
  (forall c', cu_reset h w c = Some c' -> c' = mkCursor 0 0 h w).
Proof.
  intros h w c Hh Hw. unfold cu_reset, cu_poll, u32. rewrite !Z.mod_small by lia. cbn [fst cu_move cu_y cu_x cu_h cu_w].
  unfold cu_move. cbn [cu_y cu_x cu_h cu_w].
  destruct ((0 <? h) && (0 <? w)) eqn:B.
  - split; [split; [lia|discriminate]|]. intros c' E. inversion E. reflexivity.
  - split; [split; [congruence|lia]|]. discriminate.
Qed.

(** ** Cases *)
Definition two_names : list str := [[97]; [98; 98]].
Definition env_of (a b : Z) : str -> value Empty_set := fun n => if Nat.eqb (List.length n) 1 then VInt a else VInt b.
Definition row (g : grid) (r from n : nat) : str := map (fun k => g_cell g r (from + k)) (seq 0 n).
Definition no_floats (f : Empty_set) : str := match f with end.
Definition after (ops : list (op Empty_set)) : option str :=
  option_map (fun g => row g 1 1 10) (tu_body (run no_floats ops tui_new)).

Example C95_screen_applies :
  room 12 two_names /\ (value_column two_names + 3 <= 20)%nat /\
  (forall e m, In e [env_of 123456 0; env_of 7 0] -> In m two_names ->
     (value_column two_names + List.length (val_str no_floats (e m)) + 3 <= 20)%nat) /\
  after [OInit 12 20 two_names; ODispatch (env_of 123456 0)] = Some ([97; 32; 32] ++ dec 123456 ++ [32]).
Proof.
  split; [unfold room; cbn; lia|]. split; [cbn; lia|]. split.
  - intros e m He Hm. cbn [In two_names] in *.
    destruct He as [<-|[<-|[]]], Hm as [<-|[<-|[]]]; vm_compute; lia.
  - reflexivity.
Qed.
(** 123456, then 7: the line reads "7    6". *)
Theorem C95_only_the_value_refuted :
  after [OInit 12 20 two_names; ODispatch (env_of 123456 0); ODispatch (env_of 7 0)] =
    Some ([97; 32; 32] ++ [55; 32; 32; 32; 32; 54] ++ [32]) /\
  val_str no_floats (VInt 7) = [55; 32; 32; 32; 32].
Proof. split; reflexivity. Qed.
(** After a change of size: no name, but the value. *)
Example C95_names_lost_applies :
  after [OInit 12 20 two_names; ODispatch (env_of 5 0); OResize 14 24; ODispatch (env_of 7 0)] =
    Some ([32; 32; 32] ++ [55; 32; 32; 32; 32] ++ [32; 32]).
Proof. reflexivity. Qed.
Example C95_enumerated_applies :
  after [OInit 12 20 two_names; ODispatch (fun _ => VName "on"%string)] = Some ([97] ++ repeat 32 9).
Proof. reflexivity. Qed.
Example C95_too_many_applies :
  two_names <> [] /\ (10 <= List.length two_names + 8)%nat /\ snd (init 10 20 two_names tui_new) = Raised.
Proof. split; [discriminate|]. split; [cbn; lia|reflexivity]. Qed.
Example C95_cursor_applies :
  inside (mkCursor 3 0 24 80) /\ cu_inc_x (-1) (mkCursor 3 0 24 80) = (mkCursor 3 4294967295 24 80, true) /\
  cu_inc_x 80 (mkCursor 3 0 24 80) = (mkCursor 3 0 24 80, false).
Proof. split; [unfold inside; cbn; lia|]. split; reflexivity. Qed.

Print Assumptions C95_screen.
Print Assumptions C95_draws.
Print Assumptions C95_current_value.
Print Assumptions C95_no_remains_partial.
Print Assumptions C95_remains_stay.
Print Assumptions C95_only_the_value_refuted.
Print Assumptions C95_enumerated_not_shown.
Print Assumptions C95_integer_text.
Print Assumptions C95_once.
Print Assumptions C95_list_is_fixed.
Print Assumptions C95_names_lost.
Print Assumptions C95_too_many.
Print Assumptions C95_cursor_move.
Print Assumptions C95_cursor_inside_partial.
Print Assumptions C95_cursor_inside_refuted.
Print Assumptions C95_cursor_size.
Print Assumptions C95_cursor_reset.
