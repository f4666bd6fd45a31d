(** Proofs about the NP-05B connection. *)
From Coq Require Import ZifyBool ZifyNat Lia.
From Verif Require Import Base BaseLemmas PyStrModel PyStrProofs TaskModel TaskProofs Np05bModel Np05bSpec.

(** Lines. *)
Definition nobreak (l : str) : Prop := Forall (fun x => is_break x = false) l.
Lemma plain_nobreak l : plain l -> nobreak l.
Proof. apply Forall_impl. now intros x []. Qed.
Lemma break10 : is_break 10 = true. Proof. reflexivity. Qed.

Lemma splitlines_line l : forall cr cur r, nobreak l -> (cr = true -> l <> []) ->
  splitlines_go cr cur (l ++ 13 :: 10 :: r) = (cur ++ l) :: splitlines_go false [] r.
Proof.
  induction l as [|x l IH]; intros cr cur r N C.
  - destruct cr; [now destruct C|]. cbn. now rewrite app_nil_r.
  - inversion N as [|? ? Bx N']; subst. cbn [app splitlines_go].
    replace (cr && (x =? 10)) with false.
    2: { destruct (Z.eqb_spec x 10) as [->|]; [discriminate|]. now rewrite andb_false_r. }
    rewrite Bx. rewrite IH; [now rewrite <- app_assoc|exact N'|discriminate].
Qed.
Lemma splitlines_wire ls r : Forall nobreak ls -> splitlines (on_wire ls ++ r) = ls ++ splitlines r.
Proof.
  intros F. unfold splitlines. induction F as [|l ls N F IH]; [reflexivity|].
  unfold on_wire. cbn [map List.concat]. fold (on_wire ls). rewrite <- !app_assoc. cbn [app].
  rewrite splitlines_line; [|exact N|discriminate]. cbn [app]. now rewrite IH.
Qed.
Lemma wire_lines ls : Forall nobreak ls -> splitlines (on_wire ls) = ls.
Proof. intros F. rewrite <- (app_nil_r (on_wire ls)), splitlines_wire by exact F. apply app_nil_r. Qed.

(** Chunks. *)
Lemma splitlines_go_app a : forall cr cur b x, is_break x = true -> (a ++ [x]) <> [] ->
  exists c', splitlines_go cr cur ((a ++ [x]) ++ b) = splitlines_go cr cur (a ++ [x]) ++ splitlines_go c' [] b.
Proof.
  induction a as [|y a IH]; intros cr cur b x Bx _.
  - cbn [app splitlines_go]. destruct (cr && (x =? 10)).
    + exists false. reflexivity.
    + rewrite Bx. exists (x =? 13). reflexivity.
  - cbn [app splitlines_go]. destruct (cr && (y =? 10)).
    + destruct (IH false [] b x Bx) as [c' E]; [now destruct a|]. exists c'. exact E.
    + destruct (is_break y).
      * destruct (IH (y =? 13) [] b x Bx) as [c' E]; [now destruct a|]. exists c'. cbn [app]. now rewrite E.
      * destruct (IH false (cur ++ [y]) b x Bx) as [c' E]; [now destruct a|]. exists c'. exact E.
Qed.
Lemma np_lines_app s a b : np_lines s (a ++ b) = match np_lines s a with NGo s' => np_lines s' b | r => r end.
Proof.
  revert s. induction a as [|l a IH]; intros s; [reflexivity|]. cbn [app np_lines].
  destruct (np_line s l); [apply IH|reflexivity].
Qed.
Lemma splitlines_cr b : splitlines_go false [] b = splitlines_go true [] b \/
                        splitlines_go false [] b = [] :: splitlines_go true [] b.
Proof.
  destruct b as [|x b]; [now left|]. cbn [splitlines_go]. destruct (Z.eqb_spec x 10) as [->|N].
  - right. reflexivity.
  - left. reflexivity.
Qed.
Lemma text_chunk s a x b : is_break x = true ->
  np_text s ((a ++ [x]) ++ b) = match np_text s (a ++ [x]) with NGo s' => np_text s' b | r => r end.
Proof.
  intros B. unfold np_text, splitlines.
  destruct (splitlines_go_app a false [] b x B) as [c' E]; [now destruct a|]. rewrite E, flat_map_app, np_lines_app.
  destruct (np_lines s _) as [s'|s' e]; [|reflexivity].
  destruct c'; [|reflexivity]. destruct (splitlines_cr b) as [->| ->]; reflexivity.
Qed.

(** Markers. *)
Lemma marker_none l : ~ In 36 l -> split_marker l = [l].
Proof.
  induction l as [|x l IH]; intros N; [reflexivity|]. cbn [split_marker].
  destruct (Z.eqb_spec x 36) as [->|_]; [destruct N; now left|]. rewrite IH; [reflexivity|].
  intros H. apply N. now right.
Qed.
Lemma marker_app l r : ~ In 36 l -> split_marker (l ++ 36 :: 65 :: r) = l :: split_marker r.
Proof.
  induction l as [|x l IH]; intros N; [reflexivity|]. cbn [app]. cbn [split_marker].
  destruct (Z.eqb_spec x 36) as [->|_]; [destruct N; now left|]. rewrite IH; [reflexivity|].
  intros H. apply N. now right.
Qed.
(** Splitting the pieces of a line again changes nothing. *)
Lemma marker_pieces l : Forall (fun p => split_marker p = [p]) (split_marker l).
Proof.
  assert (G : forall n l, (List.length l <= n)%nat -> Forall (fun p => split_marker p = [p]) (split_marker l) /\
     (forall p ps x, split_marker l = p :: ps -> (forall r, x = 36 -> l <> 65 :: r) -> split_marker (x :: p) = [x :: p])).
  { clear l. induction n as [|n IH]; intros l L.
    - destruct l; [|cbn in L; lia]. split; [cbn; auto|]. cbn. intros p ps x [= <- <-] _. cbn. now destruct (x =? 36).
    - destruct l as [|x l].
      { split; [cbn; auto|]. cbn. intros p ps x [= <- <-] _. cbn. now destruct (x =? 36). }
      cbn [List.length] in L.
      assert (Main : Forall (fun p => split_marker p = [p]) (split_marker (x :: l))).
      { cbn [split_marker]. destruct (IH l ltac:(lia)) as [F H].
        assert (R : (forall r, x = 36 -> l <> 65 :: r) ->
          Forall (fun p => split_marker p = [p]) match split_marker l with p :: ps => (x :: p) :: ps | [] => [[x]] end).
        { intros Hx. destruct (split_marker l) as [|p ps].
          - constructor; [|constructor]. cbn. now destruct (x =? 36).
          - inversion F; subst. constructor; [eapply H; [reflexivity|exact Hx]|assumption]. }
        destruct (Z.eqb_spec x 36) as [->|Nx].
        - destruct l as [|y l']; [apply R; discriminate|].
          destruct (Z.eq_dec y 65) as [->|Ny].
          + constructor; [reflexivity|]. cbn [List.length] in L. apply IH. lia.
          + assert (D : (match y with 65 => [] :: split_marker l' | _ => match split_marker (y :: l') with p :: ps => (36 :: p) :: ps | [] => [[36]] end end)
                        = match split_marker (y :: l') with p :: ps => (36 :: p) :: ps | [] => [[36]] end).
            { destruct y as [|q|q]; try reflexivity. repeat (destruct q as [q|q|]; try reflexivity). now destruct Ny. }
            rewrite D. apply R. intros r _ [= E _]. now destruct Ny.
        - apply R. intros r E. now destruct Nx. }
      split; [exact Main|]. intros p ps z E Hz.
      assert (Sp : split_marker p = [p]) by (rewrite E in Main; now inversion Main).
      cbn [split_marker]. destruct (Z.eqb_spec z 36) as [->|Nz]; [|now rewrite Sp].
      destruct p as [|y p']; [reflexivity|].
      assert (Ny : y <> 65).
      { intros ->. cbn [split_marker] in E. destruct (Z.eqb_spec x 36) as [->|Nx].
        - destruct l as [|w l']; [discriminate|].
          destruct (Z.eq_dec w 65) as [->|Nw]; [discriminate|].
          destruct (split_marker (w :: l')) as [|q qs].
          + destruct w as [|v|v]; try discriminate. repeat (destruct v as [v|v|]; try discriminate).
          + destruct w as [|v|v]; try discriminate; repeat (destruct v as [v|v|]; try discriminate).
        - destruct (split_marker l) as [|q qs]; injection E as E1 E2; subst x; now destruct (Hz l eq_refl). }
      rewrite Sp. destruct y as [|q|q]; try reflexivity. repeat (destruct q as [q|q|]; try reflexivity). now destruct Ny. }
  apply (G (List.length l)). lia.
Qed.
Lemma np_expand_once l p : In p (np_expand l) -> np_expand p = [p].
Proof.
  unfold np_expand at 1. destruct (split_marker l) as [|a [|b [|c ps]]] eqn:E.
  - intros [<-|[]]. unfold np_expand. now rewrite E.
  - intros [<-|[]]. unfold np_expand. now rewrite E.
  - intros [<-|[]]. unfold np_expand. now rewrite E.
  - intros H. apply in_map_iff in H as (x & <- & I). pose proof (marker_pieces l) as F. rewrite E in F.
    rewrite Forall_forall in F. specialize (F x (or_intror I)). unfold np_expand.
    change (36 :: 65 :: x) with ([] ++ 36 :: 65 :: x) at 1. rewrite marker_app by (intros []). now rewrite F.
Qed.

(** Exchanges. *)
Definition cmd_kind (c : pcmd) : npstr :=
  match c with CmdSet => SetOutlet | CmdStatus => OutletStatus | CmdAll => AllOutlets end.
Definition cmd_char (c : pcmd) : Z := match c with CmdSet => 51 | CmdStatus => 53 | CmdAll => 55 end.
Lemma cmd_text_chars c : cmd_text c = [36; 65; cmd_char c].
Proof. now destruct c. Qed.
Lemma plain_nomark l : plain l -> ~ In 36 l.
Proof. intros P I. unfold plain in P. rewrite Forall_forall in P. now destruct (P 36 I). Qed.

Lemma expand_one x l : ~ In 36 (x :: l) -> np_expand (36 :: 65 :: x :: l) = [36 :: 65 :: x :: l].
Proof.
  intros N. unfold np_expand. change (36 :: 65 :: x :: l) with ([] ++ 36 :: 65 :: x :: l) at 1.
  rewrite marker_app by (intros []). now rewrite (marker_none (x :: l) N).
Qed.
Lemma expand_plain l : ~ In 36 l -> np_expand l = [l].
Proof. intros N. unfold np_expand. now rewrite (marker_none l N). Qed.

Lemma np_line_noise s l : ~ In 36 l -> np_line s l = NGo s.
Proof.
  intros N. unfold np_line. destruct l as [|x l]; [reflexivity|].
  assert (C : is_command (x :: l) = false).
  { cbn [is_command]. destruct (Z.eq_dec x 36) as [->|Nx]; [destruct N; now left|].
    destruct x as [|q|q]; try reflexivity. repeat (destruct q as [q|q|]; try reflexivity). now destruct Nx. }
  rewrite C. destruct x as [|q|q]; try reflexivity. repeat (destruct q as [q|q|]; try reflexivity); destruct l; reflexivity.
Qed.
Lemma np_lines_noise s ls : Forall (fun l => ~ In 36 l) ls -> np_lines s ls = NGo s.
Proof. induction 1 as [|l ls N F IH]; [reflexivity|]. cbn [np_lines]. now rewrite np_line_noise. Qed.

Lemma np_bits_report bits : forall i s,
  (i + List.length bits <= List.length (n_outlets s))%nat -> List.length (n_chans s) = List.length (n_outlets s) ->
  np_bits i (map (fun b : bool => if b then 49 else 48) bits) s =
    NGo (mkNp (n_prev s) (firstn i (n_outlets s) ++ map Some bits ++ skipn (i + List.length bits) (n_outlets s))
              (firstn i (n_chans s) ++ bits ++ skipn (i + List.length bits) (n_chans s)) (n_sem s)).
Proof.
  induction bits as [|b bits IH]; intros i s L C.
  - cbn [map np_bits List.length app]. rewrite Nat.add_0_r, !firstn_skipn. now destruct s.
  - cbn [map np_bits]. cbn [List.length] in L.
    destruct (nth_error (n_outlets s) i) as [o|] eqn:E; [|apply nth_error_None in E; lia].
    assert (Eb : (if b then 49 else 48) =? 49 = b) by now destruct b.
    rewrite Eb. rewrite IH; cbn [n_outlets n_chans n_prev n_sem]; rewrite ?upd_length; [|lia|exact C].
    assert (U : forall A (x : A) l k, (i < List.length l)%nat ->
       firstn (S i) (upd i x l) = firstn i l ++ [x] /\ skipn (S i + k) (upd i x l) = skipn (i + S k) l).
    { clear. intros A x l k. revert i. induction l as [|y l IH]; intros [|i] H; cbn [List.length] in H; try lia.
      - now split.
      - destruct (IH i ltac:(lia)) as [E1 E2]. cbn [upd firstn]. split; [cbn [firstn app] in *; now rewrite E1|].
        cbn [Nat.add skipn] in *. exact E2. }
    destruct (U _ (Some b) (n_outlets s) (List.length bits) ltac:(lia)) as [-> ->].
    destruct (U _ b (n_chans s) (List.length bits) ltac:(lia)) as [-> ->].
    rewrite <- !app_assoc. reflexivity.
Qed.

Lemma bits_nocomma bits : ~ In 44 (rev (map (fun b : bool => if b then 49 else 48) bits)).
Proof. rewrite <- in_rev, in_map_iff. intros ([] & H & _); discriminate. Qed.
Lemma bits_plain bits : plain (rev (map (fun b : bool => if b then 49 else 48) bits)).
Proof. apply Forall_forall. intros x H. rewrite <- in_rev, in_map_iff in H. destruct H as ([] & <- & _); split; (reflexivity || discriminate). Qed.

(** The response line. *)
Lemma resp_chars ports c r : answers ports c r -> exists x t, resp_text r = 36 :: 65 :: x :: t /\ plain (x :: t).
Proof.
  intros A. destruct r as [|bits|d].
  - exists 48, []. split; [reflexivity|]. constructor; [split; [reflexivity|discriminate]|constructor].
  - exists 48, (44 :: rev (map (fun b : bool => if b then 49 else 48) bits)). split; [reflexivity|].
    constructor; [split; [reflexivity|discriminate]|]. constructor; [split; [reflexivity|discriminate]|]. apply bits_plain.
  - exists 70, d. split; [reflexivity|]. constructor; [split; [reflexivity|discriminate]|]. apply A.
Qed.

Definition answered (c : pcmd) (r : resp) (s : np) : np :=
  match c, r with
  | CmdStatus, RBits bits => mkNp (n_prev s) (report Some bits (n_outlets s)) (report (fun b => b) bits (n_chans s)) (S (n_sem s))
  | CmdStatus, _ => np_release s
  | _, _ => s
  end.
Lemma np_response_ok ports c r s : answers ports c r -> sized ports s -> np_response (cmd_kind c) (resp_text r) s = NGo (answered c r s).
Proof.
  intros A [So Sc]. unfold np_response. destruct r as [|bits|d].
  - destruct c; [reflexivity|now destruct A|reflexivity].
  - assert (Sp : split_on 44 (resp_text (RBits bits)) = [lit "$A0"; rev (map (fun b : bool => if b then 49 else 48) bits)]).
    { unfold resp_text. change (lit "$A0,") with ([36; 65; 48] ++ [44]). rewrite <- app_assoc. cbn [app].
      change (36 :: 65 :: 48 :: 44 :: ?x) with ([36; 65; 48] ++ 44 :: x).
      rewrite split_on_app; [|cbn; intuition discriminate]. now rewrite (split_on_none _ _ (bits_nocomma bits)). }
    rewrite Sp. cbn [hd]. replace (np_parse (lit "$A0")) with (Some NpOk) by reflexivity.
    destruct c; cbn [cmd_kind]; try reflexivity. rewrite rev_involutive.
    cbn [answers] in A. rewrite np_bits_report by lia. unfold np_release, answered, report. cbn [firstn app Nat.add n_prev n_outlets n_chans n_sem].
    now rewrite map_id.
  - cbn [answers] in A. destruct A as [P D].
    assert (H : hd [] (split_on 44 (resp_text (RFail d))) = lit "$AF").
    { unfold resp_text. destruct D as [->|[d' ->]]; [reflexivity|]. change (lit "$AF") with [36; 65; 70] at 1.
      rewrite split_on_app; [reflexivity|cbn; intuition discriminate]. }
    rewrite H. replace (np_parse (lit "$AF")) with (Some NpFail) by reflexivity. now destruct c.
Qed.

Lemma line_echo s c args : n_prev s = [] -> np_line s (cmd_text c ++ args) = NGo (with_prev (cmd_text c ++ args) s).
Proof. intros P. rewrite cmd_text_chars. cbn [app]. unfold np_line. rewrite P. reflexivity. Qed.
Lemma line_resp ports s c args r : answers ports c r -> sized ports s -> n_prev s = cmd_text c ++ args ->
  np_line s (resp_text r) = NGo (with_prev [] (answered c r s)).
Proof.
  intros A S P. destruct (resp_chars ports c r A) as (x & t & E & _).
  unfold np_line. rewrite E. cbn [is_command]. rewrite P, cmd_text_chars. cbn [app is_command firstn].
  replace (np_parse [36; 65; cmd_char c]) with (Some (cmd_kind c)) by now destruct c.
  rewrite <- E. now rewrite (np_response_ok ports c r s A S).
Qed.

Lemma answered_with c r p s : answered c r (with_prev p s) = with_prev p (answered c r s).
Proof. now destruct c, r. Qed.
Lemma item_after c args between r s : answered c r s = after_item (Pair c args between r) s /\ answered c r s = after_item (Joined c args r) s.
Proof. now destruct c, r. Qed.
Lemma answered_prev c r s : n_prev (answered c r s) = n_prev s.
Proof. now destruct c, r. Qed.
Lemma with_prev_id s : n_prev s = [] -> with_prev [] s = s.
Proof. destruct s. cbn. now intros ->. Qed.

Lemma plain_cons x l : is_break x = false -> x <> 36 -> plain l -> plain (x :: l).
Proof. intros A B C. now constructor. Qed.
Lemma cmd_plain c args : plain args -> plain (cmd_char c :: args).
Proof. destruct c; apply plain_cons; (reflexivity || discriminate). Qed.

Lemma item_lines_ok ports i s : item_ok ports i -> sized ports s -> n_prev s = [] ->
  np_lines s (flat_map np_expand (item_lines i)) = NGo (after_item i s).
Proof.
  intros O S P. destruct i as [l|c args between r|c args r]; cbn [item_lines item_ok] in *.
  - cbn [flat_map]. rewrite app_nil_r, expand_plain by now apply plain_nomark. cbn [np_lines].
    rewrite np_line_noise by now apply plain_nomark. reflexivity.
  - destruct O as (Pa & Fb & A). cbn [flat_map]. rewrite flat_map_app. cbn [flat_map]. rewrite app_nil_r.
    rewrite cmd_text_chars at 1. cbn [app]. rewrite expand_one by (apply plain_nomark; now apply cmd_plain).
    cbn [app np_lines]. change (36 :: 65 :: cmd_char c :: args) with ([36; 65; cmd_char c] ++ args). rewrite <- cmd_text_chars.
    rewrite line_echo by exact P.
    assert (Eb : flat_map np_expand between = between).
    { clear - Fb. induction Fb as [|l b Hl F IH]; [reflexivity|]. cbn [flat_map].
      rewrite expand_plain by now apply plain_nomark. now rewrite IH. }
    rewrite Eb, np_lines_app, np_lines_noise.
    2: { eapply Forall_impl; [|exact Fb]. intros l. apply plain_nomark. }
    destruct (resp_chars ports c r A) as (x & t & E & Pt). rewrite E, expand_one by now apply plain_nomark.
    rewrite <- E. cbn [np_lines]. rewrite (line_resp ports _ c args r A); [|exact S|reflexivity].
    rewrite answered_with. rewrite <- (proj1 (item_after c args between r s)). f_equal.
    apply (with_prev_id (answered c r s)). now rewrite answered_prev.
  - destruct O as (Pa & A). cbn [flat_map]. rewrite app_nil_r.
    destruct (resp_chars ports c r A) as (x & t & E & Pt). rewrite E.
    assert (X : np_expand (cmd_text c ++ args ++ 36 :: 65 :: x :: t) = [cmd_text c ++ args; resp_text r]).
    { unfold np_expand. rewrite cmd_text_chars. cbn [app].
      change (36 :: 65 :: cmd_char c :: args ++ ?y) with ([] ++ 36 :: 65 :: (cmd_char c :: args) ++ y) at 1.
      rewrite marker_app by (intros []).
      change ((cmd_char c :: args) ++ 36 :: 65 :: x :: t) with ((cmd_char c :: args) ++ 36 :: 65 :: (x :: t)).
      rewrite marker_app by (apply plain_nomark; now apply cmd_plain).
      rewrite (marker_none (x :: t)) by now apply plain_nomark. rewrite E. reflexivity. }
    rewrite X. cbn [np_lines]. rewrite line_echo by exact P.
    rewrite (line_resp ports _ c args r A); [|exact S|reflexivity].
    rewrite answered_with. rewrite <- (proj2 (item_after c args [] r s)). f_equal.
    apply (with_prev_id (answered c r s)). now rewrite answered_prev.
Qed.

Lemma report_len {A} (f : bool -> A) bits l : (List.length bits <= List.length l)%nat -> List.length (report f bits l) = List.length l.
Proof. intros L. unfold report. rewrite app_length, map_length, skipn_length. lia. Qed.
Lemma after_item_sized ports i s : item_ok ports i -> sized ports s -> sized ports (after_item i s).
Proof.
  intros O [So Sc]. unfold after_item. destruct (status_of i) as [[|bits|d]|] eqn:E; try (now split).
  assert (L : (List.length bits <= ports)%nat).
  { destruct i as [l|[] args between r|[] args r]; try discriminate; injection E as ->; apply O. }
  split; cbn [n_outlets n_chans]; rewrite report_len by lia; assumption.
Qed.
Lemma after_item_prev i s : n_prev (after_item i s) = n_prev s.
Proof. unfold after_item. now destruct (status_of i) as [[| |]|]. Qed.
Lemma item_nobreak ports i : item_ok ports i -> Forall nobreak (item_lines i).
Proof.
  assert (Pc : forall c l, nobreak l -> nobreak (cmd_text c ++ l)).
  { intros c l N. rewrite cmd_text_chars. destruct c; repeat constructor; exact N. }
  assert (Pr : forall c r, answers ports c r -> nobreak (resp_text r)).
  { intros c r A. destruct (resp_chars ports c r A) as (x & t & -> & Pt). constructor; [reflexivity|].
    constructor; [reflexivity|]. now apply plain_nobreak. }
  intros O. destruct i as [l|c args between r|c args r]; cbn [item_lines item_ok] in *.
  - constructor; [now apply plain_nobreak|constructor].
  - destruct O as (Pa & Fb & A). constructor; [now apply Pc, plain_nobreak|]. apply Forall_app. split.
    + eapply Forall_impl; [|exact Fb]. intros l. apply plain_nobreak.
    + constructor; [now apply (Pr c)|constructor].
  - destruct O as (Pa & A). constructor; [|constructor]. apply Pc. apply Forall_app. split; [now apply plain_nobreak|now apply (Pr c)].
Qed.
Lemma items_ok ports items : forall s, Forall (item_ok ports) items -> sized ports s -> n_prev s = [] ->
  np_text s (on_wire (flat_map item_lines items)) = NGo (fold_left (fun s i => after_item i s) items s).
Proof.
  intros s F S P. unfold np_text. rewrite wire_lines.
  2: { clear - F. induction F as [|i items O F IH]; [constructor|]. cbn [flat_map]. apply Forall_app.
       split; [eapply item_nobreak; exact O|exact IH]. }
  revert s S P. induction F as [|i items O F IH]; intros s S P; [reflexivity|].
  cbn [flat_map]. rewrite flat_map_app, np_lines_app, (item_lines_ok ports i s O S P). cbn [fold_left].
  apply IH; [now apply after_item_sized|now rewrite after_item_prev].
Qed.

(** The connection and its device. *)
Section Loop.
  Context (ports : nat).
  Notation step := (p_step ports).
  Notation run := (p_run ports).

  Definition set_echo (real : nat) (state : bool) : str :=
    join 32 [np_value SetOutlet; dec (Z.of_nat real + 1); if state then lit "1" else lit "0"].
  Definition set_reply (real : nat) (state ok : bool) : str * str :=
    (set_echo real state, np_value (if ok then NpOk else NpFail)).
  Definition status_reply (bits : list bool) : str * str := (np_value OutletStatus, status_text bits).

  Lemma dec_plain n : plain (dec n).
  Proof.
    apply Forall_forall. intros x H. apply dec_chars in H as [->|D]; [split; [reflexivity|discriminate]|].
    unfold is_digit in D. split; [unfold is_break; lia|lia].
  Qed.
  Lemma plain_app a b : plain a -> plain b -> plain (a ++ b).
  Proof. intros A B. apply Forall_app. now split. Qed.

  Lemma deliver_item s c args r : plain args -> answers ports c r -> sized ports s -> n_prev s = [] ->
    np_text s ((cmd_text c ++ args) ++ [13; 10] ++ resp_text r ++ [13; 10]) = NGo (answered c r s).
  Proof.
    intros Pa A S P.
    pose proof (items_ok ports [Pair c args [] r] s ltac:(constructor; [cbn; auto|constructor]) S P) as I.
    cbn [flat_map item_lines app fold_left] in I. unfold on_wire in I. cbn [map List.concat app] in I.
    rewrite <- (proj1 (item_after c args [] r s)) in I. rewrite <- I. f_equal.
    rewrite app_nil_r, <- !app_assoc. reflexivity.
  Qed.
  Lemma deliver_set s real state ok : sized ports s -> n_prev s = [] ->
    np_text s (fst (set_reply real state ok) ++ [13; 10] ++ snd (set_reply real state ok) ++ [13; 10]) = NGo s.
  Proof.
    intros S P.
    assert (E : set_echo real state = cmd_text CmdSet ++ (32 :: dec (Z.of_nat real + 1) ++ 32 :: if state then lit "1" else lit "0")).
    { reflexivity. }
    cbn [fst snd set_reply]. rewrite E.
    replace (np_value (if ok then NpOk else NpFail)) with (resp_text (if ok then ROk else RFail [])) by now destruct ok.
    rewrite deliver_item; try assumption.
    - now destruct ok.
    - apply plain_cons; [reflexivity|discriminate|]. apply plain_app; [apply dec_plain|].
      apply plain_cons; [reflexivity|discriminate|]. destruct state; (apply plain_cons; [reflexivity|discriminate|constructor]).
    - destruct ok; [discriminate|]. split; [constructor|now left].
  Qed.
  Lemma deliver_status s bits : sized ports s -> n_prev s = [] -> List.length bits = ports ->
    np_text s (fst (status_reply bits) ++ [13; 10] ++ snd (status_reply bits) ++ [13; 10]) =
      NGo (mkNp [] (map Some bits) bits (S (n_sem s))).
  Proof.
    intros S P L. cbn [fst snd status_reply]. change (np_value OutletStatus) with (cmd_text CmdStatus ++ []).
    change (status_text bits) with (resp_text (RBits bits)). rewrite deliver_item; try assumption.
    - destruct S as [So Sc]. unfold answered, report. rewrite P, !skipn_all2 by lia. now rewrite !app_nil_r, map_id.
    - constructor.
    - cbn. lia.
  Qed.

  Definition shown (s0 : np) (p : pdu) : Prop :=
    match last_status (p_log p) with
    | Some bits => n_outlets (p_np p) = map Some bits /\ n_chans (p_np p) = bits
    | None => n_outlets (p_np p) = n_outlets s0 /\ n_chans (p_np p) = n_chans s0
    end.

  (** How far the exchange of the call that holds the lock got. *)
  Inductive held (s0 : np) (p : pdu) (k real : nat) (b : bool) : Prop :=
  | Held1 : p_cmds p = [DcSet k real b; DcStatus k] -> p_replies p = [] -> n_sem (p_np p) = 0%nat -> shown s0 p -> held s0 p k real b
  | Held2 l1 l2 ok : p_log p = l1 ++ DvSet k real b ok :: l2 -> Forall is_panel l2 ->
      (ok = true -> l2 = [] -> nth_error (p_dev p) real = Some b) ->
      p_cmds p = [DcStatus k] -> (p_replies p = [] \/ p_replies p = [set_reply real b ok]) ->
      n_sem (p_np p) = 0%nat -> shown s0 p -> held s0 p k real b
  | Held3 l1 l2 l3 ok bits : p_log p = l1 ++ DvSet k real b ok :: l2 ++ DvStatus k bits :: l3 ->
      Forall is_panel l2 -> Forall is_panel l3 -> (ok = true -> l2 = [] -> nth_error bits real = Some b) ->
      List.length bits = ports -> p_cmds p = [] ->
      ((p_replies p = [set_reply real b ok; status_reply bits] \/ p_replies p = [status_reply bits]) /\ n_sem (p_np p) = 0%nat \/
       p_replies p = [] /\ n_sem (p_np p) = 1%nat /\ n_outlets (p_np p) = map Some bits /\ n_chans (p_np p) = bits) ->
      held s0 p k real b.

  Definition not_waiting (c : call) : Prop := match c with CWait _ _ => False | _ => True end.

  (** What a finished call of an outlet that exists returned. *)
  Definition verdict (s0 : np) (d0 : list bool) (ops : list pop) (log : list dev) (k : nat) (idx : Z) (state r : bool) : Prop :=
    (r = true /\ exists ops1 ops2, ops = ops1 ++ PCall idx state :: ops2 /\ List.length (calls_of ops1) = k /\
       nth_error (n_outlets (p_np (run (np_pdu s0 d0) ops1))) (Z.to_nat (idx - 1)) = Some (Some state)) \/
    (exists l1 l2 l3 ok bits v,
       log = l1 ++ DvSet k (Z.to_nat (idx - 1)) state ok :: l2 ++ DvStatus k bits :: l3 /\ Forall is_panel l2 /\
       nth_error bits (Z.to_nat (idx - 1)) = Some v /\ r = Bool.eqb v state /\ (ok = true -> l2 = [] -> r = true)).

  Definition call_ok (s0 : np) (d0 : list bool) (ops : list pop) (log : list dev) (k : nat) (idx : Z) (state : bool) (c : call) : Prop :=
    match c with
    | CLock real b | CWait real b => 1 <= idx <= Z.of_nat ports /\ real = Z.to_nat (idx - 1) /\ b = state
    | CDone (Some r) => 1 <= idx <= Z.of_nat ports -> verdict s0 d0 ops log k idx state r
    | CDone None => ~ 1 <= idx <= Z.of_nat ports
    end.

  Record pinv (s0 : np) (d0 : list bool) (ops : list pop) (p : pdu) : Prop := {
    i_prev : n_prev (p_np p) = [];
    i_size : sized ports (p_np p);
    i_dev : List.length (p_dev p) = ports;
    i_len : List.length (p_calls p) = List.length (calls_of ops);
    i_calls : forall k idx state c, nth_error (calls_of ops) k = Some (idx, state) -> nth_error (p_calls p) k = Some c ->
        call_ok s0 d0 ops (p_log p) k idx state c;
    i_lock : match p_lock p with
             | None => p_cmds p = [] /\ p_replies p = [] /\ n_sem (p_np p) = 0%nat /\ shown s0 p /\ Forall not_waiting (p_calls p)
             | Some k => exists real b, nth_error (p_calls p) k = Some (CWait real b) /\ (real < ports)%nat /\ held s0 p k real b /\
                 forall j c, j <> k -> nth_error (p_calls p) j = Some c -> not_waiting c
             end }.

  Lemma calls_of_app a b : calls_of (a ++ b) = calls_of a ++ calls_of b.
  Proof. induction a as [|[] a IH]; cbn [app calls_of]; try exact IH; try reflexivity. now rewrite IH. Qed.
  Lemma run_snoc p ops o : run p (ops ++ [o]) = step (run p ops) o.
  Proof. unfold p_run. now rewrite fold_left_app. Qed.

  (** Claims about calls survive later steps. *)
  Lemma verdict_more s0 d0 ops log k idx state r o l : verdict s0 d0 ops log k idx state r ->
    verdict s0 d0 (ops ++ [o]) (log ++ l) k idx state r.
  Proof.
    intros [[R (o1 & o2 & -> & L & N)]|(l1 & l2 & l3 & ok & bits & v & -> & F & N & R & K)].
    - left. split; [exact R|]. exists o1, (o2 ++ [o]). rewrite <- app_assoc. now repeat split.
    - right. exists l1, l2, (l3 ++ l), ok, bits, v. split; [now rewrite <- !app_assoc; cbn [app]; rewrite <- app_assoc|now repeat split].
  Qed.
  Lemma call_ok_more s0 d0 ops log k idx state c o l : call_ok s0 d0 ops log k idx state c ->
    call_ok s0 d0 (ops ++ [o]) (log ++ l) k idx state c.
  Proof. destruct c as [real b|real b|[r|]]; cbn [call_ok]; auto. intros H R. now apply verdict_more, H. Qed.

  Lemma last_status_app a b : last_status (a ++ b) =
    fold_left (fun acc d => match d with DvStatus _ bits => Some bits | _ => acc end) b (last_status a).
  Proof. apply fold_left_app. Qed.
  Lemma panels_status b : Forall is_panel b -> forall acc,
    fold_left (fun acc d => match d with DvStatus _ bits => Some bits | _ => acc end) b acc = acc.
  Proof. induction 1 as [|d b H F IH]; intros acc; [reflexivity|]. destruct d; try easy. cbn [fold_left]. apply IH. Qed.

  Lemma nth_snoc {A} (l : list A) x k y : nth_error (l ++ [x]) k = Some y ->
    nth_error l k = Some y \/ k = List.length l /\ y = x.
  Proof.
    intros H. destruct (Nat.lt_ge_cases k (List.length l)) as [L|L].
    - left. now rewrite nth_error_app1 in H.
    - right. rewrite nth_error_app2 in H by exact L. destruct (k - List.length l)%nat as [|n] eqn:E; cbn in H.
      + injection H as <-. split; [lia|reflexivity].
      + now destruct n.
  Qed.
  Lemma upd_same_call {A} (l : list A) k x j y : nth_error (upd k x l) j = Some y ->
    (j = k /\ y = x /\ (k < List.length l)%nat) \/ (j <> k /\ nth_error l j = Some y).
  Proof.
    intros H. destruct (Nat.eq_dec j k) as [->|N].
    - left. assert (L : (k < List.length l)%nat).
      { rewrite <- (upd_length k x l). apply nth_error_Some. congruence. }
      rewrite upd_nth in H by exact L. injection H as <-. now repeat split.
    - right. split; [exact N|]. now rewrite upd_nth_ne in H by auto.
  Qed.

  Lemma pinv_init s0 d0 : n_prev s0 = [] -> sized ports s0 -> n_sem s0 = 0%nat -> List.length d0 = ports ->
    pinv s0 d0 [] (np_pdu s0 d0).
  Proof.
    intros P S Z0 L. constructor; cbn; try assumption; try reflexivity.
    - intros [|k] idx state c H; discriminate.
    - repeat split; try assumption. constructor.
  Qed.

  Lemma pinv_step s0 d0 ops p o : pinv s0 d0 ops p -> p = run (np_pdu s0 d0) ops -> no_timeout o -> panel_ok ports o ->
    pinv s0 d0 (ops ++ [o]) (step p o).
  Proof.
    intros [Ip Is Id Il Ic Ik] Ep No Po.
    destruct o as [idx state|k|ok|bits| |k|k].
    - (* a call *)
      assert (Base : forall c p', p_calls p' = p_calls p ++ [c] -> p_np p' = p_np p -> p_lock p' = p_lock p -> p_cmds p' = p_cmds p ->
        p_replies p' = p_replies p -> p_dev p' = p_dev p -> p_log p' = p_log p -> not_waiting c ->
        call_ok s0 d0 (ops ++ [PCall idx state]) (p_log p) (List.length (calls_of ops)) idx state c ->
        pinv s0 d0 (ops ++ [PCall idx state]) p').
      { intros c p' E1 E2 E3 E4 E5 E6 E7 Nw Ok. constructor; rewrite ?E1, ?E2, ?E6; try assumption.
        - rewrite calls_of_app, !app_length. cbn. lia.
        - intros j i2 st c2 H1 H2. rewrite calls_of_app in H1. cbn [calls_of] in H1. rewrite E7.
          apply nth_snoc in H1. apply nth_snoc in H2.
          destruct H1 as [H1|[J1 Q1]].
          + destruct H2 as [H2|[J2 Q2]].
            * rewrite <- (app_nil_r (p_log p)). now apply call_ok_more, Ic.
            * exfalso. assert (j < List.length (calls_of ops))%nat by (apply nth_error_Some; congruence). lia.
          + injection Q1 as -> ->. destruct H2 as [H2|[J2 ->]].
            * exfalso. assert (j < List.length (p_calls p))%nat by (apply nth_error_Some; congruence). lia.
            * rewrite J1. exact Ok.
        - rewrite E3. destruct (p_lock p) as [h|].
          + destruct Ik as (real & b & Hk & Hr & He & Ho). exists real, b. split; [|split; [exact Hr|split]].
            * rewrite nth_error_app1; [exact Hk|]. apply nth_error_Some. congruence.
            * destruct He as [c1 c2 c3 c4|l1 l2 okk c1 c2 c3 c4 c5 c6 c7|l1 l2 l3 okk bts c1 c2 c3 c4 c5 c6 c7];
                [apply Held1|eapply Held2|eapply Held3]; unfold shown in *; rewrite ?E2, ?E4, ?E5, ?E6, ?E7; eassumption.
            * intros j c2 Nj Hj. apply nth_snoc in Hj as [Hj|[_ ->]]; [now apply (Ho j)|exact Nw].
          + destruct Ik as (A1 & A2 & A3 & A4 & A5). unfold shown in *. rewrite E2, E4, E5, E7. repeat split; try assumption.
            apply Forall_app. split; [exact A5|]. now constructor. }
      cbn [p_step]. destruct (np_begin ports idx state (p_np p)) as [| |real|] eqn:B.
      + apply (Base (CDone (Some false))); try reflexivity; try exact I. cbn [call_ok]. intros R. exfalso.
        unfold np_begin in B. destruct ((0 <=? idx - 1) && (idx - 1 <=? Z.of_nat ports)) eqn:E; [|lia].
        destruct (nth_error _ _) as [[x|]|]; [destruct (Bool.eqb x state)|..]; discriminate.
      + apply (Base (CDone (Some true))); try reflexivity; try exact I. cbn [call_ok]. intros R. left. split; [reflexivity|].
        exists ops, []. split; [reflexivity|]. split; [reflexivity|]. rewrite <- Ep. unfold np_begin in B.
        destruct ((0 <=? idx - 1) && (idx - 1 <=? Z.of_nat ports)); [|discriminate].
        destruct (nth_error _ _) as [[x|]|]; try discriminate. destruct (Bool.eqb x state) eqn:E; [|discriminate].
        apply Bool.eqb_prop in E. now subst x.
      + apply (Base (CLock real state)); try reflexivity; try exact I. cbn [call_ok]. unfold np_begin in B.
        destruct ((0 <=? idx - 1) && (idx - 1 <=? Z.of_nat ports)) eqn:E; [|discriminate].
        destruct (nth_error _ _) as [x|] eqn:N; [|discriminate].
        assert (L : (Z.to_nat (idx - 1) < ports)%nat).
        { rewrite <- (proj1 Is). apply nth_error_Some. congruence. }
        destruct x as [x|]; [destruct (Bool.eqb x state); [discriminate|]|]; injection B as <-; repeat split; lia.
      + apply (Base (CDone None)); try reflexivity; try exact I. cbn [call_ok]. intros R. unfold np_begin in B.
        destruct ((0 <=? idx - 1) && (idx - 1 <=? Z.of_nat ports)) eqn:E; [|lia].
        destruct (nth_error _ _) as [[x|]|] eqn:N; [destruct (Bool.eqb x state); discriminate|discriminate|].
        apply nth_error_None in N. rewrite (proj1 Is) in N. lia.
    - (* the lock *)
      assert (Keep : pinv s0 d0 (ops ++ [PLock k]) p).
      { constructor; try assumption; rewrite calls_of_app; cbn [calls_of]; rewrite app_nil_r; [exact Il|].
        intros j i2 st c H1 H2. rewrite <- (app_nil_r (p_log p)). now apply call_ok_more, Ic. }
      cbn [p_step]. destruct (p_lock p) as [h|] eqn:Lk; [exact Keep|].
      destruct (nth_error (p_calls p) k) as [[real b|real b|r]|] eqn:Nk; try exact Keep.
      destruct Ik as (A1 & A2 & A3 & A4 & A5).
      assert (Lt : (k < List.length (p_calls p))%nat) by (apply nth_error_Some; congruence).
      assert (Kc : exists idx st, nth_error (calls_of ops) k = Some (idx, st)).
      { destruct (nth_error (calls_of ops) k) as [[idx st]|] eqn:E; [eauto|]. apply nth_error_None in E. lia. }
      destruct Kc as (idx & st & Kc). pose proof (Ic k idx st _ Kc Nk) as Okk. cbn [call_ok] in Okk. destruct Okk as (Rg & Er & Eb).
      constructor; cbn [p_np p_dev p_calls p_log p_lock p_cmds p_replies]; try assumption.
      + rewrite upd_length, calls_of_app. cbn [calls_of]. now rewrite app_nil_r.
      + intros j i2 s2 c H1 H2. rewrite calls_of_app in H1. cbn [calls_of] in H1. rewrite app_nil_r in H1.
        apply upd_same_call in H2 as [(-> & -> & _)|(Nj & H2)].
        * rewrite Kc in H1. injection H1 as <- <-. cbn [call_ok]. now repeat split.
        * rewrite <- (app_nil_r (p_log p)). now apply call_ok_more, Ic.
      + exists real, b. split; [now apply upd_nth|]. split; [subst real; lia|]. split.
        * apply Held1; cbn [p_cmds p_replies p_np]; try assumption; rewrite ?A1; reflexivity.
        * intros j c Nj Hj. rewrite upd_nth_ne in Hj by auto. rewrite Forall_forall in A5. apply A5. eapply nth_error_In. exact Hj.
    - (* the device *)
      assert (Keep : pinv s0 d0 (ops ++ [PDevice ok]) p).
      { constructor; try assumption; rewrite calls_of_app; cbn [calls_of]; rewrite app_nil_r; [exact Il|].
        intros j i2 st c H1 H2. rewrite <- (app_nil_r (p_log p)). now apply call_ok_more, Ic. }
      cbn [p_step]. destruct (p_cmds p) as [|[k real st|k] cmds] eqn:Cm; [exact Keep| |].
      + destruct (p_lock p) as [h|] eqn:Lk; [|destruct Ik as (A1 & _); discriminate].
        destruct Ik as (r2 & b & Hk & Hr & He & Ho).
        destruct He as [c1 c2 c3 c4|l1 l2 okk c1 c2 c3 c4 c5 c6 c7|l1 l2 l3 okk bts c1 c2 c3 c4 c5 c6 c7];
          [|rewrite c4 in Cm; discriminate|rewrite c6 in Cm; discriminate].
        rewrite c1 in Cm. injection Cm as <- <- <- <-.
        constructor; cbn [p_np p_dev p_calls p_log p_lock p_cmds p_replies]; try assumption.
        * destruct ok; [now rewrite upd_length|exact Id].
        * rewrite calls_of_app. cbn [calls_of]. now rewrite app_nil_r.
        * intros j i2 s2 c H1 H2. rewrite calls_of_app in H1. cbn [calls_of] in H1. rewrite app_nil_r in H1.
          now apply call_ok_more, Ic.
        * exists r2, b. split; [exact Hk|]. split; [exact Hr|]. split; [|exact Ho].
          eapply (Held2 _ _ _ _ _ (p_log p) [] ok); cbn [p_np p_dev p_calls p_log p_lock p_cmds p_replies]; try assumption.
          -- reflexivity.
          -- constructor.
          -- intros -> _. apply upd_nth. lia.
          -- reflexivity.
          -- right. rewrite c2. reflexivity.
          -- unfold shown in *. cbn [p_log p_np]. rewrite last_status_app. cbn [fold_left]. exact c4.
      + destruct (p_lock p) as [h|] eqn:Lk; [|destruct Ik as (A1 & _); discriminate].
        destruct Ik as (r2 & b & Hk & Hr & He & Ho).
        destruct He as [c1 c2 c3 c4|l1 l2 okk c1 c2 c3 c4 c5 c6 c7|l1 l2 l3 okk bts c1 c2 c3 c4 c5 c6 c7];
          [rewrite c1 in Cm; discriminate| |rewrite c6 in Cm; discriminate].
        rewrite c4 in Cm. injection Cm as <- <-.
        constructor; cbn [p_np p_dev p_calls p_log p_lock p_cmds p_replies]; try assumption.
        * rewrite calls_of_app. cbn [calls_of]. now rewrite app_nil_r.
        * intros j i2 s2 c H1 H2. rewrite calls_of_app in H1. cbn [calls_of] in H1. rewrite app_nil_r in H1.
          now apply call_ok_more, Ic.
        * exists r2, b. split; [exact Hk|]. split; [exact Hr|]. split; [|exact Ho].
          eapply (Held3 _ _ _ _ _ l1 l2 [] okk (p_dev p)); cbn [p_np p_dev p_calls p_log p_lock p_cmds p_replies]; try assumption.
          -- rewrite c1, <- app_assoc. reflexivity.
          -- constructor.
          -- reflexivity.
          -- left. split; [|exact c6]. destruct c5 as [->| ->]; [now right|now left].
    - (* the panel *)
      cbn [p_step]. cbn [panel_ok] in Po.
      constructor; cbn [p_np p_dev p_calls p_log p_lock p_cmds p_replies]; try assumption.
      + rewrite calls_of_app. cbn [calls_of]. now rewrite app_nil_r.
      + intros j i2 s2 c H1 H2. rewrite calls_of_app in H1. cbn [calls_of] in H1. rewrite app_nil_r in H1. now apply call_ok_more, Ic.
      + destruct (p_lock p) as [h|].
        * destruct Ik as (r2 & b & Hk & Hr & He & Ho). exists r2, b. split; [exact Hk|]. split; [exact Hr|]. split; [|exact Ho].
          destruct He as [c1 c2 c3 c4|l1 l2 okk c1 c2 c3 c4 c5 c6 c7|l1 l2 l3 okk bts c1 c2 c3 c4 c5 c6 c7].
          -- apply Held1; cbn [p_np p_dev p_calls p_log p_lock p_cmds p_replies]; try assumption.
             unfold shown in *. cbn [p_log p_np]. rewrite last_status_app. exact c4.
          -- eapply (Held2 _ _ _ _ _ l1 (l2 ++ [DvPanel bits]) okk); cbn [p_np p_dev p_calls p_log p_lock p_cmds p_replies]; try assumption.
             ++ rewrite c1, <- app_assoc. reflexivity.
             ++ apply Forall_app. split; [exact c2|]. constructor; [exact I|constructor].
             ++ intros _ H. destruct l2; discriminate.
             ++ unfold shown in *. cbn [p_log p_np]. rewrite last_status_app. exact c7.
          -- eapply (Held3 _ _ _ _ _ l1 l2 (l3 ++ [DvPanel bits]) okk bts); cbn [p_np p_dev p_calls p_log p_lock p_cmds p_replies]; try assumption.
             ++ rewrite c1, <- !app_assoc. cbn [app]. now rewrite <- app_assoc.
             ++ apply Forall_app. split; [exact c3|]. constructor; [exact I|constructor].
        * destruct Ik as (A1 & A2 & A3 & A4 & A5). repeat split; try assumption.
          unfold shown in *. cbn [p_log p_np]. rewrite last_status_app. exact A4.
    - (* delivery *)
      assert (Keep : pinv s0 d0 (ops ++ [PDeliver]) p).
      { constructor; try assumption; rewrite calls_of_app; cbn [calls_of]; rewrite app_nil_r; [exact Il|].
        intros j i2 st c H1 H2. rewrite <- (app_nil_r (p_log p)). now apply call_ok_more, Ic. }
      cbn [p_step]. destruct (p_replies p) as [|[echo resp] rs] eqn:Rp; [exact Keep|].
      destruct (p_lock p) as [h|] eqn:Lk; [|destruct Ik as (_ & A2 & _); discriminate].
      destruct Ik as (r2 & b & Hk & Hr & He & Ho).
      assert (Common : forall s', n_prev s' = [] -> sized ports s' -> held s0 (mkPdu s' (p_calls p) (Some h) (p_cmds p) rs (p_dev p) (p_log p) (p_err p)) h r2 b ->
         pinv s0 d0 (ops ++ [PDeliver]) (mkPdu s' (p_calls p) (Some h) (p_cmds p) rs (p_dev p) (p_log p) (p_err p))).
      { intros s' Ps Ss Hs. constructor; cbn [p_np p_dev p_calls p_log p_lock p_cmds p_replies]; try assumption.
        - rewrite calls_of_app. cbn [calls_of]. now rewrite app_nil_r.
        - intros j i2 s2 c H1 H2. rewrite calls_of_app in H1. cbn [calls_of] in H1. rewrite app_nil_r in H1.
          rewrite <- (app_nil_r (p_log p)). now apply call_ok_more, Ic.
        - exists r2, b. now repeat split. }
      destruct He as [c1 c2 c3 c4|l1 l2 okk c1 c2 c3 c4 c5 c6 c7|l1 l2 l3 okk bts c1 c2 c3 c4 c5 c6 c7].
      + rewrite c2 in Rp. discriminate.
      + destruct c5 as [c5|c5]; rewrite c5 in Rp; [discriminate|].
        assert (X : (echo, resp) = set_reply r2 b okk /\ rs = []) by (injection Rp; intros; subst; now split).
        destruct X as [X ->]. replace echo with (fst (set_reply r2 b okk)) by now rewrite <- X.
        replace resp with (snd (set_reply r2 b okk)) by now rewrite <- X.
        rewrite deliver_set by assumption. apply Common; try assumption.
        eapply Held2; cbn [p_np p_dev p_calls p_log p_lock p_cmds p_replies]; eauto.
      + destruct c7 as [[[c7|c7] c8]|[c7 _]]; rewrite c7 in Rp; [| |discriminate].
        * assert (X : (echo, resp) = set_reply r2 b okk /\ rs = [status_reply bts]) by (injection Rp; intros; subst; now split).
          destruct X as [X ->]. replace echo with (fst (set_reply r2 b okk)) by now rewrite <- X.
          replace resp with (snd (set_reply r2 b okk)) by now rewrite <- X.
          rewrite deliver_set by assumption. apply Common; try assumption.
          eapply Held3; cbn [p_np p_dev p_calls p_log p_lock p_cmds p_replies]; try eassumption. left. split; [now right|exact c8].
        * assert (X : (echo, resp) = status_reply bts /\ rs = []) by (injection Rp; intros; subst; now split).
          destruct X as [X ->]. replace echo with (fst (status_reply bts)) by now rewrite <- X.
          replace resp with (snd (status_reply bts)) by now rewrite <- X.
          rewrite deliver_status by assumption. apply Common.
          -- reflexivity.
          -- split; cbn [n_outlets n_chans]; rewrite ?map_length; assumption.
          -- eapply Held3; cbn [p_np p_dev p_calls p_log p_lock p_cmds p_replies]; try eassumption. right.
             cbn [n_sem n_outlets n_chans]. rewrite c8. now repeat split.
    - (* a call goes on *)
      assert (Keep : pinv s0 d0 (ops ++ [PResume k]) p).
      { constructor; try assumption; rewrite calls_of_app; cbn [calls_of]; rewrite app_nil_r; [exact Il|].
        intros j i2 st c H1 H2. rewrite <- (app_nil_r (p_log p)). now apply call_ok_more, Ic. }
      cbn [p_step]. destruct (n_sem (p_np p)) as [|n] eqn:Sm; [exact Keep|].
      destruct (nth_error (p_calls p) k) as [[real b|real b|r]|] eqn:Nk; try exact Keep.
      destruct (p_lock p) as [h|] eqn:Lk; [|destruct Ik as (_ & _ & A3 & _); congruence].
      destruct Ik as (r2 & b2 & Hk & Hr & He & Ho).
      assert (Eh : k = h).
      { destruct (Nat.eq_dec k h) as [E|E]; [exact E|]. destruct (Ho k _ E Nk). }
      subst h. rewrite Nk in Hk. injection Hk as <- <-.
      assert (Lt : (k < List.length (p_calls p))%nat) by (apply nth_error_Some; congruence).
      assert (Kc : exists idx st, nth_error (calls_of ops) k = Some (idx, st)).
      { destruct (nth_error (calls_of ops) k) as [[idx st]|] eqn:E; [eauto|]. apply nth_error_None in E. lia. }
      destruct Kc as (idx & st & Kc). pose proof (Ic k idx st _ Kc Nk) as Okk. cbn [call_ok] in Okk. destruct Okk as (Rg & Er & Eb).
      destruct He as [c1 c2 c3 c4|l1 l2 okk c1 c2 c3 c4 c5 c6 c7|l1 l2 l3 okk bts c1 c2 c3 c4 c5 c6 c7]; try congruence.
      destruct c7 as [[_ c8]|(c7 & c8 & c9 & c10)]; [congruence|].
      assert (n = 0%nat) by congruence. subst n.
      constructor; cbn [p_np p_dev p_calls p_log p_lock p_cmds p_replies n_prev n_outlets n_chans n_sem]; try assumption.
      + rewrite upd_length, calls_of_app. cbn [calls_of]. now rewrite app_nil_r.
      + intros j i2 s2 c H1 H2. rewrite calls_of_app in H1. cbn [calls_of] in H1. rewrite app_nil_r in H1.
        apply upd_same_call in H2 as [(-> & -> & _)|(Nj & H2)].
        * rewrite Kc in H1. injection H1 as <- <-. cbn [call_ok]. intros _. right.
          destruct (nth_error bts real) as [v|] eqn:Nv; [|apply nth_error_None in Nv; lia].
          exists l1, l2, l3, okk, bts, v. rewrite <- Er. subst b. split; [exact c1|]. split; [exact c2|]. split; [exact Nv|].
          assert (Rv : match nth_error (n_outlets (p_np p)) real with Some (Some b) => Bool.eqb b st | _ => false end = Bool.eqb v st).
          { rewrite c9. rewrite (map_nth_error Some real bts Nv). reflexivity. }
          split; [exact Rv|]. intros K1 K2. rewrite Rv. specialize (c4 K1 K2). injection c4 as ->. apply Bool.eqb_reflx.
        * rewrite <- (app_nil_r (p_log p)). now apply call_ok_more, Ic.
      + split; [exact c6|]. split; [exact c7|]. split; [reflexivity|]. split.
        * unfold shown. cbn [p_log p_np n_outlets n_chans]. rewrite c1.
          change (DvSet k real b okk :: l2 ++ DvStatus k bts :: l3) with ((DvSet k real b okk :: l2) ++ DvStatus k bts :: l3).
          rewrite app_assoc, last_status_app. cbn [fold_left]. rewrite (panels_status l3 c3). now split.
        * apply Forall_forall. intros c Hc. apply In_nth_error in Hc as [j Hj].
          apply upd_same_call in Hj as [(_ & -> & _)|(Nj & Hj)]; [exact I|now apply (Ho j)].
    - destruct No.
  Qed.

  Lemma pinv_run s0 d0 ops : n_prev s0 = [] -> sized ports s0 -> n_sem s0 = 0%nat -> List.length d0 = ports ->
    Forall no_timeout ops -> Forall (panel_ok ports) ops -> pinv s0 d0 ops (run (np_pdu s0 d0) ops).
  Proof.
    intros P S Z0 L N O. induction ops as [|o ops IH] using rev_ind; [now apply pinv_init|].
    apply Forall_app in N as [N1 N2]. apply Forall_app in O as [O1 O2]. rewrite run_snoc.
    apply pinv_step; [now apply IH|reflexivity|now inversion N2|now inversion O2].
  Qed.
End Loop.
