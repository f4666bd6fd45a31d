(** C80: a command line means what its words say.  C81: a remote command arrives
    at the peer as it was typed. *)
From Coq Require Import Ascii Lia ZifyBool ZifyNat.
From Verif Require Import Base BaseLemmas EnvModel EnvProps CmdLineModel CmdLineSpec CmdLineProofs CmdLineLoop CmdLineExact CmdLineMore.

(** An approximation of the words that are negative numbers, and white space. *)
Definition ex_neg (w : string) : bool :=
  match w with
  | String "-" (String c _) => ((48 <=? Z.of_nat (nat_of_ascii c)) && (Z.of_nat (nat_of_ascii c) <=? 57)) || Ascii.eqb c "."
  | _ => false
  end.
Definition ex_space (c : ascii) : bool := Ascii.eqb c " " || Ascii.eqb c "009".
Example ex_neg_ok : neg_ok ex_neg.
Proof.
  intros w H. destruct w as [|c w]; [discriminate H|].
  assert (c = "-"%char) as -> by (destruct c as [[] [] [] [] [] [] [] []]; try reflexivity; discriminate H).
  destruct w as [|d w]; [discriminate H|]. exists d, w. split; [reflexivity|]. intros N. cbn [In] in N.
  repeat (destruct N as [<-|N]; [discriminate H|]). exact N.
Qed.
Example ex_space_ok : space_ok ex_space.
Proof.
  split; [reflexivity|]. repeat constructor; try discriminate; intros c H; cbn [list_ascii_of_string In] in H;
    repeat (destruct H as [<-|H]; [reflexivity|]); destruct H.
Qed.

(** C80.  A line without the separator "--" is accepted exactly when it consists
    of a command, a channel and further words, with options at the places where
    they may stand; and then it means what the words say. *)
Theorem C80_exact : forall neg defer strip_all ws a e, neg_ok neg -> ~ In "--"%string ws ->
  (parse neg defer strip_all ws = Some (a, e) <-> line_says neg defer ws a e).
Proof. intros. apply parse_exact; assumption. Qed.
Print Assumptions C80_exact.

(** A line with options of every kind, and what it says. *)
Definition ex_line : list string := ["-fr"; "--en=a"; "set"; "-eb"; "level"; "-5"; "x"; "--f"; "--env"; "c"]%string.
Example ex_parse : parse ex_neg true false ex_line = Some (mkArgs VSet true true "level" ["-5"; "x"], "c")%string /\ ~ In "--"%string ex_line.
Proof. split; [vm_compute; reflexivity|]. cbn [ex_line In]. intuition discriminate. Qed.

(** C80.  After "--" every word is taken as it is, also if it looks like an option:
    the separator may stand before the channel, or before or among the further
    words. *)
Theorem C80_separator : forall neg defer strip_all v o1 o2 s1 s2 c extra T a e, neg_ok neg ->
  options neg o1 s1 -> options neg o2 s2 -> says (s1 ++ s2) v c extra a e ->
  (T = "--"%string :: c :: extra /\ (strip_all = true -> ~ In "--"%string (c :: extra))) \/
  (exists e1 e2, T = [c] ++ e1 ++ "--"%string :: e2 /\ extra = e1 ++ e2 /\ arg_word neg c /\ Forall (arg_word neg) e1 /\
     (strip_all = true -> ~ In "--"%string e2)) ->
  parse neg defer strip_all (o1 ++ [verb_name v] ++ o2 ++ T) = Some (a, e).
Proof.
  intros * NOK O1 O2 S [[-> F]|(e1 & e2 & -> & -> & A & F1 & F2)].
  - eapply parse_tail; [exact NOK|exact O1|exact O2| | |exact S].
    + apply tail_sep_chan. intros E H. apply (F E). right. exact H.
    + intros E ->. apply (F E). left. reflexivity.
  - eapply parse_tail; [exact NOK|exact O1|exact O2| | |exact S].
    + apply tail_sep_extra; assumption.
    + intros _. apply (arg_not_sep neg NOK _ A).
Qed.
Print Assumptions C80_separator.
Example ex_separator : 
  parse ex_neg true false ["set"; "-f"; "--"; "-r"; "--env"; "--"]%string = Some (mkArgs VSet true false "-r" ["--env"; "--"], "default")%string /\
  parse ex_neg false true ["set"; "level"; "1"; "--"; "-r"]%string = Some (mkArgs VSet false false "level" ["1"; "-r"], "default")%string.
Proof. split; vm_compute; reflexivity. Qed.

(** C80.  Whatever the line: the command, the channel and the further words are
    words of the line, in its order. *)
Theorem C80_in_order : forall neg defer strip_all ws a e, parse neg defer strip_all ws = Some (a, e) ->
  in_order (verb_name (a_verb a) :: a_chan a :: a_extra a) ws.
Proof. intros *. apply parse_in_order. Qed.
Print Assumptions C80_in_order.

(** C80.  The words of a line are non-empty and free of separators, and words
    written with a space between them are read back. *)
Theorem C80_words : forall space,
  (forall s, Forall (word space) (words space s)) /\
  (forall ws, Forall (word space) ws -> space " "%char = true -> words space (String.concat " " ws) = ws).
Proof. intros space. split; [apply words_words|intros ws F S; apply words_join; assumption]. Qed.
Print Assumptions C80_words.
Example ex_words : words ex_space "  set   level 7 "%string = ["set"; "level"; "7"]%string.
Proof. reflexivity. Qed.

(** C80.  A line without "--" does to an environment what the arguments it says do;
    a line that says nothing is refused, changes nothing and calls no hook. *)
Theorem C80_command : forall neg space defer strip_all int_of float_of bool_of fround hooks env line, neg_ok neg ->
  ~ In "--"%string (words space line) ->
  (forall a e, line_says neg defer (words space line) a e ->
     command neg space defer strip_all int_of float_of bool_of fround hooks env line =
     handle int_of float_of bool_of fround hooks env a) /\
  ((forall a e, ~ line_says neg defer (words space line) a e) ->
     command neg space defer strip_all int_of float_of bool_of fround hooks env line = (env, CFailure, [])).
Proof.
  intros * NOK N. unfold command. split.
  - intros a e H. apply (parse_exact neg NOK defer strip_all _ _ _ N) in H. rewrite H. reflexivity.
  - intros H. destruct (parse neg defer strip_all (words space line)) as [[a e]|] eqn:P; [|reflexivity].
    exfalso. apply (H a e). apply (parse_exact neg NOK defer strip_all); assumption.
Qed.
Print Assumptions C80_command.

Definition xcommand := command ex_neg ex_space true false xint (fun _ => None) xbool (fun _ f => f).
Example ex_command :
  let '(e, r, calls) := xcommand [0%nat] demo "set level -f 7"%string in
  e_value e (inl "level"%string) true true = Ok (CNum (NInt 7)) /\ r = CSuccess /\
  xcommand [0%nat] demo "set level -q 7"%string = (demo, CFailure, []).
Proof. vm_compute. repeat split. Qed.

(** C80.  Asking for help does not keep the command from being run: a help option
    at the end of a line changes nothing about what the line does. *)
Theorem C80_help_ignored : forall neg defer strip_all ws w a e, neg_ok neg -> ~ In "--"%string ws ->
  option_words neg [w] [SHelp] ->
  parse neg defer strip_all ws = Some (a, e) -> parse neg defer strip_all (ws ++ [w]) = Some (a, e).
Proof.
  intros * NOK N W H.
  assert (w <> "--"%string) as Nw.
  { intros ->. destruct (option_complete neg NOK _ _ [] W) as (o & l & sep & x & ts & C & _). discriminate C. }
  apply (parse_exact neg NOK defer strip_all) in H; [|exact N].
  apply (parse_exact neg NOK defer strip_all).
  - intros X. apply in_app_or in X. destruct X as [X|[X|[]]]; [apply (N X)|apply Nw; congruence].
  - destruct H as (v & c & extra & o1 & o2 & o3 & o4 & s1 & s2 & s3 & s4 & -> & O1 & O2 & O3 & O4 & A & F & D & S).
    exists v, c, extra, o1, o2, o3, (o4 ++ [w]), s1, s2, s3, (s4 ++ [SHelp]).
    split; [rewrite <- !app_assoc; reflexivity|]. repeat (split; [assumption|]). split.
    + apply options_app; [exact O4|]. apply (os_cons neg [w] [SHelp] [] []); [exact W|constructor].
    + repeat (split; [assumption|]). destruct S as (S1 & S2 & S3 & S4 & S5 & S6).
      assert (forall s, s <> SHelp -> (In s (s1 ++ s2 ++ s3 ++ s4 ++ [SHelp]) <-> In s (s1 ++ s2 ++ s3 ++ s4))) as I.
      { intros s NE. rewrite !in_app_iff. cbn [In]. intuition congruence. }
      split; [exact S1|]. split; [exact S2|]. split; [exact S3|].
      split; [rewrite S4, I by discriminate; reflexivity|]. split; [rewrite S5, I by discriminate; reflexivity|].
      destruct S6 as [(p & q & E & B)|[E B]].
      * left. exists p, (q ++ [SHelp]). split.
        -- replace (s1 ++ s2 ++ s3 ++ s4 ++ [SHelp]) with ((s1 ++ s2 ++ s3 ++ s4) ++ [SHelp]) by (rewrite <- !app_assoc; reflexivity).
           rewrite E. rewrite <- app_assoc. reflexivity.
        -- intros u U. apply in_app_or in U. destruct U as [U|[U|[]]]; [apply (B u U)|discriminate U].
      * right. split; [exact E|]. intros u U. apply I in U; [apply (B u U)|discriminate].
Qed.
Print Assumptions C80_help_ignored.

(** So "a line that asks for help has no effect" is false. *)
Theorem C80_help_refuted :
  ~ (forall hooks env ws, In "-h"%string ws ->
       fst (fst (xcommand hooks env (String.concat " " ws))) = env).
Proof.
  intros H. specialize (H [] demo ["set"; "level"; "7"; "-h"]%string ltac:(cbn [In]; tauto)).
  assert (e_value (fst (fst (xcommand [] demo (String.concat " " ["set"; "level"; "7"; "-h"]%string)))) (inl "level"%string) true true = Ok (CNum (NInt 7))) as E by (vm_compute; reflexivity).
  rewrite H in E. revert E. vm_compute. discriminate.
Qed.
Print Assumptions C80_help_refuted.

(** The meaning of a line depends on the release of Python: an option between the
    channel and the further words is refused by some and accepted by others. *)
Theorem C80_release_refuted :
  ~ (forall d d' s s' ws, parse ex_neg d s ws = parse ex_neg d' s' ws).
Proof.
  intros H. specialize (H true false false false ["set"; "level"; "-f"; "7"]%string). revert H. vm_compute. discriminate.
Qed.
Print Assumptions C80_release_refuted.

(** What does not depend on it: lines with no option between channel and further
    words. *)
Theorem C80_release : forall neg d d' s s' ws a e, neg_ok neg -> ~ In "--"%string ws ->
  parse neg false s ws = Some (a, e) -> parse neg d' s' ws = Some (a, e) /\ parse neg d s ws = Some (a, e).
Proof.
  intros * NOK N H. apply (parse_exact neg NOK false s _ _ _ N) in H.
  assert (forall d s, parse neg d s ws = Some (a, e)) as G.
  { intros d0 s0. apply (parse_exact neg NOK d0 s0 _ _ _ N).
    destruct H as (v & c & extra & o1 & o2 & o3 & o4 & s1 & s2 & s3 & s4 & E & O1 & O2 & O3 & O4 & A & F & D & S).
    exists v, c, extra, o1, o2, o3, o4, s1, s2, s3, s4. repeat (split; [assumption|]). split; [|exact S].
    intros X. discriminate (D X). }
  split; apply G.
Qed.
Print Assumptions C80_release.

(** ** C81 *)

(** C81.  The line sent for a command is read by the peer as the same command,
    with the same force, on the same channel with the same further words, exactly
    when none of these words looks like an option. *)
Theorem C81_exact : forall neg space defer strip_all a, neg_ok neg -> space_ok space ->
  Forall (word space) (a_chan a :: a_extra a) -> ~ In "--"%string (a_chan a :: a_extra a) ->
  (parse neg defer strip_all (words space (remote_line a)) =
     Some (mkArgs (a_verb a) (a_force a) false (a_chan a) (a_extra a), "default"%string) <->
   Forall (arg_word neg) (a_chan a :: a_extra a)).
Proof.
  intros * NOK SOK FI ND. destruct SOK as [Sp Sf]. rewrite Forall_forall in Sf.
  assert (word space (verb_name (a_verb a))) as Wv by (apply Sf; destruct (a_verb a); cbn [verb_name In]; tauto).
  assert (Forall (word space) (verb_name (a_verb a) :: (if a_force a then ["-f"%string] else []) ++ a_chan a :: a_extra a)) as FL.
  { constructor; [exact Wv|]. apply Forall_app. split; [|exact FI].
    destruct (a_force a); [|constructor]. constructor; [|constructor]. apply Sf. cbn [In]. tauto. }
  unfold remote_line. rewrite words_join by assumption.
  rewrite (parse_exact neg NOK defer strip_all).
  2:{ intros X. cbn [In] in X. destruct X as [X|X]; [destruct (a_verb a); discriminate X|].
      apply in_app_or in X. destruct X as [X|X]; [|apply (ND X)].
      destruct (a_force a); [destruct X as [X|[]]; discriminate X|destruct X]. }
  split.
  - intros (v & c & extra & o1 & o2 & o3 & o4 & s1 & s2 & s3 & s4 & E & O1 & O2 & O3 & O4 & A & F & D & S).
    destruct S as (S1 & S2 & S3 & _). cbn [a_verb a_chan a_extra] in S1, S2, S3. subst c extra. constructor; assumption.
  - intros F. inversion F as [|x y A F']; subst.
    assert (options neg (if a_force a then ["-f"%string] else []) (if a_force a then [SForce] else [])) as OF.
    { destruct (a_force a); [|constructor]. apply (os_cons neg ["-f"%string] [SForce] [] []); [|constructor].
      apply (ow_flags neg [SForce]); [discriminate|repeat constructor]. }
    exists (a_verb a), (a_chan a), (a_extra a), [], (if a_force a then ["-f"%string] else []), [], [], [], (if a_force a then [SForce] else []), [], [].
    cbn [app]. rewrite app_nil_r.
    split; [reflexivity|]. split; [constructor|]. split; [exact OF|]. split; [constructor|]. split; [constructor|]. split; [exact A|]. split; [exact F'|].
    split; [congruence|]. rewrite app_nil_r.
    repeat split; cbn [a_force a_remote]; destruct (a_force a); cbn [In]; try tauto; try discriminate; try (intuition discriminate);
      right; (split; [reflexivity|]); intros u U; cbn [In] in U; intuition discriminate.
Qed.
Print Assumptions C81_exact.

(** C81.  So a remote command typed without "--" is sent with the environment it
    names, and at the peer its line means the same command on the same channel
    with the same further words and the same force, to be run there. *)
Theorem C81_same_command_partial : forall neg space defer strip_all defer' strip_all' line a name, neg_ok neg -> space_ok space ->
  ~ In "--"%string (words space line) ->
  parse neg defer strip_all (words space line) = Some (a, name) -> a_remote a = true -> a_verb a <> VCustom ->
  exists l, forward a name = Some (name, l) /\
    parse neg defer' strip_all' (words space l) =
      Some (mkArgs (a_verb a) (a_force a) false (a_chan a) (a_extra a), "default"%string).
Proof.
  intros * NOK SOK N P R V. exists (remote_line a). split.
  - unfold forward. rewrite R. destruct (a_verb a); try reflexivity. contradiction V; reflexivity.
  - pose proof (parse_in_order neg defer strip_all _ _ _ P) as IO.
    apply (parse_exact neg NOK defer strip_all _ _ _ N) in P.
    destruct P as (v & c & extra & o1 & o2 & o3 & o4 & s1 & s2 & s3 & s4 & E & O1 & O2 & O3 & O4 & A & F & D & S).
    destruct S as (S1 & S2 & S3 & _).
    assert (forall x, In x (a_chan a :: a_extra a) -> In x (words space line)) as SUB.
    { assert (forall (l m : list string), in_order l m -> forall y, In y l -> In y m) as G.
      { clear. induction 1 as [q|q l m H IH|q l m H IH]; intros y Y; [destruct Y| |].
        - destruct Y as [->|Y]; [left; reflexivity|right; apply IH; exact Y].
        - right; apply IH; exact Y. }
      intros x X. apply (G _ _ IO x). right. exact X. }
    apply C81_exact; [exact NOK|exact SOK| | |].
    + pose proof (words_words space line) as FW. rewrite Forall_forall in FW |- *. intros x X. apply FW. apply SUB. exact X.
    + intros X. apply N. apply SUB. exact X.
    + subst c extra. constructor; assumption.
Qed.
Print Assumptions C81_same_command_partial.

(** C81.  What the peer then does: the environment named (the default one, or the
    one registered under the name) undergoes exactly the command, the others do
    not change; if there is none of that name nothing changes and the reply says
    so. *)
Theorem C81_delivered_partial : forall neg space defer strip_all defer' strip_all' int_of float_of bool_of fround hooks line a name l envs dflt,
  neg_ok neg -> space_ok space -> ~ In "--"%string (words space line) ->
  parse neg defer strip_all (words space line) = Some (a, name) -> forward a name = Some (name, l) ->
  let run e := handle int_of float_of bool_of fround hooks e (mkArgs (a_verb a) (a_force a) false (a_chan a) (a_extra a)) in
  let '(envs', dflt', ok) := serve neg space defer' strip_all' int_of float_of bool_of fround hooks envs dflt name l in
  (forall n, dget n envs' = if String.eqb n name && negb (String.eqb name "default") then option_map (fun e => fst (fst (run e))) (dget n envs) else dget n envs) /\
  dflt' = (if String.eqb name "default" then fst (fst (run dflt)) else dflt) /\
  (ok = true <-> exists e, (if String.eqb name "default" then Some dflt else dget name envs) = Some e /\
     match snd (fst (run e)) with CSuccess | CValue _ => True | _ => False end).
Proof.
  intros * NOK SOK N P FW run.
  assert (a_remote a = true /\ a_verb a <> VCustom) as [R V].
  { unfold forward in FW. destruct (a_remote a); [|discriminate FW]. split; [reflexivity|]. intros E. rewrite E in FW. discriminate FW. }
  destruct (C81_same_command_partial neg space defer strip_all defer' strip_all' line a name NOK SOK N P R V) as (l' & F' & P').
  rewrite FW in F'. injection F' as <-.
  unfold serve, command. rewrite P'. destruct (String.eqb_spec name "default") as [->|Nd].
  - fold (run dflt). destruct (run dflt) as [[e' r] calls] eqn:E. cbn [negb]. split; [intros n; rewrite andb_false_r; reflexivity|].
    split; [reflexivity|]. split.
    + intros G. exists dflt. split; [reflexivity|]. rewrite E. cbn [fst snd]. destruct r; try discriminate G; exact I.
    + intros (e & X & G). injection X as <-. rewrite E in G. cbn [fst snd] in G. destruct r; try destruct G; reflexivity.
  - destruct (dget name envs) as [e0|] eqn:G.
    + fold (run e0). destruct (run e0) as [[e' r] calls] eqn:E. cbn [negb]. split.
      * intros n. rewrite andb_true_r. destruct (String.eqb_spec n name) as [->|Nn].
        -- rewrite dget_dset_eq, G. cbn [option_map]. rewrite E. reflexivity.
        -- rewrite dget_dset_ne by congruence. reflexivity.
      * split; [reflexivity|]. split.
        -- intros X. exists e0. split; [reflexivity|]. rewrite E. cbn [fst snd]. destruct r; try discriminate X; exact I.
        -- intros (e & X & Y). injection X as <-. rewrite E in Y. cbn [fst snd] in Y. destruct r; try destruct Y; reflexivity.
    + cbn [negb]. split.
      * intros n. rewrite andb_true_r. destruct (String.eqb_spec n name) as [->|Nn]; [rewrite G|]; reflexivity.
      * split; [reflexivity|]. split; [discriminate|]. intros (e & X & _). discriminate X.
Qed.
Print Assumptions C81_delivered_partial.

Definition xserve := serve ex_neg ex_space true false xint (fun _ => None) xbool (fun _ f => f).
Example ex_remote :
  parse ex_neg true false (words ex_space "set -r level 7 -e other"%string) = Some (mkArgs VSet false true "level" ["7"], "other")%string /\
  forward (mkArgs VSet false true "level" ["7"])%string "other" = Some ("other", "set level 7")%string /\
  (let '(envs, _, ok) := xserve [] [("other"%string, demo)] demo "other" "set level 7" in
   ok = true /\ option_map (fun e => e_value e (inl "level"%string) true true) (dget "other"%string envs) = Some (Ok (CNum (NInt 7)))).
Proof. vm_compute. repeat split. Qed.

(** C81 without the condition is false: words after "--" are sent without it, and
    the peer takes them for options. *)
Theorem C81_separator_refuted :
  ~ (forall line a name l, parse ex_neg true false (words ex_space line) = Some (a, name) -> forward a name = Some (name, l) ->
       parse ex_neg true false (words ex_space l) = Some (mkArgs (a_verb a) (a_force a) false (a_chan a) (a_extra a), "default"%string)).
Proof.
  intros H. specialize (H "set -r level -- -r"%string (mkArgs VSet false true "level" ["-r"])%string "default"%string "set level -r"%string).
  specialize (H ltac:(vm_compute; reflexivity) ltac:(vm_compute; reflexivity)). revert H. vm_compute. discriminate.
Qed.
Print Assumptions C81_separator_refuted.

(** Nor is every remote command sent: custom commands are not. *)
Theorem C81_custom_refuted :
  ~ (forall line a name, parse ex_neg true false (words ex_space line) = Some (a, name) -> a_remote a = true -> forward a name <> None).
Proof.
  intros H. apply (H "custom -r go"%string (mkArgs VCustom false true "go" [])%string "default"%string); vm_compute; reflexivity.
Qed.
Print Assumptions C81_custom_refuted.
