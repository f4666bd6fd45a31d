(** C27: what a telnet connection reports of the byte stream it receives. *)
From Verif Require Import Base BaseLemmas Utf8Model Utf8Proofs TelnetModel TelnetSpec TelnetProofs.
From Coq Require Import ZifyBool ZifyNat.

(** One call on any sequence of complete items: every signal, command and
    option is reported exactly once and in order, and the text delivered is
    exactly the data (with an escaped 255 as one 255), decoded. *)
Theorem C27_items_reported l s :
  Forall item_ok l ->
  utf8_decode (text_of l) = Some s ->
  process_binary (bytes_of l)
  = TOk (reports_of l) (match text_of l with [] => None | _ => Some s end).
Proof.
  intros H E. rewrite <- (app_nil_r (bytes_of l)).
  rewrite (process_items l [] MData (reports_of l) (text_of l) H) by reflexivity.
  destruct (text_of l); [reflexivity|]. rewrite E. reflexivity.
Qed.

(** Every byte string: complete items, then possibly a cut-off one whose bytes
    are dropped without a report, or IAC followed by a byte below 240, which
    raises after reporting what preceded it and delivers no text. *)
Theorem C27_every_chunk data :
  is_bytes data ->
  exists l rest,
    Forall item_ok l /\ data = bytes_of l ++ rest /\
    ((rest = [] \/ unfinished rest) /\
     process_binary data
     = match text_of l with
       | [] => TOk (reports_of l) None
       | t => match utf8_decode t with
              | Some s => TOk (reports_of l) (Some s)
              | None => TBadText (reports_of l)
              end
       end
     \/ (exists c r, 0 <= c < 240 /\ rest = 255 :: c :: r) /\
        process_binary data = TBadCode (reports_of l)).
Proof.
  intros H. destruct (parse data H) as [l [rest [Hl [-> Hr]]]].
  exists l, rest. split; [exact Hl|]. split; [reflexivity|].
  destruct Hr as [->|[Hu|[c [r [Hc ->]]]]].
  - left. split; [auto|].
    rewrite (process_items l [] MData (reports_of l) (text_of l) Hl) by reflexivity.
    destruct (text_of l); reflexivity.
  - left. split; [auto|]. destruct (scan_unfinished rest (reports_of l) (text_of l) Hu) as [m E].
    rewrite (process_items l rest m (reports_of l) (text_of l) Hl E).
    destruct (text_of l); reflexivity.
  - right. split; [exists c, r; auto|]. unfold process_binary.
    rewrite (scan_items l Hl). cbn [app scan]. rewrite Z.eqb_refl.
    assert (E : is_option_code c = false) by (unfold is_option_code; lia). rewrite E.
    assert (E2 : c =? IAC = false) by (unfold IAC; lia). rewrite E2.
    assert (E3 : is_telnet_code c = false) by (unfold is_telnet_code; lia). rewrite E3.
    reflexivity.
Qed.

(** Chunking, as far as it holds: if every chunk consists of complete items and
    complete characters, the reports and the text of all calls together are
    those of the stream.  Missing from the full property: chunks cut inside an
    item or a character (refuted below). *)
Theorem C27_chunking_partial (ls : list (list item)) (ss : list (list Z)) :
  Forall (Forall item_ok) ls ->
  Forall2 (fun l s => utf8_decode (text_of l) = Some s) ls ss ->
  seen_all (map (fun l => process_binary (bytes_of l)) ls)
  = Some (reports_of (List.concat ls), List.concat ss).
Proof.
  intros H. revert ss. induction H as [|l ls Hl Hls IH]; intros ss F.
  - inversion F; subst. reflexivity.
  - inversion F as [|? s ? ss' E F' Ea Eb]; subst. cbn [map seen_all List.concat].
    rewrite (C27_items_reported l s Hl E), (IH ss' F').
    unfold seen, reports_of. rewrite flat_map_app.
    destruct (text_of l) eqn:T; [|reflexivity].
    cbn in E. injection E as <-. reflexivity.
Qed.

(** The full chunking claim fails: the same stream cut between IAC and its code
    loses the command and delivers the code as (undecodable) text; cut inside an
    option it delivers the option number as text. *)
Theorem C27_chunking_refuted :
  (exists a b, seen_all [process_binary (a ++ b)] = Some ([RCommand 241], []) /\
     process_binary a = TOk [] None /\ process_binary b = TBadText []) /\
  (exists a b, seen_all [process_binary (a ++ b)] = Some ([ROption 253 65], []) /\
     seen_all [process_binary a; process_binary b] = Some ([], [65])).
Proof.
  split.
  - exists [255], [241]. vm_compute. auto.
  - exists [255; 253], [65]. vm_compute. auto.
Qed.

(** An escaped 255 is never delivered: any chunk that contains one (and no bad
    code) raises, because the default text handler decodes it as UTF-8. *)
Theorem C27_escaped_iac_raises l :
  Forall item_ok l -> In IEscape l ->
  process_binary (bytes_of l) = TBadText (reports_of l).
Proof.
  intros H I. rewrite <- (app_nil_r (bytes_of l)).
  rewrite (process_items l [] MData (reports_of l) (text_of l) H) by reflexivity.
  assert (J : In 255 (text_of l)).
  { unfold text_of. apply in_flat_map. exists IEscape. split; [exact I|cbn; auto]. }
  rewrite (decode_255 _ J). destruct (text_of l); [destruct J|reflexivity].
Qed.

(** Commands and options sent by this library are received as sent, whatever
    surrounds them; sending a non-option as an option is refused. *)
Theorem C27_sent_commands_received c o before after s :
  Forall item_ok before -> Forall item_ok after -> 240 <= c <= 254 -> 0 <= o <= 255 ->
  utf8_decode (text_of before ++ text_of after) = Some s ->
  (c <= 250 ->
    exists t, process_binary (bytes_of before ++ send_command c ++ bytes_of after)
    = TOk (reports_of before ++ RCommand c :: reports_of after) t) /\
  (c > 250 -> exists w t, send_option c o = Some w /\
    process_binary (bytes_of before ++ w ++ bytes_of after)
    = TOk (reports_of before ++ ROption c o :: reports_of after) t) /\
  (c <= 250 -> send_option c o = None).
Proof.
  intros Hb Ha Hc Ho E.
  assert (G : forall i, item_ok i -> item_text i = [] ->
    exists t, process_binary (bytes_of before ++ item_bytes i ++ bytes_of after)
    = TOk (reports_of before ++ item_report i ++ reports_of after) t).
  { intros i Hi Ti. eexists.
    replace (bytes_of before ++ item_bytes i ++ bytes_of after)
      with (bytes_of (before ++ i :: after))
      by (unfold bytes_of; rewrite flat_map_app; reflexivity).
    rewrite (C27_items_reported _ s).
    - unfold reports_of. rewrite flat_map_app. reflexivity.
    - apply Forall_app. split; [exact Hb|]. constructor; auto.
    - unfold text_of in *. rewrite flat_map_app. cbn [flat_map]. rewrite Ti. exact E. }
  split; [|split].
  - intros L. apply (G (ICommand c)); [cbn; lia|reflexivity].
  - intros L. exists [IAC; c; o].
    destruct (G (IOption c o)) as [t Et]; [cbn; lia|reflexivity|].
    exists t. split; [|exact Et]. unfold send_option.
    replace (is_option_code c) with true by (unfold is_option_code; lia). reflexivity.
  - intros L. unfold send_option.
    replace (is_option_code c) with false by (unfold is_option_code; lia). reflexivity.
Qed.

(** A concrete stream: "hi" BEL, IAC NOP, IAC DO 1, CR LF. *)
Example C27_example :
  let l := [IData 104; IData 105; INvt 7; ICommand 241; IOption 253 1; IData 13; IData 10] in
  bytes_of l = [104; 105; 7; 255; 241; 255; 253; 1; 13; 10] /\
  process_binary (bytes_of l)
  = TOk [RNvt 7; RCommand 241; ROption 253 1] (Some [104; 105; 13; 10]).
Proof. vm_compute. auto. Qed.
Example C27_example_ok :
  Forall item_ok [IData 104; IData 105; INvt 7; ICommand 241; IOption 253 1; IEscape].
Proof.
  repeat (apply Forall_cons; [cbn; intuition (try lia; try discriminate)|]). constructor.
Qed.

Print Assumptions C27_items_reported.
Print Assumptions C27_every_chunk.
Print Assumptions C27_chunking_partial.
Print Assumptions C27_chunking_refuted.
Print Assumptions C27_escaped_iac_raises.
Print Assumptions C27_sent_commands_received.
