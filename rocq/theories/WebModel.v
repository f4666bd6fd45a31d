(** Model of the page of the web interface and of how it is kept: runtimepy/net/
    server/app/env/{__init__,widgets}.py, net/server/app/env/tab/{controls,html}.py,
    net/html/bootstrap/{tabs,elements}.py (slider, input boxes, buttons) and net/server/app/
    create.py.

    Simplifications: an element is only what a user can see or use of it (its id, the
    name it shows, the value it sends); classes, icons, titles, markdown, scripts, the
    plot and the buttons that every page has are left out.  An environment is given as
    its names in order, each with the channel or bit field that it stands for (how they
    are found is EnvModel).  Floating-point numbers are exact rationals. *)
From Coq Require Import QArith.
From Verif Require Import Base.

(** The bounds of a slider: Python integers or floats (data/schemas/
    channel_controls.yaml). *)
Inductive num := NI (z : Z) | NF (q : Q).
Definition num_q (n : num) : Q := match n with NI z => inject_Z z | NF q => q end.
Definition num_is_int (n : num) : bool := match n with NI _ => true | NF _ => false end.

Section Web.
(** What default values are. *)
Context {D : Type}.

(** ui/controls.py:15-30: ["slider": {"min", "max", "step"}]; the last is the number of
    steps, after [int] (controls.py:129). *)
Record sliderd := mkSlider { sl_min : num; sl_max : num; sl_steps : Z }.

(** What the page looks at of a channel (channel/__init__.py). *)
Record wchan := mkWchan {
  wc_boolean : bool; wc_cmd : bool;
  wc_enum : option (list (string * Z));   (** [enum.asdict()["items"]] *)
  wc_value : Z;                           (** [raw.value]; true is 1 *)
  wc_default : option D;
  wc_slider : option sliderd;
  wc_desc : option string
}.
(** What the page looks at of a bit field (primitives/field/__init__.py). *)
Record wfield := mkWfield {
  wf_width : Z; wf_cmd : bool;
  wf_enum : option (list (string * Z));
  wf_value : Z;
  wf_desc : option string
}.
Inductive entry := EChan (c : wchan) | EField (f : wfield).

(** The elements with which a value is set, with their ids. *)
Inductive ctl :=
| Dropdown (id : string) (options : list (string * Z * bool))  (** text, value, selected *)
| Toggle (id : string)
| Reset (id : string) (d : D)
| Input (id : string)
| Send (id : string)
| Slider (id : string) (lo hi step : num).

(** widgets.py:54-68 [enum_dropdown]. *)
Definition enum_dropdown (name : string) (items : list (string * Z)) (current : Z) : ctl :=
  Dropdown name (map (fun kv => (fst kv, snd kv, current =? snd kv)) items).

(** elements.py:128-149 [slider]; None is the AssertionError of line 141 or the
    ZeroDivisionError of line 146. *)
Definition slider (name : string) (s : sliderd) : option ctl :=
  if Qle_bool (num_q (sl_max s)) (num_q (sl_min s)) then None
  else if sl_steps s =? 0 then None
  else
    let step :=
      match sl_min s, sl_max s with
      | NI lo, NI hi => NI (Z.quot (hi - lo) (sl_steps s))
      | lo, hi => NF ((num_q hi - num_q lo) / inject_Z (sl_steps s))
      end in
    Some (Slider name (sl_min s) (sl_max s) step).

(** controls.py:63-134 [_handle_controls]: what is put into the cell, in the order in
    which the elements stand ([front] puts an element before the others). *)
Definition chan_controls (name : string) (c : wchan) : option (list ctl) :=
  if negb (wc_cmd c) then Some []
  else if wc_boolean c then
    Some (Toggle name :: match wc_default c with Some d => [Reset name d] | None => [] end)
  else match wc_enum c with
  | Some items => Some [enum_dropdown name items (wc_value c)]
  | None =>
      let box := match wc_default c with Some d => [Reset name d] | None => [] end ++ [Input name; Send name] in
      match wc_slider c with
      | Some s => option_map (fun e => e :: box) (slider name s)
      | None => Some box
      end
  end.

(** controls.py:136-157 [_bit_field_controls]; html.py:104 [is_bit]. *)
Definition field_controls (name : string) (f : wfield) : list ctl :=
  if negb (wf_cmd f) then []
  else if wf_width f =? 1 then [Toggle name]
  else match wf_enum f with
  | Some items => [enum_dropdown name items (wf_value f)]
  | None => [Input name; Send name]
  end.

(** One row of the table (html.py:153-181): the id of the row, the ids of the plot
    check box and of the colour button, whether the name is shown as commandable, the
    description, the controls. *)
Record row := mkRow {
  ro_id : string; ro_plot : string; ro_color : string; ro_cmd : bool; ro_tip : string; ro_ctl : list ctl
}.
(** html.py:163, 174-176, 113-116; an empty description counts as none. *)
Definition tip (name : string) (d : option string) : string :=
  match d with
  | Some (String a s) => String a s
  | _ => "No description for '" ++ name ++ "'."
  end.
Definition make_row (ne : string * entry) : option row :=
  let '(name, e) := ne in
  let mk cmd desc ctl := mkRow name ("plot-" ++ name) (name ++ "-line-color") cmd (tip name desc) ctl in
  match e with
  | EChan c => option_map (mk (wc_cmd c) (wc_desc c)) (chan_controls name c)
  | EField f => Some (mk (wf_cmd f) (wf_desc f) (field_controls name f))
  end.
Fixpoint make_rows (l : list (string * entry)) : option (list row) :=
  match l with
  | [] => Some []
  | ne :: l' =>
      match make_row ne, make_rows l' with
      | Some r, Some rs => Some (r :: rs)
      | _, _ => None
      end
  end.

(** channel/environment/__init__.py:44-58 [num_defaults]. *)
Definition num_defaults (l : list (string * entry)) : nat :=
  List.length (filter (fun ne => match snd ne with EChan c => match wc_default c with Some _ => true | None => false end | _ => false end) l).

(** widgets.py:142-166: the options of the command menu, the first one selected, and
    whether it can be used and has its button. *)
Definition command_menu (cmds : list string) : list (string * bool) * bool :=
  match cmds with
  | [] => ([("noop"%string, false)], false)
  | c :: cs => ((c, true) :: map (fun x => (x, false)) cs, true)
  end.

(** An environment with its custom commands. *)
Record wenv := mkWenv { we_names : list (string * entry); we_cmds : list string }.

(** A tab of the page: its name, the ids of its navigation button and of its content,
    whether it is the one that is shown, the button that resets everything, the command
    menu, the rows. *)
Record tab := mkTab {
  t_name : string; t_button : string; t_content : string; t_active : bool;
  t_reset_all : bool; t_menu : list (string * bool) * bool; t_rows : list row
}.

(** tabs.py:115-147 [create] with [active_tab], html.py:216-252 [compose]; [prefix] is
    the name of the tabbed content ("runtimepy"). *)
Definition make_tab (prefix : string) (active : bool) (name : string) (e : wenv) : option tab :=
  match make_rows (we_names e) with
  | Some rows =>
      Some (mkTab name (prefix ++ "-" ++ name ++ "-tab") (prefix ++ "-" ++ name) active
              (Nat.ltb 1 (num_defaults (we_names e))) (command_menu (we_cmds e)) rows)
  | None => None
  end.
Fixpoint make_tabs (prefix : string) (active : bool) (l : list (string * wenv)) : option (list tab) :=
  match l with
  | [] => Some []
  | (name, e) :: l' =>
      match make_tab prefix active name e with
      | Some t => option_map (cons t) (make_tabs prefix false l')
      | None => None
      end
  end.

(** What an application has (net/arbiter/info.py); a peer has its own structure and,
    once it has shared its environment, that one (subprocess/interface.py:66, 103-131). *)
Record wpeer := mkWpeer { pe_host : string * wenv; pe_remote : string * option wenv }.
Record wapp := mkWapp {
  wa_conns : list (string * wenv); wa_tasks : list (string * wenv); wa_structs : list (string * wenv);
  wa_peers : list wpeer; wa_program : option wpeer
}.
(** env/__init__.py:20-103 [populate_tabs]: None is the AssertionError of line 69 or
    95. *)
Definition peer_tabs (p : wpeer) : option (list (string * wenv)) :=
  match snd (pe_remote p) with
  | Some e => Some [pe_host p; (fst (pe_remote p), e)]
  | None => None
  end.
Fixpoint peers_tabs (l : list wpeer) : option (list (string * wenv)) :=
  match l with
  | [] => Some []
  | p :: l' => match peer_tabs p, peers_tabs l' with Some a, Some b => Some (a ++ b) | _, _ => None end
  end.
Definition page (prefix : string) (a : wapp) : option (list tab) :=
  match peers_tabs (wa_peers a ++ match wa_program a with Some p => [p] | None => [] end) with
  | Some ps => make_tabs prefix true (wa_conns a ++ wa_tasks a ++ wa_structs a ++ ps)
  | None => None
  end.
End Web.
Arguments ctl : clear implicits.
Arguments row : clear implicits.
Arguments tab : clear implicits.
Arguments wchan : clear implicits.
Arguments entry : clear implicits.
Arguments wenv : clear implicits.
Arguments wpeer : clear implicits.
Arguments wapp : clear implicits.

(** create.py:20-72: the documents that are kept.  An application is what
    [create_cacheable_app] was given: the value of its "caching" parameter, the name of
    the composing function ([__name__]) and that function, which makes a document from
    the state of the program or raises.  The request is not looked at by the
    composers of this package. *)
Section Cache.
Context {W Doc : Type}.
Record wapplication := mkApplication { ap_caching : bool; ap_name : string; ap_compose : W -> option Doc }.
Definition documents := list (string * Doc).

(** lines 42-70 [cached_app]. *)
Definition cached_app (a : wapplication) (w : W) (docs : documents) : documents * option Doc :=
  match (if ap_caching a then dget (ap_name a) docs else None) with
  | Some d => (docs, Some d)
  | None =>
      match ap_compose a w with
      | Some d => (dset (ap_name a) d docs, Some d)
      | None => (docs, None)
      end
  end.

(** lines 75-98 [create_app]: the composing function is always the inner [main]. *)
Definition create_app (caching : bool) (compose : W -> option Doc) : wapplication :=
  mkApplication caching "main" compose.

(** A history: which application is asked, in which state of the program. *)
Fixpoint serve (docs : documents) (h : list (wapplication * W)) : documents * list (option Doc) :=
  match h with
  | [] => (docs, [])
  | (a, w) :: h' =>
      let '(docs1, r) := cached_app a w docs in
      let '(docs2, rs) := serve docs1 h' in
      (docs2, r :: rs)
  end.
End Cache.
Arguments wapplication : clear implicits.
