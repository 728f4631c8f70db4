(** Command lines made of option letters, for given letters without and with an argument; and the command lines of
    tlswrapper-tcp(1) and tlswrapper-smtp(1). *)
From Verif.Model Require Import Base Inet.
From Verif.Spec Require Import Num Settings Cmdline Hostport.

Section Words.
Variables F A : list Z.
(** letters after a '-': the argument of an option is the rest of the word, or the next word if there is no rest *)
Inductive wgroup : list Z -> list (list Z) -> list item -> list (list Z) -> Prop :=
| wgroup_end : forall ws, wgroup [] ws [] ws
| wgroup_flag : forall c t ws l ws', In c F -> wgroup t ws l ws' -> wgroup (c :: t) ws (Flag c :: l) ws'
| wgroup_joined : forall c t ws, In c A -> t <> [] -> wgroup (c :: t) ws [Opt c t] ws
| wgroup_apart : forall c w ws, In c A -> wgroup [c] (w :: ws) [Opt c w] ws.
(** words: options, and the words after them *)
Inductive wline : list (list Z) -> list item -> list (list Z) -> Prop :=
| wline_empty : wline [] [] []
| wline_rest : forall w ws, hd 0 w <> 45 -> wline (w :: ws) [] (w :: ws)
| wline_dash : forall ws, wline (bs "-" :: ws) [] ws
| wline_dashes : forall ws, wline (bs "--" :: ws) [] ws
| wline_group : forall t ws l ws' l' ws'', t <> [] -> t <> bs "-" -> wgroup t ws l ws' -> wline ws' l' ws'' ->
    wline ((45 :: t) :: ws) (l ++ l') ws''.
End Words.

(** the log level after the options; 1 without any of them *)
Definition loudness (l : list item) : Z :=
  fold_left (fun v i => match i with Flag c => if c =? 113 then 0 else if c =? 81 then 1 else if c =? 118 then v + 1 else v | Opt _ _ => v end) l 1.
(** a port number *)
Definition is_port (s : list Z) (p : Z) : Prop := numeral s /\ p = decval s /\ 0 <= p <= 65535.

(** tlswrapper-tcp [options] host port; words after the port are ignored *)
Record tcp_line (words : list (list Z)) (l : list item) (host : list Z) (port timeout connect : Z) : Prop := {
  tl_line : exists p rest, wline (bs "qQv") (bs "TtpPJj") words l (host :: p :: rest) /\ is_port p port;
  tl_proxy : forall a, In a (args 112 l) \/ In a (args 80 l) -> a = bs "0" \/ a = bs "1";
  tl_timeout : seconds (last_arg 116 l) (bs "3600") timeout;
  tl_connect : seconds (last_arg 84 l) (bs "10") connect }.

(** tlswrapper-smtp [options] program arguments; the greylisting server is the last -g *)
Record smtp_line (I : inet) (words : list (list Z)) (l : list item) (prg : list (list Z)) (timeout crw : Z) (grey : option (list Z * Z)) : Prop := {
  sl_line : wline (bs "qQvcC") (bs "uTtgJj") words l prg;
  sl_program : prg <> [];
  sl_timeout : seconds (last_arg 116 l) (bs "600") timeout;
  sl_crw : seconds (last_arg 84 l) (bs "15") crw;
  sl_grey : match last_arg 103 l, grey with
            | Some a, Some (host, port) => exists p, hp_ok I true a host p /\ is_port p port
            | None, None => True
            | _, _ => False
            end }.
