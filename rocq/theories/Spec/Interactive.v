(* Vocabulary for the properties of the interactive client (__main__.py). *)
From Verif Require Import Base.Prelude Model.Frames Model.LegacyFraming Model.LegacyProtocol Model.Main
  Spec.Utf8Spec Spec.Messages Spec.Asyncio.
Local Open Scope N_scope.

(* Anything happens while "python -m websockets <uri>" runs, in any order: the user types lines, and
   data is received, the connection is lost, time passes, threads and tasks run... *)
Definition running {E} (X : ext_ops E) (cfg : config) (uri : str) (exts : list E) (ls : list mlabel) (g : interactive E) : Prop :=
  mexec X cfg uri (minitial exts) ls = Some g.

(* What is written to the terminal *)
Definition connected (uri : str) : output := During (s "Connected to " ++ uri ++ s ".").
Definition not_connected (uri why : str) : output := Over (s "Failed to connect to " ++ uri ++ s ": " ++ why ++ s ".").
Definition closed_with (explanation : str) : output := Over (s "Connection closed: " ++ explanation ++ s ".").

(* The lines typed that the event loop doesn't know about yet *)
Definition unseen (calls : list callback) : list str :=
  flat_map (fun c => match c with PutLine x => [x] | SetStop => [] end) calls.

(* f is the unfragmented text message x. *)
Definition text_frame (x : str) (f : frame) : Prop := exists data, utf8_text x data /\ f = mkframe true TEXT data.

(* The program is in its main loop: it's connected and it didn't decide to disconnect. *)
Definition in_loop (pc : mpc) : Prop :=
  match pc with MLooping _ | MWaiting _ _ | MSending _ _ _ => True | _ => False end.
(* It left its main loop and how. *)
Definition left (pc : mpc) (how : exit_cause) : Prop :=
  match pc with MClosing _ h | MExited h => h = how | _ => False end.
(* It has terminated. *)
Definition exited (pc : mpc) : Prop :=
  match pc with MExited _ | MNotConnected => True | _ => False end.
