(** Model of src/main.cpp: the command line and the life of a mounted session.

    CLI11, libfuse and the operating system are represented by their answers ([answers]): each
    call is made at most once per run.  The file system itself (what happens inside of
    [Serve]) is the subject of Fs.v and Conc.v.  Not modelled: the text on stderr; the argument
    vector built for libfuse (main.cpp:85-97), which only has "-d" in it; the fork inside of
    fuse_daemonize (the model follows the process that goes on). *)
From Verif Require Export Prelude.
Notation bytes := (list Z).

(** ** the command line, as CLI11 hands it over: how often each option was given (main.cpp:41-59) *)
Record options := Options {
  o_mount : bool;                          (* the subcommand "mount" was given: [operator bool], 125-127 *)
  o_disc : nat; o_local : nat; o_ssh : nat; (* the option group "Backend", 46-50 *)
  o_debug : nat; o_fg : nat;               (* 52-53 *)
  o_path : bytes;                          (* the argument of -L *)
  o_cachedir : option bytes; o_mountpoint : option bytes  (* 55-56 *) }.
Definition given (n : nat) : nat := if (n =? 0)%nat then 0 else 1.
(** [require_option(1, 1)] on the group, line 47, and the two mandatory arguments, lines 55-56;
    they only count if the subcommand is used *)
Definition parse_ok (o : options) : bool :=
  negb (o_mount o) ||
  (given (o_disc o) + given (o_local o) + given (o_ssh o) =? 1)%nat &&
  match o_cachedir o, o_mountpoint o with Some _, Some _ => true | _, _ => false end.

(** ** what the process acquires and gives back *)
Inductive resource := RCache | RSession | RHandlers | RMount.
Inductive choice := Disconnected | LocalDir (root : bytes).
Inductive act :=
| Acquire (r : resource)
| Refused (r : resource)       (* the attempt failed *)
| Release (r : resource)
| Detach (foreground : bool)   (* fuse_daemonize *)
| Serve (b : choice).          (* loop_mt, with this backend *)
Record answers := Answers {
  an_cli : Z;                  (* the exit code CLI11 chooses for a parse error *)
  an_cache : bool;             (* Cache(m_cachedir) does not throw *)
  an_session : bool;           (* fuse_session_new gives a session, interface.hpp:97-102 *)
  an_handlers : Z; an_mount : Z; an_loop : Z  (* results of set_signal_handlers, mount and loop_mt *) }.

(** the choice of the backend, main.cpp:73-80: the pointer stays null if neither option was given *)
Definition chosen (o : options) : option choice :=
  if negb (o_disc o =? 0)%nat then Some Disconnected
  else if negb (o_local o =? 0)%nat then Some (LocalDir (o_path o))
  else None.
(** MountCommand::execute, main.cpp:68-123.  The null pointer is dereferenced in line 82, after the
    cache was opened: undefined behaviour.  An exception ends the process, because main does not
    catch it; then no destructor runs.  At the labels: [cleanup_signal] 118-119, [exit] 120-121;
    at the end the destructors of the session (interface.hpp:104-106) and of the cache run. *)
Definition execute (o : options) (w : answers) : list act * outcome Z :=
  let debug := negb (o_debug o =? 0)%nat in
  let foreground := debug || negb (o_fg o =? 0)%nat in
  let backend := chosen o in
  if negb (an_cache w) then ([Refused RCache], Throw)
  else match backend with
  | None => ([Acquire RCache], Crash)
  | Some b =>
    if negb (an_session w) then ([Acquire RCache; Refused RSession], Throw)
    else
      let '(tr, ret) :=
        if negb (an_handlers w =? 0) then ([Refused RHandlers], 1)
        else
          let '(tr, ret) :=
            if negb (an_mount w =? 0) then ([Refused RMount], 1)
            else ([Acquire RMount; Detach foreground; Serve b; Release RMount],
                  if an_loop w =? 0 then 1 else 0) in     (* ret = !session.loop_mt(clone_fd) *)
          ([Acquire RHandlers] ++ tr ++ [Release RHandlers], ret) in
      ([Acquire RCache; Acquire RSession] ++ tr ++ [Release RSession; Release RCache], Done ret)
  end.
(** main, main.cpp:132-144, with CLI11_PARSE: a parse error is reported and gives the exit code *)
Definition main (o : options) (w : answers) : list act * outcome Z :=
  if parse_ok o then
    if o_mount o then let '(tr, r) := execute o w in (tr, dlet _ := r in Done 0)
    else ([], Done 0)
  else ([], Done (an_cli w)).
