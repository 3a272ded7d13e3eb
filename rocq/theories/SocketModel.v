(** Model of how messages are handed to a socket: Socket::SendAsync and Socket::HandleSent (src/Net/Socket.cpp:184-227), called through
    Connection::SendAsync (src/P2P/Connection.cpp:52-67). *)
From Verif Require Import Base.
Local Open Scope N_scope.

(** A byte on the wire: one of the message, or whatever is in memory that was released before it was written. *)
Definition wire_byte := option N.
Definition message := list N.

(** A call of SendAsync by some thread that is under way: the message, the value of [first_in_queue], and whether it is in the queue already. *)
Record call := mkCall { c_thread : nat; c_message : message; c_first : bool; c_pushed : bool }.
(** [s_queue]: m_writeQueue, a std::deque used without a lock; each of its operations is taken to be atomic, although two at the same time are
    undefined. [s_writes]: how many async_writes are outstanding. [s_popped]: HandleSent has removed the front and not yet looked at the rest. *)
Record socket := mkSocket { s_queue : list message; s_writes : nat; s_popped : bool; s_calls : list call; s_wire : list (list wire_byte); s_open : bool }.
Definition fresh : socket := mkSocket [] 0 false [] [] true.

(** asio::async_write on the vector of the caller. The first attempt to write is made at once and takes [room] bytes; when the rest is
    written the vector is gone: [serialized] in Connection.cpp:55, [message] in Socket.cpp:216 are local. *)
Definition write (room : nat) (m : message) (s : socket) : socket :=
  if s_open s
  then mkSocket (s_queue s) (S (s_writes s)) (s_popped s) (s_calls s) (s_wire s ++ [map Some (firstn room m) ++ map (fun _ => None) (skipn room m)]) true
  else s.

Definition get_call (t : nat) (l : list call) : option call := find (fun c => Nat.eqb (c_thread c) t) l.
Definition drop_call (t : nat) (l : list call) : list call := filter (fun c => negb (Nat.eqb (c_thread c) t)) l.

Inductive event :=
| Check (t : nat) (m : message)     (* Socket.cpp:186: thread [t] calls SendAsync and looks whether the queue is empty *)
| Push (t : nat)                    (* 187 *)
| Finish (t : nat) (room : nat)     (* 189-202 *)
| Pop                               (* 209-211: HandleSent, without an error *)
| Next (room : nat)                 (* 215-225 *)
| Close.                            (* CloseSocket *)
Definition step (e : event) (s : socket) : socket :=
  match e with
  | Check t m => match get_call t (s_calls s) with
                 | Some _ => s
                 | None => mkSocket (s_queue s) (s_writes s) (s_popped s) (mkCall t m (match s_queue s with [] => true | _ => false end) false :: s_calls s) (s_wire s) (s_open s)
                 end
  | Push t => match get_call t (s_calls s) with
              | Some c => if c_pushed c then s else
                  mkSocket (s_queue s ++ [c_message c]) (s_writes s) (s_popped s) (mkCall t (c_message c) (c_first c) true :: drop_call t (s_calls s)) (s_wire s) (s_open s)
              | None => s
              end
  | Finish t room => match get_call t (s_calls s) with
                     | Some c => if negb (c_pushed c) then s else
                         let s := mkSocket (s_queue s) (s_writes s) (s_popped s) (drop_call t (s_calls s)) (s_wire s) (s_open s) in
                         if c_first c then write room (c_message c) s else s
                     | None => s
                     end
  | Pop => match s_writes s with
           | O => s
           | S k => if s_popped s then s else mkSocket (tl (s_queue s)) k true (s_calls s) (s_wire s) (s_open s)
           end
  | Next room => if negb (s_popped s) then s else
      let s := mkSocket (s_queue s) (s_writes s) false (s_calls s) (s_wire s) (s_open s) in
      match s_queue s with [] => s | m :: _ => write room m s end
  | Close => mkSocket (s_queue s) (s_writes s) (s_popped s) (s_calls s) (s_wire s) false
  end.
Definition run (h : list event) (s : socket) : socket := fold_left (fun s e => step e s) h s.
