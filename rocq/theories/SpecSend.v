(** Specifications for what a node sends. *)
From Verif Require Import Messages SpecMessages Chain SpecChain.

(** A request for headers or for a block. *)
Definition request (X : Ext) (m : message X) : Prop := match m with MGetHeaders _ | MGetBlock _ => True | _ => False end.

(** [m], written to a connection, is handed on as [m'] by the read loop at its other end. *)
Definition arrives (X : Ext) (lenient : bool) (m m' : message X) : Prop :=
  exists body k, write_message X m = Ok (frame_of (type_number X m) body, k) /\ lenN body <= 20000000 /\
    decode_frame X lenient (type_number X m) body = Ok (Some m').

(** The headers to answer a locator with: none if no hash is known or the first known one is the head's;
    otherwise what the storage holds behind the first known hash. *)
Definition located {X : Ext} {S : storage X} (st : st_state S) (head_hash : bytes) (hs : list bytes) (l : list header) : Prop :=
  Forall (unknown st head_hash) hs /\ l = [] \/
  exists pre h post, hs = pre ++ h :: post /\ Forall (unknown st head_hash) pre /\
    (h = head_hash /\ l = [] \/ h <> head_hash /\ exists b bl, st_from S st (by_hash h) 513 = b :: bl /\ l = map b_header bl).
