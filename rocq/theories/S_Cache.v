(** Specification of the cache: what a history of calls leaves stored. *)
From Verif Require Import Base S_Seq.

Section Cache.
Variables K V : Type.

(** What happened to one cache, newest first; a cache of [n] slots puts hash
    [h] into slot [h mod n]. *)
Inductive event := EInsert (h : nat) (k : K) (v : V) | ERemove (h : nat) (k : K) | EEmpty.

(** The events that do not touch key [k] with hash [h]. *)
Definition spares (n h : nat) (k : K) (e : event) : Prop :=
  match e with
  | EInsert h' _ _ => h' mod n <> h mod n
  | ERemove h' k' => ~ (h' mod n = h mod n /\ k' = k)
  | EEmpty => False
  end.
(** [v] was inserted under [k], and everything since then spared it. *)
Definition stored (n : nat) (hist : list event) (h : nat) (k : K) (v : V) : Prop :=
  exists newer h' older, hist = newer ++ EInsert h' k v :: older /\ h' mod n = h mod n /\ Forall (spares n h k) newer.

(** Programs over several caches. *)
Inductive cop :=
| CNew (x n : nat)                        (* Cache<K, V> x(n); *)
| CCopy (x y : nat)                       (* Cache<K, V> x(y); *)
| CAssign (x y : nat)                     (* x = y; *)
| CDelete (x : nat)
| CInsert (x h : nat) (k : K) (v : V)     (* x.Insert(h, k, v); *)
| CRemove (x h : nat) (k : K)             (* x.Remove(h, k); *)
| CEmpty (x : nat).                       (* x.Empty(); *)

Definition caches := nat -> option (nat * list event).
Definition note (x : nat) (need : bool) (e : event) (s : caches) : option caches :=
  match s x with
  | Some (n, h) => if need && (n =? 0) then None else Some (fupd s x (Some (n, e :: h)))
  | None => None
  end.
(** None: a use of a dead cache, or hashing into a cache without slots. *)
Definition cstep (o : cop) (s : caches) : option caches :=
  match o with
  | CNew x n => match s x with None => Some (fupd s x (Some (n, []))) | Some _ => None end
  | CCopy x y => match s x, s y with None, Some l => Some (fupd s x (Some l)) | _, _ => None end
  | CAssign x y => match s x, s y with Some _, Some l => Some (fupd s x (Some l)) | _, _ => None end
  | CDelete x => match s x with Some _ => Some (fupd s x None) | None => None end
  | CInsert x h k v => note x true (EInsert h k v) s
  | CRemove x h k => note x true (ERemove h k) s
  | CEmpty x => note x false EEmpty s
  end.
Fixpoint crun (p : list cop) (s : caches) : option caches :=
  match p with [] => Some s | o :: t => match cstep o s with Some s' => crun t s' | None => None end end.
Definition cempty : caches := fun _ => None.
End Cache.
Arguments EInsert {K V}. Arguments ERemove {K V}. Arguments EEmpty {K V}. Arguments stored {K V}. Arguments spares {K V}.
Arguments CNew {K V}. Arguments CCopy {K V}. Arguments CAssign {K V}. Arguments CDelete {K V}.
Arguments CInsert {K V}. Arguments CRemove {K V}. Arguments CEmpty {K V}.
Arguments cstep {K V}. Arguments crun {K V}. Arguments cempty {K V}. Arguments note {K V}.
