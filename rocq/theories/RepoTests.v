(** * RepoTests: the project's own tests, run on the models

    test/collection_test/{vector,list,result,string}_test.cpp,
    test/option_test/option_test.cpp, test/range_test.cpp,
    test/iter_test/fold_test.cpp, test/utility_test/{match,tuple}_test.cpp.
    Every run-time check in these files is an expected value here; the models
    must give it.  This says nothing about all inputs, but it ties the models to
    behaviour the authors observed.  MEMORY_TRACK (no memory held at the end) is
    the number 0 of blocks left. *)
From Verif Require Import Base Machine.
From Verif Require IterSpec VecModel ListModel ListStep OptModel ResModel RangeModel RangeCmp IterModel MatchModel TupleModel TypeListModel
  Utf8Model CharModel StringModel.
From Coq Require Import Ascii String.
Local Open Scope N_scope.

(** ** vector_test.cpp *)
Module VectorTest.
  Import VecModel.
  (** The values returned, without those of functions that return nothing, and
      the number of blocks left. *)
  Definition talk {A} (x : vout A) : bool := match x with ONone => false | _ => true end.
  Definition said {A} (r : outcome (list (vout A) * world (block A) vec)) : option (list (vout A) * nat) :=
    match r with Ok (outs, w) => Some (List.filter talk outs, base.size (hmap (w_heap w))) | Err _ => None end.
  Definition cap {A} (r : outcome (list (vout A) * world (block A) vec)) (i : nat) : option N :=
    match r with Ok (_, w) => v_cap <$> w_vars w !! i | Err _ => None end.
  Definition ints (ops : list (vop Z)) := vec_run (mem := endless) 4 0%Z Z.eqb Z.compare ops.
  Definition strs (ops : list (vop string)) := vec_run (mem := endless) 32 EmptyString String.eqb String.compare ops.
  Definition intvec (i : nat) : vop Z := VNewList i 0 [0; 1; 2; 3]%Z.
  Definition strvec (i : nat) : vop string := VNewList i 0 ["foo"; "bar"; "Hello"; "World"]%string.
  (** What [to_string] prints. *)
  Fixpoint show (ts : list (nat + string)) : string :=
    match ts with
    | [] => EmptyString
    | inl 0%nat :: r => ("Vec [" ++ show r)%string
    | inl 1%nat :: r => (", " ++ show r)%string
    | inl _ :: r => ("]" ++ show r)%string
    | inr x :: r => (x ++ show r)%string
    end.

  (** 30-57 *)
  Example BASIC_TEST :
    said (ints [intvec 0; VSize 0; VIndex 0 0; VIndex 0 1; VPush 0 10%Z; VSize 0; VIndex 0 4; VFront 0; VBack 0; VAt 0 2; VAt 0 10;
      VPop 0; VSize 0; VBack 0; VClear 0; VSize 0; VEmpty 0; intvec 1; VPush 0 10%Z; VIndex 0 0; VDestroy 1; VDestroy 0]) =
    Some ([ONum 4; OElem 0; OElem 1; ONum 5; OElem 10; OOpt (Some 0); OOpt (Some 10); OOpt (Some 2); OOpt None;
      ONum 4; OOpt (Some 3); ONum 0; OBool true; OElem 10]%Z, 0%nat) /\
    cap (ints [intvec 0; VPush 0 10%Z; VPop 0; VClear 0]) 0 = Some 0.
  Proof. by vm_compute. Qed.
  (** 59-81 *)
  Example BASIC_TEST_STR :
    said (strs [strvec 0; VSize 0; VIndex 0 0; VIndex 0 1; VPush 0 "10"; VSize 0; VIndex 0 4; VFront 0; VBack 0; VAt 0 2; VAt 0 10;
      VClear 0; VSize 0; VEmpty 0; VDestroy 0])%string =
    Some ([ONum 4; OElem "foo"; OElem "bar"; ONum 5; OElem "10"; OOpt (Some "foo"); OOpt (Some "10"); OOpt (Some "Hello"); OOpt None;
      ONum 0; OBool true], 0%nat)%string.
  Proof. by vm_compute. Qed.
  (** 83-88 *)
  Example ITER_BASED_CONSTRUCT_TEST : said (ints [VNewRange 0 0 [0; 1; 2; 3]%Z; intvec 1; VEq 0 1; VDestroy 1; VDestroy 0]) = Some ([OBool true], 0%nat).
  Proof. by vm_compute. Qed.
  (** 90-114 *)
  Example DEFAULT_TEST : said (ints [VNewCount 0 0 10; VNewFill 1 0 10 5%Z; VNew 2; VSize 0; VSize 1; VSize 2; VIndex 0 5; VIndex 1 5;
      VDestroy 2; VDestroy 1; VDestroy 0]) = Some ([ONum 10; ONum 10; ONum 0; OElem 0; OElem 5]%Z, 0%nat).
  Proof. by vm_compute. Qed.
  Example DEFAULT_TEST_STR : said (strs [VNewCount 0 0 10; VNewFill 1 0 10 "5"; VNew 2; VSize 0; VSize 1; VSize 2; VIndex 0 5; VIndex 1 5;
      VDestroy 2; VDestroy 1; VDestroy 0])%string = Some ([ONum 10; ONum 10; ONum 0; OElem ""; OElem "5"], 0%nat)%string.
  Proof. by vm_compute. Qed.
  (** 116-144 *)
  Example COPY_TEST : said (ints [intvec 0; VNewCopy 1 0; VNew 2; VCopyAsg 2 1; VSize 0; VSize 1; VIndex 0 0; VIndex 1 0; VEq 0 1; VEq 1 2;
      VSet 0 0 10%Z; VIndex 0 0; VIndex 1 0; VDestroy 2; VDestroy 1; VDestroy 0]) =
    Some ([ONum 4; ONum 4; OElem 0; OElem 0; OBool true; OBool true; OElem 10; OElem 0]%Z, 0%nat).
  Proof. by vm_compute. Qed.
  Example COPY_TEST_STR : said (strs [strvec 0; VNewCopy 1 0; VNew 2; VCopyAsg 2 1; VSize 0; VSize 1; VIndex 0 0; VIndex 1 0; VEq 0 1; VEq 1 2;
      VSet 0 0 "10"; VIndex 0 0; VIndex 1 0; VDestroy 2; VDestroy 1; VDestroy 0])%string =
    Some ([ONum 4; ONum 4; OElem "foo"; OElem "foo"; OBool true; OBool true; OElem "10"; OElem "foo"], 0%nat)%string.
  Proof. by vm_compute. Qed.
  (** 146-178 *)
  Example MOVE_TEST : said (ints [intvec 0; VSize 0; VNewMove 1 0; VSize 1; VIndex 1 0; VNew 2; VMoveAsg 2 1; VSize 2; VIndex 2 0;
      VDestroy 2; VDestroy 1; VDestroy 0]) = Some ([ONum 4; ONum 4; OElem 0; ONum 4; OElem 0]%Z, 0%nat).
  Proof. by vm_compute. Qed.
  (** 180-201 *)
  Example ASSIGN_TEST : said (ints [intvec 0; VSize 0; VAssignList 0 [5; 6; 7]%Z; VSize 0; VIndex 0 2; VAssignFill 0 2 10%Z; VSize 0; VIndex 0 1; VDestroy 0]) =
      Some ([ONum 4; ONum 3; OElem 7; ONum 2; OElem 10]%Z, 0%nat) /\
    said (strs [strvec 0; VSize 0; VAssignList 0 ["FOO"; "BAR"]; VSize 0; VIndex 0 0; VAssignFill 0 3 "BAR"; VSize 0; VIndex 0 1; VDestroy 0])%string =
      Some ([ONum 4; ONum 2; OElem "FOO"; ONum 3; OElem "BAR"], 0%nat)%string.
  Proof. by vm_compute. Qed.
  (** 203-219: the elements in order. *)
  Example FROM_ITER_TEST : said (ints [VFromIter 0 [0; 1; 2; 3]%Z; intvec 1; VEq 0 1; VDestroy 1; VDestroy 0]) = Some ([OBool true], 0%nat).
  Proof. by vm_compute. Qed.
  (** 221-226 *)
  Example RESERVE_TEST : cap (ints [intvec 0]) 0 = Some 4 /\ cap (ints [intvec 0; VReserve 0 8]) 0 = Some 8.
  Proof. by vm_compute. Qed.
  (** 228-252 *)
  Example SWAP_TEST : said (ints [VNewFill 0 0 10 0%Z; intvec 1; VSwap 0 1; VSize 0; VSize 1; VIndex 0 2; VIndex 1 2; VDestroy 1; VDestroy 0]) =
    Some ([ONum 4; ONum 10; OElem 2; OElem 0]%Z, 0%nat).
  Proof. by vm_compute. Qed.
  (** 254-264 *)
  Example COMPARE_TEST : said (ints [intvec 0; VNewCopy 1 0; VEq 0 1; VPush 1 1%Z; VCmp 1 0; VSet 0 0 10%Z; VCmp 0 1; VDestroy 1; VDestroy 0]) =
    Some ([OBool true; OCmp Gt; OCmp Gt]%Z, 0%nat).
  Proof. by vm_compute. Qed.
  (** 327-344 *)
  Definition shows (r : outcome (list (vout Z) * world (block Z) vec)) (zs : Z -> string) : option (list string) :=
    match r with
    | Ok (outs, _) => Some (omap (fun o => match o with
        | OToks ts => Some (show (map (fun t => match t with inl k => inl k | inr z => inr (zs z) end) ts)) | _ => None end) outs)
    | Err _ => None
    end.
  Definition zs (z : Z) : string :=
    match z with 0 => "0" | 1 => "1" | 2 => "2" | 3 => "3" | 4 => "4" | 6 => "6" | 10 => "10" | _ => "?" end%Z%string.
  Definition shown (r : outcome (list (vout string) * world (block string) vec)) : option (list string) :=
    match r with Ok (outs, _) => Some (omap (fun o => match o with OToks ts => Some (show ts) | _ => None end) outs) | Err _ => None end.
  Example RESIZE_TEST : said (ints [intvec 0; VResize 0 6; VSize 0; VResize 0 3; VSize 0; VResizeVal 0 5 10%Z; VSize 0; VDestroy 0]) =
      Some ([ONum 6; ONum 3; ONum 5], 0%nat) /\
    shows (ints [intvec 0; VResize 0 6; VPrint 0; VResize 0 3; VPrint 0; VResizeVal 0 5 10%Z; VPrint 0]) zs =
      Some ["Vec [0, 1, 2, 3, 0, 0]"; "Vec [0, 1, 2]"; "Vec [0, 1, 2, 10, 10]"]%string.
  Proof. by vm_compute. Qed.
  (** 346-359: the iterator returned is an index; what it points to is read by [VIndex]. *)
  Example ERASE_TEST : said (ints [intvec 0; VNewCopy 1 0; VErase 0 1; VIndex 0 1; VEraseRange 1 1 3; VIndex 1 1; VDestroy 1; VDestroy 0]) =
      Some ([OIdx (Some 1); OElem 2%Z; OIdx (Some 1); OElem 3%Z], 0%nat) /\
    shows (ints [intvec 0; VErase 0 1; VPrint 0; intvec 1; VEraseRange 1 1 3; VPrint 1]) zs = Some ["Vec [0, 2, 3]"; "Vec [0, 3]"]%string.
  Proof. by vm_compute. Qed.
  (** 361-375 *)
  Example EMPLACE_TEST : shows (ints [intvec 0; VEmplace 0 1 10%Z; VPrint 0]) zs = Some ["Vec [0, 10, 1, 2, 3]"]%string /\
    shown (strs [strvec 0; VEmplace 0 1 "H"; VPrint 0]%string) = Some ["Vec [foo, H, bar, Hello, World]"]%string.
  Proof. by vm_compute. Qed.
  (** 377-402 *)
  Example INSERT_TEST :
    shown (strs [strvec 0; VInsert 0 1 "10"; VPrint 0; strvec 1; VInsertFill 1 1 2 "10"; VPrint 1; strvec 2; VInsertRange 2 1 ["10"; "10"]; VPrint 2]%string) =
      Some ["Vec [foo, 10, bar, Hello, World]"; "Vec [foo, 10, 10, bar, Hello, World]"; "Vec [foo, 10, 10, bar, Hello, World]"]%string /\
    said (strs [strvec 0; VInsert 0 1 "10"; VIndex 0 1; strvec 1; VInsertFill 1 1 2 "10"; VIndex 1 1; strvec 2; VInsertRange 2 1 ["10"; "10"]; VIndex 2 1;
      VDestroy 2; VDestroy 1; VDestroy 0]%string) =
      Some ([OIdx (Some 1); OElem "10"; OIdx (Some 1); OElem "10"; OIdx (Some 1); OElem "10"], 0%nat)%string.
  Proof. by vm_compute. Qed.
End VectorTest.

(** ** list_test.cpp *)
Module ListTest.
  Import ListModel ListStep.
  Definition talk {A} (x : lout A) : bool := match x with OUnit => false | _ => true end.
  Definition said (ops : list (lop string)) : option (list (lout string) * nat) :=
    match run_ops (list_step (mem := endless) true) ops winit with
    | Ok (outs, w) => Some (List.filter talk outs, base.size (hmap (w_heap w))) | Err _ => None end.

  Definition says (o : lout string) : option string :=
    match o with
    | OToks ts => Some (fold_right (fun t r => match t with
        | POpen d => (if d then "List [" else "ForwardList [")%string | PElem v => v | PSep => ", "%string | PClose => "]"%string end ++ r)%string EmptyString ts)
    | _ => None
    end.
  Definition shown (dbl : bool) (ops : list (lop string)) : option (list string) :=
    match run_ops (list_step (mem := endless) dbl) ops winit with Ok (outs, _) => Some (omap says outs) | Err _ => None end.
  Definition lt (a b : string) : bool := match String.compare a b with Lt => true | _ => false end.
  Definition strs : list string := ["foo"; "bar"; "hello"; "world"]%string.

  (** 28-73 *)
  Definition construct : list (lop string) := [LRange 1 0 ["a"; "b"; "c"]; LSize 1; LFront 1; LBack 1; LPrint 1;
    LNew 2 0; LEmptyQ 2; LMovedQ 2; LFront 2; LBack 2; LCopy 3 1; LSize 3; LPrint 3; LMove 4 1; LMovedQ 1; LSize 4; LPrint 4;
    LCount 5 0 2 "foo"; LSize 5; LPrint 5; LCount 6 0 2 ""; LSize 6; LPrint 6; LRange 7 0 strs; LSize 7; LPrint 7;
    LNew 8 0; LCopyAsg 8 5; LSize 8; LPrint 8; LNew 9 0; LMoveAsg 9 5; LSize 9; LPrint 9; LNew 10 0; LIlist 10 ["foo"; "bar"]; LSize 10; LPrint 10]%string.
  Definition quiet (ops : list (lop string)) : list (lop string) :=
    List.filter (fun o => match o with LPrint _ => false | _ => true end) ops.
  Example CONSTRUCT_ASSIGN_TEST :
    said (quiet construct ++ map LDel [10; 9; 8; 7; 6; 5; 4; 3; 2; 1]%nat) =
      Some ([ONum 3; OOpt (Some "a"); OOpt (Some "c"); OBool true; OBool false; OOpt None; OOpt None; ONum 3; OBool true; ONum 3;
        ONum 2; ONum 2; ONum 4; ONum 2; ONum 2; ONum 2], 0%nat)%string /\
    shown true construct = Some ["List [a, b, c]"; "List [a, b, c]"; "List [a, b, c]"; "List [foo, foo]"; "List [, ]"; "List [foo, bar, hello, world]";
      "List [foo, foo]"; "List [foo, foo]"; "List [foo, bar]"]%string.
  Proof. by vm_compute. Qed.
  (** 75-109: [true] is [next], [false] is [prev]. *)
  Example ITER_TEST :
    said [LRange 1 0 strs; LIter 1 [true; true; true; true; true]; LFrom 2 strs; LItems 2; LItemsBack 1; LInto 2 [true; false]; LMovedQ 2; LDel 1; LDel 2] =
      Some ([OOpts [Some "foo"; Some "bar"; Some "hello"; Some "world"; None]; OList strs; OList ["world"; "hello"; "bar"; "foo"];
        OOpts [Some "foo"; Some "world"]; OBool true], 0%nat)%string.
  Proof. by vm_compute. Qed.
  (** 111-206: the iterator returned is a position counted from [before_begin];
      at position [k] is the [k]-th printed element. *)
  Definition editor : list (lop string) := [LRange 1 0 strs; LClear 1; LEmptyQ 1; LFront 1; LBack 1; LPushF 1 "foo"; LSize 1; LPrint 1;
    LPushB 1 "bar"; LSize 1; LPrint 1; LInsA 1 0 ["foo"]; LSize 1; LPrint 1; LInsA 1 1 ["bar"; "bar"]; LSize 1; LPrint 1;
    LInsA 1 1 ["foo"; "bar"]; LSize 1; LPrint 1; LClear 1; LInsA 1 0 strs; LSize 1; LPrint 1; LEraA 1 1; LSize 1; LPrint 1;
    LEraAR 1 1 3; LSize 1; LPrint 1; LIns 1 2 ["bar"]; LSize 1; LPrint 1; LIns 1 1 ["foo"; "foo"]; LSize 1; LPrint 1;
    LIns 1 1 ["foo"; "bar"]; LSize 1; LPrint 1; LIns 1 1 ["a"; "b"]; LSize 1; LPrint 1; LPopB 1; LPopF 1; LSize 1; LPrint 1;
    LEra 1 1; LSize 1; LPrint 1; LEraR 1 1 6; LSize 1; LPrint 1; LResize 1 5 ""; LSize 1; LPrint 1; LResize 1 1 ""; LSize 1; LPrint 1;
    LResize 1 3 "foo"; LSize 1; LPrint 1; LRange 2 0 ["a"]; LSwap 1 2; LPrint 1; LPrint 2]%string.
  Example EDITOR_TEST :
    said (quiet editor ++ [LDel 2; LDel 1]%nat) =
      Some ([OBool true; OOpt None; OOpt None; ONum 1; ONum 2; OPos 1; ONum 3; OPos 2; ONum 5; OPos 2; ONum 7; OPos 1; ONum 4; OPos 2; ONum 3;
        OPos 2; ONum 2; OPos 2; ONum 3; OPos 1; ONum 5; OPos 1; ONum 7; OPos 1; ONum 9; ONum 7; OPos 1; ONum 6; OPos 1; ONum 1; ONum 5; ONum 1; ONum 3],
        0%nat) /\
    shown true editor = Some ["List [foo]"; "List [foo, bar]"; "List [foo, foo, bar]"; "List [foo, bar, bar, foo, bar]";
      "List [foo, foo, bar, bar, bar, foo, bar]"; "List [foo, bar, hello, world]"; "List [foo, hello, world]"; "List [foo, world]";
      "List [foo, bar, world]"; "List [foo, foo, foo, bar, world]"; "List [foo, bar, foo, foo, foo, bar, world]";
      "List [a, b, foo, bar, foo, foo, foo, bar, world]"; "List [b, foo, bar, foo, foo, foo, bar]"; "List [foo, bar, foo, foo, foo, bar]"; "List [bar]";
      "List [bar, , , , ]"; "List [bar]"; "List [bar, foo, foo]"; "List [a]"; "List [bar, foo, foo]"]%string.
  Proof. by vm_compute. Qed.
  (** 208-244; [ls4.end()] is the position after its 8 elements. *)
  Definition operations : list (lop string) := [LRange 1 0 ["a"; "c"; "e"]; LRange 2 0 ["b"; "d"; "f"]; LMer 1 2 false lt; LPrint 1; LEmptyQ 2;
    LRange 3 0 strs; LRemIf 3 (fun a => (String.length a <? 4)%nat); LRemIf 3 (String.eqb "world"); LPrint 3; LRev 1; LPrint 1;
    LSrt 1 lt; LPrint 1; LRange 4 0 ["a"; "a"; "b"; "b"]; LUniq 4 String.eqb; LPrint 4; LSplA 4 0 1 false; LSize 4; LPrint 4;
    LSpl 4 9 3 false; LSize 4; LPrint 4]%string.
  Example OPERATIONS_TEST :
    said (quiet operations ++ map LDel [4; 3; 2; 1]%nat) = Some ([OBool true; ONum 2; ONum 1; ONum 2; ONum 8; ONum 9], 0%nat) /\
    shown true operations = Some ["List [a, b, c, d, e, f]"; "List [hello]"; "List [f, e, d, c, b, a]"; "List [a, b, c, d, e, f]"; "List [a, b]";
      "List [a, b, c, d, e, f, a, b]"; "List [a, b, c, d, e, f, a, b, hello]"]%string /\
    shown false [LRange 1 0 ["a"; "b"; "c"]; LRev 1; LPrint 1]%string = Some ["ForwardList [c, b, a]"]%string.
  Proof. by vm_compute. Qed.
End ListTest.

(** ** option_test.cpp *)
Module OptionTest.
  Import OptModel.
  Definition saw {S O} (r : outcome (list O * S)) : option (list O) := match r with Ok (outs, _) => Some outs | Err _ => None end.
  (** 31-42: the reference obtained is the address of [str]. *)
  Example TEST_REF : saw (ro_run [RSome 0 77; RUnwrapU 0; RIsSome 0] ∅) = Some [ROutU; ROutA 77; ROutB false].
  Proof. by vm_compute. Qed.
  (** 80-96: Movable keeps its number when moved from. *)
  Example TEST_MOVABLE :
    saw (opt_run true [OSome 1 10%Z; OEmplace 2 10%Z; OAsRef 1; OAsRef 2; OMoveCtor 3 1; OIsNone 1; OAsRef 3; OUnwrap 3; ODestroy 3; ODestroy 2; ODestroy 1] oinit) =
    Some [OutU; OutU; OutP (PVal 10); OutP (PVal 10); OutU; OutB true; OutP (PVal 10); OutP (PVal 10); OutU; OutU; OutU]%Z.
  Proof. by vm_compute. Qed.
  (** 98-113 *)
  Example TEST_COPYABLE :
    saw (opt_run true [OSome 1 20%Z; OSome 2 10%Z; ONone 3; OCopyAssign 2 1; OUnwrapU 2; OIsNone 2; OCopyAssign 1 2; OIsNone 1;
      OSome 4 5%Z; OMoveAssign 3 4; ODestroy 4; OIsSome 3; OUnwrapU 3] oinit) =
    Some [OutU; OutU; OutU; OutU; OutP (PVal 20); OutB true; OutU; OutB true; OutU; OutU; OutU; OutB true; OutP (PVal 5)]%Z.
  Proof. by vm_compute. Qed.
End OptionTest.

(** ** result_test.cpp *)
Module ResultTest.
  Import OptModel ResModel OptionTest.
  (** 71-97: doubles are given by a number here. *)
  Example BASIC_TEST :
    saw (res_run false false Z.eqb Z.eqb [EOk 0 10%Z; EErr 1 108%Z; EIsOk 0; EIsErr 1; EEq 0 1; EOkOpt 0; EOkU 0; EUnwrap 0; EErrOpt 0; EErrOpt 1; EErrU 1] rinit) =
    Some [EU; EU; EB true; EB true; EB false; EOV (Some (PVal 10)); EV (PVal 10); EV (PVal 10); EOF None; EOF (Some (PVal 108)); EF (PVal 108)]%Z /\
    saw (res_run true false String.eqb Z.eqb [EOk 0 "Hello"; EOk 1 "Hello"; EIsOk 0; EIsOk 1; EEq 0 1; EOk 2 "foo"; EErr 3 0%Z; EIsOk 2; EIsErr 3; EOkU 2; EErrU 3]%string rinit) =
    Some [EU; EU; EB true; EB true; EB true; EU; EU; EB true; EB true; EV (PVal "foo"); EF (PVal 0%Z)]%string.
  Proof. by vm_compute. Qed.
  (** 135-150 *)
  Example COPYABLE_TEST :
    saw (res_run true false String.eqb Z.eqb [EOk 0 "foo"; EOk 1 "bar"; ECopyCtor 2 0; ECopyCtor 3 1; EEq 0 2; EEq 1 3; ECopyAssign 2 3; EEq 2 3;
      EDestroy 3; EDestroy 2; EDestroy 1; EDestroy 0]%string rinit) =
    Some [EU; EU; EU; EU; EB true; EB true; EU; EB true; EU; EU; EU; EU].
  Proof. by vm_compute. Qed.
  (** 152-162: [Result<std::string&, int>], the string being at address 77. *)
  Example COPYABLE_REF_TEST :
    saw (res_run false false Z.eqb Z.eqb [EOk 0 77%Z; ECopyCtor 1 0; EEq 0 1; EUnwrap 0; EUnwrap 1] rinit) =
    Some [EU; EU; EB true; EV (PVal 77); EV (PVal 77)]%Z.
  Proof. by vm_compute. Qed.
End ResultTest.

(** ** range_test.cpp, fold_test.cpp *)
Module RangeTest.
  Import IterSpec RangeModel RangeCmp.
  Local Open Scope Z_scope.
  (** 12-23 *)
  Example RANGE_EQ_TEST :
    let r1 := Range 1 10 in let r2 := Range 2 10 in let r3 := Range 1 10 in let r4 := Range 2 10 in
    range_eq i32 i32 r1 r2 = false /\ range_eq i32 u32 r1 r3 = true /\ range_eq i32 u32 r1 r4 = false /\
    range_eq i32 u32 r2 r3 = false /\ range_eq i32 u32 r2 r4 = true.
  Proof. by vm_compute. Qed.
  (** 25-30 *)
  Example RANGE_CONTAIN_TEST :
    exists xs, r_for i32 10 1 10 = Ok xs /\ forallb (fun i => match contains_at i32 i32 (Range 1 10) i with Some b => b | None => false end) xs = true.
  Proof. eexists. split; [by vm_compute|done]. Qed.
  (** 32-51 *)
  Example RANGE_COURSE_CMP_TEST :
    cursor_eq i32 i32 1 2 = Some false /\ cursor_eq i32 i32 1 1 = Some true /\ cursor_eq u32 u32 1 2 = Some false /\ cursor_eq u32 u32 1 1 = Some true /\
    cursor_cmp i32 i32 2 1 = Some Gt /\ cursor_cmp i32 i32 1 2 = Some Lt /\ cursor_cmp i32 i32 1 1 = Some Eq.
  Proof. by vm_compute. Qed.
  (** 53-83, 85-120 *)
  Example RANGE_CPP_ITER_TEST :
    r_for i32 10 1 10 = Ok [1; 2; 3; 4; 5; 6; 7; 8; 9] /\ r_for u32 10 1 10 = Ok [1; 2; 3; 4; 5; 6; 7; 8; 9] /\
    r_for i8 30 97 122 = Ok (map (fun k => 97 + Z.of_nat k) (seq 0 25)).
  Proof. by vm_compute. Qed.
  Definition pulled (t : ity) (r : range) (n : nat) : option (list (de_out Z)) := OptionTest.saw (run_ops (r_step t) (replicate n DNext) r).
  Example RANGE_MSTL_ITER_TEST :
    pulled i32 (Range 1 10) 10 = Some (map (fun x => EItem (Some x)) [1; 2; 3; 4; 5; 6; 7; 8; 9] ++ [EItem None]) /\
    pulled i8 (Range 97 122) 26 = Some (map (fun k => EItem (Some (97 + Z.of_nat k))) (seq 0 25) ++ [EItem None]).
  Proof. by vm_compute. Qed.
  (** fold_test.cpp: both sums and the reduction. *)
  Definition from (xs : list Z) : IterModel.ist unit unit (list Z) := IterModel.Ist [] xs tt.
  Definition snext (xs : list Z) : option Z * list Z := (head xs, tail xs).
  Definition value {A S} (r : outcome (A * S)) : option A := match r with Ok (a, _) => Some a | Err _ => None end.
  Definition nx := IterModel.p_next (C := unit) (Wd := unit) snext (fun _ w => w) 20 [].
  Example fold_test :
    value (IterModel.t_fold (fun a x w => (a + x, w)) 20 nx 0 (from [1; 2; 3; 4; 5; 6; 7; 8; 9; 10])) = Some 55 /\
    value (IterModel.t_fold (fun a x w => (a + x, w)) 20 nx 0 (from [0; 1; 2; 3; 4; 5; 6; 7; 8; 9])) = Some 45 /\
    value (IterModel.t_reduce 20 nx (fun '(a, c) x w => ((a + x, c), w)) tt (from [0; 1; 2; 3; 4; 5; 6; 7; 8; 9])) = Some (Some 45).
  Proof. by vm_compute. Qed.
  (** array_test.cpp:31-72: the even fourth powers into an Array of 5; the first
      square above 50; the odd ones. *)
  Definition arr : list Z := [1; 2; 3; 4; 5; 6; 7; 8; 9; 10].
  Definition sq : IterModel.stage Z unit unit := IterModel.SMap (fun c x w => (x * x, c, w)).
  Definition keep (p : Z -> bool) : IterModel.stage Z unit unit := IterModel.SFilter (fun c x w => (p x, x, c, w)).
  Definition pipe (sts : list (IterModel.stage Z unit unit)) := IterModel.p_next snext (fun _ w => w) 20 sts.
  Definition fromn (n : nat) (xs : list Z) : IterModel.ist unit unit (list Z) := IterModel.Ist (replicate n tt) xs tt.
  Example test_combine :
    value (IterModel.t_collect 20 (pipe [keep Z.even; sq; sq]) (fromn 3 arr)) = Some [16; 256; 1296; 4096; 10000] /\
    value (IterModel.t_find 20 (pipe [sq]) (fun c x w => (50 <? x, x, c, w)) tt (fromn 1 arr)) = Some (Some 64) /\
    value (IterModel.t_collect 20 (pipe [keep Z.odd]) (fromn 1 arr)) = Some [1; 3; 5; 7; 9] /\
    OptionTest.saw (arr_run 5 (AVal 0) 0 Z.eqb [AFrom 0 [16; 256; 1296; 4096; 10000]; AGet 0 0; AGet 0 4]) =
      Some [AORest []; AOElem 16; AOElem 10000].
  Proof. by vm_compute. Qed.
End RangeTest.

(** ** match_test.cpp *)
Module MatchTest.
  Import RangeModel RangeCmp MatchModel.
  Local Open Scope Z_scope.
  Definition is (i v : Z) (w : unit) : bool * unit := (op_eq i32 i32 v i, w).
  Definition within (i lo hi : Z) (w : unit) : bool * unit := (r_contains (Range lo hi) i, w).
  Definition give (z : Z) (w : unit) : Z * unit := (z, w).
  (** 13-37 *)
  Example BASIC_TEST :
    match_expr (is 10 10) (give 10) [Branch None (give 20)] tt = Ok (10, tt) /\
    match_expr (is 10 1) (give 5) [Branch (Some (within 10 2 10)) (give 10); Branch None (give 20)] tt = Ok (20, tt) /\
    match_expr (is 10 1) (give 5) [Branch (Some (within 10 2 11)) (give 10); Branch None (give 20)] tt = Ok (10, tt).
  Proof. by vm_compute. Qed.
End MatchTest.

(** ** type_list_test.cpp: [int], [double], [long], [char], [float] are 0 to 4,
    [Tuple] is template 0 and [T*] is template 1 *)
Module TypeListTest.
  Import TypeListModel.
  Definition b (n : nat) : cty := CBase n.
  Definition ptr (t : cty) : cty := CInst 1 [t].
  Definition cchar : cty := CBase 9.
  Definition ls2 : tl := TypeList [b 0; b 1].
  Definition ls3 : tl := tl_append ls2 [b 3; b 4].
  Definition ls4 : tl := tl_prepend ls3 [ptr (b 1); ptr cchar].
  (** [sizeof(T) < 8] *)
  Definition small (t : cty) : bool := match t with CConst (CBase 0) | CConst (CBase 3) | CConst (CBase 4) => true | _ => false end.
  Definition pointer (t : cty) : cty := match t with CConst u => CConst (ptr u) | u => u end.
  Example main :
    tl_extract (CInst 0 [b 0; b 1; b 2]) = Some (TypeList [b 0; b 1; b 2]) /\
    tl_apply 0 ls2 = Some (CConst (CInst 0 [b 0; b 1])) /\
    tl_eq ls3 (TypeList [b 0; b 1; b 3; b 4]) = Some true /\
    tl_eq ls4 (TypeList [ptr (b 1); ptr cchar; b 0; b 1; b 3; b 4]) = Some true /\
    tl_at 1 ls4 = Some (CConst (ptr cchar)) /\
    tl_eq (tl_map pointer (tl_filter small ls4)) (TypeList [ptr (b 0); ptr (b 3); ptr (b 4)]) = Some true.
  Proof. by vm_compute. Qed.
End TypeListTest.

(** ** string_test.cpp *)
Module StringTest.
  Import StringModel.
  Definition said (r : outcome (list sout * world sblk str)) : option (list sout * nat) :=
    match r with
    | Ok (outs, w) => Some (List.filter (fun o => match o with YUnit => false | _ => true end) outs, base.size (hmap (w_heap w)))
    | Err _ => None
    end.
  Definition run (ops : list sop) := said (run_ops (str_step (mem := endless) false) ops winit).
  (** 14-56: three [pop_back]s give something and the fourth nothing; then 24 bytes. *)
  Example ASCII_STR_TEST :
    run ([SLit 0 [49; 50; 51]; SPop 0; SPop 0; SPop 0; SPop 0] ++ replicate 24 (SPush 0 [49]) ++ [SPrint 0; SDel 0]) =
    Some ([YOpt (Some 51); YOpt (Some 50); YOpt (Some 49); YOpt None; YBytes (replicate 24 49)], 0%nat).
  Proof. by vm_compute. Qed.
  (** 58-79: thirteen characters of three bytes inserted after the first one. *)
  Definition ni : list N := [228; 189; 160].
  Definition rest : list N := [229; 165; 189; 229; 149; 138; 240; 160; 128; 128].
  Example UTF8_STR_TEST :
    run ([SLit 0 (ni ++ rest)] ++ replicate 13 (SInsert 0 ni 3) ++ [SPrint 0; SDel 0]) =
      Some ([YBytes (mjoin (replicate 14 ni) ++ rest)], 0%nat) /\
    CharModel.utf8_literal (ni ++ rest ++ [0]) = Some (ni ++ rest).
  Proof. by vm_compute. Qed.
End StringTest.

(** ** tuple_test.cpp: components are strings here *)
Module TupleTest.
  Import TupleModel.
  Local Open Scope string_scope.
  Definition st0 : tst string unit := TSt ∅ 0%N tt.
  Notation TM := (M (tst string unit)).
  Definition mv (v : string) : string := EmptyString.
  Definition get (k : nat) (t : tup) : TM string := match t_get k t with Some l => t_read l | None => fail UB end.
  Definition value {A} (m : TM A) : option A := match m st0 with Ok (a, _) => Some a | Err _ => None end.
  (** 12-21 and 23-29 *)
  Example BASIC_TEST : value (a <-- t_make [] ;; c <-- t_make ["0"; "1"; "2.0"] ;; ret (t_size a, t_size c)) = Some (0, 3)%N.
  Proof. by vm_compute. Qed.
  Example GET_TEST : value (t <-- t_make ["0"; "1"; "2.0"; "Hello"] ;; a <-- get 0 t ;; b <-- get 1 t ;; c <-- get 2 t ;; d <-- get 3 t ;; ret [a; b; c; d]) =
    Some ["0"; "1"; "2.0"; "Hello"].
  Proof. by vm_compute. Qed.
  (** 31-41 *)
  Example TIE_TEST : value (t <-- t_make ["0"; "1"; "2.0"; "Hello"] ;;
      a <-- t_alloc "" ;; b <-- t_alloc "" ;; c <-- t_alloc "" ;; d <-- t_alloc "" ;;
      t_conv_assign (replicate 4 (fun v => v)) (t_tie [a; b; c; d]) t ;;;
      a' <-- t_read a ;; b' <-- t_read b ;; c' <-- t_read c ;; d' <-- t_read d ;; ret [a'; b'; c'; d']) = Some ["0"; "1"; "2.0"; "Hello"].
  Proof. by vm_compute. Qed.
  (** 43-63 *)
  Example EQUAL_TEST : value (
      a <-- t_make [] ;; b <-- t_make [] ;; x1 <-- t_eq String.eqb a b ;;
      c <-- t_make ["1"; "2"; "Hel"] ;; d <-- t_make ["1"; "2"; "Hel"] ;; e <-- t_copy_ctor d ;;
      x2 <-- t_eq String.eqb c d ;; x3 <-- t_eq String.eqb d e ;;
      match t_get 1 e with Some l => t_write l "10" | None => fail UB end ;;;
      x4 <-- t_eq String.eqb d e ;;
      i <-- t_alloc "1" ;; j <-- t_alloc "10" ;; k <-- t_alloc "Hel" ;;
      x5 <-- t_eq String.eqb e (TCons i (TCons j (TCons k TNil))) ;;
      ret [x1; x2; x3; x4; x5]) = Some [true; true; true; false; true].
  Proof. by vm_compute. Qed.
  (** 78-82 *)
  Example PAIR_TEST : value (a <-- t_make ["0"; "HH"] ;;
      match t_first a, t_second a with Some x, Some y => u <-- t_read x ;; v <-- t_read y ;; ret [u; v] | _, _ => fail UB end) = Some ["0"; "HH"].
  Proof. by vm_compute. Qed.
End TupleTest.
