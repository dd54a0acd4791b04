(** The templates of the two code generators and the hand-written C# files that call
    native functions, verbatim (written by tools/gensources.py; a double quote is
    doubled, as Coq wants).  No interpretation is added here. *)
From Verif Require Export Mangle.
Import Coq.Strings.String.StringSyntax.
Open Scope string_scope.

(** client/codegen_wrapped/opaque_template.cs.tpl:1-50 *)
Definition tpl_opaque : str := lit "using IntPtr = System.IntPtr;
using generated = tp_client.generated;
using RSharp;


namespace Teleportal.Client.{{namespace_super}}
{
    partial class ToManaged
    {
{{#if only_owned}}
        public static unsafe {{namespace_sub}}.{{class_ident}} f(Ptr<{{namespace_sub}}.{{class_ident}}> inner)
        {
            return new {{namespace_sub}}.{{class_ident}}(inner);
{{else}}
        public static unsafe {{namespace_sub}}.{{class_ident}} f(OwnershipSemantics ownershipSemantics, Ptr<{{namespace_sub}}.{{class_ident}}> inner)
        {
            return new {{namespace_sub}}.{{class_ident}}(inner, ownershipSemantics);
{{/if}}
        }
    }
}

namespace Teleportal.Client.{{namespace_super}}.{{namespace_sub}}
{
    public sealed class {{class_ident}} : OpaqueWrapper<{{class_ident}}>
    {
{{#if only_owned}}
        public unsafe {{class_ident}}(Ptr<{{class_ident}}> inner) : base(inner, OwnershipSemantics.Owned) { }
{{else}}
        public unsafe {{class_ident}}(Ptr<{{class_ident}}> inner, OwnershipSemantics ownershipSemantics) : base(inner, ownershipSemantics) { }
{{/if}}

{{#if new_expr}}
        public unsafe {{class_ident}}({{new_args}}) : base(
            new Ptr<{{class_ident}}>({{new_expr}}),
            OwnershipSemantics.Owned
        )
        { }
{{/if}}

        override protected void NativeDrop(Ptr<{{class_ident}}> inner)
        {
{{#if drop_ident}}
            {{drop_ident}}(inner.p);
{{/if}}
        }

        {{> additional_methods}}
    }
}
".

(** client/codegen_wrapped/keyframe.cs.tpl:1-19 *)
Definition tpl_keyframe : str := lit "public unsafe {{value_owned_ident}} Value
{
    get
    {
        var raw_ptr = generated.__Internal.TpClientContractPropertiesChannelsKeyframe{{value_mangled_name}}Value(this.Inner.Value.p);
        var ptr = new Ptr<{{value_ptr_inner}}>((IntPtr) raw_ptr);
{{#if has_second_arg}}
        return new {{value_owned_ident}}(ptr, OwnershipSemantics.SharedRef);
{{else}}
        // TODO[SER-389]: This violates rust's single ownership rule, and is unsound
        return new {{value_owned_ident}}(ptr);
{{/if}}
    }
}

public double Time
{
    get => generated.__Internal.TpClientContractPropertiesChannelsKeyframe{{value_mangled_name}}Time(this.Inner.Value.p);
}
".

(** client/codegen_wrapped/state.cs.tpl:1-22 *)
Definition tpl_state : str := lit "public unsafe {{value_owned_ident}} Value
{
    get
    {
        var raw_ptr = generated.__Internal.TpClientContractPropertiesStatesState{{value_mangled_name}}Value(this.Inner.Value.p);
        var ptr = new Ptr<{{value_ptr_inner}}>((IntPtr) raw_ptr);
{{#if has_second_arg}}
        return new {{value_owned_ident}}(ptr, OwnershipSemantics.SharedRef);
{{else}}
        // TODO[SER-389]: This violates rust's single ownership rule, and is unsound
        return new {{value_owned_ident}}(ptr);
{{/if}}
    }

    set
    {
        {
            generated.__Internal.TpClientContractPropertiesStatesState{{value_mangled_name}}ValueSet(this.Inner.Value.p, ({{value_ptr_raw}}) value.StealInner().p);
            value.Inner = null;
        }
    }
}
".

(** client/codegen_wrapped/state_handle.cs.tpl:1-1 *)
Definition tpl_state_handle : str := lit "".

(** client/codegen_wrapped/state_id.cs.tpl:1-9 *)
Definition tpl_state_id : str := lit "public unsafe ContractDataHandle Contract
{
    get
    {
        var raw_ptr = generated.__Internal.TpClientContractPropertiesStatesStateId{{inner_mangled_name}}Contract(this.Inner.Value.p);
        var ptr = new Ptr<ContractDataHandle>(raw_ptr);
        return new ContractDataHandle(ptr, OwnershipSemantics.Owned);
    }
}
".

(** crates/rsharp/codegen/rbox.cs.tpl:1-34 *)
Definition tpl_rbox : str := lit "using System;
using System.Runtime.InteropServices;

namespace RSharp
{

    public class RBox_{{type_platform}} : OpaqueWrapper<{{type_cs}}>
    {
        public unsafe RBox_{{type_platform}}({{type_cs}} value) : base(new Ptr<{{type_cs}}>((IntPtr)rsharp__Box_{{type_platform}}__new(value)), OwnershipSemantics.Owned)
        { }

        public unsafe RBox_{{type_platform}}(Ptr<{{type_cs}}> inner, OwnershipSemantics ownershipSemantics) : base(inner, ownershipSemantics)
        { }

        protected override unsafe void NativeDrop(Ptr<{{type_cs}}> inner)
        {
            rsharp__Box_{{type_platform}}__drop(({{type_cs}}{{ptr_literal}})inner.p);
        }

        public unsafe {{type_cs}} Value {
            get => *({{type_cs}}{{ptr_literal}})this.Inner.Value.p;
        }


        // -- C interop

        [DllImport(Metadata.LIBRARY_NAME)]
        private static extern unsafe {{type_cs}}{{ptr_literal}} rsharp__Box_{{type_platform}}__new({{type_cs}} value);

        [DllImport(Metadata.LIBRARY_NAME)]
        private static extern unsafe void rsharp__Box_{{type_platform}}__drop({{type_cs}}{{ptr_literal}} value);
    }

}
".

(** client/cs/src/Baseline.cs:1-53 *)
Definition cs_baseline : str := lit "using generated = tp_client.generated;
using RSharp;
using System.Collections.Generic;
using ObjectHandle = Teleportal.Client.Object.ObjectHandle;
using ContractDataHandle = Teleportal.Client.Contract.ContractDataHandle;
using ContractData = Teleportal.Client.Contract.ContractData;

// This file is manually implemented for now but will be autogenerated eventually

namespace Teleportal.Client
{
    public sealed partial class Baseline : OpaqueWrapper<Baseline>
    {

        public Baseline(bool is_main) : base(new Ptr<Baseline>(
            generated.__Internal.TpClientBaselineBaselineNew((byte)(is_main ? 0 : 1))),
            OwnershipSemantics.Owned
        )
        { }

        public Baseline(Ptr<Baseline> inner, OwnershipSemantics ownershipSemantics) : base(inner, ownershipSemantics) { }

        override protected void NativeDrop(Ptr<Baseline> inner)
        {
            generated.__Internal.TpClientBaselineBaselineDrop(inner.p);
        }

        public bool IsMain
        {
            get
            {
                return generated.__Internal.TpClientBaselineBaselineKind(this.Inner.Value.p) == 0;
            }
        }



        public ContractData ContractData(ContractDataHandle h)
        {
            if (!h.Inner.HasValue)
            {
                throw new System.ArgumentNullException(""`h` was already disposed!"");
            }
            var p = new Ptr<ContractData>(
                generated.__Internal.TpClientBaselineBaselineContractData(
                    this.Inner.Value.p,
                    h.Inner.Value.p
                )
            );
            return new ContractData(p);
        }
    }
}
".

(** client/cs/src/StateAccessors.cs:1-148 *)
Definition cs_state_accessors : str := lit "using ffi = tp_client.generated.__Internal;
using States = Teleportal.Client.Contract.Properties.States;
using ObjectHandle = Teleportal.Client.Object.ObjectHandle;
using RSharp;


namespace Teleportal.Client
{
    partial class Baseline
    {

        // TODO(SER-406): This should all be autogenerated
        public States.State_U8 State(States.StateHandle_U8 state_handle)
        {

            var p = new Ptr<States.State_U8>(
                ffi.TpClientBaselineBaselineStateU8(this.Inner.Value.p, state_handle.Inner.Value.p)
            );
            return new States.State_U8(p, OwnershipSemantics.SharedRef);
        }

        public States.State_U8 StateMut(States.StateHandle_U8 state_handle)
        {
            if (this.OwnershipSemantics == OwnershipSemantics.SharedRef)
            {
                throw new MutabilityException(""`this` must be mutable!"");
            }

            var p = new Ptr<States.State_U8>(
                ffi.TpClientBaselineBaselineStateMutU8(this.Inner.Value.p, state_handle.Inner.Value.p)
            );
            return new States.State_U8(p, OwnershipSemantics.MutRef);
        }

        public States.State_I8 State(States.StateHandle_I8 state_handle)
        {
            var p = new Ptr<States.State_I8>(
                ffi.TpClientBaselineBaselineStateI8(this.Inner.Value.p, state_handle.Inner.Value.p)
            );
            return new States.State_I8(p, OwnershipSemantics.SharedRef);
        }

        public States.State_I8 StateMut(States.StateHandle_I8 state_handle)
        {
            if (this.OwnershipSemantics == OwnershipSemantics.SharedRef)
            {
                throw new MutabilityException(""`this` must be mutable!"");
            }

            var p = new Ptr<States.State_I8>(
                 ffi.TpClientBaselineBaselineStateMutI8(this.Inner.Value.p, state_handle.Inner.Value.p)
             );
            return new States.State_I8(p, OwnershipSemantics.MutRef);
        }

        public States.State_I16 State(States.StateHandle_I16 state_handle)
        {
            var p = new Ptr<States.State_I16>(
                ffi.TpClientBaselineBaselineStateI16(this.Inner.Value.p, state_handle.Inner.Value.p)
            );
            return new States.State_I16(p, OwnershipSemantics.SharedRef);
        }

        public States.State_I16 StateMut(States.StateHandle_I16 state_handle)
        {
            if (this.OwnershipSemantics == OwnershipSemantics.SharedRef)
            {
                throw new MutabilityException(""`this` must be mutable!"");
            }

            var p = new Ptr<States.State_I16>(
                 ffi.TpClientBaselineBaselineStateMutI16(this.Inner.Value.p, state_handle.Inner.Value.p)
             );
            return new States.State_I16(p, OwnershipSemantics.MutRef);
        }

        public States.State_F32 State(States.StateHandle_F32 state_handle)
        {
            var p = new Ptr<States.State_F32>(
                ffi.TpClientBaselineBaselineStateF32(this.Inner.Value.p, state_handle.Inner.Value.p)
            );
            return new States.State_F32(p, OwnershipSemantics.SharedRef);
        }

        public States.State_F32 StateMut(States.StateHandle_F32 state_handle)
        {
            if (this.OwnershipSemantics == OwnershipSemantics.SharedRef)
            {
                throw new MutabilityException(""`this` must be mutable!"");
            }

            var p = new Ptr<States.State_F32>(
                  ffi.TpClientBaselineBaselineStateMutF32(this.Inner.Value.p, state_handle.Inner.Value.p)
              );
            return new States.State_F32(p, OwnershipSemantics.MutRef);
        }

        public States.State_U64 State(States.StateHandle_U64 state_handle)
        {
            var p = new Ptr<States.State_U64>(
                ffi.TpClientBaselineBaselineStateU64(this.Inner.Value.p, state_handle.Inner.Value.p)
            );
            return new States.State_U64(p, OwnershipSemantics.SharedRef);
        }

        public States.State_U64 StateMut(States.StateHandle_U64 state_handle)
        {
            if (this.OwnershipSemantics == OwnershipSemantics.SharedRef)
            {
                throw new MutabilityException(""`this` must be mutable!"");
            }

            var p = new Ptr<States.State_U64>(
                 ffi.TpClientBaselineBaselineStateMutU64(this.Inner.Value.p, state_handle.Inner.Value.p)
             );
            return new States.State_U64(p, OwnershipSemantics.MutRef);
        }

        public States.State_String State(States.StateHandle_String state_handle)
        {
            var p = new Ptr<States.State_String>(
                ffi.TpClientBaselineBaselineStateString(this.Inner.Value.p, state_handle.Inner.Value.p)
            );
            return new States.State_String(p, OwnershipSemantics.SharedRef);
        }

        public States.State_ObjectHandle State(States.StateHandle_ObjectHandle state_handle)
        {
            var p = new Ptr<States.State_ObjectHandle>(
                ffi.TpClientBaselineBaselineStateObjectHandle(this.Inner.Value.p, state_handle.Inner.Value.p)
            );
            return new States.State_ObjectHandle(p, OwnershipSemantics.SharedRef);
        }

        public States.State_String StateMut(States.StateHandle_String state_handle)
        {
            if (this.OwnershipSemantics == OwnershipSemantics.SharedRef)
            {
                throw new MutabilityException(""`this` must be mutable!"");
            }

            var p = new Ptr<States.State_String>(
                ffi.TpClientBaselineBaselineStateMutString(this.Inner.Value.p, state_handle.Inner.Value.p)
            );
            return new States.State_String(p, OwnershipSemantics.MutRef);
        }
    }
}
".

(** client/cs/src/StateBindings.cs:1-49 *)
Definition cs_state_bindings : str := lit "using ffi = tp_client.generated.__Internal;
using States = Teleportal.Client.Contract.Properties.States;
using ObjectHandle = Teleportal.Client.Object.ObjectHandle;
using RSharp;

namespace Teleportal.Client
{
    partial class Baseline
    {

        // TODO(SER-406): This should all be autogenerated
        public States.StateHandle_U8 BindStateU8(States.StateId_U8 id, ObjectHandle obj)
        {
            var p = new Ptr<States.StateHandle_U8>(ffi.TpClientBaselineBaselineBindStateU8(this.Inner.Value.p, id.Inner.Value.p, obj.Inner.Value.p));
            return new States.StateHandle_U8(p);
        }

        public States.StateHandle_I8 BindStateI8(States.StateId_I8 id, ObjectHandle obj)
        {
            var p = new Ptr<States.StateHandle_I8>(ffi.TpClientBaselineBaselineBindStateI8(this.Inner.Value.p, id.Inner.Value.p, obj.Inner.Value.p));
            return new States.StateHandle_I8(p);
        }
        public States.StateHandle_I16 BindStateI16(States.StateId_I16 id, ObjectHandle obj)
        {
            var p = new Ptr<States.StateHandle_I16>(ffi.TpClientBaselineBaselineBindStateI16(this.Inner.Value.p, id.Inner.Value.p, obj.Inner.Value.p));
            return new States.StateHandle_I16(p);
        }
        public States.StateHandle_F32 BindStateF32(States.StateId_F32 id, ObjectHandle obj)
        {
            var p = new Ptr<States.StateHandle_F32>(ffi.TpClientBaselineBaselineBindStateF32(this.Inner.Value.p, id.Inner.Value.p, obj.Inner.Value.p));
            return new States.StateHandle_F32(p);
        }
        public States.StateHandle_U64 BindStateU64(States.StateId_U64 id, ObjectHandle obj)
        {
            var p = new Ptr<States.StateHandle_U64>(ffi.TpClientBaselineBaselineBindStateU64(this.Inner.Value.p, id.Inner.Value.p, obj.Inner.Value.p));
            return new States.StateHandle_U64(p);
        }
        public States.StateHandle_String BindStateString(States.StateId_String id, ObjectHandle obj)
        {
            var p = new Ptr<States.StateHandle_String>(ffi.TpClientBaselineBaselineBindStateString(this.Inner.Value.p, id.Inner.Value.p, obj.Inner.Value.p));
            return new States.StateHandle_String(p);
        }
        public States.StateHandle_ObjectHandle BindStateObjectHandle(States.StateId_ObjectHandle id, ObjectHandle obj)
        {
            var p = new Ptr<States.StateHandle_ObjectHandle>(ffi.TpClientBaselineBaselineBindStateObjectHandle(this.Inner.Value.p, id.Inner.Value.p, obj.Inner.Value.p));
            return new States.StateHandle_ObjectHandle(p);
        }
    }
}
".

(** client/cs/src/Contract.cs:1-73 *)
Definition cs_contract : str := lit "using generated = tp_client.generated;
using RSharp;
using System.Collections.Generic;
using ObjectHandle = Teleportal.Client.Object.ObjectHandle;
using States = Teleportal.Client.Contract.Properties.States;

namespace Teleportal.Client.Contract
{
    public sealed class ContractDataHandle : OpaqueWrapper<ContractDataHandle>
    {
        public ContractDataHandle(Ptr<ContractDataHandle> inner, OwnershipSemantics semantics) : base(inner, semantics) { }

        override protected void NativeDrop(Ptr<ContractDataHandle> inner)
        {
            generated.__Internal.TpClientContractContractDataHandleDrop(inner.p);
        }
    }

    public sealed class ContractData : OpaqueWrapper<ContractData>
    {
        public ContractData(Ptr<ContractData> inner) : base(inner, OwnershipSemantics.SharedRef) { }

        override protected void NativeDrop(Ptr<ContractData> inner)
        {
            throw new System.InvalidOperationException(""Unreachable code reached"");
        }

        public ContractId Id
        {
            get
            {
                var cid = new Ptr<ContractId>(generated.__Internal.TpClientContractContractDataId(this.Inner.Value.p));
                return new ContractId(cid);
            }
        }

        public IEnumerable<ObjectHandle> Objects
        {
            get => throw new System.Exception(""todo"");
        }
    }

    public sealed class ContractId : OpaqueWrapper<ContractId>
    {
        public ContractId(Ptr<ContractId> inner) : base(inner, OwnershipSemantics.SharedRef) { }

        override protected void NativeDrop(Ptr<ContractId> inner)
        {
            throw new System.InvalidOperationException(""Unreachable code reached"");
        }

        public System.ReadOnlySpan<byte> Name
        {
            get
            {
                var slice = generated.__Internal.TpClientContractContractIdName(this.Inner.Value.p);
                unsafe
                {
                    return new System.ReadOnlySpan<byte>((byte*)slice.ptr, (int)slice.len);
                }
            }
        }

        public (ushort, ushort, ushort) Version
        {
            get
            {
                var version = generated.__Internal.tp_client__contract__ContractId__version(this.Inner.Value.p);
                return (version.major, version.minor, version.patch);
            }
        }
    }
}
".

(** client/cs/src/ObjectHandle.cs:1-19 *)
Definition cs_object_handle : str := lit "using generated = tp_client.generated;
using RSharp;
using System.Collections.Generic;

// This file is manually implemented for now but will be autogenerated eventually

namespace Teleportal.Client.Object
{
    public sealed class ObjectHandle : OpaqueWrapper<ObjectHandle>
    {
        public ObjectHandle(Ptr<ObjectHandle> inner, OwnershipSemantics semantics) : base(inner, semantics) { }

        override protected void NativeDrop(Ptr<ObjectHandle> inner)
        {
            generated.__Internal.TpClientObjectObjectHandleDrop(inner.p);
        }
    }

}
".

(** client/cs/src/RVec_Keyframe.cs:1-71 *)
Definition cs_rvec_keyframe : str := lit "using generated = tp_client.generated;
using RSharp;
using IntPtr = System.IntPtr;

// This file is manually implemented for now but will be autogenerated eventually

namespace Teleportal.Client.Contract.Properties.Channels
{
    using struct_RVec_Keyframe_U8 = tp_client.Vec_tp_client_contract_properties_channelsKeyframeU8.__Internal;
    using struct_RVec_Keyframe_U8_ptr = tp_client.Vec_tp_client_contract_properties_channelsKeyframeU8_ptr.__Internal;
    using struct_RVec_Keyframe_U8_const_ptr = tp_client.Vec_tp_client_contract_properties_channelsKeyframeU8_const_ptr.__Internal;

    public sealed class RVec_Keyframe_U8 : RVec<Keyframe_U8, struct_RVec_Keyframe_U8>
    {

        // TODO: Make versions from const_ptr and ptr
        public RVec_Keyframe_U8(struct_RVec_Keyframe_U8 inner) : base(inner) { }

        public RVec_Keyframe_U8() : base(NewHelper(generated.__Internal.TpClientContractPropertiesChannelsRVecKeyframeU8New)) { }

        override protected void NativeDrop(struct_RVec_Keyframe_U8 inner)
        {
            // FIXME: this line errors at build-time on Windows.
            // generated.__Internal.TpClientContractPropertiesChannelsRVecKeyframeU8Drop(inner);
        }

        public unsafe override void push(Keyframe_U8 e)
        {
            if (!e.Inner.HasValue)
            {
                throw new System.Exception(""Tried to push value that was already disposed!"");
            }
            if (!this.Inner.HasValue)
            {
                throw new System.Exception(""Tried to call a method on a value that was already disposed!"");
            }
            var shared = this.Inner.Value;
            generated.__Internal.TpClientContractPropertiesChannelsRVecKeyframeU8Push((IntPtr)(&shared), e.Inner.Value.p);
            e.Inner = null;  // move from `e`
            this.Inner = shared;
        }

        public unsafe override Keyframe_U8 this[int index]
        {
            get
            {
                var inner = this.Inner.Value;
                var inner_ptr = &inner;
                var item = new Ptr<Keyframe_U8>(generated.__Internal.TpClientContractPropertiesChannelsRVecKeyframeU8Get((IntPtr)(inner_ptr), (ulong)index));
                return new Keyframe_U8(item, OwnershipSemantics.SharedRef);
            }

            set
            {
                if (this.OwnershipSemantics == OwnershipSemantics.SharedRef)
                {
                    throw new OwnershipException(""`this` is a SharedRef"");
                }
                if (value.OwnershipSemantics != OwnershipSemantics.Owned)
                {
                    throw new OwnershipException(""`value` is not Owned"");
                }
                var val_ptr = value.Inner.Value;
                value.Inner = null;  // Move from `value`

                var array = new Ptr<Keyframe_U8>(this.Inner.Value.ptr);
                generated.__Internal.TpClientContractPropertiesChannelsRVecKeyframeU8Set(array.p, (ulong)index, val_ptr.p);
            }
        }
    }
}
".

(** client/contract_example/cs/src/ExampleContract.cs:1-162 *)
Definition cs_example_contract : str := lit "using generated = tp_contract_example.generated.__Internal;
using RSharp;
using System.Collections.Generic;
using ObjectHandle = Teleportal.Client.Object.ObjectHandle;
using States = Teleportal.Client.Contract.Properties.States;
using Baseline = Teleportal.Client.Baseline;
using ContractDataHandle = Teleportal.Client.Contract.ContractDataHandle;

namespace Teleportal.Example.Contract
{

    public class ExampleContract : OpaqueWrapper<ExampleContract>
    {
        public ExampleContract(Ptr<ExampleContract> inner, OwnershipSemantics ownershipSemantics)
        : base(inner, ownershipSemantics)
        { }

        override protected void NativeDrop(Ptr<ExampleContract> inner)
        {
            generated.TpContractExampleExampleContractDrop(inner.p);
        }

        public static ExampleContract register(Baseline baseline)
        {
            if (baseline.OwnershipSemantics == OwnershipSemantics.SharedRef)
            {
                throw new MutabilityException(""`baseline` was not mutable!"");
            }

            var p = new Ptr<ExampleContract>(
                generated.TpContractExampleExampleContractRegister(
                    baseline.Inner.Value.p
                )
            );
            return new ExampleContract(p, OwnershipSemantics.Owned);
        }

        public ContractDataHandle Handle
        {
            get
            {
                var p = new Ptr<ContractDataHandle>(
                    generated.TpContractExampleExampleContractHandle(
                        this.Inner.Value.p
                    )
                );
                return new ContractDataHandle(p, OwnershipSemantics.Owned);
            }
        }

        public ExampleStates States
        {
            get
            {
                var p = new Ptr<ExampleStates>(
                    generated.TpContractExampleExampleContractStates(
                        this.Inner.Value.p
                    )
                );
                return new ExampleStates(p);
            }
        }

        public ObjectHandle ObjectCreate(Baseline baseline, byte u8_0, byte u8_1, sbyte i8_0, sbyte i8_1, float f32_0, float f32_1, RString str_0)
        {
            if (baseline.OwnershipSemantics == OwnershipSemantics.SharedRef)
            {
                throw new OwnershipException(""`baseline` must be mutable"");
            }
            if (str_0.OwnershipSemantics != OwnershipSemantics.Owned)
            {
                throw new OwnershipException(""`str_0` must be owned"");
            }
            var p = new Ptr<ObjectHandle>(generated.TpContractExampleExampleContractObjectCreate(this.Inner.Value.p, baseline.Inner.Value.p, u8_0, u8_1, i8_0, i8_1, f32_0, f32_1, str_0.StealInner().p));
            return new ObjectHandle(p, OwnershipSemantics.Owned);
        }

        public void ObjectRemove(Baseline baseline, ObjectHandle obj)
        {
            if (baseline.OwnershipSemantics == OwnershipSemantics.SharedRef)
            {
                throw new OwnershipException(""`baseline` must be mutable"");
            }
            generated.TpContractExampleExampleContractObjectRemove(baseline.Inner.Value.p, obj.Inner.Value.p);
        }
    }

    public class ExampleStates : OpaqueWrapper<ExampleStates>
    {
        public ExampleStates(Ptr<ExampleStates> p)
        : base(p, OwnershipSemantics.SharedRef)
        { }

        override protected void NativeDrop(Ptr<ExampleStates> inner)
        {
            throw new System.InvalidOperationException(""Unreachable code reached"");
        }

        public States.StateId_U8 U8_0
        {
            get
            {
                var p = new Ptr<States.StateId_U8>(generated.TpContractExampleExampleStatesU8_0(this.Inner.Value.p));
                return new States.StateId_U8(p, OwnershipSemantics.Owned);
            }
        }

        public States.StateId_U8 U8_1
        {
            get
            {
                var p = new Ptr<States.StateId_U8>(generated.TpContractExampleExampleStatesU8_1(this.Inner.Value.p));
                return new States.StateId_U8(p, OwnershipSemantics.Owned);
            }
        }

        public States.StateId_I8 I8_0
        {
            get
            {
                var p = new Ptr<States.StateId_I8>(generated.TpContractExampleExampleStatesI8_0(this.Inner.Value.p));
                return new States.StateId_I8(p, OwnershipSemantics.Owned);
            }
        }

        public States.StateId_I8 I8_1
        {
            get
            {
                var p = new Ptr<States.StateId_I8>(generated.TpContractExampleExampleStatesI8_1(this.Inner.Value.p));
                return new States.StateId_I8(p, OwnershipSemantics.Owned);
            }
        }

        public States.StateId_F32 F32_0
        {
            get
            {
                var p = new Ptr<States.StateId_F32>(generated.TpContractExampleExampleStatesF32_0(this.Inner.Value.p));
                return new States.StateId_F32(p, OwnershipSemantics.Owned);
            }
        }

        public States.StateId_F32 F32_1
        {
            get
            {
                var p = new Ptr<States.StateId_F32>(generated.TpContractExampleExampleStatesF32_1(this.Inner.Value.p));
                return new States.StateId_F32(p, OwnershipSemantics.Owned);
            }
        }

        public States.StateId_String Str_0
        {
            get
            {
                var p = new Ptr<States.StateId_String>(generated.TpContractExampleExampleStatesStr0(this.Inner.Value.p));
                return new States.StateId_String(p, OwnershipSemantics.Owned);
            }
        }
    }
}
".

(** demos/unity_states/cs/src/BallContract.cs:1-91 *)
Definition cs_ball_contract : str := lit "using RSharp;
using ffi = unity_states.generated.__Internal;
using Baseline = Teleportal.Client.Baseline;
using ContractDataHandle = Teleportal.Client.Contract.ContractDataHandle;
using ObjectHandle = Teleportal.Client.Object.ObjectHandle;

public class BallContract : OpaqueWrapper<BallContract>
{
    unsafe BallContract(Ptr<BallContract> inner) : base(inner, OwnershipSemantics.Owned) { }

    public static unsafe BallContract Register(Baseline baseline)
    {
        if (baseline.OwnershipSemantics == OwnershipSemantics.SharedRef)
        {
            throw new MutabilityException(""`baseline` was not mutable!"");
        }
        var p = new Ptr<BallContract>(ffi.BallContract_register(baseline.Inner.Value.p));
        return new BallContract(p);
    }

    public unsafe void Unregister(Baseline baseline)
    {
        if (baseline.OwnershipSemantics == OwnershipSemantics.SharedRef)
        {
            throw new MutabilityException(""`baseline` was not mutable!"");
        }
        ffi.BallContract_unregister(baseline.Inner.Value.p, this.Handle.StealInner().p);
    }

    override protected void NativeDrop(Ptr<BallContract> inner)
    {
        ffi.BallContract_drop(inner.p);
    }

    public ContractDataHandle Handle
    {
        get
        {
            var p = new Ptr<ContractDataHandle>(ffi.BallContract_handle(this.Inner.Value.p));
            return new ContractDataHandle(p, OwnershipSemantics.Owned);
        }
    }

    public BallStates States
    {
        get
        {
            var p = new Ptr<BallStates>(ffi.BallContract_states(this.Inner.Value.p));
            return new BallStates(p);
        }
    }

    public ObjectHandle ObjectCreate(
        Baseline baseline,
        float pos_x,
        float pos_y,
        float pos_z,
        short euler_x,
        short euler_y,
        short euler_z,
        float scale_x,
        float scale_y,
        float scale_z,
        ulong color
    )
    {
        if (baseline.OwnershipSemantics == OwnershipSemantics.SharedRef)
        {
            throw new MutabilityException(""`baseline` was not mutable!"");
        }
        var p = new Ptr<ObjectHandle>(ffi.BallContract_object_create(
            baseline.Inner.Value.p,
            this.Handle.StealInner().p,
            pos_x, pos_y, pos_z,
            euler_x, euler_y, euler_z,
            scale_x, scale_y, scale_z,
            color
        ));
        return new ObjectHandle(p, OwnershipSemantics.Owned);
    }

    public static void ObjectRemove(Baseline baseline, ContractDataHandle contract)
    {
        if (baseline.OwnershipSemantics == OwnershipSemantics.SharedRef)
        {
            throw new MutabilityException(""`baseline was not mutable!"");
        }

        ffi.BallContract_object_remove(baseline.Inner.Value.p, contract.StealInner().p);
    }
}
".

(** demos/unity_states/cs/src/BallStates.cs:1-95 *)
Definition cs_ball_states : str := lit "using RSharp;
using States = Teleportal.Client.Contract.Properties.States;
using ffi = unity_states.generated.__Internal;

/// NOTE: this class is only ever a shared ref in rust
// TODO: Switch back to `struct` once https://github.com/dotnet/runtime/issues/6924 is fixed
public class BallStates
{
    readonly Ptr<BallStates> inner;

    public BallStates(Ptr<BallStates> inner)
    {
        this.inner = inner;
    }

    public States.StateId_F32 PosX
    {
        get => new States.StateId_F32(
            new Ptr<States.StateId_F32>(ffi.BallStates_pos_x(this.inner.p)),
            OwnershipSemantics.Owned
        );
    }

    public States.StateId_F32 PosY
    {
        get => new States.StateId_F32(
            new Ptr<States.StateId_F32>(ffi.BallStates_pos_y(this.inner.p)),
            OwnershipSemantics.Owned
        );
    }

    public States.StateId_F32 PosZ
    {
        get => new States.StateId_F32(
            new Ptr<States.StateId_F32>(ffi.BallStates_pos_z(this.inner.p)),
            OwnershipSemantics.Owned
        );
    }

    public States.StateId_I16 EulerX
    {
        get => new States.StateId_I16(
            new Ptr<States.StateId_I16>(ffi.BallStates_euler_x(this.inner.p)),
            OwnershipSemantics.Owned
        );
    }

    public States.StateId_I16 EulerY
    {
        get => new States.StateId_I16(
            new Ptr<States.StateId_I16>(ffi.BallStates_euler_y(this.inner.p)),
            OwnershipSemantics.Owned
        );
    }

    public States.StateId_I16 EulerZ
    {
        get => new States.StateId_I16(
            new Ptr<States.StateId_I16>(ffi.BallStates_euler_z(this.inner.p)),
            OwnershipSemantics.Owned
        );
    }

    public States.StateId_F32 ScaleX
    {
        get => new States.StateId_F32(
            new Ptr<States.StateId_F32>(ffi.BallStates_scale_x(this.inner.p)),
            OwnershipSemantics.Owned
        );
    }

    public States.StateId_F32 ScaleY
    {
        get => new States.StateId_F32(
            new Ptr<States.StateId_F32>(ffi.BallStates_scale_y(this.inner.p)),
            OwnershipSemantics.Owned
        );
    }

    public States.StateId_F32 ScaleZ
    {
        get => new States.StateId_F32(
            new Ptr<States.StateId_F32>(ffi.BallStates_scale_z(this.inner.p)),
            OwnershipSemantics.Owned
        );
    }

    public States.StateId_U64 Color
    {
        get => new States.StateId_U64(
            new Ptr<States.StateId_U64>(ffi.BallStates_color(this.inner.p)),
            OwnershipSemantics.Owned
        );
    }
}
".

(** crates/rsharp/cs/src/RString.cs:1-85 *)
Definition cs_rstring : str := lit "using System;
using System.Runtime.InteropServices;
using System.Text;

namespace RSharp
{

    public sealed class RString : OpaqueWrapper<RString>
    {
        public RString(Ptr<RString> inner, OwnershipSemantics ownershipSemantics) : base(inner, ownershipSemantics) { }
        public RString(string managedString) : this(NewHelper(managedString), OwnershipSemantics.Owned) { }

        private static Ptr<RString> NewHelper(string managedString)
        {
            var utf8 = new UTF8Encoding();
            byte[] bytes = utf8.GetBytes(managedString);
            unsafe
            {
                IntPtr rbox;
                fixed (byte* first_element = &bytes[0])
                {
                    SliceU8 raw_str = new SliceU8(first_element, (ulong)bytes.Length);
                    rbox = rsharp__String__copy_utf8(raw_str);
                }
                return new Ptr<RString>(rbox);
            }
        }

        public string Value
        {
            get
            {
                SliceU8 slice = rsharp__String__value(this.Inner.Value.p);
                var utf8 = new UTF8Encoding();
                unsafe
                {
                    return utf8.GetString(slice.ptr, (int)slice.len);
                }
            }
        }

        override protected void NativeDrop(Ptr<RString> inner)
        {
            rsharp__String__drop(inner.p);
        }

        [DllImport(Metadata.LIBRARY_NAME)]
        private static extern unsafe SliceU8 rsharp__String__value(IntPtr s);

        [DllImport(Metadata.LIBRARY_NAME)]
        private static extern unsafe void rsharp__String__drop(IntPtr s);

        [DllImport(Metadata.LIBRARY_NAME)]
        private static extern unsafe IntPtr rsharp__String__copy_utf8(SliceU8 slice);

        [DllImport(Metadata.LIBRARY_NAME)]
        private static extern unsafe IntPtr rsharp__String__copy_utf16(SliceU16 slice);

        [StructLayout(LayoutKind.Sequential)]
        private unsafe struct SliceU8
        {
            public byte* ptr;
            public ulong len;

            public SliceU8(byte* ptr, ulong len)
            {
                this.ptr = ptr;
                this.len = len;
            }
        }

        [StructLayout(LayoutKind.Sequential)]
        private unsafe struct SliceU16
        {
            public ushort* ptr;
            public ulong len;

            public SliceU16(ushort* ptr, ulong len)
            {
                this.ptr = ptr;
                this.len = len;
            }
        }
    }
}
".
