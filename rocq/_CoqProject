-Q theories Verif
theories/Bytes.v
theories/Maps.v
theories/Data.v
theories/Data_facts.v
theories/Diff_facts.v
theories/Bt.v
theories/Bt_facts.v
theories/Message.v
theories/Merge.v
theories/Spec.v
theories/Message_facts.v
theories/Parse_facts.v
theories/Merge_facts.v
theories/Replay_facts.v
theories/Resolve_facts.v
theories/Wire_facts.v
theories/Reach_facts.v
theories/Round_facts.v
theories/Redeliver_facts.v
theories/Adopt_facts.v
theories/Overflow_facts.v
theories/Merge2_facts.v
theories/Data2_facts.v
theories/Toy.v
theories/Crypt.v
theories/Crypt_facts.v
theories/ToyCrypt.v
theories/Fields.v
theories/Base.v
theories/BaseSpec.v
theories/Base_facts.v
theories/Dump_facts.v
theories/Life_facts.v
theories/Life2_facts.v
theories/Life3_facts.v
theories/Life4_facts.v
theories/Fields_facts.v
theories/Conf_facts.v
theories/Conf2_facts.v
theories/Conf3_facts.v
theories/Conf4_facts.v
theories/Conf5_facts.v
theories/Conf6_facts.v
theories/Accept_facts.v
theories/ToyBase.v
theories/Properties_data.v
theories/Properties_message.v
theories/Signed_facts.v
theories/Conflict_facts.v
theories/Properties_merge.v
theories/Properties_crypt.v
theories/Properties_base.v
theories/Properties_sync.v
theories/Str_facts.v
theories/Hex.v
theories/Multi.v
theories/GroupKeys.v
theories/KeysSpec.v
theories/KeyList_facts.v
theories/Keys_facts.v
theories/Keys2_facts.v
theories/Keys3_facts.v
theories/Hex_facts.v
theories/Multi_facts.v
theories/Keys4_facts.v
theories/Keys5_facts.v
theories/ToyKeys.v
theories/Sub.v
theories/Keys6_facts.v
theories/Multi2_facts.v
theories/Keys7_facts.v
theories/Group.v
theories/Group_facts.v
theories/Properties_keys.v
theories/Records.v
theories/Records_facts.v
theories/Contacts.v
theories/Members.v
theories/Profile.v
theories/RecordsSpec.v
theories/Contacts_facts.v
theories/Members_facts.v
theories/Profile_facts.v
theories/Properties_records.v
theories/Pubkey.v
theories/Community.v
theories/CommunitySpec.v
theories/Community_facts.v
theories/Pubkey_facts.v
theories/Properties_urls.v
theories/UserGroups.v
theories/UserGroupsSpec.v
theories/UserGroups_facts.v
theories/UserGroups2_facts.v
theories/UserGroups3_facts.v
theories/UserGroups4_facts.v
theories/Properties_groups.v
theories/Convo.v
theories/ConvoSpec.v
theories/Convo_facts.v
theories/Convo2_facts.v
theories/Convo3_facts.v
theories/Properties_convo.v
theories/BtMerge.v
theories/BtMerge_facts.v
theories/Properties_btmerge.v
theories/Ed.v
theories/Prime.v
theories/PrimeL.v
theories/EdSpec.v
theories/Ed_facts.v
theories/ToyEd.v
theories/SessEnc.v
theories/SessSpec.v
theories/SessEnc_facts.v
theories/Properties_session.v
theories/Proto.v
theories/Proto_facts.v
theories/Properties_protos.v
theories/Blind.v
theories/BlindSpec.v
theories/Blind_facts.v
theories/Blind2_facts.v
theories/Properties_blind.v
theories/Json.v
theories/Onion.v
theories/OnionSpec.v
theories/Json_facts.v
theories/Onion_facts.v
theories/Properties_onion.v
theories/CMem.v
theories/CMem_facts.v
theories/Properties_capi.v
theories/CStruct.v
theories/CStruct_facts.v
theories/Properties_cstruct.v
theories/COut.v
theories/COut_facts.v
theories/Properties_cout.v
theories/CInfo.v
theories/CInfo_facts.v
theories/Properties_cinfo.v
theories/Iter.v
theories/IterSpec.v
theories/Iter_facts.v
theories/Properties_iter.v
theories/Sig.v
theories/Properties_sig.v
theories/ConvergeSpec.v
theories/Converge_facts.v
theories/Plain_facts.v
theories/Properties_converge.v
theories/Open.v
theories/OpenSpec.v
theories/Open_facts.v
theories/Properties_open.v
theories/GroupObj.v
theories/GroupObjSpec.v
theories/GroupObj_facts.v
theories/LeftSpec.v
theories/Left_facts.v
theories/Properties_left.v
theories/Properties_team.v
theories/FieldSpec.v
theories/Field_facts.v
theories/Field2_facts.v
theories/Field3_facts.v
theories/Field4_facts.v
theories/Field5_facts.v
theories/Properties_fields.v
theories/ElemSpec.v
theories/Elem_facts.v
theories/Elem2_facts.v
theories/Elem3_facts.v
theories/Elem4_facts.v
theories/Elem5_facts.v
theories/Properties_sets.v
theories/NetSpec.v
theories/Net_facts.v
theories/Hist_facts.v
theories/Quiet_facts.v
theories/Source_facts.v
theories/Net2_facts.v
theories/Properties_net.v
theories/SoloSpec.v
theories/Solo_facts.v
theories/Properties_solo.v
theories/TurnSpec.v
theories/Turn_facts.v
theories/Properties_turns.v
theories/MemberSpec.v
theories/Member_facts.v
theories/Properties_member.v
theories/KeepSpec.v
theories/Keep_facts.v
theories/Properties_keep.v
theories/Arrays.v
theories/ArraySpec.v
theories/Array_facts.v
theories/Properties_array.v
theories/Left2Spec.v
theories/Left2_facts.v
theories/Properties_removed.v
theories/Kinds.v
theories/KindSpec.v
theories/Properties_kinds.v
theories/SubSpec.v
theories/Sub_facts.v
theories/Properties_sub.v
theories/Make.v
theories/Properties_make.v
theories/Properties_more.v
theories/DeleteSpec.v
theories/Delete_facts.v
theories/Properties_delete.v
