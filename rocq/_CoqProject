-Q theories Verif
theories/Base.v
theories/BaseLemmas.v
theories/SynchModel.v
theories/SynchSpec.v
theories/SynchProof.v
theories/SynchThm.v
theories/OggModel.v
theories/OggSpec.v
theories/OggCrcProof.v
theories/OggProof.v
theories/OggReadProof.v
theories/OggPacketsProof.v
theories/OggPagProof.v
theories/OggPagProof2.v
theories/OggFinal.v
theories/OggThm.v
theories/TextModel.v
theories/TextSpec.v
theories/TextProof.v
theories/TextThm.v
theories/Str.v
theories/StrLemmas.v
theories/FileModel.v
theories/Id3v1Model.v
theories/Id3v1Spec.v
theories/Id3v1Proof.v
theories/Id3v1Thm.v
theories/Mode.v
theories/TimestampModel.v
theories/TimestampSpec.v
theories/TimestampProof.v
theories/TimestampProof2.v
theories/TimestampThm.v
theories/TagType.v
theories/PopmModel.v
theories/PopmThm.v
theories/MathModel.v
theories/MathThm.v
theories/Id3v2HeaderModel.v
theories/Id3v2HeaderProof.v
theories/Id3v2HeaderThm.v
theories/ItemKeyModel.v
theories/PictureModel.v
theories/PictureProof.v
theories/PictureThm.v
theories/ItemKeyThm.v
theories/TagModel.v
theories/TagThm.v
theories/ApeModel.v
theories/TrimModel.v
theories/ApeProof.v
theories/ApeProof2.v
theories/ApeThm.v
theories/ApeThm2.v
theories/ApeThm3.v
theories/RfindModel.v
theories/RfindThm.v
theories/FlacMoveModel.v
theories/FlacMoveThm.v
theories/VorbisModel.v
theories/VorbisThm.v
theories/VorbisThm2.v
theories/VorbisThm3.v
theories/FlacModel.v
theories/FlacSpec.v
theories/FlacProof.v
theories/FlacThm.v
theories/OggFileModel.v
theories/OggFileProof.v
theories/OggFileThm.v
theories/OggFileThm2.v
theories/OggFileThm3.v
theories/IffModel.v
theories/IffSpec.v
theories/IffProof.v
theories/IffProof2.v
theories/IffProof3.v
theories/IffProof4.v
theories/IffProof5.v
theories/IffThm.v
theories/IffThm2.v
theories/AiffModel.v
theories/AiffProof.v
theories/AiffProof2.v
theories/AiffProof3.v
theories/AiffThm.v
theories/RiffThm.v
theories/Mp4Model.v
theories/Mp4WriteModel.v
theories/Mp4Spec.v
theories/Mp4Proof.v
theories/Mp4Proof2.v
theories/Mp4Proof3.v
theories/Mp4Proof4.v
theories/Mp4Proof5.v
theories/Mp4Proof6.v
theories/Mp4Proof7.v
theories/Mp4Proof8.v
theories/Mp4Proof9.v
theories/Mp4Ex.v
theories/Mp4Thm.v
theories/Mp4Thm2.v
theories/Mp4Thm3.v
theories/Mp4Thm4.v
theories/Mp4Thm5.v
theories/IlstModel.v
theories/IlstThm.v
theories/IlstProof.v
theories/IlstThm2.v
theories/IlstThm3.v
theories/FrameModel.v
theories/FrameReadModel.v
theories/FrameWriteModel.v
theories/FrameSpec.v
theories/FrameProof1.v
theories/FrameProof2.v
theories/FrameThm.v
theories/Frame23Spec.v
theories/Frame23Proof.v
theories/Frame23Thm.v
theories/FrameListSpec.v
theories/FrameListProof.v
theories/FrameListThm.v
theories/FrameTotalProof.v
theories/FrameTotalThm.v
theories/FrameSaveThm.v
theories/FrameFlawThm.v
theories/FrameRestThm.v
theories/Mp4Thm6.v
theories/Id3v2TagModel.v
theories/Id3v2TagSpec.v
theories/Id3v2TagProof.v
theories/Id3v2TagProof2.v
theories/Id3v2TagProof3.v
theories/Id3v2TagProof4.v
theories/Id3v2TagProof5.v
theories/Id3v2TagThm.v
theories/Id3v2TagThm2.v
theories/MpegModel.v
theories/MpegSpec.v
theories/MpegProof.v
theories/MpegProof2.v
theories/MpegProof3.v
theories/MpegProof4.v
theories/MpegProof5.v
theories/MpegThm.v
theories/FrameOldSpec.v
theories/FrameOldProof.v
theories/FrameOldThm.v
theories/AacModel.v
theories/AacSpec.v
theories/AacProof.v
theories/AacProof2.v
theories/AacProof3.v
theories/AacProof4.v
theories/AacThm.v
theories/F64Proof.v
theories/F64Thm.v
theories/TailProof.v
theories/WavPackModel.v
theories/WavPackSpec.v
theories/WavPackProof.v
theories/WavPackProof2.v
theories/WavPackThm.v
theories/F64Proof2.v
theories/MusepackModel.v
theories/MusepackSpec.v
theories/MusepackProof.v
theories/MusepackProof2.v
theories/MusepackProof3.v
theories/MusepackProof4.v
theories/MusepackThm.v
theories/Mp4PropsModel.v
theories/Mp4PropsSpec.v
theories/Mp4PropsProof.v
theories/Mp4PropsProof2.v
theories/Mp4PropsProof3.v
theories/Mp4PropsProof4.v
theories/Mp4PropsProof5.v
theories/Mp4PropsProof6.v
theories/Mp4PropsThm.v
theories/ProbeModel.v
theories/ProbeSpec.v
theories/ProbeProof.v
theories/ProbeThm.v
theories/TaggedModel.v
theories/TaggedThm.v
theories/IffTagModel.v
theories/IffTagThm.v
theories/Id3v2ItemsModel.v
theories/Id3v2ItemsThm.v
theories/ApePropsModel.v
theories/ApePropsProof.v
theories/ApePropsThm.v
theories/KeptProof.v
theories/KeptProof2.v
theories/KeptProof3.v
theories/KeptThm.v
theories/AllocModel.v
theories/AllocThm.v
theories/AllocThm2.v
theories/AllocThm3.v
theories/MpegThm2.v
theories/Id3v2TagThm3.v
theories/TaggedThm2.v
theories/WavPropsThm.v
theories/FilePropsModel.v
theories/FilePropsThm.v
theories/MusepackThm2.v
theories/ApePropsThm2.v
theories/UserTextModel.v
theories/UserTextThm.v
theories/Mp4PropsThm2.v
theories/GenericVcThm.v
theories/GenericApeThm.v
theories/GenericMp4Thm.v
theories/GenericId3Thm.v
theories/CommentSizeThm.v
theories/GenericId3v1Thm.v
theories/ChunkTagModel.v
theories/GenericChunkThm.v
theories/DumpThm.v
theories/SaveTotalThm.v
theories/FrameHashModel.v
theories/FrameHashThm.v
theories/StableThm.v
theories/StableMp4Thm.v
theories/SoundThm.v
theories/SoundFlacThm.v
theories/SoundMpegThm.v
theories/SoundApeThm.v
theories/SoundOggThm.v
theories/SoundMp4Thm.v
theories/DumpMp4Thm.v
theories/DumpOggThm.v
theories/UndoThm.v
theories/OverwriteThm.v
theories/CommuteThm.v
theories/CommuteThm2.v
theories/CommuteThm3.v
