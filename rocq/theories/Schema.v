(** Generated by tools/schema.py from the Go text: every struct type of package mpd with its fields, in order.
    Types other than structs are replaced by their kinds, except Duration and FloatInf64, which have methods;
    the tag is the value of the key xml; a field is embedded if it has no name of its own. *)
From Coq Require Import String.
From Coq Require Import ZArith List Bool.
From Verif Require Import Base GoType.
Import ListNotations.
Open Scope Z_scope.

(** mpd/mpd.go:87-121 *)
Definition T_MPD : sdecl := mksd (str "MPD") [
  mkfd (str "XMLName") false (str "MPD") (TName);
  mkfd (str "XMLNs") false (str "xmlns,attr,omitempty") (TString);
  mkfd (str "SchemaLocation") false (str "http://www.w3.org/2001/XMLSchema-instance xsi:schemaLocation,attr,omitempty") (TString);
  mkfd (str "Id") false (str "id,attr,omitempty") (TString);
  mkfd (str "Profiles") false (str "profiles,attr") (TString);
  mkfd (str "Type") false (str "type,attr,omitempty") (TPtr (TString));
  mkfd (str "AvailabilityStartTime") false (str "availabilityStartTime,attr,omitempty") (TString);
  mkfd (str "AvailabilityEndTime") false (str "availabilityEndTime,attr,omitempty") (TString);
  mkfd (str "PublishTime") false (str "publishTime,attr,omitempty") (TString);
  mkfd (str "MediaPresentationDuration") false (str "mediaPresentationDuration,attr") (TPtr (TDuration));
  mkfd (str "MinimumUpdatePeriod") false (str "minimumUpdatePeriod,attr") (TPtr (TDuration));
  mkfd (str "MinBufferTime") false (str "minBufferTime,attr") (TPtr (TDuration));
  mkfd (str "TimeShiftBufferDepth") false (str "timeShiftBufferDepth,attr") (TPtr (TDuration));
  mkfd (str "SuggestedPresentationDelay") false (str "suggestedPresentationDelay,attr") (TPtr (TDuration));
  mkfd (str "MaxSegmentDuration") false (str "maxSegmentDuration,attr") (TPtr (TDuration));
  mkfd (str "MaxSubsegmentDuration") false (str "maxSubsegmentDuration,attr") (TPtr (TDuration));
  mkfd (str "ProgramInformation") false (str "ProgramInformation") (TSlice (TPtr (TStruct (str "ProgramInformationType"))));
  mkfd (str "BaseURL") false (str "BaseURL") (TSlice (TPtr (TStruct (str "BaseURLType"))));
  mkfd (str "Location") false (str "Location") (TSlice (TPtr (TStruct (str "LocationType"))));
  mkfd (str "PatchLocation") false (str "PatchLocation") (TSlice (TPtr (TStruct (str "PatchLocationType"))));
  mkfd (str "RequestParam") false (str "RequestParam") (TSlice (TPtr (TStruct (str "ExtendedUrlInfoType"))));
  mkfd (str "ServiceDescription") false (str "ServiceDescription") (TSlice (TPtr (TStruct (str "ServiceDescriptionType"))));
  mkfd (str "InitializationSet") false (str "InitializationSet") (TSlice (TPtr (TStruct (str "InitializationSetType"))));
  mkfd (str "InitializationGroup") false (str "InitializationGroup") (TSlice (TPtr (TStruct (str "UIntVWithIDType"))));
  mkfd (str "InitializationPresentation") false (str "InitializationPresentation") (TSlice (TPtr (TStruct (str "UIntVWithIDType"))));
  mkfd (str "ContentProtection") false (str "ContentProtection") (TSlice (TPtr (TStruct (str "ContentProtectionType"))));
  mkfd (str "Periods") false (str "Period") (TSlice (TPtr (TStruct (str "Period"))));
  mkfd (str "Metrics") false (str "Metrics") (TSlice (TPtr (TStruct (str "MetricsType"))));
  mkfd (str "EssentialProperties") false (str "EssentialProperty") (TSlice (TPtr (TStruct (str "DescriptorType"))));
  mkfd (str "SupplementalProperties") false (str "SupplementalProperty") (TSlice (TPtr (TStruct (str "DescriptorType"))));
  mkfd (str "UTCTimings") false (str "UTCTiming") (TSlice (TPtr (TStruct (str "DescriptorType"))));
  mkfd (str "LeapSecondInformation") false (str "LeapSecondInformation") (TPtr (TStruct (str "LeapSecondInformationType")));
  mkfd (str "ContentSteering") false (str "ContentSteering") (TPtr (TStruct (str "ContentSteeringType")))].
(** mpd/mpd.go:139-144 *)
Definition T_PatchLocationType : sdecl := mksd (str "PatchLocationType") [
  mkfd (str "XMLName") false (str "PatchLocation") (TName);
  mkfd (str "ServiceLocation") false (str "serviceLocation,attr,omitempty") (TString);
  mkfd (str "Ttl") false (str "ttl,attr,omitempty") (TFloat 64);
  mkfd (str "Value") false (str ",chardata") (TString)].
(** mpd/mpd.go:147-150 *)
Definition T_LocationType : sdecl := mksd (str "LocationType") [
  mkfd (str "ServiceLocation") false (str "serviceLocation,attr,omitempty") (TString);
  mkfd (str "Value") false (str ",chardata") (TString)].
(** mpd/mpd.go:152-180 *)
Definition T_Period : sdecl := mksd (str "Period") [
  mkfd (str "XMLName") false (str "Period") (TName);
  mkfd (str "XlinkHref") false (str "http://www.w3.org/1999/xlink xlink:href,attr,omitempty") (TString);
  mkfd (str "XlinkActuate") false (str "http://www.w3.org/1999/xlink xlink:actuate,attr,omitempty") (TString);
  mkfd (str "XlinkType") false (str "http://www.w3.org/1999/xlink xlink:type,attr,omitempty") (TString);
  mkfd (str "XlinkShow") false (str "http://www.w3.org/1999/xlink xlink:show,attr,omitempty") (TString);
  mkfd (str "Id") false (str "id,attr,omitempty") (TString);
  mkfd (str "Start") false (str "start,attr") (TPtr (TDuration));
  mkfd (str "Duration") false (str "duration,attr") (TPtr (TDuration));
  mkfd (str "BitstreamSwitching") false (str "bitstreamSwitching,attr") (TPtr (TBool));
  mkfd (str "MinBufferTime") false (str "minBufferTime,attr") (TPtr (TDuration));
  mkfd (str "ImportedMPDs") false (str "ImportedMPD") (TSlice (TPtr (TStruct (str "ImportedMpdType"))));
  mkfd (str "BaseURLs") false (str "BaseURL") (TSlice (TPtr (TStruct (str "BaseURLType"))));
  mkfd (str "RequestParam") false (str "RequestParam") (TSlice (TPtr (TStruct (str "ExtendedUrlInfoType"))));
  mkfd (str "SegmentBase") false (str "SegmentBase") (TPtr (TStruct (str "SegmentBaseType")));
  mkfd (str "SegmentList") false (str "SegmentList") (TPtr (TStruct (str "SegmentListType")));
  mkfd (str "SegmentTemplate") false (str "SegmentTemplate") (TPtr (TStruct (str "SegmentTemplateType")));
  mkfd (str "AssetIdentifier") false (str "AssetIdentifier") (TPtr (TStruct (str "DescriptorType")));
  mkfd (str "EventStreams") false (str "EventStream") (TSlice (TPtr (TStruct (str "EventStreamType"))));
  mkfd (str "ServiceDescriptions") false (str "ServiceDescription") (TSlice (TPtr (TStruct (str "ServiceDescriptionType"))));
  mkfd (str "ContentProtections") false (str "ContentProtection") (TSlice (TPtr (TStruct (str "ContentProtectionType"))));
  mkfd (str "AdaptationSets") false (str "AdaptationSet") (TSlice (TPtr (TStruct (str "AdaptationSetType"))));
  mkfd (str "Subsets") false (str "Subset") (TSlice (TPtr (TStruct (str "SubsetType"))));
  mkfd (str "SupplementalProperties") false (str "SupplementalProperty") (TSlice (TPtr (TStruct (str "DescriptorType"))));
  mkfd (str "EmptyAdaptationSets") false (str "EmptyAdaptationSet") (TSlice (TPtr (TStruct (str "AdaptationSetType"))));
  mkfd (str "GroupLabels") false (str "GroupLabel") (TSlice (TPtr (TStruct (str "LabelType"))));
  mkfd (str "Preselections") false (str "Preselection") (TSlice (TPtr (TStruct (str "PreselectionType"))));
  mkfd (str "parent") false (str "-") (TPtr (TStruct (str "MPD")))].
(** mpd/mpd.go:183-186 *)
Definition T_ImportedMpdType : sdecl := mksd (str "ImportedMpdType") [
  mkfd (str "EarliestResolutionTimeOffset") false (str "earliestResolutionTimeOffset,attr") (TFloat 64);
  mkfd (str "Value") false (str ",chardata") (TString)].
(** mpd/mpd.go:198-212 *)
Definition T_EventStreamType : sdecl := mksd (str "EventStreamType") [
  mkfd (str "XlinkHref") false (str "http://www.w3.org/1999/xlink xlink:href,attr,omitempty") (TString);
  mkfd (str "XlinkActuate") false (str "http://www.w3.org/1999/xlink xlink:actuate,attr,omitempty") (TString);
  mkfd (str "XlinkType") false (str "http://www.w3.org/1999/xlink xlink:type,attr,omitempty") (TString);
  mkfd (str "XlinkShow") false (str "http://www.w3.org/1999/xlink xlink:show,attr,omitempty") (TString);
  mkfd (str "SchemeIdUri") false (str "schemeIdUri,attr") (TString);
  mkfd (str "Value") false (str "value,attr,omitempty") (TString);
  mkfd (str "Timescale") false (str "timescale,attr") (TPtr (TUint 32));
  mkfd (str "PresentationTimeOffset") false (str "presentationTimeOffset,attr,omitempty") (TUint 64);
  mkfd (str "Events") false (str "Event") (TSlice (TPtr (TStruct (str "EventType"))));
  mkfd (str "BaseURLs") false (str "BaseURL") (TSlice (TPtr (TStruct (str "BaseURLType"))));
  mkfd (str "RequestParam") false (str "RequestParam") (TSlice (TPtr (TStruct (str "ExtendedUrlInfoType"))));
  mkfd (str "EssentialProperty") false (str "EssentialProperty") (TSlice (TPtr (TStruct (str "DescriptorType"))));
  mkfd (str "SupplementalProperty") false (str "SupplementalProperty") (TSlice (TPtr (TStruct (str "DescriptorType"))))].
(** mpd/mpd.go:224-241 *)
Definition T_EventType : sdecl := mksd (str "EventType") [
  mkfd (str "XMLName") false (str "Event") (TName);
  mkfd (str "PresentationTime") false (str "presentationTime,attr") (TUint 64);
  mkfd (str "Duration") false (str "duration,attr,omitempty") (TUint 64);
  mkfd (str "Id") false (str "id,attr") (TPtr (TUint 64));
  mkfd (str "Status") false (str "status,attr,omitempty") (TString);
  mkfd (str "ContentEncoding") false (str "contentEncoding,attr,omitempty") (TString);
  mkfd (str "MessageData") false (str "messageData,attr,omitempty") (TString);
  mkfd (str "Value") false (str ",chardata") (TString);
  mkfd (str "SelectionInfo") false (str "SelectionInfo") (TPtr (TStruct (str "SelectionInfoType")));
  mkfd (str "ServiceDescription") false (str "ServiceDescription") (TPtr (TStruct (str "ServiceDescriptionType")));
  mkfd (str "InsertPresentation") false (str "InsertPresentation") (TPtr (TStruct (str "AlternativeMPDEventType")));
  mkfd (str "ReplacePresentation") false (str "ReplacePresentation") (TPtr (TStruct (str "AlternativeMPDReplaceEventType")));
  mkfd (str "SupplementalProperty") false (str "SupplementalProperty") (TSlice (TPtr (TStruct (str "DescriptorType"))));
  mkfd (str "EssentialProperty") false (str "EssentialProperty") (TSlice (TPtr (TStruct (str "DescriptorType"))));
  mkfd (str "Signal") false (str "Signal,omitempty") (TPtr (TStruct (str "SignalType")));
  mkfd (str "SpliceInfoSection") false (str "SpliceInfoSection,omitempty") (TPtr (TStruct (str "SpliceInfoSectionType")))].
(** mpd/mpd.go:244-248 *)
Definition T_SelectionInfoType : sdecl := mksd (str "SelectionInfoType") [
  mkfd (str "SelectionInfo") false (str "selectionInfo,attr,omitempty") (TString);
  mkfd (str "ContactURL") false (str "contactURL,attr") (TString);
  mkfd (str "Selection") false (str "Selection") (TSlice (TPtr (TStruct (str "SelectionType"))))].
(** mpd/mpd.go:251-255 *)
Definition T_SelectionType : sdecl := mksd (str "SelectionType") [
  mkfd (str "DataEncoding") false (str "dataEncoding,attr,omitempty") (TString);
  mkfd (str "Parameter") false (str "parameter,attr") (TString);
  mkfd (str "Data") false (str "data,attr,omitempty") (TString)].
(** mpd/mpd.go:258-276 *)
Definition T_InitializationSetType : sdecl := mksd (str "InitializationSetType") [
  mkfd (str "XMLName") false (str "InitializationSet") (TName);
  mkfd (str "XlinkHref") false (str "http://www.w3.org/1999/xlink xlink:href,attr,omitempty") (TString);
  mkfd (str "XlinkActuate") false (str "http://www.w3.org/1999/xlink xlink:actuate,attr,omitempty") (TString);
  mkfd (str "XlinkType") false (str "http://www.w3.org/1999/xlink xlink:type,attr,omitempty") (TString);
  mkfd (str "Id") false (str "id,attr") (TUint 32);
  mkfd (str "InAllPeriods") false (str "inAllPeriods,attr") (TPtr (TBool));
  mkfd (str "ContentType") false (str "contentType,attr,omitempty") (TString);
  mkfd (str "Par") false (str "par,attr,omitempty") (TString);
  mkfd (str "MaxWidth") false (str "maxWidth,attr,omitempty") (TUint 32);
  mkfd (str "MaxHeight") false (str "maxHeight,attr,omitempty") (TUint 32);
  mkfd (str "MaxFrameRate") false (str "maxFrameRate,attr,omitempty") (TString);
  mkfd (str "Initialization") false (str "initialization,attr,omitempty") (TString);
  mkfd (str "Accessibilities") false (str "Accessibility") (TSlice (TPtr (TStruct (str "DescriptorType"))));
  mkfd (str "Roles") false (str "Role") (TSlice (TPtr (TStruct (str "DescriptorType"))));
  mkfd (str "Ratings") false (str "Rating") (TSlice (TPtr (TStruct (str "DescriptorType"))));
  mkfd (str "Viewpoints") false (str "Viewpoint") (TSlice (TPtr (TStruct (str "DescriptorType"))));
  mkfd (str "RepresentationBaseType") true (str "") (TStruct (str "RepresentationBaseType"))].
(** mpd/mpd.go:279-290 *)
Definition T_ServiceDescriptionType : sdecl := mksd (str "ServiceDescriptionType") [
  mkfd (str "XMLName") false (str "ServiceDescription") (TName);
  mkfd (str "Id") false (str "id,attr") (TUint 32);
  mkfd (str "Scopes") false (str "Scope") (TSlice (TPtr (TStruct (str "DescriptorType"))));
  mkfd (str "Latencies") false (str "Latency") (TSlice (TPtr (TStruct (str "LatencyType"))));
  mkfd (str "PlaybackRates") false (str "PlaybackRate") (TSlice (TPtr (TStruct (str "PlaybackRateType"))));
  mkfd (str "OperatingQualities") false (str "OperatingQuality") (TSlice (TPtr (TStruct (str "OperatingQualityType"))));
  mkfd (str "OperatingBandwidths") false (str "OperatingBandwidth") (TSlice (TPtr (TStruct (str "OperatingBandwidthType"))));
  mkfd (str "ContentSteerings") false (str "ContentSteering") (TSlice (TPtr (TStruct (str "ContentSteeringType"))));
  mkfd (str "ClientDataReporting") false (str "ClientDataReporting") (TSlice (TPtr (TStruct (str "ClientDataReportingType"))));
  mkfd (str "PlaybackRestrictions") false (str "PlaybackRestrictions") (TSlice (TPtr (TStruct (str "PlaybackRestrictionsType"))))].
(** mpd/mpd.go:293-300 *)
Definition T_LatencyType : sdecl := mksd (str "LatencyType") [
  mkfd (str "XMLName") false (str "Latency") (TName);
  mkfd (str "ReferenceId") false (str "referenceId,attr") (TUint 32);
  mkfd (str "Target") false (str "target,attr") (TPtr (TUint 32));
  mkfd (str "Max") false (str "max,attr") (TPtr (TUint 32));
  mkfd (str "Min") false (str "min,attr") (TPtr (TUint 32));
  mkfd (str "QualityLatencies") false (str "QualityLatency") (TSlice (TPtr (TStruct (str "UIntPairsWithIDType"))))].
(** mpd/mpd.go:303-307 *)
Definition T_PlaybackRateType : sdecl := mksd (str "PlaybackRateType") [
  mkfd (str "XMLName") false (str "PlaybackRate") (TName);
  mkfd (str "Max") false (str "max,attr,omitempty") (TFloat 64);
  mkfd (str "Min") false (str "min,attr,omitempty") (TFloat 64)].
(** mpd/mpd.go:310-318 *)
Definition T_OperatingQualityType : sdecl := mksd (str "OperatingQualityType") [
  mkfd (str "XMLName") false (str "OperatingQuality") (TName);
  mkfd (str "MediaType") false (str "mediaType,attr,omitempty") (TString);
  mkfd (str "Min") false (str "min,attr,omitempty") (TUint 32);
  mkfd (str "Max") false (str "max,attr,omitempty") (TUint 32);
  mkfd (str "Target") false (str "target,attr,omitempty") (TUint 32);
  mkfd (str "Type") false (str "type,attr,omitempty") (TString);
  mkfd (str "MaxDifference") false (str "maxDifference,attr,omitempty") (TUint 32)].
(** mpd/mpd.go:321-327 *)
Definition T_OperatingBandwidthType : sdecl := mksd (str "OperatingBandwidthType") [
  mkfd (str "XMLName") false (str "OperatingBandwidth") (TName);
  mkfd (str "MediaType") false (str "mediaType,attr,omitempty") (TString);
  mkfd (str "Min") false (str "min,attr,omitempty") (TUint 32);
  mkfd (str "Max") false (str "max,attr,omitempty") (TUint 32);
  mkfd (str "Target") false (str "target,attr,omitempty") (TUint 32)].
(** mpd/mpd.go:330-332 *)
Definition T_PlaybackRestrictionsType : sdecl := mksd (str "PlaybackRestrictionsType") [
  mkfd (str "SkipAfter") false (str "skipAfter,attr,omitempty") (TDuration)].
(** mpd/mpd.go:335-339 *)
Definition T_UIntPairsWithIDType : sdecl := mksd (str "UIntPairsWithIDType") [
  mkfd (str "XMLName") false (str "UIntPairsWithID") (TName);
  mkfd (str "Type") false (str "type,attr,omitempty") (TString);
  mkfd (str "UIntVectorType") true (str "") (TPtr (TString))].
(** mpd/mpd.go:342-348 *)
Definition T_UIntVWithIDType : sdecl := mksd (str "UIntVWithIDType") [
  mkfd (str "XMLName") false (str "UIntVWithID") (TName);
  mkfd (str "Id") false (str "id,attr") (TUint 32);
  mkfd (str "Profiles") false (str "profiles,attr,omitempty") (TString);
  mkfd (str "ContentType") false (str "contentType,attr,omitempty") (TString);
  mkfd (str "UIntVectorType") true (str "") (TString)].
(** mpd/mpd.go:352-389 *)
Definition T_AdaptationSetType : sdecl := mksd (str "AdaptationSetType") [
  mkfd (str "XlinkHref") false (str "xlink:href,attr,omitempty") (TString);
  mkfd (str "XlinkActuate") false (str "xlink:actuate,attr,omitempty") (TString);
  mkfd (str "XlinkType") false (str "xlink:type,attr,omitempty") (TString);
  mkfd (str "XlinkShow") false (str "xlink:show,attr,omitempty") (TString);
  mkfd (str "Id") false (str "id,attr") (TPtr (TUint 32));
  mkfd (str "Group") false (str "group,attr,omitempty") (TUint 32);
  mkfd (str "Lang") false (str "lang,attr,omitempty") (TString);
  mkfd (str "ContentType") false (str "contentType,attr,omitempty") (TString);
  mkfd (str "Par") false (str "par,attr,omitempty") (TString);
  mkfd (str "MinBandwidth") false (str "minBandwidth,attr,omitempty") (TUint 32);
  mkfd (str "MaxBandwidth") false (str "maxBandwidth,attr,omitempty") (TUint 32);
  mkfd (str "MinWidth") false (str "minWidth,attr,omitempty") (TUint 32);
  mkfd (str "MaxWidth") false (str "maxWidth,attr,omitempty") (TUint 32);
  mkfd (str "MinHeight") false (str "minHeight,attr,omitempty") (TUint 32);
  mkfd (str "MaxHeight") false (str "maxHeight,attr,omitempty") (TUint 32);
  mkfd (str "MinFrameRate") false (str "minFrameRate,attr,omitempty") (TString);
  mkfd (str "MaxFrameRate") false (str "maxFrameRate,attr,omitempty") (TString);
  mkfd (str "SegmentAlignment") false (str "segmentAlignment,attr,omitempty") (TBool);
  mkfd (str "SubsegmentAlignment") false (str "subsegmentAlignment,attr,omitempty") (TBool);
  mkfd (str "SubsegmentStartsWithSAP") false (str "subsegmentStartsWithSAP,attr,omitempty") (TUint 32);
  mkfd (str "BitstreamSwitching") false (str "bitstreamSwitching,attr") (TPtr (TBool));
  mkfd (str "InitializationSetRef") false (str "initializationSetRef,attr,omitempty") (TPtr (TString));
  mkfd (str "InitializationPrincipal") false (str "initializationPrincipal,attr,omitempty") (TString);
  mkfd (str "RepresentationBaseType") true (str "") (TStruct (str "RepresentationBaseType"));
  mkfd (str "Accessibilities") false (str "Accessibility") (TSlice (TPtr (TStruct (str "DescriptorType"))));
  mkfd (str "Roles") false (str "Role") (TSlice (TPtr (TStruct (str "DescriptorType"))));
  mkfd (str "Ratings") false (str "Rating") (TSlice (TPtr (TStruct (str "DescriptorType"))));
  mkfd (str "Viewpoints") false (str "Viewpoint") (TSlice (TPtr (TStruct (str "DescriptorType"))));
  mkfd (str "ContentComponents") false (str "ContentComponent") (TSlice (TPtr (TStruct (str "ContentComponentType"))));
  mkfd (str "BaseURLs") false (str "BaseURL") (TSlice (TPtr (TStruct (str "BaseURLType"))));
  mkfd (str "RequestParam") false (str "RequestParam") (TSlice (TPtr (TStruct (str "ExtendedUrlInfoType"))));
  mkfd (str "SegmentBase") false (str "SegmentBase") (TPtr (TStruct (str "SegmentBaseType")));
  mkfd (str "SegmentList") false (str "SegmentList") (TPtr (TStruct (str "SegmentListType")));
  mkfd (str "SegmentTemplate") false (str "SegmentTemplate") (TPtr (TStruct (str "SegmentTemplateType")));
  mkfd (str "Representations") false (str "Representation") (TSlice (TPtr (TStruct (str "RepresentationType"))));
  mkfd (str "parent") false (str "-") (TPtr (TStruct (str "Period")))].
(** mpd/mpd.go:427-438 *)
Definition T_ContentComponentType : sdecl := mksd (str "ContentComponentType") [
  mkfd (str "XMLName") false (str "ContentComponent") (TName);
  mkfd (str "Id") false (str "id,attr") (TPtr (TUint 32));
  mkfd (str "Lang") false (str "lang,attr,omitempty") (TString);
  mkfd (str "ContentType") false (str "contentType,attr,omitempty") (TString);
  mkfd (str "Par") false (str "par,attr,omitempty") (TString);
  mkfd (str "Tag") false (str "tag,attr,omitempty") (TString);
  mkfd (str "Accessibilities") false (str "Accessibility") (TSlice (TPtr (TStruct (str "DescriptorType"))));
  mkfd (str "Roles") false (str "Role") (TSlice (TPtr (TStruct (str "DescriptorType"))));
  mkfd (str "Ratings") false (str "Rating") (TSlice (TPtr (TStruct (str "DescriptorType"))));
  mkfd (str "Viewpoints") false (str "Viewpoint") (TSlice (TPtr (TStruct (str "DescriptorType"))))].
(** mpd/mpd.go:441-460 *)
Definition T_RepresentationType : sdecl := mksd (str "RepresentationType") [
  mkfd (str "XMLName") false (str "Representation") (TName);
  mkfd (str "Id") false (str "id,attr") (TString);
  mkfd (str "Bandwidth") false (str "bandwidth,attr") (TUint 32);
  mkfd (str "QualityRanking") false (str "qualityRanking,attr,omitempty") (TPtr (TUint 32));
  mkfd (str "DependencyId") false (str "dependencyId,attr,omitempty") (TPtr (TString));
  mkfd (str "AssociationId") false (str "associationId,attr,omitempty") (TPtr (TString));
  mkfd (str "AssociationType") false (str "associationType,attr,omitempty") (TPtr (TString));
  mkfd (str "MediaStreamStructureId") false (str "mediaStreamStructureId,attr,omitempty") (TPtr (TString));
  mkfd (str "RepresentationBaseType") true (str "") (TStruct (str "RepresentationBaseType"));
  mkfd (str "BaseURLs") false (str "BaseURL") (TSlice (TPtr (TStruct (str "BaseURLType"))));
  mkfd (str "ExtendedBandwidths") false (str "ExtendedBandwidth") (TSlice (TPtr (TStruct (str "ExtendedBandwidthType"))));
  mkfd (str "SubRepresentations") false (str "SubRepresentation") (TSlice (TPtr (TStruct (str "SubRepresentationType"))));
  mkfd (str "RequestParam") false (str "RequestParam") (TSlice (TPtr (TStruct (str "ExtendedUrlInfoType"))));
  mkfd (str "SegmentBase") false (str "SegmentBase") (TPtr (TStruct (str "SegmentBaseType")));
  mkfd (str "SegmentList") false (str "SegmentList") (TPtr (TStruct (str "SegmentListType")));
  mkfd (str "SegmentTemplate") false (str "SegmentTemplate") (TPtr (TStruct (str "SegmentTemplateType")));
  mkfd (str "parent") false (str "-") (TPtr (TStruct (str "AdaptationSetType")))].
(** mpd/mpd.go:486-490 *)
Definition T_ExtendedBandwidthType : sdecl := mksd (str "ExtendedBandwidthType") [
  mkfd (str "XMLName") false (str "ExtendedBandwidth") (TName);
  mkfd (str "Vbr") false (str "vbr,attr,omitempty") (TBool);
  mkfd (str "ModelPairs") false (str "ModelPair") (TSlice (TPtr (TStruct (str "ModelPairType"))))].
(** mpd/mpd.go:493-497 *)
Definition T_ModelPairType : sdecl := mksd (str "ModelPairType") [
  mkfd (str "XMLName") false (str "ModelPair") (TName);
  mkfd (str "BufferTime") false (str "bufferTime,attr") (TPtr (TDuration));
  mkfd (str "Bandwidth") false (str "bandwidth,attr") (TUint 32)].
(** mpd/mpd.go:500-508 *)
Definition T_SubRepresentationType : sdecl := mksd (str "SubRepresentationType") [
  mkfd (str "XMLName") false (str "SubRepresentation") (TName);
  mkfd (str "Level") false (str "level,attr,omitempty") (TPtr (TUint 32));
  mkfd (str "DependencyLevel") false (str "dependencyLevel,attr,omitempty") (TPtr (TString));
  mkfd (str "Bandwidth") false (str "bandwidth,attr,omitempty") (TUint 32);
  mkfd (str "ContentComponent") false (str "contentComponent,attr,omitempty") (TPtr (TString));
  mkfd (str "RepresentationBaseType") true (str "") (TStruct (str "RepresentationBaseType"));
  mkfd (str "parent") false (str "-") (TPtr (TStruct (str "RepresentationType")))].
(** mpd/mpd.go:519-556 *)
Definition T_RepresentationBaseType : sdecl := mksd (str "RepresentationBaseType") [
  mkfd (str "Profiles") false (str "profiles,attr,omitempty") (TString);
  mkfd (str "Width") false (str "width,attr,omitempty") (TUint 32);
  mkfd (str "Height") false (str "height,attr,omitempty") (TUint 32);
  mkfd (str "Sar") false (str "sar,attr,omitempty") (TString);
  mkfd (str "FrameRate") false (str "frameRate,attr,omitempty") (TString);
  mkfd (str "AudioSamplingRate") false (str "audioSamplingRate,attr,omitempty") (TPtr (TString));
  mkfd (str "MimeType") false (str "mimeType,attr,omitempty") (TString);
  mkfd (str "SegmentProfiles") false (str "segmentProfiles,attr,omitempty") (TPtr (TString));
  mkfd (str "Codecs") false (str "codecs,attr,omitempty") (TString);
  mkfd (str "ContainerProfiles") false (str "containerProfiles,attr,omitempty") (TPtr (TString));
  mkfd (str "MaximumSAPPeriod") false (str "maximumSAPPeriod,attr,omitempty") (TFloat 64);
  mkfd (str "StartWithSAP") false (str "startWithSAP,attr,omitempty") (TUint 32);
  mkfd (str "MaxPlayoutRate") false (str "maxPlayoutRate,attr,omitempty") (TFloat 64);
  mkfd (str "CodingDependency") false (str "codingDependency,attr,omitempty") (TPtr (TBool));
  mkfd (str "ScanType") false (str "scanType,attr,omitempty") (TString);
  mkfd (str "SelectionPriority") false (str "selectionPriority,attr") (TPtr (TUint 32));
  mkfd (str "Tag") false (str "tag,attr,omitempty") (TString);
  mkfd (str "SCTE214SupplementalProfiles") false (str "urn:scte:dash:scte214-extensions scte214:supplementalProfiles,attr,omitempty") (TString);
  mkfd (str "SCTE214SupplementalCodecs") false (str "urn:scte:dash:scte214-extensions scte214:supplementalCodecs,attr,omitempty") (TString);
  mkfd (str "FramePackings") false (str "FramePacking") (TSlice (TPtr (TStruct (str "DescriptorType"))));
  mkfd (str "AudioChannelConfigurations") false (str "AudioChannelConfiguration") (TSlice (TPtr (TStruct (str "DescriptorType"))));
  mkfd (str "ContentProtections") false (str "ContentProtection") (TSlice (TPtr (TStruct (str "ContentProtectionType"))));
  mkfd (str "OutputProtection") false (str "OutputProtection") (TPtr (TStruct (str "DescriptorType")));
  mkfd (str "EssentialProperties") false (str "EssentialProperty") (TSlice (TPtr (TStruct (str "DescriptorType"))));
  mkfd (str "SupplementalProperties") false (str "SupplementalProperty") (TSlice (TPtr (TStruct (str "DescriptorType"))));
  mkfd (str "InbandEventStreams") false (str "InbandEventStream") (TSlice (TPtr (TStruct (str "EventStreamType"))));
  mkfd (str "Switchings") false (str "Switching") (TSlice (TPtr (TStruct (str "SwitchingType"))));
  mkfd (str "RandomAccesses") false (str "RandomAccess") (TSlice (TPtr (TStruct (str "RandomAccessType"))));
  mkfd (str "GroupLabels") false (str "GroupLabel") (TSlice (TPtr (TStruct (str "LabelType"))));
  mkfd (str "Labels") false (str "Label") (TSlice (TPtr (TStruct (str "LabelType"))));
  mkfd (str "ProducerReferenceTimes") false (str "ProducerReferenceTime") (TSlice (TPtr (TStruct (str "ProducerReferenceTimeType"))));
  mkfd (str "ContentPopularityRates") false (str "ContentPopularityRate") (TSlice (TPtr (TStruct (str "ContentPopularityRateType"))));
  mkfd (str "Resyncs") false (str "Resync") (TSlice (TPtr (TStruct (str "ResyncType"))));
  mkfd (str "SegmentSequenceProperties") false (str "SegmentSequenceProperties") (TSlice (TPtr (TStruct (str "SegmentSequencePropertiesType"))))].
(** mpd/mpd.go:627-646 *)
Definition T_ContentProtectionType : sdecl := mksd (str "ContentProtectionType") [
  mkfd (str "XMLName") false (str "ContentProtection") (TName);
  mkfd (str "Robustness") false (str "robustness,attr,omitempty") (TString);
  mkfd (str "RefId") false (str "refId,attr,omitempty") (TString);
  mkfd (str "Ref") false (str "ref,attr,omitempty") (TString);
  mkfd (str "DefaultKID") false (str "urn:mpeg:cenc:2013 cenc:default_KID,attr,omitempty") (TString);
  mkfd (str "Pssh") false (str "urn:mpeg:cenc:2013 cenc:pssh,omitempty") (TPtr (TStruct (str "PsshType")));
  mkfd (str "MSPro") false (str "urn:microsoft:playready mspr:pro,omitempty") (TPtr (TStruct (str "MSProType")));
  mkfd (str "LaURL") false (str "https://dashif.org/CPS dashif:Laurl,omitempty") (TPtr (TStruct (str "LaURLType")));
  mkfd (str "AuthzURL") false (str "https://dashif.org/CPS dashif:Authzurl,omitempty") (TPtr (TStruct (str "AuthzURLType")));
  mkfd (str "Certurls") false (str "https://dashif.org/CPS dashif:Certurl,omitempty") (TSlice (TStruct (str "CerturlType")));
  mkfd (str "MarlinContentIds") false (str "urn:marlin:mas:1-0:services:schemas:mpd mas:MarlinContentIds,omitempty") (TPtr (TStruct (str "MarlinContentIds")));
  mkfd (str "DescriptorType") true (str "") (TStruct (str "DescriptorType"))].
(** mpd/mpd.go:649-651 *)
Definition T_PsshType : sdecl := mksd (str "PsshType") [
  mkfd (str "Value") false (str ",chardata") (TString)].
(** mpd/mpd.go:654-656 *)
Definition T_MSProType : sdecl := mksd (str "MSProType") [
  mkfd (str "Value") false (str ",chardata") (TString)].
(** mpd/mpd.go:659-662 *)
Definition T_LaURLType : sdecl := mksd (str "LaURLType") [
  mkfd (str "LicenseType") false (str "licenseType,attr,omitempty") (TString);
  mkfd (str "Value") false (str ",chardata") (TString)].
(** mpd/mpd.go:665-668 *)
Definition T_AuthzURLType : sdecl := mksd (str "AuthzURLType") [
  mkfd (str "AuthzType") false (str "authzType,attr,omitempty") (TString);
  mkfd (str "Value") false (str ",chardata") (TString)].
(** mpd/mpd.go:671-674 *)
Definition T_CerturlType : sdecl := mksd (str "CerturlType") [
  mkfd (str "CertType") false (str "certType,attr,omitempty") (TString);
  mkfd (str "Value") false (str ",chardata") (TString)].
(** mpd/mpd.go:677-679 *)
Definition T_MarlinContentIds : sdecl := mksd (str "MarlinContentIds") [
  mkfd (str "Cids") false (str "urn:marlin:mas:1-0:services:schemas:mpd mas:MarlinContentId") (TSlice (TPtr (TStruct (str "MarlinContentId"))))].
(** mpd/mpd.go:682-684 *)
Definition T_MarlinContentId : sdecl := mksd (str "MarlinContentId") [
  mkfd (str "Value") false (str ",chardata") (TString)].
(** mpd/mpd.go:687-694 *)
Definition T_ResyncType : sdecl := mksd (str "ResyncType") [
  mkfd (str "XMLName") false (str "Resync") (TName);
  mkfd (str "Type") false (str "type,attr") (TUint 32);
  mkfd (str "DT") false (str "dT,attr") (TPtr (TUint 32));
  mkfd (str "DImax") false (str "dImax,attr") (TPtr (TFloat 32));
  mkfd (str "DImin") false (str "dImin,attr") (TFloat 32);
  mkfd (str "Marker") false (str "marker,attr") (TBool)].
(** mpd/mpd.go:697-702 *)
Definition T_PR : sdecl := mksd (str "PR") [
  mkfd (str "XMLName") false (str "PR") (TName);
  mkfd (str "PopularityRate") false (str "popularityRate,attr") (TUint 32);
  mkfd (str "Start") false (str "start,attr") (TPtr (TUint 64));
  mkfd (str "R") false (str "r,attr,omitempty") (TInt 64)].
(** mpd/mpd.go:705-710 *)
Definition T_ContentPopularityRateType : sdecl := mksd (str "ContentPopularityRateType") [
  mkfd (str "XMLName") false (str "ContentPopularityRate") (TName);
  mkfd (str "Source") false (str "source,attr") (TString);
  mkfd (str "Sourcedescription") false (str "source_description,attr,omitempty") (TString);
  mkfd (str "PR") false (str "PR") (TSlice (TPtr (TStruct (str "PR"))))].
(** mpd/mpd.go:713-718 *)
Definition T_LabelType : sdecl := mksd (str "LabelType") [
  mkfd (str "XMLName") false (str "Label") (TName);
  mkfd (str "Id") false (str "id,attr,omitempty") (TUint 32);
  mkfd (str "Lang") false (str "lang,attr,omitempty") (TString);
  mkfd (str "Value") false (str ",chardata") (TString)].
(** mpd/mpd.go:721-730 *)
Definition T_ProducerReferenceTimeType : sdecl := mksd (str "ProducerReferenceTimeType") [
  mkfd (str "XMLName") false (str "ProducerReferenceTime") (TName);
  mkfd (str "Id") false (str "id,attr") (TUint 32);
  mkfd (str "Inband") false (str "inband,attr,omitempty") (TBool);
  mkfd (str "Type") false (str "type,attr,omitempty") (TString);
  mkfd (str "ApplicationScheme") false (str "applicationScheme,attr,omitempty") (TString);
  mkfd (str "WallClockTime") false (str "wallClockTime,attr") (TString);
  mkfd (str "PresentationTime") false (str "presentationTime,attr") (TUint 64);
  mkfd (str "UTCTiming") false (str "UTCTiming") (TPtr (TStruct (str "DescriptorType")))].
(** mpd/mpd.go:733-744 *)
Definition T_PreselectionType : sdecl := mksd (str "PreselectionType") [
  mkfd (str "XMLName") false (str "Preselection") (TName);
  mkfd (str "Id") false (str "id,attr,omitempty") (TString);
  mkfd (str "PreselectionComponents") false (str "preselectionComponents,attr") (TPtr (TString));
  mkfd (str "Lang") false (str "lang,attr,omitempty") (TString);
  mkfd (str "Order") false (str "order,attr,omitempty") (TString);
  mkfd (str "Accessibilities") false (str "Accessibility") (TSlice (TPtr (TStruct (str "DescriptorType"))));
  mkfd (str "Roles") false (str "Role") (TSlice (TPtr (TStruct (str "DescriptorType"))));
  mkfd (str "Ratings") false (str "Rating") (TSlice (TPtr (TStruct (str "DescriptorType"))));
  mkfd (str "Viewpoints") false (str "Viewpoint") (TSlice (TPtr (TStruct (str "DescriptorType"))));
  mkfd (str "RepresentationBaseType") true (str "") (TStruct (str "RepresentationBaseType"))].
(** mpd/mpd.go:750-754 *)
Definition T_SubsetType : sdecl := mksd (str "SubsetType") [
  mkfd (str "XMLName") false (str "Subset") (TName);
  mkfd (str "Contains") false (str "contains,attr") (TPtr (TString));
  mkfd (str "Id") false (str "id,attr,omitempty") (TString)].
(** mpd/mpd.go:757-761 *)
Definition T_SwitchingType : sdecl := mksd (str "SwitchingType") [
  mkfd (str "XMLName") false (str "Switching") (TName);
  mkfd (str "Interval") false (str "interval") (TUint 32);
  mkfd (str "Type") false (str "type,attr,omitempty") (TString)].
(** mpd/mpd.go:767-773 *)
Definition T_RandomAccessType : sdecl := mksd (str "RandomAccessType") [
  mkfd (str "XMLName") false (str "RandomAccess") (TName);
  mkfd (str "Interval") false (str "interval,attr") (TUint 32);
  mkfd (str "Type") false (str "type,attr,omitempty") (TString);
  mkfd (str "MinBufferTime") false (str "minBufferTime,attr") (TPtr (TDuration));
  mkfd (str "Bandwidth") false (str "bandwidth,attr,omitempty") (TUint 32)].
(** mpd/mpd.go:779-793 *)
Definition T_SegmentBaseType : sdecl := mksd (str "SegmentBaseType") [
  mkfd (str "Timescale") false (str "timescale,attr") (TPtr (TUint 32));
  mkfd (str "EptDelta") false (str "eptDelta,attr") (TPtr (TInt 64));
  mkfd (str "PdDelta") false (str "pdDelta,attr") (TPtr (TInt 64));
  mkfd (str "PresentationTimeOffset") false (str "presentationTimeOffset,attr,omitempty") (TPtr (TUint 64));
  mkfd (str "PresentationDuration") false (str "presentationDuration,attr,omitempty") (TPtr (TUint 64));
  mkfd (str "TimeShiftBufferDepth") false (str "timeShiftBufferDepth,attr,omitempty") (TDuration);
  mkfd (str "IndexRange") false (str "indexRange,attr,omitempty") (TString);
  mkfd (str "IndexRangeExact") false (str "indexRangeExact,attr,omitempty") (TBool);
  mkfd (str "AvailabilityTimeOffset") false (str "availabilityTimeOffset,attr,omitempty") (TFloatInf);
  mkfd (str "AvailabilityTimeComplete") false (str "availabilityTimeComplete,attr") (TPtr (TBool));
  mkfd (str "Initialization") false (str "Initialization") (TPtr (TStruct (str "URLType")));
  mkfd (str "RepresentationIndex") false (str "RepresentationIndex") (TPtr (TStruct (str "URLType")));
  mkfd (str "FailoverContent") false (str "FailoverContent") (TPtr (TStruct (str "FailoverContentType")))].
(** mpd/mpd.go:812-822 *)
Definition T_MultipleSegmentBaseType : sdecl := mksd (str "MultipleSegmentBaseType") [
  mkfd (str "Duration") false (str "duration,attr,omitempty") (TPtr (TUint 32));
  mkfd (str "Tolerance") false (str "tolerance,attr,omitempty") (TPtr (TFloat 64));
  mkfd (str "StartNumber") false (str "startNumber,attr,omitempty") (TPtr (TUint 32));
  mkfd (str "EndNumber") false (str "endNumber,attr,omitempty") (TPtr (TUint 32));
  mkfd (str "EndSubNumber") false (str "endSubNumber,attr,omitempty") (TPtr (TUint 64));
  mkfd (str "K") false (str "k,attr,omitempty") (TPtr (TUint 64));
  mkfd (str "SegmentTimeline") false (str "SegmentTimeline") (TPtr (TStruct (str "SegmentTimelineType")));
  mkfd (str "BitstreamSwitching") false (str "BitstreamSwitching") (TPtr (TStruct (str "URLType")));
  mkfd (str "SegmentBaseType") true (str "") (TStruct (str "SegmentBaseType"))].
(** mpd/mpd.go:825-828 *)
Definition T_URLType : sdecl := mksd (str "URLType") [
  mkfd (str "SourceURL") false (str "sourceURL,attr,omitempty") (TString);
  mkfd (str "Range") false (str "range,attr,omitempty") (TString)].
(** mpd/mpd.go:831-834 *)
Definition T_FCS : sdecl := mksd (str "FCS") [
  mkfd (str "T") false (str "t,attr") (TUint 64);
  mkfd (str "D") false (str "d,attr,omitempty") (TUint 64)].
(** mpd/mpd.go:837-840 *)
Definition T_FailoverContentType : sdecl := mksd (str "FailoverContentType") [
  mkfd (str "Valid") false (str "valid,attr") (TPtr (TBool));
  mkfd (str "FCS") false (str "FCS") (TSlice (TPtr (TStruct (str "FCS"))))].
(** mpd/mpd.go:843-850 *)
Definition T_SegmentListType : sdecl := mksd (str "SegmentListType") [
  mkfd (str "XlinkHref") false (str "http://www.w3.org/1999/xlink xlink:href,attr,omitempty") (TString);
  mkfd (str "XlinkActuate") false (str "http://www.w3.org/1999/xlink xlink:actuate,attr,omitempty") (TString);
  mkfd (str "XlinkType") false (str "http://www.w3.org/1999/xlink xlink:type,attr,omitempty") (TString);
  mkfd (str "XlinkShow") false (str "xlink:show,attr,omitempty") (TString);
  mkfd (str "SegmentURL") false (str "SegmentURL") (TSlice (TPtr (TStruct (str "SegmentURLType"))));
  mkfd (str "MultipleSegmentBaseType") true (str "") (TStruct (str "MultipleSegmentBaseType"))].
(** mpd/mpd.go:853-858 *)
Definition T_SegmentURLType : sdecl := mksd (str "SegmentURLType") [
  mkfd (str "Media") false (str "media,attr,omitempty") (TString);
  mkfd (str "MediaRange") false (str "mediaRange,attr,omitempty") (TString);
  mkfd (str "Index") false (str "index,attr,omitempty") (TString);
  mkfd (str "IndexRange") false (str "indexRange,attr,omitempty") (TString)].
(** mpd/mpd.go:861-867 *)
Definition T_SegmentTemplateType : sdecl := mksd (str "SegmentTemplateType") [
  mkfd (str "Media") false (str "media,attr,omitempty") (TString);
  mkfd (str "Index") false (str "index,attr,omitempty") (TString);
  mkfd (str "Initialization") false (str "initialization,attr,omitempty") (TString);
  mkfd (str "BitstreamSwitching") false (str "bitstreamSwitching,attr,omitempty") (TString);
  mkfd (str "MultipleSegmentBaseType") true (str "") (TStruct (str "MultipleSegmentBaseType"))].
(** mpd/mpd.go:871-873 *)
Definition T_CommonSegmentSequenceAttributes : sdecl := mksd (str "CommonSegmentSequenceAttributes") [
  mkfd (str "K") false (str "k,attr,omitempty") (TPtr (TUint 64))].
(** mpd/mpd.go:877-880 *)
Definition T_CommonDurationPatternAttributes : sdecl := mksd (str "CommonDurationPatternAttributes") [
  mkfd (str "P") false (str "p,attr,omitempty") (TPtr (TUint 32));
  mkfd (str "PE") false (str "pE,attr,omitempty") (TPtr (TUint 32))].
(** mpd/mpd.go:883-885 *)
Definition T_CommonSegmentSequenceDurationPatternAttributes : sdecl := mksd (str "CommonSegmentSequenceDurationPatternAttributes") [
  mkfd (str "Ssp") false (str "ssp,attr,omitempty") (TPtr (TUint 32))].
(** mpd/mpd.go:888-893 *)
Definition T_RunLengthType : sdecl := mksd (str "RunLengthType") [
  mkfd (str "D") false (str "d,attr") (TUint 64);
  mkfd (str "R") false (str "r,attr,omitempty") (TUint 32);
  mkfd (str "CommonSegmentSequenceAttributes") true (str "") (TStruct (str "CommonSegmentSequenceAttributes"));
  mkfd (str "CommonSegmentSequenceDurationPatternAttributes") true (str "") (TStruct (str "CommonSegmentSequenceDurationPatternAttributes"))].
(** mpd/mpd.go:896-899 *)
Definition T_PatternType : sdecl := mksd (str "PatternType") [
  mkfd (str "Id") false (str "id,attr") (TUint 64);
  mkfd (str "P") false (str "P") (TSlice (TPtr (TStruct (str "RunLengthType"))))].
(** mpd/mpd.go:903-916 *)
Definition T_S : sdecl := mksd (str "S") [
  mkfd (str "T") false (str "t,attr") (TPtr (TUint 64));
  mkfd (str "N") false (str "n,attr") (TPtr (TUint 64));
  mkfd (str "D") false (str "d,attr,omitempty") (TUint 64);
  mkfd (str "R") false (str "r,attr,omitempty") (TInt 64);
  mkfd (str "CommonSegmentSequenceAttributes") true (str "") (TStruct (str "CommonSegmentSequenceAttributes"));
  mkfd (str "CommonDurationPatternAttributes") true (str "") (TStruct (str "CommonDurationPatternAttributes"));
  mkfd (str "CommonSegmentSequenceDurationPatternAttributes") true (str "") (TStruct (str "CommonSegmentSequenceDurationPatternAttributes"))].
(** mpd/mpd.go:919-922 *)
Definition T_SegmentTimelineType : sdecl := mksd (str "SegmentTimelineType") [
  mkfd (str "Pattern") false (str "Pattern") (TSlice (TPtr (TStruct (str "PatternType"))));
  mkfd (str "S") false (str "S") (TSlice (TPtr (TStruct (str "S"))))].
(** mpd/mpd.go:925-933 *)
Definition T_BaseURLType : sdecl := mksd (str "BaseURLType") [
  mkfd (str "ServiceLocation") false (str "serviceLocation,attr,omitempty") (TString);
  mkfd (str "ByteRange") false (str "byteRange,attr,omitempty") (TString);
  mkfd (str "AvailabilityTimeOffset") false (str "availabilityTimeOffset,attr,omitempty") (TFloatInf);
  mkfd (str "AvailabilityTimeComplete") false (str "availabilityTimeComplete,attr") (TPtr (TBool));
  mkfd (str "TimeShiftBufferDepth") false (str "timeShiftBufferDepth,attr") (TPtr (TDuration));
  mkfd (str "RangeAccess") false (str "rangeAccess,attr,omitempty") (TBool);
  mkfd (str "Value") false (str ",chardata") (TString)].
(** mpd/mpd.go:943-949 *)
Definition T_ProgramInformationType : sdecl := mksd (str "ProgramInformationType") [
  mkfd (str "Lang") false (str "lang,attr,omitempty") (TString);
  mkfd (str "MoreInformationURL") false (str "moreInformationURL,attr,omitempty") (TString);
  mkfd (str "Title") false (str "Title,omitempty") (TString);
  mkfd (str "Source") false (str "Source,omitempty") (TString);
  mkfd (str "Copyright") false (str "Copyright,omitempty") (TString)].
(** mpd/mpd.go:952-960 *)
Definition T_DescriptorType : sdecl := mksd (str "DescriptorType") [
  mkfd (str "SchemeIdUri") false (str "schemeIdUri,attr,omitempty") (TString);
  mkfd (str "Value") false (str "value,attr,omitempty") (TString);
  mkfd (str "Id") false (str "id,attr,omitempty") (TString);
  mkfd (str "UrlQueryInfo") false (str "urn:mpeg:dash:schema:urlparam:2014 up:UrlQueryInfo,omitempty") (TPtr (TStruct (str "UrlQueryInfoType")));
  mkfd (str "ExtUrlQueryInfo") false (str "urn:mpeg:dash:schema:urlparam:2016 up:ExtUrlQueryInfo,omitempty") (TPtr (TStruct (str "ExtendedUrlInfoType")));
  mkfd (str "SCTE214ContentIdentifiers") false (str "urn:scte:dash:scte214-extensions scte214:ContentIdentifier") (TSlice (TPtr (TStruct (str "SCTE214ContentIdentifierType"))))].
(** mpd/mpd.go:976-980 *)
Definition T_MetricsType : sdecl := mksd (str "MetricsType") [
  mkfd (str "Metrics") false (str "metrics,attr") (TString);
  mkfd (str "Ranges") false (str "Range") (TSlice (TPtr (TStruct (str "RangeType"))));
  mkfd (str "Reportings") false (str "Reporting") (TSlice (TPtr (TStruct (str "DescriptorType"))))].
(** mpd/mpd.go:983-986 *)
Definition T_RangeType : sdecl := mksd (str "RangeType") [
  mkfd (str "Starttime") false (str "starttime,attr") (TPtr (TDuration));
  mkfd (str "Duration") false (str "duration,attr") (TPtr (TDuration))].
(** mpd/mpd.go:989-993 *)
Definition T_LeapSecondInformationType : sdecl := mksd (str "LeapSecondInformationType") [
  mkfd (str "AvailabilityStartLeapOffset") false (str "availabilityStartLeapOffset,attr") (TInt 64);
  mkfd (str "NextAvailabilityStartLeapOffset") false (str "nextAvailabilityStartLeapOffset,attr,omitempty") (TInt 64);
  mkfd (str "NextLeapChangeTime") false (str "nextLeapChangeTime,attr,omitempty") (TString)].
(** mpd/mpd.go:999-1004 *)
Definition T_ContentSteeringType : sdecl := mksd (str "ContentSteeringType") [
  mkfd (str "DefaultServiceLocation") false (str "defaultServiceLocation,attr,omitempty") (TString);
  mkfd (str "QueryBeforeStart") false (str "queryBeforeStart,attr,omitempty") (TBool);
  mkfd (str "ClientRequirement") false (str "clientRequirement,attr,omitempty") (TBool);
  mkfd (str "Value") false (str ",chardata") (TString)].
(** mpd/mpd.go:1007-1014 *)
Definition T_CMCDParameterType : sdecl := mksd (str "CMCDParameterType") [
  mkfd (str "Version") false (str "version,attr,omitempty") (TUint 32);
  mkfd (str "Mode") false (str "mode,attr,omitempty") (TString);
  mkfd (str "IncludeInRequests") false (str "includeInRequests,attr,omitempty") (TPtr (TSlice (TString)));
  mkfd (str "Keys") false (str "keys,attr") (TPtr (TSlice (TString)));
  mkfd (str "ContentID") false (str "contentID,attr,omitempty") (TString);
  mkfd (str "SessionID") false (str "sessionID,attr,omitempty") (TString)].
(** mpd/mpd.go:1017-1019 *)
Definition T_SupVideoInfoType : sdecl := mksd (str "SupVideoInfoType") [
  mkfd (str "ProcessingInfo") false (str "processingInfo,attr,omitempty") (TString)].
(** mpd/mpd.go:1022-1027 *)
Definition T_SegmentSequencePropertiesType : sdecl := mksd (str "SegmentSequencePropertiesType") [
  mkfd (str "SapType") false (str "sapType,attr") (TUint 32);
  mkfd (str "Cadence") false (str "cadence,attr,omitempty") (TUint 32);
  mkfd (str "Event") false (str "event,attr,omitempty") (TBool);
  mkfd (str "Alignment") false (str "alignment,attr,omitempty") (TString)].
(** mpd/mpd.go:1030-1035 *)
Definition T_ClientDataReportingType : sdecl := mksd (str "ClientDataReportingType") [
  mkfd (str "SchemeIdUri") false (str "schemeIdUri,attr") (TString);
  mkfd (str "ServiceLocations") false (str "serviceLocations,attr,omitempty") (TPtr (TString));
  mkfd (str "AdaptationSets") false (str "adaptationSets,attr,omitempty") (TPtr (TString));
  mkfd (str "CMCDParameters") false (str "CMCDParameters") (TSlice (TPtr (TStruct (str "CMCDParameterType"))))].
(** mpd/mpd.go:1038-1046 *)
Definition T_AlternativeMPDEventType : sdecl := mksd (str "AlternativeMPDEventType") [
  mkfd (str "Uri") false (str "uri,attr") (TString);
  mkfd (str "EarliestResolutionTimeOffset") false (str "earliestResolutionTimeOffset,attr,omitempty") (TFloatInf);
  mkfd (str "MaxDuration") false (str "maxDuration,attr,omitempty") (TUint 64);
  mkfd (str "ExecuteOnce") false (str "executeOnce,attr,omitempty") (TBool);
  mkfd (str "NoJump") false (str "noJump,attr,omitempty") (TInt 32);
  mkfd (str "SkipAfter") false (str "skipAfter,attr,omitempty") (TDuration);
  mkfd (str "SupplementalProperty") false (str "SupplementalProperty") (TSlice (TPtr (TStruct (str "DescriptorType"))))].
(** mpd/mpd.go:1049-1054 *)
Definition T_AlternativeMPDReplaceEventType : sdecl := mksd (str "AlternativeMPDReplaceEventType") [
  mkfd (str "ReturnOffset") false (str "returnOffset,attr,omitempty") (TUint 64);
  mkfd (str "Clip") false (str "clip,attr") (TPtr (TBool));
  mkfd (str "StartWithOffset") false (str "startWithOffset,attr,omitempty") (TBool);
  mkfd (str "AlternativeMPDEventType") true (str "") (TPtr (TStruct (str "AlternativeMPDEventType")))].
(** mpd/scte214.go:93-97 *)
Definition T_SCTE214ContentIdentifierType : sdecl := mksd (str "SCTE214ContentIdentifierType") [
  mkfd (str "Type") false (str "type,attr") (TString);
  mkfd (str "Value") false (str "value,attr") (TString);
  mkfd (str "AnyAttrs") false (str ",any,attr") (TSlice (TAttr))].
(** mpd/scte35.go:145-149 *)
Definition T_SignalType : sdecl := mksd (str "SignalType") [
  mkfd (str "XMLName") false (str "") (TName);
  mkfd (str "SpliceInfoSection") false (str "SpliceInfoSection,omitempty") (TPtr (TStruct (str "SpliceInfoSectionType")));
  mkfd (str "Binary") false (str "Binary,omitempty") (TPtr (TStruct (str "BinaryType")))].
(** mpd/scte35.go:158-180 *)
Definition T_SpliceInfoSectionType : sdecl := mksd (str "SpliceInfoSectionType") [
  mkfd (str "XMLName") false (str "") (TName);
  mkfd (str "SapType") false (str "sapType,attr,omitempty") (TPtr (TUint 8));
  mkfd (str "PreRollMilliSeconds") false (str "preRollMilliSeconds,attr,omitempty") (TUint 32);
  mkfd (str "PtsAdjustment") false (str "ptsAdjustment,attr,omitempty") (TUint 64);
  mkfd (str "ProtocolVersion") false (str "protocolVersion,attr,omitempty") (TPtr (TUint 8));
  mkfd (str "Tier") false (str "tier,attr,omitempty") (TPtr (TUint 16));
  mkfd (str "AnyAttrs") false (str ",any,attr") (TSlice (TAttr));
  mkfd (str "Ext") false (str "Ext,omitempty") (TPtr (TStruct (str "ExtType")));
  mkfd (str "EncryptedPacket") false (str "EncryptedPacket,omitempty") (TPtr (TStruct (str "EncryptedPacketType")));
  mkfd (str "SpliceNull") false (str "SpliceNull,omitempty") (TPtr (TStruct (str "SpliceNullType")));
  mkfd (str "SpliceSchedule") false (str "SpliceSchedule,omitempty") (TPtr (TStruct (str "SpliceScheduleType")));
  mkfd (str "SpliceInsert") false (str "SpliceInsert,omitempty") (TPtr (TStruct (str "SpliceInsertType")));
  mkfd (str "TimeSignal") false (str "TimeSignal,omitempty") (TPtr (TStruct (str "TimeSignalType")));
  mkfd (str "BandwidthReservation") false (str "BandwidthReservation,omitempty") (TPtr (TStruct (str "BandwidthReservationType")));
  mkfd (str "PrivateCommand") false (str "PrivateCommand,omitempty") (TPtr (TStruct (str "PrivateCommandType")));
  mkfd (str "AvailDescriptors") false (str "AvailDescriptor") (TSlice (TPtr (TStruct (str "AvailDescriptorType"))));
  mkfd (str "DTMFDescriptors") false (str "DTMFDescriptor") (TSlice (TPtr (TStruct (str "DTMFDescriptorType"))));
  mkfd (str "SegmentationDescriptors") false (str "SegmentationDescriptor") (TSlice (TPtr (TStruct (str "SegmentationDescriptorType"))));
  mkfd (str "TimeDescriptors") false (str "TimeDescriptor") (TSlice (TPtr (TStruct (str "TimeDescriptorType"))));
  mkfd (str "AudioDescriptors") false (str "AudioDescriptor") (TSlice (TPtr (TStruct (str "AudioDescriptorType"))));
  mkfd (str "PrivateDescriptors") false (str "PrivateDescriptor") (TSlice (TPtr (TStruct (str "PrivateDescriptorType"))))].
(** mpd/scte35.go:185-189 *)
Definition T_BinaryType : sdecl := mksd (str "BinaryType") [
  mkfd (str "XMLName") false (str "") (TName);
  mkfd (str "SignalType") false (str "signalType,attr,omitempty") (TString);
  mkfd (str "Value") false (str ",chardata") (TString)].
(** mpd/scte35.go:193-199 *)
Definition T_EncryptedPacketType : sdecl := mksd (str "EncryptedPacketType") [
  mkfd (str "XMLName") false (str "") (TName);
  mkfd (str "EncryptionAlgorithm") false (str "encryptionAlgorithm,attr") (TUint 8);
  mkfd (str "CwIndex") false (str "cwIndex,attr") (TUint 8);
  mkfd (str "AnyAttrs") false (str ",any,attr") (TSlice (TAttr));
  mkfd (str "Ext") false (str "Ext,omitempty") (TPtr (TStruct (str "ExtType")))].
(** mpd/scte35.go:202-205 *)
Definition T_SpliceNullType : sdecl := mksd (str "SpliceNullType") [
  mkfd (str "XMLName") false (str "") (TName);
  mkfd (str "Ext") false (str "Ext,omitempty") (TPtr (TStruct (str "ExtType")))].
(** mpd/scte35.go:209-213 *)
Definition T_SpliceScheduleType : sdecl := mksd (str "SpliceScheduleType") [
  mkfd (str "XMLName") false (str "") (TName);
  mkfd (str "Ext") false (str "Ext,omitempty") (TPtr (TStruct (str "ExtType")));
  mkfd (str "Events") false (str "Event") (TSlice (TPtr (TStruct (str "SpliceScheduleEventType"))))].
(** mpd/scte35.go:217-231 *)
Definition T_SpliceScheduleEventType : sdecl := mksd (str "SpliceScheduleEventType") [
  mkfd (str "XMLName") false (str "") (TName);
  mkfd (str "SpliceEventId") false (str "spliceEventId,attr,omitempty") (TPtr (TUint 32));
  mkfd (str "EventIdComplianceFlag") false (str "eventIdComplianceFlag,attr,omitempty") (TPtr (TBool));
  mkfd (str "SpliceEventCancelIndicator") false (str "spliceEventCancelIndicator,attr,omitempty") (TPtr (TBool));
  mkfd (str "OutOfNetworkIndicator") false (str "outOfNetworkIndicator,attr,omitempty") (TPtr (TBool));
  mkfd (str "UniqueProgramId") false (str "uniqueProgramId,attr,omitempty") (TPtr (TUint 16));
  mkfd (str "AvailNum") false (str "availNum,attr,omitempty") (TPtr (TUint 8));
  mkfd (str "AvailsExpected") false (str "availsExpected,attr,omitempty") (TPtr (TUint 8));
  mkfd (str "AnyAttrs") false (str ",any,attr") (TSlice (TAttr));
  mkfd (str "Ext") false (str "Ext,omitempty") (TPtr (TStruct (str "ExtType")));
  mkfd (str "Program") false (str "Program,omitempty") (TPtr (TStruct (str "SpliceScheduleProgramType")));
  mkfd (str "Components") false (str "Component") (TSlice (TPtr (TStruct (str "SpliceScheduleComponentType"))));
  mkfd (str "BreakDuration") false (str "BreakDuration,omitempty") (TPtr (TStruct (str "BreakDurationType")))].
(** mpd/scte35.go:235-240 *)
Definition T_SpliceScheduleProgramType : sdecl := mksd (str "SpliceScheduleProgramType") [
  mkfd (str "XMLName") false (str "") (TName);
  mkfd (str "UtcSpliceTime") false (str "utcSpliceTime,attr") (TString);
  mkfd (str "AnyAttrs") false (str ",any,attr") (TSlice (TAttr));
  mkfd (str "Ext") false (str "Ext,omitempty") (TPtr (TStruct (str "ExtType")))].
(** mpd/scte35.go:244-250 *)
Definition T_SpliceScheduleComponentType : sdecl := mksd (str "SpliceScheduleComponentType") [
  mkfd (str "XMLName") false (str "") (TName);
  mkfd (str "ComponentTag") false (str "componentTag,attr") (TUint 8);
  mkfd (str "UtcSpliceTime") false (str "utcSpliceTime,attr") (TString);
  mkfd (str "AnyAttrs") false (str ",any,attr") (TSlice (TAttr));
  mkfd (str "Ext") false (str "Ext,omitempty") (TPtr (TStruct (str "ExtType")))].
(** mpd/scte35.go:254-268 *)
Definition T_SpliceInsertType : sdecl := mksd (str "SpliceInsertType") [
  mkfd (str "XMLName") false (str "") (TName);
  mkfd (str "SpliceEventId") false (str "spliceEventId,attr,omitempty") (TPtr (TUint 32));
  mkfd (str "SpliceEventCancelIndicator") false (str "spliceEventCancelIndicator,attr,omitempty") (TPtr (TBool));
  mkfd (str "OutOfNetworkIndicator") false (str "outOfNetworkIndicator,attr,omitempty") (TPtr (TBool));
  mkfd (str "SpliceImmediateFlag") false (str "spliceImmediateFlag,attr,omitempty") (TPtr (TBool));
  mkfd (str "EventIdComplianceFlag") false (str "eventIdComplianceFlag,attr,omitempty") (TPtr (TBool));
  mkfd (str "UniqueProgramId") false (str "uniqueProgramId,attr,omitempty") (TPtr (TUint 16));
  mkfd (str "AvailNum") false (str "availNum,attr,omitempty") (TPtr (TUint 8));
  mkfd (str "AvailsExpected") false (str "availsExpected,attr,omitempty") (TPtr (TUint 8));
  mkfd (str "Ext") false (str "Ext,omitempty") (TPtr (TStruct (str "ExtType")));
  mkfd (str "Program") false (str "Program,omitempty") (TPtr (TStruct (str "SpliceInsertProgramType")));
  mkfd (str "Components") false (str "Component") (TSlice (TPtr (TStruct (str "SpliceInsertComponentType"))));
  mkfd (str "BreakDuration") false (str "BreakDuration,omitempty") (TPtr (TStruct (str "BreakDurationType")))].
(** mpd/scte35.go:272-277 *)
Definition T_SpliceInsertProgramType : sdecl := mksd (str "SpliceInsertProgramType") [
  mkfd (str "XMLName") false (str "") (TName);
  mkfd (str "AnyAttrs") false (str ",any,attr") (TSlice (TAttr));
  mkfd (str "Ext") false (str "Ext,omitempty") (TPtr (TStruct (str "ExtType")));
  mkfd (str "SpliceTime") false (str "SpliceTime,omitempty") (TPtr (TStruct (str "SpliceTimeType")))].
(** mpd/scte35.go:281-287 *)
Definition T_SpliceInsertComponentType : sdecl := mksd (str "SpliceInsertComponentType") [
  mkfd (str "XMLName") false (str "") (TName);
  mkfd (str "ComponentTag") false (str "componentTag,attr") (TUint 8);
  mkfd (str "AnyAttrs") false (str ",any,attr") (TSlice (TAttr));
  mkfd (str "Ext") false (str "Ext,omitempty") (TPtr (TStruct (str "ExtType")));
  mkfd (str "SpliceTime") false (str "SpliceTime,omitempty") (TPtr (TStruct (str "SpliceTimeType")))].
(** mpd/scte35.go:290-294 *)
Definition T_TimeSignalType : sdecl := mksd (str "TimeSignalType") [
  mkfd (str "XMLName") false (str "") (TName);
  mkfd (str "Ext") false (str "Ext,omitempty") (TPtr (TStruct (str "ExtType")));
  mkfd (str "SpliceTime") false (str "SpliceTime") (TPtr (TStruct (str "SpliceTimeType")))].
(** mpd/scte35.go:298-301 *)
Definition T_BandwidthReservationType : sdecl := mksd (str "BandwidthReservationType") [
  mkfd (str "XMLName") false (str "") (TName);
  mkfd (str "Ext") false (str "Ext,omitempty") (TPtr (TStruct (str "ExtType")))].
(** mpd/scte35.go:305-310 *)
Definition T_PrivateCommandType : sdecl := mksd (str "PrivateCommandType") [
  mkfd (str "XMLName") false (str "") (TName);
  mkfd (str "Identifier") false (str "identifier,attr") (TUint 32);
  mkfd (str "Ext") false (str "Ext,omitempty") (TPtr (TStruct (str "ExtType")));
  mkfd (str "PrivateBytes") false (str "PrivateBytes,omitempty") (TString)].
(** mpd/scte35.go:315-320 *)
Definition T_SpliceTimeType : sdecl := mksd (str "SpliceTimeType") [
  mkfd (str "XMLName") false (str "") (TName);
  mkfd (str "PtsTime") false (str "ptsTime,attr,omitempty") (TPtr (TUint 64));
  mkfd (str "AnyAttrs") false (str ",any,attr") (TSlice (TAttr));
  mkfd (str "Ext") false (str "Ext,omitempty") (TPtr (TStruct (str "ExtType")))].
(** mpd/scte35.go:324-330 *)
Definition T_BreakDurationType : sdecl := mksd (str "BreakDurationType") [
  mkfd (str "XMLName") false (str "") (TName);
  mkfd (str "AutoReturn") false (str "autoReturn,attr") (TBool);
  mkfd (str "Duration") false (str "duration,attr") (TUint 64);
  mkfd (str "AnyAttrs") false (str ",any,attr") (TSlice (TAttr));
  mkfd (str "Ext") false (str "Ext,omitempty") (TPtr (TStruct (str "ExtType")))].
(** mpd/scte35.go:333-338 *)
Definition T_AvailDescriptorType : sdecl := mksd (str "AvailDescriptorType") [
  mkfd (str "XMLName") false (str "") (TName);
  mkfd (str "ProviderAvailId") false (str "providerAvailId,attr") (TUint 32);
  mkfd (str "AnyAttrs") false (str ",any,attr") (TSlice (TAttr));
  mkfd (str "Ext") false (str "Ext,omitempty") (TPtr (TStruct (str "ExtType")))].
(** mpd/scte35.go:341-347 *)
Definition T_DTMFDescriptorType : sdecl := mksd (str "DTMFDescriptorType") [
  mkfd (str "XMLName") false (str "") (TName);
  mkfd (str "Preroll") false (str "preroll,attr,omitempty") (TPtr (TUint 8));
  mkfd (str "Chars") false (str "chars,attr,omitempty") (TString);
  mkfd (str "AnyAttrs") false (str ",any,attr") (TSlice (TAttr));
  mkfd (str "Ext") false (str "Ext,omitempty") (TPtr (TStruct (str "ExtType")))].
(** mpd/scte35.go:353-375 *)
Definition T_SegmentationDescriptorType : sdecl := mksd (str "SegmentationDescriptorType") [
  mkfd (str "XMLName") false (str "") (TName);
  mkfd (str "SegmentationEventId") false (str "segmentationEventId,attr,omitempty") (TPtr (TUint 32));
  mkfd (str "SegmentationEventCancelIndicator") false (str "segmentationEventCancelIndicator,attr,omitempty") (TPtr (TBool));
  mkfd (str "SegmentationEventIdComplianceIndicator") false (str "segmentationEventIdComplianceIndicator,attr,omitempty") (TPtr (TBool));
  mkfd (str "SegmentationDuration") false (str "segmentationDuration,attr,omitempty") (TPtr (TUint 64));
  mkfd (str "SegmentationTypeId") false (str "segmentationTypeId,attr,omitempty") (TPtr (TUint 8));
  mkfd (str "SegmentNum") false (str "segmentNum,attr,omitempty") (TPtr (TUint 8));
  mkfd (str "SegmentsExpected") false (str "segmentsExpected,attr,omitempty") (TPtr (TUint 8));
  mkfd (str "SubSegmentNum") false (str "subSegmentNum,attr,omitempty") (TPtr (TUint 8));
  mkfd (str "SubSegmentsExpected") false (str "subSegmentsExpected,attr,omitempty") (TPtr (TUint 8));
  mkfd (str "AnyAttrs") false (str ",any,attr") (TSlice (TAttr));
  mkfd (str "Ext") false (str "Ext,omitempty") (TPtr (TStruct (str "ExtType")));
  mkfd (str "DeliveryRestrictions") false (str "DeliveryRestrictions,omitempty") (TPtr (TStruct (str "DeliveryRestrictionsType")));
  mkfd (str "SegmentationUpids") false (str "SegmentationUpid") (TSlice (TPtr (TStruct (str "SegmentationUpidType"))));
  mkfd (str "Components") false (str "Component") (TSlice (TPtr (TStruct (str "SegmentationDescriptorComponentType"))))].
(** mpd/scte35.go:379-387 *)
Definition T_DeliveryRestrictionsType : sdecl := mksd (str "DeliveryRestrictionsType") [
  mkfd (str "XMLName") false (str "") (TName);
  mkfd (str "WebDeliveryAllowedFlag") false (str "webDeliveryAllowedFlag,attr") (TBool);
  mkfd (str "NoRegionalBlackoutFlag") false (str "noRegionalBlackoutFlag,attr") (TBool);
  mkfd (str "ArchiveAllowedFlag") false (str "archiveAllowedFlag,attr") (TBool);
  mkfd (str "DeviceRestrictions") false (str "deviceRestrictions,attr") (TUint 8);
  mkfd (str "AnyAttrs") false (str ",any,attr") (TSlice (TAttr));
  mkfd (str "Ext") false (str "Ext,omitempty") (TPtr (TStruct (str "ExtType")))].
(** mpd/scte35.go:397-404 *)
Definition T_SegmentationUpidType : sdecl := mksd (str "SegmentationUpidType") [
  mkfd (str "XMLName") false (str "") (TName);
  mkfd (str "SegmentationUpidType") false (str "segmentationUpidType,attr,omitempty") (TPtr (TUint 8));
  mkfd (str "FormatIdentifier") false (str "formatIdentifier,attr,omitempty") (TPtr (TUint 32));
  mkfd (str "SegmentationUpidFormat") false (str "segmentationUpidFormat,attr,omitempty") (TString);
  mkfd (str "AnyAttrs") false (str ",any,attr") (TSlice (TAttr));
  mkfd (str "Value") false (str ",chardata") (TString)].
(** mpd/scte35.go:408-414 *)
Definition T_SegmentationDescriptorComponentType : sdecl := mksd (str "SegmentationDescriptorComponentType") [
  mkfd (str "XMLName") false (str "") (TName);
  mkfd (str "ComponentTag") false (str "componentTag,attr") (TUint 8);
  mkfd (str "PtsOffset") false (str "ptsOffset,attr") (TUint 64);
  mkfd (str "AnyAttrs") false (str ",any,attr") (TSlice (TAttr));
  mkfd (str "Ext") false (str "Ext,omitempty") (TPtr (TStruct (str "ExtType")))].
(** mpd/scte35.go:417-424 *)
Definition T_TimeDescriptorType : sdecl := mksd (str "TimeDescriptorType") [
  mkfd (str "XMLName") false (str "") (TName);
  mkfd (str "TaiSeconds") false (str "taiSeconds,attr,omitempty") (TPtr (TUint 64));
  mkfd (str "TaiNs") false (str "taiNs,attr,omitempty") (TPtr (TUint 32));
  mkfd (str "UtcOffset") false (str "utcOffset,attr,omitempty") (TPtr (TUint 16));
  mkfd (str "AnyAttrs") false (str ",any,attr") (TSlice (TAttr));
  mkfd (str "Ext") false (str "Ext,omitempty") (TPtr (TStruct (str "ExtType")))].
(** mpd/scte35.go:430-435 *)
Definition T_AudioDescriptorType : sdecl := mksd (str "AudioDescriptorType") [
  mkfd (str "XMLName") false (str "") (TName);
  mkfd (str "AnyAttrs") false (str ",any,attr") (TSlice (TAttr));
  mkfd (str "Ext") false (str "Ext,omitempty") (TPtr (TStruct (str "ExtType")));
  mkfd (str "AudioChannels") false (str "AudioChannel") (TSlice (TPtr (TStruct (str "AudioChannelType"))))].
(** mpd/scte35.go:440-449 *)
Definition T_AudioChannelType : sdecl := mksd (str "AudioChannelType") [
  mkfd (str "XMLName") false (str "") (TName);
  mkfd (str "ISOCode") false (str "ISOCode,attr") (TString);
  mkfd (str "BitStreamMode") false (str "BitStreamMode,attr") (TUint 8);
  mkfd (str "NumChannels") false (str "NumChannels,attr") (TUint 8);
  mkfd (str "FullSrvcAudio") false (str "FullSrvcAudio,attr") (TUint 8);
  mkfd (str "ComponentTag") false (str "componentTag,attr,omitempty") (TPtr (TUint 8));
  mkfd (str "AnyAttrs") false (str ",any,attr") (TSlice (TAttr));
  mkfd (str "Ext") false (str "Ext,omitempty") (TPtr (TStruct (str "ExtType")))].
(** mpd/scte35.go:453-460 *)
Definition T_PrivateDescriptorType : sdecl := mksd (str "PrivateDescriptorType") [
  mkfd (str "XMLName") false (str "") (TName);
  mkfd (str "DescriptorTag") false (str "descriptorTag,attr") (TUint 8);
  mkfd (str "Identifier") false (str "identifier,attr") (TUint 32);
  mkfd (str "AnyAttrs") false (str ",any,attr") (TSlice (TAttr));
  mkfd (str "Ext") false (str "Ext,omitempty") (TPtr (TStruct (str "ExtType")));
  mkfd (str "PrivateBytes") false (str "PrivateBytes,omitempty") (TString)].
(** mpd/scte35.go:467-471 *)
Definition T_ExtType : sdecl := mksd (str "ExtType") [
  mkfd (str "XMLName") false (str "") (TName);
  mkfd (str "AnyAttrs") false (str ",any,attr") (TSlice (TAttr));
  mkfd (str "InnerXML") false (str ",innerxml") (TString)].
(** mpd/up.go:11-19 *)
Definition T_UrlQueryInfoType : sdecl := mksd (str "UrlQueryInfoType") [
  mkfd (str "QueryTemplate") false (str "queryTemplate,attr,omitempty") (TString);
  mkfd (str "UseMPDUrlQuery") false (str "useMPDUrlQuery,attr,omitempty") (TBool);
  mkfd (str "QueryString") false (str "queryString,attr,omitempty") (TString);
  mkfd (str "XlinkHref") false (str "http://www.w3.org/1999/xlink xlink:href,attr,omitempty") (TString);
  mkfd (str "XlinkActuate") false (str "http://www.w3.org/1999/xlink xlink:actuate,attr,omitempty") (TString);
  mkfd (str "XlinkType") false (str "http://www.w3.org/1999/xlink xlink:type,attr,omitempty") (TString);
  mkfd (str "XlinkShow") false (str "http://www.w3.org/1999/xlink xlink:show,attr,omitempty") (TString)].
(** mpd/up.go:23-29 *)
Definition T_ExtendedUrlInfoType : sdecl := mksd (str "ExtendedUrlInfoType") [
  mkfd (str "UrlQueryInfoType") true (str "") (TStruct (str "UrlQueryInfoType"));
  mkfd (str "IncludeInRequests") false (str "includeInRequests,attr,omitempty") (TString);
  mkfd (str "HeaderParamSource") false (str "headerParamSource,attr,omitempty") (TString);
  mkfd (str "SameOriginPolicy") false (str "sameOriginPolicy,attr,omitempty") (TBool);
  mkfd (str "Header") false (str "header,attr,omitempty") (TString)].
(** All of them. *)
Definition mpd_types : tenv := [T_MPD; T_PatchLocationType; T_LocationType; T_Period; T_ImportedMpdType; T_EventStreamType; T_EventType; T_SelectionInfoType; T_SelectionType; T_InitializationSetType; T_ServiceDescriptionType; T_LatencyType; T_PlaybackRateType; T_OperatingQualityType; T_OperatingBandwidthType; T_PlaybackRestrictionsType; T_UIntPairsWithIDType; T_UIntVWithIDType; T_AdaptationSetType; T_ContentComponentType; T_RepresentationType; T_ExtendedBandwidthType; T_ModelPairType; T_SubRepresentationType; T_RepresentationBaseType; T_ContentProtectionType; T_PsshType; T_MSProType; T_LaURLType; T_AuthzURLType; T_CerturlType; T_MarlinContentIds; T_MarlinContentId; T_ResyncType; T_PR; T_ContentPopularityRateType; T_LabelType; T_ProducerReferenceTimeType; T_PreselectionType; T_SubsetType; T_SwitchingType; T_RandomAccessType; T_SegmentBaseType; T_MultipleSegmentBaseType; T_URLType; T_FCS; T_FailoverContentType; T_SegmentListType; T_SegmentURLType; T_SegmentTemplateType; T_CommonSegmentSequenceAttributes; T_CommonDurationPatternAttributes; T_CommonSegmentSequenceDurationPatternAttributes; T_RunLengthType; T_PatternType; T_S; T_SegmentTimelineType; T_BaseURLType; T_ProgramInformationType; T_DescriptorType; T_MetricsType; T_RangeType; T_LeapSecondInformationType; T_ContentSteeringType; T_CMCDParameterType; T_SupVideoInfoType; T_SegmentSequencePropertiesType; T_ClientDataReportingType; T_AlternativeMPDEventType; T_AlternativeMPDReplaceEventType; T_SCTE214ContentIdentifierType; T_SignalType; T_SpliceInfoSectionType; T_BinaryType; T_EncryptedPacketType; T_SpliceNullType; T_SpliceScheduleType; T_SpliceScheduleEventType; T_SpliceScheduleProgramType; T_SpliceScheduleComponentType; T_SpliceInsertType; T_SpliceInsertProgramType; T_SpliceInsertComponentType; T_TimeSignalType; T_BandwidthReservationType; T_PrivateCommandType; T_SpliceTimeType; T_BreakDurationType; T_AvailDescriptorType; T_DTMFDescriptorType; T_SegmentationDescriptorType; T_DeliveryRestrictionsType; T_SegmentationUpidType; T_SegmentationDescriptorComponentType; T_TimeDescriptorType; T_AudioDescriptorType; T_AudioChannelType; T_PrivateDescriptorType; T_ExtType; T_UrlQueryInfoType; T_ExtendedUrlInfoType].
