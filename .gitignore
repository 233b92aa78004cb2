rocq/*.vo
rocq/theories/*.vo
rocq/theories/*.vok
rocq/theories/*.vos
rocq/theories/*.glob
rocq/theories/.*.aux
rocq/.lia.cache
rocq/theories/.lia.cache
rocq/Makefile
rocq/Makefile.conf
rocq/.Makefile.d
.nra.cache
.lia.cache
