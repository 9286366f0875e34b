rocq/Makefile
rocq/Makefile.conf
rocq/.Makefile.d
